(* C108, C109: the Python objects. *)
From Verif Require Import Base BaseLemmas ModelInfo ModelJumper ModelEngine ModelApi ModelPython ModelObjects SpecApi SpecJumper SpecPython SpecObjects
  ProofsApi ProofsPython2.
From Coq Require Import Lia Arith.
Local Open Scope nat_scope.

Section Objects.
Context {F : Type}.
Variable zero : F.
Notation result := (result F).

(* ---- C108 ---- *)
Lemma set_gen_get l k x j : nth_error (set_gen l k x) j = if Nat.eqb j k then (match nth_error l k with Some _ => Some x | None => None end) else nth_error l j.
Proof.
  revert k j. induction l as [|y l IH]; intros [|k] [|j]; cbn; try reflexivity.
  - now destruct (Nat.eqb j k).
  - now rewrite IH.
Qed.
Lemma set_gen_length l k x : length (set_gen l k x) = length l.
Proof. revert k. induction l as [|y l IH]; intros [|k]; cbn; auto. Qed.
Lemma times_app k a b : times k (a ++ b) = times k a + times k b.
Proof. induction a as [|x a IH]; cbn; [reflexivity|]. rewrite IH. lia. Qed.
Lemma times_le k l : times k l <= length l.
Proof. induction l as [|x l IH]; cbn; [lia|]. destruct (Nat.eqb x k); lia. Qed.
Lemma times_all k l : (forall x, In x l -> x = k) -> times k l = length l.
Proof. induction l as [|x l IH]; cbn; intro H; [reflexivity|]. rewrite (H x), Nat.eqb_refl, IH; auto. Qed.

Section Iter.
Variable rs : list result.
Hypothesis fits : (lenN rs < two64)%N.

(* the generators that gave results so far, and what has been taken from the C iterator *)
Definition at_use (it : @py_iter F) (d : list nat) : Prop :=
  (forall i, i < length rs -> pi_shape it i <> None) /\
  (exists n, pi_source it = Some (after rs n) /\ Nat.min n (length rs) = length d) /\
  (forall k i, nth_error (pi_gens it) k = Some (Some i) -> i = times k d) /\
  (forall k, In k d -> k < length (pi_gens it)).

Lemma new_use it d : at_use it d -> at_use (gen_new it) d.
Proof.
  intros (A & B & C & D). repeat split; auto.
  - cbn. intros k i H. destruct (Nat.lt_ge_cases k (length (pi_gens it))) as [L|L].
    + rewrite nth_error_app1 in H by exact L. now apply C.
    + rewrite nth_error_app2 in H by exact L. destruct (k - length (pi_gens it)) as [|x] eqn:E; cbn in H; [|destruct x; discriminate].
      injection H as <-. symmetry. assert (N : ~ In k d) by (intro X; apply D in X; lia). clear -N.
      induction d as [|x d IH]; cbn; [reflexivity|]. destruct (Nat.eqb_spec x k) as [->|]; [exfalso; apply N; now left|]. apply IH. intro X. apply N. now right.
  - cbn. intros k H. rewrite app_length. apply D in H. lia.
Qed.

Lemma next_use it d k : at_use it d -> k < length (pi_gens it) ->
  exists x it', gen_next it k = Ok (x, it') /\ pi_shape it' = pi_shape it /\ length (pi_gens it') = length (pi_gens it) /\
    ((x = Stopped /\ at_use it' d) \/
     exists r s, x = Yielded r s /\ nth_error rs (length d) = Some r /\ pi_shape it (times k d) = Some s /\ at_use it' (d ++ [k])).
Proof.
  intros (A & (n & B & N) & C & D) L. unfold gen_next.
  destruct (nth_error (pi_gens it) k) as [[i|]|] eqn:E; [| |apply nth_error_None in E; lia].
  - rewrite B. cbn [c_next]. rewrite next_after by exact fits. cbn [obind].
    destruct (nth_error rs n) as [r|] eqn:R; cbn [obind].
    + assert (Ln : n < length rs) by (apply nth_error_Some; rewrite R; discriminate).
      pose proof (C _ _ E) as Ei. subst i. assert (Ld : length d = n) by lia.
      destruct (pi_shape it (times k d)) as [s|] eqn:Es.
      2:{ exfalso. apply (A (times k d)); [|exact Es]. pose proof (times_le k d). lia. }
      eexists _, _. split; [reflexivity|]. cbn [pi_shape pi_gens]. split; [reflexivity|]. split; [apply set_gen_length|].
      right. exists r, s. split; [reflexivity|]. split; [now rewrite Ld|]. split; [reflexivity|].
      repeat split; cbn [pi_shape pi_source pi_gens]; auto.
      * exists (S n). split; [reflexivity|]. rewrite app_length. cbn [length]. lia.
      * intros j i H. rewrite set_gen_get in H. rewrite times_app. cbn [times]. destruct (Nat.eqb_spec j k) as [->|NE].
        -- rewrite E in H. injection H as <-. rewrite Nat.eqb_refl. lia.
        -- destruct (Nat.eqb_spec k j); [congruence|]. rewrite (C _ _ H). lia.
      * intros j H. rewrite set_gen_length. apply in_app_or in H as [H|[<-|[]]]; auto.
    + assert (Ln : length rs <= n) by (now apply nth_error_None in R).
      eexists _, _. split; [reflexivity|]. cbn [pi_shape pi_gens]. split; [reflexivity|]. split; [apply set_gen_length|]. left.
      split; [reflexivity|]. repeat split; cbn [pi_shape pi_source pi_gens]; auto.
      * exists (S n). split; [reflexivity|lia].
      * intros j i0 H. rewrite set_gen_get in H. destruct (Nat.eqb_spec j k) as [->|NE]; [rewrite E in H; discriminate|now apply C].
      * intros j H. rewrite set_gen_length. auto.
  - eexists _, _. split; [reflexivity|]. split; [reflexivity|]. split; [reflexivity|]. left. split; [reflexivity|]. repeat split; eauto.
Qed.

Lemma use_ok l : forall it d, at_use it d -> proper (length (pi_gens it)) l ->
  exists xs it', use_iter it l = Ok (xs, it') /\ ~ raised xs /\
    map (fun y => fst (snd y)) (yields xs) = firstn (length (yields xs)) (skipn (length d) rs) /\
    forall m k r s, nth_error (yields xs) m = Some (k, (r, s)) ->
      pi_shape it (times k (d ++ firstn m (map fst (yields xs)))) = Some s.
Proof.
  induction l as [|u l IH]; intros it d A P.
  - eexists _, _. split; [reflexivity|]. cbn. split; [intros (k & e & [])|]. split; [reflexivity|]. intros [|m] k r s H; discriminate.
  - destruct u as [|k]; cbn [use_iter].
    + cbn in P. destruct (IH (gen_new it) d (new_use it d A)) as (xs & it' & E & X).
      { cbn. rewrite app_length. cbn. now rewrite Nat.add_1_r. }
      exists xs, it'. split; [exact E|exact X].
    + destruct P as [L P]. destruct (next_use it d k A L) as (x & it1 & E & Es & El & X). rewrite E. cbn [obind].
      destruct X as [[-> A1]|(r & s & -> & Hr & Hs & A1)].
      * destruct (IH it1 d A1) as (xs & it' & E' & NR & O & S); [now rewrite El|]. rewrite E'. cbn [obind].
        eexists _, it'. split; [reflexivity|]. cbn [yields flat_map snd app]. fold (yields xs). split; [|split; [exact O|]].
        -- intros (j & e & [H|H]); [discriminate|]. apply NR. exists j, e. exact H.
        -- rewrite Es in S. exact S.
      * destruct (IH it1 (d ++ [k]) A1) as (xs & it' & E' & NR & O & S); [now rewrite El|]. rewrite E'. cbn [obind].
        eexists _, it'. split; [reflexivity|]. cbn [yields flat_map snd fst app]. fold (yields xs). split; [|split].
        -- intros (j & e & [H|H]); [discriminate|]. apply NR. exists j, e. exact H.
        -- cbn [map fst snd length firstn]. rewrite O. rewrite app_length. cbn [length].
           assert (Sk : skipn (length d) rs = r :: skipn (length d + 1) rs).
           { clear -Hr. revert Hr. generalize (length d). induction rs as [|a l IH]; intros [|n] H; cbn in *; try discriminate; [now injection H as ->|]. now rewrite (IH n H). }
           rewrite Sk. reflexivity.
        -- intros [|m] j r' s' H; cbn [nth_error firstn map fst] in *.
           ++ injection H as <- <- <-. rewrite app_nil_r. exact Hs.
           ++ specialize (S _ _ _ _ H). rewrite Es, <- app_assoc in S. exact S.
Qed.

Lemma fresh_use shape : (forall i, i < length rs -> shape i <> None) -> at_use (mk_py_iter shape (Some (source_new (map Some rs))) []) [].
Proof.
  intro A. repeat split; cbn; auto; try tauto.
  - exists 0. split; [now rewrite after_0|reflexivity].
  - intros [|k] i H; discriminate.
Qed.
Lemma shapes_defined {A} (shapes : list A) n : length shapes = n -> forall i, i < n -> nth_error shapes i <> None.
Proof. intros E i L. apply nth_error_Some. lia. Qed.

(* all programs *)
Lemma any_use shapes l : length shapes = length rs -> proper 0 l ->
  exists xs it', use_iter (py_iter_new shapes (source_new (map Some rs))) l = Ok (xs, it') /\ ~ raised xs /\
    map (fun y => fst (snd y)) (yields xs) = firstn (length (yields xs)) rs /\
    forall m k r s, nth_error (yields xs) m = Some (k, (r, s)) ->
      nth_error shapes (times k (firstn m (map fst (yields xs)))) = Some s.
Proof.
  intros H P. exact (use_ok l _ [] (fresh_use _ (shapes_defined shapes _ H)) P).
Qed.
Lemma single_use shape l : proper 0 l ->
  exists xs it', use_iter (py_single_new shape (source_new (map Some rs))) l = Ok (xs, it') /\ ~ raised xs /\
    map (fun y => fst (snd y)) (yields xs) = firstn (length (yields xs)) rs /\
    forall y, In y (yields xs) -> snd (snd y) = shape.
Proof.
  intros P. destruct (use_ok l _ [] (fresh_use (fun _ => Some shape) ltac:(discriminate)) P) as (xs & it' & E & NR & O & S).
  exists xs, it'. split; [exact E|]. split; [exact NR|]. split; [exact O|].
  intros [k [r s]] H. apply In_nth_error in H as [m H]. apply S in H. cbn in H. now injection H as <-.
Qed.

Lemma nth_ext' {A} (a b : list A) : (forall m, nth_error a m = nth_error b m) -> a = b.
Proof.
  revert b. induction a as [|x a IH]; intros [|y b] H; auto; try (specialize (H 0); discriminate).
  pose proof (H 0) as H0. cbn in H0. injection H0 as ->. f_equal. apply IH. intro m. exact (H (S m)).
Qed.
Lemma nth_combine {A B} (a : list A) (b : list B) m : nth_error (combine a b) m =
  match nth_error a m, nth_error b m with Some x, Some y => Some (x, y) | _, _ => None end.
Proof.
  revert b m. induction a as [|x a IH]; intros [|y b] [|m]; cbn; auto.
  - now destruct (nth_error a m).
Qed.

Lemma one_generator shapes l k xs it' : length shapes = length rs -> proper 0 l ->
  use_iter (py_iter_new shapes (source_new (map Some rs))) l = Ok (xs, it') ->
  (forall y, In y (yields xs) -> fst y = k) ->
  map snd (yields xs) = firstn (length (yields xs)) (combine rs shapes).
Proof.
  intros H P E K. destruct (any_use shapes l H P) as (xs' & it'' & E' & _ & O & S). rewrite E in E'. injection E' as <- <-.
  apply nth_ext'. intro m. rewrite nth_error_map.
  destruct (nth_error (yields xs) m) as [[j [r s]]|] eqn:Y; cbn [option_map snd].
  - assert (Lm : m < length (yields xs)) by (apply nth_error_Some; congruence).
    pose proof (S _ _ _ _ Y) as Hs. pose proof (K _ (nth_error_In _ _ Y)) as Kj. cbn in Kj. subst j.
    rewrite (times_all k) in Hs.
    2:{ intros x Hx. assert (Hx' : In x (map fst (yields xs))).
        { clear -Hx. rewrite <- (firstn_skipn m (map fst (yields xs))). apply in_or_app. now left. }
        apply in_map_iff in Hx' as (y & <- & Hy). now apply K. }
    rewrite firstn_length_le in Hs by (rewrite map_length; lia).
    assert (Hr : nth_error rs m = Some r).
    { pose proof (f_equal (fun q => nth_error q m) O) as Q. cbn beta in Q. rewrite nth_error_map, Y in Q. cbn in Q.
      rewrite nth_error_firstn in Q by exact Lm. congruence. }
    rewrite nth_error_firstn by exact Lm. rewrite nth_combine, Hr, Hs. reflexivity.
  - apply nth_error_None in Y. symmetry. apply nth_error_None. rewrite firstn_length. lia.
Qed.

(* one loop over a new object *)
Lemma proper_nexts n : proper 1 (repeat (Next 0) n).
Proof. induction n; cbn; auto. Qed.
Lemma loop_from n : forall it d, at_use it d -> length (pi_gens it) = 1 -> pi_gens it = [Some (length d)] -> (forall x, In x d -> x = 0) ->
  exists xs it', use_iter it (repeat (Next 0) n) = Ok (xs, it') /\ length (yields xs) = Nat.min n (length rs - length d) /\
    forall y, In y (yields xs) -> fst y = 0.
Proof.
  induction n as [|n IH]; intros it d A G1 G Z.
  - eexists _, _. split; [reflexivity|]. split; [reflexivity|]. intros y [].
  - cbn [repeat use_iter]. destruct A as (A & (m & B & N) & C & D). unfold gen_next. rewrite G. cbn [nth_error].
    rewrite B. cbn [c_next]. rewrite next_after by exact fits. cbn [obind].
    destruct (nth_error rs m) as [r|] eqn:R; cbn [obind].
    + assert (Ln : m < length rs) by (apply nth_error_Some; rewrite R; discriminate). assert (Ld : length d = m) by lia.
      destruct (pi_shape it (length d)) as [s|] eqn:Es; [|exfalso; apply (A (length d)); [lia|exact Es]].
      cbn [obind set_gen].
      destruct (IH (mk_py_iter (pi_shape it) (Some (after rs (S m))) [Some (S (length d))]) (d ++ [0])) as (xs & it' & E & L & K).
      * repeat split; cbn [pi_shape pi_source pi_gens]; auto.
        -- exists (S m). split; [reflexivity|]. rewrite app_length. cbn [length]. lia.
        -- intros [|k] i H; cbn in H; [|destruct k; discriminate]. injection H as <-.
           rewrite times_all; [rewrite app_length; cbn; lia|]. intros x H. apply in_app_or in H as [H|[<-|[]]]; auto.
        -- intros k H. apply in_app_or in H as [H|[<-|[]]]; cbn; [rewrite (Z _ H)|]; lia.
      * reflexivity.
      * cbn. rewrite app_length. cbn. now rewrite Nat.add_1_r.
      * intros x H. apply in_app_or in H as [H|[<-|[]]]; auto.
      * rewrite E. cbn [obind]. eexists _, it'. split; [reflexivity|]. cbn [yields flat_map snd fst app]. fold (yields xs). split.
        -- cbn [length]. rewrite L, app_length. cbn [length]. lia.
        -- intros y [<-|H]; [reflexivity|auto].
    + assert (Ln : length rs <= m) by (now apply nth_error_None in R). cbn [obind set_gen].
      assert (Q : forall j sh src, use_iter (@mk_py_iter F sh src [None]) (repeat (Next 0) j) = Ok (repeat (0, Stopped) j, mk_py_iter sh src [None])).
      { induction j as [|j IHj]; intros sh src; [reflexivity|]. cbn [repeat use_iter]. unfold gen_next. cbn [pi_gens nth_error obind]. now rewrite IHj. }
      rewrite Q. cbn [obind]. eexists _, _. split; [reflexivity|]. cbn [yields flat_map snd fst app].
      assert (Y : flat_map (fun x : nat * @given F => match snd x with Yielded r0 s => [(fst x, (r0, s))] | _ => [] end) (repeat (0, Stopped) n) = []).
      { clear. induction n as [|n IH]; cbn; auto. }
      rewrite Y. cbn [length]. split; [lia|]. intros y [].
Qed.
Theorem whole_loop shapes n : length shapes = length rs ->
  exists xs it', use_iter (py_iter_new shapes (source_new (map Some rs))) (Iter :: repeat (Next 0) n) = Ok (xs, it') /\
    map snd (yields xs) = firstn n (combine rs shapes).
Proof.
  intro H.
  destruct (loop_from n (gen_new (py_iter_new shapes (source_new (map Some rs)))) []) as (xs & it' & E & L & K).
  - apply new_use. exact (fresh_use _ (shapes_defined shapes _ H)).
  - reflexivity.
  - reflexivity.
  - intros x [].
  - exists xs, it'. split; [exact E|].
    rewrite (one_generator shapes (Iter :: repeat (Next 0) n) 0 xs it' H); [|exact (proper_nexts n)|exact E|exact K].
    rewrite L, Nat.sub_0_r. destruct (Nat.le_ge_cases n (length rs)) as [Q|Q].
    + now rewrite Nat.min_l by exact Q.
    + rewrite Nat.min_r by exact Q. rewrite !firstn_all2; auto; rewrite combine_length, H; lia.
Qed.

Lemma F2_at {A B} (P : A -> B -> Prop) a b : Forall2 P a b -> forall i x, nth_error a i = Some x -> exists y, nth_error b i = Some y /\ P x y.
Proof.
  induction 1 as [|x y a b H HF IH]; intros [|i] z E; cbn in *; try discriminate; [injection E as <-; eauto|now apply IH].
Qed.
(* dump_values of an object whose last generator has given m results and that nothing else has used *)
Lemma dump_ok shapes vss : length shapes = length rs -> Forall2 (fun rs v => py_values zero (fst rs) (snd rs) = Ok v) (combine rs shapes) vss ->
  forall fuel k it m, length rs < fuel + m -> m <= length rs -> pi_shape it = nth_error shapes -> pi_source it = Some (after rs m) ->
    nth_error (pi_gens it) k = Some (Some m) ->
    exists it', dump_from zero fuel it k = Ok (Ok (skipn m vss), it') /\ pi_source it' = Some (after rs (S (length rs))).
Proof.
  intros H V. assert (Lv : length vss = length rs) by (rewrite <- (Forall2_length _ _ _ V), combine_length, H; lia).
  induction fuel as [|fuel IH]; intros k it m Lf Lm Es B G; [lia|].
  cbn [dump_from]. unfold gen_next. rewrite G, B. cbn [c_next]. rewrite next_after by exact fits. cbn [obind].
  destruct (nth_error rs m) as [r|] eqn:R; cbn [obind].
  - assert (Lr : m < length rs) by (apply nth_error_Some; rewrite R; discriminate). rewrite Es.
    destruct (nth_error shapes m) as [s|] eqn:Sm; [|apply nth_error_None in Sm; lia]. cbn [obind].
    assert (C : nth_error (combine rs shapes) m = Some (r, s)) by (now rewrite nth_combine, R, Sm).
    destruct (F2_at _ _ _ V _ _ C) as (v & Hv & Pv). cbn [fst snd] in Pv. rewrite Pv.
    destruct (IH k (mk_py_iter (nth_error shapes) (Some (after rs (S m))) (set_gen (pi_gens it) k (Some (S m)))) (S m)) as (it' & E & E'); try reflexivity; try lia.
    { cbn [pi_gens]. rewrite set_gen_get, Nat.eqb_refl, G. reflexivity. }
    rewrite E. cbn [obind]. exists it'. split; [|exact E']. do 3 f_equal.
    clear -Hv. revert vss Hv. induction m as [|m IH]; intros [|x l] H; cbn in *; try discriminate; [now injection H as ->|now apply IH].
  - assert (Ln : length rs <= m) by (now apply nth_error_None in R). cbn [obind]. eexists. split.
    + do 3 f_equal. symmetry. apply skipn_all2. lia.
    + cbn [pi_source]. now replace m with (length rs) by lia.
Qed.
Theorem dump_all shapes vss it : length shapes = length rs -> Forall2 (fun rs v => py_values zero (fst rs) (snd rs) = Ok v) (combine rs shapes) vss ->
  pi_shape it = nth_error shapes -> pi_source it = Some (source_new (map Some rs)) ->
  exists it', dump_values zero (S (length rs)) it = Ok (Ok vss, it').
Proof.
  intros H V Es B. unfold dump_values.
  destruct (dump_ok shapes vss H V (S (length rs)) (length (pi_gens it)) (gen_new it) 0) as (it' & E & _).
  - lia.
  - lia.
  - exact Es.
  - now rewrite after_0.
  - cbn. rewrite nth_error_app2, Nat.sub_diag by lia. reflexivity.
  - now exists it'.
Qed.

(* a result that does not fit ends dump_values; the next loop goes on with the result after it and the first shape *)
Lemma dump_stops shapes vss r s e : length shapes = length rs ->
  Forall2 (fun rs v => py_values zero (fst rs) (snd rs) = Ok v) (firstn (length vss) (combine rs shapes)) vss ->
  nth_error (combine rs shapes) (length vss) = Some (r, s) -> py_values zero r s = Throw e ->
  forall fuel k it m, length vss < fuel + m -> m <= length vss -> pi_shape it = nth_error shapes -> pi_source it = Some (after rs m) ->
    nth_error (pi_gens it) k = Some (Some m) ->
    exists it', dump_from zero fuel it k = Ok (Throw e, it') /\ pi_shape it' = nth_error shapes /\ pi_source it' = Some (after rs (S (length vss))).
Proof.
  intros H V Cs Pe.
  assert (Lr : length vss < length rs).
  { assert (Q : length vss < length (combine rs shapes)) by (apply nth_error_Some; rewrite Cs; discriminate). rewrite combine_length in Q. lia. }
  induction fuel as [|fuel IH]; intros k it m Lf Lm Es B G; [lia|].
  cbn [dump_from]. unfold gen_next. rewrite G, B. cbn [c_next]. rewrite next_after by exact fits. cbn [obind].
  destruct (nth_error rs m) as [r1|] eqn:R; [|apply nth_error_None in R; lia]. cbn [obind]. rewrite Es.
  destruct (nth_error shapes m) as [s1|] eqn:Sm; [|apply nth_error_None in Sm; lia]. cbn [obind].
  assert (C : nth_error (combine rs shapes) m = Some (r1, s1)) by (now rewrite nth_combine, R, Sm).
  destruct (Nat.eq_dec m (length vss)) as [->|NE].
  - rewrite Cs in C. injection C as <- <-. rewrite Pe. eexists. split; [reflexivity|]. split; reflexivity.
  - assert (C' : nth_error (firstn (length vss) (combine rs shapes)) m = Some (r1, s1)) by (rewrite nth_error_firstn by lia; exact C).
    destruct (F2_at _ _ _ V _ _ C') as (v & Hv & Pv). cbn [fst snd] in Pv. rewrite Pv.
    destruct (IH k (mk_py_iter (nth_error shapes) (Some (after rs (S m))) (set_gen (pi_gens it) k (Some (S m)))) (S m)) as (it' & E & E'); try reflexivity; try lia.
    { cbn [pi_gens]. rewrite set_gen_get, Nat.eqb_refl, G. reflexivity. }
    rewrite E. cbn [obind]. exists it'. split; [reflexivity|exact E'].
Qed.
Theorem after_dump shapes vss r s e r2 s0 : length shapes = length rs ->
  Forall2 (fun rs v => py_values zero (fst rs) (snd rs) = Ok v) (firstn (length vss) (combine rs shapes)) vss ->
  nth_error (combine rs shapes) (length vss) = Some (r, s) -> py_values zero r s = Throw e ->
  nth_error rs (S (length vss)) = Some r2 -> nth_error shapes 0 = Some s0 ->
  exists it' xs it'', dump_values zero (S (length rs)) (py_iter_new shapes (source_new (map Some rs))) = Ok (Throw e, it') /\
    use_iter it' [Iter; Next (length (pi_gens it'))] = Ok (xs, it'') /\ map snd (yields xs) = [(r2, s0)].
Proof.
  intros H V Cs Pe R2 S0. unfold dump_values.
  assert (Lr : length vss < length rs).
  { assert (Q : length vss < length (combine rs shapes)) by (apply nth_error_Some; rewrite Cs; discriminate). rewrite combine_length in Q. lia. }
  destruct (dump_stops shapes vss r s e H V Cs Pe (S (length rs)) 0 (gen_new (py_iter_new shapes (source_new (map Some rs)))) 0) as (it' & E & Es & B).
  - lia.
  - lia.
  - reflexivity.
  - cbn. now rewrite after_0.
  - reflexivity.
  - exists it'. cbn [py_iter_new pi_gens length].
    cbn [use_iter]. unfold gen_next. cbn [gen_new pi_gens pi_source pi_shape]. rewrite nth_error_app2, Nat.sub_diag by lia. cbn [nth_error].
    rewrite B. cbn [c_next]. rewrite next_after by exact fits. cbn [obind]. rewrite R2. cbn [obind]. rewrite Es, S0. cbn [obind].
    eexists _, _. split; [exact E|]. split; reflexivity.
Qed.

(* two loops, the first left after one result *)
Theorem second_loop r1 r2 more s1 s2 others : rs = r1 :: r2 :: more ->
  exists it', use_iter (py_iter_new (s1 :: s2 :: others) (source_new (map Some rs))) [Iter; Next 0; Iter; Next 1] =
    Ok ([(0, Yielded r1 s1); (1, Yielded r2 s1)], it').
Proof.
  intro E. assert (R1 : nth_error rs 0 = Some r1) by (now rewrite E). assert (R2 : nth_error rs 1 = Some r2) by (now rewrite E). clear E.
  pose (sh := nth_error (s1 :: s2 :: others)).
  assert (G1 : gen_next (mk_py_iter sh (Some (after rs 0)) [Some 0]) 0 = Ok (Yielded r1 s1, mk_py_iter sh (Some (after rs 1)) [Some 1])).
  { unfold gen_next. cbn [pi_gens nth_error pi_source c_next]. rewrite next_after by exact fits. rewrite R1. reflexivity. }
  assert (G2 : gen_next (mk_py_iter sh (Some (after rs 1)) [Some 1; Some 0]) 1 = Ok (Yielded r2 s1, mk_py_iter sh (Some (after rs 2)) [Some 1; Some 1])).
  { unfold gen_next. cbn [pi_gens nth_error pi_source c_next]. rewrite next_after by exact fits. rewrite R2. reflexivity. }
  rewrite <- after_0. unfold py_iter_new. fold sh. cbn [use_iter]. change (gen_new (mk_py_iter sh (Some (after rs 0)) [])) with (mk_py_iter sh (Some (after rs 0)) [Some 0]).
  rewrite G1. cbn [obind]. change (gen_new (mk_py_iter sh (Some (after rs 1)) [Some 1])) with (mk_py_iter sh (Some (after rs 1)) [Some 1; Some 0]).
  rewrite G2. eexists. reflexivity.
Qed.
End Iter.

(* ---- C109 ---- *)
Lemma fill_load {A} (z : A) c shape v : load z c shape = Ok v -> fill z c shape None = (Ok tt, Some v).
Proof.
  unfold load, fill. destruct (Z.ltb _ _); [discriminate|]. destruct (c _ _) as [[[] [b|]]|e|]; cbn; try discriminate. now intros [= ->].
Qed.
Lemma first_load {A} (z : A) c shape (X : forall b n, c b n <> Ok (CSuccess, None)) :
  (let (x, b) := fill z c shape None in view x b) = load z c shape.
Proof.
  unfold load, fill. destruct (Z.ltb _ _); [reflexivity|].
  destruct (c (Some (repeat z (Z.to_nat (zsum shape)))) (Z.to_N (zsum shape))) as [[[] [b|]]|e|] eqn:E; try reflexivity. now apply X in E.
Qed.
Lemma values_written {V} (r : option (list (list V))) b n : c_result_values r b n <> Ok (CSuccess, None).
Proof.
  unfold c_result_values. destruct r as [r|], b as [b|]; try discriminate. destruct (negb _); [discriminate|].
  destruct (write_vectors b 0 r) as [[b' k]|e|]; cbn [obind]; discriminate.
Qed.
Lemma mask_written {V} (r : option (list (list V))) b n : c_result_mask r b n <> Ok (CSuccess, None).
Proof.
  unfold c_result_mask. destruct r as [r|], b as [b|]; try discriminate.
  destruct (write_vectors b 0 r) as [[b' k]|e|]; cbn [obind]; discriminate.
Qed.

Theorem first_access (res : result) shape a : fst (ask_result zero (py_result_new res shape) a) = first_answer zero res shape a.
Proof.
  pose proof (first_load zero (c_result_values (Some (fst res))) shape (values_written _)) as V.
  pose proof (first_load 0%N (c_result_mask (Some (snd res))) (mask_shape shape) (mask_written _)) as M.
  unfold ask_result, first_answer, load_values, load_masks, py_result_new, py_values, py_masks, py_values_flat, py_bool_masks, py_masks, py_masks_flat.
  cbn [pr_result pr_shape pr_values pr_masks]. rewrite <- V, <- M.
  destruct (fill zero _ shape None) as [x b]. destruct (fill 0%N _ (mask_shape shape) None) as [y m]. clear V M.
  destruct a; cbn [fst pr_values pr_masks]; try (destruct (view x b); reflexivity); try (destruct (view y m); reflexivity).
  destruct (view y m) as [w|e|]; cbn; try reflexivity.
  destruct (mask_loop _ _ _) as [[bs k]|e|]; cbn; try reflexivity. destruct (Z.eqb _ _); reflexivity.
Qed.

Lemma fill_negative {A} (z : A) c shape : (zsum shape < 0)%Z -> fill z c shape None = (Throw EBadValue, None) /\ load z c shape = Throw EBadValue.
Proof. intro H. unfold fill, load. destruct (Z.ltb_spec (zsum shape) 0); [split; reflexivity|lia]. Qed.

Section Good.
Variable res : result.
Variable shape : list Z.
Hypothesis Hv : (exists v, py_values_flat zero res shape = Ok v) \/ (zsum shape < 0)%Z.
Hypothesis Hm : (exists m, py_masks_flat res shape = Ok m) \/ (zsum (mask_shape shape) < 0)%Z.

Definition good_object (o : @py_result F) : Prop :=
  pr_result o = res /\ pr_shape o = shape /\
  (pr_values o = None \/ exists v, pr_values o = Some v /\ py_values_flat zero res shape = Ok v) /\
  (pr_masks o = None \/ exists m, pr_masks o = Some m /\ py_masks_flat res shape = Ok m).
Lemma good_ask o a : good_object o -> fst (ask_result zero o a) = first_answer zero res shape a /\ good_object (snd (ask_result zero o a)).
Proof.
  intros (R & S & V & M).
  assert (LV : exists b, snd (fill zero (c_result_values (Some (fst res))) shape (pr_values o)) = b /\
      (b = None \/ exists v, b = Some v /\ py_values_flat zero res shape = Ok v) /\
      (let (x, b) := fill zero (c_result_values (Some (fst res))) shape (pr_values o) in view x b) = py_values_flat zero res shape).
  { eexists. split; [reflexivity|]. destruct V as [-> |(v & -> & E)]; [|cbn; split; [right; exists v; auto|now rewrite E]].
    split; [|exact (first_load zero _ shape (values_written _))].
    destruct Hv as [[v E]|N]; [rewrite (fill_load _ _ _ _ E); right; exists v; auto|].
    rewrite (proj1 (fill_negative zero (c_result_values (Some (fst res))) shape N)). now left. }
  assert (LM : exists b, snd (fill 0%N (c_result_mask (Some (snd res))) (mask_shape shape) (pr_masks o)) = b /\
      (b = None \/ exists m, b = Some m /\ py_masks_flat res shape = Ok m) /\
      (let (x, b) := fill 0%N (c_result_mask (Some (snd res))) (mask_shape shape) (pr_masks o) in view x b) = py_masks_flat res shape).
  { eexists. split; [reflexivity|]. destruct M as [-> |(m & -> & E)]; [|cbn; split; [right; exists m; auto|now rewrite E]].
    split; [|exact (first_load 0%N _ (mask_shape shape) (mask_written _))].
    destruct Hm as [[m E]|N]; [rewrite (fill_load _ _ _ _ E); right; exists m; auto|].
    rewrite (proj1 (fill_negative 0%N (c_result_mask (Some (snd res))) (mask_shape shape) N)). now left. }
  unfold ask_result, load_values, load_masks. rewrite R, S.
  destruct (fill zero (c_result_values (Some (fst res))) shape (pr_values o)) as [x b].
  destruct (fill 0%N (c_result_mask (Some (snd res))) (mask_shape shape) (pr_masks o)) as [y w].
  cbn [snd] in LV, LM. destruct LV as (b' & <- & LV & EV). destruct LM as (w' & <- & LM & EM).
  unfold first_answer, py_bool_masks, py_values, py_masks. rewrite <- EV, <- EM.
  destruct a; cbn [fst snd pr_values pr_masks pr_result pr_shape];
    (split; [|split; [exact R || reflexivity|split; [exact S || reflexivity|split; assumption]]]);
    try (destruct (view x b); reflexivity); try (destruct (view y w); reflexivity).
  destruct (view y w) as [m|e|]; cbn [obind omap]; try reflexivity.
  destruct (mask_loop _ _ _) as [[bs k]|e|]; cbn; try reflexivity. destruct (Z.eqb _ _); reflexivity.
Qed.
Lemma good_asks l : forall o, good_object o -> fst (ask_all zero o l) = map (first_answer zero res shape) l.
Proof.
  induction l as [|a l IH]; intros o G; [reflexivity|]. cbn [ask_all map].
  destruct (good_ask o a G) as [E G']. destruct (ask_result zero o a) as [x o1]. cbn [fst snd] in *.
  specialize (IH o1 G'). destruct (ask_all zero o1 l) as [xs o2]. cbn [fst] in *. now rewrite E, IH.
Qed.
Theorem repeatable l : fst (ask_all zero (py_result_new res shape) l) = map (first_answer zero res shape) l.
Proof. apply good_asks. repeat split; cbn; auto. Qed.
End Good.

(* ---- an object that has failed ---- *)
Lemma zeros_lengths {A} (z : A) shape : Forall (fun n => (0 <= n)%Z) shape -> map zlen (zeros z shape) = shape.
Proof.
  induction 1 as [|n l P H IH]; cbn; [reflexivity|]. unfold zeros in IH. rewrite IH. f_equal. unfold zlen. rewrite repeat_length. lia.
Qed.
Lemma zeros_flat {A} (z : A) shape : Forall (fun n => (0 <= n)%Z) shape -> concat (zeros z shape) = repeat z (Z.to_nat (zsum shape)).
Proof.
  induction 1 as [|n l P H IH]; [reflexivity|]. unfold zeros in *. cbn [map concat]. rewrite IH, zsum_cons.
  assert (Q : (0 <= zsum l)%Z). { clear -H. induction H as [|a l P H IH]; [cbn; lia|]. rewrite zsum_cons. lia. }
  rewrite Z2Nat.inj_add by lia. now rewrite repeat_app.
Qed.
Lemma zsum_pos shape : Forall (fun n => (0 <= n)%Z) shape -> (0 <= zsum shape)%Z.
Proof. induction 1 as [|a l P H IH]; [cbn; lia|]. rewrite zsum_cons. lia. Qed.
Lemma zeros_split {A} (z : A) shape : shape <> [] -> Forall (fun n => (0 <= n)%Z) shape ->
  np_split (repeat z (Z.to_nat (zsum shape))) (removelast (accumulate 0 shape)) = zeros z shape.
Proof.
  intros NE P. rewrite <- (zeros_lengths z shape P) at 2. rewrite <- zeros_flat by exact P. apply np_split_pieces.
  destruct shape; [congruence|discriminate].
Qed.
Lemma mask_shape_pos shape : Forall (fun n => (0 <= n)%Z) shape -> Forall (fun n => (0 <= n)%Z) (mask_shape shape).
Proof. intro H. apply Forall_map. eapply Forall_impl; [|exact H]. intros n P. cbn beta in *. apply Z.div_pos; lia. Qed.
Lemma zero_mask n : is_mask (repeat false n) (repeat 0%N ((n + 63) / 64)).
Proof.
  split; [now rewrite !repeat_length|]. intros i w H. apply nth_error_In, repeat_spec in H. subst w. split; [reflexivity|].
  intros j L. rewrite N.bits_0. symmetry. generalize (i * 64 + j). clear. induction n as [|n IH]; intros [|q]; cbn; auto.
Qed.
Lemma zero_masks shape : Forall (fun n => (0 <= n)%Z) shape -> Forall2 is_mask (zeros false shape) (zeros 0%N (mask_shape shape)).
Proof.
  induction 1 as [|n l P H IH]; cbn; constructor; [|exact IH].
  replace (Z.to_nat ((n + 63) / 64)) with ((Z.to_nat n + 63) / 64); [apply zero_mask|].
  rewrite Z2Nat.inj_div by lia. now rewrite Z2Nat.inj_add by lia.
Qed.

Section Missing.
Variable shape : list Z.
Hypothesis NE : shape <> [].
Hypothesis P : Forall (fun n => (0 < n)%Z) shape.
Hypothesis U : (zsum shape < Z.of_N two64)%Z.

Lemma P0 : Forall (fun n => (0 <= n)%Z) shape.
Proof. eapply Forall_impl; [|exact P]. cbn. intros. lia. Qed.
Lemma some_values : (0 < zsum shape)%Z.
Proof. destruct shape as [|n l]; [congruence|]. inversion P; subst. rewrite zsum_cons. pose proof (zsum_pos l). assert (0 <= zsum l)%Z by (apply H; eapply Forall_impl; [|eassumption]; cbn; intros; lia). lia. Qed.
Lemma words_le : (zsum (mask_shape shape) <= zsum shape)%Z.
Proof.
  clear NE U. induction P as [|n l Pn Pl IH]; [reflexivity|]. cbn [mask_shape map]. rewrite !zsum_cons. fold (mask_shape l).
  assert ((n + 63) / 64 <= n)%Z by (apply Z.div_le_upper_bound; lia). specialize (IH). unfold mask_shape in *. lia.
Qed.
Lemma some_words : (0 < zsum (mask_shape shape))%Z.
Proof.
  destruct shape as [|n l]; [congruence|]. inversion P; subst. cbn [mask_shape map]. rewrite zsum_cons. fold (mask_shape l).
  assert (1 <= (n + 63) / 64)%Z by (apply Z.div_le_lower_bound; lia).
  assert (0 <= zsum (mask_shape l))%Z; [|unfold mask_shape in *; lia].
  apply zsum_pos, mask_shape_pos. eapply Forall_impl; [|eassumption]. cbn. intros. lia.
Qed.

Definition missing_object (v m : bool) : @py_result F :=
  mk_py_result ([], []) shape (if v then Some (concat (zeros zero shape)) else None) (if m then Some (concat (zeros 0%N (mask_shape shape))) else None).
Lemma missing_values (v m : bool) : load_values zero (missing_object v m) = (if v then Ok tt else Throw EGribJump, missing_object true m).
Proof.
  unfold load_values. cbn [missing_object pr_result pr_shape pr_values pr_masks fst]. unfold fill. destruct v; [reflexivity|].
  pose proof some_values. destruct (Z.ltb_spec (zsum shape) 0); [lia|]. rewrite result_values_exact.
  - cbn [total concat length]. destruct (N.eqb_spec (N.of_nat 0) (Z.to_N (zsum shape))); [lia|].
    unfold missing_object. now rewrite (zeros_flat zero shape P0).
  - reflexivity.
  - lia.
  - unfold lenN. rewrite repeat_length. lia.
Qed.
Lemma missing_masks (v m : bool) : load_masks (missing_object v m) = (if m then Ok tt else Throw EGribJump, missing_object v true).
Proof.
  unfold load_masks. cbn [missing_object pr_result pr_shape pr_values pr_masks snd]. unfold fill. destruct m; [reflexivity|].
  pose proof some_words. pose proof words_le. destruct (Z.ltb_spec (zsum (mask_shape shape)) 0); [lia|]. rewrite result_mask_spec.
  - cbn [total concat length]. destruct (N.leb_spec (N.of_nat 0) (Z.to_N (zsum (mask_shape shape)))); [|lia].
    destruct (N.eqb_spec (N.of_nat 0) (Z.to_N (zsum (mask_shape shape)))); [lia|]. cbn [app skipn].
    unfold missing_object. now rewrite (zeros_flat 0%N (mask_shape shape) (mask_shape_pos shape P0)).
  - lia.
  - unfold lenN. rewrite repeat_length. lia.
Qed.
Lemma mask_shape_ne : mask_shape shape <> [].
Proof. destruct shape; [congruence|discriminate]. Qed.
Lemma missing_ask (v m : bool) a :
  ask_result zero (missing_object v m) a =
    (if (if of_values a then v else m) then Ok (zero_answer zero shape a) else Throw EGribJump,
     missing_object (v || of_values a) (m || negb (of_values a))).
Proof.
  assert (SV : np_split (concat (zeros zero shape)) (removelast (accumulate 0 shape)) = zeros zero shape).
  { rewrite (zeros_flat zero shape P0). exact (zeros_split zero shape NE P0). }
  assert (SM : np_split (concat (zeros 0%N (mask_shape shape))) (removelast (accumulate 0 (mask_shape shape))) = zeros 0%N (mask_shape shape)).
  { rewrite (zeros_flat 0%N _ (mask_shape_pos shape P0)). exact (zeros_split 0%N _ mask_shape_ne (mask_shape_pos shape P0)). }
  unfold ask_result. rewrite missing_values, missing_masks.
  destruct a; cbn [of_values negb]; rewrite ?orb_true_r, ?orb_false_r; cbn [missing_object pr_shape pr_values pr_masks];
    try (destruct v; cbn [view obind zero_answer]; rewrite ?SV; reflexivity); try (destruct m; cbn [view obind zero_answer]; rewrite ?SM; reflexivity).
  destruct m; cbn [view obind]; [|reflexivity]. rewrite SM.
  pose proof (mask_loop_ok _ _ (zero_masks shape P0) 0) as ML. rewrite (zeros_lengths false shape P0) in ML. rewrite ML. cbn [obind Nat.add].
  assert (Q : (Z.of_nat (total (zeros false shape)) =? zsum shape)%Z = true).
  { apply Z.eqb_eq. rewrite <- zsum_lengths. now rewrite zeros_lengths by exact P0. }
  rewrite Q. reflexivity.
Qed.
Lemma missing_asks l : forall v m, fst (ask_all zero (missing_object v m) l) = missing_answers zero shape v m l.
Proof.
  induction l as [|a l IH]; intros v m; [reflexivity|]. cbn [ask_all missing_answers]. rewrite missing_ask.
  specialize (IH (v || of_values a)%bool (m || negb (of_values a))%bool). destruct (ask_all zero _ l) as [xs o]. cbn [fst] in *. now rewrite IH.
Qed.
Theorem missing_object_answers l : fst (ask_all zero (py_result_new ([], []) shape) l) = missing_answers zero shape false false l.
Proof. exact (missing_asks l false false). Qed.
End Missing.

(* the same for the values of any result with another number of values *)
Theorem other_shape (res : result) shape : shape <> [] -> Forall (fun n => (0 <= n)%Z) shape -> (zsum shape < Z.of_N two64)%Z ->
  (N.of_nat (total (fst res)) < two64)%N -> Z.of_nat (total (fst res)) <> zsum shape ->
  forall a b, of_values a = true -> of_values b = true ->
  fst (ask_all zero (py_result_new res shape) [a; b]) = [Throw EGribJump; Ok (zero_answer zero shape b)].
Proof.
  intros NE P U T D a b Va Vb.
  assert (L : load_values zero (py_result_new res shape) = (Throw EGribJump, mk_py_result res shape (Some (concat (zeros zero shape))) None)).
  { unfold load_values. cbn [py_result_new pr_result pr_shape pr_values pr_masks]. unfold fill. pose proof (zsum_pos shape P).
    destruct (Z.ltb_spec (zsum shape) 0); [lia|]. rewrite result_values_exact; [|exact T|lia|unfold lenN; rewrite repeat_length; lia].
    destruct (N.eqb_spec (N.of_nat (total (fst res))) (Z.to_N (zsum shape))); [lia|]. now rewrite zeros_flat. }
  assert (A : ask_result zero (py_result_new res shape) a = (Throw EGribJump, mk_py_result res shape (Some (concat (zeros zero shape))) None)).
  { unfold ask_result. rewrite L. destruct a; try discriminate; reflexivity. }
  cbn [ask_all]. rewrite A. unfold ask_result, load_values. cbn [pr_result pr_shape pr_values pr_masks fill].
  destruct b; try discriminate; cbn [view pr_values obind fst zero_answer]; [|reflexivity].
  rewrite (zeros_flat zero shape P), zeros_split by assumption. reflexivity.
Qed.
End Objects.
