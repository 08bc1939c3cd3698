(* Proofs about the Python layer. *)
From Verif Require Import Base BaseLemmas ModelInfo ModelJumper ModelEngine ModelApi SpecApi SpecJumper
  ModelPython SpecPython ProofsApi ProofsJumper.
From Coq Require Import Lia Arith Sorted.
Local Open Scope Z_scope.

(* ---- requests from masks ---- *)
Fixpoint positions (i : Z) (m : list bool) : list Z :=
  match m with [] => [] | b :: r => if b then i :: positions (i + 1) r else positions (i + 1) r end.

Fixpoint separated (lo hi : Z) (l : list (Z * Z)) : Prop :=
  match l with [] => True | (a, b) :: r => lo < a < b /\ b <= hi /\ separated b hi r end.

Lemma separated_weaken lo lo' hi hi' l : lo' <= lo -> hi <= hi' -> separated lo hi l -> separated lo' hi' l.
Proof.
  revert lo lo'. induction l as [|[a b] l IH]; intros lo lo' H1 H2 H; [exact I|].
  cbn in *. destruct H as [Ha [Hb H]]. split; [lia|split; [lia|]]. apply IH with b; [lia|exact H2|exact H].
Qed.

Definition runs (l : list (Z * Z)) : list Z := flat_map (fun x => py_range (fst x) (snd x)) l.

Lemma py_range_empty i : py_range i i = [].
Proof. unfold py_range. rewrite Z.sub_diag. reflexivity. Qed.

Lemma py_range_step i e : i < e -> py_range i e = i :: py_range (i + 1) e.
Proof.
  intros H. unfold py_range. replace (Z.to_nat (e - i)) with (S (Z.to_nat (e - (i + 1)))) by lia.
  cbn [seq map]. f_equal; [lia|]. rewrite <- seq_shift, map_map. apply map_ext. intros k. lia.
Qed.

Lemma mask_loop_ranges m : forall p i,
  let d := diff (b2z p :: map b2z (m ++ [false])) in
  let S := where_eq 1 i d in
  let E := where_eq (-1) i d in
  let hi := i + Z.of_nat (length m) in
  if p then
    exists e E', E = e :: E' /\ length S = length E' /\ i <= e <= hi /\
      separated e hi (combine S E') /\ py_range i e ++ runs (combine S E') = positions i m
  else
    length S = length E /\ separated (i - 1) hi (combine S E) /\ runs (combine S E) = positions i m.
Proof.
  induction m as [|b m IH]; intros p i.
  - destruct p; cbn.
    + exists i, []. rewrite py_range_empty. repeat split; lia.
    + repeat split.
  - cbn [app map]. change (diff (b2z p :: b2z b :: map b2z (m ++ [false])))
      with (b2z b - b2z p :: diff (b2z b :: map b2z (m ++ [false]))).
    specialize (IH b (i + 1)). cbn zeta in IH. cbn zeta.
    replace (i + Z.of_nat (length (b :: m))) with (i + 1 + Z.of_nat (length m)) by (cbn [length]; lia).
    destruct p, b; cbn [b2z Z.sub Z.opp Z.add Z.pos_sub where_eq Z.eqb Pos.eqb positions] in *.
    + destruct IH as [e [E' [H1 [H2 [H3 [H4 H5]]]]]]. exists e, E'.
      split; [exact H1|]. split; [exact H2|]. split; [lia|]. split; [exact H4|].
      rewrite py_range_step by lia. cbn [app]. rewrite H5. reflexivity.
    + destruct IH as [H1 [H2 H3]]. eexists i, _. split; [reflexivity|]. split; [exact H1|]. split; [lia|].
      split; [|rewrite py_range_empty; exact H3].
      eapply separated_weaken; [| |exact H2]; lia.
    + destruct IH as [e [E' [H1 [H2 [H3 [H4 H5]]]]]]. rewrite H1. cbn [length combine].
      split; [rewrite H2; reflexivity|]. cbn [separated]. split; [split; [lia|split; [lia|exact H4]]|].
      unfold runs. cbn [flat_map fst snd]. fold (runs (combine (where_eq 1 (i + 1) (diff (1 :: map b2z (m ++ [false])))) E')).
      rewrite py_range_step by lia. cbn [app]. rewrite H5. reflexivity.
    + destruct IH as [H1 [H2 H3]]. split; [exact H1|]. split; [|exact H3].
      eapply separated_weaken; [| |exact H2]; lia.
Qed.

Theorem mask_ranges_spec m : existsb (fun b => b) m = true ->
  exists l, mask_ranges m = Ok l /\ separated (-1) (Z.of_nat (length m)) l /\ runs l = positions 0 m.
Proof.
  intros H. unfold mask_ranges. rewrite H. cbn [negb]. eexists. split; [reflexivity|].
  pose proof (mask_loop_ranges m false 0) as [_ [H2 H3]]. split; [exact H2|exact H3].
Qed.

(* ---- requests ---- *)
Definition to_n (r : Z * Z) : N * N := (Z.to_N (fst r), Z.to_N (snd r)).

Lemma flatten_ranges_ok l :
  Forall (fun r => 0 <= fst r /\ fst r < snd r /\ snd r < Z.of_N two64) l ->
  flatten_ranges l = Ok (laid_out (map to_n l), map (fun r => snd r - fst r) l).
Proof.
  induction l as [|[lo hi] l IH]; intros H; cbn [flatten_ranges]; [reflexivity|].
  inversion H as [|? ? [H1 [H2 H3]] Hl]; subst. cbn [fst snd] in *.
  assert (E : (lo <? hi) = true) by (apply Z.ltb_lt; exact H2). rewrite E. cbn [negb].
  unfold to_size_t.
  assert (E1 : (0 <=? lo) && (lo <? Z.of_N two64) = true) by (apply andb_true_intro; split; [apply Z.leb_le|apply Z.ltb_lt]; lia).
  assert (E2 : (0 <=? hi) && (hi <? Z.of_N two64) = true) by (apply andb_true_intro; split; [apply Z.leb_le|apply Z.ltb_lt]; lia).
  rewrite E1, E2. cbn [obind]. rewrite (IH Hl). reflexivity.
Qed.

Lemma to_size_t_bad x : x < 0 \/ Z.of_N two64 <= x -> to_size_t x = Throw EOutOfRange.
Proof.
  intros H. unfold to_size_t.
  destruct (Z.leb_spec 0 x), (Z.ltb_spec x (Z.of_N two64)); cbn [andb]; try reflexivity; lia.
Qed.

Lemma flatten_ranges_bad l :
  Exists (fun r => ~ (0 <= fst r /\ fst r < snd r /\ snd r < Z.of_N two64)) l ->
  exists e, flatten_ranges l = Throw e.
Proof.
  induction l as [|[lo hi] l IH]; intros H; [inversion H|]. cbn [flatten_ranges].
  destruct (Z.ltb_spec lo hi) as [L|L]; cbn [negb]; [|eauto].
  destruct (to_size_t lo) as [a|e|] eqn:E1; cbn [obind]; [|eauto|unfold to_size_t in E1; destruct (_ && _) in E1; discriminate].
  destruct (to_size_t hi) as [b|e|] eqn:E2; cbn [obind]; [|eauto|unfold to_size_t in E2; destruct (_ && _) in E2; discriminate].
  inversion H as [? ? H1|? ? H1]; subst.
  - cbn [fst snd] in H1. exfalso. apply H1.
    unfold to_size_t in E1, E2.
    destruct (Z.leb_spec 0 lo), (Z.leb_spec 0 hi), (Z.ltb_spec hi (Z.of_N two64)); cbn [andb] in *; try discriminate; lia.
  - destruct (IH H1) as [e He]. rewrite He. cbn [obind]. eauto.
Qed.

Lemma checked_new_request parsing parse s s' l hash :
  text_ok parsing parse s s' -> (lenN (laid_out l) < two64)%N ->
  checked (c_new_request parsing parse true (Some s) (Some (laid_out l)) (lenN (laid_out l)) hash)
    = Ok (mk_request s' l (c_string hash)).
Proof.
  intros H Hl. unfold text_ok in H. destruct parsing.
  - rewrite new_request_parsed; [|exact Hl|congruence]. rewrite H. reflexivity.
  - injection H as <-. rewrite new_request_ranges; auto.
Qed.

Theorem new_request_ok parsing parse s s' ranges hash :
  text_ok parsing parse s s' -> ranges <> [] -> (2 * lenN ranges < two64)%N ->
  Forall (fun r => 0 <= fst r /\ fst r < snd r /\ snd r < Z.of_N two64) ranges ->
  py_new_request parsing parse s ranges hash =
    Ok (mk_py_request (map (fun r => snd r - fst r) ranges) ranges
                      (mk_request s' (map to_n ranges) (c_string hash))).
Proof.
  intros Ht Hne Hl H. unfold py_new_request.
  destruct ranges as [|r0 ranges]; [contradiction|]. rewrite flatten_ranges_ok by exact H. cbn [obind].
  rewrite (checked_new_request _ _ _ s'); [reflexivity|exact Ht|].
  unfold lenN in *. rewrite laid_out_length, map_length. clear -Hl. lia.
Qed.

Theorem new_request_bad parsing parse s ranges hash :
  ranges = [] \/ Exists (fun r => ~ (0 <= fst r /\ fst r < snd r /\ snd r < Z.of_N two64)) ranges ->
  exists e, py_new_request parsing parse s ranges hash = Throw e.
Proof.
  intros [->|H]; cbn [py_new_request]; [eauto|].
  destruct (flatten_ranges_bad ranges H) as [e He]. destruct ranges; [inversion H|].
  unfold py_new_request. rewrite He. cbn [obind]. eauto.
Qed.

Lemma separated_forall lo hi l : -1 <= lo -> separated lo hi l ->
  Forall (fun r => 0 <= fst r /\ fst r < snd r /\ snd r <= hi) l.
Proof.
  revert lo. induction l as [|[a b] l IH]; intros lo Hlo H; constructor.
  - cbn in *. lia.
  - cbn in H. apply IH with b; [lia|tauto].
Qed.

Lemma runs_to_n l : Forall (fun r => 0 <= fst r /\ fst r < snd r) l ->
  runs l = map Z.of_nat (asked_points (map to_n l)).
Proof.
  unfold runs, asked_points. induction l as [|[a b] l IH]; intros H; [reflexivity|].
  inversion H as [|? ? [H1 H2] Hl]; subst. cbn [map flat_map fst snd to_n] in *. rewrite map_app, (IH Hl). f_equal.
  unfold py_range.
  replace (N.to_nat (Z.to_N b) - N.to_nat (Z.to_N a))%nat with (Z.to_nat (b - a)) by lia.
  generalize (Z.to_nat (b - a)) as n. intros n.
  replace (N.to_nat (Z.to_N a)) with (Z.to_nat a + 0)%nat by lia.
  generalize 0%nat as q. induction n as [|n IHn]; intros q; [reflexivity|].
  cbn [seq map]. f_equal; [lia|]. rewrite IHn. do 2 f_equal. lia.
Qed.

Lemma filter_shift (p : nat -> bool) : forall n s,
  filter p (seq (S s) n) = map S (filter (fun k => p (S k)) (seq s n)).
Proof.
  induction n as [|n IH]; intros s; [reflexivity|]. cbn [seq filter map].
  rewrite IH. destruct (p (S s)); reflexivity.
Qed.

Lemma positions_true m : forall i, positions (Z.of_nat i) m = map (fun k => Z.of_nat (i + k)) (true_points m).
Proof.
  unfold true_points. induction m as [|b m IH]; intros i; [reflexivity|].
  cbn [positions length seq filter nth]. rewrite filter_shift. cbn [nth].
  replace (Z.of_nat i + 1) with (Z.of_nat (S i)) by lia. rewrite IH.
  destruct b; cbn [map]; rewrite map_map.
  - f_equal; [f_equal; lia|]. apply map_ext. intros k. f_equal. lia.
  - apply map_ext. intros k. f_equal. lia.
Qed.

Lemma separated_sorted hi l : forall lo, -1 <= lo -> separated lo hi l ->
  StronglySorted (fun a b => snd a <= fst b)%N (map to_n l) /\
  Forall (fun r => lo < fst r) l.
Proof.
  induction l as [|[a b] l IH]; intros lo Hlo H; [split; constructor|]. cbn in H. destruct H as [Ha [Hb H]].
  destruct (IH b ltac:(lia) H) as [H1 H2]. split.
  - cbn [map]. constructor; [exact H1|]. rewrite Forall_map. eapply Forall_impl; [|exact H2].
    intros [c d]. cbn [to_n fst snd]. lia.
  - constructor; [cbn; lia|]. eapply Forall_impl; [|exact H2]. intros [c d]. cbn [fst]. lia.
Qed.

Theorem from_mask_exact parsing parse s s' (m : list bool) hash :
  text_ok parsing parse s s' -> existsb (fun b => b) m = true -> (2 * lenN m < two64)%N ->
  exists r, py_from_mask parsing parse s m hash = Ok r /\
    let l := r_ranges (py_ctype r) in
    asked_points l = true_points m /\
    good_request (lenN m) l /\ Forall (fun i => fst i < snd i)%N l /\ check_intervals l = Ok true /\
    py_indices r = map Z.of_nat (true_points m) /\ py_shape r = shape_of l /\
    r_string (py_ctype r) = s' /\ r_hash (py_ctype r) = c_string hash.
Proof.
  intros Ht He Hm. destruct (mask_ranges_spec m He) as [l [Hl [Hs Hr]]].
  pose proof (separated_forall (-1) _ l ltac:(lia) Hs) as Hf.
  assert (Hne : l <> []).
  { intros ->. cbn in Hr. apply existsb_exists in He. destruct He as [b [Hin Hb]]. subst b.
    apply In_nth with (d := false) in Hin. destruct Hin as [n [Hn Hv]].
    change 0 with (Z.of_nat 0) in Hr. rewrite positions_true in Hr.
    assert (Hi : In n (true_points m)).
    { unfold true_points. apply filter_In. split; [apply in_seq; lia|exact Hv]. }
    destruct (true_points m); [contradiction|discriminate]. }
  assert (Hlen : (2 * lenN l < two64)%N).
  { assert (Q : forall l lo hi, -1 <= lo <= hi -> separated lo hi l -> Z.of_nat (length l) <= hi - lo).
    { clear. induction l as [|[a b] l IH]; intros lo hi H1 H; cbn [length]; [lia|].
      cbn in H. destruct H as [Ha [Hb H]]. specialize (IH b hi ltac:(lia) H). lia. }
    specialize (Q l (-1) (Z.of_nat (length m)) ltac:(lia) Hs).
    assert (Hl1 : (length l <= length m)%nat).
    { destruct l as [|[a b] l]; [contradiction|]. cbn in Hs. destruct Hs as [Ha [Hb Hs]].
      assert (Q2 : Z.of_nat (length l) <= Z.of_nat (length m) - b).
      { clear -Hs Ha Hb. revert b a Ha Hb Hs. induction l as [|[c d] l IH]; intros b a Ha Hb H; cbn [length]; [lia|].
        cbn in H. destruct H as [Hc [Hd H]]. specialize (IH d c ltac:(lia) Hd H). lia. }
      cbn [length]. lia. }
    unfold lenN in *. lia. }
  assert (Hf' : Forall (fun r => 0 <= fst r /\ fst r < snd r /\ snd r < Z.of_N two64) l).
  { eapply Forall_impl; [|exact Hf]. intros r. cbn beta. intros [H1 [H2 H3]]. unfold lenN in Hm. clear -H1 H2 H3 Hm. lia. }
  assert (Hf2 : Forall (fun r => 0 <= fst r /\ fst r < snd r) l).
  { eapply Forall_impl; [|exact Hf]. intros r. cbn beta. tauto. }
  eexists. split.
  { unfold py_from_mask. rewrite Hl. cbn [obind]. apply (new_request_ok _ _ _ s'); auto. }
  cbn zeta. cbn [py_ctype r_ranges r_string r_hash py_shape].
  assert (Hp : asked_points (map to_n l) = true_points m).
  { pose proof (runs_to_n l Hf2) as Q. rewrite Hr in Q. change 0 with (Z.of_nat 0) in Q.
    rewrite positions_true in Q. cbn [Nat.add] in Q. symmetry in Q. clear -Q.
    revert Q. generalize (true_points m) as y. generalize (asked_points (map to_n l)) as x. intros x.
    induction x as [|a x IH]; intros [|b y] Q; cbn in Q; try discriminate; [reflexivity|].
    injection Q as Q1 Q2. f_equal; [lia|apply IH; exact Q2]. }
  assert (Hg : good_request (lenN m) (map to_n l)).
  { split; [destruct l; [contradiction|discriminate]|]. split.
    - rewrite Forall_map. eapply Forall_impl; [|exact Hf]. intros [a b]. cbn [to_n fst snd]. unfold lenN. lia.
    - exact (proj1 (separated_sorted (Z.of_nat (length m)) l (-1) ltac:(lia) Hs)). }
  split; [exact Hp|]. split; [exact Hg|]. split.
  { rewrite Forall_map. eapply Forall_impl; [|exact Hf]. intros [a b]. cbn [to_n fst snd]. lia. }
  split; [exact (check_ok _ _ Hg)|]. split.
  { unfold py_indices. cbn [py_ranges]. fold (runs l). rewrite runs_to_n by exact Hf2. rewrite Hp. reflexivity. }
  split; [|split; reflexivity].
  unfold shape_of. rewrite map_map. apply map_ext_in. intros r Hr'. rewrite Forall_forall in Hf2.
  specialize (Hf2 r Hr'). unfold to_n. cbn [fst snd]. lia.
Qed.

Theorem from_mask_empty parsing parse s (m : list bool) hash :
  existsb (fun b => b) m = false -> py_from_mask parsing parse s m hash = Throw EBadValue.
Proof. intros H. unfold py_from_mask, mask_ranges. rewrite H. reflexivity. Qed.

Theorem from_indices_exact parsing parse s s' (points : list N) hash :
  text_ok parsing parse s s' -> points <> [] -> (2 * lenN points < two64)%N ->
  Forall (fun p => p + 1 < two64)%N points ->
  exists r, py_from_indices parsing parse s (map Z.of_N points) hash = Ok r /\
    r_ranges (py_ctype r) = map (fun p => (p, p + 1)%N) points /\
    asked_points (r_ranges (py_ctype r)) = map N.to_nat points /\
    py_indices r = map Z.of_N points /\ py_shape r = map (fun _ => 1) points /\
    r_string (py_ctype r) = s' /\ r_hash (py_ctype r) = c_string hash.
Proof.
  intros Ht Hne Hl Hp. eexists. split.
  { unfold py_from_indices. apply (new_request_ok _ _ _ s').
    - exact Ht.
    - destruct points; [contradiction|discriminate].
    - unfold index_ranges, lenN. rewrite !map_length. exact Hl.
    - unfold index_ranges. rewrite !Forall_map. eapply Forall_impl; [|exact Hp]. intros p. cbn [fst snd]. lia. }
  cbn [py_ctype r_ranges r_string r_hash py_shape].
  assert (E : map to_n (index_ranges (map Z.of_N points)) = map (fun p => (p, p + 1)%N) points).
  { unfold index_ranges. rewrite !map_map. apply map_ext. intros p. unfold to_n. cbn [fst snd]. f_equal; lia. }
  rewrite E. split; [reflexivity|]. split.
  { clear. unfold asked_points. induction points as [|p points IH]; [reflexivity|]. cbn [map flat_map fst snd].
    replace (N.to_nat (p + 1) - N.to_nat p)%nat with 1%nat by lia. cbn [seq app]. rewrite IH. reflexivity. }
  split.
  { clear. unfold py_indices, index_ranges. cbn [py_ranges].
    induction points as [|p points IH]; [reflexivity|]. cbn [map flat_map fst snd]. rewrite IH.
    rewrite py_range_step by lia. rewrite py_range_empty. reflexivity. }
  split; [|split; reflexivity].
  unfold index_ranges. rewrite !map_map. apply map_ext. intros p. cbn [fst snd]. lia.
Qed.

(* an index that is no size_t is refused *)
Theorem from_indices_bad parsing parse s (points : list Z) hash :
  points = [] \/ Exists (fun p => p < 0 \/ Z.of_N two64 <= p + 1) points ->
  exists e, py_from_indices parsing parse s points hash = Throw e.
Proof.
  intros H. apply new_request_bad. destruct H as [->|H]; [left; reflexivity|right].
  unfold index_ranges. rewrite Exists_exists in *. destruct H as [p [Hi Hp]].
  exists (p, p + 1). split; [apply in_map_iff; eauto|]. cbn [fst snd]. lia.
Qed.

(* the server accepts the ranges of an index list iff the indices are increasing *)
Theorem indices_accepted (points : list N) : points <> [] ->
  check_intervals (map (fun p => (p, p + 1)%N) points) = Ok true <-> StronglySorted N.lt points.
Proof.
  intros Hne. unfold check_intervals.
  assert (E : (lenN (map (fun p => (p, p + 1)%N) points) =? 0)%N = false).
  { destruct points; [contradiction|]. apply N.eqb_neq. unfold lenN. cbn [map length]. lia. }
  rewrite E. cbn [negb assert_ obind]. clear E Hne.
  assert (Q : increasing (map (fun p => (p, p + 1)%N) points) = true <-> Sorted N.lt points).
  { induction points as [|a [|b points] IH].
    - split; [constructor|reflexivity].
    - split; [repeat constructor|reflexivity].
    - cbn [map increasing fst snd] in *. rewrite andb_true_iff, N.leb_le, IH. split.
      + intros [H1 H2]. constructor; [exact H2|]. constructor. lia.
      + intros H. inversion H as [|? ? H1 H2]; subst. inversion H2; subst. split; [lia|exact H1]. }
  split.
  - intros H. injection H as H. apply Q in H. apply Sorted_StronglySorted; [|exact H].
    intros x y z. apply N.lt_trans.
  - intros H. f_equal. apply Q. apply StronglySorted_Sorted. exact H.
Qed.
