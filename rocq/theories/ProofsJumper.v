From Verif Require Import Base BaseLemmas ModelRange ModelSimple ModelCcsds ModelInfo ModelJumper
     SpecRange SpecSimple SpecCcsds SpecJumper ProofsRange ProofsSimple ProofsCcsds.
Open Scope nat_scope.

(* ---- masks ---- *)
Lemma testbit_fold (bm : list bool) i (l : list nat) : NoDup l -> forall j,
  N.testbit (fold_right (fun j acc => N.lor (match nth_error bm (i * 64 + j) with
        | Some true => N.shiftl 1 (N.of_nat j) | _ => 0%N end) acc) 0%N l) (N.of_nat j) =
  (if in_dec Nat.eq_dec j l then nth (i * 64 + j) bm false else false).
Proof.
  induction 1 as [|x l Hx Hl IH]; intros j; cbn [fold_right].
  - apply N.bits_0.
  - rewrite N.lor_spec, IH.
    assert (Hb : N.testbit (match nth_error bm (i * 64 + x) with
        | Some true => N.shiftl 1 (N.of_nat x) | _ => 0%N end) (N.of_nat j) =
        if Nat.eq_dec x j then nth (i * 64 + j) bm false else false).
    { destruct (nth_error bm (i * 64 + x)) as [[|]|] eqn:E.
      - rewrite N.shiftl_1_l, N.pow2_bits_eqb. destruct (Nat.eq_dec x j) as [->|Hne].
        + rewrite N.eqb_refl. symmetry. now apply nth_error_nth.
        + apply N.eqb_neq. lia.
      - rewrite N.bits_0. destruct (Nat.eq_dec x j) as [->|]; auto. symmetry. now apply nth_error_nth.
      - rewrite N.bits_0. destruct (Nat.eq_dec x j) as [->|]; auto. symmetry.
        apply nth_overflow. now apply nth_error_None. }
    rewrite Hb. destruct (in_dec Nat.eq_dec j (x :: l)) as [Hi|Hi]; destruct (in_dec Nat.eq_dec j l) as [Hi'|Hi'];
      destruct (Nat.eq_dec x j) as [He|Hne]; try reflexivity; cbn [In] in Hi; try (subst; tauto).
    now rewrite orb_false_r.
Qed.

Lemma mask_word_bit bm i j : j < 64 -> N.testbit (mask_word bm i) (N.of_nat j) = nth (i * 64 + j) bm false.
Proof.
  intros Hj. unfold mask_word. rewrite testbit_fold by apply seq_NoDup.
  destruct (in_dec Nat.eq_dec j (seq 0 64)) as [|n]; auto. exfalso. apply n. apply in_seq. lia.
Qed.

Lemma mask_word_lt bm i : (mask_word bm i < two64)%N.
Proof.
  change two64 with (2 ^ 64)%N.
  destruct (N.eq_dec (mask_word bm i) 0) as [->|H0]; [reflexivity|].
  apply N.log2_lt_pow2; [lia|].
  destruct (N.lt_ge_cases (N.log2 (mask_word bm i)) 64) as [|Hge]; auto. exfalso.
  pose proof (N.bit_log2 _ H0) as Hb.
  set (k := N.log2 (mask_word bm i)) in *.
  replace k with (N.of_nat (N.to_nat k)) in Hb by lia.
  unfold mask_word in Hb. rewrite testbit_fold in Hb by apply seq_NoDup.
  destruct (in_dec Nat.eq_dec (N.to_nat k) (seq 0 64)) as [Hi|]; [|discriminate].
  apply in_seq in Hi. lia.
Qed.

Lemma to_bitset_mask bm : is_mask bm (to_bitset bm).
Proof.
  unfold is_mask, to_bitset. rewrite map_length, seq_length. split; auto.
  intros i w Hw. rewrite nth_error_map in Hw.
  destruct (nth_error (seq 0 ((length bm + 63) / 64)) i) as [k|] eqn:E; simpl in Hw; [|discriminate].
  injection Hw as <-.
  assert (k = i).
  { assert (i < (length bm + 63) / 64) by (apply nth_error_Some' in E || (rewrite <- (seq_length ((length bm + 63) / 64) 0); apply nth_error_Some; congruence)).
    rewrite nth_error_nth' with (d := 0) in E by (rewrite seq_length; auto).
    injection E as <-. now rewrite seq_nth. }
  subst k. split; [apply mask_word_lt|]. intros; now apply mask_word_bit.
Qed.

Lemma is_mask_unique bm w : is_mask bm w -> w = to_bitset bm.
Proof.
  intros [Hl Hw]. destruct (to_bitset_mask bm) as [Hl' Hw'].
  apply nth_error_ext'; [congruence|].
  intros i Hi. destruct (nth_error w i) as [x|] eqn:E; [|apply nth_error_None in E; lia].
  destruct (nth_error (to_bitset bm) i) as [y|] eqn:E'; [|apply nth_error_None in E'; lia].
  f_equal. destruct (Hw _ _ E) as [B1 T1]. destruct (Hw' _ _ E') as [B2 T2].
  apply N.bits_inj. intros k. destruct (N.lt_ge_cases k 64) as [Hk|Hk].
  - replace k with (N.of_nat (N.to_nat k)) by lia. rewrite T1, T2 by lia. reflexivity.
  - assert (Hz : forall z, (z < two64)%N -> N.testbit z k = false).
    { intros z Hz. destruct (N.eq_dec z 0) as [->|]; [apply N.bits_0|].
      apply N.bits_above_log2. eapply N.lt_le_trans; [|apply Hk]. apply N.log2_lt_pow2; [lia|exact Hz]. }
    rewrite !Hz; auto.
Qed.

(* ---- counting ---- *)
Definition missing_before (bm : list bool) (p : nat) : nat := length (filter negb (firstn p bm)).

Lemma count_split (bm : list bool) : length (filter negb bm) + length (filter (fun b => b) bm) = length bm.
Proof. induction bm as [|[|] r IH]; simpl; lia. Qed.

Lemma missing_present bm p : p <= length bm -> missing_before bm p + present_before bm p = p.
Proof.
  intros H. unfold missing_before, present_before. rewrite count_split, firstn_length. lia.
Qed.

Lemma firstn_slice_app {A} (l : list A) a b : a <= b -> firstn b l = firstn a l ++ slice l a (b - a).
Proof.
  intros H. unfold slice. rewrite <- (firstn_skipn a (firstn b l)) at 1.
  rewrite firstn_firstn. replace (Nat.min a b) with a by lia. f_equal.
  rewrite firstn_skipn_comm. f_equal. f_equal. lia.
Qed.

Lemma missing_slice bm a b : a <= b -> missing_before bm b = missing_before bm a + length (filter negb (slice bm a (b - a))).
Proof. intros H. unfold missing_before. rewrite (firstn_slice_app bm a b H), filter_app, app_length. reflexivity. Qed.

Lemma present_slice bm a b : a <= b ->
  present_before bm b = present_before bm a + length (filter (fun b => b) (slice bm a (b - a))).
Proof. intros H. unfold present_before. rewrite (firstn_slice_app bm a b H), filter_app, app_length. reflexivity. Qed.

Lemma present_mono bm a b : a <= b -> present_before bm a <= present_before bm b.
Proof. intros. rewrite (present_slice bm a b) by auto. lia. Qed.

(* ---- calculateMaskedIntervals ---- *)
Section Masked.
  Variable bm : list bool.
  Hypothesis bm_small : (lenN bm < two64)%N.

  Definition ext (k : bool) (b e : N) : ext_interval :=
    let part := slice bm (N.to_nat b) (N.to_nat (e - b)) in mk_ext k b e (lenN (filter negb part)) part.

  Lemma make_ext_ok k b e : (b <= e)%N -> (e <= lenN bm)%N -> make_ext k bm b e = Ok (ext k b e).
  Proof.
    intros H1 H2. unfold make_ext, ext.
    destruct ((b <=? e) && (e <=? lenN bm))%N eqn:E; auto. apply andb_false_iff in E. lia.
  Qed.

  Fixpoint gaps_from (x : N) (l : list (N * N)) : list ext_interval :=
    match l with [] => [] | (b, e) :: r => ext false x b :: gaps_from e r end.

  Fixpoint chain (x : N) (l : list (N * N)) : Prop :=
    match l with
    | [] => (x <= lenN bm)%N
    | (b, e) :: r => (x <= b)%N /\ (b <= e)%N /\ chain e r
    end.

  Lemma chain_bound x l : chain x l -> (x <= lenN bm)%N.
  Proof. revert x; induction l as [|[b e] r IH]; simpl; intros x H; auto. destruct H as (H1 & H2 & H3). apply IH in H3. lia. Qed.

  Lemma make_gaps_ok : forall l b0 e0, chain e0 l ->
    make_gaps bm (ext true b0 e0 :: map (fun i => ext true (fst i) (snd i)) l) = Ok (gaps_from e0 l).
  Proof.
    induction l as [|[b e] r IH]; intros b0 e0 H; [reflexivity|].
    cbn [map fst snd]. cbn [chain] in H. destruct H as (H1 & H2 & H3).
    transitivity (let* g := make_ext false bm e0 b in
                  let* gs := make_gaps bm (ext true b e :: map (fun i => ext true (fst i) (snd i)) r) in Ok (g :: gs));
      [reflexivity|].
    rewrite make_ext_ok; auto.
    2:{ apply chain_bound in H3. lia. }
    rewrite (IH b e H3). reflexivity.
  Qed.

  Definition new_of (i : N * N) : (N * N) * list bool :=
    ((N.of_nat (present_before bm (N.to_nat (fst i))), N.of_nat (present_before bm (N.to_nat (snd i)))), cut bm i).

  Notation by_begin := (fun a b => e_begin a <? e_begin b)%N.

  Lemma ext_missing k x b : (x <= b)%N ->
    e_missing (ext k x b) = N.of_nat (missing_before bm (N.to_nat b) - missing_before bm (N.to_nat x)).
  Proof.
    intros H. cbn [ext e_missing]. unfold lenN.
    rewrite (missing_slice bm (N.to_nat x) (N.to_nat b)) by lia.
    replace (N.to_nat (b - x)) with (N.to_nat b - N.to_nat x) by lia. f_equal. lia.
  Qed.

  Lemma miss_le p : (p <= lenN bm)%N -> (N.of_nat (missing_before bm (N.to_nat p)) <= p)%N.
  Proof. intros H. pose proof (missing_present bm (N.to_nat p)). unfold lenN in *. lia. Qed.

  Lemma new_head x b e : (x <= b)%N -> (b <= e)%N -> (e <= lenN bm)%N -> x = b ->
    ((sub64 b (N.of_nat (missing_before bm (N.to_nat x))),
      sub64 (sub64 e (N.of_nat (missing_before bm (N.to_nat x)))) (e_missing (ext true b e))), e_bitmap (ext true b e)) =
    new_of (b, e).
  Proof.
    intros H1 H2 H3 ->. unfold new_of. cbn [fst snd]. rewrite ext_missing by auto.
    pose proof (miss_le b ltac:(lia)). pose proof (miss_le e ltac:(lia)).
    pose proof (missing_present bm (N.to_nat b) ltac:(unfold lenN in *; lia)).
    pose proof (missing_present bm (N.to_nat e) ltac:(unfold lenN in *; lia)).
    pose proof (missing_slice bm (N.to_nat b) (N.to_nat e) ltac:(lia)).
    rewrite !sub64_small by (rewrite ?sub64_small by (unfold two64 in *; lia); unfold two64 in *; lia).
    f_equal.
    - f_equal; lia.
    - unfold cut. cbn [ext e_bitmap fst snd]. f_equal. lia.
  Qed.

  Lemma add_cum x b : (x <= b)%N -> (b <= lenN bm)%N ->
    add64 (N.of_nat (missing_before bm (N.to_nat x))) (e_missing (ext false x b)) =
    N.of_nat (missing_before bm (N.to_nat b)).
  Proof.
    intros H1 H2. rewrite ext_missing by auto.
    pose proof (miss_le b H2). pose proof (missing_slice bm (N.to_nat x) (N.to_nat b) ltac:(lia)).
    rewrite add64_small; unfold two64 in *; lia.
  Qed.

  Lemma add_cum_i b e : (b <= e)%N -> (e <= lenN bm)%N ->
    add64 (N.of_nat (missing_before bm (N.to_nat b))) (e_missing (ext true b e)) =
    N.of_nat (missing_before bm (N.to_nat e)).
  Proof. intros. rewrite <- (add_cum b e) by auto. reflexivity. Qed.

  Definition empty_gap (x : N) (g : ext_interval) : Prop :=
    e_is_interval g = false /\ e_missing g = 0%N /\ (e_begin g <= x)%N.

  Lemma no_intervals cum l : Forall (fun g => e_is_interval g = false) l -> new_intervals cum l = [].
  Proof. intros H. revert cum. induction H; intros; simpl; auto. rewrite H. apply IHForall. Qed.

  Lemma merge_step (f : nat) x r1 l2 :
    Forall (fun g => e_begin x <= e_begin g)%N l2 -> length r1 + length l2 <= f ->
    std_merge by_begin (S f) (x :: r1) l2 = x :: std_merge by_begin f r1 l2.
  Proof.
    intros H Hf. cbn [std_merge]. destruct l2 as [|y r2].
    - destruct r1; destruct f; try reflexivity. simpl in Hf. lia.
    - inversion H; subst. destruct (e_begin y <? e_begin x)%N eqn:E; [lia|]. reflexivity.
  Qed.

  Lemma gaps_begin x l : chain x l -> Forall (fun g => x <= e_begin g)%N (gaps_from x l).
  Proof.
    revert x. induction l as [|[b e] r IH]; intros x H; simpl; constructor; cbn [chain] in H; destruct H as (H1 & H2 & H3).
    - simpl. lia.
    - specialize (IH e H3). eapply Forall_impl; [|apply IH]. simpl. intros. lia.
  Qed.

  Lemma gaps_length x l : length (gaps_from x l) = length l.
  Proof. revert x; induction l as [|[? ?] ? IH]; intros; simpl; auto. Qed.

  Lemma step_interval cum b e l : (b <= e)%N -> (e <= lenN bm)%N -> cum = N.of_nat (missing_before bm (N.to_nat b)) ->
    new_intervals cum (ext true b e :: l) =
    new_of (b, e) :: new_intervals (N.of_nat (missing_before bm (N.to_nat e))) l.
  Proof.
    intros H1 H2 ->. pose proof (new_head b b e) as Hh. pose proof (add_cum_i b e H1 H2) as Ha.
    cbn [new_intervals]. rewrite Ha.
    change (e_is_interval (ext true b e)) with true. cbv iota.
    change (e_begin (ext true b e)) with b. change (e_end (ext true b e)) with e.
    rewrite Hh by (auto; lia). reflexivity.
  Qed.

  Lemma merged_new : forall fuel l pend x,
    chain x l -> Forall (empty_gap x) pend ->
    length l + length pend + length l <= fuel ->
    new_intervals (N.of_nat (missing_before bm (N.to_nat x)))
      (std_merge by_begin fuel (map (fun i => ext true (fst i) (snd i)) l) (pend ++ gaps_from x l)) = map new_of l.
  Proof.
    induction fuel as [fuel IHf] using lt_wf_ind. intros l pend x Hc Hp Hf.
    destruct l as [|[b e] r].
    - cbn [map gaps_from]. rewrite app_nil_r. destruct fuel; cbn [std_merge]; [reflexivity|].
      apply no_intervals. eapply Forall_impl; [|apply Hp]. intros g (G & _); auto.
    - cbn [chain] in Hc. destruct Hc as (C1 & C2 & C3). pose proof (chain_bound _ _ C3) as C4.
      cbn [length] in Hf. destruct fuel as [|fuel]; [lia|].
      cbn [map fst snd gaps_from]. destruct pend as [|p pend].
      + (* the gap before this interval *)
        cbn [app]. destruct (N.lt_ge_cases x b) as [Hlt|Hge].
        * cbn [std_merge]. change (e_begin (ext false x b)) with x. change (e_begin (ext true b e)) with b.
          destruct (x <? b)%N eqn:E; [|lia].
          cbn [new_intervals]. change (e_is_interval (ext false x b)) with false. cbv iota.
          rewrite add_cum by lia.
          destruct fuel as [|fuel]; [simpl in Hf; lia|].
          rewrite merge_step.
          -- rewrite step_interval by (auto; lia). f_equal.
             apply (IHf fuel ltac:(lia) r [] e); auto. simpl in *. lia.
          -- eapply Forall_impl; [|apply gaps_begin; eauto]. change (e_begin (ext true b e)) with b. simpl. intros; lia.
          -- rewrite map_length, gaps_length. simpl in Hf. lia.
        * assert (x = b) by lia. subst x.
          rewrite merge_step.
          -- rewrite step_interval by (auto; lia). f_equal.
             apply (IHf fuel ltac:(lia) r [ext false b b] e); auto.
             ++ constructor; auto. repeat split.
                ** rewrite ext_missing by lia. rewrite Nat.sub_diag. reflexivity.
                ** cbn. lia.
             ++ simpl in *. lia.
          -- constructor; [cbn; lia|]. eapply Forall_impl; [|apply gaps_begin; eauto].
             change (e_begin (ext true b e)) with b. simpl. intros; lia.
          -- cbn [length]. rewrite map_length, gaps_length. simpl in Hf. lia.
      + inversion Hp as [|? ? [P1 [P2 P3]] Hp']; subst. cbn [app].
        destruct (N.lt_ge_cases (e_begin p) b) as [Hlt|Hge].
        * cbn [std_merge]. change (e_begin (ext true b e)) with b.
          destruct (e_begin p <? b)%N eqn:E; [|lia].
          cbn [new_intervals]. rewrite P1, P2. cbv iota.
          replace (add64 (N.of_nat (missing_before bm (N.to_nat x))) 0) with (N.of_nat (missing_before bm (N.to_nat x))).
          2:{ pose proof (miss_le x). unfold add64. rewrite N.add_0_r, w64_small; auto. unfold two64 in *. lia. }
          apply (IHf fuel ltac:(lia) ((b, e) :: r) pend x); auto.
          -- cbn [chain]. auto.
          -- simpl in *. lia.
        * assert (x = b) by lia. subst x.
          (* every pending gap begins at b *)
          assert (Hb : std_merge by_begin (S fuel) (ext true b e :: map (fun i => ext true (fst i) (snd i)) r)
                         (p :: pend ++ ext false b b :: gaps_from e r) =
                       ext true b e :: std_merge by_begin fuel (map (fun i => ext true (fst i) (snd i)) r)
                         (p :: pend ++ ext false b b :: gaps_from e r)).
          { cbn [std_merge]. change (e_begin (ext true b e)) with b.
            destruct (e_begin p <? b)%N eqn:E; [lia|]. reflexivity. }
          rewrite Hb. rewrite step_interval by (auto; lia). f_equal.
          specialize (IHf fuel ltac:(lia) r (p :: pend ++ [ext false b b]) e C3).
          rewrite <- IHf.
          -- cbn [app]. rewrite <- app_assoc. reflexivity.
          -- constructor; [repeat split; auto; lia|]. apply Forall_app. split.
             ++ eapply Forall_impl; [|apply Hp']. intros g (G1 & G2 & G3). repeat split; auto. lia.
             ++ constructor; auto. repeat split.
                ** rewrite ext_missing by lia. rewrite Nat.sub_diag. reflexivity.
                ** cbn. lia.
          -- cbn [length]. rewrite app_length. simpl in *. lia.
  Qed.

  Lemma request_chain l x : Forall (fun i => fst i <= snd i <= lenN bm)%N l ->
    StronglySorted (fun a b => snd a <= fst b)%N l -> (x <= lenN bm)%N ->
    Forall (fun i => x <= fst i)%N l -> chain x l.
  Proof.
    intros H1 H2. revert x. induction H2 as [|[b e] r Hs IH Hall]; intros x Hx Hxl; simpl; auto.
    inversion H1; subst. inversion Hxl; subst. simpl in *. repeat split; try lia.
    apply IH; auto; try lia.
  Qed.

  Lemma masked_intervals_ok l : good_request (lenN bm) l ->
    calculate_masked_intervals l bm = Ok (map new_of l).
  Proof.
    intros (H0 & H1 & H2). unfold calculate_masked_intervals.
    rewrite mapM_ok_ext with (g := fun i => ext true (fst i) (snd i)).
    2:{ eapply Forall_impl; [|apply H1]. intros i Hi. simpl in Hi. apply make_ext_ok; lia. }
    destruct l as [|[b e] r]; [congruence|]. cbn [map obind fst snd].
    inversion H1; subst. inversion H2; subst. cbn [fst snd] in *.
    assert (Hc : chain e r).
    { apply request_chain; auto. lia. }
    rewrite make_ext_ok by (cbn; lia). cbn [obind].
    rewrite make_gaps_ok by auto. cbn [obind]. f_equal.
    cbn [ext e_begin].
    apply (merged_new _ ((b, e) :: r) [] 0%N).
    - cbn [chain]. repeat split; auto; lia.
    - constructor.
    - cbn [length]. rewrite map_length, gaps_length. lia.
  Qed.
End Masked.

Lemma scatter_spec {F} (nan : F) bm vs : forall m b, b + m <= length bm ->
  present_before bm (b + m) <= length vs ->
  scatter nan (slice bm b m) (slice vs (present_before bm b) (present_before bm (b + m) - present_before bm b)) =
  Ok (map (masked_point nan bm vs) (seq b m)).
Proof.
  induction m as [|m IH]; intros b Hb Hp; [reflexivity|].
  destruct (nth_error bm b) as [x|] eqn:Ex; [|apply nth_error_None in Ex; lia].
  assert (Hs : slice bm b (S m) = x :: slice bm (S b) m).
  { unfold slice. rewrite <- (Nat.add_1_r b). rewrite <- (skipn_skipn' bm 1 b).
    assert (exists r, skipn b bm = x :: r) as [r Hr].
    { rewrite <- nth_error_skipn with (n := b) (i := 0) in Ex || idtac.
      pose proof (nth_error_skipn bm b 0) as E. rewrite Nat.add_0_r, Ex in E.
      destruct (skipn b bm); simpl in E; [discriminate|]. injection E as ->. eauto. }
    rewrite Hr. reflexivity. }
  assert (HS : present_before bm (S b) = present_before bm b + (if x then 1 else 0)).
  { rewrite (present_slice bm b (S b)) by lia. f_equal. replace (S b - b) with 1 by lia.
    replace (slice bm b 1) with [x]. { destruct x; reflexivity. }
    apply nth_error_ext'; [rewrite slice_length by lia; reflexivity|].
    intros [|i] Hi; [|simpl in Hi; lia]. rewrite nth_error_slice by lia. rewrite Nat.add_0_r. auto. }
  specialize (IH (S b) ltac:(lia)). replace (S b + m) with (b + S m) in IH by lia. specialize (IH Hp).
  pose proof (present_mono bm (S b) (b + S m) ltac:(lia)) as Hm.
  rewrite Hs. cbn [seq map]. unfold masked_point at 1. rewrite (nth_error_nth _ _ _ Ex).
  destruct x; cbn [scatter]; cbv iota in HS.
  - destruct (nth_error vs (present_before bm b)) as [v|] eqn:Ev; [|apply nth_error_None in Ev; lia].
    replace (slice vs (present_before bm b) (present_before bm (b + S m) - present_before bm b))
      with (v :: slice vs (present_before bm (S b)) (present_before bm (b + S m) - present_before bm (S b))).
    2:{ apply nth_error_ext'.
        - cbn [length]. rewrite !slice_length by lia. lia.
        - cbn [length]. rewrite slice_length by lia. intros [|i] Hi.
          + rewrite nth_error_slice by lia. rewrite Nat.add_0_r. auto.
          + rewrite (nth_error_slice vs (present_before bm b)) by lia. cbn [nth_error]. rewrite nth_error_slice by lia. rewrite HS.
            replace (present_before bm b + 1 + i) with (present_before bm b + S i) by lia. reflexivity. }
    rewrite IH. cbn [obind]. rewrite (nth_error_nth _ _ _ Ev). reflexivity.
  - replace (present_before bm b) with (present_before bm (S b)) by lia. rewrite IH. reflexivity.
Qed.

Lemma cut_length {V} (l : list V) i : (fst i <= snd i <= lenN l)%N -> length (cut l i) = N.to_nat (snd i) - N.to_nat (fst i).
Proof. intros H. unfold cut. apply slice_length. unfold lenN in *. lia. Qed.

Lemma u64_of_Z_small z : (0 <= z < 18446744073709551616)%Z -> u64_of_Z z = Z.to_N z.
Proof. intros H. unfold u64_of_Z. now rewrite Z.mod_small. Qed.

Lemma to_ranges_cut {V} (vs : list V) l : (lenN vs < two64)%N ->
  Forall (fun i => fst i <= snd i <= lenN vs)%N l ->
  Forall (in_field (lenN vs)) (to_ranges l) /\ map (points vs) (to_ranges l) = map (cut vs) l.
Proof.
  intros Hv. induction 1 as [|[b e] r Hi Hr [IH1 IH2]]; [split; [constructor|reflexivity]|].
  cbn [fst snd] in Hi. unfold to_ranges in *. cbn [map fst snd]. rewrite sub64_small by lia.
  split.
  - constructor; auto. unfold in_field. cbn [fst snd]. lia.
  - f_equal; auto. unfold points, cut. cbn [fst snd]. f_equal. lia.
Qed.

Lemma increasing_sorted l : StronglySorted (fun a b => snd a <= fst b)%N l -> increasing l = true.
Proof.
  induction 1 as [|a r Hs IH Hall]; auto. destruct r as [|b r]; auto.
  cbn [increasing] in *. rewrite IH. inversion Hall; subst. rewrite andb_true_r. lia.
Qed.

Lemma check_ok n l : good_request n l -> check_intervals l = Ok true.
Proof.
  intros (H0 & H1 & H2). unfold check_intervals. rewrite increasing_sorted by auto.
  destruct l; [congruence|]. unfold lenN. simpl length.
  destruct (N.of_nat (S (length l)) =? 0)%N eqn:E; [lia|]. reflexivity.
Qed.

Lemma all_true_ok n : (n < 1152921504606846976)%N -> all_true n = Ok (repeat true (N.to_nat n)).
Proof.
  intros H. unfold all_true, alloc. destruct (n / 8 * 1 <? 1152921504606846976)%N eqn:E; [reflexivity|]. lia.
Qed.

Lemma slice_repeat {V} (x : V) n a b : a + b <= n -> slice (repeat x n) a b = repeat x b.
Proof.
  intros H. apply nth_error_ext'; [rewrite slice_length, !repeat_length; auto; rewrite repeat_length; lia|].
  intros i Hi. rewrite slice_length in Hi by (rewrite repeat_length; lia).
  rewrite nth_error_slice by auto. rewrite !nth_error_repeat by lia. reflexivity.
Qed.

Lemma true_masks n l : (n < 144115188075855872)%N -> Forall (fun i => fst i <= snd i <= n)%N l ->
  mapM (fun i : N * N => omap to_bitset (all_true (sub64 (snd i) (fst i)))) l =
  Ok (map to_bitset (map (cut (repeat true (N.to_nat n))) l)).
Proof.
  intros Hn H. rewrite map_map. apply mapM_ok_ext. eapply Forall_impl; [|apply H].
  intros [b e] Hi. cbn [fst snd] in *. rewrite sub64_small by (unfold two64; lia).
  rewrite all_true_ok by lia. unfold omap. cbn [obind]. f_equal. f_equal.
  unfold cut. cbn [fst snd]. rewrite slice_repeat by lia. f_equal. lia.
Qed.

Lemma bits_of_nth buf i : i < 8 * length buf ->
  exists b, nth_error buf (i / 8) = Some b /\ nth_error (bits_of buf) i = Some (N.testbit b (N.of_nat (7 - i mod 8))).
Proof.
  revert i. induction buf as [|x r IH]; intros i Hi; simpl in Hi; [lia|].
  change (bits_of (x :: r)) with (byte_bits x ++ bits_of r).
  destruct (Nat.lt_ge_cases i 8) as [H8|H8].
  - exists x. rewrite Nat.div_small, Nat.mod_small by auto. split; auto.
    rewrite nth_error_app1 by (rewrite byte_bits_length; auto).
    unfold byte_bits. rewrite nth_error_map. rewrite nth_error_nth' with (d := 0) by (rewrite seq_length; auto).
    rewrite seq_nth by auto. reflexivity.
  - destruct (IH (i - 8)) as (b & B1 & B2); [lia|]. exists b.
    replace (i / 8) with (S ((i - 8) / 8)) by lia. cbn [nth_error]. split; auto.
    rewrite nth_error_app2 by (rewrite byte_bits_length; auto). rewrite byte_bits_length, B2.
    do 3 f_equal. lia.
Qed.

Lemma good_weaken n m l : (n <= m)%N -> good_request n l -> good_request m l.
Proof.
  intros H (H0 & H1 & H2). repeat split; auto. eapply Forall_impl; [|apply H1]. simpl. intros; lia.
Qed.

Section File.
  Context {F : Type}.
  Variable file : list N.
  Variable offset : Z.
  Variable inf : info F.

  Lemma section_ok : data_in_file file offset inf ->
    section_of file (data_section offset inf) /\
    slice file (N.to_nat (fst (data_section offset inf))) (N.to_nat (snd (data_section offset inf))) = data_bytes file offset inf /\
    snd (data_section offset inf) = lenN (data_bytes file offset inf).
  Proof.
    intros (H1 & H2 & H3 & H4). unfold data_section, data_bytes, bytes_at, section_of. cbn [fst snd].
    unfold lenN, two63 in *.
    rewrite !u64_of_Z_small by lia. rewrite slice_length by lia.
    rewrite !Z_N_nat. repeat split; auto; lia.
  Qed.

  Lemma bitmap_length : bitmap_in_file file offset inf ->
    length (bitmap file offset inf) = N.to_nat (i_number_of_points inf).
  Proof.
    intros (H1 & H2 & H3). unfold bitmap, bytes_at, bitmap_bytes in *. rewrite firstn_length, bits_of_length, slice_length by lia. lia.
  Qed.

  Lemma read_bitmap_ok : bitmap_in_file file offset inf -> i_bits_per_value inf <> 0%N ->
    read_bitmap file offset inf = Ok (bitmap file offset inf).
  Proof.
    intros Hb Hbpv. pose proof (bitmap_length Hb) as Hlen. destruct Hb as (H1 & H2 & H3). unfold read_bitmap.
    assert (Ha : add64 (i_number_of_points inf) 7 = (i_number_of_points inf + 7)%N) by (apply add64_small; unfold two64; lia).
    rewrite Ha. unfold bitmap_bytes in *.
    destruct ((i_number_of_points inf + 7) / 8 =? 0)%N eqn:E0.
    { f_equal. symmetry. apply length_zero_iff_nil. rewrite Hlen. lia. }
    destruct (i_bits_per_value inf =? 0)%N eqn:E1; [lia|].
    unfold alloc. destruct (i_number_of_points inf * 1 <? 1152921504606846976)%N eqn:E2; [|lia]. cbn [obind].
    destruct (offset + i_offset_before_bitmap inf <? 0)%Z eqn:E3; [lia|].
    destruct (offset + i_offset_before_bitmap inf + Z.of_N ((i_number_of_points inf + 7) / 8) <=? Z.of_nat (length file))%Z eqn:E4; [|lia].
    set (bytes := slice file (Z.to_nat (offset + i_offset_before_bitmap inf)) (N.to_nat ((i_number_of_points inf + 7) / 8))).
    assert (Hbl : length bytes = N.to_nat ((i_number_of_points inf + 7) / 8)) by (unfold bytes; apply slice_length; clear -E3 E4 H1; lia).
    assert (Hbm : bitmap file offset inf = firstn (N.to_nat (i_number_of_points inf)) (bits_of bytes)).
    { unfold bitmap, bytes_at, bitmap_bytes, bytes. do 3 f_equal. clear. lia. }
    rewrite mapM_ok_ext with (g := fun i => nth i (bitmap file offset inf) false).
    - f_equal. apply nth_error_ext'.
      + rewrite map_length, seq_length. auto.
      + rewrite map_length, seq_length. intros i Hi. rewrite nth_error_map.
        rewrite nth_error_nth' with (d := 0) by (rewrite seq_length; auto). rewrite seq_nth by auto. cbn [option_map Nat.add].
        symmetry. apply nth_error_nth'. lia.
    - apply Forall_forall. intros i Hi. apply in_seq in Hi.
      destruct (bits_of_nth bytes i) as (b & B1 & B2). { rewrite Hbl. clear -Hi. lia. }
      unfold at_. rewrite Nat2N.id, B1. cbn [obind]. f_equal.
      rewrite Hbm. symmetry. apply nth_error_nth. rewrite nth_error_firstn by lia. auto.
  Qed.

End File.

Section Message.
  Context {F : Type}.
  Variable A : farith F.
  Variable aec_samples : aec_oracle.
  Variable file : list N.
  Variable offset : Z.
  Variable inf : info F.
  Notation packed := (packed_field A aec_samples file offset inf).
  Notation readv := (read_values A aec_samples file offset inf).
  Notation ext_ := (extract A aec_samples file offset inf).

  Lemma packed_small vs : packed vs -> (lenN vs < 144115188075855872)%N.
  Proof. intros H; destruct H; unfold lenN in *; rewrite map_length; rewrite ?seq_length; lia. Qed.

  Lemma read_values_packed vs l : packed vs -> Forall (fun i => fst i <= snd i <= lenN vs)%N l ->
    readv l = Ok (map (cut vs) l).
  Proof.
    intros Hp Hl. pose proof (packed_small _ Hp) as Hsm.
    destruct (to_ranges_cut vs l) as [Hin Heq]; auto. { unfold two64; lia. }
    rewrite <- Heq. unfold read_values. destruct Hp.
    - rewrite H. cbn [String.eqb Ascii.eqb Bool.eqb]. unfold simple_read_values. rewrite H0.
      apply decode_ranges_ok; auto; [unfold two64; lia|].
      intros [o k] Hr. unfold in_field in Hr. cbn [fst snd] in Hr.
      destruct (section_ok file offset inf H2) as (S1 & S2 & S3). cbv zeta in H3. destruct H3 as [Hw Hb].
      unfold lenN in Hr. rewrite map_length, seq_length in Hr.
      replace (i_bits_per_value inf) with (N.of_nat (N.to_nat (i_bits_per_value inf))) at 1 by lia.
      rewrite simple_decode_in_bounds with (N_ := n); auto; try lia.
      2:{ rewrite S3. unfold lenN. lia. }
      rewrite S2. f_equal. unfold points. cbn [fst snd]. rewrite slice_map, slice_seq by lia.
      apply map_ext. intros i. f_equal. rewrite exact_width_lossless by auto. reflexivity.
    - rewrite H. cbn [String.eqb Ascii.eqb Bool.eqb]. unfold ccsds_read_values. rewrite H0.
      assert (Hne : (lenN offsets =? 0)%N = false) by (apply N.eqb_neq; rewrite H8; clear; lia).
      rewrite Hne. cbn [negb assert_ obind].
      apply decode_ranges_ok; auto; [unfold two64; lia|].
      intros [o k] Hr. unfold in_field in Hr. cbn [fst snd] in Hr.
      destruct (section_ok file offset inf H1) as (S1 & S2 & S3).
      unfold lenN in Hr. rewrite map_length in Hr.
      unfold section_of in S1. destruct S1 as [S1 S1'].
      rewrite ccsds_window_full with (S := S); try rewrite S2; try assumption; try lia.
      unfold points. cbn [fst snd]. now rewrite slice_map.
  Qed.

  Lemma packing_ok vs : packed vs ->
    (if String.eqb (i_packing inf) "grid_simple" then Ok tt
     else if String.eqb (i_packing inf) "grid_ccsds" then Ok tt else Throw ESeriousBug) = Ok tt.
  Proof. intros H; destruct H; rewrite H; reflexivity. Qed.

  (* ---- the bitmap ---- *)
  (* ---- extraction ---- *)
  Lemma extract_prefix l : good_request (two64 - 1) l -> i_spherical inf = 0%Z ->
    (i_packing inf = "grid_simple" \/ i_packing inf = "grid_ccsds")%string ->
    ext_ l = (if (i_bits_per_value inf =? 0)%N then extract_constant inf l
              else if (i_offset_before_bitmap inf =? 0)%Z then extract_no_mask A aec_samples file offset inf l
              else extract_masked A aec_samples file offset inf l).
  Proof.
    intros Hg Hs Hp. unfold extract.
    assert (Hpk : (if String.eqb (i_packing inf) "grid_simple" then Ok tt
     else if String.eqb (i_packing inf) "grid_ccsds" then Ok tt else Throw ESeriousBug) = Ok tt).
    { destruct Hp as [Hp|Hp]; rewrite Hp; reflexivity. }
    rewrite Hpk. cbn [obind]. rewrite (check_ok _ _ Hg). cbn [obind assert_]. rewrite Hs. reflexivity.
  Qed.

  Lemma packed_packing vs : packed vs -> (i_packing inf = "grid_simple" \/ i_packing inf = "grid_ccsds")%string.
  Proof. intros H; destruct H; auto. Qed.

  Theorem extract_field field present l :
    field_of_message A aec_samples file offset inf field present -> i_spherical inf = 0%Z ->
    good_request (lenN field) l ->
    ext_ l = Ok (map (cut field) l, map to_bitset (map (cut present) l)).
  Proof.
    intros Hf Hs Hg. destruct Hf.
    - assert (Hln : lenN (repeat (i_reference inf) (N.to_nat (i_number_of_points inf))) = i_number_of_points inf)
        by (unfold lenN; rewrite repeat_length; lia).
      rewrite Hln in Hg.
      rewrite extract_prefix; auto. 2:{ eapply good_weaken; [|apply Hg]. unfold two64; lia. }
      rewrite H. cbn [N.eqb]. unfold extract_constant. destruct Hg as (G0 & G1 & G2).
      rewrite mapM_ok_ext with (g := cut (repeat (i_reference inf) (N.to_nat (i_number_of_points inf)))).
      2:{ eapply Forall_impl; [|apply G1]. intros [b e] Hi. cbn [fst snd] in *.
          rewrite sub64_small by (unfold two64; lia). unfold alloc.
          destruct ((e - b) * 8 <? 1152921504606846976)%N eqn:E; [|lia]. cbn [obind]. f_equal.
          unfold cut. cbn [fst snd]. rewrite slice_repeat by lia. f_equal. lia. }
      cbn [obind]. rewrite true_masks with (n := i_number_of_points inf) by auto. reflexivity.
    - pose proof (packed_small _ H1) as Hsm.
      rewrite extract_prefix; auto.
      2:{ eapply good_weaken; [|apply Hg]. unfold two64; lia. }
      2:{ eapply packed_packing; eauto. }
      destruct (i_bits_per_value inf =? 0)%N eqn:E; [lia|]. rewrite H0. cbn [Z.eqb].
      unfold extract_no_mask. destruct Hg as (G0 & G1 & G2).
      rewrite read_values_packed with (vs := vs) by auto. cbn [obind].
      rewrite true_masks with (n := lenN vs) by auto. cbn [obind]. unfold lenN. now rewrite Nat2N.id.
    - pose proof (packed_small _ H2) as Hsm. pose proof (bitmap_length file offset inf H1) as Hbl.
      assert (Hnp : (i_number_of_points inf < 1152921504606846976)%N) by (destruct H1 as (_ & _ & ?); auto).
      set (bm := bitmap file offset inf) in *.
      assert (Hlf : lenN (masked_field (f_nan A) bm vs) = lenN bm) by (unfold lenN, masked_field; now rewrite map_length, seq_length).
      rewrite Hlf in Hg.
      assert (Hbs : (lenN bm < 1152921504606846976)%N) by (unfold lenN; lia).
      rewrite extract_prefix; auto.
      2:{ eapply good_weaken; [|apply Hg]. unfold two64; lia. }
      2:{ eapply packed_packing; eauto. }
      destruct (i_bits_per_value inf =? 0)%N eqn:E; [lia|].
      destruct (i_offset_before_bitmap inf =? 0)%Z eqn:E'; [lia|].
      unfold extract_masked. rewrite read_bitmap_ok by auto. cbn [obind]. fold bm.
      rewrite masked_intervals_ok; auto. 2:{ unfold two64; lia. }
      cbn [obind]. destruct Hg as (G0 & G1 & G2).
      rewrite read_values_packed with (vs := vs); auto.
      2:{ rewrite map_map. apply Forall_map. eapply Forall_impl; [|apply G1].
          intros [b e] Hi. unfold new_of. cbn [fst snd] in *.
          pose proof (present_mono bm (N.to_nat b) (N.to_nat e) ltac:(lia)).
          pose proof (present_mono bm (N.to_nat e) (length bm) ltac:(unfold lenN in *; lia)).
          unfold lenN. lia. }
      cbn [obind].
      assert (Hsc : scatter_all (f_nan A) (map snd (map (new_of bm) l)) (map (cut vs) (map fst (map (new_of bm) l))) =
                    Ok (map (cut (masked_field (f_nan A) bm vs)) l)).
      { clear G0 G2. induction G1 as [|[b e] r Hi Hr IH]; [reflexivity|].
        cbn [map scatter_all]. cbn [fst snd] in Hi.
        replace (snd (new_of bm (b, e))) with (slice bm (N.to_nat b) (N.to_nat e - N.to_nat b)) by reflexivity.
        replace (cut vs (fst (new_of bm (b, e)))) with
          (slice vs (present_before bm (N.to_nat b)) (present_before bm (N.to_nat b + (N.to_nat e - N.to_nat b)) - present_before bm (N.to_nat b))).
        2:{ unfold cut, new_of. cbn [fst snd]. rewrite !Nat2N.id. do 2 f_equal. f_equal. lia. }
        pose proof (present_mono bm (N.to_nat e) (length bm) ltac:(unfold lenN in *; lia)).
        rewrite scatter_spec.
        2:{ unfold lenN in *. lia. }
        2:{ replace (N.to_nat b + (N.to_nat e - N.to_nat b)) with (N.to_nat e) by lia. lia. }
        cbn [obind]. rewrite IH. cbn [obind]. do 2 f_equal.
        unfold masked_field, cut. cbn [fst snd]. rewrite slice_map, slice_seq by (unfold lenN in *; lia). reflexivity. }
      rewrite Hsc. cbn [obind]. f_equal. f_equal. rewrite !map_map. reflexivity.
  Qed.
End Message.
