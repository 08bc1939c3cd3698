From Verif Require Import Base BaseLemmas ModelRange ModelSimple ModelCcsds ModelInfo ModelJumper
     SpecRange SpecSimple SpecCcsds SpecJumper ProofsRange ProofsSimple ProofsCcsds ProofsJumper.
Open Scope nat_scope.

(* ---- C11: shape ---- *)
Lemma take_range_length {V} (m : @ranges_map V) r v : take_range m r = Ok v -> length v = N.to_nat (snd r).
Proof.
  unfold take_range. destruct (rm_find r m) as [[br d]|]; [|discriminate].
  destruct (_ <=? _)%N eqn:E; [|discriminate]. intros H; injection H as <-.
  apply slice_length. unfold lenN in E. lia.
Qed.

Lemma decode_ranges_lengths {V} (d1 : N * N -> outcome (list V)) rs vs :
  decode_ranges d1 rs = Ok vs -> Forall2 (fun r v => length v = N.to_nat (snd r)) rs vs.
Proof.
  unfold decode_ranges. intros H. apply obind_ok_inv in H. destruct H as (bs & _ & H).
  apply obind_ok_inv in H. destruct H as (m & _ & H). apply mapM_ok_inv in H.
  eapply Forall2_impl; [|apply H]. intros r v. apply take_range_length.
Qed.

Lemma scatter_length {F} (nan : F) bm : forall d v, scatter nan bm d = Ok v -> length v = length bm.
Proof.
  induction bm as [|[|] r IH]; intros d v H; cbn [scatter] in H.
  - injection H as <-. reflexivity.
  - destruct d as [|x d]; [discriminate|]. apply obind_ok_inv in H. destruct H as (w & Hw & H).
    injection H as <-. simpl. f_equal. eauto.
  - apply obind_ok_inv in H. destruct H as (w & Hw & H). injection H as <-. simpl. f_equal. eauto.
Qed.

Lemma scatter_missing {F} (nan : F) bm : forall d v k, scatter nan bm d = Ok v ->
  nth_error bm k = Some false -> nth_error v k = Some nan.
Proof.
  induction bm as [|[|] r IH]; intros d v k H Hk; cbn [scatter] in H.
  - destruct k; discriminate.
  - destruct d as [|x d]; [discriminate|]. apply obind_ok_inv in H. destruct H as (w & Hw & H).
    injection H as <-. destruct k; simpl in *; [discriminate|]. eauto.
  - apply obind_ok_inv in H. destruct H as (w & Hw & H). injection H as <-.
    destruct k; simpl in *; eauto.
Qed.

Lemma scatter_all_inv {F} (nan : F) bms : forall ds vs, scatter_all nan bms ds = Ok vs ->
  Forall2 (fun bm v => exists d, scatter nan bm d = Ok v) bms vs.
Proof.
  induction bms as [|b r IH]; intros ds vs H; cbn [scatter_all] in H.
  - injection H as <-. constructor.
  - destruct ds as [|d ds]; [discriminate|].
    apply obind_ok_inv in H. destruct H as (v & Hv & H).
    apply obind_ok_inv in H. destruct H as (ws & Hw & H). injection H as <-. constructor; eauto.
Qed.

(* the check at the start of extract *)
Lemma increasing_Sorted l : increasing l = true <-> Sorted (fun a b => snd a <= fst b)%N l.
Proof.
  induction l as [|a r IH]; [split; auto|]. destruct r as [|b r].
  - split; auto.
  - change (increasing (a :: b :: r)) with ((snd a <=? fst b)%N && increasing (b :: r))%bool.
    rewrite andb_true_iff, IH. split.
    + intros [H1 H2]. constructor; auto. constructor. lia.
    + intros H. inversion H as [|? ? Hs Hh]; subst. inversion Hh; subst. split; [lia|auto].
Qed.

Lemma Sorted_strong l : Forall (fun i => fst i <= snd i)%N l ->
  Sorted (fun a b => snd a <= fst b)%N l -> StronglySorted (fun a b => snd a <= fst b)%N l.
Proof.
  intros H. induction 1 as [|a r Hs IH Hh]; constructor.
  - apply IH. now inversion H.
  - inversion H as [|? ? Ha Hr]; subst. specialize (IH Hr). clear -Hr IH Hh.
    destruct r as [|b r]; constructor.
    + now inversion Hh.
    + inversion IH; subst. inversion Hr; subst. inversion Hh; subst.
      apply Forall_forall. intros x Hx.
      match goal with H3 : Forall (fun c => (snd b <= fst c)%N) r |- _ => rewrite Forall_forall in H3; apply H3 in Hx end.
      lia.
Qed.

Section File.
  Context {F : Type}.
  Variable file : list N.
  Variable offset : Z.
  Variable inf : info F.

  Lemma read_bitmap_length bm : read_bitmap file offset inf = Ok bm -> i_bits_per_value inf <> 0%N ->
    (lenN bm < two64)%N.
  Proof.
    unfold read_bitmap. intros H Hb.
    destruct (_ =? 0)%N; [injection H as <-; reflexivity|].
    destruct (i_bits_per_value inf =? 0)%N eqn:E; [lia|].
    apply obind_ok_inv in H. destruct H as (u & Ha & H). unfold alloc in Ha.
    destruct (_ <? 1152921504606846976)%N eqn:E2; [|discriminate].
    destruct (_ <? 0)%Z; [discriminate|]. destruct (_ <=? _)%Z; [|discriminate].
    apply mapM_ok_inv in H. apply Forall2_length in H. rewrite seq_length in H.
    unfold lenN, two64. lia.
  Qed.

  Lemma read_bitmap_inv bm : read_bitmap file offset inf = Ok bm -> i_bits_per_value inf <> 0%N ->
    (i_number_of_points inf < 1152921504606846976)%N -> bm = bitmap file offset inf.
  Proof.
    intros H Hb Hn.
    destruct (N.eq_dec (i_number_of_points inf) 0) as [H0|H0].
    - unfold bitmap. unfold read_bitmap in H. rewrite H0 in *. cbn in H. injection H as <-. reflexivity.
    - assert (Hin : bitmap_in_file file offset inf).
      { unfold read_bitmap in H. rewrite add64_small in H by (unfold two64; lia).
        destruct ((i_number_of_points inf + 7) / 8 =? 0)%N eqn:E0; [lia|].
        destruct (i_bits_per_value inf =? 0)%N eqn:E; [lia|].
        apply obind_ok_inv in H. destruct H as (u & Ha & H).
        destruct (offset + i_offset_before_bitmap inf <? 0)%Z eqn:E1; [discriminate|].
        destruct (_ <=? _)%Z eqn:E2; [|discriminate].
        unfold bitmap_in_file, bitmap_bytes. lia. }
      rewrite read_bitmap_ok in H; auto. congruence.
  Qed.

End File.

Section Message.
  Context {F : Type}.
  Variable A : farith F.
  Variable aec_samples : aec_oracle.
  Variable file : list N.
  Variable offset : Z.
  Variable inf : info F.
  Notation ext_ := (extract A aec_samples file offset inf).

  Lemma extract_ok_inv l r : ext_ l = Ok r ->
    (i_packing inf = "grid_simple" \/ i_packing inf = "grid_ccsds")%string /\
    l <> [] /\ Sorted (fun a b => snd a <= fst b)%N l /\ i_spherical inf = 0%Z /\
    (if (i_bits_per_value inf =? 0)%N then extract_constant inf l
     else if (i_offset_before_bitmap inf =? 0)%Z then extract_no_mask A aec_samples file offset inf l
     else extract_masked A aec_samples file offset inf l) = Ok r.
  Proof.
    unfold extract. intros H. apply obind_ok_inv in H. destruct H as (u & H1 & H).
    apply obind_ok_inv in H. destruct H as (ok & H2 & H).
    apply obind_ok_inv in H. destruct H as (u2 & H3 & H).
    apply obind_ok_inv in H. destruct H as (u3 & H4 & H).
    unfold check_intervals in H2. apply obind_ok_inv in H2. destruct H2 as (u4 & H5 & H2). injection H2 as <-.
    split; [|split; [|split; [|split]]]; auto.
    - destruct (String.eqb_spec (i_packing inf) "grid_simple"); auto.
      destruct (String.eqb_spec (i_packing inf) "grid_ccsds"); auto. discriminate.
    - intros ->. discriminate.
    - apply increasing_Sorted. destruct (increasing l); auto; discriminate.
    - unfold assert_ in H4. destruct (i_spherical inf =? 0)%Z eqn:E; [lia|discriminate].
  Qed.

  (* an accepted request on a field with bitmap is inside the bitmap *)
  Lemma masked_inv l r : extract_masked A aec_samples file offset inf l = Ok r ->
    i_bits_per_value inf <> 0%N -> l <> [] -> Sorted (fun a b => snd a <= fst b)%N l ->
    exists bm, read_bitmap file offset inf = Ok bm /\ good_request (lenN bm) l /\
      snd r = map to_bitset (map (cut bm) l) /\
      Forall2 (fun i v => exists d, scatter (f_nan A) (cut bm i) d = Ok v) l (fst r).
  Proof.
    unfold extract_masked. intros H Hb Hne Hs.
    apply obind_ok_inv in H. destruct H as (bm & Hbm & H).
    apply obind_ok_inv in H. destruct H as (new & Hnew & H).
    apply obind_ok_inv in H. destruct H as (dec & Hdec & H).
    apply obind_ok_inv in H. destruct H as (vals & Hv & H). injection H as <-.
    exists bm. split; auto.
    assert (Hin : Forall (fun i => fst i <= snd i <= lenN bm)%N l).
    { unfold calculate_masked_intervals in Hnew. apply obind_ok_inv in Hnew. destruct Hnew as (ints & Hi & _).
      apply mapM_ok_inv in Hi. clear -Hi. induction Hi; constructor; auto.
      unfold make_ext in H. destruct (_ && _)%bool eqn:E; [|discriminate]. apply andb_true_iff in E. lia. }
    assert (Hg : good_request (lenN bm) l).
    { split; [auto|]. split; auto. apply Sorted_strong; auto. eapply Forall_impl; [|apply Hin]. simpl. intros; lia. }
    rewrite masked_intervals_ok in Hnew; auto; [|eapply read_bitmap_length; eauto].
    injection Hnew as <-. split; auto. cbn [fst snd]. split.
    - now rewrite !map_map.
    - apply scatter_all_inv in Hv. rewrite map_map in Hv. clear -Hv.
      revert vals Hv. induction l as [|i l IH]; intros vals Hv; inversion Hv; subst; constructor; auto.
  Qed.

  Lemma masks_of_true l masks : Forall (fun i => fst i <= snd i < two64)%N l ->
    mapM (fun i : N * N => omap to_bitset (all_true (sub64 (snd i) (fst i)))) l = Ok masks ->
    masks = map to_bitset (map (fun i => repeat true (N.to_nat (snd i) - N.to_nat (fst i))) l).
  Proof.
    intros Hl H. apply mapM_ok_inv in H. induction H; auto. inversion Hl; subst. cbn [map]. f_equal; auto.
    unfold omap, all_true in H. rewrite sub64_small in H by lia.
    apply obind_ok_inv in H. destruct H as (v & Hv & H). injection H as <-.
    apply obind_ok_inv in Hv. destruct Hv as (u & Hu & Hv). injection Hv as <-. f_equal. f_equal. lia.
  Qed.

  Theorem extract_shape l vals masks : Forall (fun i => fst i <= snd i < two64)%N l ->
    ext_ l = Ok (vals, masks) ->
    Forall2 (fun i v => length v = N.to_nat (snd i) - N.to_nat (fst i)) l vals /\
    exists present, Forall2 (fun i p => length p = N.to_nat (snd i) - N.to_nat (fst i)) l present /\
                    Forall2 is_mask present masks.
  Proof.
    intros Hl H. apply extract_ok_inv in H. destruct H as (_ & Hne & Hs & _ & H).
    assert (Htrue : forall ms, mapM (fun i : N * N => omap to_bitset (all_true (sub64 (snd i) (fst i)))) l = Ok ms ->
      exists present, Forall2 (fun i p => length p = N.to_nat (snd i) - N.to_nat (fst i)) l present /\
                    Forall2 is_mask present ms).
    { intros ms Hms. apply masks_of_true in Hms; auto. subst ms.
      exists (map (fun i : N * N => repeat true (N.to_nat (snd i) - N.to_nat (fst i))) l). split.
      - apply Forall2_map_r. apply Forall2_same. apply Forall_forall. intros i _. apply repeat_length.
      - apply Forall2_map_r. apply Forall2_same. apply Forall_forall. intros i _. apply to_bitset_mask. }
    destruct (i_bits_per_value inf =? 0)%N eqn:E.
    - unfold extract_constant in H. apply obind_ok_inv in H. destruct H as (vs & Hv & H).
      apply obind_ok_inv in H. destruct H as (ms & Hm & H). injection H as <- <-.
      split; [|auto]. apply mapM_ok_inv in Hv. clear -Hv Hl. induction Hv; constructor; inversion Hl; subst; auto.
      apply obind_ok_inv in H. destruct H as (u & Hu & H). injection H as <-.
      rewrite repeat_length, sub64_small by lia. lia.
    - destruct (i_offset_before_bitmap inf =? 0)%Z eqn:E2.
      + unfold extract_no_mask in H. apply obind_ok_inv in H. destruct H as (vs & Hv & H).
        apply obind_ok_inv in H. destruct H as (ms & Hm & H). injection H as <- <-.
        split; [|auto].
        assert (Hd : Forall2 (fun r v => length v = N.to_nat (snd r)) (to_ranges l) vs).
        { unfold read_values, simple_read_values, ccsds_read_values in Hv.
          destruct (String.eqb _ _); [|destruct (String.eqb _ _); [|discriminate]];
          destruct (i_class inf); try discriminate.
          - eapply decode_ranges_lengths; eauto.
          - apply obind_ok_inv in Hv. destruct Hv as (u & _ & Hv). eapply decode_ranges_lengths; eauto. }
        clear -Hd Hl. revert vs Hd. induction l as [|i l IH]; intros vs Hd; inversion Hd; subst; inversion Hl; subst; constructor; auto.
        cbn [snd] in H1. rewrite sub64_small in H1 by lia. lia.
      + destruct (masked_inv _ _ H) as (bm & Hbm & (_ & Hg & _) & Hm & Hv); auto; [lia|].
        cbn [fst snd] in *. split.
        * clear -Hv Hg. induction Hv; constructor; inversion Hg; subst; auto.
          destruct H as (d & Hd). apply scatter_length in Hd. rewrite Hd. now apply cut_length.
        * subst masks. exists (map (cut bm) l). split.
          -- apply Forall2_map_r. apply Forall2_same. eapply Forall_impl; [|apply Hg]. intros i Hi. now apply cut_length.
          -- apply Forall2_map_r. apply Forall2_same. apply Forall_forall. intros i _. apply to_bitset_mask.
  Qed.

  (* C14 *)
  Theorem extract_missing l vals masks k i v m p :
    (i_number_of_points inf < 1152921504606846976)%N ->
    i_bits_per_value inf <> 0%N -> i_offset_before_bitmap inf <> 0%Z ->
    ext_ l = Ok (vals, masks) ->
    nth_error l k = Some i -> nth_error vals k = Some v -> nth_error masks k = Some m ->
    N.to_nat (fst i) <= p < N.to_nat (snd i) ->
    p < length (bitmap file offset inf) /\
    (nth p (bitmap file offset inf) false = false ->
     nth_error v (p - N.to_nat (fst i)) = Some (f_nan A) /\
     exists w, nth_error m ((p - N.to_nat (fst i)) / 64) = Some w /\
               N.testbit w (N.of_nat ((p - N.to_nat (fst i)) mod 64)) = false).
  Proof.
    intros Hn Hb Hbm H Hk Hv Hm Hp. apply extract_ok_inv in H. destruct H as (_ & Hne & Hs & _ & H).
    destruct (i_bits_per_value inf =? 0)%N eqn:E; [lia|].
    destruct (i_offset_before_bitmap inf =? 0)%Z eqn:E2; [lia|].
    destruct (masked_inv _ _ H) as (bm & Hr & (_ & Hg & _) & Hm' & Hv'); auto.
    apply read_bitmap_inv in Hr; auto. subst bm. cbn [fst snd] in *.
    set (bm := bitmap file offset inf) in *.
    assert (Hi : (fst i <= snd i <= lenN bm)%N).
    { rewrite Forall_forall in Hg. apply Hg. eapply nth_error_In; eauto. }
    split; [unfold lenN in *; lia|]. intros Hmiss.
    assert (Hc : nth_error (cut bm i) (p - N.to_nat (fst i)) = Some false).
    { unfold cut. rewrite nth_error_slice by lia. replace (N.to_nat (fst i) + (p - N.to_nat (fst i))) with p by lia.
      rewrite <- Hmiss. apply nth_error_nth'. unfold lenN in *; lia. }
    split.
    - destruct (Forall2_nth _ _ _ Hv' _ _ _ Hk Hv) as (d & Hd). eapply scatter_missing; eauto.
    - subst masks. rewrite map_map in Hm. rewrite nth_error_map, Hk in Hm. cbn [option_map] in Hm. injection Hm as <-.
      destruct (to_bitset_mask (cut bm i)) as [L W].
      set (q := p - N.to_nat (fst i)) in *.
      assert (Hq : q < length (cut bm i)) by (apply nth_error_Some; congruence).
      destruct (nth_error (to_bitset (cut bm i)) (q / 64)) as [w|] eqn:Ew.
      + exists w. split; auto. destruct (W _ _ Ew) as [_ Ww]. rewrite Ww by lia.
        replace (q / 64 * 64 + q mod 64) with q by lia. now apply nth_error_nth.
      + apply nth_error_None in Ew. rewrite L in Ew. lia.
  Qed.

  (* C13: what the check at the start of extract does, for every list *)
  Theorem extract_refuses l :
    (i_packing inf = "grid_simple" \/ i_packing inf = "grid_ccsds")%string ->
    l = [] \/ ~ Sorted (fun a b => snd a <= fst b)%N l -> ext_ l = Throw EAssert.
  Proof.
    intros Hp H. unfold extract.
    replace (if String.eqb (i_packing inf) "grid_simple" then Ok tt
     else if String.eqb (i_packing inf) "grid_ccsds" then Ok tt else Throw ESeriousBug) with (Ok tt)
      by (destruct Hp as [Hp|Hp]; rewrite Hp; reflexivity).
    cbn [obind]. destruct H as [->|H]; [reflexivity|].
    unfold check_intervals. destruct (negb _); [|reflexivity]. cbn [assert_ obind].
    destruct (increasing l) eqn:E; [|reflexivity]. apply increasing_Sorted in E. contradiction.
  Qed.

  Theorem extract_refuses_overlap l i j a b :
    (i_packing inf = "grid_simple" \/ i_packing inf = "grid_ccsds")%string ->
    Forall (fun x => fst x <= snd x)%N l -> i < j -> nth_error l i = Some a -> nth_error l j = Some b ->
    (fst b < snd a)%N -> ext_ l = Throw EAssert.
  Proof.
    intros Hp Hl Hij Ha Hb Hov. apply extract_refuses; auto. right. intros Hs.
    apply Sorted_strong in Hs; auto. clear -Hs Hij Ha Hb Hov. revert i j Hij Ha Hb.
    induction Hs as [|x r Hs IH Hall]; intros i j Hij Ha Hb.
    - destruct i; discriminate.
    - destruct j as [|j]; [lia|]. simpl in Hb. destruct i as [|i]; simpl in Ha.
      + injection Ha as ->. apply nth_error_In in Hb. rewrite Forall_forall in Hall. apply Hall in Hb. lia.
      + apply (IH i j); auto. lia.
  Qed.

  (* C12: simple packing without bitmap *)
  Lemma simple_read_safe l : is_bytes file -> data_in_file file offset inf -> i_class inf = SimpleInfo ->
    (1 <= i_bits_per_value inf <= 64)%N -> Forall (fun i => fst i <= snd i < two64)%N l ->
    forall M, (M < two64)%N -> Forall (fun i => snd i <= M)%N l ->
    match simple_read_values A file offset inf l with
    | Ok vs => Forall2 (fun r v => exists b d, inside b r /\ (nend b <= M)%N /\
                 simple_decode (simple_scale A (i_reference inf) (i_binary_scale inf) (i_decimal_scale inf))
                  (i_reference inf) (i_bits_per_value inf) (gj_accessor file (data_section offset inf)) b = Ok d /\
                 v = slice d (N.to_nat (fst r) - N.to_nat (fst b)) (N.to_nat (snd r))) (to_ranges l) vs
    | Throw _ => True
    | UB => False
    end.
  Proof.
    intros Hf Hd Hc Hb Hl M HM HlM. unfold simple_read_values. rewrite Hc.
    destruct (section_ok file offset inf Hd) as (Hsec & _ & _).
    replace (i_bits_per_value inf) with (N.of_nat (N.to_nat (i_bits_per_value inf))) by lia.
    apply decode_ranges_gen_M; auto.
    - intros [o n] d Hr Hdec. unfold nend in Hr. cbn [fst snd] in *.
      pose proof (simple_decode_total (simple_scale A (i_reference inf) (i_binary_scale inf) (i_decimal_scale inf))
                    (i_reference inf) file (data_section offset inf) (N.to_nat (i_bits_per_value inf)) o n Hf Hsec
                    ltac:(lia) ltac:(lia) ltac:(lia)) as T.
      cbv zeta in T. destruct (_ && _)%bool.
      + rewrite T in Hdec. injection Hdec as <-. rewrite map_length, seq_length. reflexivity.
      + destruct T as [e T]. rewrite T in Hdec. discriminate.
    - intros [o n] Hr. unfold nend in Hr. cbn [fst snd] in *.
      pose proof (simple_decode_total (simple_scale A (i_reference inf) (i_binary_scale inf) (i_decimal_scale inf))
                    (i_reference inf) file (data_section offset inf) (N.to_nat (i_bits_per_value inf)) o n Hf Hsec
                    ltac:(lia) ltac:(lia) ltac:(lia)) as T.
      cbv zeta in T. destruct (_ && _)%bool.
      + rewrite T. discriminate.
      + destruct T as [e T]. rewrite T. discriminate.
    - clear -Hl HlM. unfold to_ranges. induction l as [|[b e] l IH]; constructor; inversion Hl; inversion HlM; subst; auto.
      unfold nend. cbn [fst snd] in *. rewrite sub64_small by lia. lia.
  Qed.

  Lemma no_mask_not_ub l : is_bytes file -> data_in_file file offset inf -> i_class inf = SimpleInfo ->
    i_packing inf = "grid_simple"%string ->
    (1 <= i_bits_per_value inf <= 64)%N -> i_offset_before_bitmap inf = 0%Z ->
    Forall (fun i => fst i <= snd i < two64)%N l -> ext_ l <> UB.
  Proof.
    intros Hf Hd Hc Hp Hb Hbm Hl Hu.
    assert (HM : Forall (fun i => snd i <= two64 - 1)%N l) by (eapply Forall_impl; [|apply Hl]; unfold two64; simpl; intros; lia).
    pose proof (simple_read_safe l Hf Hd Hc Hb Hl (two64 - 1) ltac:(reflexivity) HM) as S.
    unfold extract in Hu. rewrite Hp in Hu. cbn [String.eqb Ascii.eqb Bool.eqb obind] in Hu.
    unfold check_intervals, assert_ in Hu. destruct (negb _); [|discriminate]. cbn [obind] in Hu.
    destruct (increasing l); [|discriminate]. cbn [obind] in Hu. destruct (i_spherical inf =? 0)%Z; [|discriminate].
    cbn [obind] in Hu. destruct (i_bits_per_value inf =? 0)%N eqn:E; [lia|]. rewrite Hbm in Hu. cbn [Z.eqb] in Hu.
    unfold extract_no_mask, read_values in Hu. rewrite Hp in Hu. cbn [String.eqb Ascii.eqb Bool.eqb] in Hu.
    destruct (simple_read_values _ _ _ _ _); cbn [obind] in Hu; try discriminate; [|contradiction].
    assert (Hall : forall l, mapM (fun i : N * N => omap to_bitset (all_true (sub64 (snd i) (fst i)))) l <> UB).
    { clear. induction l as [|i l IH]; simpl; [discriminate|].
      unfold omap at 1, all_true, alloc. destruct (_ <? _)%N; cbn [obind]; [|discriminate].
      intros H. destruct (mapM _ l) eqn:E; cbn [obind] in H; try discriminate. apply IH. auto. }
    specialize (Hall l). destruct (mapM _ l); cbn [obind] in Hu; try discriminate. auto.
  Qed.

  Theorem no_mask_beyond l i : is_bytes file -> data_in_file file offset inf -> i_class inf = SimpleInfo ->
    i_packing inf = "grid_simple"%string ->
    (1 <= i_bits_per_value inf <= 64)%N -> i_offset_before_bitmap inf = 0%Z ->
    Forall (fun i => fst i <= snd i /\ snd i * i_bits_per_value inf + 7 < two64)%N l ->
    In i l -> (8 * lenN (data_bytes file offset inf) < snd i * i_bits_per_value inf)%N ->
    exists e, ext_ l = Throw e.
  Proof.
    intros Hf Hd Hc Hp Hb Hbm Hl Hi Hbeyond.
    assert (Hl' : Forall (fun i => fst i <= snd i < two64)%N l).
    { eapply Forall_impl; [|apply Hl]. intros x [H1 H2]. split; auto. clear -H2 Hb.
      eapply N.le_lt_trans; [|apply H2]. transitivity (snd x * i_bits_per_value inf)%N; [|lia].
      rewrite <- (N.mul_1_r (snd x)) at 1. apply N.mul_le_mono_l. lia. }
    pose proof (no_mask_not_ub l Hf Hd Hc Hp Hb Hbm Hl') as Hub.
    destruct (ext_ l) as [r|e|] eqn:E; [|eauto|congruence].
    exfalso. apply extract_ok_inv in E. destruct E as (_ & _ & _ & _ & E).
    destruct (i_bits_per_value inf =? 0)%N eqn:E0; [lia|]. rewrite Hbm in E. cbn [Z.eqb] in E.
    unfold extract_no_mask, read_values in E. rewrite Hp in E. cbn [String.eqb Ascii.eqb Bool.eqb] in E.
    apply obind_ok_inv in E. destruct E as (vs & Hv & _).
    destruct (section_ok file offset inf Hd) as (Hsec & _ & Hss).
    set (M := ((two64 - 8) / i_bits_per_value inf)%N).
    assert (HM : (M < two64)%N).
    { unfold M. eapply N.le_lt_trans; [apply N.div_le_upper_bound with (q := (two64 - 8)%N)|]; [lia| |reflexivity].
      rewrite <- (N.mul_1_l (two64 - 8)) at 1. apply N.mul_le_mono_r. lia. }
    assert (HlM : Forall (fun i => snd i <= M)%N l).
    { eapply Forall_impl; [|apply Hl]. intros x [H1 H2]. unfold M. apply N.div_le_lower_bound; [lia|].
      rewrite N.mul_comm. clear -H2. unfold two64 in *. lia. }
    pose proof (simple_read_safe l Hf Hd Hc Hb Hl' M HM HlM) as S. rewrite Hv in S.
    assert (Hr : In (fst i, sub64 (snd i) (fst i)) (to_ranges l)) by (unfold to_ranges; apply in_map_iff; exists i; auto).
    apply In_nth_error in Hr. destruct Hr as [k Hk].
    assert (exists v, nth_error vs k = Some v) as [v Hvk].
    { apply Forall2_length in S. destruct (nth_error vs k) eqn:En; eauto. apply nth_error_None in En.
      assert (k < length (to_ranges l)) by (apply nth_error_Some; congruence). lia. }
    destruct (Forall2_nth _ _ _ S _ _ _ Hk Hvk) as ([o n] & d & [I1 I2] & Hn & Hdec & _).
    unfold nend in Hn. cbn [fst snd] in *.
    assert (Hfst : (fst i <= snd i < two64)%N) by (rewrite Forall_forall in Hl'; auto).
    rewrite sub64_small in I2 by lia.
    replace (i_bits_per_value inf) with (N.of_nat (N.to_nat (i_bits_per_value inf))) in Hdec by lia.
    pose proof (simple_decode_total (simple_scale A (i_reference inf) (i_binary_scale inf) (i_decimal_scale inf))
                  (i_reference inf) file (data_section offset inf) (N.to_nat (i_bits_per_value inf)) o n Hf Hsec
                  ltac:(lia) ltac:(lia) ltac:(lia)) as T.
    cbv zeta in T. rewrite N2Nat.id in *.
    destruct ((n * 8 <? 1152921504606846976) && _ && _)%N%bool eqn:Ec; [|destruct T as [e T]; congruence].
    apply andb_true_iff in Ec. destruct Ec as [Ec E3]. apply andb_true_iff in Ec. destruct Ec as [E1 E2].
    assert (Hon : ((o + n) * i_bits_per_value inf < two64)%N).
    { eapply N.le_lt_trans; [apply N.mul_le_mono_r; apply Hn|]. unfold M.
      eapply N.le_lt_trans; [rewrite N.mul_comm; apply N.mul_div_le; lia|]. reflexivity. }
    assert (Hmono : (snd i * i_bits_per_value inf <= (o + n) * i_bits_per_value inf)%N) by (apply N.mul_le_mono_r; lia).
    rewrite N.mul_add_distr_r in *.
    rewrite N.mod_small in E3 by lia. rewrite Hss in E3. lia.
  Qed.
End Message.
