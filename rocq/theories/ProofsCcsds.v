From Verif Require Import Base BaseLemmas ModelSimple ModelCcsds SpecCcsds ProofsSimple.

Local Open Scope N_scope.

Lemma sample_nbytes_cases bits : 1 <= bits <= 32 ->
  sample_nbytes bits = (if bits <=? 8 then 1 else if bits <=? 16 then 2 else 4).
Proof.
  intros H. unfold sample_nbytes. rewrite add64_small by (unfold two64; lia).
  destruct (bits <=? 8) eqn:E1; [replace ((bits + 7) / 8) with 1 by lia; reflexivity|].
  destruct (bits <=? 16) eqn:E2; [replace ((bits + 7) / 8) with 2 by lia; reflexivity|].
  destruct ((bits + 7) / 8 =? 3) eqn:E3; lia.
Qed.

Lemma sample_nbytes_valid bits : 1 <= bits <= 32 ->
  (sample_nbytes bits = 1 \/ sample_nbytes bits = 2 \/ sample_nbytes bits = 4) /\
  validate_bits (sample_nbytes bits) bits = Ok tt.
Proof.
  intros H. rewrite (sample_nbytes_cases bits H). unfold validate_bits.
  destruct (bits <=? 8) eqn:E1.
  - split; [auto|]. change (1 =? 1) with true. change (1 =? 2) with false. change (1 =? 4) with false.
    destruct (0 <? bits) eqn:E0; [reflexivity|lia].
  - destruct (bits <=? 16) eqn:E2.
    + split; [auto|]. change (2 =? 1) with false. change (2 =? 2) with true. change (2 =? 4) with false.
      destruct (8 <? bits) eqn:E0; [reflexivity|lia].
    + split; [auto|]. change (4 =? 1) with false. change (4 =? 2) with false. change (4 =? 4) with true.
      destruct (16 <? bits) eqn:E0; [|lia]. destruct (bits <=? 32) eqn:E3; [reflexivity|lia].
Qed.

Section W.
  Context {V : Type}.
  Variable scale : N -> V.
  Variable aec_samples : aec_oracle.

  Lemma ccsds_window file section flags bits block_size rsi offsets S o n :
    let data := slice file (N.to_nat (fst section)) (N.to_nat (snd section)) in
    let R := N.to_nat (rsi * block_size) in
    section_of file section -> snd section < 1152921504606846976 ->
    1 <= bits <= 32 -> (0 < R)%nat -> rsi * block_size < 2305843009213693952 ->
    rsi_stream (aec_samples (mk_aec (modify_flags flags) bits block_size rsi)) R data offsets S -> offsets_sorted data offsets ->
    o + n <= lenN S -> lenN S < 144115188075855872 ->
    ((o + n) / (rsi * block_size) + 1 <= lenN offsets) ->
    ccsds_decode aec_samples scale flags bits block_size rsi offsets (gj_accessor file section) (o, n) =
    Ok (map scale (slice S (N.to_nat o) (N.to_nat n))).
  Proof.
    intros data R Hsec Hssz Hbits HR HRb Hstr [Hsort Hbound] Hon HS Htab.
    assert (Hdl : length data = N.to_nat (snd section)).
    { destruct Hsec as [H1 H2]. unfold data. apply slice_length. unfold lenN in *. lia. }
    unfold ccsds_decode. cbn [snd].
    destruct (n =? 0) eqn:En.
    { assert (n = 0) by lia. subst n. reflexivity. }
    destruct (sample_nbytes_valid bits Hbits) as [Helem Hval].
    set (el := sample_nbytes bits) in *.
    assert (Hdisp : ((el =? 1) || (el =? 2) || (el =? 4)) = true) by (clear -Helem; lia).
    rewrite Hdisp.
    set (Rn := rsi * block_size) in *.
    assert (HRn : 0 < Rn) by (unfold R in HR; lia).
    assert (Hel : 1 <= el <= 4) by (clear -Helem; lia).
    unfold aec_decode. fold el. rewrite Hval. cbn [obind].
    assert (Hpos : 0 < lenN offsets).
    { eapply N.lt_le_trans; [|exact Htab]. rewrite N.add_1_r. apply N.lt_0_succ. }
    assert (Hne : (negb (lenN offsets =? 0)) = true) by (clear -Hpos; lia).
    rewrite Hne. cbn [assert_ obind].
    assert (Ho4 : o * el <= o * 4) by (apply N.mul_le_mono_l; lia).
    assert (Hn4 : n * el <= n * 4) by (apply N.mul_le_mono_l; lia).
    assert (HR4 : Rn * el <= Rn * 4) by (apply N.mul_le_mono_l; lia).
    assert (HRel : 0 < Rn * el) by (apply N.mul_pos_pos; lia).
    rewrite (mul64_small o el) by (unfold two64; lia).
    rewrite (mul64_small n el) by (unfold two64; lia).
    unfold alloc at 1.
    assert (Hal : (n * el <? 1152921504606846976) = true) by lia.
    rewrite Hal. cbn [obind].
    rewrite (mul64_small rsi block_size) by (fold Rn; unfold two64; lia). fold Rn.
    rewrite (mul64_small Rn el) by (unfold two64; lia).
    rewrite (add64_small (o * el) (n * el)) by (unfold two64; lia).
    assert (Hd0 : (Rn * el =? 0) = false) by lia.
    unfold div_. rewrite Hd0. cbn [obind].
    rewrite N.div_mul_cancel_r by lia.
    rewrite <- N.mul_add_distr_r, N.div_mul_cancel_r by lia.
    set (i := o / Rn). set (j := (o + n) / Rn) in *.
    assert (Hij : i <= j) by (apply N.div_le_mono; lia).
    assert (Hjb : j <= o + n) by (rewrite <- (N.div_1_r (o + n)); apply N.div_le_compat_l; lia).
    rewrite (add64_small j 1) by (unfold two64; lia).
    assert (Ha1 : (i <? j + 1) = true) by (clear -Hij; lia).
    assert (Ha2 : (j + 1 <=? lenN offsets) = true) by (clear -Htab; lia).
    rewrite Ha1, Ha2. cbn [assert_ obind].
    destruct (nth_error offsets (N.to_nat i)) as [oi|] eqn:Eoi.
    2:{ apply nth_error_None in Eoi. unfold lenN in Htab. lia. }
    rewrite (at_ok _ _ _ Eoi). cbn [obind].
    assert (Hoi : oi <= 8 * lenN data).
    { rewrite Forall_forall in Hbound. apply Hbound. eapply nth_error_In; eauto. }
    assert (Hld : lenN data = snd section) by (unfold lenN; rewrite Hdl; lia).
    rewrite Hld in *.
    (* window end *)
    set (eb := if j + 1 =? lenN offsets then Ok (acc_eof (gj_accessor file section))
               else let* e := at_ offsets (j + 1) in Ok (add64 e 7 / 8)).
    assert (Heb : exists w, eb = Ok w /\ oi / 8 <= w /\ w <= snd section /\
        (w = snd section \/ exists oj, nth_error offsets (N.to_nat (j + 1)) = Some oj /\ oj <= 8 * w)).
    { unfold eb. destruct (j + 1 =? lenN offsets) eqn:Ej.
      - exists (snd section). split; [reflexivity|]. split; [clear -Hoi; lia|]. split; [lia|auto].
      - destruct (nth_error offsets (N.to_nat (j + 1))) as [oj|] eqn:Eoj.
        2:{ apply nth_error_None in Eoj. unfold lenN in Htab, Ej. lia. }
        rewrite (at_ok _ _ _ Eoj). cbn [obind].
        assert (Hoj : oj <= 8 * snd section).
        { rewrite Forall_forall in Hbound. apply Hbound. eapply nth_error_In; eauto. }
        assert (oi <= oj) by (eapply (Hsort (N.to_nat i) (N.to_nat (j + 1))); eauto; clear -Hij; lia).
        rewrite (add64_small oj 7) by (unfold two64; lia).
        exists ((oj + 7) / 8). split; [reflexivity|]. split; [clear -H; lia|]. split; [clear -Hoj; lia|].
        right. exists oj. split; auto. clear; lia. }
    destruct Heb as (w & -> & Hw1 & Hw2 & Hw3). cbn [obind].
    set (tail := skipn (N.to_nat i) offsets).
    assert (Htl : nth_error tail 0 = Some oi).
    { unfold tail. rewrite nth_error_skipn. rewrite Nat.add_0_r. auto. }
    destruct tail as [|t0 tl] eqn:Et; [discriminate|]. injection Htl as ->.
    cbn [map]. replace (lenN _ =? 0) with false.
    2:{ symmetry. apply N.eqb_neq. unfold lenN. cbn [length]. lia. }
    cbn [negb assert_ obind].
    rewrite (sub64_small w (oi / 8)) by (auto; unfold two64; lia).
    unfold gj_accessor at 1. cbn [acc_read].
    rewrite gj_read_spec; auto; [|unfold two64 in *; lia|unfold two64; lia].
    fold data.
    assert (Hr1 : (w - oi / 8 <? 1152921504606846976) = true) by (clear -Hw2 Hssz; lia).
    assert (Hr2 : (oi / 8 + (w - oi / 8) <=? snd section) = true) by (clear -Hw2 Hw1; lia).
    rewrite Hr1, Hr2. cbn [obind].
    unfold aec_decode_range.
    assert (Hie : i * Rn <= o) by (unfold i; rewrite N.mul_comm; apply N.mul_div_le; lia).
    assert (Hie2 : o < (i + 1) * Rn).
    { pose proof (N.mul_succ_div_gt o Rn). fold i in H. lia. }
    assert (Hreo : Rn * el * i = i * Rn * el) by (clear; lia).
    assert (Hiel : i * Rn * el <= o * el) by (apply N.mul_le_mono_r; auto).
    rewrite (mul64_small (Rn * el) i) by (rewrite Hreo; clear -Hiel Ho4 Hon HS; unfold two64; lia).
    rewrite Hreo.
    rewrite (sub64_small (o * el) (i * Rn * el)) by (clear -Hiel Ho4 Hon HS; unfold two64; lia).
    rewrite <- N.mul_sub_distr_r.
    unfold div_. rewrite Hd0. cbn [obind].
    rewrite N.div_mul_cancel_r by lia.
    rewrite (N.div_small (o - i * Rn) Rn) by lia.
    replace (lenN _ <=? 0) with false.
    2:{ symmetry. apply N.leb_gt. unfold lenN. cbn [length]. lia. }
    unfold at_ at 1. cbn [N.to_nat nth_error obind].
    rewrite N.mul_0_l, N.sub_0_r, !N.div_mul by lia.
    replace (N.shiftl (N.shiftr oi 3) 3) with (8 * (oi / 8)).
    2:{ rewrite N.shiftl_mul_pow2, N.shiftr_div_pow2. change (2 ^ 3) with 8. lia. }
    rewrite (sub64_small oi (8 * (oi / 8))) by (unfold two64; lia).
    assert (Hj2 : o + n < (j + 1) * Rn).
    { pose proof (N.mul_succ_div_gt (o + n) Rn). fold j in H. lia. }
    assert (HRR : N.of_nat R = Rn) by (unfold R; lia).
    pose proof (Hstr (N.to_nat i) oi (N.to_nat (oi / 8)) (N.to_nat (w - oi / 8))
      (N.to_nat (o - i * Rn + n)) Eoi) as Hs.
    replace (N.of_nat (N.to_nat (oi / 8))) with (oi / 8) in Hs by lia.
    replace (N.of_nat (N.to_nat (o - i * Rn + n))) with (o - i * Rn + n) in Hs by lia.
    rewrite Hs; clear Hs.
    - rewrite slice_slice by lia.
      replace (N.to_nat i * R + N.to_nat (o - i * Rn))%nat with (N.to_nat o).
      2:{ apply Nat2N.inj. rewrite Nat2N.inj_add, Nat2N.inj_mul, HRR, !N2Nat.id. lia. }
      cbn [obind]. unfold alloc.
      assert (Hl : lenN (slice S (N.to_nat o) (N.to_nat n)) = n).
      { unfold lenN in *. rewrite slice_length by lia. lia. }
      rewrite Hl. assert (Hn8 : (n * 8 <? 1152921504606846976) = true) by lia.
      rewrite Hn8. reflexivity.
    - lia.
    - rewrite Hdl. lia.
    - unfold lenN in *. assert (N.of_nat (N.to_nat i * R + N.to_nat (o - i * Rn + n)) <= N.of_nat (length S)); [|lia].
      rewrite Nat2N.inj_add, Nat2N.inj_mul, HRR, !N2Nat.id. lia.
    - destruct Hw3 as [->|(oj & Eoj & Hoj)].
      + left. rewrite Hdl. lia.
      + right. exists (N.to_nat (j + 1)), oj. split; [auto|]. split.
        * assert (N.of_nat (N.to_nat i * R + N.to_nat (o - i * Rn + n)) <= N.of_nat (N.to_nat (j + 1) * R)); [|lia].
          rewrite Nat2N.inj_add, !Nat2N.inj_mul, HRR, !N2Nat.id. lia.
        * lia.
  Qed.

  (* a range ending past the last interval listed in the table is refused *)
  Lemma ccsds_short_table file section flags bits block_size rsi offsets o n :
    1 <= bits <= 32 -> 0 < rsi * block_size -> rsi * block_size < 2305843009213693952 ->
    0 < n -> o + n < 144115188075855872 -> lenN offsets <= (o + n) / (rsi * block_size) ->
    ccsds_decode aec_samples scale flags bits block_size rsi offsets (gj_accessor file section) (o, n) = Throw EAssert.
  Proof.
    intros Hbits HR HRb Hn Hon Htab.
    unfold ccsds_decode. cbn [snd].
    destruct (n =? 0) eqn:En; [lia|].
    destruct (sample_nbytes_valid bits Hbits) as [Helem Hval].
    set (el := sample_nbytes bits) in *.
    assert (Hdisp : ((el =? 1) || (el =? 2) || (el =? 4)) = true) by (clear -Helem; lia).
    rewrite Hdisp.
    set (Rn := rsi * block_size) in *.
    assert (Hel : 1 <= el <= 4) by (clear -Helem; lia).
    unfold aec_decode. fold el. rewrite Hval. cbn [obind].
    destruct (negb (lenN offsets =? 0)); [|reflexivity]. cbn [assert_ obind].
    assert (Ho4 : o * el <= o * 4) by (apply N.mul_le_mono_l; lia).
    assert (Hn4 : n * el <= n * 4) by (apply N.mul_le_mono_l; lia).
    assert (HR4 : Rn * el <= Rn * 4) by (apply N.mul_le_mono_l; lia).
    assert (HRel : 0 < Rn * el) by (apply N.mul_pos_pos; lia).
    rewrite (mul64_small o el) by (unfold two64; lia).
    rewrite (mul64_small n el) by (unfold two64; lia).
    unfold alloc at 1.
    assert (Hal : (n * el <? 1152921504606846976) = true) by lia.
    rewrite Hal. cbn [obind].
    rewrite (mul64_small rsi block_size) by (fold Rn; unfold two64; lia). fold Rn.
    rewrite (mul64_small Rn el) by (unfold two64; lia).
    rewrite (add64_small (o * el) (n * el)) by (unfold two64; lia).
    assert (Hd0 : (Rn * el =? 0) = false) by lia.
    unfold div_. rewrite Hd0. cbn [obind].
    rewrite N.div_mul_cancel_r by lia.
    rewrite <- N.mul_add_distr_r, N.div_mul_cancel_r by lia.
    set (i := o / Rn). set (j := (o + n) / Rn) in *.
    assert (Hij : i <= j) by (apply N.div_le_mono; lia).
    assert (Hjb : j <= o + n) by (rewrite <- (N.div_1_r (o + n)); apply N.div_le_compat_l; lia).
    rewrite (add64_small j 1) by (unfold two64; lia).
    assert (Ha1 : (i <? j + 1) = true) by (clear -Hij; lia).
    assert (Ha2 : (j + 1 <=? lenN offsets) = false) by (clear -Htab; lia).
    rewrite Ha1, Ha2. reflexivity.
  Qed.
End W.

Lemma modify_flags_native flags : native_flags flags (modify_flags flags).
Proof.
  intros i. unfold modify_flags. rewrite !N.ldiff_spec.
  change 2 with (2 ^ 1). change 4 with (2 ^ 2). rewrite !N.pow2_bits_eqb.
  rewrite (N.eqb_sym 1 i), (N.eqb_sym 2 i). reflexivity.
Qed.

Lemma raw_stream R data offsets : (forall i oi, nth_error offsets i = Some oi -> oi = N.of_nat (8 * (i * R))) ->
  rsi_stream raw_samples R data offsets data.
Proof.
  intros H i oi a len k Hoi Ha Hl Hk Hend. apply H in Hoi. subst oi.
  unfold raw_samples.
  set (x := (i * R)%nat) in *. clearbody x.
  replace ((N.of_nat (8 * x) - 8 * N.of_nat a) / 8) with (N.of_nat (x - a)) by lia.
  unfold lenN. rewrite slice_length by lia.
  assert (Hwin : (x + k <= a + len)%nat).
  { destruct Hend as [->|(j & oj & Hoj & Hj & Hle)]; [lia|].
    apply H in Hoj. subst oj. lia. }
  destruct (N.of_nat (x - a) + N.of_nat k <=? N.of_nat len) eqn:E; [|lia].
  f_equal. rewrite !Nat2N.id. rewrite slice_slice by lia. f_equal. lia.
Qed.

Lemma ccsds_window_full {V} (scale : N -> V) aec_samples file section flags bits block_size rsi offsets S o n :
    let data := slice file (N.to_nat (fst section)) (N.to_nat (snd section)) in
    (fst section + snd section <= lenN file) -> (lenN file < two63) -> (snd section < 1152921504606846976) ->
    (1 <= bits <= 32) -> (0 < rsi * block_size < 2305843009213693952) ->
    valid_stream aec_samples flags bits block_size rsi data offsets S -> offsets_sorted data offsets ->
    (lenN S < 144115188075855872) ->
    (lenN offsets = lenN S / (rsi * block_size) + 1) ->
    (o + n <= lenN S) ->
    ccsds_decode aec_samples scale flags bits block_size rsi offsets (gj_accessor file section) (o, n) =
    Ok (map scale (slice S (N.to_nat o) (N.to_nat n))).
Proof.
  intros data H1 H2 H3 H4 H5 H6 H7 H8 H9 H10.
  apply ccsds_window; auto using modify_flags_native; try lia; try (split; assumption).
  rewrite H9. apply N.add_le_mono_r. apply N.div_le_mono; lia.
Qed.

Lemma raw_valid flags block_size rsi data offsets :
  (forall i oi, nth_error offsets i = Some oi -> oi = N.of_nat (8 * (i * N.to_nat (rsi * block_size)))) ->
  valid_stream raw_libaec flags 8 block_size rsi data offsets data.
Proof.
  intros H native Hn. unfold raw_libaec, raw_accepts. cbn [aec_flags aec_bits].
  rewrite (Hn 1), (Hn 2). change (1 =? 1) with true. change (2 =? 2) with true. cbn [negb].
  rewrite !andb_false_r. cbn [orb andb negb]. now apply raw_stream.
Qed.

Lemma raw_example :
  let file := [0; 0; 31; 32; 33; 34; 35; 36; 37; 38; 39; 40; 0] in
  let S := [31; 32; 33; 34; 35; 36; 37; 38; 39; 40] in
  valid_stream raw_libaec 14 8 2 2 (slice file 2 10) [0; 32; 64] S /\
  offsets_sorted (slice file 2 10) [0; 32; 64] /\
  ccsds_decode raw_libaec (fun x => x) 14 8 2 2 [0; 32; 64] (gj_accessor file (2, 10)) (3, 6) =
    Ok [34; 35; 36; 37; 38; 39].
Proof.
  assert (H : forall i oi, nth_error [0; 32; 64] i = Some oi -> oi = N.of_nat (8 * (i * 4))).
  { intros [|[|[|i]]] oi Hi; cbn in Hi; try (injection Hi as <-; reflexivity). destruct i; discriminate. }
  split; [|split].
  - apply (raw_valid 14 2 2 [31; 32; 33; 34; 35; 36; 37; 38; 39; 40] [0; 32; 64] H).
  - split.
    + intros i j oi oj Hij Hi Hj. apply H in Hi, Hj. subst. lia.
    + repeat constructor; vm_compute; discriminate.
  - vm_compute. reflexivity.
Qed.
