From Coq Require Import QArith.
From Verif Require Import Base BaseLemmas ModelRange ModelSimple ModelCcsds ModelInfo ModelJumper ModelBuild ModelFloat
     SpecRange SpecSimple SpecCcsds SpecJumper SpecBuild ProofsSimple ProofsCcsds ProofsFloat ProofsJumper ProofsJumper2 ProofsJumper3.
Open Scope nat_scope.

Lemma u64_natural z : natural z -> u64_of_Z z = Z.to_N z.
Proof. intros H. apply u64_of_Z_small. unfold natural in H. lia. Qed.

Lemma product_natural a b : natural a -> natural b -> (0 < a * b < 2305843009213693952)%Z ->
  (0 < Z.to_N a * Z.to_N b < 2305843009213693952)%N.
Proof. intros Ha Hb H. unfold natural in *. rewrite <- Z2N.inj_mul by lia. lia. Qed.

Lemma s64_natural z : natural z -> s64 (Z.to_N z) = z.
Proof. intros H. unfold natural in H. unfold s64. rewrite w64_small by (unfold two64; lia).
  destruct (_ <? _)%N eqn:E; unfold two63 in *; lia. Qed.

Section Build.
Context {F : Type}.
Variable aec_full : aec_full_oracle.
Variable fresh : Z -> list N.
Variable grib_at : list N -> Z -> outcome (option (codes F)).
Notation build_ := (build aec_full fresh grib_at).

Lemma edition_ok (k : codes F) m : reports m k -> wf_grib m ->
  edition_and_packing k = Ok (Z.to_N (m_edition m), m_packing m).
Proof.
  intros R W. unfold edition_and_packing. rewrite (rep_edition _ _ R), (rep_packing _ _ R). cbn [obind].
  destruct W as [[W|W] _]; rewrite W; reflexivity.
Qed.

Lemma bitmap_ok (k : codes F) m : reports m k -> wf_grib m ->
  bitmap_offset k (Z.to_N (m_edition m)) = Ok (match m_bitmap m with None => 0%Z | Some b => b end).
Proof.
  intros R W. unfold bitmap_offset. pose proof (rep_bitmap _ _ R) as B.
  destruct W as (We & _ & _ & _ & _ & _ & _ & _ & _ & Wb). destruct (m_bitmap m) as [b|].
  - destruct B as ((n & Bn & Bz) & B1 & B2). rewrite Bn. cbn [obind].
    destruct (n =? 0)%Z eqn:E; [lia|]. destruct We as [We|We]; rewrite We in *.
    + cbn. rewrite (B1 eq_refl). cbn [omap obind]. destruct Wb as [Wb _]. now rewrite u64_natural, s64_natural.
    + cbn. rewrite (B2 eq_refl). cbn [omap obind]. f_equal. destruct Wb as [Wb Wb6].
      unfold natural in Wb. rewrite u64_natural by (unfold natural; lia).
      rewrite add64_small by (unfold two64; lia).
      replace (Z.to_N (b - 6) + 6)%N with (Z.to_N b) by lia. now apply s64_natural.
  - rewrite B. reflexivity.
Qed.

Lemma jump_info_ok (k : codes F) m c : reports m k -> wf_grib m -> jump_info k c = Ok (info_of m c).
Proof.
  intros R W. unfold jump_info. rewrite (edition_ok k m R W). cbn [obind].
  rewrite (rep_binary _ _ R). cbn [obind]. rewrite (rep_decimal _ _ R). cbn [obind].
  rewrite (rep_bits _ _ R). cbn [obind]. rewrite (rep_reference _ _ R). cbn [obind].
  rewrite (rep_before _ _ R). cbn [obind]. rewrite (rep_after _ _ R). cbn [obind].
  rewrite (rep_points _ _ R). cbn [obind]. rewrite (rep_values _ _ R). cbn [obind].
  assert (Hs : (if k_has k "sphericalHarmonics" then k_long k "sphericalHarmonics" else Ok 0%Z) = Ok (m_spectral m)).
  { destruct (rep_spectral _ _ R) as [[-> H]|(-> & -> & _)]; auto. }
  rewrite Hs. cbn [obind]. rewrite (rep_total _ _ R). cbn [obind]. rewrite (rep_md5 _ _ R). cbn [obind].
  rewrite (bitmap_ok k m R W). cbn [obind]. destruct W as (_ & W1 & _ & _ & W2 & W3 & _).
  rewrite !u64_natural by auto. reflexivity.
Qed.

Lemma jump_info_message_ok (k : codes F) m c : reports m k -> wf_grib m -> jump_info_of_message k c = Ok (info_of m c).
Proof.
  intros R W. unfold jump_info_of_message. rewrite (edition_ok k m R W). cbn [obind].
  rewrite (rep_binary _ _ R). cbn [obind]. rewrite (rep_decimal _ _ R). cbn [obind].
  rewrite (rep_reference _ _ R). cbn [obind]. rewrite (rep_md5 _ _ R). cbn [obind].
  rewrite (rep_bits _ _ R). cbn [obind].
  rewrite (rep_before _ _ R). cbn [obind]. rewrite (rep_after _ _ R). cbn [obind].
  rewrite (rep_points _ _ R). cbn [obind]. rewrite (rep_values _ _ R). cbn [obind].
  rewrite (rep_total _ _ R). cbn [obind].
  rewrite (bitmap_ok k m R W). cbn [obind].
  assert (Hs : match k_long k "sphericalHarmonics" with Ok z => Ok z | Throw _ => Ok 0%Z | UB => UB end = Ok (m_spectral m)).
  { destruct (rep_spectral _ _ R) as [[_ H]|(_ & -> & e & H)]; now rewrite H. }
  rewrite Hs. cbn [obind]. destruct W as (_ & W1 & _ & _ & W2 & W3 & _).
  rewrite !u64_natural by auto. reflexivity.
Qed.

Lemma optional_ok (k : codes F) name z : k_has k name = true -> k_long k name = Ok z -> natural z ->
  optional_long k name = Ok (Z.to_N z).
Proof. intros H H1 H2. unfold optional_long. rewrite H, H1. cbn. now rewrite u64_natural. Qed.

Lemma read_buffer_ok bytes pos len : (0 <= pos)%Z -> (0 <= len < 1152921504606846976)%Z ->
  (pos + len <= Z.of_nat (length bytes))%Z -> length (fresh len) = Z.to_nat len ->
  read_buffer fresh bytes pos len = Ok (slice bytes (Z.to_nat pos) (Z.to_nat len)).
Proof.
  intros Hp Hl He Hf. unfold read_buffer, alloc. rewrite u64_of_Z_small by lia.
  destruct (_ <? _)%N eqn:E; [|lia]. cbn [obind]. destruct (pos <? 0)%Z eqn:E2; [lia|].
  rewrite slice_length by lia. rewrite skipn_all2 by lia. now rewrite app_nil_r.
Qed.

(* ---- the description of a message ---- *)
Section One.
Variables (bytes : list N) (off : Z) (k : codes F) (m : grib F).
Hypothesis eccodes : grib_at bytes off = Ok (Some k).
Hypothesis R : reports m k.
Hypothesis W : wf_grib m.
Hypothesis Hoff : (0 <= off)%Z.

Lemma build_start : build_ bytes off =
  let* b := get_builder (m_packing m) in
  match b with
  | BSimple => jump_info k SimpleInfo
  | BUnsupported => jump_info k UnsupportedInfo
  | BCcsds => ccsds_info aec_full fresh bytes k off
  end.
Proof.
  unfold build. destruct (off <? 0)%Z eqn:E; [lia|]. rewrite eccodes. cbn [obind].
  rewrite (rep_packing _ _ R). reflexivity.
Qed.

Lemma builder_simple : get_builder "grid_simple" = Ok BSimple. Proof. reflexivity. Qed.
Lemma builder_ccsds : get_builder "grid_ccsds" = Ok BCcsds. Proof. reflexivity. Qed.
Lemma builder_other s : s <> "grid_simple"%string -> s <> "grid_ccsds"%string -> get_builder s = Ok BUnsupported.
Proof.
  intros H1 H2. unfold get_builder, builders, find_builder.
  destruct (String.eqb_spec "grid_ccsds" s); [congruence|]. destruct (String.eqb_spec "grid_simple" s); [congruence|].
  destruct (String.eqb "unsupported" s); reflexivity.
Qed.

Lemma build_simple : m_packing m = "grid_simple"%string -> build_ bytes off = Ok (info_of m SimpleInfo).
Proof. intros H. rewrite build_start, H, builder_simple. cbn [obind]. now apply jump_info_ok. Qed.

Lemma build_unsupported : m_packing m <> "grid_simple"%string -> m_packing m <> "grid_ccsds"%string ->
  build_ bytes off = Ok (info_of m UnsupportedInfo).
Proof. intros H1 H2. rewrite build_start, builder_other by auto. cbn [obind]. now apply jump_info_ok. Qed.

Lemma ccsds_keys : m_packing m = "grid_ccsds"%string ->
  optional_long k "ccsdsFlags" = Ok (Z.to_N (m_flags m)) /\
  optional_long k "ccsdsBlockSize" = Ok (Z.to_N (m_block m)) /\
  optional_long k "ccsdsRsi" = Ok (Z.to_N (m_rsi m)).
Proof.
  intros H. destruct (rep_ccsds _ _ R H) as (H1 & H2 & H3 & H4 & H5 & H6).
  destruct W as (_ & _ & _ & _ & _ & _ & W1 & W2 & W3 & _). repeat split; apply optional_ok; auto.
Qed.

Lemma build_ccsds_empty : m_packing m = "grid_ccsds"%string -> (m_bits m = 0 \/ m_after m = m_before m)%Z ->
  build_ bytes off = Ok (info_of m (CcsdsInfo (Z.to_N (m_flags m)) (Z.to_N (m_block m)) (Z.to_N (m_rsi m)) [])).
Proof.
  intros H He. rewrite build_start, H, builder_ccsds. cbn [obind]. unfold ccsds_info.
  rewrite (jump_info_ok k m _ R W). cbn [obind]. destruct (ccsds_keys H) as (-> & -> & ->). cbn [obind].
  change (i_bits_per_value (info_of m (CcsdsInfo 0 0 0 []))) with (Z.to_N (m_bits m)).
  change (i_offset_after_data (info_of m (CcsdsInfo 0 0 0 []))) with (m_after m).
  change (i_offset_before_data (info_of m (CcsdsInfo 0 0 0 []))) with (m_before m).
  destruct ((Z.to_N (m_bits m) =? 0)%N || (m_after m =? m_before m)%Z)%bool eqn:E; [reflexivity|].
  apply orb_false_iff in E. destruct He; lia.
Qed.

Lemma build_ccsds : m_packing m = "grid_ccsds"%string -> (0 < m_bits m)%Z -> m_after m <> m_before m ->
  build_ bytes off =
    let* _ := assert_ (0 <? m_after m - m_before m)%Z in
    let* buffer := read_buffer fresh bytes (off + m_before m) (m_after m - m_before m) in
    let* offsets := ccsds_decode_offsets aec_full (Z.to_N (m_flags m)) (Z.to_N (m_bits m)) (Z.to_N (m_block m))
                      (Z.to_N (m_rsi m)) (Z.to_N (m_values m)) buffer in
    Ok (info_of m (CcsdsInfo (Z.to_N (m_flags m)) (Z.to_N (m_block m)) (Z.to_N (m_rsi m)) offsets)).
Proof.
  intros H Hb Hne. rewrite build_start, H, builder_ccsds. cbn [obind]. unfold ccsds_info.
  rewrite (jump_info_ok k m _ R W). cbn [obind]. destruct (ccsds_keys H) as (-> & -> & ->). cbn [obind].
  change (i_bits_per_value (info_of m (CcsdsInfo 0 0 0 []))) with (Z.to_N (m_bits m)).
  change (i_offset_after_data (info_of m (CcsdsInfo 0 0 0 []))) with (m_after m).
  change (i_offset_before_data (info_of m (CcsdsInfo 0 0 0 []))) with (m_before m).
  change (i_number_of_values (info_of m (CcsdsInfo 0 0 0 []))) with (Z.to_N (m_values m)).
  destruct ((Z.to_N (m_bits m) =? 0)%N || (m_after m =? m_before m)%Z)%bool eqn:E; [|reflexivity].
  apply orb_true_iff in E. lia.
Qed.

Lemma native_unique flags native : native_flags flags native -> native = modify_flags flags.
Proof.
  intros H. apply N.bits_inj. intros i. rewrite (H i). rewrite (modify_flags_native flags i). reflexivity.
Qed.

Lemma build_ccsds_ok S offsets native : m_packing m = "grid_ccsds"%string ->
  (0 < m_bits m <= 32)%Z -> (m_before m < m_after m)%Z -> (off + m_after m <= Z.of_nat (length bytes))%Z ->
  (m_after m - m_before m < 1152921504606846976)%Z -> (m_values m < 144115188075855872)%Z ->
  (forall n, length (fresh n) = Z.to_nat n) ->
  native_flags (Z.to_N (m_flags m)) native ->
  aec_full (mk_aec native (Z.to_N (m_bits m)) (Z.to_N (m_block m)) (Z.to_N (m_rsi m))) (m_data m bytes off)
           (Z.to_N (m_values m)) = Some (S, offsets) ->
  build_ bytes off = Ok (info_of m (CcsdsInfo (Z.to_N (m_flags m)) (Z.to_N (m_block m)) (Z.to_N (m_rsi m)) offsets)).
Proof.
  intros H Hb Hlt He Hlen Hval Hf Hn Haec. rewrite build_ccsds by (auto; lia).
  assert (Ha : (0 <? m_after m - m_before m)%Z = true) by lia. rewrite Ha. cbn [assert_ obind].
  destruct W as (_ & _ & W1 & _). unfold natural in W1.
  rewrite read_buffer_ok; auto; try lia. cbn [obind]. fold (m_data m bytes off).
  unfold ccsds_decode_offsets. set (b := Z.to_N (m_bits m)) in *.
  assert (Hb' : (1 <= b <= 32)%N) by (unfold b; lia).
  destruct (sample_nbytes_valid b Hb') as [Hel Hv].
  assert (Hd : ((sample_nbytes b =? 1) || (sample_nbytes b =? 2) || (sample_nbytes b =? 4))%N = true) by lia.
  rewrite Hd. unfold aec_decode_all. rewrite Hv. cbn [obind]. unfold alloc.
  assert (Hal : (Z.to_N (m_values m) * sample_nbytes b <? 1152921504606846976)%N = true).
  { destruct Hel as [Hel|[Hel|Hel]]; rewrite Hel; lia. }
  rewrite Hal. cbn [obind]. rewrite <- (native_unique _ _ Hn). rewrite Haec. reflexivity.
Qed.
End One.
End Build.

(* ---- from the bytes to the values ---- *)
Section EndToEnd.
Context {F : Type}.
Variable A : farith F.
Variable libaec : aec_oracle.
Variable aec_full : aec_full_oracle.
Variable fresh : Z -> list N.
Variable grib_at : list N -> Z -> outcome (option (codes F)).
Hypothesis consistent : libaec_consistent aec_full libaec.
Hypothesis fresh_length : forall n, length (fresh n) = Z.to_nat n.

Lemma nth_repeat_lt {V} (x d : V) n i : i < n -> nth i (repeat x n) d = x.
Proof. revert i. induction n; intros [|i] H; cbn; auto; try lia. apply IHn. lia. Qed.

Lemma filter_length_le {V} (f : V -> bool) l : length (filter f l) <= length l.
Proof. induction l as [|a l IH]; cbn; auto. destruct (f a); cbn; lia. Qed.

Lemma present_all n p : p <= n -> present_before (repeat true n) p = p.
Proof.
  intros H. unfold present_before. replace n with (p + (n - p)) by lia.
  rewrite repeat_app, firstn_app, repeat_length, Nat.sub_diag. cbn [firstn]. rewrite app_nil_r.
  rewrite firstn_all2 by (rewrite repeat_length; lia).
  clear. induction p; cbn; auto.
Qed.

Lemma present_step bm p : nth p bm false = true -> present_before bm (S p) = S (present_before bm p).
Proof.
  intros H. assert (Hl : p < length bm).
  { destruct (Nat.lt_ge_cases p (length bm)); auto. rewrite nth_overflow in H by auto. discriminate. }
  unfold present_before. rewrite (firstn_slice_app bm p (S p)) by lia. rewrite filter_app, app_length.
  replace (S p - p) with 1 by lia. unfold slice.
  assert (Hs : firstn 1 (skipn p bm) = [nth p bm false]).
  { apply nth_error_ext'; cbn [length].
    - rewrite firstn_length, skipn_length. lia.
    - intros i Hi. rewrite firstn_length, skipn_length in Hi. assert (i = 0) by lia. subst i.
      rewrite nth_error_firstn by lia. rewrite nth_error_skipn. rewrite Nat.add_0_r. cbn. now apply nth_error_nth'. }
  rewrite Hs, H. cbn. lia.
Qed.

Section One.
Variables (bytes : list N) (off : Z) (k : codes F) (m : grib F) (S : list N).
Hypothesis eccodes : grib_at bytes off = Ok (Some k).
Hypothesis R : reports m k.
Hypothesis Sup : supported m bytes off.
Hypothesis HS : m_samples m bytes off aec_full S.

Notation cv := (code_value m A).
Notation orm := (or_missing A).
Definition whole_field : list F :=
  map (fun p => orm (m_point m bytes off cv S p)) (seq 0 (Z.to_nat (m_points m))).

Notation bm := (m_present m bytes off).

Lemma present_length : length bm = Z.to_nat (m_points m).
Proof.
  destruct Sup as (W & _ & Hl & _ & Ho & Hp & _ & Hb & _). unfold m_present.
  destruct W as (_ & _ & _ & _ & Wp & _ & _ & _ & _ & Wb). unfold natural in Wp.
  destruct (m_bitmap m) as [b|]; [|apply repeat_length].
  rewrite firstn_length. rewrite bits_of_length.
  rewrite slice_length; [lia|]. destruct Wb as [Wb _]. unfold natural in Wb. lia.
Qed.

Lemma samples_length : length S = Z.to_nat (m_values m).
Proof.
  destruct HS as [Hb|Hb Hp|S' offs native Hb Hp Hn Haec].
  - apply repeat_length.
  - unfold samples. now rewrite map_length, seq_length.
  - destruct Sup as (W & _ & _ & _ & _ & _ & _ & _ & [[Hz _]|(_ & _ & [[Hp' _]|(_ & _ & _ & Hr)])]); [lia|congruence|].
    destruct W as (_ & _ & _ & _ & _ & Wv & _ & Wbl & Wr & _).
    destruct ((fun H => consistent _ _ _ _ _ H Haec) (proj1 (product_natural _ _ Wr Wbl Hr))) as [Hl _].
    unfold lenN in Hl. lia.
Qed.

Lemma present_below p : nth p bm false = true -> present_before bm p < length S.
Proof.
  intros H. rewrite samples_length. destruct Sup as (_ & _ & _ & _ & _ & _ & -> & _).
  assert (Hl : p < length bm).
  { destruct (Nat.lt_ge_cases p (length bm)); auto. rewrite nth_overflow in H by auto. discriminate. }
  rewrite present_length in Hl. pose proof (present_step _ _ H) as Hs.
  pose proof (present_mono bm (Datatypes.S p) (Z.to_nat (m_points m)) ltac:(lia)). lia.
Qed.

Lemma whole_plain : m_bitmap m = None -> whole_field = map cv S.
Proof.
  intros Hb. assert (Hlen : length S = Z.to_nat (m_points m)).
  { rewrite samples_length. destruct Sup as (_ & _ & _ & _ & _ & _ & -> & _).
    unfold m_present. rewrite Hb. now apply present_all. }
  apply nth_error_ext'.
  - unfold whole_field. rewrite !map_length, seq_length. lia.
  - intros i Hi. unfold whole_field in *. rewrite map_length, seq_length in Hi.
    rewrite !nth_error_map. rewrite (nth_error_nth' (seq _ _) 0) by (rewrite seq_length; lia).
    rewrite seq_nth by lia. rewrite (nth_error_nth' S 0%N) by lia. cbn [option_map Nat.add].
    unfold m_point, m_present. rewrite Hb. rewrite nth_repeat_lt by lia. rewrite present_all by lia. reflexivity.
Qed.

Lemma whole_masked : whole_field = masked_field (f_nan A) bm (map cv S).
Proof.
  unfold whole_field, masked_field. rewrite present_length. apply map_ext_in. intros p Hp.
  unfold m_point, masked_point. destruct (nth p bm false) eqn:E; [|reflexivity]. cbn [or_missing].
  pose proof (present_below p E) as Hb. rewrite (nth_indep _ _ (cv 0%N)) by (rewrite map_length; lia).
  now rewrite map_nth.
Qed.

Lemma data_located c : (0 < m_bits m)%Z -> data_in_file bytes off (info_of m c) /\ data_bytes bytes off (info_of m c) = m_data m bytes off.
Proof.
  intros Hb. destruct Sup as (W & _ & Hl & _ & Ho & _ & _ & _ & [[Hz _]|((_ & H1 & H2) & _)]); [lia|].
  destruct W as (_ & _ & W1 & _). unfold natural in W1. split; [|reflexivity].
  unfold data_in_file. cbn [i_offset_before_data i_offset_after_data info_of]. lia.
Qed.

Lemma packed_of_samples c : (0 < m_bits m)%Z ->
  match c with
  | SimpleInfo => m_packing m = "grid_simple"%string
  | CcsdsInfo f b r offs => m_packing m = "grid_ccsds"%string /\
      f = Z.to_N (m_flags m) /\ b = Z.to_N (m_block m) /\ r = Z.to_N (m_rsi m) /\
      aec_full (mk_aec (modify_flags f) (Z.to_N (m_bits m)) b r) (m_data m bytes off) (Z.to_N (m_values m)) = Some (S, offs)
  | UnsupportedInfo => False
  end ->
  packed_field A libaec bytes off (info_of m c) (map cv S).
Proof.
  intros Hb Hc. destruct (data_located c Hb) as [HD HB].
  assert (Hz : (m_bits m =? 0)%Z = false) by lia.
  destruct Sup as (W & Hbytes & Hl & _ & Ho & Hpts & Hval & _ & [[Hz' _]|(H1 & H2 & H3)]); [lia|].
  destruct W as (_ & Wb & W1 & W2 & Wp & Wv & Wf & Wbl & Wr & _). unfold natural in *.
  assert (Hvp : Z.to_nat (m_values m) <= Z.to_nat (m_points m)).
  { rewrite Hval. unfold present_before. rewrite <- present_length.
    etransitivity; [apply filter_length_le|]. rewrite firstn_length. lia. }
  destruct c as [|f b r offs|]; [| |contradiction].
  - destruct H3 as [(_ & Hw & Hfit)|[Hcc _]]; [|congruence].
    assert (Hv : map cv S = map (fun j => simple_scale A (i_reference (info_of m SimpleInfo))
        (i_binary_scale (info_of m SimpleInfo)) (i_decimal_scale (info_of m SimpleInfo))
        (sample_at (bits_of (data_bytes bytes off (info_of m SimpleInfo))) 0
           (N.to_nat (i_bits_per_value (info_of m SimpleInfo))) j)) (seq 0 (Z.to_nat (m_values m)))).
    { inversion HS as [Hb0|Hb0 Hp0|S' offs native Hb0 Hp0 Hn0 Haec]; subst; [lia| |congruence].
      unfold samples. rewrite map_map. apply map_ext. intros j. unfold code_value. rewrite Hz, Hc. cbn [String.eqb Ascii.eqb Bool.eqb].
      rewrite HB. cbn [i_reference i_binary_scale i_decimal_scale i_bits_per_value info_of].
      repeat f_equal. lia. }
    rewrite Hv. apply packed_simple; auto.
    + rewrite HB. cbn [i_bits_per_value info_of]. unfold m_data. rewrite slice_length by lia.
      replace (N.to_nat (Z.to_N (m_bits m))) with (Z.to_nat (m_bits m)) by lia.
      split; [cbv zeta in Hw; lia|]. rewrite <- Z2Nat.inj_mul by lia. lia.
    + lia.
  - destruct Hc as (Hc & -> & -> & -> & Haec).
    destruct H3 as [(Hcc & _)|(_ & Hb32 & Hlt & Hrb)]; [congruence|].
    pose proof (product_natural _ _ Wr Wbl Hrb) as Hprod.
    destruct ((fun H => consistent _ _ _ _ _ H Haec) (proj1 Hprod)) as (C1 & C2 & C3 & C4).
    cbn [aec_rsi aec_block_size] in C2, C4.
    assert (Hv : map cv S = map (ccsds_scale A (m_reference m) (m_binary m) (m_decimal m)) S).
    { apply map_ext. intros X. unfold code_value. rewrite Hz, Hc. reflexivity. }
    rewrite Hv.
    apply (packed_ccsds A libaec bytes off (info_of m (CcsdsInfo (Z.to_N (m_flags m)) (Z.to_N (m_block m)) (Z.to_N (m_rsi m)) offs))
             (Z.to_N (m_flags m)) (Z.to_N (m_block m)) (Z.to_N (m_rsi m)) offs S); auto.
    + rewrite HB. unfold lenN, m_data. rewrite slice_length by lia. lia.
    + cbn [i_bits_per_value info_of]. lia.
    + rewrite HB. intros native Hn. rewrite (native_unique _ _ Hn). exact C2.
    + rewrite C1. lia.
    + rewrite C1. exact C4.
Qed.

Lemma field_located c :
  match c with
  | SimpleInfo => m_packing m = "grid_simple"%string
  | CcsdsInfo f b r offs => m_packing m = "grid_ccsds"%string /\ (m_bits m = 0%Z \/
      f = Z.to_N (m_flags m) /\ b = Z.to_N (m_block m) /\ r = Z.to_N (m_rsi m) /\
      aec_full (mk_aec (modify_flags f) (Z.to_N (m_bits m)) b r) (m_data m bytes off) (Z.to_N (m_values m)) = Some (S, offs))
  | UnsupportedInfo => False
  end ->
  field_of_message A libaec bytes off (info_of m c) whole_field bm.
Proof.
  intros Hc.
  assert (W : wf_grib m) by apply Sup.
  destruct W as (_ & Wb & W1 & W2 & Wp & Wv & Wf & Wbl & Wr & Wbm). unfold natural in *.
  assert (Hpk : (m_packing m = "grid_simple" \/ m_packing m = "grid_ccsds")%string).
  { destruct c; [left|right|]; tauto. }
  destruct (Z.eq_dec (m_bits m) 0) as [Hz|Hz].
  - destruct Sup as (_ & _ & _ & _ & _ & Hpts & _ & _ & [(_ & Hbm & _)|(H1 & _)]); [|lia].
    rewrite whole_plain by auto.
    assert (Hlen : length S = Z.to_nat (m_points m)).
    { rewrite samples_length. destruct Sup as (_ & _ & _ & _ & _ & _ & -> & _).
      unfold m_present. rewrite Hbm. now apply present_all. }
    assert (Hr : map cv S = repeat (i_reference (info_of m c)) (N.to_nat (i_number_of_points (info_of m c)))).
    { cbn [i_reference i_number_of_points info_of]. replace (N.to_nat (Z.to_N (m_points m))) with (length S) by lia.
      clear -Hz. unfold code_value. rewrite Hz. cbn [Z.eqb]. induction S; cbn; congruence. }
    rewrite Hr. unfold m_present. rewrite Hbm.
    replace (Z.to_nat (m_points m)) with (N.to_nat (i_number_of_points (info_of m c))) by (cbn [i_number_of_points info_of]; lia).
    apply constant_field; cbn [i_bits_per_value i_offset_before_bitmap i_packing i_number_of_points info_of]; auto.
    + rewrite Hz. reflexivity.
    + now rewrite Hbm.
    + lia.
  - assert (Hpos : (0 < m_bits m)%Z) by lia.
    assert (HP : packed_field A libaec bytes off (info_of m c) (map cv S)).
    { apply packed_of_samples; auto. destruct c; auto. destruct Hc as [Hc [Hc'|Hc']]; [lia|tauto]. }
    assert (Hnz : i_bits_per_value (info_of m c) <> 0%N) by (cbn [i_bits_per_value info_of]; lia).
    destruct (m_bitmap m) as [b|] eqn:Eb.
    + assert (Hbm : bitmap bytes off (info_of m c) = bm).
      { unfold bitmap, m_present, bytes_at, bitmap_bytes. cbn [i_number_of_points i_offset_before_bitmap info_of]. rewrite Eb.
        f_equal; [lia|]. f_equal. f_equal. rewrite N2Z.inj_div. f_equal. f_equal; lia. }
      rewrite whole_masked, <- Hbm. apply bitmap_field; auto.
      * cbn [i_offset_before_bitmap info_of]. rewrite Eb. lia.
      * destruct Sup as (_ & _ & Hl & _ & Ho & Hpts & _ & Hbe & _). rewrite Eb in Hbe.
        unfold bitmap_in_file, bitmap_bytes. cbn [i_number_of_points i_offset_before_bitmap info_of]. rewrite Eb.
        rewrite N2Z.inj_div. replace (Z.of_N (Z.to_N (m_points m) + 7)) with (m_points m + 7)%Z by lia. change (Z.of_N 8) with 8%Z. lia.
      * rewrite Hbm, map_length, samples_length, present_length. destruct Sup as (_ & _ & _ & _ & _ & _ & -> & _). lia.
    + rewrite whole_plain by auto. unfold m_present. rewrite Eb.
      replace (Z.to_nat (m_points m)) with (length (map cv S)).
      2:{ rewrite map_length, samples_length. destruct Sup as (_ & _ & _ & _ & _ & _ & -> & _). unfold m_present. rewrite Eb. now apply present_all. }
      apply plain_field; auto. cbn [i_offset_before_bitmap info_of]. now rewrite Eb.
Qed.

Theorem described : exists inf, build aec_full fresh grib_at bytes off = Ok inf /\
  field_of_message A libaec bytes off inf whole_field bm /\ i_spherical inf = 0%Z.
Proof.
  assert (W : wf_grib m) by apply Sup. assert (Ho : (0 <= off)%Z) by apply Sup.
  assert (Hs : m_spectral m = 0%Z) by apply Sup.
  inversion HS as [Hb|Hb Hp|S' offs native Hb Hp Hn Haec].
  - destruct Sup as (_ & _ & _ & _ & _ & _ & _ & _ & [(_ & Hbm & [Hp|Hp])|(H1 & _)]); [| |lia].
    + exists (info_of m SimpleInfo). split; [eapply build_simple; eauto|]. split; [|exact Hs]. now apply field_located.
    + eexists. split; [eapply build_ccsds_empty; eauto|]. split; [|exact Hs]. apply field_located. split; auto.
  - exists (info_of m SimpleInfo). split; [eapply build_simple; eauto|]. split; [|exact Hs]. now apply field_located.
  - pose proof samples_length as Hsl.
    destruct Sup as (_ & _ & _ & _ & _ & Hpts & Hval & _ & [[Hz _]|((H1 & H2 & H2') & H3 & [[Hp' _]|(_ & Hb32 & Hlt & Hrb)])]);
      [lia|congruence|].
    assert (Hvp : Z.to_nat (m_values m) <= Z.to_nat (m_points m)).
    { rewrite Hval. unfold present_before. rewrite <- present_length.
      etransitivity; [apply filter_length_le|]. rewrite firstn_length. lia. }
    eexists. split; [eapply build_ccsds_ok; eauto; lia|]. split; [|exact Hs]. apply field_located.
    split; auto. right. repeat split; auto. rewrite <- (native_unique _ _ Hn). congruence.
Qed.

Lemma whole_length : lenN whole_field = Z.to_N (m_points m).
Proof.
  assert (W : wf_grib m) by apply Sup. destruct W as (_ & _ & _ & _ & Wp & _). unfold natural in Wp.
  unfold lenN, whole_field. rewrite map_length, seq_length. lia.
Qed.

Theorem build_then_extract l : good_request (Z.to_N (m_points m)) l ->
  exists vals masks,
    (let* inf := build aec_full fresh grib_at bytes off in extract A libaec bytes off inf l) = Ok (vals, masks) /\
    Forall2 (fun i v => v = map (fun p => orm (m_point m bytes off cv S p))
                                (seq (N.to_nat (fst i)) (N.to_nat (snd i) - N.to_nat (fst i)))) l vals /\
    Forall2 (fun i w => is_mask (map (fun p => is_some (m_point m bytes off cv S p))
                                     (seq (N.to_nat (fst i)) (N.to_nat (snd i) - N.to_nat (fst i)))) w) l masks.
Proof.
  intros Hg. destruct described as (inf & Hbuild & Hf & Hs). rewrite Hbuild. cbn [obind].
  rewrite (extract_field A libaec bytes off inf whole_field bm l Hf Hs) by (rewrite whole_length; auto).
  eexists _, _. split; [reflexivity|]. destruct Hg as (_ & Hg & _).
  assert (W : wf_grib m) by apply Sup. destruct W as (_ & _ & _ & _ & Wp & _). unfold natural in Wp.
  split.
  - apply Forall2_map_r. apply Forall2_same. eapply Forall_impl; [|apply Hg]. intros i Hi. cbv beta in Hi.
    unfold cut, whole_field. rewrite slice_map, slice_seq by lia. reflexivity.
  - rewrite map_map. apply Forall2_map_r. apply Forall2_same. eapply Forall_impl; [|apply Hg]. intros i Hi. cbv beta in Hi.
    assert (Hc : cut bm i = map (fun p => is_some (m_point m bytes off cv S p))
                                (seq (N.to_nat (fst i)) (N.to_nat (snd i) - N.to_nat (fst i)))).
    { unfold cut. apply nth_error_ext'.
      - rewrite slice_length by (rewrite present_length; lia). now rewrite map_length, seq_length.
      - intros j Hj. rewrite slice_length in Hj by (rewrite present_length; lia).
        rewrite nth_error_slice by lia. rewrite nth_error_map.
        rewrite (nth_error_nth' (seq _ _) 0) by (rewrite seq_length; lia). rewrite seq_nth by lia. cbn [option_map].
        rewrite (nth_error_nth' bm false) by (rewrite present_length; lia).
        f_equal. unfold m_point. destruct (nth _ bm false); reflexivity. }
    rewrite <- Hc. apply to_bitset_mask.
Qed.
End One.
End EndToEnd.
