From Coq Require Import QArith Qpower Qfield.
From Verif Require Import Base BaseLemmas ModelRange ModelSimple ModelCcsds ModelInfo ModelJumper ModelScan ModelBuild ModelFloat
     SpecRange SpecSimple SpecCcsds SpecJumper SpecBuild SpecScan ProofsScan ProofsSimple ProofsCcsds ProofsFloat ProofsJumper ProofsJumper2 ProofsJumper3
     ProofsBuild ProofsBuild2.
Open Scope nat_scope.

Section Three.
Context {F : Type}.
Variable aec_full : aec_full_oracle.
Variable fresh : Z -> list N.
Variable grib_at : list N -> Z -> outcome (option (codes F)).
Hypothesis fresh_length : forall n, length (fresh n) = Z.to_nat n.
Notation build_ := (build aec_full fresh grib_at).

(* ---- the interval table ---- *)
Lemma build_intervals bytes off i f b r offs :
  build_ bytes off = Ok i -> i_class i = CcsdsInfo f b r offs ->
  if ((i_bits_per_value i =? 0)%N || (i_offset_after_data i =? i_offset_before_data i)%Z)%bool then offs = []
  else (i_offset_before_data i < i_offset_after_data i)%Z /\
       ((off + i_offset_after_data i <= Z.of_nat (length bytes))%Z ->
        exists native S, native_flags f native /\
          aec_full (mk_aec native (i_bits_per_value i) b r) (data_bytes bytes off i) (i_number_of_values i) = Some (S, offs)).
Proof.
  intros H Hc. unfold build in H. destruct (off <? 0)%Z eqn:Eo; [discriminate|].
  inv_bind H h Eh. destruct h as [k|]; [|discriminate]. inv_bind H pk Ep. inv_bind H bd Eb. destruct bd.
  - destruct (jump_info_told k _ i H) as [Hc' _]. congruence.
  - unfold ccsds_info in H. inv_bind H i0 Ei. inv_bind H fl E1. inv_bind H bs E2. inv_bind H rs E3.
    destruct ((i_bits_per_value i0 =? 0)%N || (i_offset_after_data i0 =? i_offset_before_data i0)%Z)%bool eqn:Ez.
    + injection H as <-. unfold with_class in *. cbn [i_bits_per_value i_offset_after_data i_offset_before_data i_class] in *.
      rewrite Ez. congruence.
    + cbv zeta in H. inv_bind H u E4. inv_bind H buf E5. inv_bind H o E6. injection H as <-.
      unfold with_class, data_bytes in *.
      cbn [i_bits_per_value i_offset_after_data i_offset_before_data i_number_of_values i_class] in *. rewrite Ez.
      injection Hc as -> -> -> ->.
      unfold assert_ in E4. destruct (0 <? i_offset_after_data i0 - i_offset_before_data i0)%Z eqn:El; [|discriminate].
      split; [lia|]. intros He. exists (modify_flags f).
      unfold read_buffer in E5. inv_bind E5 v E7. destruct (off + i_offset_before_data i0 <? 0)%Z eqn:En; [discriminate|]. injection E5 as <-.
      unfold ccsds_decode_offsets in E6. match type of E6 with (if ?c then _ else _) = _ => destruct c; [|discriminate] end.
      apply omap_ok in E6 as ([S o'] & E8 & ->). cbn [snd].
      unfold aec_decode_all in E8. inv_bind E8 w E9. inv_bind E8 w' E10.
      rewrite slice_length in E8 by lia. rewrite skipn_all2 in E8 by (rewrite fresh_length; lia). rewrite app_nil_r in E8.
      unfold bytes_at. destruct (aec_full _ _ _) as [[S1 o1]|] eqn:Ea; [|discriminate]. injection E8 as -> ->.
      exists S. split; [apply modify_flags_native|]. reflexivity.
  - destruct (jump_info_told k _ i H) as [Hc' _]. congruence.
Qed.

(* ---- the constructor from a Message ---- *)
Lemma message_other bytes (k : codes F) m : reports m k -> wf_grib m -> m_packing m <> "grid_ccsds"%string ->
  grib_at bytes 0 = Ok (Some k) -> build_of_message aec_full fresh bytes k = build_ bytes 0.
Proof.
  intros R W Hp Hg. unfold build_of_message. rewrite (rep_packing _ _ R). cbn [obind].
  destruct (String.eqb_spec (m_packing m) "grid_simple") as [E|E].
  - rewrite (build_simple aec_full fresh grib_at bytes 0 k m Hg R W (Z.le_refl 0) E). rewrite E, builder_simple. cbn [obind].
    now apply jump_info_message_ok.
  - rewrite (build_unsupported aec_full fresh grib_at bytes 0 k m Hg R W (Z.le_refl 0) E Hp).
    rewrite builder_other by auto. cbn [obind]. now apply jump_info_message_ok.
Qed.

Lemma values_bound (m : grib F) bytes off : supported m bytes off -> (m_values m < 144115188075855872)%Z.
Proof.
  intros Sup. destruct Sup as (W & _ & Hl & _ & Ho & Hp & Hv & Hb & _).
  destruct W as (_ & _ & _ & _ & Wp & Wv & _ & _ & _ & Wb). unfold natural in *.
  assert (Hle : present_before (m_present m bytes off) (Z.to_nat (m_points m)) <= Z.to_nat (m_points m)).
  { unfold present_before. etransitivity; [apply filter_length_le|]. rewrite firstn_length. lia. }
  lia.
Qed.

Lemma message_ccsds libaec bytes (k : codes F) m S : libaec_consistent aec_full libaec ->
  reports m k -> supported m bytes 0 -> m_samples m bytes 0 aec_full S ->
  m_packing m = "grid_ccsds"%string -> m_bits m <> 0%Z ->
  grib_at bytes 0 = Ok (Some k) -> build_of_message aec_full fresh bytes k = build_ bytes 0.
Proof.
  intros Hcons R Sup HS Hp Hb Hg. assert (W : wf_grib m) by apply Sup. pose proof (values_bound _ _ _ Sup) as Hval.
  inversion HS as [Hz|Hz Hp'|S' offs native Hz Hp' Hn Haec]; [congruence|congruence|]. subst S'.
  destruct Sup as (_ & _ & Hlen & _ & _ & Hpts & _ & _ & [[Hz' _]|((H1 & H2 & H2') & H3 & [[Hps _]|(_ & Hb32 & Hlt & Hrb)])]);
    [lia|congruence|].
  pose proof W as (_ & Wb & W1 & W2 & _ & Wv & Wf & Wbl & Wr & _).
  rewrite (build_ccsds_ok aec_full fresh grib_at bytes 0 k m Hg R W (Z.le_refl 0) S offs native) by (auto; lia).
  unfold build_of_message. rewrite (rep_packing _ _ R). cbn [obind]. rewrite Hp, builder_ccsds. cbn [obind].
  unfold ccsds_info_of_message. rewrite jump_info_message_ok with (m := m) by assumption. cbn [obind].
  destruct (rep_ccsds _ _ R Hp) as (_ & -> & _ & -> & _ & ->). cbn [omap obind].
  rewrite !u64_natural by auto.
  change (i_bits_per_value (info_of m (CcsdsInfo 0 0 0 []))) with (Z.to_N (m_bits m)).
  change (i_offset_after_data (info_of m (CcsdsInfo 0 0 0 []))) with (m_after m).
  change (i_offset_before_data (info_of m (CcsdsInfo 0 0 0 []))) with (m_before m).
  change (i_number_of_values (info_of m (CcsdsInfo 0 0 0 []))) with (Z.to_N (m_values m)).
  unfold natural in *. rewrite read_buffer_ok by (auto; lia). cbn [obind].
  unfold m_data in Haec. cbn [Z.add] in Haec.
  unfold ccsds_decode_all. set (b := Z.to_N (m_bits m)) in *.
  assert (Hb' : (1 <= b <= 32)%N) by (unfold b; lia).
  destruct (sample_nbytes_valid b Hb') as [Hel Hv].
  assert (Hd : ((sample_nbytes b =? 1) || (sample_nbytes b =? 2) || (sample_nbytes b =? 4))%N = true) by lia.
  rewrite Hd. unfold aec_decode_all. rewrite Hv. cbn [obind]. unfold alloc.
  assert (Hal : (Z.to_N (m_values m) * sample_nbytes b <? 1152921504606846976)%N = true).
  { destruct Hel as [Hel|[Hel|Hel]]; rewrite Hel; lia. }
  rewrite Hal. cbn [obind]. rewrite <- (native_unique _ _ Hn). rewrite Haec. cbn [obind].
  destruct ((fun H => Hcons _ _ _ _ _ H Haec) (proj1 (product_natural _ _ Wr Wbl Hrb))) as (_ & _ & _ & C4).
  destruct offs as [|o offs]; [unfold lenN in C4; cbn in C4; lia|reflexivity].
Qed.

(* ---- the same message inside a file and on its own ---- *)
Lemma same_description file off msg (k k' : codes F) m :
  grib_at file off = Ok (Some k) -> grib_at msg 0 = Ok (Some k') -> reports m k -> reports m k' -> wf_grib m ->
  (0 <= off)%Z -> msg = slice file (Z.to_nat off) (length msg) -> (m_after m <= Z.of_nat (length msg))%Z ->
  build_ file off = build_ msg 0.
Proof.
  intros G G' R R' W Ho Hm Ha.
  destruct (String.eqb_spec (m_packing m) "grid_simple") as [E|E].
  { rewrite (build_simple aec_full fresh grib_at file off k m G R W Ho E).
    now rewrite (build_simple aec_full fresh grib_at msg 0 k' m G' R' W (Z.le_refl 0) E). }
  destruct (String.eqb_spec (m_packing m) "grid_ccsds") as [E'|E'].
  2:{ rewrite (build_unsupported aec_full fresh grib_at file off k m G R W Ho E E').
      now rewrite (build_unsupported aec_full fresh grib_at msg 0 k' m G' R' W (Z.le_refl 0) E E'). }
  destruct (Z.eq_dec (m_bits m) 0) as [Hz|Hz].
  { rewrite (build_ccsds_empty aec_full fresh grib_at file off k m G R W Ho E') by auto.
    now rewrite (build_ccsds_empty aec_full fresh grib_at msg 0 k' m G' R' W (Z.le_refl 0) E') by auto. }
  destruct (Z.eq_dec (m_after m) (m_before m)) as [Hab|Hab].
  { rewrite (build_ccsds_empty aec_full fresh grib_at file off k m G R W Ho E') by auto.
    now rewrite (build_ccsds_empty aec_full fresh grib_at msg 0 k' m G' R' W (Z.le_refl 0) E') by auto. }
  pose proof W as (_ & Wb & W1 & W2 & _). unfold natural in *.
  rewrite (build_ccsds aec_full fresh grib_at file off k m G R W Ho E') by (auto; lia).
  rewrite (build_ccsds aec_full fresh grib_at msg 0 k' m G' R' W (Z.le_refl 0) E') by (auto; lia).
  destruct (0 <? m_after m - m_before m)%Z eqn:El; [|reflexivity]. cbn [assert_ obind].
  assert (Hr : read_buffer fresh file (off + m_before m) (m_after m - m_before m) =
               read_buffer fresh msg (0 + m_before m) (m_after m - m_before m)); [|now rewrite Hr].
  unfold read_buffer. destruct (alloc _ _); cbn [obind]; auto.
  destruct (off + m_before m <? 0)%Z eqn:E1; [lia|]. destruct (0 + m_before m <? 0)%Z eqn:E2; [lia|].
  assert (Hs : slice msg (Z.to_nat (0 + m_before m)) (Z.to_nat (m_after m - m_before m)) =
               slice file (Z.to_nat (off + m_before m)) (Z.to_nat (m_after m - m_before m))); [|now rewrite Hs].
  rewrite Hm. rewrite slice_slice by lia. f_equal. lia.
Qed.
End Three.

(* ---- the values ---- *)
Section Values.
Context {F : Type}.
Variable A : farith F.
Variable libaec : aec_oracle.
Variable aec_full : aec_full_oracle.
Variable fresh : Z -> list N.
Variable grib_at : list N -> Z -> outcome (option (codes F)).
Hypothesis consistent : libaec_consistent aec_full libaec.
Hypothesis fresh_length : forall n, length (fresh n) = Z.to_nat n.

Lemma is_some_point (m : grib F) bytes off {V W} (f : N -> V) (g : N -> W) S p :
  is_some (m_point m bytes off f S p) = is_some (m_point m bytes off g S p).
Proof. unfold m_point. destruct (nth p _ false); reflexivity. Qed.

Theorem stored_values bytes off m S l : message_at aec_full grib_at bytes off m S -> good_request (Z.to_N (m_points m)) l ->
  exists inf x, build aec_full fresh grib_at bytes off = Ok inf /\ extract A libaec bytes off inf l = Ok x /\
                stored_result m bytes off S A l x.
Proof.
  intros ((k & Hk & R) & Sup & HS) Hg.
  destruct (build_then_extract A libaec aec_full fresh grib_at consistent fresh_length bytes off k m S Hk R Sup HS l Hg)
    as (vals & masks & E & Hv & Hm).
  apply bind_ok in E as (inf & Eb & Ee). exists inf, (vals, masks). split; auto. split; auto. split; cbn [fst snd]; auto.
  unfold right_masks, points. eapply Forall2_impl; [|exact Hm]. cbv beta. intros i w Hw.
  erewrite map_ext; [exact Hw|]. intros p. apply is_some_point.
Qed.
End Values.

Lemma formula_value (m : grib Q) (X : N) : formula_holds m -> (m_packing m = "grid_simple" \/ m_packing m = "grid_ccsds")%string ->
  (m_bits m = 0%Z -> X = 0%N) ->
  (code_value m q_arith X == grib_value (m_reference m) (m_binary m) (m_decimal m) X)%Q.
Proof.
  intros Hf Hp Hx. unfold code_value. destruct (m_bits m =? 0)%Z eqn:Eb.
  - rewrite (Hx ltac:(lia)). destruct Hf as [->|[_ Hf]]; [|lia]. unfold grib_value. cbn. ring.
  - destruct (String.eqb_spec (m_packing m) "grid_simple") as [E|E].
    + apply simple_scale_formula.
    + destruct Hf as [->|[Hf _]]; [|congruence]. apply ccsds_scale_right.
Qed.

Lemma stored_exact full m bytes off S l x : formula_holds m -> supported m bytes off -> m_samples m bytes off full S ->
  stored_result m bytes off S q_arith l x -> exact_result m bytes off S l x.
Proof.
  intros Hf Sup HS [Hv Hm]. split; auto. eapply Forall2_impl; [|exact Hv]. cbv beta. intros i v ->.
  apply Forall2_map_r. apply Forall2_same. apply Forall_forall. intros p _. unfold m_point.
  destruct (nth p (m_present m bytes off) false); cbn [is_point or_missing]; auto.
  apply formula_value; auto.
  - destruct Sup as (_ & _ & _ & _ & _ & _ & _ & _ & [(_ & _ & H)|(_ & _ & [[H _]|[H _]])]); auto.
  - intros Hz. inversion HS as [Hb|Hb Hp|S' offs native Hb Hp Hn Haec]; [|lia|lia].
    generalize (present_before (m_present m bytes off) p). generalize (Z.to_nat (m_values m)).
    clear. induction n; intros [|j]; cbn; auto.
Qed.

Theorem exact_values libaec full fresh grib_at : libaec_consistent full libaec -> (forall n, length (fresh n) = Z.to_nat n) ->
  forall bytes off m S l, message_at full grib_at bytes off m S -> formula_holds m -> good_request (Z.to_N (m_points m)) l ->
  exists inf x, build full fresh grib_at bytes off = Ok inf /\ extract q_arith libaec bytes off inf l = Ok x /\
                exact_result m bytes off S l x.
Proof.
  intros Hc Hfl bytes off m S l Hm Hf Hg.
  destruct (stored_values q_arith libaec full fresh grib_at Hc Hfl bytes off m S l Hm Hg) as (inf & x & Eb & Ee & Hs).
  exists inf, x. split; auto. split; auto. destruct Hm as (_ & Sup & HS). eapply stored_exact; eauto.
Qed.

Lemma ten_power_pos p : ~ (Qpower 10 (Zpos p) == 1)%Q.
Proof.
  intros H. change (10)%Q with (inject_Z 10) in H. rewrite <- Zpower_Qpower in H by lia.
  unfold Qeq in H. cbn [Qnum Qden inject_Z] in H. assert (H2 : (10 ^ Zpos p = 1)%Z) by lia.
  replace (Zpos p) with (Z.succ (Z.pred (Zpos p))) in H2 by lia. rewrite Z.pow_succ_r in H2 by lia.
  set (x := (10 ^ Z.pred (Zpos p))%Z) in *. clearbody x. lia.
Qed.

Lemma ten_power D : D <> 0%Z -> ~ (Qpower 10 D == 1)%Q.
Proof.
  intros H. destruct D as [|p|p]; [congruence|apply ten_power_pos|].
  intros Hp. apply (ten_power_pos p). change (Zneg p) with (- Zpos p)%Z in Hp. rewrite Qpower_opp in Hp.
  rewrite <- (Qinv_involutive (Qpower 10 (Zpos p))). rewrite Hp. reflexivity.
Qed.

(* a constant field is the reference value, whatever the decimal scale factor *)
Lemma constant_ignores_decimal (m : grib Q) : m_bits m = 0%Z -> m_decimal m <> 0%Z -> ~ (m_reference m == 0)%Q ->
  ~ (code_value m q_arith 0 == grib_value (m_reference m) (m_binary m) (m_decimal m) 0)%Q.
Proof.
  intros Hb Hd Hr H. unfold code_value in H. rewrite Hb in H. cbn [Z.eqb] in H. unfold grib_value in H.
  apply (ten_power (- m_decimal m)); [lia|].
  apply Qmult_inj_l with (z := m_reference m); [exact Hr|]. rewrite Qmult_1_r.
  rewrite H at 2. change (inject_Z (Z.of_N 0)) with 0%Q. ring.
Qed.

(* reading past the end of the file *)
Lemma stale_intervals :
  exists i i', build sum_full zeros ex_eccodes gribs 24 = Ok i /\ build sum_full ones ex_eccodes gribs 24 = Ok i' /\
    i_class i = CcsdsInfo 14 2 1 [0; 17]%N /\ i_class i' = CcsdsInfo 14 2 1 [0; 19]%N.
Proof. do 2 eexists. split; [vm_compute; reflexivity|]. split; [vm_compute; reflexivity|]. split; reflexivity. Qed.

Lemma zeros_length n : length (zeros n) = Z.to_nat n. Proof. apply repeat_length. Qed.
Lemma ones_length n : length (ones n) = Z.to_nat n. Proof. apply repeat_length. Qed.

(* the messages of the example file are as described in SpecBuild *)
Lemma ex_bytes : is_bytes gribs. Proof. repeat constructor. Qed.
Lemma ex_ccsds_at : message_at raw_full ex_eccodes gribs 4 ex_ccsds [40; 50; 60; 70; 80]%N.
Proof.
  split; [exists (codes_of ex_ccsds); split; [reflexivity|apply codes_of_reports]|]. split.
  - split; [unfold wf_grib, natural; cbn; intuition lia|]. split; [apply ex_bytes|]. split; [reflexivity|].
    split; [reflexivity|]. split; [lia|]. split; [reflexivity|]. split; [reflexivity|]. split; [exact I|].
    right. cbn. intuition lia.
  - apply (ccsds_samples ex_ccsds gribs 4 raw_full _ [0; 16; 32]%N 8%N); [reflexivity|reflexivity| |reflexivity].
    intros i. apply (modify_flags_native 14 i).
Qed.
Lemma ex_simple_at : message_at raw_full ex_eccodes gribs 12 ex_simple [1; 9; 3]%N.
Proof.
  split; [exists (codes_of ex_simple); split; [reflexivity|apply codes_of_reports]|]. split.
  - split; [unfold wf_grib, natural; cbn; intuition lia|]. split; [apply ex_bytes|]. split; [reflexivity|].
    split; [reflexivity|]. split; [lia|]. split; [reflexivity|]. split; [reflexivity|]. split; [cbn; lia|].
    right. cbn. split; [lia|]. split; [lia|]. left. split; [reflexivity|]. split; [left; lia|lia].
  - apply (simple_samples ex_simple gribs 12 raw_full); reflexivity.
Qed.

(* ---- a whole file ---- *)
Lemma extract_all_describes {F} aec_full fresh (grib_at : list N -> Z -> outcome (option (codes F))) files codes_offsets sc n path l :
  extract_all aec_full fresh grib_at files codes_offsets sc n path = Ok l ->
  extract_offsets files codes_offsets sc n path = Ok (map fst l) /\
  Forall (fun e => exists bytes, files path = Some bytes /\ build aec_full fresh grib_at bytes (fst e) = Ok (snd e)) l.
Proof.
  intros H. unfold extract_all in H. inv_bind H offs E1. inv_bind H infos E2. injection H as <-.
  assert (HF : Forall2 (fun o i => extract_info aec_full fresh grib_at files path o = Ok i) offs infos).
  { clear E1. unfold extract_infos in E2. revert infos E2. induction offs as [|o offs IH]; intros infos E2; cbn in E2.
    - injection E2 as <-. constructor.
    - inv_bind E2 i Ei. inv_bind E2 r Er. injection E2 as <-. constructor; auto. }
  clear E2. split.
  - rewrite E1. f_equal. clear E1. induction HF; cbn; congruence.
  - clear E1. induction HF as [|o i offs infos H _ IH]; cbn; constructor; auto.
    unfold extract_info, open_file in H. cbn [fst snd]. destruct (files path) as [b|]; [|discriminate]. eauto.
Qed.

Lemma extract_all_total {F} aec_full fresh (grib_at : list N -> Z -> outcome (option (codes F))) files codes_offsets sc n path bytes offs d :
  extract_offsets files codes_offsets sc n path = Ok offs -> files path = Some bytes ->
  (forall o, In o offs -> build aec_full fresh grib_at bytes o = Ok (d o)) ->
  extract_all aec_full fresh grib_at files codes_offsets sc n path = Ok (map (fun o => (o, d o)) offs).
Proof.
  intros E Hf H. unfold extract_all. rewrite E. cbn [obind].
  assert (Em : extract_infos aec_full fresh grib_at files path offs = Ok (map d offs)).
  { clear E. unfold extract_infos. induction offs as [|o offs IH]; [reflexivity|]. cbn [mapM map].
    unfold extract_info at 1, open_file. rewrite Hf. cbn [obind]. rewrite H by (left; auto). cbn [obind].
    rewrite IH; [reflexivity|]. intros o' Ho. apply H. right; auto. }
  rewrite Em. cbn [obind]. f_equal. clear. induction offs; cbn; congruence.
Qed.

Lemma constant_message :
  let bytes := repeat 0%N 8 in
  build_of_message raw_full zeros bytes (codes_of ex_constant) = Throw ESeriousBug /\
  build raw_full zeros (fun _ _ => Ok (Some (codes_of ex_constant))) bytes 0
    = Ok (info_of ex_constant (CcsdsInfo 14 2 1 [])).
Proof. vm_compute. auto. Qed.

(* the offsets a scan of a file finds *)
Lemma corrupted_offsets files codes_offsets B path bytes : 3 <= B -> (lenN bytes < two63)%N ->
  codes_offsets path = None -> files path = Some bytes ->
  exists l, extract_offsets files codes_offsets true B path = Ok (map Z.of_nat l) /\ lists_exactly (complete_start bytes) l.
Proof.
  intros HB HL Hc Hf. destruct (find_all bytes B HB HL) as (l & El & L). exists l. split; auto.
  unfold extract_offsets. rewrite Hc. unfold open_file. rewrite Hf. unfold omap, obind. rewrite El. f_equal.
  rewrite map_map. apply map_ext_in. intros p Hp. destruct L as [_ L]. apply L in Hp. destruct Hp as [Hp _].
  assert (p < length bytes).
  { apply Nat.nle_gt. intros H. unfold occurs, slice in Hp. rewrite skipn_all2 in Hp by exact H. discriminate. }
  rewrite s64_small; [apply nat_N_Z|]. unfold lenN in HL. lia.
Qed.

Lemma offsets_found files codes_offsets sc B path :
  (forall offs, codes_offsets path = Some offs -> extract_offsets files codes_offsets sc B path = Ok offs) /\
  (codes_offsets path = None -> sc = false -> extract_offsets files codes_offsets sc B path = Throw EAssert) /\
  (forall bytes, codes_offsets path = None -> sc = true -> files path = Some bytes -> 3 <= B -> (lenN bytes < two63)%N ->
     exists l, extract_offsets files codes_offsets sc B path = Ok (map Z.of_nat l) /\ lists_exactly (complete_start bytes) l).
Proof.
  split; [|split].
  - intros offs H. unfold extract_offsets. now rewrite H.
  - intros H ->. unfold extract_offsets. now rewrite H.
  - intros bytes H -> Hf HB HL. now apply corrupted_offsets.
Qed.
