From Coq Require Import QArith.
From Verif Require Import Base BaseLemmas ModelRange ModelSimple ModelCcsds ModelInfo ModelJumper ModelScan ModelBuild ModelFloat
     SpecRange SpecSimple SpecCcsds SpecJumper SpecBuild ProofsSimple ProofsCcsds ProofsFloat ProofsJumper ProofsJumper2 ProofsJumper3 ProofsBuild.
Open Scope nat_scope.

(* ---- the oracles can be satisfied ---- *)
Lemma raw_consistent : libaec_consistent raw_full raw_libaec.
Proof.
  intros p data n S offsets HR H. unfold raw_full in H.
  destruct (raw_accepts p) eqn:Ep; [|discriminate]. destruct (n =? lenN data)%N eqn:En; [|discriminate].
  cbn [andb] in H. injection H as <- <-. apply N.eqb_eq in En. subst n.
  set (R := (aec_rsi p * aec_block_size p)%N) in *.
  assert (Ho : forall i oi, nth_error (map (fun i => N.of_nat (8 * (i * N.to_nat R))) (seq 0 (N.to_nat (lenN data / R + 1)))) i = Some oi ->
               oi = N.of_nat (8 * (i * N.to_nat R)) /\ (N.of_nat i < lenN data / R + 1)%N).
  { intros i oi Hi. rewrite nth_error_map in Hi.
    destruct (nth_error (seq 0 (N.to_nat (lenN data / R + 1))) i) eqn:E; [|discriminate].
    assert (Hl : i < N.to_nat (lenN data / R + 1)).
    { apply nth_error_Some_length in E || (assert (Hn : nth_error (seq 0 (N.to_nat (lenN data / R + 1))) i <> None) by congruence;
        apply nth_error_Some in Hn; rewrite seq_length in Hn; exact Hn). }
    rewrite (nth_error_nth' _ 0) in E by (rewrite seq_length; exact Hl). rewrite seq_nth in E by exact Hl.
    injection E as <-. injection Hi as <-. split; [reflexivity|lia]. }
  split; [reflexivity|]. split; [|split; [split|]].
  - unfold raw_libaec. rewrite Ep. apply raw_stream. intros i oi Hi. now destruct (Ho i oi Hi).
  - intros i j oi oj Hij Hi Hj. destruct (Ho _ _ Hi) as [-> _]. destruct (Ho _ _ Hj) as [-> _].
    assert (i * N.to_nat R <= j * N.to_nat R) by (apply Nat.mul_le_mono_r; exact Hij). lia.
  - apply Forall_forall. intros o Hin. apply In_nth_error in Hin as [i Hi]. destruct (Ho _ _ Hi) as [-> Hlt].
    assert (Hm : (N.of_nat i * R <= lenN data)%N).
    { transitivity (lenN data / R * R)%N; [apply N.mul_le_mono_r; lia|]. rewrite N.mul_comm. apply N.mul_div_le. lia. }
    rewrite Nat2N.inj_mul, Nat2N.inj_mul, N2Nat.id. change (N.of_nat 8) with 8%N. lia.
  - unfold lenN. rewrite map_length, seq_length. lia.
Qed.

Lemma codes_of_reports {F} (m : grib F) : reports m (codes_of m).
Proof.
  constructor; try reflexivity.
  - left. split; reflexivity.
  - destruct (m_bitmap m) as [b|] eqn:E.
    + split; [|split].
      * exists 1%Z. split; [|discriminate]. cbn. now rewrite E.
      * intros _. cbn. now rewrite E.
      * intros _. cbn. now rewrite E.
    + cbn. now rewrite E.
  - intros H. unfold codes_of, is_name. cbn. rewrite H. cbn. auto 10.
Qed.

Lemma codes_of_defined {F} (m : grib F) : defined_codes (codes_of m).
Proof.
  split; [|split]; intros n; unfold defined, codes_of; cbn [k_long k_double k_string].
  - repeat match goal with |- context [if ?b then _ else _] => destruct b end; discriminate.
  - destruct (is_name _ _); discriminate.
  - repeat match goal with |- context [if ?b then _ else _] => destruct b end; discriminate.
Qed.

(* ---- no undefined behaviour ---- *)
Lemma bind_defined {X Y} (o : outcome X) (f : X -> outcome Y) : defined o -> (forall x, o = Ok x -> defined (f x)) -> defined (obind o f).
Proof. unfold defined. intros H1 H2. destruct o; cbn; auto; discriminate. Qed.

Section Defined.
Context {F : Type}.
Variable aec_full : aec_full_oracle.
Variable fresh : Z -> list N.
Variable grib_at : list N -> Z -> outcome (option (codes F)).
Hypothesis Hec : defined_eccodes grib_at.

Lemma omap_defined {X Y} (f : X -> Y) (o : outcome X) : defined o -> defined (omap f o).
Proof. unfold defined. destruct o; cbn; congruence. Qed.

Lemma edition_defined (k : codes F) : defined_codes k -> defined (edition_and_packing k).
Proof.
  intros (K1 & K2 & K3). unfold edition_and_packing. apply bind_defined; [apply K1|]. intros ed _.
  apply bind_defined; [apply K3|]. intros p _. cbv zeta. unfold defined. destruct (_ && _)%bool; discriminate.
Qed.

Lemma bitmap_defined (k : codes F) ed : defined_codes k -> defined (bitmap_offset k ed).
Proof.
  intros (K1 & K2 & K3). unfold bitmap_offset. apply bind_defined; [apply K1|]. intros n _.
  destruct (n =? 0)%Z; [discriminate|]. destruct (ed =? 1)%N; apply omap_defined; apply K1.
Qed.

Lemma jump_info_defined (k : codes F) c : defined_codes k -> defined (jump_info k c).
Proof.
  intros K. pose proof K as (K1 & K2 & K3). unfold jump_info. apply bind_defined; [now apply edition_defined|].
  intros [ed p] _.
  repeat (apply bind_defined; [first [apply K1|apply K2|apply K3|now apply bitmap_defined|destruct (k_has k _); [apply K1|discriminate]]|intros ? _]).
  discriminate.
Qed.

Lemma build_defined bytes off : defined (build aec_full fresh grib_at bytes off).
Proof.
  unfold build. destruct (off <? 0)%Z; [discriminate|]. apply bind_defined; [apply Hec|]. intros [k|] Hk; [|discriminate].
  destruct (Hec bytes off) as [_ K]. specialize (K k Hk). pose proof K as (K1 & K2 & K3).
  apply bind_defined; [apply K3|]. intros p _. apply bind_defined.
  { unfold get_builder. destruct (find_builder p builders); [discriminate|]. cbn. discriminate. }
  intros [| |] _; [now apply jump_info_defined| |now apply jump_info_defined].
  unfold ccsds_info. apply bind_defined; [now apply jump_info_defined|]. intros i _.
  assert (Hopt : forall n, defined (optional_long k n)).
  { intros n. unfold optional_long. destruct (k_has k n); [apply omap_defined; apply K1|discriminate]. }
  do 3 (apply bind_defined; [apply Hopt|intros ? _]).
  destruct (_ || _)%bool; [discriminate|]. cbv zeta.
  apply bind_defined; [unfold assert_, defined; destruct (_ <? _)%Z; discriminate|]. intros _ _.
  apply bind_defined.
  { unfold read_buffer, alloc. destruct (_ <? _)%N; [|discriminate]. cbn [obind]. unfold defined.
    destruct (_ <? 0)%Z; discriminate. }
  intros buf _. apply bind_defined; [|intros; discriminate].
  unfold ccsds_decode_offsets. destruct (_ || _)%bool; [|discriminate]. apply omap_defined.
  unfold aec_decode_all, validate_bits, alloc, assert_, defined.
  repeat (match goal with |- context [if ?b then _ else _] => destruct b; cbn [obind]; try discriminate end).
  destruct (aec_full _ _ _); discriminate.
Qed.
End Defined.

(* ---- nothing is invented ---- *)
Lemma bind_ok {X Y} (o : outcome X) (f : X -> outcome Y) y : obind o f = Ok y -> exists x, o = Ok x /\ f x = Ok y.
Proof. destruct o; cbn; try discriminate. eauto. Qed.
Lemma omap_ok {X Y} (f : X -> Y) (o : outcome X) y : omap f o = Ok y -> exists x, o = Ok x /\ y = f x.
Proof. destruct o; cbn; try discriminate. intros H. injection H as <-. eauto. Qed.

Lemma add_six z : add64 (u64_of_Z z) 6 = u64_of_Z (z + 6).
Proof.
  unfold add64, u64_of_Z, w64, two64.
  rewrite <- (N2Z.id ((Z.to_N (z mod 18446744073709551616) + 6) mod 18446744073709551616)). f_equal.
  rewrite N2Z.inj_mod, N2Z.inj_add, Z2N.id by (apply Z.mod_pos_bound; lia).
  change (Z.of_N 18446744073709551616) with 18446744073709551616%Z. change (Z.of_N 6) with 6%Z.
  now rewrite Zplus_mod_idemp_l.
Qed.

Tactic Notation "inv_bind" hyp(H) ident(x) ident(E) := apply bind_ok in H as (x & E & H).

Section Told.
Context {F : Type}.

(* all of told_by but the class *)
Lemma jump_info_told (k : codes F) c i : jump_info k c = Ok i -> i_class i = c /\
  forall c', told_class k (i_packing i) c' -> told_by k (with_class i c').
Proof.
  intros H. unfold jump_info in H. inv_bind H ep E0. destruct ep as [ed pk].
  unfold edition_and_packing in E0. inv_bind E0 z Ez. inv_bind E0 p Ep. cbv zeta in E0.
  destruct (negb (u64_of_Z z =? 1) && negb (u64_of_Z z =? 2))%N eqn:Ee; [discriminate|]. injection E0 as <- <-.
  inv_bind H e E1. inv_bind H d E2. inv_bind H b E3. inv_bind H r E4. inv_bind H o1 E5. inv_bind H o2 E6.
  inv_bind H np E7. inv_bind H nv E8. inv_bind H sp E9. inv_bind H tl E10. inv_bind H md E11. inv_bind H bm E12.
  injection H as <-. split; [reflexivity|]. intros c' Hc. unfold told_by, with_class in *.
  cbn [i_edition i_packing i_reference i_binary_scale i_decimal_scale i_bits_per_value i_offset_before_data
       i_offset_after_data i_number_of_points i_number_of_values i_total_length i_md5 i_spherical i_offset_before_bitmap i_class] in *.
  split. { exists z. split; auto. split; auto. apply andb_false_iff in Ee. lia. }
  repeat (split; [solve [eauto]|]).
  split. { destruct (k_has k "sphericalHarmonics"); congruence. }
  split; [|exact Hc].
  unfold bitmap_offset in E12. inv_bind E12 pr Ep'. exists pr. split; auto. destruct (pr =? 0)%Z; [congruence|].
  destruct (u64_of_Z z =? 1)%N.
  - apply omap_ok in E12 as (o & Eo & ->). eauto.
  - apply omap_ok in E12 as (o & Eo & ->). exists o. split; auto. now rewrite add_six.
Qed.

Lemma with_class_same (i : info F) : with_class i (i_class i) = i.
Proof. destruct i. reflexivity. Qed.

Lemma optional_told (k : codes F) name v : optional_long k name = Ok v -> told_if_there k name v.
Proof.
  unfold optional_long, told_if_there. destruct (k_has k name); [|congruence].
  intros H. apply omap_ok in H as (z & E & ->). eauto.
Qed.

Variable aec_full : aec_full_oracle.
Variable fresh : Z -> list N.
Variable grib_at : list N -> Z -> outcome (option (codes F)).

Lemma build_told bytes off i : build aec_full fresh grib_at bytes off = Ok i ->
  (0 <= off)%Z /\ exists k, grib_at bytes off = Ok (Some k) /\ told_by k i.
Proof.
  intros H. unfold build in H. destruct (off <? 0)%Z eqn:Eo; [discriminate|]. split; [lia|].
  inv_bind H h Eh. destruct h as [k|]; [|discriminate]. exists k. split; auto.
  inv_bind H pk Ep. inv_bind H b Eb.
  assert (Hb : match b with BSimple => pk = "grid_simple"%string | BCcsds => pk = "grid_ccsds"%string
               | BUnsupported => pk <> "grid_simple"%string /\ pk <> "grid_ccsds"%string end).
  { destruct (String.eqb_spec pk "grid_simple") as [->|N1]; [rewrite builder_simple in Eb; now injection Eb as <-|].
    destruct (String.eqb_spec pk "grid_ccsds") as [->|N2]; [rewrite builder_ccsds in Eb; now injection Eb as <-|].
    rewrite builder_other in Eb by auto. injection Eb as <-. auto. }
  assert (Hp : forall c i', jump_info k c = Ok i' -> i_packing i' = pk).
  { intros c i' Hj. unfold jump_info in Hj. inv_bind Hj ep E0. destruct ep as [ed p']. unfold edition_and_packing in E0.
    inv_bind E0 z Ez. rewrite Ep in E0. cbn [obind] in E0. cbv zeta in E0. destruct (_ && _)%bool; [discriminate|]. injection E0 as <- <-.
    do 12 (let x := fresh in let y := fresh in apply bind_ok in Hj as (x & y & Hj)). injection Hj as <-. reflexivity. }
  destruct b.
  - destruct (jump_info_told k _ i H) as [Hc Ht]. rewrite <- (with_class_same i). apply Ht. rewrite Hc, (Hp _ _ H). exact Hb.
  - unfold ccsds_info in H. inv_bind H i0 Ei. destruct (jump_info_told k _ i0 Ei) as [Hc Ht].
    inv_bind H fl E1. inv_bind H bs E2. inv_bind H rs E3.
    assert (HT : forall o, told_by k (with_class i0 (CcsdsInfo fl bs rs o))).
    { intros o. apply Ht. rewrite (Hp _ _ Ei). split; [exact Hb|]. split; [|split]; eapply optional_told; eauto. }
    destruct (_ || _)%bool; [injection H as <-; apply HT|].
    inv_bind H u E4. inv_bind H buf E5. inv_bind H offs E6. injection H as <-. apply HT.
  - destruct (jump_info_told k _ i H) as [Hc Ht]. rewrite <- (with_class_same i). apply Ht. rewrite Hc, (Hp _ _ H). exact Hb.
Qed.

(* a packing gribjump cannot read is described, and then refused *)
Lemma unsupported_refused (A : farith F) libaec bytes off i l :
  build aec_full fresh grib_at bytes off = Ok i ->
  i_packing i <> "grid_simple"%string -> i_packing i <> "grid_ccsds"%string ->
  i_class i = UnsupportedInfo /\ extract A libaec bytes off i l = Throw ESeriousBug.
Proof.
  intros H H1 H2. destruct (build_told _ _ _ H) as (_ & k & _ & T). unfold told_by in T.
  do 14 (destruct T as [_ T]). split.
  - unfold told_class in T. destruct (i_class i); intuition congruence.
  - unfold extract. destruct (String.eqb_spec (i_packing i) "grid_simple"); [congruence|].
    destruct (String.eqb_spec (i_packing i) "grid_ccsds"); [congruence|]. reflexivity.
Qed.
End Told.
