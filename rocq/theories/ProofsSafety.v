From Coq Require Import Sorted.
From Verif Require Import Base BaseLemmas ModelRange ModelSimple ModelCcsds ModelInfo ModelJumper
     SpecRange SpecSimple SpecCcsds SpecJumper SpecSafety ProofsRange ProofsSimple ProofsCcsds ProofsJumper ProofsJumper2.
Open Scope nat_scope.

(* a result of the right length, or an exception *)
Definition shaped {V} (n : N) (x : outcome (list V)) : Prop :=
  match x with Ok d => length d = N.to_nat n | Throw _ => True | UB => False end.

Lemma gj_read_length file section o s d : gj_read file section (o, s) = Ok d ->
  (s < 1152921504606846976)%N /\ length d = N.to_nat s /\ exists a n, d = slice file a n.
Proof.
  unfold gj_read, alloc. cbn [fst snd]. rewrite N.mul_1_r. destruct (N.ltb_spec s 1152921504606846976) as [Hs|]; [|discriminate].
  cbn [obind]. rewrite (s64_small s) by (unfold two63; lia). destruct (_ >? _)%Z; [discriminate|].
  destruct (Z.ltb_spec (s64 (fst section) + s64 o) 0) as [|H0]; [discriminate|].
  destruct (Z.leb_spec (s64 (fst section) + s64 o + Z.of_N s) (Z.of_nat (length file))) as [H1|]; [|discriminate].
  intros H. injection H as <-. split; [exact Hs|]. split; [|eauto]. rewrite slice_length by lia. lia.
Qed.
Lemma gj_read_defined file section r : gj_read file section r <> UB.
Proof.
  unfold gj_read, alloc. destruct (_ <? _)%N; [|discriminate]. cbn [obind]. destruct (_ >? _)%Z; [discriminate|].
  destruct (_ <? _)%Z; [discriminate|]. destruct (_ <=? _)%Z; discriminate.
Qed.

Lemma simple_shaped {V} (scale : N -> V) ref bpv file section o n : is_bytes file -> (n < two64)%N ->
  shaped n (simple_decode scale ref bpv (gj_accessor file section) (o, n)).
Proof.
  intros Hf Hn. unfold simple_decode, gj_accessor. cbn [acc_read].
  set (start := mul64 o bpv). set (e0 := mul64 (add64 o n) bpv).
  assert (start < two64)%N as Hst by (unfold start, mul64, w64; apply N.mod_lt; discriminate).
  assert (He0 : (e0 = (start + n * bpv) mod two64)%N).
  { unfold e0, start, mul64, add64, w64. rewrite N.mul_mod_idemp_l by discriminate. rewrite N.add_mod_idemp_l by discriminate. f_equal. lia. }
  destruct (gj_read file section _) as [enc|e|] eqn:Er; cbn [obind shaped]; auto; [|exact (gj_read_defined _ _ _ Er)].
  destruct (gj_read_length _ _ _ _ _ Er) as (Hsz & Hl & a & k & Henc).
  assert (is_bytes enc) as Hb by (rewrite Henc; apply is_bytes_slice; exact Hf). clear Er Henc.
  unfold unpack. destruct (N.ltb_spec 64 bpv) as [|Hb64]; [exact I|].
  destruct (N.eqb_spec n 0) as [->|Hn0]; [reflexivity|]. unfold alloc.
  destruct (N.ltb_spec (n * 8) 1152921504606846976) as [Hn8|]; [|exact I]. cbn [obind].
  destruct (N.eqb_spec bpv 0) as [->|Hb0]; [apply repeat_length|].
  assert (Hmul : (bpv mod 8 = 0 -> start mod 8 = 0)%N).
  { intros Hm. unfold start, mul64, w64, two64. assert (exists c, bpv = 8 * c)%N as [c ->] by (exists (bpv / 8)%N; clear -Hm; lia).
    clear. set (x := (o * (8 * c))%N). assert (x mod 8 = 0)%N; [|lia].
    unfold x. replace (o * (8 * c))%N with (o * c * 8)%N by lia. now apply N.mod_mul. }
  assert (Hnb : (n * bpv <= 9223372036854775744)%N).
  { transitivity (n * 64)%N; [apply N.mul_le_mono_l; exact Hb64|clear -Hn8; lia]. }
  assert (Hroom : (start mod 8 + n * bpv <= 8 * lenN enc)%N).
  { unfold lenN. rewrite Hl. clear Hl Hmul. set (nb := (n * bpv)%N) in *. clearbody nb start e0. clear -Hst He0 Hsz Hnb Hn0.
    unfold sub64, add64, w64, two64 in *. rewrite N2Nat.id. lia. }
  clear Hl Hsz. pose proof (decode_array_lossy scale enc (N.to_nat bpv) (N.to_nat n) (N.to_nat (start mod 8)) Hb ltac:(lia)) as D.
  rewrite !N2Nat.id in D. rewrite D.
  - cbn [shaped]. rewrite map_length, seq_length. reflexivity.
  - intros Hm. rewrite Hmul; [reflexivity|]. lia.
  - unfold lenN in Hroom. set (nb := (n * bpv)%N) in *. assert (N.to_nat n * N.to_nat bpv = N.to_nat nb) as -> by (unfold nb; lia). lia.
Qed.

Lemma at_skipn {A} (l : list A) (i : N) : (i < lenN l)%N -> exists x, at_ l i = Ok x.
Proof.
  intros H. unfold at_. destruct (nth_error l (N.to_nat i)) eqn:E; eauto. apply nth_error_None in E. unfold lenN in H. lia.
Qed.

Lemma range_shaped aec p elem rsb enc offsets pos size : counts_samples aec -> rsb <> 0%N ->
  shaped (size / elem) (aec_decode_range aec p elem rsb enc offsets pos size).
Proof.
  intros Ho Hr. unfold aec_decode_range, div_. destruct (N.eqb_spec rsb 0) as [|_]; [contradiction|]. cbn [obind].
  destruct (N.leb_spec (lenN offsets) (pos / rsb)) as [|Hlt]; [exact I|].
  destruct (at_skipn offsets (pos / rsb) Hlt) as (x & ->). cbn [obind].
  destruct (aec p enc x _) as [s|] eqn:E; [|exact I]. cbn [shaped]. apply Ho in E. unfold lenN in E. apply slice_length. lia.
Qed.

Lemma aec_shaped aec elem flags bits block_size rsi offsets file section o n : counts_samples aec ->
  ((rsi * block_size * sample_nbytes bits) mod two64 <> 0)%N -> (elem <> 0)%N ->
  shaped n (aec_decode aec elem flags bits block_size rsi offsets (gj_accessor file section) (o, n)).
Proof.
  intros Ho Hr He. unfold aec_decode.
  assert (mul64 (mul64 rsi block_size) (sample_nbytes bits) <> 0%N) as Hr'.
  { unfold mul64, w64. rewrite N.mul_mod_idemp_l by discriminate. exact Hr. }
  set (rsb := mul64 (mul64 rsi block_size) (sample_nbytes bits)) in *. clearbody rsb. clear Hr.
  assert (validate_bits elem bits <> UB) as Hv.
  { unfold validate_bits. do 3 (destruct (_ && _)%bool; [discriminate|]). discriminate. }
  destruct (validate_bits elem bits) as [[]|e|]; [|exact I|congruence]. cbn [obind]. clear Hv.
  unfold assert_ at 1. destruct (negb _); [|exact I]. cbn [obind].
  unfold alloc. destruct (N.ltb_spec (n * elem) 1152921504606846976) as [Hn|]; [|exact I]. cbn [obind].
  unfold div_. destruct (N.eqb_spec rsb 0) as [|_]; [contradiction|]. cbn [obind].
  set (si := (mul64 o elem / rsb)%N). set (ei := add64 (add64 (mul64 o elem) (mul64 n elem) / rsb) 1).
  unfold assert_ at 1. destruct (N.ltb_spec si ei) as [H1|]; [|exact I]. cbn [obind].
  unfold assert_ at 1. destruct (N.leb_spec ei (lenN offsets)) as [H2|]; [|exact I]. cbn [obind].
  destruct (at_skipn offsets si ltac:(lia)) as (x & ->). cbn [obind].
  assert (exists e, (if (ei =? lenN offsets)%N then Ok (acc_eof (gj_accessor file section)) else let* e := at_ offsets ei in Ok (add64 e 7 / 8)%N) = Ok e) as (e & ->).
  { destruct (N.eqb_spec ei (lenN offsets)); [eauto|]. destruct (at_skipn offsets ei ltac:(lia)) as (y & ->). cbn [obind]. eauto. }
  cbn [obind]. unfold assert_. destruct (negb _); [|exact I]. cbn [obind gj_accessor acc_read].
  destruct (gj_read file section _) as [enc|e'|] eqn:Er; cbn [obind shaped]; auto; [|exact (gj_read_defined _ _ _ Er)].
  replace n with (mul64 n elem / elem)%N at 1; [apply range_shaped; assumption|].
  unfold mul64, w64. rewrite N.mod_small by (unfold two64; lia). now apply N.div_mul.
Qed.

Lemma ccsds_shaped {V} aec (scale : N -> V) flags bits block_size rsi offsets file section o n : counts_samples aec ->
  ((rsi * block_size * sample_nbytes bits) mod two64 <> 0)%N ->
  shaped n (ccsds_decode aec scale flags bits block_size rsi offsets (gj_accessor file section) (o, n)).
Proof.
  intros Ho Hr. unfold ccsds_decode. cbn [snd]. destruct (N.eqb_spec n 0) as [->|Hn]; [reflexivity|].
  destruct (_ || _)%bool; [|exact I].
  assert (sample_nbytes bits <> 0)%N as Hnb. { intros E. rewrite E, N.mul_0_r in Hr. apply Hr. reflexivity. }
  pose proof (aec_shaped aec (sample_nbytes bits) (modify_flags flags) bits block_size rsi offsets file section o n Ho Hr Hnb) as S.
  destruct (aec_decode _ _ _ _ _ _ _ _ _) as [d|e|]; cbn [obind shaped] in *; auto.
  unfold alloc. destruct (_ <? _)%N; [|exact I]. cbn [obind shaped]. rewrite map_length. exact S.
Qed.

Lemma ranges_shaped {V} (d1 : N * N -> outcome (list V)) l : plain_ranges l ->
  (forall o n, (n < two64)%N -> shaped n (d1 (o, n))) ->
  match decode_ranges d1 (to_ranges l) with
  | Ok vs => Forall2 (fun i v => length v = N.to_nat (snd i) - N.to_nat (fst i)) l vs | Throw _ => True | UB => False
  end.
Proof.
  intros Hl H.
  assert (Forall fits64 (to_ranges l)) as Hf.
  { unfold to_ranges. apply Forall_map. eapply Forall_impl; [|exact Hl]. intros i Hi. cbn beta in Hi.
    unfold fits64. cbn [fst snd]. rewrite sub64_small by lia. lia. }
  pose proof (decode_ranges_gen d1) as G. pose proof (decode_ranges_lengths d1 (to_ranges l)) as L.
  destruct (decode_ranges d1 (to_ranges l)) as [vs|e|] eqn:E; auto.
  - specialize (L vs eq_refl). clear -L Hl. revert vs L. induction l as [|i l IH]; intros vs L; inversion L; subst; inversion Hl; subst; constructor; auto.
    cbn [snd] in *. rewrite sub64_small in * by lia. lia.
  - specialize (G) as G'. clear L. refine (_ (G' _ _ (to_ranges l) Hf)).
    + rewrite E. auto.
    + intros [o n] d Hr Hd. unfold fits64 in Hr. cbn [fst snd] in *. specialize (H o n ltac:(lia)). rewrite Hd in H. exact H.
    + intros [o n] Hr Hd. unfold fits64 in Hr. cbn [fst snd] in *. specialize (H o n ltac:(lia)). rewrite Hd in H. exact H.
Qed.

Section Message.
  Context {F : Type}.
  Variable A : farith F.
  Variable aec : aec_oracle.
  Variable file : list N.
  Variable offset : Z.
  Variable inf : info F.
  Hypothesis Hfile : is_bytes file.
  Hypothesis Haec : counts_samples aec.
  Hypothesis Hsane : sane_info inf.

  Lemma read_values_shaped l : plain_ranges l -> i_bits_per_value inf <> 0%N ->
    match read_values A aec file offset inf l with
    | Ok vs => Forall2 (fun i v => length v = N.to_nat (snd i) - N.to_nat (fst i)) l vs | Throw _ => True | UB => False
    end.
  Proof.
    intros Hl Hb. unfold read_values, simple_read_values, ccsds_read_values. destruct Hsane as [_ Hc].
    destruct (String.eqb _ _).
    - destruct (i_class inf); try exact I. apply ranges_shaped; [exact Hl|]. intros o n Hn. now apply simple_shaped.
    - destruct (String.eqb _ _); [|exact I]. destruct (i_class inf) as [|flags bs rsi offs|]; try exact I.
      destruct Hc as [Hc|[->|Hc]]; [contradiction|exact I|].
      unfold assert_. destruct (negb _); [|exact I]. cbn [obind]. apply ranges_shaped; [exact Hl|]. intros o n Hn. now apply ccsds_shaped.
  Qed.

  Lemma read_bitmap_cases : i_bits_per_value inf <> 0%N ->
    match read_bitmap file offset inf with
    | Ok bm => (i_number_of_points inf = 0%N \/ bitmap_in_file file offset inf) /\ lenN bm = i_number_of_points inf
    | Throw _ => ~ (i_number_of_points inf = 0%N \/ bitmap_in_file file offset inf)
    | UB => False
    end.
  Proof.
    intros Hb. destruct Hsane as [Hn _]. destruct (N.eq_dec (i_number_of_points inf) 0) as [H0|H0].
    - unfold read_bitmap. rewrite H0. change (add64 0 7 / 8 =? 0)%N with true. cbv iota. split; [now left|]. reflexivity.
    - assert (bitmap_in_file file offset inf \/ ~ bitmap_in_file file offset inf) as [Hi|Hi].
      { unfold bitmap_in_file. lia. }
      + rewrite read_bitmap_ok by assumption. split; [now right|]. unfold lenN. rewrite bitmap_length by exact Hi. lia.
      + assert (~ (i_number_of_points inf = 0%N \/ bitmap_in_file file offset inf)) as Hno by tauto.
        unfold read_bitmap. rewrite add64_small by lia.
        destruct (N.eqb_spec ((i_number_of_points inf + 7) / 8) 0) as [E|_]; [lia|].
        destruct (N.eqb_spec (i_bits_per_value inf) 0) as [|_]; [contradiction|].
        unfold alloc. destruct (N.ltb_spec (i_number_of_points inf * 1) 1152921504606846976) as [Ha|]; [|exact Hno]. cbn [obind].
        destruct (Z.ltb_spec (offset + i_offset_before_bitmap inf) 0) as [|H1]; [exact Hno|].
        destruct (Z.leb_spec (offset + i_offset_before_bitmap inf + Z.of_N ((i_number_of_points inf + 7) / 8)) (Z.of_nat (length file))) as [H2|]; [|exact Hno].
        exfalso. apply Hi. unfold bitmap_in_file, bitmap_bytes. lia.
  Qed.

  Lemma masks_defined l : plain_ranges l ->
    mapM (fun i : N * N => omap to_bitset (all_true (sub64 (snd i) (fst i)))) l <> UB.
  Proof.
    intros _. induction l as [|i l IH]; [discriminate|]. cbn [mapM]. unfold all_true at 1, alloc.
    destruct (_ <? _)%N; [|discriminate]. cbn [obind omap].
    destruct (mapM _ l); cbn [obind]; [discriminate|discriminate|congruence].
  Qed.

  Lemma scatter_fits (nan : F) : forall bm d, length (filter (fun b => b) bm) <= length d -> exists v, scatter nan bm d = Ok v.
  Proof.
    induction bm as [|[|] r IH]; intros d Hd; cbn [scatter filter] in *; [eauto| |].
    - cbn [length] in Hd. destruct d as [|x d]; [cbn [length] in Hd; lia|]. destruct (IH d ltac:(cbn [length] in Hd; lia)) as (v & ->). cbn [obind]. eauto.
    - destruct (IH d Hd) as (v & ->). cbn [obind]. eauto.
  Qed.

  Lemma scatter_all_fits (nan : F) bms : forall ds, Forall2 (fun bm d => length (filter (fun b => b) bm) <= length d) bms ds ->
    exists vs, scatter_all nan bms ds = Ok vs.
  Proof.
    intros ds H. induction H as [|bm d bms ds H1 H2 IH]; cbn [scatter_all]; [eauto|].
    destruct (scatter_fits nan bm d H1) as (v & ->). destruct IH as (vs & ->). cbn [obind]. eauto.
  Qed.

  Lemma make_ext_all bm l : plain_ranges l -> Exists (fun i => lenN bm < snd i)%N l ->
    mapM (fun i => make_ext true bm (fst i) (snd i)) l = UB.
  Proof.
    intros Hl. induction 1 as [i l H|i l H IH]; inversion Hl; subst; cbn [mapM]; unfold make_ext at 1.
    - destruct (N.leb_spec (fst i) (snd i)); [|lia]. destruct (N.leb_spec (snd i) (lenN bm)); [lia|]. reflexivity.
    - destruct (_ && _)%bool; [|reflexivity]. cbn [obind]. rewrite IH by assumption. reflexivity.
  Qed.

  Lemma masked_cases l : plain_ranges l -> l <> [] -> Sorted (fun a b => snd a <= fst b)%N l -> i_bits_per_value inf <> 0%N ->
    (extract_masked A aec file offset inf l = UB <->
     (i_number_of_points inf = 0%N \/ bitmap_in_file file offset inf) /\ Exists (fun i => i_number_of_points inf < snd i)%N l).
  Proof.
    intros Hl Hne Hs Hb. unfold extract_masked. pose proof (read_bitmap_cases Hb) as R.
    destruct (read_bitmap file offset inf) as [bm|e|]; cbn [obind]; [|split; [discriminate|tauto]|contradiction].
    destruct R as [R1 R2]. rewrite <- R2 in R1 |- *.
    assert (Exists (fun i => lenN bm < snd i)%N l \/ Forall (fun i => snd i <= lenN bm)%N l) as [He|Hin].
    { clear. induction l as [|i l [H|H]]; [now right|now left; constructor 2|]. destruct (N.lt_ge_cases (lenN bm) (snd i)); [now left; constructor|right; now constructor]. }
    - split; [tauto|]. intros _. unfold calculate_masked_intervals. now rewrite make_ext_all.
    - split.
      2:{ intros [_ He]. exfalso. apply Exists_exists in He. destruct He as (i & Hi & H). rewrite Forall_forall in Hin. specialize (Hin _ Hi). lia. }
      assert (lenN bm < two64)%N as Hsmall. { rewrite R2. destruct Hsane as [H _]. lia. }
      rewrite masked_intervals_ok; [|exact Hsmall|].
      2:{ split; [exact Hne|]. assert (Forall (fun i => fst i <= snd i)%N l) as Hle by (eapply Forall_impl; [|exact Hl]; cbn beta; lia).
          split; [|now apply Sorted_strong]. apply Forall_forall. intros i Hi. rewrite Forall_forall in Hin, Hle. split; auto. }
      cbn [obind]. intros H. exfalso. revert H.
      assert (plain_ranges (map fst (map (new_of bm) l))) as Hp.
      { rewrite map_map. apply Forall_map. eapply Forall_impl; [|exact Hl]. intros i Hi. cbn beta in Hi. unfold new_of. cbn [fst snd].
        pose proof (present_mono bm (N.to_nat (fst i)) (N.to_nat (snd i)) ltac:(lia)).
        assert (forall k, present_before bm k <= length bm) as Hk.
        { intros k. unfold present_before. pose proof (count_split (firstn k bm)). rewrite firstn_length in *. lia. }
        specialize (Hk (N.to_nat (snd i))). unfold lenN in Hsmall. lia. }
      pose proof (read_values_shaped _ Hp Hb) as S.
      destruct (read_values A aec file offset inf (map fst (map (new_of bm) l))) as [ds|e|]; [|discriminate|contradiction]. cbn [obind].
      destruct (scatter_all_fits (f_nan A) (map snd (map (new_of bm) l)) ds) as (vs & ->); [|discriminate].
      clear -S Hl. revert ds S. induction l as [|i l IH]; intros ds S; inversion S; subst; inversion Hl; subst; cbn [map]; constructor; auto.
      unfold new_of in *. cbn [fst snd] in *. unfold cut. rewrite (present_slice bm (N.to_nat (fst i)) (N.to_nat (snd i))) in * by lia.
      match goal with H : length ?y = _ |- _ => rewrite H end. lia.
  Qed.

  Theorem extract_undefined l : plain_ranges l ->
    (extract A aec file offset inf l = UB <-> beyond_bitmap inf file offset l).
  Proof.
    intros Hl. unfold extract, beyond_bitmap.
    assert ((i_packing inf = "grid_simple" \/ i_packing inf = "grid_ccsds")%string \/
            (i_packing inf <> "grid_simple" /\ i_packing inf <> "grid_ccsds")%string) as [Hp|[Hp1 Hp2]].
    { destruct (String.eqb_spec (i_packing inf) "grid_simple"); [tauto|]. destruct (String.eqb_spec (i_packing inf) "grid_ccsds"); tauto. }
    2:{ apply String.eqb_neq in Hp1 as E1, Hp2 as E2. rewrite E1, E2. cbn [obind]. split; [discriminate|tauto]. }
    assert ((if String.eqb (i_packing inf) "grid_simple" then Ok tt
             else if String.eqb (i_packing inf) "grid_ccsds" then Ok tt else Throw ESeriousBug) = Ok tt) as ->.
    { destruct Hp as [-> | ->]; reflexivity. }
    cbn [obind]. unfold check_intervals. destruct l as [|i0 l0]; [cbn; split; [discriminate|tauto]|].
    change (negb (lenN (i0 :: l0) =? 0)%N) with true. cbn [obind assert_]. set (l := i0 :: l0) in *.
    pose proof (increasing_Sorted l) as Hs. destruct (increasing l); cbn [obind assert_].
    2:{ split; [discriminate|]. intros (_ & _ & H & _). apply Hs in H. discriminate. }
    destruct Hs as [Hs _]. specialize (Hs eq_refl).
    destruct (Z.eqb_spec (i_spherical inf) 0) as [H0|H0]; cbn [obind assert_]; [|split; [discriminate|tauto]].
    destruct (N.eqb_spec (i_bits_per_value inf) 0) as [Hb|Hb].
    { split; [|tauto]. intros H. exfalso. revert H. unfold extract_constant.
      assert (mapM (fun i : N * N => let n := sub64 (snd i) (fst i) in let* _ := alloc n 8 in Ok (repeat (i_reference inf) (N.to_nat n))) l <> UB) as Hv.
      { clear. induction l as [|i l IH]; [discriminate|]. cbn [mapM]. unfold alloc at 1.
        destruct (_ <? _)%N; [|discriminate]. cbn [obind]. destruct (mapM _ l); cbn [obind]; [discriminate|discriminate|congruence]. }
      destruct (mapM _ l) as [vs|e|]; [|discriminate|congruence]. cbn [obind].
      pose proof (masks_defined l Hl) as Hm. destruct (mapM _ l); [discriminate|discriminate|congruence]. }
    destruct (Z.eqb_spec (i_offset_before_bitmap inf) 0) as [Hz|Hz].
    { split; [|tauto]. intros H. exfalso. revert H. unfold extract_no_mask. pose proof (read_values_shaped l Hl Hb) as S.
      destruct (read_values _ _ _ _ _ l); [|discriminate|contradiction]. cbn [obind].
      pose proof (masks_defined l Hl) as Hm. destruct (mapM _ l); [discriminate|discriminate|congruence]. }
    rewrite masked_cases by (assumption || (unfold l; discriminate)). assert (l <> []) by (unfold l; discriminate). tauto.
  Qed.

  (* one range, whatever its two numbers, on a field without bitmap *)
  Theorem one_range_defined i : (i_bits_per_value inf = 0%N \/ i_offset_before_bitmap inf = 0%Z) ->
    extract A aec file offset inf [i] <> UB.
  Proof.
    intros Hm. unfold extract.
    destruct (if String.eqb (i_packing inf) "grid_simple" then Ok tt else if String.eqb (i_packing inf) "grid_ccsds" then Ok tt else Throw ESeriousBug) as [u|e|] eqn:Ep;
      [|discriminate|destruct (String.eqb _ _); [discriminate|destruct (String.eqb _ _); discriminate]].
    cbn [obind]. change (check_intervals [i]) with (Ok true). cbn [obind assert_].
    destruct (_ =? 0)%Z; cbn [obind assert_]; [|discriminate].
    assert (mapM (fun i : N * N => omap to_bitset (all_true (sub64 (snd i) (fst i)))) [i] <> UB) as Hmask.
    { cbn [mapM]. unfold all_true, alloc. destruct (_ <? _)%N; discriminate. }
    destruct (N.eqb_spec (i_bits_per_value inf) 0) as [Hb|Hb].
    { unfold extract_constant. cbn [mapM]. unfold alloc. destruct (_ <? _)%N; [|discriminate]. cbn [obind].
      unfold omap, all_true, alloc. destruct (_ <? _)%N; discriminate. }
    destruct (Z.eqb_spec (i_offset_before_bitmap inf) 0) as [Hz|Hz]; [|tauto].
    assert (read_values A aec file offset inf [i] <> UB) as Hr.
    { assert (forall d1 : N * N -> outcome (list F), (forall o n, (n < two64)%N -> shaped n (d1 (o, n))) -> decode_ranges d1 (to_ranges [i]) <> UB) as One.
      { intros d1 H. set (n := sub64 (snd i) (fst i)). assert (n < two64)%N as Hn by (unfold n, sub64, w64; apply N.mod_lt; discriminate).
        unfold decode_ranges, to_ranges. cbn [map bucket_all]. unfold bucket_insert, lower_bound. cbn [span_while existsb obind rev merge_before merge_after app].
        cbn [decode_buckets fold_left]. fold n. specialize (H (fst i) n Hn).
        destruct (d1 (fst i, n)) as [d|e|]; [|discriminate|contradiction]. cbn [obind mapM].
        unfold take_range, rm_find. cbn [find fst snd]. rewrite block_eqb_refl. cbn [fst snd].
        cbn [shaped] in H.
        assert ((sub64 (fst i) (fst i) + n <=? lenN d)%N = true) as ->; [|discriminate].
        apply N.leb_le. unfold lenN. rewrite H. clearbody n. unfold sub64, w64.
        pose proof (N.mod_lt (fst i) two64 ltac:(discriminate)) as Hlt.
        replace (fst i mod two64 + (two64 - fst i mod two64))%N with two64 by lia.
        rewrite N.mod_same by discriminate. lia. }
      unfold read_values, simple_read_values, ccsds_read_values. destruct Hsane as [_ Hc].
      destruct (String.eqb _ _).
      - destruct (i_class inf); try discriminate. apply One. intros o n Hn. now apply simple_shaped.
      - destruct (String.eqb _ _); [|discriminate]. destruct (i_class inf) as [|flags bs rsi offs|]; try discriminate.
        destruct Hc as [Hc|[->|Hc]]; [contradiction|discriminate|].
        unfold assert_. destruct (negb _); [|discriminate]. cbn [obind]. apply One. intros o n Hn. now apply ccsds_shaped. }
    unfold extract_no_mask. destruct (read_values _ _ _ _ _ [i]); [|discriminate|congruence]. cbn [obind].
    destruct (mapM _ [i]); [discriminate|discriminate|congruence].
  Qed.
End Message.
