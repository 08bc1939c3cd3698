(* C99: the numbers at the end of a call. *)
From Coq Require Import Lia ZArith QArith Qabs Floats.SpecFloat.
From Verif Require Import Base BaseLemmas ModelInfo ModelSimple ModelCcsds ModelFloat ModelJumper ModelCache ModelBuild ModelEngine ModelApi ModelPython ModelRemote ModelForward ModelUser
  SpecSimple SpecCcsds SpecJumper SpecBuild SpecEngine SpecRemote SpecForward SpecSystem SpecDeploy SpecUser SpecAccuracy SpecNumbers
  ProofsBuild ProofsBuild2 ProofsBuild3 ProofsCache2 ProofsSystem ProofsUser ProofsAccuracy.
Local Open Scope nat_scope.

Lemma value_shows (m : grib spec_float) (X : N) : double_message m ->
  (m_packing m = "grid_simple" \/ m_packing m = "grid_ccsds")%string -> (m_bits m = 0%Z -> X = 0%N) ->
  shows m (Some X) (code_value m b64_arith X).
Proof.
  intros (Hf & HR & HS) Hp Hx. destruct (message_value m X HR HS Hf Hp Hx) as [N A]. split; [exact N|]. split; [exact A|].
  intros (Bx & B0 & BD). unfold code_value. destruct (Z.eqb_spec (m_bits m) 0) as [Eb|Eb]; [exact HR|].
  destruct (String.eqb_spec (m_packing m) "grid_simple") as [E|E]; [apply scale_finite; assumption|].
  destruct Hf as [Hd|[Hf _]]; [|congruence]. rewrite Hd in *. rewrite ccsds_is_simple. apply scale_finite; assumption.
Qed.

Lemma point_shows full grib_at bytes off (m : grib spec_float) S p : message_at full grib_at bytes off m S -> double_message m ->
  shows m (m_point m bytes off (fun X => X) S p) (or_missing b64_arith (m_point m bytes off (code_value m b64_arith) S p)).
Proof.
  intros (_ & Sup & HS) Hd. unfold m_point. destruct (nth p (m_present m bytes off) false); [|reflexivity].
  cbn [or_missing]. apply value_shows; auto.
  - destruct Sup as (_ & _ & _ & _ & _ & _ & _ & _ & [(_ & _ & H)|(_ & _ & [[H _]|[H _]])]); auto.
  - intros Hz. inversion HS as [Hb|Hb Hp|S' offs native Hb Hp Hn Haec]; [|lia|lia].
    generalize (present_before (m_present m bytes off) p). generalize (Z.to_nat (m_values m)).
    clear. induction n; intros [|j]; cbn; auto.
Qed.

Lemma points_show full grib_at bytes off (m : grib spec_float) S pts : message_at full grib_at bytes off m S -> double_message m ->
  Forall2 (fun p q => shows m (m_point m bytes off (fun X => X) S p) q) pts
          (map (fun p => or_missing b64_arith (m_point m bytes off (code_value m b64_arith) S p)) pts).
Proof. intros Hm Hd. induction pts; constructor; auto. eapply point_shows; eauto. Qed.

Lemma ranges_show full grib_at bytes off (m : grib spec_float) S l : message_at full grib_at bytes off m S -> double_message m ->
  shows_ranges m bytes off S l
    (map (fun i => map (fun p => or_missing b64_arith (m_point m bytes off (code_value m b64_arith) S p)) (points i)) l).
Proof. intros Hm Hd. induction l; constructor; auto. eapply points_show; eauto. Qed.

Lemma stored_map {V} (f : N * N -> V) l vs : Forall2 (fun i v => v = f i) l vs -> vs = map f l.
Proof. induction 1; cbn; congruence. Qed.

Theorem stored_shows full grib_at bytes off (m : grib spec_float) S l x : message_at full grib_at bytes off m S -> double_message m ->
  stored_result m bytes off S b64_arith l x ->
  shows_ranges m bytes off S l (fst x) /\ right_masks m bytes off S l (snd x).
Proof. intros Hm Hd [Hv Hk]. split; auto. apply stored_map in Hv. rewrite Hv. eapply ranges_show; eauto. Qed.

Section System.
Variable o : outside spec_float.
Variable P : string -> Prop.
Variable cfg : ModelEngine.config.
Hypothesis Ho : o_arith o = b64_arith.

Lemma right_numbers reqs listing res : right_results o P cfg reqs listing res -> number_results o P cfg reqs listing res.
Proof.
  unfold right_results, number_results. apply F2_imp. intros r x. destruct (entry_of _ listing (r_string r)) as [e|]; auto.
  intros H m S bytes off He Hd Hg. destruct (H _ _ _ _ He) as [_ H']. specialize (H' Hg). rewrite Ho in H'.
  destruct He as (_ & _ & _ & Hm). eapply stored_shows; eauto.
Qed.

Lemma seen_numbers expand listing a y : python_sees (S754_zero false) o P cfg expand listing a y -> python_numbers o P expand listing a y.
Proof.
  intros [H _] e Ie Hn m S bytes off He Hd Hg. destruct (H e Ie Hn _ _ _ _ He) as [_ H']. destruct (H' Hg) as [Hv _].
  eexists. split; [exact Hv|]. rewrite Ho. destruct He as (_ & _ & _ & Hm). eapply ranges_show; eauto.
Qed.

Lemma seen_region expand pts hash listing d y : region_sees (S754_zero false) o P cfg expand pts hash listing d y ->
  region_numbers o P expand pts listing d y.
Proof.
  intros H e Ie Hn m S bytes off He Hd Hp. destruct (H e Ie Hn _ _ _ _ He) as [_ H']. destruct (H' Hp) as (vs & bs & Hv & Hc & _).
  exists vs. split; auto. rewrite Hc, Ho. destruct He as (_ & _ & _ & Hm). eapply points_show; eauto.
Qed.
End System.

Theorem call_numbers (o : outside spec_float) g P cfg : sound_outside o g P -> o_arith o = b64_arith ->
  forall state, (forall p offs, reachable o g P (state p offs)) ->
  forall reqs res, unique_listings (world_of o g P state) cfg -> c_forward cfg = false -> c_inefficient cfg = false ->
  extract_requests (world_of o g P state) cfg reqs = Ok res ->
  exists u listing, o_list o u = Ok listing /\ number_results o P cfg reqs listing res.
Proof.
  intros Hs Ho state Hr reqs res Hu Hf Hi E. destruct (system_values o g P Hs state Hr cfg reqs res Hu Hf Hi E) as (u & listing & El & H).
  exists u, listing. split; auto. apply right_numbers; auto.
Qed.

Theorem python_numbers_seen {W} (o : outside spec_float) P cfg expand parsing parse (i : impl spec_float W) asks w out w' :
  o_arith o = b64_arith -> (lenN asks < two64)%N -> Forall (fine_ask cfg expand parsing parse) asks ->
  plain_catalogue o cfg -> right_answers o P cfg i w -> py_extract parsing parse i asks w = (Ok out, w') ->
  exists u listing, o_list o u = Ok listing /\ Forall2 (python_numbers o P expand listing) asks out.
Proof.
  intros Ho H1 H2 H3 H4 H5. destruct (python_user (S754_zero false) o P cfg expand parsing parse i asks w out w' H1 H2 H3 H4 H5) as (u & l & El & H).
  exists u, l. split; auto. eapply F2_imp; [|exact H]. intros a y. apply seen_numbers; auto.
Qed.
Theorem mask_numbers_seen {W} (o : outside spec_float) P cfg expand parsing parse (i : impl spec_float W) mask dicts hash w out w' :
  o_arith o = b64_arith -> (lenN dicts < two64)%N -> (2 * lenN mask < two64)%N -> Forall (fine_dict cfg expand parsing parse) dicts ->
  plain_catalogue o cfg -> right_answers o P cfg i w -> py_extract_mask parsing parse i dicts mask hash w = (Ok out, w') ->
  exists u listing, o_list o u = Ok listing /\ Forall2 (region_numbers o P expand (SpecPython.true_points mask) listing) dicts out.
Proof.
  intros Ho H1 H2 H3 H4 H5 H6. destruct (mask_user (S754_zero false) o P cfg expand parsing parse i mask dicts hash w out w' H1 H2 H3 H4 H5 H6) as (u & l & El & H).
  exists u, l. split; auto. eapply F2_imp; [|exact H]. intros a y. apply seen_region; auto.
Qed.

Lemma one_file64_sound : sound_outside one_file64 one_cache one_path.
Proof.
  split; [exact raw_consistent|]. split; [exact zeros_length|]. split.
  { intros b off. cbn [o_grib_at one_file64]. unfold ex_eccodes64.
    repeat match goal with |- context [if ?c then _ else _] => destruct c end; (split; [discriminate|]);
      intros k Hk; try discriminate; injection Hk as <-; apply codes_of_defined. }
  split; [exact by_offset_sorts|]. split; [cbn; lia|]. split.
  { intros p b H. cbn in H. destruct (String.eqb p "/fdb/x.data"); [|discriminate]. injection H as <-. reflexivity. }
  split.
  - apply plain_names_apart; [intros p ->; reflexivity|intros p q -> -> _; reflexivity].
  - intros p q -> ->. vm_compute. discriminate.
Qed.
Lemma one_state64_reachable p offs : SpecSystem.reachable one_file64 one_cache one_path (one_state64 p offs).
Proof.
  exists (fun _ => None), 2, [], []. split; [lia|]. split.
  - intros q _. exists []. split; [left; auto|constructor].
  - split; [constructor|reflexivity].
Qed.
Lemma one_user64 : plain_catalogue one_file64 one_cfg /\ right_answers one_file64 one_path one_cfg one_impl64 tt /\ double_message ex_simple64.
Proof.
  assert (plain_catalogue one_file64 one_cfg) as C.
  { intros u l E. injection E as <-. split.
    - repeat (constructor; [apply plain_pairs; [nodup|reflexivity|reflexivity|reflexivity]|]). constructor.
    - unfold duplicate_free. cbn. nodup. }
  split; [exact C|]. split.
  - apply (local_answers one_file64 one_cache one_path one_cfg one_state64 one_impl64 tt one_file64_sound one_state64_reachable C); reflexivity.
  - split; [right; split; [reflexivity|discriminate]|]. split; [split; [exact I|reflexivity]|]. split; split; discriminate.
Qed.
