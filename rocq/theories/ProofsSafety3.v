From Coq Require Import Permutation Sorted.
From Verif Require Import Base BaseLemmas ModelInfo ModelSimple ModelCcsds ModelJumper ModelLRU ModelCache ModelStrings ModelBuild ModelEngine
     SpecSimple SpecCcsds SpecJumper SpecCache SpecBuild SpecEngine SpecSystem SpecSafety ProofsCache ProofsBuild ProofsBuild2 ProofsBuild3 ProofsEngine2 ProofsSystem ProofsSafety ProofsSafety2.
Open Scope nat_scope.

Lemma told_sane {F} (k : codes F) (i : info F) : sane_answers k -> told_by k i -> sane_info i.
Proof.
  intros [Hn Hc] (_ & Hpk & _ & _ & _ & (zb & Hb & Eb) & _ & _ & (zn & Hz & En) & _ & _ & _ & _ & _ & Hcl).
  split.
  - rewrite En. specialize (Hn _ Hz). rewrite ProofsJumper.u64_of_Z_small by lia. unfold two64. lia.
  - unfold told_class in Hcl. destruct (i_class i) as [|f b r offs|]; [exact I| |exact I].
    destruct Hcl as (Ep & _ & Tb & Tr). rewrite Ep in Hpk. destruct (Hc Hpk) as (Ib & Hb1 & Hb2 & Hr1 & Hr2).
    unfold told_if_there in Tb, Tr. rewrite Hb1 in Tb. rewrite Hr1 in Tr. destruct Tb as (b0 & Kb & ->). destruct Tr as (r0 & Kr & ->).
    specialize (Hb2 _ Kb). specialize (Hr2 _ Kr). specialize (Ib _ Hb). rewrite Eb. rewrite !ProofsJumper.u64_of_Z_small by lia.
    destruct (Z.eq_dec zb 0) as [->|Hz0]; [now left|]. right. right.
    assert (exists nb, sample_nbytes (Z.to_N zb) = nb /\ (1 <= nb <= 64)%N) as (nb & -> & Hnb).
    { eexists. split; [reflexivity|]. unfold sample_nbytes. rewrite add64_small by (unfold two64; lia).
      destruct (_ =? 3)%N; [lia|]. lia. }
    assert (0 < Z.to_N r0 * Z.to_N b0 * nb)%N by (repeat apply N.mul_pos_pos; lia).
    assert (Z.to_N r0 * Z.to_N b0 <= 65536 * 256)%N by (apply N.mul_le_mono; lia).
    assert (Z.to_N r0 * Z.to_N b0 * nb <= 65536 * 256 * 64)%N by (apply N.mul_le_mono; lia).
    rewrite N.mod_small; [lia|]. unfold two64. lia.
Qed.

Section System.
Context {F : Type}.
Variable o : outside F.
Variable g : ModelCache.config.
Variable P : string -> Prop.
Hypothesis Hs : sound_outside o g P.
Hypothesis Hd : defined_outside o P.
Variable state : string -> list Z -> @cache F.
Hypothesis Hstate : forall p offs, reachable o g P (state p offs).
Notation w := (world_of o g P state).

Lemma build_sane bytes off inf : build (o_aec_full o) (o_fresh o) (o_grib_at o) bytes off = Ok inf -> sane_info inf.
Proof.
  intros H. destruct (build_told _ _ _ _ _ _ H) as (_ & k & Hk & T). eapply told_sane; [|exact T]. eapply (do_eccodes _ _ Hd); eauto.
Qed.

Lemma describe_sane p off inf : describe o p off = Ok inf -> sane_info inf.
Proof.
  unfold describe, extract_info, open_file. destruct (o_files o p); cbn [obind]; [|discriminate]. apply build_sane.
Qed.

Lemma system_defined : defined_world w P.
Proof.
  constructor; cbn [world_of w_aec w_files w_sorter w_cache_get w_build_info w_pieces w_fresh w_forward w_list].
  - exact (do_aec _ _ Hd).
  - exact (do_files _ _ Hd).
  - destruct Hs as (_ & _ & _ & Hsort & _). intros l. apply Hsort.
  - intros p offs Hp. destruct (c_get (describe o) g (state p offs) p offs) as [c' r] eqn:E.
    destruct (c_get_shape (o_uniq o) (describe o) (find_offsets o) g (describe_defined o g P Hs) (state p offs) p offs c' r
                (reachable_capacity o g P Hs _ (Hstate p offs)) E) as [Hu Hsh].
    cbn [snd]. destruct r as [infos|e|]; cbn [no_death]; [|exact I|congruence]. split; [now apply Hsh|].
    assert (Forall2 (fun off inf => describe o p off = Ok inf) offs infos) as H2.
    { apply (lookup_true o g P Hs (state p offs)); [apply Hstate|exact Hp|]. now rewrite E. }
    clear -H2 Hd. induction H2; constructor; auto. eapply describe_sane; eauto.
  - intros bytes. pose proof (build_sane bytes 0%Z) as H. destruct Hs as (_ & _ & He & _).
    pose proof (build_defined (o_aec_full o) (o_fresh o) (o_grib_at o) He bytes 0) as Hb.
    destruct (build _ _ _ bytes 0); cbn [no_death]; auto.
  - exact (do_pieces _ _ Hd).
  - exact (do_fresh _ _ Hd).
  - exact (do_forward _ _ Hd).
  - exact (do_list _ _ Hd).
Qed.

Theorem system_requests_defined cfg reqs : unique_listings w cfg ->
  (forall u listing r e, o_list o u = Ok listing -> located cfg reqs listing r e ->
     is_remote (l_uri e) = false /\ within_bitmap o e (r_ranges r)) ->
  extract_requests w cfg reqs <> UB.
Proof.
  intros Hu Hok H. destruct (requests_die w P system_defined cfg reqs H) as (u & listing & r & e & e' & Hl & Ie & Ie' & Ir & Ke & Ke' & Hdead).
  pose proof (Hu u listing Hl) as ND. unfold duplicate_free in ND.
  assert (e' = e) by (eapply map_inj_in; [exact ND|assumption|assumption|congruence]). subst e'.
  assert (located cfg reqs listing r e) as Hloc.
  { split; [exact Ir|]. unfold entry_of. destruct (find _ listing) as [e2|] eqn:E2.
    - apply find_some in E2. destruct E2 as [I2 K2]. apply String.eqb_eq in K2. f_equal. eapply map_inj_in; [exact ND|assumption|assumption|congruence].
    - pose proof (find_none _ _ E2 e Ie) as X. cbn beta in X. rewrite Ke, String.eqb_refl in X. discriminate. }
  destruct (Hok u listing r e Hl Hloc) as [Hr [Hpl Hin]].
  destruct Hdead as [X|(bytes & off & inf & [(Hf & Ho & offs & infos & k & Hc & H1 & H2)|(Hsch & _)] & Hb)].
  - contradiction.
  - cbn [world_of w_cache_get] in Hc.
    assert (P (u_path (l_uri e))) as HP.
    { pose proof (do_list _ _ Hd u) as X. cbn [world_of w_list] in Hl. rewrite Hl in X. cbn [no_death] in X. rewrite Forall_forall in X. apply X. exact Ie. }
    pose proof (lookup_true o g P Hs _ _ _ _ (Hstate _ _) HP Hc) as T.
    pose proof (Forall2_nth _ _ _ T _ _ _ H1 H2) as Hdesc. cbn beta in Hdesc.
    destruct Hb as (_ & _ & _ & _ & Hbits & Hbm & _ & Hex). specialize (Hin off inf Ho Hdesc Hbits Hbm).
    apply Exists_exists in Hex. destruct Hex as (i & Ii & Hi). rewrite Forall_forall in Hin. specialize (Hin i Ii). lia.
  - unfold is_remote in Hr. rewrite Hsch in Hr. discriminate.
Qed.
End System.

Lemma raw_counts : counts_samples raw_libaec.
Proof.
  intros p enc o n s. unfold raw_libaec. destruct (raw_accepts p); [|discriminate]. unfold raw_samples.
  destruct (N.leb_spec (o / 8 + n) (lenN enc)) as [H|]; [|discriminate]. intros E. injection E as <-.
  unfold lenN in *. rewrite slice_length by lia. lia.
Qed.

Lemma codes_of_sane {F} (m : grib F) : (0 <= m_points m < 9223372036854775808)%Z -> (0 <= m_bits m < 256)%Z ->
  (m_packing m = "grid_ccsds"%string -> (0 < m_block m < 256)%Z /\ (0 < m_rsi m < 65536)%Z) -> sane_answers (codes_of m).
Proof.
  intros H1 H2 H3. split.
  - cbn. intros z E. injection E as <-. exact H1.
  - cbn. intros E. injection E as E. destruct (H3 E) as [H4 H5]. rewrite E. cbn.
    split; [intros z X; injection X as <-; exact H2|]. split; [reflexivity|]. split; [intros z X; injection X as <-; exact H4|].
    split; [reflexivity|]. intros z X; injection X as <-; exact H5.
Qed.

Lemma one_file_defined : defined_outside one_file one_path.
Proof.
  constructor; cbn [one_file o_aec o_files o_grib_at o_pieces o_fresh o_forward o_list].
  - exact raw_counts.
  - intros p b H. destruct (String.eqb p "/fdb/x.data"); [|discriminate]. injection H as <-. unfold gribs, is_bytes. repeat constructor.
  - intros bytes off k. unfold ex_eccodes.
    repeat match goal with |- context [if ?c then _ else _] => destruct c end; intros E; try discriminate; injection E as <-;
      (apply codes_of_sane; cbn; [lia|lia|intros; split; lia || discriminate]).
  - intros u n. exact I.
  - intros n. unfold zeros, is_bytes. apply Forall_forall. intros x Hx. apply repeat_spec in Hx. subst x. lia.
  - discriminate.
  - intros u. cbn [no_death]. repeat constructor; discriminate.
Qed.
