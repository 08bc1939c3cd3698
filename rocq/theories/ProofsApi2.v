(* Proofs about direct extraction from a file. *)
From Verif Require Import Base BaseLemmas ModelStrings ModelSimple ModelCcsds ModelInfo ModelJumper ModelEngine ModelApi SpecApi SpecJumper
  ProofsJumper ProofsApi.
From Coq Require Import Lia Arith.

Section Direct.
Context {F : Type}.
Variable A : farith F.
Variable aec : aec_oracle.
Variable files : string -> option (list N).
Variable data : string -> Z -> outcome (info F).

Notation extraction_at := (extraction_at A aec data).
Notation stored := (stored A aec data).

Lemma direct_loop_iff path bytes : forall offs ranges rs, length offs = length ranges ->
  (exists infos, mapM (data path) offs = Ok infos /\ direct_loop A aec bytes offs infos ranges = Ok rs) <->
  Forall2 (extraction_at path bytes) (combine offs ranges) rs.
Proof.
  induction offs as [|o offs IH]; intros [|l ranges] rs H; cbn [length] in H; try discriminate; cbn [combine].
  - split.
    + intros [infos [_ E]]. destruct infos; cbn in E; injection E as <-; constructor.
    + intros E. inversion E. exists []. split; reflexivity.
  - injection H as H. split.
    + intros [infos [Ei Ed]]. cbn [mapM] in Ei.
      destruct (data path o) as [inf| |] eqn:Eo; cbn [obind] in Ei; try discriminate.
      destruct (mapM (data path) offs) as [rest| |] eqn:Er; cbn [obind] in Ei; try discriminate.
      injection Ei as <-. cbn [direct_loop] in Ed.
      destruct (extract A aec bytes o inf l) as [r| |] eqn:Ex; cbn [obind] in Ed; try discriminate.
      destruct (direct_loop A aec bytes offs rest ranges) as [rs'| |] eqn:Ed'; cbn [obind] in Ed; try discriminate.
      injection Ed as <-. constructor.
      * exists inf. auto.
      * apply IH; [exact H|]. exists rest. auto.
    + intros E. inversion E as [|? r ? rs' [inf [Ei Ex]] Hr]; subst. apply IH in Hr; [|exact H].
      destruct Hr as [infos [Em Ed]]. exists (inf :: infos). cbn [fst snd] in *. cbn [mapM direct_loop].
      rewrite Ei, Em. cbn [obind]. rewrite Ex. cbn [obind]. rewrite Ed. split; reflexivity.
Qed.

Theorem direct_pairs path offs ranges rs :
  path <> ""%string -> offs <> [] -> length offs = length ranges ->
  (api_extract_direct A aec files (info_extractor data) path offs ranges = Ok rs <->
   exists bytes, files path = Some bytes /\ Forall2 (extraction_at path bytes) (combine offs ranges) rs).
Proof.
  intros Hp Ho Hl. unfold api_extract_direct.
  destruct (String.eqb_spec path ""); [contradiction|].
  destruct (N.eqb_spec (lenN offs) 0) as [E|E]; [destruct offs; [contradiction|unfold lenN in E; cbn in E; lia]|].
  unfold lenN at 1 2. rewrite Hl, N.eqb_refl. cbn [negb]. unfold direct_extract, info_extractor.
  split.
  - intros H. destruct (mapM (data path) offs) as [infos| |] eqn:Em; cbn [obind] in H; try discriminate.
    destruct (files path) as [bytes|] eqn:Ef; [|discriminate]. exists bytes. split; [reflexivity|].
    apply direct_loop_iff; [exact Hl|]. exists infos. auto.
  - intros [bytes [Ef H]]. apply direct_loop_iff in H; [|exact Hl]. destruct H as [infos [Em Ed]].
    rewrite Em. cbn [obind]. rewrite Ef. exact Ed.
Qed.

Lemma direct_length path offs ranges rs :
  length offs = length ranges ->
  api_extract_direct A aec files (info_extractor data) path offs ranges = Ok rs -> length rs = length offs.
Proof.
  intros Hl H. unfold api_extract_direct in H.
  destruct (String.eqb path ""); [discriminate|]. destruct (lenN offs =? 0)%N eqn:E; [discriminate|].
  destruct (negb (lenN offs =? lenN ranges)%N); [discriminate|].
  unfold direct_extract, info_extractor in H.
  destruct (mapM (data path) offs) as [infos| |] eqn:Em; cbn [obind] in H; try discriminate.
  destruct (files path) as [bytes|]; [|discriminate].
  assert (Q : Forall2 (extraction_at path bytes) (combine offs ranges) rs)
    by (apply direct_loop_iff; [exact Hl|]; exists infos; auto).
  apply Forall2_length in Q. rewrite combine_length in Q. lia.
Qed.

Theorem direct_returns_fields path bytes offs ranges (fields : list (list F * list bool)) :
  path <> ""%string -> offs <> [] -> files path = Some bytes ->
  Forall2 (fun o f => stored path bytes o (fst f) (snd f)) offs fields ->
  Forall2 (fun l f => good_request (lenN (fst f)) l) ranges fields ->
  api_extract_direct A aec files (info_extractor data) path offs ranges =
    Ok (map (fun q => (map (cut (fst (snd q))) (fst q), map to_bitset (map (cut (snd (snd q))) (fst q))))
            (combine ranges fields)).
Proof.
  intros Hp Ho Hf Hs Hg. assert (L1 := Hs). apply Forall2_length in L1. assert (L2 := Hg). apply Forall2_length in L2.
  apply direct_pairs; [exact Hp|exact Ho|congruence|]. exists bytes. split; [exact Hf|].
  clear Ho Hf L1 L2 Hp. revert ranges Hg. induction Hs as [|o f offs fields Hs1 Hs IH]; intros ranges Hg.
  - inversion Hg. constructor.
  - inversion Hg as [|l ? ranges' ? Hg1 Hg2]; subst. cbn [combine map]. constructor; [|apply IH; exact Hg2].
    destruct Hs1 as [inf [Hi [Hsp Hfm]]]. exists inf. cbn [fst snd]. split; [exact Hi|].
    apply extract_field; assumption.
Qed.
End Direct.

(* what the caller of the public entry point sees *)
Theorem direct_entry {F W} (i : impl F W) A aec files data path offs ranges w :
  (forall p os rs, m_extract_direct i p os rs = pure (direct_extract A aec files (info_extractor data) p os rs)) ->
  gj_extract_direct i path offs ranges w =
    (omap (fun rs => source_new (map Some rs)) (api_extract_direct A aec files (info_extractor data) path offs ranges), w).
Proof.
  intros H. unfold gj_extract_direct, api_extract_direct.
  destruct (String.eqb path ""); [reflexivity|]. destruct (lenN offs =? 0)%N; [reflexivity|].
  destruct (negb (lenN offs =? lenN ranges)%N); [reflexivity|].
  unfold as_iterator, amap. rewrite H. reflexivity.
Qed.
