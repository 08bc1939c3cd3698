(* Requests by file and offset, and requests handed on to servers: when they are free of undefined behaviour. *)
From Coq Require Import Lia Permutation Sorted.
From Verif Require Import Base BaseLemmas ModelRange ModelInfo ModelSimple ModelCcsds ModelStream ModelJumper ModelLRU ModelCache ModelStrings ModelBuild ModelEngine
  ModelProtocol ModelRemote ModelForward SpecEngine SpecSystem SpecRemote SpecForward SpecSafety SpecDeploy SpecHostile SpecPaths
  ProofsStrings ProofsEngine2 ProofsEngine3 ProofsForward ProofsSystem ProofsSafety2 ProofsSafety3 ProofsDeploy ProofsHostile4.
From Verif Require ModelApi.
Open Scope nat_scope.

Section Node.
Context {F : Type}.
Variable n : node F.
Hypothesis sound : sound_node n.
Hypothesis defined : defined_outside (n_outside n) (n_paths n).
Notation o := (n_outside n).

Lemma node_defined : defined_world (node_world n) (n_paths n).
Proof. destruct sound as [A B]. now apply system_defined. Qed.

Lemma within_no_excess p off inf bytes l : describe o p off = Ok inf -> within_points o p off l -> ~ beyond_bitmap inf bytes off l.
Proof.
  intros Hd [_ Hin] (_ & _ & _ & _ & Hb & Hm & _ & Hex). specialize (Hin inf Hd Hb Hm).
  apply Exists_exists in Hex. destruct Hex as (i & Ii & Hi). rewrite Forall_forall in Hin. specialize (Hin i Ii). lia.
Qed.

Lemma not_deadly p u l : n_paths n p -> is_remote u = false -> plain_ranges l ->
  (forall off, u_offset u = Ok off -> within_points o p off l) -> ~ deadly (node_world n) p u l.
Proof.
  intros HP Hr Hpl Hin [X|(bytes & off & inf & [(Hf & Ho & offs & infos & k & Hc & H1 & H2)|(Hsch & _)] & Hb)].
  - contradiction.
  - unfold node_world in Hc. cbn [world_of w_cache_get] in Hc. destruct sound as [Hs Hst].
    pose proof (lookup_true o (n_cache n) (n_paths n) Hs _ _ _ _ (Hst _ _) HP Hc) as T.
    pose proof (Forall2_nth _ _ _ T _ _ _ H1 H2) as Hdesc. cbn beta in Hdesc.
    exact (within_no_excess _ _ _ _ _ Hdesc (Hin _ Ho) Hb).
  - unfold is_remote in Hr. rewrite Hsch in Hr. discriminate.
Qed.

(* by file and offset, at the node or handed on *)
Theorem node_paths_defined cfg reqs : reqs <> [] ->
  Forall (fun r => n_paths n (p_path r) /\ p_scheme r <> "fdb"%string /\ plain_ranges (p_ranges r) /\
                   ((p_offset r < two63)%N -> within_points o (p_path r) (Z.of_N (p_offset r)) (p_ranges r))) reqs ->
  extract_path_requests (node_world n) cfg reqs <> UB.
Proof.
  intros Hne Hall H. rewrite Forall_forall in Hall.
  destruct (path_requests_die (node_world n) (n_paths n) node_defined cfg reqs Hne) as (r & Ir & Hd); [|exact H|].
  - apply Forall_forall. intros r Ir. apply Hall, Ir.
  - destruct (Hall r Ir) as (HP & Hs & Hpl & Hin). revert Hd. apply not_deadly; [exact HP| |exact Hpl|].
    + unfold is_remote, p_uri. cbn [u_scheme]. now apply String.eqb_neq.
    + intros off. unfold p_uri. cbn [u_offset]. destruct (N.ltb_spec (p_offset r) two63) as [L|]; [|discriminate].
      intros [= <-]. auto.
Qed.

(* one file and a list of offsets *)
Theorem node_direct_defined path offs ranges :
  Forall (fun q => within_points o path (fst q) (snd q)) (combine offs ranges) -> node_direct n path offs ranges <> UB.
Proof.
  intros Hall H. unfold node_direct in H. destruct sound as [Hs Hst].
  destruct (direct_dies (o_arith o) (o_aec o) (o_files o) (ModelApi.info_extractor (describe o)) (do_aec _ _ defined) (do_files _ _ defined))
    with (path := path) (offs := offs) (ranges := ranges) as (bytes & infos & k & off & inf & l & Hf & He & H1 & H2 & H3 & Hd); [|exact H|].
  - intros p os. unfold ModelApi.info_extractor. destruct (mapM (describe o p) os) as [infos|e|] eqn:E; cbn [no_death]; [|exact I|].
    + apply mapM_inv in E. split; [symmetry; eapply Forall2_length; exact E|].
      clear -E defined. induction E; constructor; auto. eapply describe_sane; eauto.
    + clear -E Hs. induction os as [|x os IH]; cbn [mapM] in E; [discriminate|].
      destruct (describe o p x) eqn:Ed; cbn [obind] in E; [|discriminate|exact (describe_defined _ _ _ Hs _ _ Ed)].
      destruct (mapM (describe o p) os); cbn [obind] in E; try discriminate. auto.
  - unfold ModelApi.info_extractor in He. apply mapM_inv in He. pose proof (Forall2_nth _ _ _ He _ _ _ H1 H2) as Hdesc. cbn beta in Hdesc.
    assert (In (off, l) (combine offs ranges)) as Ic.
    { clear -H1 H3. revert offs ranges H1 H3. induction k as [|k IH]; intros [|x xs] [|y ys] H1 H3; try discriminate; cbn in *.
      - injection H1 as ->. injection H3 as ->. now left.
      - right. eauto. }
    rewrite Forall_forall in Hall. specialize (Hall _ Ic). cbn [fst snd] in Hall.
    destruct Hd as [X|X]; [apply X, Hall|]. exact (within_no_excess _ _ _ _ _ Hdesc Hall X).
Qed.
End Node.

(* ---- path requests handed on to the servers they name ---- *)
Section Handed.
Context {F M : Type}.
Variable k : link F M.
Hypothesis link_ok : sound_link k.
Variable sm : list (endpoint * endpoint).
Variable sites : endpoint -> site F M.
Variable P : endpoint -> string -> Prop.
Variable sorter : list (string * @item F * Z) -> list (string * @item F * Z).
Hypothesis sorter_ok : forall l, Permutation l (sorter l).
Hypothesis defined : forall ep, defined_world (s_world (sites ep)) (P ep).
Variable w : world F.
Hypothesis w_sorter_is : w_sorter w = sorter.
Notation connect := (fun ep => site_server k (sites ep)).

Theorem forwarded_paths_die cfg r0 rest : let reqs := r0 :: rest in
  asks_to_forward r0 -> one_place_each reqs ->
  (forall r ep, In r reqs -> ep_find (p_host r, p_port r) sm = Some ep -> P ep (p_path r)) ->
  extract_path_requests (forwarding k sm connect w) cfg reqs = UB ->
  exists r ep, In r reqs /\ ep_find (p_host r, p_port r) sm = Some ep /\
    deadly (s_world (sites ep)) (p_path r) (as_file (p_uri r)) (p_ranges r).
Proof.
  intros reqs Ha H1 HP H. unfold extract_path_requests, local_extract_paths, reqs in H. fold reqs in H.
  apply tail_defined in H.
  assert (negb (String.eqb (p_host r0) "" && (p_port r0 =? 0)%Z) = true) as Hf.
  { destruct Ha as [X|X]; [apply String.eqb_neq in X; now rewrite X|apply Z.eqb_neq in X; rewrite X; now rewrite Bool.andb_false_r]. }
  rewrite Hf in H. unfold schedule in H. cbn [forwarding w_forward] in H. rewrite w_sorter_is in H.
  set (its := build_uris_map reqs) in *.
  assert (wf_items its) as [ND _]. { apply pfold_wf. split; [constructor|intros; discriminate]. }
  destruct (paths_groups_ok its ND) as [[_ G] _].
  assert (Hk : forall p ks x, In (p, ks) (file_map_from_paths its) -> In x ks ->
            exists r, In r reqs /\ sfind x its = Some (set_uri (p_uri r) (new_item (p_request r))) /\ p_path r = p).
  { intros p ks x Ig Ix. destruct (G p ks x Ig Ix) as (i & Hi & Hp). destruct (pfold_items _ _ _ Hi) as (r & Ir & _ & ->). exists r. auto. }
  assert (NDf : NoDup (map fst (file_map_from_paths its))).
  { rewrite file_map_from_paths_map. pose proof (paths_partition its) as (NDg & _). rewrite map_map. exact NDg. }
  assert (Hne : forall p ks, In (p, ks) (file_map_from_paths its) -> ks <> []).
  { intros p ks Ig. rewrite file_map_from_paths_map in Ig. pose proof (paths_partition its) as (_ & _ & Gm).
    apply in_map_iff in Ig. destruct Ig as ([g xs] & E & Im). cbn [fst snd] in E. injection E as <- <-.
    destruct (Gm _ _ Im) as [X _]. destruct xs; [congruence|discriminate]. }
  assert (Hown : forall p ks ep r, In (p, ks) (file_map_from_paths its) -> owner sm its (p, ks) ep -> In r reqs -> p_path r = p ->
            ep_find (p_host r, p_port r) sm = Some ep).
  { intros p ks ep r Ig (x0 & more & Ek & (i0 & Hi0 & Hep)) Ir Hp. cbn [snd] in Ek.
    destruct (Hk p ks x0 Ig) as (r1 & Ir1 & Hi1 & Hp1); [rewrite Ek; now left|]. rewrite Hi0 in Hi1. injection Hi1 as ->.
    destruct (H1 r r1 Ir Ir1) as [-> ->]; [congruence|]. exact Hep. }
  destruct (forwarded_dies k link_ok sm sites P sorter sorter_ok defined (file_map_from_paths its) its NDf)
    as (p & ks & ep & x & i & Ig & Ow & Ix & Hi & Hd); [| |exact H|].
  - intros p ks Ig. split; [exact (Hne p ks Ig)|]. intros x Ix. destruct (Hk p ks x Ig Ix) as (r & Ir & Hi & _).
    eexists. split; [exact Hi|]. cbn [set_uri it_uri p_uri u_offset u_length]. split; [destruct (_ <? _)%N; discriminate|discriminate].
  - intros p ks ep Ig Ow. destruct ks as [|x ks]; [destruct (Hne _ _ Ig eq_refl)|].
    destruct (Hk p (x :: ks) x Ig (or_introl eq_refl)) as (r & Ir & Hi & Hp). rewrite <- Hp. apply HP; [exact Ir|].
    exact (Hown _ _ _ r Ig Ow Ir Hp).
  - destruct (Hk p ks x Ig Ix) as (r & Ir & Hi' & Hp). rewrite Hi in Hi'. injection Hi' as ->.
    exists r, ep. split; [exact Ir|]. split; [exact (Hown _ _ _ r Ig Ow Ir Hp)|]. subst p. exact Hd.
Qed.
End Handed.

(* ---- with gribjump servers that look descriptions up and describe messages as the model says ---- *)
Section Nodes.
Context {F M : Type}.
Variable k : link F M.
Hypothesis link_ok : sound_link k.
Variable sm : list (endpoint * endpoint).
Variable sites : endpoint -> site F M.
Variable nodes : endpoint -> node F.
Hypothesis nodes_ok : forall ep, sound_node (nodes ep) /\ s_world (sites ep) = node_world (nodes ep).
Hypothesis nodes_defined : forall ep, defined_outside (n_outside (nodes ep)) (n_paths (nodes ep)).
Variable w : world F.
Hypothesis w_sorter_ok : forall l, Permutation l (w_sorter w l).
Notation connect := (fun ep => site_server k (sites ep)).

Lemma sites_defined : forall ep, defined_world (s_world (sites ep)) (n_paths (nodes ep)).
Proof. intros ep. destruct (nodes_ok ep) as [A ->]. now apply node_defined. Qed.

Theorem handed_paths_defined cfg r0 rest : let reqs := r0 :: rest in
  asks_to_forward r0 -> one_place_each reqs ->
  (forall r ep, In r reqs -> ep_find (p_host r, p_port r) sm = Some ep ->
     n_paths (nodes ep) (p_path r) /\ plain_ranges (p_ranges r) /\
     ((p_offset r < two63)%N -> within_points (n_outside (nodes ep)) (p_path r) (Z.of_N (p_offset r)) (p_ranges r))) ->
  extract_path_requests (forwarding k sm connect w) cfg reqs <> UB.
Proof.
  intros reqs Ha H1 Hok H.
  destruct (forwarded_paths_die k link_ok sm sites (fun ep => n_paths (nodes ep)) (w_sorter w) w_sorter_ok sites_defined w eq_refl cfg r0 rest Ha H1)
    as (r & ep & Ir & Ep & Hd); [|exact H|].
  - intros r ep Ir Ep. apply (Hok r ep Ir Ep).
  - destruct (Hok r ep Ir Ep) as (HP & Hpl & Hin). destruct (nodes_ok ep) as [Hn Ew]. rewrite Ew in Hd. revert Hd.
    apply not_deadly; [exact Hn|exact HP|reflexivity|exact Hpl|].
    intros off. unfold as_file, p_uri. cbn [u_offset]. destruct (N.ltb_spec (p_offset r) two63) as [L|]; [|discriminate].
    intros [= <-]. auto.
Qed.

Theorem handed_requests_defined cfg reqs : c_forward cfg = true ->
  (forall u, no_death (Forall (fun e => u_offset (l_uri e) <> UB /\ u_length (l_uri e) <> UB)) (w_list w u)) ->
  unique_listings w cfg -> (forall u listing, w_list w u = Ok listing -> placed_listing (c_ignore_ym cfg) listing) ->
  (forall u listing e ep, w_list w u = Ok listing -> In e listing -> ep_find (location (l_uri e)) sm = Some ep ->
     n_paths (nodes ep) (u_path (l_uri e))) ->
  (forall u listing r e ep, w_list w u = Ok listing -> located cfg reqs listing r e -> ep_find (location (l_uri e)) sm = Some ep ->
     within_bitmap (n_outside (nodes ep)) e (r_ranges r)) ->
  extract_requests (forwarding k sm connect w) cfg reqs <> UB.
Proof.
  intros Hf Hl Hu Hp Huse Hok H.
  destruct (forwarded_requests_die k link_ok sm sites (fun ep => n_paths (nodes ep)) (w_sorter w) w_sorter_ok sites_defined w cfg Hf eq_refl Hl Hu Hp Huse reqs H)
    as (u & listing & r & e & ep & El & Hloc & Ep & Hd).
  destruct (Hok u listing r e ep El Hloc Ep) as [Hpl Hin].
  assert (In e listing) as Ie. { destruct Hloc as [_ X]. unfold entry_of in X. now apply find_some in X. }
  destruct (nodes_ok ep) as [Hn Ew]. rewrite Ew in Hd. revert Hd.
  apply not_deadly; [exact Hn|exact (Huse _ _ _ _ El Ie Ep)|reflexivity|exact Hpl|].
  intros off Ho. split; [exact Hpl|]. intros inf. apply Hin. exact Ho.
Qed.
End Nodes.
