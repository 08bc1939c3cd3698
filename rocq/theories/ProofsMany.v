From Coq Require Import Lia Permutation QArith.
From Verif Require Import Base BaseLemmas ModelStrings ModelInfo ModelSimple ModelStream ModelJumper ModelCache ModelBuild ModelEngine ModelQueue ModelTask
     ModelApi ModelPython ModelRust ModelUser ModelClient ModelFetch ModelProtocol ModelRemote ModelForward
     SpecQueue SpecEngine SpecJumper SpecBuild SpecApi SpecPython SpecSystem SpecRemote SpecForward SpecDeploy SpecPaths SpecUser SpecClient SpecFetch SpecConcurrent SpecBusy SpecMany
     ProofsEngine ProofsEngine3 ProofsRemote ProofsRemote2 ProofsDeploy ProofsPaths ProofsUser ProofsConcurrent ProofsConcurrent2 ProofsConcurrent3 ProofsBusy ProofsClient ProofsFetch.
Local Open Scope nat_scope.

Section Many.
Context {F M W : Type}.
Variable sm : list (endpoint * endpoint).
Variable nodes : endpoint -> node F.
Variable home : string -> endpoint.
Variable configs : endpoint -> ModelEngine.config.
Variable base : outside F.
Hypothesis same : alike nodes base.
Variable lst : string -> outcome (list listed).
Hypothesis housed : at_home sm home lst.
Variable cfg : ModelEngine.config.
Hypothesis checked : checks_grids (c_ignore_grid cfg) configs.
Notation o := (together nodes home base lst).
Notation P := (in_use nodes home).

Lemma owner_right reqs u listing res : lst u = Ok listing -> owner_results sm nodes configs cfg reqs listing res ->
  right_results o P cfg reqs listing res.
Proof.
  intros Hl H. unfold owner_results in H. unfold right_results. eapply Forall2_impl; [|exact H]. cbv beta. intros r x.
  unfold entry_of. destruct (find _ listing) as [e|] eqn:E; [|auto].
  intros (ep & Ep & A) m S bytes off (HP & Hf & Ho & Hm).
  pose proof (housed u listing e ep Hl (proj1 (find_some _ _ E)) Ep) as ->.
  destruct (same (home (u_path (l_uri e)))) as (Ha & Hfull & Hg). cbn zeta in *. cbn [together o_arith o_files o_aec_full o_grib_at] in *.
  destruct (A m S bytes off) as [A1 A2].
  { unfold entry_message. rewrite Hfull, Hg. auto. }
  split; [intros X; apply A1, checked, X|]. intros Hg'. rewrite <- Ha. exact (A2 Hg').
Qed.

Lemma owner_path_right r x : paths_at_home sm home [r] -> owner_path_result sm nodes configs r x ->
  path_result (joint_node nodes home base lst) (c_ignore_grid cfg) r x.
Proof.
  intros Hh (ep & Ep & L & A). split; [exact L|]. intros m S bytes HP [Hf Hm].
  pose proof (Hh r ep (or_introl eq_refl) Ep) as ->. destruct (same (home (p_path r))) as (Ha & Hfull & Hg). cbn zeta in *.
  cbn [joint_node n_outside n_paths together o_arith o_files o_aec_full o_grib_at] in *.
  destruct (A m S bytes HP) as [A1 A2]. { split; [exact Hf|]. now rewrite Hfull, Hg. }
  split; [intros X; apply A1, checked, X|]. intros X. rewrite <- Ha. exact (A2 X).
Qed.
End Many.

Section Users.
Context {F M W : Type}.
Variable k : link F M.
Hypothesis link_ok : sound_link k.
Variable sm : list (endpoint * endpoint).
Variable sites : endpoint -> site F M.
Variable nodes : endpoint -> node F.
Hypothesis nodes_ok : forall ep, sound_node (nodes ep) /\ s_world (sites ep) = node_world (nodes ep).
Variable connect : endpoint -> list (tok F) -> outcome (list (tok F)).
Hypothesis connected : forall ep, connect ep = site_server k (sites ep).
Variable home : string -> endpoint.
Variable base : outside F.
Hypothesis same : alike nodes base.
Variable w : world F.
Hypothesis sorter_ok : sorts (w_sorter w).
Variable cfg : ModelEngine.config.
Hypothesis checked : checks_grids (c_ignore_grid cfg) (fun ep => s_cfg (sites ep)).
Notation o := (together nodes home base (w_list w)).
Notation P := (in_use nodes home).

Section Catalogue.
Hypothesis forward : c_forward cfg = true.
Hypothesis unique : unique_listings w cfg.
Hypothesis placed : forall u l, w_list w u = Ok l -> placed_listing (c_ignore_ym cfg) l.
Hypothesis housed : at_home sm home (w_list w).

Theorem forwarding_right (i : impl F W) st :
  (forall reqs, fst (m_extract i reqs st) = extract_requests (forwarding k sm connect w) cfg reqs) -> right_answers o P cfg i st.
Proof.
  intros E reqs res w' H. specialize (E reqs). rewrite H in E. cbn [fst] in E. symmetry in E.
  destruct (forwarded_values k sm sites nodes connect w link_ok sorter_ok nodes_ok connected cfg reqs forward res unique placed E)
    as (u & listing & Hl & Hr). exists u, listing. split; [exact Hl|].
  exact (owner_right sm nodes home _ base same (w_list w) housed cfg checked reqs u listing res Hl Hr).
Qed.

Theorem front_right (front : site F M) (i : impl F W) st :
  s_world front = forwarding k sm connect w -> s_cfg front = cfg ->
  (forall reqs, fst (m_extract i reqs st) = omap fst (client_extract k (site_server k front) reqs)) -> right_answers o P cfg i st.
Proof.
  intros Ew Ec E reqs res w' H. specialize (E reqs). rewrite H in E. cbn [fst] in E.
  destruct (client_extract k (site_server k front) reqs) as [[res' rest]| |] eqn:X; try discriminate. injection E as <-.
  destruct (chained_values k sm sites nodes connect w link_ok sorter_ok nodes_ok connected cfg reqs forward front Ew Ec res rest unique placed X)
    as (_ & u & listing & Hl & Hr). exists u, listing. split; [exact Hl|].
  exact (owner_right sm nodes home _ base same (w_list w) housed cfg checked reqs u listing res Hl Hr).
Qed.

Theorem busy_forwarding_right (i : impl F W) st :
  (forall reqs res st', m_extract i reqs st = (Ok res, st') -> busy_forward_answer k sm connect w cfg reqs res) -> right_answers o P cfg i st.
Proof.
  intros E reqs res w' H. destruct (E _ _ _ H) as (text & cf & c & keys & its & ts & s & h & errs & H1 & H2 & H3 & H4 & H5 & H6).
  destruct (busy_forward_values k sm connect sites nodes w text cf c cfg reqs keys its ts s h errs res link_ok sorter_ok nodes_ok connected forward unique placed H1 H2 H3 H4 H5 H6)
    as (u & listing & Hl & Hr). exists u, listing. split; [exact Hl|].
  exact (owner_right sm nodes home _ base same (w_list w) housed cfg checked reqs u listing res Hl Hr).
Qed.
End Catalogue.

Theorem forwarding_right_paths (i : impl F W) st r0 rest : let reqs := r0 :: rest in
  (forall rs, fst (m_extract_paths i rs st) = extract_path_requests (forwarding k sm connect w) cfg rs) ->
  asks_to_forward r0 -> placed_paths reqs -> paths_at_home sm home reqs ->
  right_paths (joint_node nodes home base (w_list w)) (c_ignore_grid cfg) i st reqs.
Proof.
  intros reqs E Ha Hp Hh res w' H. specialize (E reqs). rewrite H in E. cbn [fst] in E. symmetry in E.
  pose proof (paths_at_owners k sm sites nodes connect w link_ok sorter_ok nodes_ok connected cfg r0 rest res Ha Hp E) as A.
  fold reqs in A. clear -A Hh same checked. induction A as [|r x rs xs A1 A2 IH]; constructor.
  - eapply owner_path_right; [exact same|exact checked| |exact A1]. intros r' ep [<-|[]]. apply Hh. now left.
  - apply IH. intros r' ep I. apply Hh. now right.
Qed.
End Users.

Section Busy.
Context {F M W : Type}.
Variable o : outside F.
Variable g : ModelCache.config.
Variable P : string -> Prop.
Hypothesis sound : sound_outside o g P.
Variable quiet : bool.
Variable lookup : string -> list Z -> outcome (list (info F)).
Hypothesis shared : shared_lookup o g P quiet lookup.
Variable cfg : ModelEngine.config.
Hypothesis catalogue : plain_catalogue o cfg.
Hypothesis no_forward : c_forward cfg = false.
Hypothesis efficient : c_inefficient cfg = false.
Notation w := (shared_world o P lookup).

Lemma busy_right reqs res : busy_answer w cfg reqs res -> exists u listing, o_list o u = Ok listing /\ right_results o P cfg reqs listing res.
Proof.
  intros (text & cf & c & keys & its & ts & s & h & errs & H1 & H2 & H3 & H4 & H5 & H6).
  eapply (busy_server_values o g P sound quiet lookup shared text cf c cfg reqs keys its ts s h errs res); eauto.
  intros u l Hl. apply (catalogue u l Hl).
Qed.

Theorem busy_user (i : impl F W) st :
  (forall reqs res st', m_extract i reqs st = (Ok res, st') -> busy_answer w cfg reqs res) -> right_answers o P cfg i st.
Proof. intros E reqs res w' H. exact (busy_right reqs res (E _ _ _ H)). Qed.

Theorem busy_client (k : link F M) (e : engine) (i : impl F W) st :
  (forall l reqs m errs, e_extract e l = Ok (reqs, m, errs) -> length reqs = length l) ->
  (forall reqs res, SpecRemote.results_of (e_extract e reqs) = Ok (res, []) -> busy_answer w cfg reqs res) ->
  (forall reqs, fst (m_extract i reqs st) = omap fst (client_extract k (server k e) reqs)) -> right_answers o P cfg i st.
Proof.
  intros L E Ei reqs res w' H. specialize (Ei reqs). rewrite H in Ei. cbn [fst] in Ei.
  unfold client_extract, server in Ei. rewrite (remote_extract_seen (k_title k) (k_r_mars k) (k_r_uri k) (k_what k) (k_context k)) in Ei by (intros; eapply L; eauto).
  destruct (SpecRemote.results_of (e_extract e reqs)) as [[res' [|x errs]]| |] eqn:X; try discriminate.
  cbn in Ei. injection Ei as <-. exact (busy_right reqs res (E _ _ X)).
Qed.
End Busy.

(* requests by file and offset on a busy machine, and on a busy front *)
Section BusyPaths.
Context {F W : Type}.
Variable o : outside F.
Variable g : ModelCache.config.
Variable P : string -> Prop.
Hypothesis sound : sound_outside o g P.
Variable quiet : bool.
Variable lookup : string -> list Z -> outcome (list (info F)).
Hypothesis shared : shared_lookup o g P quiet lookup.
Variable state : string -> list Z -> @cache F.
Hypothesis states : forall p offs, SpecSystem.reachable o g P (state p offs).
Notation w := (shared_world o P lookup).
Notation n := (mk_node o g P state).

Lemma busy_paths_stored cfg r0 rest res : p_host r0 = ""%string -> p_port r0 = 0%Z -> c_inefficient cfg = false ->
  busy_path_answer w cfg (r0 :: rest) res -> Forall2 (path_result n (c_ignore_grid cfg)) (r0 :: rest) res.
Proof.
  intros Hh Hp Hi (text & cf & c & keys & its & ts & s & h & errs & H1 & H2 & H3 & H4 & H5 & H6).
  pose proof (shared_sound o g P sound quiet lookup shared) as SW.
  rewrite (served_paths w SW text cf c cfg (r0 :: rest) keys its ts s h errs r0 rest eq_refl Hh Hp H1 H2 H3 H4 H5) in H6.
  destruct SW as [W1 W2].
  destruct (local_paths_answers (w_arith w) (w_aec w) (w_cache_get w) (w_files w) (w_sorter w) (w_build_info w)
              (w_pieces w) (w_fresh w) (w_forward w) (w_list w) (w_true_info w) cfg r0 rest res W1 W2 Hh Hp H6) as [_ Fa].
  eapply Forall2_impl; [|exact Fa]. cbv beta. intros r x [A|[A _]]; [|congruence].
  apply (own_path_result n); [split; [exact sound|exact states]|exact A].
Qed.

Theorem busy_paths_right cfg (i : impl F W) st r0 rest : let reqs := r0 :: rest in
  p_host r0 = ""%string -> p_port r0 = 0%Z -> c_inefficient cfg = false ->
  (forall res st', m_extract_paths i reqs st = (Ok res, st') -> busy_path_answer w cfg reqs res) ->
  right_paths n (c_ignore_grid cfg) i st reqs.
Proof. intros reqs Hh Hp Hi E res w' H. exact (busy_paths_stored cfg r0 rest res Hh Hp Hi (E _ _ H)). Qed.
End BusyPaths.

Theorem busy_forwarding_right_paths {F M W : Type} (k : link F M) : sound_link k ->
  forall sm (sites : endpoint -> site F M) (nodes : endpoint -> node F),
    (forall ep, sound_node (nodes ep) /\ s_world (sites ep) = node_world (nodes ep)) ->
  forall connect, (forall ep, connect ep = site_server k (sites ep)) ->
  forall (home : string -> endpoint) (base : outside F), alike nodes base ->
  forall (w : world F), sorts (w_sorter w) ->
  forall cfg, checks_grids (c_ignore_grid cfg) (fun ep => s_cfg (sites ep)) ->
  forall (i : impl F W) st r0 rest, let reqs := r0 :: rest in
    (forall res st', m_extract_paths i reqs st = (Ok res, st') -> busy_forward_path_answer k sm connect w reqs res) ->
    asks_to_forward r0 -> placed_paths reqs -> paths_at_home sm home reqs ->
    right_paths (joint_node nodes home base (w_list w)) (c_ignore_grid cfg) i st reqs.
Proof.
  intros LK sm sites nodes NK connect CK home base same w SK cfg CG i st r0 rest reqs E Ha Hp Hh res w' H.
  destruct (E _ _ H) as (text & cf & c & keys & its & ts & s & h & errs & H1 & H2 & H3 & H4 & H5 & H6).
  rewrite (served_forward_paths k sm connect w text cf c cfg reqs keys its ts s h errs r0 rest SK eq_refl Ha H1 H2 H3 H4 H5) in H6.
  pose proof (paths_at_owners k sm sites nodes connect w LK SK NK CK cfg r0 rest res Ha Hp H6) as A.
  fold reqs in A. clear -A Hh same CG. induction A as [|r x rs xs A1 A2 IH]; constructor.
  - eapply owner_path_right; [exact same|exact CG| |exact A1]. intros r' ep [<-|[]]. apply Hh. now left.
  - apply IH. intros r' ep I. apply Hh. now right.
Qed.

(* a Python user of a front that forwards to the servers of the fields *)
Section Python.
Context {F M W : Type}.
Variable zero : F.
Variable k : link F M.
Hypothesis link_ok : sound_link k.
Variable sm : list (endpoint * endpoint).
Variable sites : endpoint -> site F M.
Variable nodes : endpoint -> node F.
Hypothesis nodes_ok : forall ep, sound_node (nodes ep) /\ s_world (sites ep) = node_world (nodes ep).
Variable connect : endpoint -> list (tok F) -> outcome (list (tok F)).
Hypothesis connected : forall ep, connect ep = site_server k (sites ep).
Variable home : string -> endpoint.
Variable base : outside F.
Hypothesis same : alike nodes base.
Variable w : world F.
Hypothesis sorter_ok : sorts (w_sorter w).
Variable cfg : ModelEngine.config.
Hypothesis checked : checks_grids (c_ignore_grid cfg) (fun ep => s_cfg (sites ep)).
Hypothesis forward : c_forward cfg = true.
Variable listing : list listed.
Hypothesis listed_so : forall u, w_list w u = Ok listing.
Hypothesis plain : plain_listing (c_ignore_ym cfg) listing.
Hypothesis unique : duplicate_free (c_ignore_ym cfg) listing.
Hypothesis placed : placed_listing (c_ignore_ym cfg) listing.
Hypothesis housed : at_home sm home (w_list w).
Variable front : site F M.
Hypothesis front_world : s_world front = forwarding k sm connect w.
Hypothesis front_cfg : s_cfg front = cfg.

Theorem python_served expand parsing parse (i : impl F W) asks texts st :
  let reqs := map (fun p => asked_request (fst p) (snd p)) (combine asks texts) in
  (forall l, m_extract i l st = (omap fst (client_extract k (site_server k front) l), st)) ->
  (lenN asks < two64)%N -> Forall2 (accepted parsing parse) asks texts -> Forall (fine_ask cfg expand parsing parse) asks ->
  NoDup (map r_string (canon_requests (c_ignore_ym cfg) false reqs)) ->
  (forall r e, located cfg reqs listing r e -> owner_serves sm nodes (fun ep => s_cfg (sites ep)) r e) ->
  (c_allow_missing cfg = true \/
   forall r, In r (canon_requests (c_ignore_ym cfg) false reqs) -> exists e, located cfg reqs listing r e) ->
  (exists r e, located cfg reqs listing r e) ->
  exists out, py_extract parsing parse i asks st = (Ok out, st) /\
    Forall2 (python_sees zero (together nodes home base (w_list w)) (in_use nodes home) cfg expand listing) asks out.
Proof.
  intros reqs Ei L Hacc Hfine ND Hserve Hmiss Hsome.
  destruct (chained_complete k sm sites nodes connect w link_ok sorter_ok nodes_ok connected cfg reqs forward front front_world front_cfg listing ND listed_so unique placed Hserve Hmiss Hsome)
    as (res & Ec & Hr).
  assert (asks <> []) as Hne.
  { intros ->. destruct Hsome as (r & e & Hl & _). cbn in Hl. contradiction. }
  assert (m_extract i reqs st = (Ok res, st)) as Em by (rewrite Ei, Ec; reflexivity).
  assert (length res = length asks) as Hlen.
  { unfold owner_results in Hr. apply Forall2_length in Hr. rewrite <- Hr, canon_requests_length. unfold reqs. rewrite map_length, combine_length.
    pose proof Hacc as X. apply Forall2_length in X. rewrite X. apply PeanoNat.Nat.min_id. }
  exists (combine res (map (fun a => shape_of (asked_ranges a)) asks)).
  pose proof (python_succeeds parsing parse i asks texts st res st Hne L Hacc Em Hlen) as E. split; [exact E|].
  assert (right_answers (together nodes home base (w_list w)) (in_use nodes home) cfg i st) as R.
  { apply (front_right k link_ok sm sites nodes nodes_ok connect connected home base same w sorter_ok cfg checked forward) with (front := front); auto.
    - intros u l Hl. rewrite listed_so in Hl. injection Hl as <-. exact unique.
    - intros u l Hl. rewrite listed_so in Hl. injection Hl as <-. exact placed.
    - intros l. rewrite Ei. reflexivity. }
  assert (plain_catalogue (together nodes home base (w_list w)) cfg) as C.
  { intros u l Hl. cbn [together o_list] in Hl. rewrite listed_so in Hl. injection Hl as <-. auto. }
  destruct (python_user zero _ _ cfg expand parsing parse i asks st _ st L Hfine C R E) as (u & l & Hl & Hs).
  cbn [together o_list] in Hl. rewrite listed_so in Hl. injection Hl as <-. exact Hs.
Qed.

(* a user of Rust, and of C++, of the same front *)
Lemma served_right reqs (i : impl F W) st :
  (forall l, m_extract i l st = (omap fst (client_extract k (site_server k front) l), st)) ->
  NoDup (map r_string (canon_requests (c_ignore_ym cfg) false reqs)) ->
  (forall r e, located cfg reqs listing r e -> owner_serves sm nodes (fun ep => s_cfg (sites ep)) r e) ->
  (c_allow_missing cfg = true \/
   forall r, In r (canon_requests (c_ignore_ym cfg) false reqs) -> exists e, located cfg reqs listing r e) ->
  (exists r e, located cfg reqs listing r e) ->
  reqs <> [] /\ (exists res, m_extract i reqs st = (Ok res, st) /\ length res = length reqs) /\
  right_answers (together nodes home base (w_list w)) (in_use nodes home) cfg i st /\
  plain_catalogue (together nodes home base (w_list w)) cfg.
Proof.
  intros Ei ND Hserve Hmiss Hsome.
  destruct (chained_complete k sm sites nodes connect w link_ok sorter_ok nodes_ok connected cfg reqs forward front front_world front_cfg listing ND listed_so unique placed Hserve Hmiss Hsome)
    as (res & Ec & Hr).
  split. { intros ->. destruct Hsome as (r & e & Hl & _). cbn in Hl. contradiction. }
  split.
  { exists res. split; [rewrite Ei, Ec; reflexivity|]. unfold owner_results in Hr. apply Forall2_length in Hr. now rewrite <- Hr, canon_requests_length. }
  split.
  - apply (front_right k link_ok sm sites nodes nodes_ok connect connected home base same w sorter_ok cfg checked forward) with (front := front); auto.
    + intros u l Hl. rewrite listed_so in Hl. injection Hl as <-. exact unique.
    + intros u l Hl. rewrite listed_so in Hl. injection Hl as <-. exact placed.
    + intros l. rewrite Ei. reflexivity.
  - intros u l Hl. cbn [together o_list] in Hl. rewrite listed_so in Hl. injection Hl as <-. auto.
Qed.

Theorem rust_served (i : impl F W) qs reqs st :
  (forall l, m_extract i l st = (omap fst (client_extract k (site_server k front) l), st)) ->
  (lenN reqs < two64)%N -> Forall (fine_wanted cfg) qs -> Forall2 request_for qs reqs ->
  NoDup (map r_string (canon_requests (c_ignore_ym cfg) false reqs)) ->
  (forall r e, located cfg reqs listing r e -> owner_serves sm nodes (fun ep => s_cfg (sites ep)) r e) ->
  (c_allow_missing cfg = true \/
   forall r, In r (canon_requests (c_ignore_ym cfg) false reqs) -> exists e, located cfg reqs listing r e) ->
  (exists r e, located cfg reqs listing r e) ->
  exists out, rs_fetch (rs_extract i reqs) st = (Ok out, st) /\
    Forall2 (rust_sees (together nodes home base (w_list w)) (in_use nodes home) cfg listing) qs out.
Proof.
  intros Ei L HQ HR ND Hserve Hmiss Hsome.
  destruct (served_right reqs i st Ei ND Hserve Hmiss Hsome) as (Hne & (res & Em & Hlen) & R & C).
  assert (rs_fetch (rs_extract i reqs) st = (Ok (map handle_new res), st)) as E.
  { unfold rs_extract, gj_extract. destruct reqs as [|r0 rest]; [contradiction|]. rewrite rust_call; rewrite Em; [reflexivity|].
    intros x [= <-]. unfold lenN in *. rewrite Hlen. exact L. }
  exists (map handle_new res). split; [exact E|].
  destruct (rust_user _ _ cfg i qs reqs st _ st L HQ HR C R E) as (u & l & Hl & Hs).
  cbn [together o_list] in Hl. rewrite listed_so in Hl. injection Hl as <-. exact Hs.
Qed.

Theorem cpp_served (i : impl F W) qs reqs st :
  (forall l, m_extract i l st = (omap fst (client_extract k (site_server k front) l), st)) ->
  (lenN reqs < two64)%N -> Forall (fine_wanted cfg) qs -> Forall2 request_for qs reqs ->
  NoDup (map r_string (canon_requests (c_ignore_ym cfg) false reqs)) ->
  (forall r e, located cfg reqs listing r e -> owner_serves sm nodes (fun ep => s_cfg (sites ep)) r e) ->
  (c_allow_missing cfg = true \/
   forall r, In r (canon_requests (c_ignore_ym cfg) false reqs) -> exists e, located cfg reqs listing r e) ->
  (exists r e, located cfg reqs listing r e) ->
  exists s res s', gj_extract i reqs st = (Ok s, st) /\ dump_vector s = Ok (map Some res, s') /\
    Forall2 (cpp_sees (together nodes home base (w_list w)) (in_use nodes home) cfg listing) qs res.
Proof.
  intros Ei L HQ HR ND Hserve Hmiss Hsome.
  destruct (served_right reqs i st Ei ND Hserve Hmiss Hsome) as (Hne & (res & Em & Hlen) & R & C).
  assert (gj_extract i reqs st = (Ok (source_new (map Some res)), st)) as E.
  { unfold gj_extract. destruct reqs as [|r0 rest]; [contradiction|]. unfold as_iterator, amap. now rewrite Em. }
  destruct (cpp_user _ _ cfg i qs reqs st _ st L HQ HR C R E) as (u & l & res' & s' & Hl & D & Hs).
  cbn [together o_list] in Hl. rewrite listed_so in Hl. injection Hl as <-. eauto 10.
Qed.

Theorem c_served (i : impl F W) parsing parse qs asks reqs st :
  (forall l, m_extract i l st = (omap fst (client_extract k (site_server k front) l), st)) ->
  (lenN asks < two64)%N -> Forall (fine_wanted cfg) qs -> Forall2 (asks_c parsing parse) qs asks ->
  c_made parsing parse asks = Ok reqs ->
  NoDup (map r_string (canon_requests (c_ignore_ym cfg) false reqs)) ->
  (forall r e, located cfg reqs listing r e -> owner_serves sm nodes (fun ep => s_cfg (sites ep)) r e) ->
  (c_allow_missing cfg = true \/
   forall r, In r (canon_requests (c_ignore_ym cfg) false reqs) -> exists e, located cfg reqs listing r e) ->
  (exists r e, located cfg reqs listing r e) ->
  exists out, c_fetch parsing parse i asks st = (Ok out, st) /\
    Forall2 (c_sees (together nodes home base (w_list w)) (in_use nodes home) cfg zero listing) qs out.
Proof.
  intros Ei L HQ HA HM ND Hserve Hmiss Hsome.
  destruct (served_right reqs i st Ei ND Hserve Hmiss Hsome) as (Hne & (res & Em & Hlen) & R & C).
  destruct (c_requests parsing parse qs asks HA) as (reqs' & M' & HR). unfold c_made in HM. rewrite M' in HM. injection HM as ->.
  assert (length reqs = length asks) as Lr by (apply Forall2_length in HA; apply Forall2_length in HR; congruence).
  assert (c_fetch parsing parse i asks st = (Ok res, st)) as E.
  { unfold c_fetch. rewrite M'. unfold c_extract. replace (N.to_nat (lenN reqs)) with (length reqs) by (unfold lenN; lia). rewrite all_at.
    unfold gj_extract. destruct reqs as [|r0 rest] eqn:ER; [contradiction|]. rewrite <- ER in *. clear ER.
    unfold as_iterator, amap. rewrite Em. cbn [fst snd omap obind try_catch ModelPython.checked].
    cbn [source_new s_data]. rewrite map_length, c_loop by (unfold lenN in *; rewrite Hlen, Lr; exact L). reflexivity. }
  exists res. split; [exact E|].
  destruct (c_user _ _ cfg zero i parsing parse qs asks st _ st L HQ HA C R E) as (u & l & Hl & Hs).
  cbn [together o_list] in Hl. rewrite listed_so in Hl. injection Hl as <-. exact Hs.
Qed.
End Python.

(* ---- the example ---- *)
Lemma data_alike : alike data_node (file_at "/fdb/x.data").
Proof. intros ep. unfold data_node. destruct (ep_eqb _ _); cbn; auto. Qed.
Lemma data_at_home : at_home demo_servermap data_home (w_list front_world).
Proof.
  intros u l e ep. cbn [front_world w_list]. intros [= <-] [<-|[<-|[]]] H; vm_compute in H; injection H as <-; reflexivity.
Qed.
Lemma data_user : plain_catalogue (together data_node data_home (file_at "/fdb/x.data") (w_list front_world)) front_cfg /\
  right_answers (together data_node data_home (file_at "/fdb/x.data") (w_list front_world)) (in_use data_node data_home) front_cfg front_impl tt.
Proof.
  assert (C : plain_catalogue (together data_node data_home (file_at "/fdb/x.data") (w_list front_world)) front_cfg).
  { intros u l E. injection E as <-. split.
    - repeat (constructor; [apply plain_pairs; [nodup|reflexivity|reflexivity|reflexivity]|]). constructor.
    - unfold duplicate_free. cbn. nodup. }
  split; [exact C|].
  apply (front_right (plain_link Q) (plain_link_sound Q) demo_servermap data_site data_node data_nodes_sound data_connect (fun _ => eq_refl)
           data_home (file_at "/fdb/x.data") data_alike front_world) with (front := front_site); try reflexivity.
  - destruct (node_at_sound "/fdb/x.data") as [(_ & _ & _ & Hs & _) _]; [auto|exact Hs].
  - intros _ ep. reflexivity.
  - intros u l Hl. apply (C u l Hl).
  - intros u l E. injection E as <-. split.
    + intros x v [X|[X|[]]]; injection X as <- <-; cbn; eauto.
    + intros x v x' v' [X|[X|[]]] [Y|[Y|[]]]; injection X as <- <-; injection Y as <- <-; cbn; try discriminate; auto.
  - exact data_at_home.
Qed.
