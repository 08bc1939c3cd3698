From Coq Require Import Lia Permutation Sorted.
From Verif Require Import Base BaseLemmas ModelRange ModelInfo ModelSimple ModelStream SpecStream ModelJumper
  ModelStrings ModelCache ModelBuild ModelEngine ModelProtocol ModelRemote ModelForward SpecCache SpecJumper SpecBuild
  SpecEngine SpecRemote SpecForward SpecSystem SpecDeploy ProofsStrings ProofsEngine ProofsEngine2 ProofsEngine3
  ProofsProtocol ProofsRemote ProofsForward ProofsForward2 ProofsForward3 ProofsForward4 ProofsCache ProofsCache2 ProofsBuild ProofsBuild2 ProofsBuild3 ProofsSystem.
Local Open Scope nat_scope.

Section Same.
Context {F M : Type}.
Notation items := (list (string * @item F)).

(* ---- who keeps the items ---- *)

Lemma apply_results_kept rs : forall (its : items) k i2,
  sfind k (fold_left (fun m p => supdate (fst p) (set_result (F := F) (snd p)) m) rs its) = Some i2 ->
  exists i, sfind k its = Some i /\ it_request i2 = it_request i /\ (it_result i <> None -> it_result i2 <> None).
Proof.
  induction rs as [|[k0 r] rs IH]; intros its k i2 E; cbn [fold_left fst snd] in E; [eauto|].
  destruct (IH _ _ _ E) as (i & E1 & E2 & E3). rewrite sfind_supdate in E1.
  destruct (String.eqb k k0); [|eauto]. destruct (sfind k its) as [i0|]; [|discriminate].
  injection E1 as <-. exists i0. split; [reflexivity|]. split; [exact E2|]. intros _. apply E3. discriminate.
Qed.

Lemma run_tasks_keeps ts (its : items) es its2 : run_tasks ts its = Ok (es, its2) ->
  map fst its2 = map fst its /\
  forall k i2, sfind k its2 = Some i2 -> exists i, sfind k its = Some i /\
    it_request i2 = it_request i /\ (it_result i <> None -> it_result i2 <> None).
Proof.
  intros H. destruct (ub_dec ts) as [U|N]; [rewrite run_tasks_ub in H by exact U; discriminate|].
  rewrite run_tasks_eq in H by exact N. injection H as <- <-. split; [apply apply_results_keys|apply apply_results_kept].
Qed.

Lemma forwards_keep (k : link F M) sm connect sorter : keeps_items (forwards k sm connect sorter).
Proof.
  intros fm its es its2 H. unfold forwards, forward_extract in H.
  destruct (server_file_map sm its fm) as [subs| |]; try discriminate. cbn [obind] in H.
  destruct (assert_ _); try discriminate. cbn [obind] in H. exact (run_tasks_keeps _ _ _ _ H).
Qed.

(* ---- taking the results here and there ---- *)

Notation results m := (map (fun p => (fst p, it_result (snd p))) m).

Lemma replies_taken : forall keys (m : items), NoDup keys ->
  (forall k, In k keys -> exists i r, sfind k m = Some i /\ it_result i = Some r) ->
  exists rs, take_all keys m = Ok rs /\ reply_results keys (results m) = Ok rs.
Proof.
  induction keys as [|k keys IH]; intros m ND H; [exists []; auto|].
  inversion ND as [|? ? Nk NDk]; subst.
  destruct (H k (or_introl eq_refl)) as (i & r & E & R). cbn [take_all reply_results]. rewrite E, R.
  rewrite (sfind_map_snd it_result), E.
  destruct (IH (supdate k take_result m) NDk) as (rs & E1 & E2).
  { intros k' I. destruct (H k' (or_intror I)) as (i' & r' & E' & R').
    exists i', r'. split; [|exact R']. rewrite sfind_supdate_other; [exact E'|]. intros ->. contradiction. }
  rewrite E1. rewrite (supdate_map_snd it_result take_result (fun _ => None) k m) by (intros; reflexivity).
  rewrite E2, R. cbn [obind]. eauto.
Qed.

(* ---- the same extraction, here and at a server ---- *)

Section Site.
Variable k : link F M.
Variable s : site F M.
Notation w := (s_world s).
Notation cfg := (s_cfg s).
Hypothesis keeps : c_forward cfg = false \/ keeps_items (w_forward w).

Lemma schedule_keeps fm (its : items) es its2 :
  schedule (w_arith w) (w_aec w) (w_cache_get w) (w_files w) (w_sorter w) (w_build_info w) (w_pieces w) (w_fresh w)
    (w_forward w) cfg (c_forward cfg) fm its = Ok (es, its2) ->
  map fst its2 = map fst its /\
  forall k i2, sfind k its2 = Some i2 -> exists i, sfind k its = Some i /\
    it_request i2 = it_request i /\ (it_result i <> None -> it_result i2 <> None).
Proof.
  unfold schedule. destruct (c_forward cfg) eqn:Ef.
  - intros H. destruct keeps as [X|X]; [discriminate|]. exact (X _ _ _ _ H).
  - intros H. destruct (mapM _ _) as [ts| |]; try discriminate. cbn [obind] in H.
    destruct (assert_ _); try discriminate. cbn [obind] in H. exact (run_tasks_keeps _ _ _ _ H).
Qed.

Theorem same_extraction reqs :
  same_answer (extract_requests w cfg reqs) (client_extract k (site_server k s) reqs).
Proof.
  unfold client_extract, site_server, server.
  assert (Len : forall reqs' m errs, e_extract (site_engine k s) reqs = Ok (reqs', m, errs) -> length reqs' = length reqs).
  { intros reqs' m errs. cbn [site_engine the_engine e_extract]. unfold engine_extract.
    destruct (build_request_map (c_ignore_ym cfg) reqs) as [[[u rs] its]| |] eqn:Eb; try discriminate. cbn [obind].
    destruct (w_list w u) as [listing| |]; try discriminate. cbn [obind].
    destruct (file_map _ _ listing its) as [[fm its1]| |]; try discriminate. cbn [obind].
    destruct (schedule _ _ _ _ _ _ _ _ _ _ _ fm its1) as [[es its2]| |]; try discriminate. cbn [obind].
    intros [= <- _ _]. destruct (build_map_inv _ _ _ _ _ Eb) as (-> & _ & _). apply canon_requests_length. }
  rewrite (remote_extract_seen _ _ _ _ _ _ _ Len). clear Len.
  unfold extract_requests, local_extract, results_of. cbn [site_engine the_engine e_extract]. unfold engine_extract.
  destruct (build_request_map (c_ignore_ym cfg) reqs) as [[[u rs] its]|e|] eqn:Eb; cbn [obind seen and_unread omap same_answer];
    [|eauto|reflexivity].
  destruct (w_list w u) as [listing|e|]; cbn [obind seen and_unread omap same_answer]; [|eauto|reflexivity].
  destruct (file_map _ _ listing its) as [[fm its1]|e|] eqn:Em; cbn [obind seen and_unread omap same_answer]; [|eauto|reflexivity].
  destruct (schedule _ _ _ _ _ _ _ _ _ _ _ fm its1) as [[es its2]|e|] eqn:Es; cbn [obind seen and_unread omap same_answer];
    [|eauto|reflexivity].
  destruct (build_map_inv _ _ _ _ _ Eb) as (-> & -> & ND). set (rs := canon_requests (c_ignore_ym cfg) false reqs) in *.
  pose proof (wf_entries (F := F) rs ND) as W0. destruct (file_map_inv _ _ _ _ _ _ Em) as (c & L & _).
  destruct (schedule_keeps _ _ _ _ Es) as [K2 R2].
  assert (Q : forall x i2, sfind x its2 = Some i2 -> exists r, In r rs /\ r_string r = x /\ it_request i2 = r /\ it_result i2 <> None).
  { intros x i2 E. destruct (R2 x i2 E) as (i1 & E1 & Er & Ex). rewrite (li_find _ _ _ _ _ _ L x) in E1.
    rewrite sfind_entries in E1 by exact ND.
    destruct (find (fun r => String.eqb (r_string r) x) rs) as [r|] eqn:Ef; [|discriminate].
    apply find_some in Ef. destruct Ef as [Ir Ef]. apply String.eqb_eq in Ef. exists r.
    injection E1 as <-. split; [exact Ir|]. split; [exact Ef|].
    destruct (last_entry _ listing x); cbn in Er, Ex; (split; [exact Er|apply Ex; discriminate]). }
  assert (Kk : map fst its2 = map r_string rs).
  { rewrite K2, (li_keys _ _ _ _ _ _ L), map_map. reflexivity. }
  assert (W2 : wf_items its2).
  { split; [rewrite Kk; exact ND|]. intros x i2 E. destruct (Q x i2 E) as (r & _ & <- & -> & _). reflexivity. }
  destruct (replies_taken (map r_string rs) (collect_items its2) ND) as (res & E1 & E2).
  { intros x Ix. rewrite collect_items_find by exact W2. rewrite <- Kk in Ix.
    destruct (sfind_some _ _ Ix) as (i & Ei). destruct (Q x i Ei) as (_ & _ & _ & _ & Nn).
    exists i. destruct (it_result i) as [r|]; [exists r; auto|contradiction]. }
  rewrite E2. destruct es as [|e es]; cbn [raise_errors obind map seen].
  - unfold collect_results. replace (lenN (collect_items its2) =? lenN (map r_string rs))%N with true.
    + cbn [assert_ obind]. rewrite E1. reflexivity.
    + symmetry. apply N.eqb_eq. rewrite collect_items_perm by exact W2. unfold lenN.
      rewrite <- (Permutation_length (in_key_order_perm its2)). rewrite <- Kk, map_length. reflexivity.
  - cbn [same_answer]. eexists. reflexivity.
Qed.

(* in particular *)
Corollary answered_there reqs res rest : client_extract k (site_server k s) reqs = Ok (res, rest) ->
  extract_requests w cfg reqs = Ok res /\ rest = [].
Proof.
  intros H. pose proof (same_extraction reqs) as S. rewrite H in S. unfold same_answer in S.
  destruct (extract_requests w cfg reqs) as [res'|e|]; [|destruct S; discriminate|discriminate].
  injection S as <- <-. auto.
Qed.
Corollary answered_here reqs res : extract_requests w cfg reqs = Ok res ->
  client_extract k (site_server k s) reqs = Ok (res, []).
Proof. intros H. pose proof (same_extraction reqs) as S. rewrite H in S. exact S. Qed.
End Site.
End Same.

Section Stored.
Context {F M : Type}.

(* an answer read at a node is what the message stores *)
Lemma own_stored (n : node F) ignore_grid e r x : sound_node n ->
  own_answer (w_arith (node_world n)) (w_aec (node_world n)) (w_files (node_world n)) (w_true_info (node_world n))
    ignore_grid (l_uri e) r x ->
  forall m S bytes off, entry_message (n_outside n) (n_paths n) e m S bytes off ->
    (ignore_grid = false -> r_hash r = m_md5 m) /\
    (good_request (Z.to_N (m_points m)) (r_ranges r) ->
     stored_result m bytes off S (o_arith (n_outside n)) (r_ranges r) x).
Proof.
  intros [Hs _] (bytes' & off' & inf & Hfile' & Hoff' & Ht & Hh & Hx) m S bytes off (Hp & Hfile & Hoff & Hm).
  pose proof Hs as (Hcons & Hfresh & _). unfold node_world in *. cbn [w_files w_true_info w_arith w_aec world_of] in *.
  set (o := n_outside n) in *.
  rewrite Hfile in Hfile'. injection Hfile' as <-. rewrite Hoff in Hoff'. injection Hoff' as <-. specialize (Ht Hp).
  unfold describe, extract_info, open_file in Ht. rewrite Hfile in Ht. cbn [obind] in Ht. split.
  - intros Hig. destruct (Hh Hig) as [_ ->]. destruct (build_told _ _ _ _ _ _ Ht) as (_ & k & Hk & Htold).
    destruct Hm as ((k' & Hk' & R) & _). rewrite Hk in Hk'. injection Hk' as <-.
    unfold told_by in Htold. do 11 (destruct Htold as [_ Htold]). destruct Htold as [Htold _].
    rewrite (rep_md5 _ _ R) in Htold. now injection Htold.
  - intros Hg. destruct (stored_values (o_arith o) (o_aec o) (o_aec_full o) (o_fresh o) (o_grib_at o) Hcons Hfresh bytes off m S _ Hm Hg)
      as (inf' & x' & Hb & Hx' & Hst).
    rewrite Ht in Hb. injection Hb as <-. rewrite Hx in Hx'. injection Hx' as <-. exact Hst.
Qed.

(* ---- a client of one server ---- *)
Theorem served_values (k : link F M) (s : site F M) (n : node F) reqs res rest :
  sound_node n -> s_world s = node_world n -> unique_listings (node_world n) (s_cfg s) ->
  c_forward (s_cfg s) = false -> c_inefficient (s_cfg s) = false ->
  client_extract k (site_server k s) reqs = Ok (res, rest) ->
  rest = [] /\ exists u listing, o_list (n_outside n) u = Ok listing /\
                 right_results (n_outside n) (n_paths n) (s_cfg s) reqs listing res.
Proof.
  intros [Hs Hst] Ew Hu Hf Hi H. destruct (answered_there k s (or_introl Hf) reqs res rest H) as [E ->].
  split; [reflexivity|]. rewrite Ew in E.
  exact (system_values (n_outside n) (n_cache n) (n_paths n) Hs (n_state n) Hst (s_cfg s) reqs res Hu Hf Hi E).
Qed.
Theorem served_complete (k : link F M) (s : site F M) (n : node F) reqs listing :
  sound_node n -> s_world s = node_world n ->
  g_lazy (n_cache n) = true -> c_forward (s_cfg s) = false -> c_inefficient (s_cfg s) = false ->
  NoDup (map r_string (canon_requests (c_ignore_ym (s_cfg s)) false reqs)) ->
  (forall u, o_list (n_outside n) u = Ok listing) -> duplicate_free (c_ignore_ym (s_cfg s)) listing ->
  own_places (s_cfg s) reqs listing ->
  (forall r e, located (s_cfg s) reqs listing r e -> fine_request (n_outside n) (n_paths n) (s_cfg s) r e) ->
  (c_allow_missing (s_cfg s) = true \/
   forall r, In r (canon_requests (c_ignore_ym (s_cfg s)) false reqs) -> exists e, located (s_cfg s) reqs listing r e) ->
  (exists r e, located (s_cfg s) reqs listing r e) ->
  exists res, client_extract k (site_server k s) reqs = Ok (res, []) /\
              right_results (n_outside n) (n_paths n) (s_cfg s) reqs listing res.
Proof.
  intros [Hs Hst] Ew Hz Hf Hi ND Hl D Hown Hfine Hall Hex.
  destruct (system_complete (n_outside n) (n_cache n) (n_paths n) Hs (n_state n) Hst (s_cfg s) reqs listing
              Hz Hf Hi ND Hl D Hown Hfine Hall Hex) as (res & E & R).
  exists res. split; [|exact R]. apply answered_here; [now left|]. rewrite Ew. exact E.
Qed.

(* ---- forwarding to the owners ---- *)
Section Owners.
Variable k : link F M.
Variable sm : list (endpoint * endpoint).
Variable sites : endpoint -> site F M.
Variable nodes : endpoint -> node F.
Variable connect : endpoint -> list (tok F) -> outcome (list (tok F)).
Variable w : world F.
Hypothesis link_ok : sound_link k.
Hypothesis sorter_ok : sorts (w_sorter w).
Hypothesis nodes_ok : forall ep, sound_node (nodes ep) /\ s_world (sites ep) = node_world (nodes ep).
Hypothesis connected : forall ep, connect ep = site_server k (sites ep).
Notation configs := (fun ep => s_cfg (sites ep)).
Notation fw := (forwarding k sm connect w).
Variable cfg : config.
Variable reqs : list request.
Hypothesis forward : c_forward cfg = true.

Lemma sites_sound ep : sound_world (s_world (sites ep)).
Proof.
  destruct (nodes_ok ep) as [[Hs Hst] ->].
  exact (sound_system (n_outside (nodes ep)) (n_cache (nodes ep)) (n_paths (nodes ep)) Hs (n_state (nodes ep)) Hst).
Qed.

Theorem forwarded_values res :
  unique_listings w cfg -> (forall u l, w_list w u = Ok l -> placed_listing (c_ignore_ym cfg) l) ->
  extract_requests fw cfg reqs = Ok res ->
  exists u listing, w_list w u = Ok listing /\ owner_results sm nodes configs cfg reqs listing res.
Proof.
  intros Hu Hp H.
  destruct (requests_forwarded k sm sites connect w link_ok sorter_ok sites_sound connected cfg reqs res forward Hu Hp H)
    as (u & listing & El & Fa). exists u, listing. split; [exact El|].
  eapply Forall2_impl; [|exact Fa]. cbv beta. intros r x Hx.
  destruct (entry_of _ listing (r_string r)) as [e|]; [|exact Hx].
  destruct Hx as (ep & Ep & A). exists ep. split; [exact Ep|]. destruct (nodes_ok ep) as [Hn Ew].
  cbn zeta in A. rewrite Ew in A. exact (own_stored (nodes ep) _ e r x Hn A).
Qed.

(* the files and items of a listing, when every located request has a server that can answer it *)
Section Complete.
Variable listing : list listed.
Notation rs := (canon_requests (c_ignore_ym cfg) false reqs).
Hypothesis ND : NoDup (map r_string rs).
Hypothesis Hl : forall u, w_list w u = Ok listing.
Hypothesis D : duplicate_free (c_ignore_ym cfg) listing.
Hypothesis Hp : placed_listing (c_ignore_ym cfg) listing.
Hypothesis Hserv : forall r e, located cfg reqs listing r e -> owner_serves sm nodes configs r e.
Variables (fm : list (string * list string)) (its1 : list (string * @item F)).
Hypothesis Em : file_map (c_ignore_ym cfg) (c_allow_missing cfg) listing
                  (map (fun r => (r_string r, new_item (F := F) r)) rs) = Ok (fm, its1).

Lemma item_of_entry p ks x : In (p, ks) fm -> In x ks ->
  exists r e, located cfg reqs listing r e /\ r_string r = x /\
    sfind x its1 = Some (set_uri (l_uri e) (new_item r)) /\ u_path (l_uri e) = p.
Proof.
  intros Ip Ik. pose proof (wf_entries (F := F) rs ND) as W0.
  destruct (file_map_inv _ _ _ _ _ _ Em) as (c & L & _).
  pose proof (file_map_groups_ok _ _ _ _ _ _ D (proj1 W0) Em) as Gok.
  destruct (file_map_partitions _ _ _ _ _ _ D Em) as [NDl (NDf & P & G)].
  destruct (proj2 Gok p ks x Ip Ik) as (i & Ei & Ep).
  pose proof (li_find _ _ _ _ _ _ L x) as E1. rewrite Ei in E1. rewrite sfind_entries in E1 by exact ND.
  destruct (find (fun r => String.eqb (r_string r) x) rs) as [r|] eqn:Er; [|discriminate].
  apply find_some in Er. destruct Er as [Ir Er]. apply String.eqb_eq in Er.
  rewrite (last_entry_of _ _ _ D) in E1.
  assert (Il : In x (map (listed_as (c_ignore_ym cfg)) (filter (known (c_ignore_ym cfg) (map (fun r => (r_string r, new_item (F := F) r)) rs)) listing))).
  { eapply Permutation_in; [symmetry; exact P|]. apply in_concat. exists ks. split; [|exact Ik].
    apply in_map_iff. exists (p, ks). auto. }
  apply in_map_iff in Il. destruct Il as (e' & Ek' & Ie'). apply filter_In in Ie'.
  destruct (entry_of (c_ignore_ym cfg) listing x) as [e|] eqn:Ee.
  - injection E1 as ->. exists r, e. repeat split; auto. now rewrite Er.
  - exfalso. pose proof (find_none _ _ Ee e' (proj1 Ie')) as X. cbn in X.
    rewrite Ek', String.eqb_refl in X. discriminate.
Qed.

Lemma placed_entries r e r' e' : located cfg reqs listing r e -> located cfg reqs listing r' e' ->
  u_path (l_uri e) = u_path (l_uri e') -> location (l_uri e) = location (l_uri e').
Proof.
  intros [_ E] [_ E'] Ep. destruct (entry_of_some _ _ _ _ E) as [I Ex]. destruct (entry_of_some _ _ _ _ E') as [I' Ex'].
  refine (proj1 (proj2 Hp (r_string r) (l_uri e) (r_string r') (l_uri e') _ _ Ep)); apply in_map_iff.
  - exists e. rewrite Ex. auto.
  - exists e'. rewrite Ex'. auto.
Qed.

Lemma listing_forwardable : fm <> [] -> forwardable its1 fm.
Proof.
  intros NE. pose proof (wf_entries (F := F) rs ND) as W0.
  destruct (file_map_partitions _ _ _ _ _ _ D Em) as [NDl (NDf & P & G)].
  apply (placed_forwardable its1 fm _ Hp (file_map_groups_ok _ _ _ _ _ _ D (proj1 W0) Em) NDf NE).
  - intros f ks I. exact (proj1 (G f ks I)).
  - intros x i Ix Ei. apply in_concat in Ix. destruct Ix as (ks & Ik & Ix). apply in_map_iff in Ik.
    destruct Ik as ([p ks'] & <- & Ip). cbn [snd] in Ix.
    destruct (item_of_entry p ks' x Ip Ix) as (r & e & [_ Ee] & Er & Ef & _). rewrite Ei in Ef. injection Ef as ->.
    destruct (entry_of_some _ _ _ _ Ee) as [Ie Ex]. apply in_map_iff. exists e. rewrite Ex, Er. auto.
Qed.

Lemma owner_found f : In f fm -> exists ep, owner sm its1 f ep.
Proof.
  intros I. destruct f as [p ks]. destruct (file_map_partitions _ _ _ _ _ _ D Em) as [NDl (NDf & P & G)].
  destruct (G p ks I) as [Ne _]. destruct ks as [|x ks]; [congruence|].
  destruct (item_of_entry p (x :: ks) x I (or_introl eq_refl)) as (r & e & L & Er & Ef & Ep).
  destruct (Hserv r e L) as (ep & Ee & _). exists ep, x, ks. split; [reflexivity|].
  exists (set_uri (l_uri e) (new_item r)). auto.
Qed.

Lemma owner_extracts f ep : In f fm -> owner sm its1 f ep -> exists out, site_extracts (sites ep) its1 f = Ok out.
Proof.
  intros I (x0 & rest & E0 & i0 & Ei0 & Eep). destruct f as [p ks]. cbn [snd] in E0. subst ks.
  destruct (item_of_entry p _ x0 I (or_introl eq_refl)) as (r0 & e0 & L0 & Er0 & Ef0 & Ep0).
  rewrite Ef0 in Ei0. injection Ei0 as <-. cbn [it_uri set_uri] in Eep.
  (* what the owner knows about every item of the file *)
  assert (Hk : forall x, In x (x0 :: rest) -> exists r e m S bytes off, located cfg reqs listing r e /\ r_string r = x /\
            sfind x its1 = Some (set_uri (l_uri e) (new_item r)) /\ u_path (l_uri e) = p /\
            g_lazy (n_cache (nodes ep)) = true /\
            entry_message (n_outside (nodes ep)) (n_paths (nodes ep)) e m S bytes off /\
            good_request (Z.to_N (m_points m)) (r_ranges r) /\
            (c_ignore_grid (s_cfg (sites ep)) = false -> m_md5 m <> ""%string /\ r_hash r = m_md5 m)).
  { intros x Ix. destruct (item_of_entry p _ x I Ix) as (r & e & L & Er & Ef & Ep).
    destruct (Hserv r e L) as (ep' & Ee & Hz & m & S & bytes & off & A & B & C).
    assert (ep' = ep).
    { rewrite (placed_entries r e r0 e0 L L0) in Ee by congruence. congruence. }
    subst ep'. exists r, e, m, S, bytes, off. auto 10. }
  destruct (nodes_ok ep) as [[Hs Hst] Ew]. set (n := nodes ep) in *. set (o := n_outside n) in *.
  assert (W : forwardable its1 fm) by (apply listing_forwardable; intros E; rewrite E in I; contradiction).
  destruct W as (_ & _ & W). destruct (W p _ I) as (_ & js & Ej & NDo). clear W.
  unfold site_extracts, extract_file, file_task. cbn [fst snd]. rewrite Ej. cbn [obind]. rewrite Ew.
  unfold node_world. cbn [w_arith w_aec w_cache_get w_files w_sorter world_of]. fold o.
  pose proof Hs as (_ & _ & _ & Hsort & _). destruct (Hsort js) as [Pj _].
  set (sorted := o_sorter o js) in *.
  (* jobs are located requests *)
  assert (Hj : forall j, In j sorted -> exists r e m S bytes, located cfg reqs listing r e /\ snd (fst j) = set_uri (l_uri e) (new_item r) /\
            u_path (l_uri e) = p /\ entry_message o (n_paths n) e m S bytes (snd j) /\
            g_lazy (n_cache n) = true /\
            good_request (Z.to_N (m_points m)) (r_ranges r) /\
            (c_ignore_grid (s_cfg (sites ep)) = false -> m_md5 m <> ""%string /\ r_hash r = m_md5 m)).
  { intros j Ij. apply (Permutation_in _ (Permutation_sym Pj)) in Ij.
    assert (Jk : In (fst (fst j)) (x0 :: rest)).
    { rewrite <- (jobs_keys _ _ _ Ej). apply (in_map (fun j => fst (fst j))) in Ij. exact Ij. }
    destruct (proj1 (Forall_forall _ _) (jobs_ok _ _ _ Ej) j Ij) as [J1 J2].
    destruct (Hk _ Jk) as (r & e & m & S & bytes & off & L & Er & Ef & Ep & Hz & A & B & C).
    rewrite Ef in J1. injection J1 as J1. rewrite <- J1 in J2. cbn [it_uri set_uri] in J2.
    assert (off = snd j). { destruct A as (_ & _ & Ho & _). rewrite J2 in Ho. now injection Ho. }
    subst off. exists r, e, m, S, bytes. auto 10. }
  destruct js as [|j0 js']; [apply jobs_keys in Ej; discriminate|].
  assert (Ij0 : In j0 sorted) by (eapply Permutation_in; [exact Pj|now left]).
  destruct (Hj j0 Ij0) as (r1 & e1 & m1 & S1 & bytes & L1 & _ & Ep1 & (HP & Hfile & _) & Hz & _).
  rewrite Ep1 in HP, Hfile.
  assert (Hd : forall off, In off (map snd sorted) -> exists i, describe o p off = Ok i).
  { intros off Io. apply in_map_iff in Io. destruct Io as (j & <- & Ij).
    destruct (Hj j Ij) as (r & e & m & S & bytes' & L & _ & Ep & (_ & Hfile' & _ & Hm) & _).
    rewrite Ep in Hfile'. destruct (describe_message o (n_cache n) (n_paths n) Hs _ _ _ _ _ Hfile' Hm) as (i & Hi & _). eauto. }
  destruct (lookup_answers o (n_cache n) (n_paths n) Hs (n_state n p (map snd sorted)) p (map snd sorted)
              (Hst _ _) HP Hz) as (infos & Hg).
  { eapply Permutation_NoDup; [apply Permutation_map; exact Pj|exact NDo]. }
  { exact Hd. }
  rewrite Hg. cbn [obind]. rewrite Hfile.
  pose proof (lookup_true o (n_cache n) (n_paths n) Hs _ _ _ _ (Hst _ _) HP Hg) as HF.
  destruct (Hd (snd j0) (in_map snd _ _ Ij0)) as (i0 & _).
  set (inf := fun p off => match describe o p off with Ok i => i | _ => i0 end).
  replace infos with (map (inf p) (map snd sorted)).
  2:{ clear -HF. induction HF as [|y z l l' H _ IH]; cbn [map]; [reflexivity|]. unfold inf at 1. now rewrite H, IH. }
  apply (extract_loop_ok (o_arith o) (o_aec o) (s_cfg (sites ep)) inf bytes p sorted).
  intros j Ij. cbn zeta. destruct (Hj j Ij) as (r & e & m & S & bytes' & L & Ei & Ep & (_ & Hfile' & _ & Hm) & _ & Hgr & Hh).
  rewrite Ep in Hfile'. rewrite Hfile in Hfile'. injection Hfile' as <-. rewrite Ei. cbn [it_request set_uri new_item].
  destruct (describe_message o (n_cache n) (n_paths n) Hs _ _ _ _ _ Hfile Hm) as (i & Hi & Hmd & Hx).
  unfold inf. rewrite Hi. split; [|apply Hx, Hgr].
  intros Hig. destruct (Hh Hig) as [H1 H2]. rewrite H2, Hmd. auto.
Qed.
End Complete.

Theorem forwarded_complete listing :
  NoDup (map r_string (canon_requests (c_ignore_ym cfg) false reqs)) ->
  (forall u, w_list w u = Ok listing) -> duplicate_free (c_ignore_ym cfg) listing ->
  placed_listing (c_ignore_ym cfg) listing ->
  (forall r e, located cfg reqs listing r e -> owner_serves sm nodes configs r e) ->
  (c_allow_missing cfg = true \/
   forall r, In r (canon_requests (c_ignore_ym cfg) false reqs) -> exists e, located cfg reqs listing r e) ->
  (exists r e, located cfg reqs listing r e) ->
  exists res, extract_requests fw cfg reqs = Ok res /\ owner_results sm nodes configs cfg reqs listing res.
Proof.
  intros ND Hl D Hp Hserv Ha (r0 & e0 & Ir0 & Ee0).
  assert (Hex : exists res, extract_requests fw cfg reqs = Ok res).
  { unfold extract_requests, forwarding, local_extract. cbn [w_arith w_aec w_cache_get w_files w_sorter w_build_info w_pieces
      w_fresh w_forward w_list].
    destruct (build_map_ok (F := F) _ _ ND) as (u & ->). cbn [obind]. rewrite Hl. cbn [obind].
    set (rs := canon_requests (c_ignore_ym cfg) false reqs) in *.
    set (its := map (fun r => (r_string r, new_item (F := F) r)) rs).
    pose proof (wf_entries (F := F) rs ND) as W0. fold its in W0.
    assert (exists fm its1, file_map (c_ignore_ym cfg) (c_allow_missing cfg) listing its = Ok (fm, its1)) as (fm & its1 & Em).
    { apply all_found; [exact D|exact (proj1 W0)|]. destruct Ha as [Ha|Ha]; [left; exact Ha|right]. intros x Ix.
      unfold its in Ix. rewrite map_map in Ix. apply in_map_iff in Ix. destruct Ix as (r & <- & Ir).
      destruct (Ha r Ir) as (e & _ & Ee). eauto. }
    fold its.
    rewrite Em. cbn [obind]. rewrite forward. unfold schedule.
    destruct (file_map_inv _ _ _ _ _ _ Em) as (c & L & _).
    destruct (file_map_partitions _ _ _ _ _ _ D Em) as [NDl (NDf & P & G)].
    assert (Hfm : fm <> []).
    { intros ->. cbn in P. apply Permutation_sym, Permutation_nil in P.
      destruct (entry_of_some _ _ _ _ Ee0) as [Ie Ek].
      assert (I : In (r_string r0) (map (listed_as (c_ignore_ym cfg)) (filter (known (c_ignore_ym cfg) its) listing))).
      { apply in_map_iff. exists e0. split; [exact Ek|]. apply filter_In. split; [exact Ie|].
        unfold known. rewrite Ek. unfold its. rewrite sfind_entries, find_request by assumption. reflexivity. }
      rewrite P in I. contradiction. }
    destruct (forwarding_succeeds k sm sites connect (w_sorter w) link_ok sorter_ok (fun ep => proj1 (sites_sound ep)) connected
                its1 fm (listing_forwardable listing ND D Hp fm its1 Em Hfm)
                (owner_found listing ND D Hserv fm its1 Em)
                (owner_extracts listing ND D Hp Hserv fm its1 Em)) as (its2 & Es).
    rewrite Es. cbn [obind raise_errors].
    destruct (forwards_keep _ _ _ _ _ _ _ _ Es) as [K2 R2].
    assert (Kk : map fst its2 = map r_string rs).
    { rewrite K2, (li_keys _ _ _ _ _ _ L). unfold its. rewrite map_map. reflexivity. }
    assert (Q : forall x i2, sfind x its2 = Some i2 -> exists r, In r rs /\ r_string r = x /\ it_request i2 = r /\ it_result i2 <> None).
    { intros x i2 E. destruct (R2 x i2 E) as (i1 & E1 & Er & Ex). rewrite (li_find _ _ _ _ _ _ L x) in E1.
      unfold its in E1. rewrite sfind_entries in E1 by exact ND.
      destruct (find (fun r => String.eqb (r_string r) x) rs) as [r|] eqn:Ef; [|discriminate].
      apply find_some in Ef. destruct Ef as [Ir Ef]. apply String.eqb_eq in Ef. exists r.
      injection E1 as <-. split; [exact Ir|]. split; [exact Ef|].
      destruct (last_entry _ listing x); cbn in Er, Ex; (split; [exact Er|apply Ex; discriminate]). }
    assert (W2 : wf_items its2).
    { split; [rewrite Kk; exact ND|]. intros x i2 E. destruct (Q x i2 E) as (r & _ & <- & -> & _). reflexivity. }
    destruct (replies_taken (map r_string rs) (collect_items its2) ND) as (res & E1 & _).
    { intros x Ix. rewrite collect_items_find by exact W2. rewrite <- Kk in Ix.
      destruct (sfind_some _ _ Ix) as (i & Ei). destruct (Q x i Ei) as (_ & _ & _ & _ & Nn).
      exists i. destruct (it_result i) as [r|]; [exists r; auto|contradiction]. }
    unfold collect_results. replace (lenN (collect_items its2) =? lenN (map r_string rs))%N with true.
    - cbn [assert_ obind]. eauto.
    - symmetry. apply N.eqb_eq. rewrite collect_items_perm by exact W2. unfold lenN.
      rewrite <- (Permutation_length (in_key_order_perm its2)). rewrite <- Kk, map_length. reflexivity. }
  destruct Hex as (res & E). exists res. split; [exact E|].
  destruct (forwarded_values res) as (u & listing' & El & R); auto.
  - intros u l Hu. rewrite Hl in Hu. now injection Hu as <-.
  - intros u l Hu. rewrite Hl in Hu. now injection Hu as <-.
  - rewrite Hl in El. now injection El as <-.
Qed.

(* ---- a client of a server that forwards ---- *)
Variable front : site F M.
Hypothesis front_world : s_world front = fw.
Hypothesis front_cfg : s_cfg front = cfg.

Lemma front_keeps : c_forward (s_cfg front) = false \/ keeps_items (w_forward (s_world front)).
Proof. right. rewrite front_world. apply forwards_keep. Qed.

Theorem chained_values res rest :
  unique_listings w cfg -> (forall u l, w_list w u = Ok l -> placed_listing (c_ignore_ym cfg) l) ->
  client_extract k (site_server k front) reqs = Ok (res, rest) ->
  rest = [] /\ exists u listing, w_list w u = Ok listing /\ owner_results sm nodes configs cfg reqs listing res.
Proof.
  intros Hu Hp H. destruct (answered_there k front front_keeps reqs res rest H) as [E ->]. split; [reflexivity|].
  rewrite front_world, front_cfg in E. exact (forwarded_values res Hu Hp E).
Qed.
Theorem chained_complete listing :
  NoDup (map r_string (canon_requests (c_ignore_ym cfg) false reqs)) ->
  (forall u, w_list w u = Ok listing) -> duplicate_free (c_ignore_ym cfg) listing ->
  placed_listing (c_ignore_ym cfg) listing ->
  (forall r e, located cfg reqs listing r e -> owner_serves sm nodes configs r e) ->
  (c_allow_missing cfg = true \/
   forall r, In r (canon_requests (c_ignore_ym cfg) false reqs) -> exists e, located cfg reqs listing r e) ->
  (exists r e, located cfg reqs listing r e) ->
  exists res, client_extract k (site_server k front) reqs = Ok (res, []) /\
              owner_results sm nodes configs cfg reqs listing res.
Proof.
  intros ND Hl D Hp Hserv Ha Hex. destruct (forwarded_complete listing ND Hl D Hp Hserv Ha Hex) as (res & E & R).
  exists res. split; [|exact R]. apply (answered_here k front front_keeps). rewrite front_world, front_cfg. exact E.
Qed.
End Owners.
End Stored.

(* the servers of the examples meet the assumptions *)
Lemma node_at_sound path : path = "/fdb/x.data"%string \/ path = "/fdb/y.data"%string -> sound_node (node_at path).
Proof.
  intros Hpath. split.
  - cbn [node_at n_outside n_cache n_paths].
    split; [exact raw_consistent|]. split; [exact zeros_length|]. split.
    { intros b off. cbn [o_grib_at file_at]. unfold ex_eccodes.
      repeat match goal with |- context [if ?c then _ else _] => destruct c end; (split; [discriminate|]);
        intros k Hk; try discriminate; injection Hk as <-; apply codes_of_defined. }
    split; [exact by_offset_sorts|]. split; [cbn; lia|]. split.
    { intros p b H. cbn in H. destruct (String.eqb p path); [|discriminate]. injection H as <-. reflexivity. }
    split.
    + apply plain_names_apart; [intros p ->; destruct Hpath as [-> | ->]; reflexivity|intros p q -> -> _; reflexivity].
    + intros p q -> ->. destruct Hpath as [-> | ->]; vm_compute; discriminate.
  - intros p offs. exists (fun _ => None), 2, [], []. split; [lia|]. split.
    + intros q _. exists []. split; [left; auto|constructor].
    + split; [constructor|reflexivity].
Qed.
Lemma data_nodes_sound ep : sound_node (data_node ep) /\ s_world (data_site ep) = node_world (data_node ep).
Proof. split; [|reflexivity]. unfold data_node. destruct (ep_eqb _ _); apply node_at_sound; auto. Qed.
