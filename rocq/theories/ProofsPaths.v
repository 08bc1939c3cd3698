From Coq Require Import Lia Permutation Sorted.
From Verif Require Import Base BaseLemmas ModelRange ModelInfo ModelSimple ModelStream SpecStream ModelJumper
  ModelStrings ModelCache ModelBuild ModelEngine ModelProtocol ModelRemote ModelForward SpecCache SpecJumper SpecBuild
  SpecEngine SpecRemote SpecForward SpecSystem SpecDeploy SpecPaths ProofsStrings ProofsEngine ProofsEngine2 ProofsEngine3
  ProofsProtocol ProofsRemote ProofsForward ProofsForward2 ProofsForward3 ProofsForward4 ProofsCache ProofsCache2 ProofsBuild
  ProofsBuild2 ProofsBuild3 ProofsSystem ProofsDeploy.
From Verif Require ModelApi SpecApi ProofsApi2.
Local Open Scope nat_scope.

(* ---- the texts of different places differ ---- *)

Lemma ends_plain_app a b : b <> ""%string -> ends_plain (a ++ b) = ends_plain b.
Proof.
  intros N. induction a as [|c a IH]; [reflexivity|]. cbn [String.append]. rewrite ends_plain_tail; [exact IH|].
  destruct a; [exact N|discriminate].
Qed.
Lemma app_assoc_s (a b c : string) : (a ++ b ++ c = (a ++ b) ++ c)%string.
Proof. induction a as [|x a IH]; [reflexivity|]. cbn. now rewrite IH. Qed.

Lemma p_string_inj r r' : has_char ":" (p_scheme r) = false -> has_char ":" (p_scheme r') = false ->
  p_string r = p_string r' -> p_scheme r = p_scheme r' /\ p_path r = p_path r' /\ p_offset r = p_offset r'.
Proof.
  intros H H' E. unfold p_string in E.
  set (d := decimal (Z.of_N (p_offset r))) in *. set (d' := decimal (Z.of_N (p_offset r'))) in *.
  assert (X : forall s p t, (s ++ ":" ++ p ++ "#" ++ t = (s ++ ":" ++ p ++ "#") ++ t)%string).
  { intros s p t. rewrite !app_assoc_s. reflexivity. }
  rewrite !X in E.
  assert (Y : forall s p, ends_plain (s ++ ":" ++ p ++ "#") = true).
  { intros s p. rewrite ends_plain_app by (destruct p; discriminate).
    change (":" ++ p ++ "#")%string with (String ":" (p ++ "#")). rewrite ends_plain_tail by (destruct p; discriminate).
    rewrite ends_plain_app by discriminate. reflexivity. }
  destruct (split_unique _ _ _ _ E (Y _ _) (Y _ _) (decimal_numeric _) (decimal_numeric _)) as [E1 E2].
  apply decimal_inj in E2. apply N2Z.inj in E2.
  destruct (has_char_cons_app ":" (p_scheme r) (p_path r ++ "#") (p_scheme r') (p_path r' ++ "#") H H' E1) as [E3 E4].
  apply append_inj_r in E4. auto.
Qed.

Theorem distinct_texts l : plain_schemes l -> distinct_places l -> NoDup (map p_string l).
Proof.
  intros Hs Hd. apply (NoDup_map_by (fun r => (p_path r, p_offset r))); [exact Hd|].
  intros x y Ix Iy E. unfold plain_schemes in Hs. rewrite Forall_forall in Hs.
  destruct (p_string_inj x y (Hs x Ix) (Hs y Iy) E) as (_ & -> & ->). reflexivity.
Qed.

Section Paths.
Context {F M : Type}.
Notation items := (list (string * @item F)).

(* ---- the task of one file at a node ---- *)

Lemma node_extracts (n : node F) ignore_grid (its : items) p keys js :
  sound_node n -> g_lazy (n_cache n) = true -> jobs its keys = Ok js -> NoDup (map snd js) ->
  js <> [] -> n_paths n p ->
  (forall j, In j js -> exists m S bytes, message_of n p (snd j) m S bytes /\
     good_request (Z.to_N (m_points m)) (r_ranges (it_request (snd (fst j)))) /\
     (ignore_grid = false -> m_md5 m <> ""%string /\ r_hash (it_request (snd (fst j))) = m_md5 m)) ->
  exists out, extract_file (node_world n) ignore_grid its p keys = Ok out.
Proof.
  intros [Hs Hst] Hz Ej NDo Ne HP Hj. set (o := n_outside n) in *.
  unfold extract_file, file_task. rewrite Ej. cbn [obind].
  unfold node_world. cbn [w_arith w_aec w_cache_get w_files w_sorter world_of]. fold o.
  pose proof Hs as (_ & _ & _ & Hsort & _). destruct (Hsort js) as [Pj _].
  set (sorted := o_sorter o js) in *.
  destruct js as [|j0 js']; [contradiction|].
  destruct (Hj j0 (or_introl eq_refl)) as (m1 & S1 & bytes & (Hfile & _) & _). fold o in Hfile.
  assert (Hj' : forall j, In j sorted -> exists m S, message_at (o_aec_full o) (o_grib_at o) bytes (snd j) m S /\
     good_request (Z.to_N (m_points m)) (r_ranges (it_request (snd (fst j)))) /\
     (ignore_grid = false -> m_md5 m <> ""%string /\ r_hash (it_request (snd (fst j))) = m_md5 m)).
  { intros j Ij. apply (Permutation_in _ (Permutation_sym Pj)) in Ij.
    destruct (Hj j Ij) as (m & S & bytes' & (Hfile' & Hm) & Hg & Hh).
    fold o in Hfile', Hm. rewrite Hfile in Hfile'. injection Hfile' as <-. eauto 10. }
  assert (Hd : forall off, In off (map snd sorted) -> exists i, describe o p off = Ok i).
  { intros off Io. apply in_map_iff in Io. destruct Io as (j & <- & Ij).
    destruct (Hj' j Ij) as (m & S & Hm & _).
    destruct (describe_message o (n_cache n) (n_paths n) Hs _ _ _ _ _ Hfile Hm) as (i & Hi & _). eauto. }
  destruct (lookup_answers o (n_cache n) (n_paths n) Hs (n_state n p (map snd sorted)) p (map snd sorted)
              (Hst _ _) HP Hz) as (infos & Hg).
  { eapply Permutation_NoDup; [apply Permutation_map; exact Pj|exact NDo]. }
  { exact Hd. }
  rewrite Hg. cbn [obind]. rewrite Hfile.
  pose proof (lookup_true o (n_cache n) (n_paths n) Hs _ _ _ _ (Hst _ _) HP Hg) as HF.
  assert (Ij0 : In j0 sorted) by (eapply Permutation_in; [exact Pj|now left]).
  destruct (Hd (snd j0) (in_map snd _ _ Ij0)) as (i0 & _).
  set (inf := fun p off => match describe o p off with Ok i => i | _ => i0 end).
  replace infos with (map (inf p) (map snd sorted)).
  2:{ clear -HF. induction HF as [|y z l l' H _ IH]; cbn [map]; [reflexivity|]. unfold inf at 1. now rewrite H, IH. }
  apply (extract_loop_ok (o_arith o) (o_aec o) (mk_config false false ignore_grid false false) inf bytes p sorted).
  intros j Ij. cbn zeta. destruct (Hj' j Ij) as (m & S & Hm & Hgr & Hh).
  destruct (describe_message o (n_cache n) (n_paths n) Hs _ _ _ _ _ Hfile Hm) as (i & Hi & Hmd & Hx).
  unfold inf. rewrite Hi. cbn [c_ignore_grid]. split; [|apply Hx, Hgr].
  intros Hig. destruct (Hh Hig) as [H1 H2]. rewrite H2, Hmd. auto.
Qed.

(* an answer read at a node is what the message stores *)
Lemma own_path_result (n : node F) ignore_grid r x : sound_node n ->
  own_answer (w_arith (node_world n)) (w_aec (node_world n)) (w_files (node_world n)) (w_true_info (node_world n))
    ignore_grid (p_uri r) (p_request r) x ->
  path_result n ignore_grid r x.
Proof.
  intros Hn A.
  assert (L : (p_offset r < two63)%N).
  { destruct A as (bytes & off & inf & _ & Ho & _). unfold p_uri in Ho. cbn [u_offset] in Ho.
    destruct (N.ltb_spec (p_offset r) two63) as [L|L]; [exact L|discriminate]. }
  split; [exact L|]. intros m S bytes HP [Hf Hm].
  apply (own_stored n ignore_grid (mk_listed [] (p_uri r)) (p_request r) x Hn A m S bytes (Z.of_N (p_offset r))).
  split; [exact HP|]. split; [exact Hf|]. split; [|exact Hm].
  unfold p_uri. cbn [l_uri u_offset]. now rewrite (proj2 (N.ltb_lt _ _) L).
Qed.

(* ---- at one node ---- *)
Theorem paths_stored (n : node F) cfg r0 rest res : sound_node n ->
  p_host r0 = ""%string -> p_port r0 = 0%Z -> c_inefficient cfg = false ->
  extract_path_requests (node_world n) cfg (r0 :: rest) = Ok res ->
  Forall2 (path_result n (c_ignore_grid cfg)) (r0 :: rest) res.
Proof.
  intros Hn Hh Hp Hi H. pose proof Hn as [Hs Hst].
  pose proof (sound_system (n_outside n) (n_cache n) (n_paths n) Hs (n_state n) Hst) as [W1 W2].
  fold (node_world n) in W1, W2. set (w := node_world n) in *.
  destruct (local_paths_answers (w_arith w) (w_aec w) (w_cache_get w) (w_files w) (w_sorter w) (w_build_info w)
              (w_pieces w) (w_fresh w) (w_forward w) (w_list w) (w_true_info w) cfg r0 rest res W1 W2 Hh Hp H) as [_ Fa].
  eapply Forall2_impl; [|exact Fa]. cbv beta. intros r x [A|[A _]]; [|congruence].
  exact (own_path_result n _ r x Hn A).
Qed.

(* ---- the items and groups of path requests ---- *)
Section Groups.
Variable reqs : list path_request.
Hypothesis Hd : distinct_places reqs.
Hypothesis Hp : plain_schemes reqs.
Hypothesis Ho : forall r, In r reqs -> (p_offset r < two63)%N.
Notation its := (build_uris_map (F := F) reqs).
Notation fm := (file_map_from_paths its).

Lemma path_entries : its = map (fun r => (p_string r, set_uri (p_uri r) (new_item (F := F) (p_request r)))) reqs.
Proof.
  assert (G : forall l (m : items), NoDup (map fst m ++ map p_string l) ->
    fold_left (fun (m : items) r => semplace (p_string r) (set_uri (p_uri r) (new_item (F := F) (p_request r))) m) l m
    = m ++ map (fun r => (p_string r, set_uri (p_uri r) (new_item (F := F) (p_request r)))) l).
  { induction l as [|r l IH]; intros m ND; cbn [fold_left map]; [now rewrite app_nil_r|].
    rewrite semplace_new.
    - rewrite IH; [now rewrite <- app_assoc|]. rewrite map_app. cbn [map fst]. rewrite <- app_assoc. exact ND.
    - destruct (sfind (p_string r) m) as [i|] eqn:E; [exfalso|reflexivity].
      apply sfind_key in E. cbn [map] in ND. apply NoDup_remove_2 in ND. apply ND, in_or_app. now left. }
  unfold build_uris_map. rewrite G; [reflexivity|]. cbn. apply distinct_texts; assumption.
Qed.
Lemma path_keys : map fst its = map p_string reqs.
Proof. rewrite path_entries, map_map. reflexivity. Qed.
Lemma path_keys_nodup : NoDup (map fst its).
Proof. rewrite path_keys. apply distinct_texts; assumption. Qed.

Lemma path_group p ks x : In (p, ks) fm -> In x ks ->
  exists r, In r reqs /\ x = p_string r /\ p_path r = p /\
            sfind x its = Some (set_uri (p_uri r) (new_item (p_request r))).
Proof.
  intros I Ix. destruct (proj2 (proj1 (paths_groups_ok its path_keys_nodup)) p ks x I Ix) as (i & Ei & Ep).
  destruct (pfold_items reqs x i Ei) as (r & Ir & Ex & ->). exists r. cbn in Ep. auto.
Qed.
Lemma path_group_nonempty p ks : In (p, ks) fm -> ks <> [].
Proof.
  intros I. rewrite file_map_from_paths_map in I. pose proof (paths_partition its) as (_ & _ & G).
  apply in_map_iff in I. destruct I as ([g xs] & [= <- <-] & I). destruct (G _ _ I) as [Nx _].
  cbn [snd]. destruct xs; [contradiction|discriminate].
Qed.
Lemma path_jobs p ks : In (p, ks) fm -> exists js, jobs its ks = Ok js /\ NoDup (map snd js) /\ js <> [] /\
  forall j, In j js -> exists r, In r reqs /\ p_path r = p /\ snd j = Z.of_N (p_offset r) /\
    snd (fst j) = set_uri (p_uri r) (new_item (p_request r)).
Proof.
  intros I. destruct (jobs_exist its ks) as (js & Ej).
  { intros x Ix. destruct (path_group p ks x I Ix) as (r & Ir & _ & _ & Ef).
    exists (set_uri (p_uri r) (new_item (p_request r))), (Z.of_N (p_offset r)). split; [exact Ef|].
    unfold p_uri. cbn [it_uri set_uri u_offset]. now rewrite (proj2 (N.ltb_lt _ _) (Ho r Ir)). }
  exists js. split; [exact Ej|].
  assert (J : forall j, In j js -> exists r, In r reqs /\ p_path r = p /\ snd j = Z.of_N (p_offset r) /\
    fst (fst j) = p_string r /\ snd (fst j) = set_uri (p_uri r) (new_item (p_request r))).
  { intros j Ij. assert (Jk : In (fst (fst j)) ks).
    { rewrite <- (jobs_keys _ _ _ Ej). apply (in_map (fun j => fst (fst j))) in Ij. exact Ij. }
    destruct (path_group p ks _ I Jk) as (r & Ir & Ex & Ep & Ef).
    destruct (proj1 (Forall_forall _ _) (jobs_ok _ _ _ Ej) j Ij) as [J1 J2]. rewrite Ef in J1. injection J1 as J1.
    exists r. split; [exact Ir|]. split; [exact Ep|]. split; [|now split].
    rewrite <- J1 in J2. unfold p_uri in J2. cbn [it_uri set_uri u_offset] in J2.
    rewrite (proj2 (N.ltb_lt _ _) (Ho r Ir)) in J2. now injection J2 as <-. }
  split; [|split].
  - apply (NoDup_map_by (fun j => fst (fst j))).
    + rewrite (jobs_keys _ _ _ Ej). eapply nodup_concat; [exact (proj1 (proj1 (paths_groups_ok its path_keys_nodup)))|].
      apply (in_map snd) in I. exact I.
    + intros j j' Ij Ij' E. destruct (J j Ij) as (r & Ir & Ep & Eo & -> & _).
      destruct (J j' Ij') as (r' & Ir' & Ep' & Eo' & -> & _). f_equal.
      apply (map_inj_in (fun r => (p_path r, p_offset r)) reqs r r' Hd Ir Ir'). f_equal; [congruence|].
      apply N2Z.inj. congruence.
  - intros ->. pose proof (jobs_keys _ _ _ Ej) as K. cbn in K. symmetry in K. exact (path_group_nonempty p ks I K).
  - intros j Ij. destruct (J j Ij) as (r & A & B & C & _ & E). exists r. auto.
Qed.

(* results that were left are collected *)
Lemma paths_collected (its2 : items) : map fst its2 = map fst its ->
  (forall x i2, sfind x its2 = Some i2 -> exists i, sfind x its = Some i /\
     it_request i2 = it_request i /\ (it_result i <> None -> it_result i2 <> None)) ->
  exists res, collect_results (map p_string reqs) (collect_items its2) = Ok res.
Proof.
  intros K2 R2. pose proof (distinct_texts reqs Hp Hd) as ND.
  assert (Q : forall x i2, sfind x its2 = Some i2 -> x = r_string (it_request i2) /\ it_result i2 <> None).
  { intros x i2 E. destruct (R2 x i2 E) as (i & Ei & Er & Ex).
    destruct (pfold_items reqs x i Ei) as (r & Ir & -> & ->). cbn in Er, Ex. rewrite Er. split; [reflexivity|].
    apply Ex. discriminate. }
  assert (W2 : wf_items its2).
  { split; [rewrite K2; exact path_keys_nodup|]. intros x i2 E. symmetry. exact (proj1 (Q x i2 E)). }
  unfold collect_results. replace (lenN (collect_items its2) =? lenN (map p_string reqs))%N with true.
  - cbn [assert_ obind]. apply take_all_ok; [exact ND|]. intros x Ix. rewrite collect_items_find by exact W2.
    rewrite <- path_keys, <- K2 in Ix. destruct (sfind_some _ _ Ix) as (i & Ei). exists i.
    destruct (Q x i Ei) as [_ N]. destruct (it_result i) as [r|]; [eauto|contradiction].
  - symmetry. apply N.eqb_eq. rewrite collect_items_perm by exact W2. unfold lenN.
    rewrite <- (Permutation_length (in_key_order_perm its2)).
    rewrite <- (map_length fst its2), K2, path_keys. reflexivity.
Qed.

Lemma path_groups_exist : reqs <> [] -> fm <> [].
Proof.
  clear Ho. intros Ne E. pose proof (proj2 (paths_groups_ok its path_keys_nodup)) as P. rewrite E in P. cbn in P.
  apply Permutation_sym, Permutation_nil in P. rewrite path_keys in P. destruct reqs; [contradiction|discriminate].
Qed.
End Groups.

Theorem paths_complete (n : node F) cfg r0 rest : let reqs := r0 :: rest in
  sound_node n -> g_lazy (n_cache n) = true -> p_host r0 = ""%string -> p_port r0 = 0%Z -> c_inefficient cfg = false ->
  distinct_places reqs -> plain_schemes reqs ->
  Forall (fun r => p_scheme r <> "fdb"%string /\ path_fine n (c_ignore_grid cfg) r) reqs ->
  exists res, extract_path_requests (node_world n) cfg reqs = Ok res /\
              Forall2 (path_result n (c_ignore_grid cfg)) reqs res.
Proof.
  intros reqs Hn Hz Hh Hpt Hi Hd Hp Hf. rewrite Forall_forall in Hf.
  assert (Ho : forall r, In r reqs -> (p_offset r < two63)%N) by (intros r Ir; apply (Hf r Ir)).
  assert (Ex : exists res, extract_path_requests (node_world n) cfg reqs = Ok res).
  { unfold extract_path_requests, local_extract_paths, reqs. fold reqs. rewrite Hh, Hpt. cbn [String.eqb andb Z.eqb negb].
    set (its := build_uris_map reqs). set (fm := file_map_from_paths its).
    assert (Ht : forall g, In g (in_key_order fm) -> exists out,
      task_for (w_arith (node_world n)) (w_aec (node_world n)) (w_cache_get (node_world n)) (w_files (node_world n))
        (w_sorter (node_world n)) (w_build_info (node_world n)) (w_pieces (node_world n)) (w_fresh (node_world n)) cfg its g
      = Ok (Ok out)).
    { intros [p ks] I. apply ordered_in in I. unfold task_for. cbn [fst snd].
      destruct ks as [|x ks]; [destruct (path_group_nonempty reqs p [] I eq_refl)|].
      destruct (path_group reqs Hd Hp p _ x I (or_introl eq_refl)) as (r & Ir & Ex & Ep & Ef).
      unfold get_item. fold its in Ef. rewrite Ef. cbn [obind it_uri set_uri].
      destruct (Hf r Ir) as [Ns _]. unfold is_remote, p_uri. cbn [u_scheme].
      destruct (String.eqb_spec (p_scheme r) "fdb"); [contradiction|].
      destruct (path_jobs reqs Hd Hp Ho p _ I) as (js & Ej & NDo & Ne & Hj).
      destruct (node_extracts n (c_ignore_grid cfg) its p (x :: ks) js Hn Hz Ej NDo Ne) as (out & Eo).
      - rewrite <- Ep. apply (Hf r Ir).
      - intros j Ij. destruct (Hj j Ij) as (r' & Ir' & Ep' & Eo & Ei).
        destruct (Hf r' Ir') as (_ & _ & _ & m & S & bytes & Hm & Hg & Hh'). exists m, S, bytes.
        rewrite Eo, Ei, <- Ep'. cbn [it_request set_uri new_item p_request r_ranges r_hash]. auto.
      - exists out. f_equal. exact Eo. }
    unfold schedule.
    assert (Hm : forall l, (forall g, In g l -> In g (in_key_order fm)) -> exists outs,
      mapM (task_for (w_arith (node_world n)) (w_aec (node_world n)) (w_cache_get (node_world n)) (w_files (node_world n))
        (w_sorter (node_world n)) (w_build_info (node_world n)) (w_pieces (node_world n)) (w_fresh (node_world n)) cfg its) l
      = Ok (map Ok outs) /\ length outs = length l).
    { induction l as [|g l IH]; intros Hl; [now exists []|]. destruct (Ht g (Hl g (or_introl eq_refl))) as (out & Eo).
      destruct IH as (outs & Eo' & Lo); [intros; apply Hl; now right|]. exists (out :: outs). cbn [mapM]. rewrite Eo. cbn [obind].
      rewrite Eo'. cbn [obind map length]. auto. }
    destruct (Hm (in_key_order fm) (fun g I => I)) as (outs & Em & Lo). rewrite Em. cbn [obind].
    replace (negb (lenN (map Ok outs) =? 0)%N) with true.
    2:{ symmetry. apply negb_true_iff, N.eqb_neq. unfold lenN. rewrite map_length, Lo.
        rewrite <- (Permutation_length (in_key_order_perm fm)).
        assert (X : reqs <> []) by (unfold reqs; discriminate). apply (path_groups_exist reqs Hd Hp) in X. fold its fm in X.
        destruct fm; [contradiction|cbn; lia]. }
    cbn [assert_ obind]. rewrite run_tasks_all_ok. cbn [obind raise_errors].
    pose proof (run_tasks_keeps _ _ _ _ (run_tasks_all_ok outs its)) as [K2 R2].
    exact (paths_collected reqs Hd Hp _ K2 R2). }
  destruct Ex as (res & E). exists res. split; [exact E|]. exact (paths_stored n cfg r0 rest res Hn Hh Hpt Hi E).
Qed.

(* ---- handed on to the owners ---- *)
Section Owners.
Variable k : link F M.
Variable sm : list (endpoint * endpoint).
Variable sites : endpoint -> site F M.
Variable nodes : endpoint -> node F.
Variable connect : endpoint -> list (tok F) -> outcome (list (tok F)).
Variable w : world F.
Hypothesis link_ok : sound_link k.
Hypothesis sorter_ok : sorts (w_sorter w).
Hypothesis nodes_ok : forall ep, sound_node (nodes ep) /\ s_world (sites ep) = node_world (nodes ep).
Hypothesis connected : forall ep, connect ep = site_server k (sites ep).
Notation configs := (fun ep => s_cfg (sites ep)).
Notation fw := (forwarding k sm connect w).

Theorem paths_at_owners cfg r0 rest res : asks_to_forward r0 -> placed_paths (r0 :: rest) ->
  extract_path_requests fw cfg (r0 :: rest) = Ok res ->
  Forall2 (owner_path_result sm nodes configs) (r0 :: rest) res.
Proof.
  intros Hf P H.
  pose proof (paths_forwarded k sm sites connect w link_ok sorter_ok (sites_sound sites nodes nodes_ok) connected
                cfg r0 rest res Hf P H) as Fa.
  eapply Forall2_impl; [|exact Fa]. cbv beta. intros r x (ep & Ep & A). exists ep. split; [exact Ep|].
  destruct (nodes_ok ep) as [Hn Ew]. cbn zeta in A. rewrite Ew in A. exact (own_path_result (nodes ep) _ r x Hn A).
Qed.

Lemma distinct_placed reqs : distinct_places reqs -> one_place_each reqs ->
  (forall r, In r reqs -> (p_offset r < two63)%N) -> placed_paths reqs.
Proof.
  intros Hd H1 Ho. unfold placed_paths, placed.
  assert (U : forall r, In r reqs -> u_offset (p_uri r) = Ok (Z.of_N (p_offset r))).
  { intros r Ir. unfold p_uri. cbn [u_offset]. now rewrite (proj2 (N.ltb_lt _ _) (Ho r Ir)). }
  split.
  - intros x u I. apply in_map_iff in I. destruct I as (r & [= <- <-] & Ir). rewrite (U r Ir). eauto.
  - intros x u x' u' I I' E. apply in_map_iff in I. destruct I as (r & [= <- <-] & Ir).
    apply in_map_iff in I'. destruct I' as (r' & [= <- <-] & Ir'). cbn [p_uri u_path] in E. split.
    + unfold location, p_uri. cbn [u_host u_port]. destruct (H1 r r' Ir Ir' E) as [-> ->]. reflexivity.
    + rewrite (U r Ir), (U r' Ir'). intros [= E2]. apply N2Z.inj in E2. f_equal.
      apply (map_inj_in (fun r => (p_path r, p_offset r)) reqs r r' Hd Ir Ir'). congruence.
Qed.

Theorem paths_at_owners_complete cfg r0 rest : let reqs := r0 :: rest in
  asks_to_forward r0 -> distinct_places reqs -> plain_schemes reqs -> one_place_each reqs ->
  Forall (owner_path_fine sm nodes configs) reqs ->
  exists res, extract_path_requests fw cfg reqs = Ok res /\ Forall2 (owner_path_result sm nodes configs) reqs res.
Proof.
  intros reqs Ha Hd Hp H1 Hf. rewrite Forall_forall in Hf.
  assert (Ho : forall r, In r reqs -> (p_offset r < two63)%N).
  { intros r Ir. destruct (Hf r Ir) as (ep & _ & _ & L & _). exact L. }
  pose proof (distinct_placed reqs Hd H1 Ho) as Pl.
  assert (Ex : exists res, extract_path_requests fw cfg reqs = Ok res).
  { unfold extract_path_requests, local_extract_paths, reqs. fold reqs. rewrite (asks_forward r0 Ha).
    unfold schedule, forwarding. cbn [w_forward].
    set (its := build_uris_map reqs). set (fm := file_map_from_paths its).
    assert (NDf : NoDup (map fst fm)).
    { unfold fm. rewrite file_map_from_paths_map. pose proof (paths_partition its) as (NDg & _). rewrite map_map. exact NDg. }
    assert (Wf : forwardable its fm).
    { split; [exact NDf|]. split; [refine (path_groups_exist reqs Hd Hp _); unfold reqs; discriminate|].
      intros f ks I. split; [exact (path_group_nonempty reqs f ks I)|].
      destruct (path_jobs reqs Hd Hp Ho f ks I) as (js & Ej & NDo & _). exists js. auto. }
    destruct (forwarding_succeeds k sm sites connect (w_sorter w) link_ok sorter_ok
                (fun ep => proj1 (sites_sound sites nodes nodes_ok ep)) connected its fm Wf) as (its2 & Es).
    - intros [p ks] I. destruct ks as [|x ks]; [destruct (path_group_nonempty reqs p [] I eq_refl)|].
      destruct (path_group reqs Hd Hp p _ x I (or_introl eq_refl)) as (r & Ir & Ex & Ep & Ef).
      destruct (Hf r Ir) as (ep & Ee & _). exists ep, x, ks. split; [reflexivity|]. exists (set_uri (p_uri r) (new_item (p_request r))). auto.
    - intros [p ks] ep I (x & ks' & E & i & Ei & Eep). cbn [snd] in E. subst ks.
      destruct (path_group reqs Hd Hp p _ x I (or_introl eq_refl)) as (r & Ir & Ex & Ep & Ef).
      fold its in Ef. rewrite Ef in Ei. injection Ei as <-. unfold location, p_uri in Eep. cbn [it_uri set_uri u_host u_port] in Eep.
      destruct (path_jobs reqs Hd Hp Ho p _ I) as (js & Ej & NDo & Ne & Hj). destruct (nodes_ok ep) as [Hn Ew].
      unfold site_extracts. cbn [fst snd]. rewrite Ew.
      destruct (Hf r Ir) as (ep' & Ee & Hz & _ & HP & _). assert (ep' = ep) by congruence. subst ep'.
      apply (node_extracts (nodes ep) _ its p (x :: ks') js Hn Hz Ej NDo Ne); [now rewrite <- Ep|].
      intros j Ij. destruct (Hj j Ij) as (r' & Ir' & Ep' & Eo & Ei).
      destruct (Hf r' Ir') as (ep' & Ee' & _ & _ & _ & m & S & bytes & Hm & Hg & Hh).
      destruct (H1 r r' Ir Ir' ltac:(congruence)) as [Eh Ept]. rewrite <- Eh, <- Ept in Ee'. assert (ep' = ep) by congruence. subst ep'.
      exists m, S, bytes. rewrite Eo, Ei, <- Ep'. cbn [it_request set_uri new_item p_request r_ranges r_hash]. auto.
    - rewrite Es. cbn [obind raise_errors]. destruct (forwards_keep _ _ _ _ _ _ _ _ Es) as [K2 R2].
      exact (paths_collected reqs Hd Hp _ K2 R2). }
  destruct Ex as (res & E). exists res. split; [exact E|]. exact (paths_at_owners cfg r0 rest res Ha Pl E).
Qed.
End Owners.

(* ---- one file, a list of offsets, no cache ---- *)
Theorem direct_stored (n : node F) path offs ranges res : sound_node n ->
  path <> ""%string -> offs <> [] -> length offs = length ranges ->
  node_direct n path offs ranges = Ok res -> Forall2 (offset_result n path) (combine offs ranges) res.
Proof.
  intros Hn Hp Ho Hl H. unfold node_direct in H. apply ProofsApi2.direct_pairs in H; [|exact Hp|exact Ho|exact Hl].
  destruct H as (bytes & Hf & Fa). eapply Forall2_impl; [|exact Fa]. cbv beta.
  intros [off l] x (inf & Hi & Hx) m S bytes' [Hf' Hm] Hg. cbn [fst snd] in *.
  rewrite Hf in Hf'. injection Hf' as <-. destruct Hn as [Hs _]. pose proof Hs as (Hcons & Hfresh & _).
  destruct (stored_values (o_arith (n_outside n)) (o_aec (n_outside n)) (o_aec_full (n_outside n)) (o_fresh (n_outside n))
              (o_grib_at (n_outside n)) Hcons Hfresh bytes off m S l Hm Hg) as (inf' & x' & Hb & Hx' & Hst).
  unfold describe, extract_info, open_file in Hi. rewrite Hf in Hi. cbn [obind] in Hi.
  rewrite Hb in Hi. injection Hi as <-. rewrite Hx in Hx'. injection Hx' as <-. exact Hst.
Qed.
Theorem direct_complete (n : node F) path offs ranges : sound_node n ->
  path <> ""%string -> offs <> [] -> length offs = length ranges ->
  Forall (offset_fine n path) (combine offs ranges) ->
  exists res, node_direct n path offs ranges = Ok res /\ Forall2 (offset_result n path) (combine offs ranges) res.
Proof.
  intros Hn Hp Ho Hl Hf.
  assert (Ex : exists res, node_direct n path offs ranges = Ok res).
  { assert (Q : exists bytes, o_files (n_outside n) path = Some bytes).
    { destruct offs as [|o offs]; [contradiction|]. destruct ranges as [|l ranges]; [discriminate|].
      cbn [combine] in Hf. inversion Hf as [|? ? (m & S & bytes & [Hb _] & _) _]. eauto. }
    destruct Q as (bytes & Hb).
    assert (X : exists res, Forall2 (SpecApi.extraction_at (o_arith (n_outside n)) (o_aec (n_outside n)) (describe (n_outside n)) path bytes)
                              (combine offs ranges) res).
    { clear Hl Ho. induction Hf as [|[off l] qs (m & S & bytes' & [Hb' Hm] & Hg) _ IH]; [eexists; constructor|].
      destruct IH as (res & Fa). rewrite Hb in Hb'. injection Hb' as <-. cbn [fst snd] in *. destruct Hn as [Hs _].
      destruct (describe_message _ _ _ Hs path off m S bytes Hb Hm) as (i & Hi & _ & Hx). destruct (Hx l Hg) as (x & Ex).
      exists (x :: res). constructor; [|exact Fa]. exists i. auto. }
    destruct X as (res & Fa). exists res. apply ProofsApi2.direct_pairs; auto. eauto. }
  destruct Ex as (res & E). exists res. split; [exact E|]. exact (direct_stored n path offs ranges res Hn Hp Ho Hl E).
Qed.
End Paths.
