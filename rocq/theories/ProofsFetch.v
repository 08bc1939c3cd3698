(* Users of path requests in Python and C and of extract_single, for C112. *)
From Coq Require Import Lia QArith.
From Verif Require Import Base BaseLemmas ModelStrings ModelInfo ModelSimple ModelJumper ModelEngine ModelApi ModelRust ModelPython ModelUser ModelClient ModelFetch
     SpecEngine SpecJumper SpecBuild SpecApi SpecPython SpecSystem ModelRemote ModelForward SpecRemote SpecForward SpecDeploy SpecPaths SpecUser SpecClient SpecFetch
     ProofsApi ProofsPython ProofsPython2 ProofsUser ProofsClient ProofsDeploy ProofsPaths.
Local Open Scope nat_scope.

(* ---- the requests ---- *)
Lemma c_text_nul s t : c_text (s ++ String "000" t) = c_text s.
Proof. induction s as [|c s IH]; [reflexivity|]. cbn. destruct (Ascii.eqb c "000"); [reflexivity|]. now rewrite IH. Qed.
Lemma c_text_idem s : clean (c_text s).
Proof.
  unfold clean. induction s as [|c s IH]; [reflexivity|]. cbn. destruct (Ascii.eqb c "000") eqn:E; [reflexivity|]. cbn. now rewrite E, IH.
Qed.
Lemma hash_clean h : clean_hash h -> c_string (option_map c_text h) = hash_text h.
Proof. destruct h; cbn; auto. Qed.
Lemma size_t_ok x : (0 <= x < Z.of_N two64)%Z -> to_size_t x = Ok (Z.to_N x).
Proof. intros H. unfold to_size_t. destruct (Z.leb_spec 0 x), (Z.ltb_spec x (Z.of_N two64)); cbn [andb]; (reflexivity || lia). Qed.
Lemma size_t_some x v : to_size_t x = Ok v -> (0 <= x < Z.of_N two64)%Z /\ v = Z.to_N x.
Proof.
  unfold to_size_t. destruct (Z.leb_spec 0 x), (Z.ltb_spec x (Z.of_N two64)); cbn [andb]; intros E; try discriminate. injection E as <-. lia.
Qed.
Lemma int_ok x : (- 2 ^ 31 <= x < 2 ^ 31)%Z -> to_int x = Ok x.
Proof. intros H. unfold to_int. destruct (Z.leb_spec (- 2 ^ 31) x), (Z.ltb_spec x (2 ^ 31)); cbn [andb]; (reflexivity || lia). Qed.
Lemma int_bad x : ~ (- 2 ^ 31 <= x < 2 ^ 31)%Z -> to_int x = Throw EOutOfRange.
Proof. intros H. unfold to_int. destruct (Z.leb_spec (- 2 ^ 31) x), (Z.ltb_spec x (2 ^ 31)); cbn [andb]; (reflexivity || lia). Qed.
Lemma array_fits l : fits_memory l -> (lenN (laid_out (map to_n l)) < two64)%N.
Proof. unfold fits_memory, lenN. rewrite laid_out_length, map_length. lia. Qed.

Lemma path_request_ok a : proper_ask a -> fits_memory (f_ranges a) -> clean_ask a ->
  py_new_path_request a = Ok (mk_py_path_request (sizes (f_ranges a)) (means a)).
Proof.
  intros (Ne & G & Ho & Hp) Fi (C1 & C2 & C3 & C4). unfold py_new_path_request.
  pose proof (flatten_ranges_ok (f_ranges a) G) as E. pose proof (array_fits _ Fi) as Fa.
  unfold means. revert Ne E Fa. generalize (f_ranges a) as l. intros l Ne E Fa. destruct l as [|r0 l]; [congruence|].
  rewrite E. cbn [obind]. rewrite (size_t_ok _ Ho). cbn [obind]. rewrite (int_ok _ Hp). cbn [obind].
  rewrite new_path_request_ranges by exact Fa. cbn [checked obind]. rewrite (hash_clean _ C4).
  unfold clean in *. rewrite C1, C2, C3. reflexivity.
Qed.
Lemma proper_range_dec r : sumbool (proper_range r) (~ proper_range r).
Proof. exact (range_dec r). Qed.
Lemma path_request_bad a : ~ proper_ask a -> fits_memory (f_ranges a) -> exists e, py_new_path_request a = Throw e.
Proof.
  intros Np Fi. unfold py_new_path_request. destruct (f_ranges a) as [|r0 l] eqn:El; [eauto|]. rewrite <- El in *.
  destruct (Forall_Exists_dec _ proper_range_dec (f_ranges a)) as [G|B].
  2: { destruct (flatten_ranges_bad _ B) as [e ->]. cbn. eauto. }
  rewrite (flatten_ranges_ok _ G). cbn [obind]. destruct (to_size_t (f_offset a)) as [v|e|] eqn:Eo; cbn [obind]; [|eauto|].
  2: { unfold to_size_t in Eo. destruct (_ && _) in Eo; discriminate. }
  apply size_t_some in Eo as [Ho _]. rewrite int_bad; [cbn; eauto|]. intros Hp. apply Np. split; [rewrite El; discriminate|auto].
Qed.
Lemma proper_dec a : sumbool (proper_ask a) (~ proper_ask a).
Proof.
  unfold proper_ask. destruct (f_ranges a) as [|r0 l] eqn:El; [right; intros [H _]; congruence|]. rewrite <- El.
  destruct (Forall_Exists_dec _ proper_range_dec (f_ranges a)) as [G|B].
  2: { right. intros (_ & H & _). rewrite Exists_exists in B. destruct B as (x & I & X). rewrite Forall_forall in H. now apply X, H. }
  destruct (Z_le_dec 0 (f_offset a)), (Z_lt_dec (f_offset a) (Z.of_N two64)), (Z_le_dec (- 2 ^ 31) (f_port a)), (Z_lt_dec (f_port a) (2 ^ 31));
    (left; split; [rewrite El; discriminate|tauto]) || (right; tauto).
Qed.

Lemma path_requests_ok asks : Forall proper_ask asks -> Forall (fun a => fits_memory (f_ranges a)) asks -> Forall clean_ask asks ->
  mapM py_new_path_request asks = Ok (map (fun a => mk_py_path_request (sizes (f_ranges a)) (means a)) asks).
Proof.
  induction 1 as [|a asks P _ IH]; intros Fi Cl; inversion Fi; inversion Cl; subst; [reflexivity|].
  cbn [mapM map]. rewrite path_request_ok by assumption. cbn [obind]. now rewrite IH.
Qed.
Lemma path_requests_proper asks rs : Forall (fun a => fits_memory (f_ranges a)) asks -> mapM py_new_path_request asks = Ok rs -> Forall proper_ask asks.
Proof.
  intros Fi. revert rs. induction Fi as [|a asks Fa _ IH]; intros rs E; constructor; cbn [mapM] in E;
    destruct (py_new_path_request a) as [r|e|] eqn:Ea; cbn [obind] in E; try discriminate.
  - destruct (proper_dec a) as [H|H]; [exact H|]. destruct (path_request_bad a H Fa) as [e X]. congruence.
  - destruct (mapM py_new_path_request asks) as [rs'|e|]; cbn [obind] in E; try discriminate. eapply IH; eauto.
Qed.
Lemma path_requests_bad asks : Forall (fun a => fits_memory (f_ranges a)) asks -> Exists (fun a => ~ proper_ask a) asks ->
  exists e, mapM py_new_path_request asks = Throw e.
Proof.
  intros Fi Ex. destruct (mapM py_new_path_request asks) as [rs|e|] eqn:E; [|eauto|].
  - exfalso. pose proof (path_requests_proper _ _ Fi E) as Pr. rewrite Exists_exists in Ex. destruct Ex as (a & I & N).
    rewrite Forall_forall in Pr. apply N, Pr, I.
  - exfalso. clear Ex. revert E. induction Fi as [|a asks Fa _ IH]; cbn [mapM]; [discriminate|].
    destruct (py_new_path_request a) as [r|e|] eqn:Ea; cbn [obind]; [|discriminate|].
    + destruct (mapM py_new_path_request asks); cbn [obind]; try discriminate. auto.
    + intros _. unfold py_new_path_request in Ea. destruct (f_ranges a) as [|r0 l] eqn:El; [discriminate|]. rewrite <- El in *.
      destruct (Forall_Exists_dec _ proper_range_dec (f_ranges a)) as [G|B].
      2: { destruct (flatten_ranges_bad _ B) as [e X]. rewrite X in Ea. discriminate. }
      rewrite (flatten_ranges_ok _ G) in Ea. cbn [obind] in Ea.
      destruct (to_size_t (f_offset a)) as [v|e|] eqn:Eo; cbn [obind] in Ea; [|discriminate|].
      2: { unfold to_size_t in Eo. destruct (_ && _) in Eo; discriminate. }
      destruct (to_int (f_port a)) as [v'|e|] eqn:Ei; cbn [obind] in Ea; [|discriminate|].
      2: { unfold to_int in Ei. destruct (_ && _) in Ei; discriminate. }
      rewrite new_path_request_ranges in Ea by now apply array_fits. discriminate.
Qed.

Lemma every_at {X} (l : list X) : mapM (fun k => at_ l (N.of_nat k)) (seq 0 (length l)) = Ok l.
Proof.
  assert (forall pre, mapM (fun k => at_ (pre ++ l) (N.of_nat k)) (seq (length pre) (length l)) = Ok l) as Q.
  { induction l as [|r rs IH]; intros pre; cbn [map length seq mapM]; [reflexivity|].
    unfold at_ at 1. rewrite Nat2N.id, nth_error_app2, Nat.sub_diag by lia. cbn [nth_error obind].
    specialize (IH (pre ++ [r])). rewrite <- app_assoc in IH. cbn [app] in IH. rewrite app_length in IH. cbn [length] in IH.
    rewrite Nat.add_1_r in IH. rewrite IH. reflexivity. }
  exact (Q []).
Qed.

(* what is given to the C functions reaches the library, all of it and in order *)
Theorem c_passed_on {F W} (i : impl F W) reqs w :
  c_extract (Some i) reqs (lenN reqs) w = (let (r, w') := gj_extract i reqs w in (try_catch r, w')).
Proof. unfold c_extract, lenN. rewrite Nat2N.id, every_at. reflexivity. Qed.
Theorem c_paths_passed_on {F W} (i : impl F W) reqs w :
  c_extract_paths (Some i) reqs (lenN reqs) w = (let (r, w') := gj_extract_paths i reqs w in (try_catch r, w')).
Proof. unfold c_extract_paths, lenN. rewrite Nat2N.id, every_at. reflexivity. Qed.

Lemma sizes_shape l : Forall (fun r => 0 <= fst r /\ 0 <= snd r)%Z l -> sizes l = shape_of (in_n l).
Proof.
  unfold sizes, shape_of, in_n. rewrite map_map. intros H. apply map_ext_in. intros r I. rewrite Forall_forall in H.
  specialize (H r I). cbn. lia.
Qed.

(* ---- by file and offset ---- *)
Section Paths.
Context {F W : Type}.
Variable zero : F.
Variable n : node F.

Theorem python_paths_succeed (i : impl F W) asks w res w' : asks <> [] -> (lenN asks < two64)%N ->
  Forall proper_ask asks -> Forall (fun a => fits_memory (f_ranges a)) asks -> Forall clean_ask asks ->
  m_extract_paths i (map means asks) w = (Ok res, w') -> length res = length asks ->
  py_extract_paths i asks w = (Ok (combine res (map (fun a => sizes (f_ranges a)) asks)), w').
Proof.
  intros Ne L Pr Fi Cl E Lr. unfold py_extract_paths. rewrite path_requests_ok by assumption.
  set (rs := map _ asks). assert (map pp_ctype rs = map means asks) as E1 by (unfold rs; now rewrite map_map).
  assert (map pp_shape rs = map (fun a => sizes (f_ranges a)) asks) as E2 by (unfold rs; now rewrite map_map).
  assert (lenN rs = lenN (map means asks)) as E3 by (unfold rs, lenN; now rewrite !map_length).
  rewrite E1, E2, E3, c_paths_passed_on. unfold gj_extract_paths.
  destruct (map means asks) as [|m0 ms] eqn:Em; [apply map_eq_nil in Em; congruence|]. rewrite <- Em in *.
  unfold as_iterator, amap. rewrite E. cbn [fst snd omap obind try_catch checked].
  assert (length rs = length res) as -> by (unfold rs; rewrite map_length; congruence).
  rewrite python_iteration; [reflexivity| |rewrite map_length; congruence]. unfold lenN in *. now rewrite Lr.
Qed.
Theorem cut_at_nul a b : forall (i : impl F W) scheme off host port ranges hash w,
  py_extract_paths i [mk_path_ask (a ++ String "000" b) scheme off host port ranges hash] w =
  py_extract_paths i [mk_path_ask a scheme off host port ranges hash] w.
Proof.
  intros i scheme off host port ranges hash w. unfold py_extract_paths. cbn [mapM]. unfold py_new_path_request.
  cbn [f_path f_scheme f_offset f_host f_port f_ranges f_hash]. now rewrite c_text_nul.
Qed.
Theorem python_paths_refused (i : impl F W) asks w : Forall (fun a => fits_memory (f_ranges a)) asks ->
  asks = [] \/ Exists (fun a => ~ proper_ask a) asks -> exists e, py_extract_paths i asks w = (Throw e, w).
Proof.
  intros Fi [->|Ex]; [eexists; reflexivity|]. destruct (path_requests_bad _ Fi Ex) as [e E]. exists e.
  unfold py_extract_paths. now rewrite E.
Qed.

Lemma message_shown {X} (shows : grib F -> list N -> list N -> Z -> list (N * N) -> X -> Prop) ignore r x y :
  (forall m S bytes, supported m bytes (Z.of_N (p_offset r)) -> good_request (Z.to_N (m_points m)) (p_ranges r) ->
     stored_result m bytes (Z.of_N (p_offset r)) S (o_arith (n_outside n)) (p_ranges r) x -> shows m S bytes (Z.of_N (p_offset r)) (p_ranges r) y) ->
  path_result n ignore r x -> of_its_message n shows ignore r y.
Proof.
  intros H [B V]. split; [exact B|]. intros m S bytes Hp M. destruct (V m S bytes Hp M) as [G Q]. split; [exact G|].
  intros Gd. apply H; auto. eapply message_supported; eauto.
Qed.

Theorem python_paths_user ignore (i : impl F W) asks w out w' : (lenN asks < two64)%N ->
  Forall (fun a => fits_memory (f_ranges a)) asks -> Forall clean_ask asks ->
  right_paths n ignore i w (map means asks) -> py_extract_paths i asks w = (Ok out, w') ->
  Forall2 (python_path_sees zero n ignore) asks out.
Proof.
  intros L Fi Cl HI H. assert (asks <> []) as Ne by (intros ->; discriminate H).
  assert (Forall proper_ask asks) as Pr.
  { unfold py_extract_paths in H. destruct (mapM py_new_path_request asks) as [rs|e|] eqn:E; try discriminate.
    eapply path_requests_proper; eauto. }
  destruct (m_extract_paths i (map means asks) w) as [y w1] eqn:Em. destruct y as [res|e|].
  - pose proof (HI _ _ Em) as R. assert (length res = length asks) as Lr by (apply Forall2_length in R; rewrite map_length in R; congruence).
    rewrite (python_paths_succeed i asks w res w1) in H by assumption. injection H as <- <-.
    apply F2_map_l in R. clear Em L Ne Lr HI Cl Fi. revert Pr. induction R as [|a x asks res X R IH]; intros Pr; cbn [combine map]; constructor.
    + inversion Pr as [|? ? Pa _]; subst. unfold python_path_sees. eapply message_shown; [|exact X]. cbn [means p_ranges p_offset fst snd].
      intros m S bytes Su Gd St. rewrite sizes_shape.
      2: { destruct Pa as (_ & G & _). eapply Forall_impl; [|exact G]. unfold proper_range. cbn. lia. }
      now apply stored_seen.
    + inversion Pr; subst. auto.
  - exfalso. unfold py_extract_paths in H. rewrite path_requests_ok in H by assumption.
    set (rs := map (fun a => mk_py_path_request _ _) asks) in H. assert (map pp_ctype rs = map means asks) as E1 by (unfold rs; now rewrite map_map).
    assert (lenN rs = lenN (map means asks)) as E3 by (unfold rs, lenN; now rewrite !map_length).
    rewrite E1, E3, c_paths_passed_on in H. unfold gj_extract_paths in H. destruct (map means asks) as [|m0 ms] eqn:Ea; [discriminate H|].
    rewrite <- Ea in *. unfold as_iterator, amap in H. rewrite Em in H. discriminate H.
  - exfalso. unfold py_extract_paths in H. rewrite path_requests_ok in H by assumption.
    set (rs := map (fun a => mk_py_path_request _ _) asks) in H. assert (map pp_ctype rs = map means asks) as E1 by (unfold rs; now rewrite map_map).
    assert (lenN rs = lenN (map means asks)) as E3 by (unfold rs, lenN; now rewrite !map_length).
    rewrite E1, E3, c_paths_passed_on in H. unfold gj_extract_paths in H. destruct (map means asks) as [|m0 ms] eqn:Ea; [discriminate H|].
    rewrite <- Ea in *. unfold as_iterator, amap in H. rewrite Em in H. discriminate H.
Qed.

Lemma c_path_requests asks ls reqs : Forall2 (fun a lr => c_means a (fst lr) (snd lr)) asks (combine ls reqs) -> length ls = length reqs ->
  mapM (fun a : c_path_ask => let '(file, scheme, off, host, port, arr, hash) := a in
          checked (c_new_path_request true (Some file) (Some scheme) off (Some host) port (Some arr) (lenN arr) (Some hash))) asks = Ok reqs.
Proof.
  revert asks reqs. induction ls as [|l ls IH]; intros asks [|r reqs] H Lr; try discriminate; inversion H as [|? ? ? ? H1 H2]; subst; [reflexivity|].
  destruct x as [[[[[[file scheme] off] host] port] arr] hash]. destruct H1 as (-> & La & Er). cbn [fst snd] in *. subst r.
  cbn [mapM]. rewrite new_path_request_ranges by exact La. cbn [checked obind]. rewrite (IH _ _ H2) by (injection Lr; auto). reflexivity.
Qed.
Theorem c_paths_user ignore (i : impl F W) asks reqs w out w' : (lenN asks < two64)%N ->
  Forall2 (fun a r => c_means a (p_ranges r) r) asks reqs ->
  right_paths n ignore i w reqs -> c_fetch_paths i asks w = (Ok out, w') -> Forall2 (c_path_sees zero n ignore) reqs out.
Proof.
  intros L HA HI H. unfold c_fetch_paths in H. rewrite (c_path_requests asks (map p_ranges reqs) reqs) in H.
  2: { clear - HA. induction HA; cbn; constructor; auto. }
  2: apply map_length.
  rewrite c_paths_passed_on in H. unfold gj_extract_paths in H. destruct reqs as [|r0 rest]; [discriminate H|].
  set (reqs := r0 :: rest) in *. unfold as_iterator, amap in H. destruct (m_extract_paths i reqs w) as [y w1] eqn:Em. cbn [fst snd] in H.
  destruct y as [res|e|]; cbn [omap obind try_catch checked] in H; try discriminate H. pose proof (HI _ _ Em) as R.
  cbn [source_new s_data] in H. rewrite map_length, c_loop in H.
  2: { apply Forall2_length in R. apply Forall2_length in HA. unfold lenN in *. rewrite <- R, <- HA. exact L. }
  injection H as <- <-. eapply F2_imp; [|exact R]. intros r x X. eapply message_shown; [|exact X]. intros m S bytes Su Gd St. now apply c_of_stored.
Qed.
(* on this machine *)
Theorem machine_right_paths cfg (i : impl F W) reqs w : sound_node n -> c_inefficient cfg = false ->
  (forall rs, fst (m_extract_paths i rs w) = extract_path_requests (node_world n) cfg rs) ->
  Forall (fun r => p_host r = ""%string /\ p_port r = 0%Z) reqs -> reqs <> [] -> right_paths n (c_ignore_grid cfg) i w reqs.
Proof.
  intros Sn Ci HI Hh Ne res w' E. destruct reqs as [|r0 rest]; [congruence|]. inversion Hh as [|? ? [H1 H2] _]; subst.
  apply (f_equal fst) in E. rewrite HI in E. cbn [fst] in E. eapply paths_stored; eauto.
Qed.
End Paths.

(* ---- one request for many fields ---- *)
Lemma store_ranges_ok l : Forall (fun r => 0 <= fst r < Z.of_N two64 /\ 0 <= snd r < Z.of_N two64)%Z l ->
  store_ranges l = Ok (laid_out (in_n l), sizes l).
Proof.
  induction 1 as [|[lo hi] l [H1 H2] _ IH]; [reflexivity|]. cbn [store_ranges fst snd] in *.
  rewrite (size_t_ok lo H1), (size_t_ok hi H2). cbn [obind]. rewrite IH. reflexivity.
Qed.
Lemma store_ranges_some l x : store_ranges l = Ok x -> Forall (fun r => 0 <= fst r < Z.of_N two64 /\ 0 <= snd r < Z.of_N two64)%Z l.
Proof.
  revert x. induction l as [|[lo hi] l IH]; intros x E; constructor; cbn [store_ranges] in E;
    destruct (to_size_t lo) as [a|e|] eqn:E1; cbn [obind] in E; try discriminate;
    destruct (to_size_t hi) as [b|e|] eqn:E2; cbn [obind] in E; try discriminate.
  - apply size_t_some in E1, E2. cbn. tauto.
  - destruct (store_ranges l) as [y|e|]; cbn [obind] in E; try discriminate. eapply IH; eauto.
Qed.
Lemma store_ranges_defined l : store_ranges l <> UB.
Proof.
  induction l as [|[lo hi] l IH]; cbn [store_ranges]; [discriminate|]. unfold to_size_t.
  destruct (_ && _); cbn [obind]; [|discriminate]. destruct (_ && _); cbn [obind]; [|discriminate].
  destruct (store_ranges l) as [[]|e|]; cbn; congruence.
Qed.

Section Loop.
Context {F : Type}.
Variable rs : list (result F).
Hypothesis fits : (lenN rs < two64)%N.
Lemma single_for_after shape f : forall k, length rs <= k + f -> py_single_for f shape (Some (after rs k)) = Ok (map (fun x => (x, shape)) (skipn k rs)).
Proof.
  induction f as [|f IH]; intros k H; cbn [py_single_for c_next]; rewrite next_after by exact fits; cbn [obind];
    (destruct (nth_error rs k) as [r|] eqn:E; cbn [obind]; [|apply nth_error_None in E; now rewrite skipn_all2 by lia]).
  - assert (k < length rs) by (apply nth_error_Some; congruence). lia.
  - rewrite IH by lia. cbn. now rewrite (skip_nth rs k r E).
Qed.
Lemma single_loop shape : py_single_for (length rs) shape (Some (source_new (map Some rs))) = Ok (map (fun x => (x, shape)) rs).
Proof. rewrite <- (after_0 rs). now rewrite single_for_after by lia. Qed.
End Loop.

Section Single.
Context {F W : Type}.
Variable zero : F.
Variable o : outside F.
Variable P : string -> Prop.
Variable cfg : ModelEngine.config.


Lemma single_call parse flatten (i : impl F W) d s ranges hash w :
  clean (single_text d) -> clean_hash hash -> fits_memory ranges -> parse (single_text d) = Ok s ->
  Forall (fun r => 0 <= fst r < Z.of_N two64 /\ 0 <= snd r < Z.of_N two64)%Z ranges ->
  py_extract_single parse flatten i d ranges hash w =
    (let (r, w') := gj_extract i (single_requests flatten s ranges hash) w in
     (let* src := checked (try_catch r) in py_single_for (length (s_data src)) (sizes ranges) (Some src), w')).
Proof.
  intros C1 C2 Fi Hp G. unfold py_extract_single. rewrite (store_ranges_ok _ G). fold (single_text d). unfold clean in C1. rewrite C1.
  rewrite (extract_single_ranges flatten parse i (single_text d) s _ _ _ (array_fits _ Fi) Hp).
  rewrite (hash_clean _ C2). unfold single_requests. destruct (gj_extract i _ w). reflexivity.
Qed.

Theorem python_single_user (i : impl F W) parse flatten d s ds ranges hash w out w' :
  clean (single_text d) -> clean_hash hash -> fits_memory ranges ->
  parse (single_text d) = Ok s -> Forall2 spells (flatten s) ds -> (lenN ds < two64)%N -> Forall (plain_field (c_ignore_ym cfg)) ds ->
  plain_catalogue o cfg -> right_answers o P cfg i w -> py_extract_single parse flatten i d ranges hash w = (Ok out, w') ->
  exists u listing, o_list o u = Ok listing /\ Forall2 (single_sees zero o P cfg ranges hash listing) ds out.
Proof.
  intros C1 C2 Fi Hp Hs L Hd HC HI H.
  assert (Forall (fun r => 0 <= fst r < Z.of_N two64 /\ 0 <= snd r < Z.of_N two64)%Z ranges) as G.
  { unfold py_extract_single in H. destruct (store_ranges ranges) as [x|e|] eqn:E; try discriminate. eapply store_ranges_some; eauto. }
  rewrite (single_call parse flatten i d s) in H by assumption. unfold gj_extract in H.
  assert (Forall2 request_for (map (fun d => mk_wanted d (in_n ranges) (hash_text hash)) ds) (single_requests flatten s ranges hash)) as HR.
  { unfold single_requests. clear - Hs. induction Hs; cbn; constructor; auto. repeat split; auto. }
  assert (length (single_requests flatten s ranges hash) = length ds) as Lq.
  { unfold single_requests. rewrite map_length. now apply Forall2_length in Hs. }
  destruct (single_requests flatten s ranges hash) as [|r0 rest] eqn:Er; [discriminate H|]. rewrite <- Er in *. clear Er.
  unfold as_iterator, amap in H. destruct (m_extract i (single_requests flatten s ranges hash) w) as [y w1] eqn:Em. cbn [fst snd] in H.
  destruct y as [res|e|]; cbn [omap obind try_catch checked] in H; try discriminate H.
  assert (Forall (fine_wanted cfg) (map (fun d => mk_wanted d (in_n ranges) (hash_text hash)) ds)) as Hw by (clear - Hd; induction Hd; cbn; constructor; auto).
  destruct (requests_seen o P cfg i _ _ w res w1 Hw HR HC HI Em) as (u & listing & L1 & L2 & L3).
  cbn [source_new s_data] in H. rewrite map_length, single_loop in H by (unfold lenN in *; rewrite L3, Lq; exact L).
  injection H as <- <-. exists u, listing. split; [exact L1|]. apply F2_map_l in L2. apply F2_map_r. eapply F2_imp; [|exact L2]. cbn beta.
  intros q x. unfold single_sees, cpp_sees. apply field_imp; cbn [fst snd].
  - intros m S bytes off Su Gd St. rewrite sizes_shape by (eapply Forall_impl; [|exact G]; cbn; lia). now apply stored_seen.
  - intros -> [Z1 Z2]. apply py_values_mismatch; [reflexivity| |]; fold (sizes ranges) in *; unfold total; cbn [concat length]; lia.
Qed.
Theorem python_single_succeeds (i : impl F W) parse flatten d s ranges hash w res w' :
  clean (single_text d) -> clean_hash hash -> fits_memory ranges -> parse (single_text d) = Ok s -> flatten s <> [] ->
  Forall (fun r => 0 <= fst r < Z.of_N two64 /\ 0 <= snd r < Z.of_N two64)%Z ranges -> (lenN res < two64)%N ->
  m_extract i (single_requests flatten s ranges hash) w = (Ok res, w') ->
  py_extract_single parse flatten i d ranges hash w = (Ok (map (fun x => (x, sizes ranges)) res), w').
Proof.
  intros C1 C2 Fi Hp Ne G L Em. rewrite (single_call parse flatten i d s) by assumption. unfold gj_extract.
  destruct (single_requests flatten s ranges hash) as [|r0 rest] eqn:Er.
  { unfold single_requests in Er. apply map_eq_nil in Er. congruence. }
  rewrite <- Er in *. unfold as_iterator, amap. rewrite Em. cbn [fst snd omap obind try_catch checked source_new s_data].
  rewrite map_length. rewrite single_loop by exact L. reflexivity.
Qed.
Theorem python_single_refused (i : impl F W) parse flatten d ranges hash w :
  Exists (fun r => ~ (0 <= fst r < Z.of_N two64 /\ 0 <= snd r < Z.of_N two64)%Z) ranges ->
  exists e, py_extract_single parse flatten i d ranges hash w = (Throw e, w).
Proof.
  intros Ex. unfold py_extract_single. destruct (store_ranges ranges) as [x|e|] eqn:E; [|eauto|].
  - exfalso. apply store_ranges_some in E. rewrite Exists_exists in Ex. destruct Ex as (r & I & N). rewrite Forall_forall in E. apply N, E, I.
  - now apply store_ranges_defined in E.
Qed.
End Single.

(* the examples *)
Lemma path_users : right_paths (node_at "/fdb/x.data") false path_impl tt (map means two_path_asks) /\
  Forall clean_ask two_path_asks /\ Forall proper_ask two_path_asks /\ Forall (fun a => fits_memory (f_ranges a)) two_path_asks /\
  Forall2 (fun a r => c_means a (p_ranges r) r) two_c_paths (map means two_path_asks).
Proof.
  split; [|split; [|split; [|split]]].
  - apply (machine_right_paths (node_at "/fdb/x.data") one_cfg); [apply node_at_sound; auto|reflexivity|reflexivity| |discriminate].
    repeat constructor.
  - repeat constructor.
  - repeat (constructor; [split; [discriminate|split; [repeat constructor; (reflexivity || (cbn; unfold two64; lia))|unfold two64; cbn; lia]]|]). constructor.
  - repeat constructor.
  - repeat constructor.
Qed.
