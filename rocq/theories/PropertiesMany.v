(* C113: a deployment of many servers, and a busy one, is to its users one machine with all the files. *)
From Coq Require Import QArith.
From Verif Require Import Base ModelStrings ModelInfo ModelSimple ModelStream ModelJumper ModelCache ModelEngine ModelApi ModelPython ModelRust ModelUser ModelClient
     ModelFetch ModelProtocol ModelRemote ModelForward SpecEngine SpecJumper SpecBuild SpecSystem SpecRemote SpecForward SpecDeploy SpecPaths SpecPython SpecUser
     SpecClient SpecFetch SpecConcurrent SpecBusy SpecMany ProofsMany.

(* ---- C113 ---- *)
(* A process that forwards requests to the servers of the fields answers rightly, as C95, C104 and C112 ask of the
   implementation below a user: with the values of the files as the servers that keep them have them. *)
Theorem C113_forwarding :
  forall (F M W : Type) (k : link F M), sound_link k ->
  forall sm (sites : endpoint -> site F M) (nodes : endpoint -> node F),
    (forall ep, sound_node (nodes ep) /\ s_world (sites ep) = node_world (nodes ep)) ->
  forall connect, (forall ep, connect ep = site_server k (sites ep)) ->
  forall (home : string -> endpoint) (base : outside F), alike nodes base ->
  forall (w : world F), sorts (w_sorter w) ->
  forall cfg, checks_grids (c_ignore_grid cfg) (fun ep => s_cfg (sites ep)) -> c_forward cfg = true -> unique_listings w cfg ->
    (forall u l, w_list w u = Ok l -> placed_listing (c_ignore_ym cfg) l) -> at_home sm home (w_list w) ->
  forall (i : impl F W) st, (forall reqs, fst (m_extract i reqs st) = extract_requests (forwarding k sm connect w) cfg reqs) ->
    right_answers (together nodes home base (w_list w)) (in_use nodes home) cfg i st.
Proof. exact @forwarding_right. Qed.
Print Assumptions C113_forwarding.

(* so does a client of a server that forwards them *)
Theorem C113_front :
  forall (F M W : Type) (k : link F M), sound_link k ->
  forall sm (sites : endpoint -> site F M) (nodes : endpoint -> node F),
    (forall ep, sound_node (nodes ep) /\ s_world (sites ep) = node_world (nodes ep)) ->
  forall connect, (forall ep, connect ep = site_server k (sites ep)) ->
  forall (home : string -> endpoint) (base : outside F), alike nodes base ->
  forall (w : world F), sorts (w_sorter w) ->
  forall cfg, checks_grids (c_ignore_grid cfg) (fun ep => s_cfg (sites ep)) -> c_forward cfg = true -> unique_listings w cfg ->
    (forall u l, w_list w u = Ok l -> placed_listing (c_ignore_ym cfg) l) -> at_home sm home (w_list w) ->
  forall (front : site F M) (i : impl F W) st, s_world front = forwarding k sm connect w -> s_cfg front = cfg ->
    (forall reqs, fst (m_extract i reqs st) = omap fst (client_extract k (site_server k front) reqs)) ->
    right_answers (together nodes home base (w_list w)) (in_use nodes home) cfg i st.
Proof. exact @front_right. Qed.
Print Assumptions C113_front.

(* ... whatever other requests its workers are busy with *)
Theorem C113_busy_forwarding :
  forall (F M W : Type) (k : link F M), sound_link k ->
  forall sm (sites : endpoint -> site F M) (nodes : endpoint -> node F),
    (forall ep, sound_node (nodes ep) /\ s_world (sites ep) = node_world (nodes ep)) ->
  forall connect, (forall ep, connect ep = site_server k (sites ep)) ->
  forall (home : string -> endpoint) (base : outside F), alike nodes base ->
  forall (w : world F), sorts (w_sorter w) ->
  forall cfg, checks_grids (c_ignore_grid cfg) (fun ep => s_cfg (sites ep)) -> c_forward cfg = true -> unique_listings w cfg ->
    (forall u l, w_list w u = Ok l -> placed_listing (c_ignore_ym cfg) l) -> at_home sm home (w_list w) ->
  forall (i : impl F W) st,
    (forall reqs res st', m_extract i reqs st = (Ok res, st') -> busy_forward_answer k sm connect w cfg reqs res) ->
    right_answers (together nodes home base (w_list w)) (in_use nodes home) cfg i st.
Proof. exact @busy_forwarding_right. Qed.
Print Assumptions C113_busy_forwarding.

(* A machine whose workers run the tasks of many requests and whose info cache is used by threads and processes at the
   same time answers rightly ... *)
Theorem C113_busy :
  forall (F W : Type) (o : outside F) g P, sound_outside o g P ->
  forall quiet lookup, shared_lookup o g P quiet lookup ->
  forall cfg, plain_catalogue o cfg -> c_forward cfg = false -> c_inefficient cfg = false ->
  forall (i : impl F W) st,
    (forall reqs res st', m_extract i reqs st = (Ok res, st') -> busy_answer (shared_world o P lookup) cfg reqs res) ->
    right_answers o P cfg i st.
Proof. exact @busy_user. Qed.
Print Assumptions C113_busy.

(* ... and so does a client of such a server *)
Theorem C113_busy_server :
  forall (F M W : Type) (o : outside F) g P, sound_outside o g P ->
  forall quiet lookup, shared_lookup o g P quiet lookup ->
  forall cfg, plain_catalogue o cfg -> c_forward cfg = false -> c_inefficient cfg = false ->
  forall (k : link F M) (e : engine) (i : impl F W) st,
    (forall l reqs m errs, e_extract e l = Ok (reqs, m, errs) -> length reqs = length l) ->
    (forall reqs res, results_of (e_extract e reqs) = Ok (res, []) -> busy_answer (shared_world o P lookup) cfg reqs res) ->
    (forall reqs, fst (m_extract i reqs st) = omap fst (client_extract k (server k e) reqs)) ->
    right_answers o P cfg i st.
Proof. exact @busy_client. Qed.
Print Assumptions C113_busy_server.

(* Requests by file, offset and server *)
Theorem C113_forwarding_paths :
  forall (F M W : Type) (k : link F M), sound_link k ->
  forall sm (sites : endpoint -> site F M) (nodes : endpoint -> node F),
    (forall ep, sound_node (nodes ep) /\ s_world (sites ep) = node_world (nodes ep)) ->
  forall connect, (forall ep, connect ep = site_server k (sites ep)) ->
  forall (home : string -> endpoint) (base : outside F), alike nodes base ->
  forall (w : world F), sorts (w_sorter w) ->
  forall cfg, checks_grids (c_ignore_grid cfg) (fun ep => s_cfg (sites ep)) ->
  forall (i : impl F W) st r0 rest, let reqs := r0 :: rest in
    (forall rs, fst (m_extract_paths i rs st) = extract_path_requests (forwarding k sm connect w) cfg rs) ->
    asks_to_forward r0 -> placed_paths reqs -> paths_at_home sm home reqs ->
    right_paths (joint_node nodes home base (w_list w)) (c_ignore_grid cfg) i st reqs.
Proof. exact @forwarding_right_paths. Qed.
Print Assumptions C113_forwarding_paths.

(* ... on a busy machine, and on a busy front *)
Theorem C113_busy_paths :
  forall (F W : Type) (o : outside F) g P, sound_outside o g P ->
  forall quiet lookup, shared_lookup o g P quiet lookup ->
  forall state, (forall p offs, SpecSystem.reachable o g P (state p offs)) ->
  forall cfg (i : impl F W) st r0 rest, let reqs := r0 :: rest in
    p_host r0 = ""%string -> p_port r0 = 0%Z -> c_inefficient cfg = false ->
    (forall res st', m_extract_paths i reqs st = (Ok res, st') -> busy_path_answer (shared_world o P lookup) cfg reqs res) ->
    right_paths (mk_node o g P state) (c_ignore_grid cfg) i st reqs.
Proof. exact @busy_paths_right. Qed.
Print Assumptions C113_busy_paths.

Theorem C113_busy_forwarding_paths :
  forall (F M W : Type) (k : link F M), sound_link k ->
  forall sm (sites : endpoint -> site F M) (nodes : endpoint -> node F),
    (forall ep, sound_node (nodes ep) /\ s_world (sites ep) = node_world (nodes ep)) ->
  forall connect, (forall ep, connect ep = site_server k (sites ep)) ->
  forall (home : string -> endpoint) (base : outside F), alike nodes base ->
  forall (w : world F), sorts (w_sorter w) ->
  forall cfg, checks_grids (c_ignore_grid cfg) (fun ep => s_cfg (sites ep)) ->
  forall (i : impl F W) st r0 rest, let reqs := r0 :: rest in
    (forall res st', m_extract_paths i reqs st = (Ok res, st') -> busy_forward_path_answer k sm connect w reqs res) ->
    asks_to_forward r0 -> placed_paths reqs -> paths_at_home sm home reqs ->
    right_paths (joint_node nodes home base (w_list w)) (c_ignore_grid cfg) i st reqs.
Proof. exact @busy_forwarding_right_paths. Qed.
Print Assumptions C113_busy_forwarding_paths.

(* From the dict to the arrays: a Python user of a front that forwards gets, for every dict that names a field which its
   server can serve, the values that server stores. *)
Theorem C113_python_served :
  forall (F M W : Type) (zero : F) (k : link F M), sound_link k ->
  forall sm (sites : endpoint -> site F M) (nodes : endpoint -> node F),
    (forall ep, sound_node (nodes ep) /\ s_world (sites ep) = node_world (nodes ep)) ->
  forall connect, (forall ep, connect ep = site_server k (sites ep)) ->
  forall (home : string -> endpoint) (base : outside F), alike nodes base ->
  forall (w : world F), sorts (w_sorter w) ->
  forall cfg, checks_grids (c_ignore_grid cfg) (fun ep => s_cfg (sites ep)) -> c_forward cfg = true ->
  forall listing, (forall u, w_list w u = Ok listing) -> plain_listing (c_ignore_ym cfg) listing ->
    duplicate_free (c_ignore_ym cfg) listing -> placed_listing (c_ignore_ym cfg) listing -> at_home sm home (w_list w) ->
  forall front : site F M, s_world front = forwarding k sm connect w -> s_cfg front = cfg ->
  forall expand parsing parse (i : impl F W) asks texts st,
    let reqs := map (fun p => asked_request (fst p) (snd p)) (combine asks texts) in
    (forall l, m_extract i l st = (omap fst (client_extract k (site_server k front) l), st)) ->
    (lenN asks < two64)%N -> Forall2 (accepted parsing parse) asks texts -> Forall (fine_ask cfg expand parsing parse) asks ->
    NoDup (map r_string (canon_requests (c_ignore_ym cfg) false reqs)) ->
    (forall r e, located cfg reqs listing r e -> owner_serves sm nodes (fun ep => s_cfg (sites ep)) r e) ->
    (c_allow_missing cfg = true \/
     forall r, In r (canon_requests (c_ignore_ym cfg) false reqs) -> exists e, located cfg reqs listing r e) ->
    (exists r e, located cfg reqs listing r e) ->
    exists out, py_extract parsing parse i asks st = (Ok out, st) /\
      Forall2 (python_sees zero (together nodes home base (w_list w)) (in_use nodes home) cfg expand listing) asks out.
Proof. exact @python_served. Qed.
Print Assumptions C113_python_served.

(* so do users of Rust, C++ and C *)
Theorem C113_rust_served :
  forall (F M W : Type) (k : link F M), sound_link k ->
  forall sm (sites : endpoint -> site F M) (nodes : endpoint -> node F),
    (forall ep, sound_node (nodes ep) /\ s_world (sites ep) = node_world (nodes ep)) ->
  forall connect, (forall ep, connect ep = site_server k (sites ep)) ->
  forall (home : string -> endpoint) (base : outside F), alike nodes base ->
  forall (w : world F), sorts (w_sorter w) ->
  forall cfg, checks_grids (c_ignore_grid cfg) (fun ep => s_cfg (sites ep)) -> c_forward cfg = true ->
  forall listing, (forall u, w_list w u = Ok listing) -> plain_listing (c_ignore_ym cfg) listing ->
    duplicate_free (c_ignore_ym cfg) listing -> placed_listing (c_ignore_ym cfg) listing -> at_home sm home (w_list w) ->
  forall front : site F M, s_world front = forwarding k sm connect w -> s_cfg front = cfg ->
  forall (i : impl F W) qs reqs st,
    (forall l, m_extract i l st = (omap fst (client_extract k (site_server k front) l), st)) ->
    (lenN reqs < two64)%N -> Forall (fine_wanted cfg) qs -> Forall2 request_for qs reqs ->
    NoDup (map r_string (canon_requests (c_ignore_ym cfg) false reqs)) ->
    (forall r e, located cfg reqs listing r e -> owner_serves sm nodes (fun ep => s_cfg (sites ep)) r e) ->
    (c_allow_missing cfg = true \/
     forall r, In r (canon_requests (c_ignore_ym cfg) false reqs) -> exists e, located cfg reqs listing r e) ->
    (exists r e, located cfg reqs listing r e) ->
    exists out, rs_fetch (rs_extract i reqs) st = (Ok out, st) /\
      Forall2 (rust_sees (together nodes home base (w_list w)) (in_use nodes home) cfg listing) qs out.
Proof. exact @rust_served. Qed.
Print Assumptions C113_rust_served.
Theorem C113_cpp_served :
  forall (F M W : Type) (k : link F M), sound_link k ->
  forall sm (sites : endpoint -> site F M) (nodes : endpoint -> node F),
    (forall ep, sound_node (nodes ep) /\ s_world (sites ep) = node_world (nodes ep)) ->
  forall connect, (forall ep, connect ep = site_server k (sites ep)) ->
  forall (home : string -> endpoint) (base : outside F), alike nodes base ->
  forall (w : world F), sorts (w_sorter w) ->
  forall cfg, checks_grids (c_ignore_grid cfg) (fun ep => s_cfg (sites ep)) -> c_forward cfg = true ->
  forall listing, (forall u, w_list w u = Ok listing) -> plain_listing (c_ignore_ym cfg) listing ->
    duplicate_free (c_ignore_ym cfg) listing -> placed_listing (c_ignore_ym cfg) listing -> at_home sm home (w_list w) ->
  forall front : site F M, s_world front = forwarding k sm connect w -> s_cfg front = cfg ->
  forall (i : impl F W) qs reqs st,
    (forall l, m_extract i l st = (omap fst (client_extract k (site_server k front) l), st)) ->
    (lenN reqs < two64)%N -> Forall (fine_wanted cfg) qs -> Forall2 request_for qs reqs ->
    NoDup (map r_string (canon_requests (c_ignore_ym cfg) false reqs)) ->
    (forall r e, located cfg reqs listing r e -> owner_serves sm nodes (fun ep => s_cfg (sites ep)) r e) ->
    (c_allow_missing cfg = true \/
     forall r, In r (canon_requests (c_ignore_ym cfg) false reqs) -> exists e, located cfg reqs listing r e) ->
    (exists r e, located cfg reqs listing r e) ->
    exists s res s', gj_extract i reqs st = (Ok s, st) /\ dump_vector s = Ok (map Some res, s') /\
      Forall2 (cpp_sees (together nodes home base (w_list w)) (in_use nodes home) cfg listing) qs res.
Proof. exact @cpp_served. Qed.
Print Assumptions C113_cpp_served.
Theorem C113_c_served :
  forall (F M W : Type) (zero : F) (k : link F M), sound_link k ->
  forall sm (sites : endpoint -> site F M) (nodes : endpoint -> node F),
    (forall ep, sound_node (nodes ep) /\ s_world (sites ep) = node_world (nodes ep)) ->
  forall connect, (forall ep, connect ep = site_server k (sites ep)) ->
  forall (home : string -> endpoint) (base : outside F), alike nodes base ->
  forall (w : world F), sorts (w_sorter w) ->
  forall cfg, checks_grids (c_ignore_grid cfg) (fun ep => s_cfg (sites ep)) -> c_forward cfg = true ->
  forall listing, (forall u, w_list w u = Ok listing) -> plain_listing (c_ignore_ym cfg) listing ->
    duplicate_free (c_ignore_ym cfg) listing -> placed_listing (c_ignore_ym cfg) listing -> at_home sm home (w_list w) ->
  forall front : site F M, s_world front = forwarding k sm connect w -> s_cfg front = cfg ->
  forall (i : impl F W) parsing parse qs asks reqs st,
    (forall l, m_extract i l st = (omap fst (client_extract k (site_server k front) l), st)) ->
    (lenN asks < two64)%N -> Forall (fine_wanted cfg) qs -> Forall2 (asks_c parsing parse) qs asks ->
    c_made parsing parse asks = Ok reqs ->
    NoDup (map r_string (canon_requests (c_ignore_ym cfg) false reqs)) ->
    (forall r e, located cfg reqs listing r e -> owner_serves sm nodes (fun ep => s_cfg (sites ep)) r e) ->
    (c_allow_missing cfg = true \/
     forall r, In r (canon_requests (c_ignore_ym cfg) false reqs) -> exists e, located cfg reqs listing r e) ->
    (exists r e, located cfg reqs listing r e) ->
    exists out, c_fetch parsing parse i asks st = (Ok out, st) /\
      Forall2 (c_sees (together nodes home base (w_list w)) (in_use nodes home) cfg zero listing) qs out.
Proof. exact @c_served. Qed.
Print Assumptions C113_c_served.

(* the assumptions hold of the two servers behind a front *)
Theorem C113_assumptions_hold :
  alike data_node (file_at "/fdb/x.data") /\ at_home demo_servermap data_home (w_list front_world) /\
  plain_catalogue (together data_node data_home (file_at "/fdb/x.data") (w_list front_world)) front_cfg /\
  right_answers (together data_node data_home (file_at "/fdb/x.data") (w_list front_world)) (in_use data_node data_home) front_cfg front_impl tt.
Proof. exact (conj data_alike (conj data_at_home data_user)). Qed.
Print Assumptions C113_assumptions_hold.

(* three dicts through the front: the first field is kept by one server, the second is no field, the third is kept by the other *)
Example C113_example :
  exists out, py_extract false (fun s => Ok s) front_impl one_asks tt = (Ok out, tt) /\
    map (fun y => py_values 0%Q (fst y) (snd y)) out =
      [ Ok [[7 # 20; 0]; [9 # 20]]%Q; Throw EGribJump; Ok [[201 # 2; 241 # 2; 281 # 2]]%Q ] /\
    map (fun y => py_bool_masks (fst y) (snd y)) out =
      [ Ok [[true; false]; [true]]; Throw EGribJump; Ok [[true; true; true]] ].
Proof. eexists. split; [vm_compute; reflexivity|]. split; vm_compute; reflexivity. Qed.
Example C113_paths_example :
  exists out, py_extract_paths front_impl
      [ mk_path_ask "/fdb/y.data" "file" 12 "h2" 7000 [(0, 2); (3, 4)]%Z (Some "g2"); mk_path_ask "/fdb/x.data" "file" 4 "h1" 7000 [(1, 4)]%Z (Some "g1") ]%string tt
      = (Ok out, tt) /\
    map (fun y => py_values 0%Q (fst y) (snd y)) out = [ Ok [[7 # 20; 0]; [9 # 20]]%Q; Ok [[201 # 2; 241 # 2; 281 # 2]]%Q ].
Proof. eexists. split; vm_compute; reflexivity. Qed.

Example C113_rust_example :
  exists out, rs_fetch (rs_extract front_impl two_requests) tt = (Ok out, tt) /\
    map (fun h => map valid_values (fst (rs_iter h))) out = [ [[7 # 20]; [9 # 20]]; []; [[201 # 2; 241 # 2; 281 # 2]] ]%Q.
Proof. eexists. split; vm_compute; reflexivity. Qed.
Example C113_c_example :
  exists x y z, c_fetch false (fun s => Ok s) front_impl two_asks tt = (Ok [x; y; z], tt) /\
    c_read 5%Q x 3 2 = Ok ([7 # 20; 0; 9 # 20]%Q, [1; 1]%N) /\ c_read 5%Q z 3 1 = Ok ([201 # 2; 241 # 2; 281 # 2]%Q, [7]%N).
Proof. do 3 eexists. split; [vm_compute; reflexivity|]. split; vm_compute; reflexivity. Qed.
