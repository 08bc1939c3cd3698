(* C87: extraction by file and offset *)
From Coq Require Import QArith.
From Verif Require Import Base ModelRange ModelInfo ModelSimple ModelStream ModelJumper ModelStrings ModelCache ModelBuild
  ModelEngine ModelProtocol ModelRemote ModelForward ModelFloat SpecCache SpecJumper SpecBuild SpecEngine SpecRemote
  SpecForward SpecSystem SpecDeploy SpecPaths ProofsRemote2 ProofsDeploy ProofsPaths.

(* ---- C87 ---- *)

(* requests for different places have different names *)
Theorem C87_distinct_names :
  forall l, plain_schemes l -> distinct_places l -> NoDup (map p_string l).
Proof. exact distinct_texts. Qed.
Print Assumptions C87_distinct_names.

(* a local extraction gives what the messages store, in the order of the requests *)
Theorem C87_local :
  forall (F : Type) (n : node F) cfg r0 rest res, sound_node n ->
    p_host r0 = ""%string -> p_port r0 = 0%Z -> c_inefficient cfg = false ->
    extract_path_requests (node_world n) cfg (r0 :: rest) = Ok res ->
    Forall2 (path_result n (c_ignore_grid cfg)) (r0 :: rest) res.
Proof. exact (fun F => @paths_stored F). Qed.
Print Assumptions C87_local.

(* ... and it does so whenever every message can be served, however the requests are distributed over files *)
Theorem C87_local_answers :
  forall (F : Type) (n : node F) cfg r0 rest, let reqs := r0 :: rest in
    sound_node n -> g_lazy (n_cache n) = true -> p_host r0 = ""%string -> p_port r0 = 0%Z -> c_inefficient cfg = false ->
    distinct_places reqs -> plain_schemes reqs ->
    Forall (fun r => p_scheme r <> "fdb"%string /\ path_fine n (c_ignore_grid cfg) r) reqs ->
    exists res, extract_path_requests (node_world n) cfg reqs = Ok res /\
                Forall2 (path_result n (c_ignore_grid cfg)) reqs res.
Proof. exact (fun F => @paths_complete F). Qed.
Print Assumptions C87_local_answers.

(* handed on to servers: each result is what the server of the request's host and port stores *)
Theorem C87_forwarded :
  forall (F M : Type) (k : link F M) sm sites nodes connect (w : world F) cfg r0 rest res,
    sound_link k -> sorts (w_sorter w) ->
    (forall ep, sound_node (nodes ep) /\ s_world (sites ep) = node_world (nodes ep)) ->
    (forall ep, connect ep = site_server k (sites ep)) ->
    asks_to_forward r0 -> placed_paths (r0 :: rest) ->
    extract_path_requests (forwarding k sm connect w) cfg (r0 :: rest) = Ok res ->
    Forall2 (owner_path_result sm nodes (fun ep => s_cfg (sites ep))) (r0 :: rest) res.
Proof. exact (fun F M k sm sites nodes connect w cfg r0 rest res Hk Hs Hn Hc =>
                paths_at_owners k sm sites nodes connect w Hk Hs Hn Hc cfg r0 rest res). Qed.
Print Assumptions C87_forwarded.

Theorem C87_forwarded_answers :
  forall (F M : Type) (k : link F M) sm sites nodes connect (w : world F) cfg r0 rest, let reqs := r0 :: rest in
    sound_link k -> sorts (w_sorter w) ->
    (forall ep, sound_node (nodes ep) /\ s_world (sites ep) = node_world (nodes ep)) ->
    (forall ep, connect ep = site_server k (sites ep)) ->
    asks_to_forward r0 -> distinct_places reqs -> plain_schemes reqs -> one_place_each reqs ->
    Forall (owner_path_fine sm nodes (fun ep => s_cfg (sites ep))) reqs ->
    exists res, extract_path_requests (forwarding k sm connect w) cfg reqs = Ok res /\
                Forall2 (owner_path_result sm nodes (fun ep => s_cfg (sites ep))) reqs res.
Proof. exact (fun F M k sm sites nodes connect w cfg r0 rest Hk Hs Hn Hc =>
                paths_at_owners_complete k sm sites nodes connect w Hk Hs Hn Hc cfg r0 rest). Qed.
Print Assumptions C87_forwarded_answers.

(* one file and a list of offsets, without cache or grouping: the i-th result is that of the i-th offset and ranges *)
Theorem C87_direct :
  forall (F : Type) (n : node F) path offs ranges res, sound_node n ->
    path <> ""%string -> offs <> [] -> length offs = length ranges ->
    node_direct n path offs ranges = Ok res -> Forall2 (offset_result n path) (combine offs ranges) res.
Proof. exact (fun F => @direct_stored F). Qed.
Print Assumptions C87_direct.

Theorem C87_direct_answers :
  forall (F : Type) (n : node F) path offs ranges, sound_node n ->
    path <> ""%string -> offs <> [] -> length offs = length ranges ->
    Forall (offset_fine n path) (combine offs ranges) ->
    exists res, node_direct n path offs ranges = Ok res /\ Forall2 (offset_result n path) (combine offs ranges) res.
Proof. exact (fun F => @direct_complete F). Qed.
Print Assumptions C87_direct_answers.

(* two messages of one file, the later one first; the wrong hash is refused *)
Example C87_local_example :
  extract_path_requests (node_world (node_at "/fdb/x.data")) one_cfg
    [mk_path_request "/fdb/x.data" "file" "" 0 12 [(0, 2); (3, 4)]%N "g2"; mk_path_request "/fdb/x.data" "file" "" 0 4 [(1, 4)]%N "g1"]
  = Ok [ ([[7 # 20; 0]; [9 # 20]]%Q, [[1]; [1]]%N); ([[201 # 2; 241 # 2; 281 # 2]]%Q, [[7]%N]) ] /\
  extract_path_requests (node_world (node_at "/fdb/x.data")) one_cfg
    [mk_path_request "/fdb/x.data" "file" "" 0 12 [(0, 2)]%N "g1"; mk_path_request "/fdb/x.data" "file" "" 0 4 [(1, 4)]%N "g1"]
  = Throw ESeriousBug.
Proof. vm_compute. auto. Qed.
(* one request for the server of each host *)
Example C87_forwarded_example :
  extract_path_requests (forwarding (plain_link Q) demo_servermap data_connect front_world) front_cfg
    [mk_path_request "/fdb/y.data" "file" "h2" 7000 12 [(0, 2); (3, 4)]%N "g2";
     mk_path_request "/fdb/x.data" "file" "h1" 7000 4 [(1, 4)]%N "g1"]
  = Ok [ ([[7 # 20; 0]; [9 # 20]]%Q, [[1]; [1]]%N); ([[201 # 2; 241 # 2; 281 # 2]]%Q, [[7]%N]) ].
Proof. vm_compute. reflexivity. Qed.
Example C87_direct_example :
  node_direct (node_at "/fdb/y.data") "/fdb/y.data" [12; 4; 12]%Z [[(0, 2); (3, 4)]; [(1, 4)]; [(3, 4)]]%N
  = Ok [ ([[7 # 20; 0]; [9 # 20]]%Q, [[1]; [1]]%N); ([[201 # 2; 241 # 2; 281 # 2]]%Q, [[7]%N]); ([[9 # 20]]%Q, [[1]%N]) ].
Proof. vm_compute. reflexivity. Qed.
(* a path may contain '#' and ':' *)
Example C87_distinct_names_example :
  let l := [mk_path_request "/a#1" "file" "" 0 2 [] ""; mk_path_request "/a" "file" "" 0 12 [] "";
            mk_path_request "/a:b" "file" "" 0 12 [] ""] in
  plain_schemes l /\ distinct_places l /\ map p_string l = ["file:/a#1#2"; "file:/a#12"; "file:/a:b#12"]%string.
Proof.
  split; [repeat constructor|split; [|reflexivity]].
  repeat constructor; cbn; intros H; repeat (destruct H as [H|H]; [discriminate|]); exact H.
Qed.
