(* C86: extraction through servers *)
From Coq Require Import QArith.
From Verif Require Import Base ModelRange ModelInfo ModelSimple ModelStream ModelJumper ModelStrings ModelCache ModelBuild
  ModelEngine ModelProtocol ModelRemote ModelForward ModelFloat SpecCache SpecJumper SpecBuild SpecEngine SpecRemote
  SpecForward SpecSystem SpecDeploy ProofsRemote2 ProofsDeploy.

(* ---- C86 ---- *)

(* a client of a server gets what a local extraction there gives: the same results with nothing left unread, an
   exception where it throws; whether the server extracts by itself or forwards *)
Theorem C86_same_answer :
  forall (F M : Type) (k : link F M) (s : site F M) reqs,
    c_forward (s_cfg s) = false \/ keeps_items (w_forward (s_world s)) ->
    same_answer (extract_requests (s_world s) (s_cfg s) reqs) (client_extract k (site_server k s) reqs).
Proof. exact (fun F M k s reqs H => same_extraction k s H reqs). Qed.
Print Assumptions C86_same_answer.

(* the forwarder of the model meets that condition *)
Theorem C86_forwarder_keeps_items :
  forall (F M : Type) (k : link F M) sm connect sorter, keeps_items (forwards k sm connect sorter).
Proof. exact (fun F M => @forwards_keep F M). Qed.
Print Assumptions C86_forwarder_keeps_items.

(* a client of one server: every result it gets is what the message of the request stores there *)
Theorem C86_one_server :
  forall (F M : Type) (k : link F M) (s : site F M) (n : node F) reqs res rest,
    sound_node n -> s_world s = node_world n -> unique_listings (node_world n) (s_cfg s) ->
    c_forward (s_cfg s) = false -> c_inefficient (s_cfg s) = false ->
    client_extract k (site_server k s) reqs = Ok (res, rest) ->
    rest = [] /\ exists u listing, o_list (n_outside n) u = Ok listing /\
                   right_results (n_outside n) (n_paths n) (s_cfg s) reqs listing res.
Proof. exact (fun F M => @served_values F M). Qed.
Print Assumptions C86_one_server.

(* ... and it gets them, if the located requests can be served *)
Theorem C86_one_server_answers :
  forall (F M : Type) (k : link F M) (s : site F M) (n : node F) reqs listing,
    sound_node n -> s_world s = node_world n ->
    g_lazy (n_cache n) = true -> c_forward (s_cfg s) = false -> c_inefficient (s_cfg s) = false ->
    NoDup (map r_string (canon_requests (c_ignore_ym (s_cfg s)) false reqs)) ->
    (forall u, o_list (n_outside n) u = Ok listing) -> duplicate_free (c_ignore_ym (s_cfg s)) listing ->
    own_places (s_cfg s) reqs listing ->
    (forall r e, located (s_cfg s) reqs listing r e -> fine_request (n_outside n) (n_paths n) (s_cfg s) r e) ->
    (c_allow_missing (s_cfg s) = true \/
     forall r, In r (canon_requests (c_ignore_ym (s_cfg s)) false reqs) -> exists e, located (s_cfg s) reqs listing r e) ->
    (exists r e, located (s_cfg s) reqs listing r e) ->
    exists res, client_extract k (site_server k s) reqs = Ok (res, []) /\
                right_results (n_outside n) (n_paths n) (s_cfg s) reqs listing res.
Proof. exact (fun F M => @served_complete F M). Qed.
Print Assumptions C86_one_server_answers.

(* a client that forwards: every result is what the owner of the request's location stores *)
Theorem C86_forwarding_client :
  forall (F M : Type) (k : link F M) sm sites nodes connect (w : world F) cfg reqs res,
    sound_link k -> sorts (w_sorter w) ->
    (forall ep, sound_node (nodes ep) /\ s_world (sites ep) = node_world (nodes ep)) ->
    (forall ep, connect ep = site_server k (sites ep)) ->
    c_forward cfg = true -> unique_listings w cfg ->
    (forall u l, w_list w u = Ok l -> placed_listing (c_ignore_ym cfg) l) ->
    extract_requests (forwarding k sm connect w) cfg reqs = Ok res ->
    exists u listing, w_list w u = Ok listing /\
      owner_results sm nodes (fun ep => s_cfg (sites ep)) cfg reqs listing res.
Proof. exact (fun F M k sm sites nodes connect w cfg reqs res H1 H2 H3 H4 H5 =>
                forwarded_values k sm sites nodes connect w H1 H2 H3 H4 cfg reqs H5 res). Qed.
Print Assumptions C86_forwarding_client.

(* a client of a server that forwards to the owners: two hops, the same results *)
Theorem C86_through_front :
  forall (F M : Type) (k : link F M) sm sites nodes connect (w : world F) cfg reqs front res rest,
    sound_link k -> sorts (w_sorter w) ->
    (forall ep, sound_node (nodes ep) /\ s_world (sites ep) = node_world (nodes ep)) ->
    (forall ep, connect ep = site_server k (sites ep)) ->
    s_world front = forwarding k sm connect w -> s_cfg front = cfg ->
    c_forward cfg = true -> unique_listings w cfg ->
    (forall u l, w_list w u = Ok l -> placed_listing (c_ignore_ym cfg) l) ->
    client_extract k (site_server k front) reqs = Ok (res, rest) ->
    rest = [] /\ exists u listing, w_list w u = Ok listing /\
                   owner_results sm nodes (fun ep => s_cfg (sites ep)) cfg reqs listing res.
Proof. exact (fun F M k sm sites nodes connect w cfg reqs front res rest H1 H2 H3 H4 H5 H6 H7 =>
                chained_values k sm sites nodes connect w H1 H2 H3 H4 cfg reqs H7 front H5 H6 res rest). Qed.
Print Assumptions C86_through_front.

(* ... and it gets them, if the owner of every located request can serve it *)
Theorem C86_through_front_answers :
  forall (F M : Type) (k : link F M) sm sites nodes connect (w : world F) cfg reqs front listing,
    sound_link k -> sorts (w_sorter w) ->
    (forall ep, sound_node (nodes ep) /\ s_world (sites ep) = node_world (nodes ep)) ->
    (forall ep, connect ep = site_server k (sites ep)) ->
    s_world front = forwarding k sm connect w -> s_cfg front = cfg ->
    c_forward cfg = true ->
    NoDup (map r_string (canon_requests (c_ignore_ym cfg) false reqs)) ->
    (forall u, w_list w u = Ok listing) -> duplicate_free (c_ignore_ym cfg) listing ->
    placed_listing (c_ignore_ym cfg) listing ->
    (forall r e, located cfg reqs listing r e -> owner_serves sm nodes (fun ep => s_cfg (sites ep)) r e) ->
    (c_allow_missing cfg = true \/
     forall r, In r (canon_requests (c_ignore_ym cfg) false reqs) -> exists e, located cfg reqs listing r e) ->
    (exists r e, located cfg reqs listing r e) ->
    exists res, client_extract k (site_server k front) reqs = Ok (res, []) /\
                owner_results sm nodes (fun ep => s_cfg (sites ep)) cfg reqs listing res.
Proof. exact (fun F M k sm sites nodes connect w cfg reqs front listing H1 H2 H3 H4 H5 H6 H7 =>
                chained_complete k sm sites nodes connect w H1 H2 H3 H4 cfg reqs H7 front H5 H6 listing). Qed.
Print Assumptions C86_through_front_answers.

(* the servers and the link of the examples meet the assumptions *)
Theorem C86_sound_deployment_exists :
  sound_link (plain_link Q) /\
  forall ep, sound_node (data_node ep) /\ s_world (data_site ep) = node_world (data_node ep).
Proof. exact (conj (plain_link_sound Q) data_nodes_sound). Qed.
Print Assumptions C86_sound_deployment_exists.

Example C86_one_server_example :
  client_extract (plain_link Q)
    (site_server (plain_link Q) (site_of (world_of one_file one_cache one_path one_state) one_cfg)) one_requests
  = Ok ([ ([[7 # 20; 0]; [9 # 20]]%Q, [[1]; [1]]%N); ([], []); ([[201 # 2; 241 # 2; 281 # 2]]%Q, [[7]%N]) ], []).
Proof. vm_compute. reflexivity. Qed.
(* the first result comes from the server of h2, the last one from that of h1; a wrong hash is refused there *)
Example C86_through_front_example :
  client_extract (plain_link Q) (site_server (plain_link Q) front_site) one_requests
  = Ok ([ ([[7 # 20; 0]; [9 # 20]]%Q, [[1]; [1]]%N); ([], []); ([[201 # 2; 241 # 2; 281 # 2]]%Q, [[7]%N]) ], []) /\
  client_extract (plain_link Q) (site_server (plain_link Q) front_site)
    [mk_request "step=6,param=u" [(0, 2)]%N "g1"; mk_request "param=t,step=0" [(1, 4)]%N "g1"]
  = Throw (EMsg "errors:
?
").
Proof. vm_compute. auto. Qed.
