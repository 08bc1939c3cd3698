(* C106: what a peer can make the other side of a connection do.  A stream of tokens is arbitrary here: it need not have been
   written by a gribjump client or server. *)
From Coq Require Import QArith.
From Verif Require Import Base ModelRange ModelInfo ModelSimple ModelStream ModelJumper ModelStrings ModelBuild ModelEngine ModelProtocol ModelRemote ModelForward
  SpecEngine SpecSystem SpecRemote SpecForward SpecSafety SpecDeploy SpecHostile SpecPaths
  ProofsRemote2 ProofsSafety4 ProofsHostile3 ProofsHostile4 ProofsHostile5.
Open Scope nat_scope.

(* Whatever a server is sent, its behaviour is defined, except for: a list of ranges that is announced longer than it is; ranges
   that are not ranges or lie beyond the bitmap of the message they are located at; and a forwarded file without items. *)
Theorem C106_server :
  forall (F M : Type) (k : link F M), reading_link k ->
  forall (s : site F M) (P : string -> Prop), defined_site k s P ->
  forall st : list (tok F), (forall m f l, asks_forward k st m -> In (f, l) m -> P f) ->
    site_server k s st = UB ->
    lying_ranges st \/
    (exists reqs, asks_extract st reqs /\ deadly_requests (s_world s) (s_cfg s) reqs) \/
    (exists m, asks_forward k st m /\ ((exists f, In (f, []) m) \/ deadly_files (s_world s) m)).
Proof. exact @server_dies. Qed.
Print Assumptions C106_server.

(* "Nothing that a server receives makes its behaviour undefined" is false of every server: more numbers announced than
   sent are read past the end of the buffer. *)
Theorem C106_any_stream_refuted :
  forall (F M : Type) (k : link F M) (s : site F M) context str hash n (l : list N) rest, (lenN l < 2 * n)%N ->
    site_server k s (w_header t_extract context ++ [KULong 1; KStr str; KStr hash; KULong n; KWords l] ++ rest) = UB.
Proof. exact @lying_kills. Qed.
Print Assumptions C106_any_stream_refuted.

(* So is it of requests as the protocol's own encoder writes them: a file without items beside one with items. *)
Theorem C106_written_stream_refuted :
  forall (F M : Type) (k : link F M) (s : site F M) context m f, sound_link k -> NoDup (map fst m) -> In (f, []) m ->
    (0 < item_count m)%N ->
    site_server k s (send_forward_extract (k_w_uri k) context m) = UB.
Proof. exact @empty_kills. Qed.
Print Assumptions C106_written_stream_refuted.

(* A client reads every reply without undefined behaviour, except for one with a vector that is announced longer than it is or
   that is cut into more than it holds. *)
Theorem C106_client :
  forall (F M : Type) (k : link F M) (srv : list (tok F) -> outcome (list (tok F))) (reqs : list request),
    client_extract k srv reqs = UB ->
    let sent := send_extract (k_context k) reqs in srv sent = UB \/ exists t, srv sent = Ok t /\ lying_reply t.
Proof. exact @extract_client_dies. Qed.
Print Assumptions C106_client.
Theorem C106_forwarding_client :
  forall (F M : Type) (k : link F M) (srv : list (tok F) -> outcome (list (tok F))) m,
    client_forward_extract k srv m = UB ->
    let sent := send_forward_extract (k_w_uri k) (k_context k) m in srv sent = UB \/ exists t, srv sent = Ok t /\ lying_reply t.
Proof. exact @forward_client_dies. Qed.
Print Assumptions C106_forwarding_client.
Theorem C106_other_clients :
  forall (F M : Type) (k : link F M) (srv : list (tok F) -> outcome (list (tok F))), (forall t, srv t <> UB) ->
    (forall r z, client_axes k srv r z <> UB) /\ (forall l b, client_scan k srv l b <> UB) /\ (forall m, client_forward_scan k srv m <> UB).
Proof. exact @other_clients_live. Qed.
Print Assumptions C106_other_clients.

(* Forwarding to arbitrary peers whose replies do not lie is defined. *)
Theorem C106_forwarder :
  forall (F M : Type) (k : link F M) sm (connect : endpoint -> list (tok F) -> outcome (list (tok F))) sorter fm its,
    well_grouped fm its -> (forall ep t, connect ep t <> UB) -> (forall ep t reply, connect ep t = Ok reply -> ~ lying_reply reply) ->
    forwards k sm connect sorter fm its <> UB.
Proof. exact @forwards_defined. Qed.
Print Assumptions C106_forwarder.

(* With gribjump servers at the other end: requests that are forwarded to the servers of their fields have defined behaviour,
   there and here, unless a request has ranges that are deadly for the message it is located at, as its owner sees it. *)
Theorem C106_deployment :
  forall (F M : Type) (k : link F M), sound_link k ->
  forall sm (sites : endpoint -> site F M) (P : endpoint -> string -> Prop) sorter,
    (forall l, Permutation.Permutation l (sorter l)) -> (forall ep, defined_world (s_world (sites ep)) (P ep)) ->
  forall (w : world F) (cfg : config), c_forward cfg = true -> w_sorter w = sorter ->
    (forall u, no_death (Forall (fun e => u_offset (l_uri e) <> UB /\ u_length (l_uri e) <> UB)) (w_list w u)) ->
    unique_listings w cfg -> (forall u listing, w_list w u = Ok listing -> placed_listing (c_ignore_ym cfg) listing) ->
    (forall u listing e ep, w_list w u = Ok listing -> In e listing -> ep_find (location (l_uri e)) sm = Some ep ->
       P ep (u_path (l_uri e))) ->
  forall reqs, extract_requests (forwarding k sm (fun ep => site_server k (sites ep)) w) cfg reqs = UB ->
    exists u listing r e ep, w_list w u = Ok listing /\ located cfg reqs listing r e /\
      ep_find (location (l_uri e)) sm = Some ep /\
      deadly (s_world (sites ep)) (u_path (l_uri e)) (as_file (l_uri e)) (r_ranges r).
Proof. exact @forwarded_requests_die. Qed.
Print Assumptions C106_deployment.

(* ... and with servers that keep their info cache and describe messages as modelled, requests within the points of the
   messages at their owners are defined *)
Theorem C106_deployment_defined :
  forall (F M : Type) (k : link F M), sound_link k ->
  forall sm (sites : endpoint -> site F M) (nodes : endpoint -> node F),
    (forall ep, sound_node (nodes ep) /\ s_world (sites ep) = node_world (nodes ep)) ->
    (forall ep, defined_outside (n_outside (nodes ep)) (n_paths (nodes ep))) ->
  forall (w : world F), (forall l, Permutation.Permutation l (w_sorter w l)) ->
  forall (cfg : config) reqs, c_forward cfg = true ->
    (forall u, no_death (Forall (fun e => u_offset (l_uri e) <> UB /\ u_length (l_uri e) <> UB)) (w_list w u)) ->
    unique_listings w cfg -> (forall u listing, w_list w u = Ok listing -> placed_listing (c_ignore_ym cfg) listing) ->
    (forall u listing e ep, w_list w u = Ok listing -> In e listing -> ep_find (location (l_uri e)) sm = Some ep ->
       n_paths (nodes ep) (u_path (l_uri e))) ->
    (forall u listing r e ep, w_list w u = Ok listing -> located cfg reqs listing r e -> ep_find (location (l_uri e)) sm = Some ep ->
       within_bitmap (n_outside (nodes ep)) e (r_ranges r)) ->
    extract_requests (forwarding k sm (fun ep => site_server k (sites ep)) w) cfg reqs <> UB.
Proof. exact @handed_requests_defined. Qed.
Print Assumptions C106_deployment_defined.

(* Requests by file and offset that name servers: undefined only if one is deadly at the server it names. *)
Theorem C106_deployment_paths :
  forall (F M : Type) (k : link F M), sound_link k ->
  forall sm (sites : endpoint -> site F M) (P : endpoint -> string -> Prop) sorter,
    (forall l, Permutation.Permutation l (sorter l)) -> (forall ep, defined_world (s_world (sites ep)) (P ep)) ->
  forall (w : world F), w_sorter w = sorter ->
  forall (cfg : config) r0 rest, let reqs := r0 :: rest in
    asks_to_forward r0 -> one_place_each reqs ->
    (forall r ep, In r reqs -> ep_find (p_host r, p_port r) sm = Some ep -> P ep (p_path r)) ->
    extract_path_requests (forwarding k sm (fun ep => site_server k (sites ep)) w) cfg reqs = UB ->
    exists r ep, In r reqs /\ ep_find (p_host r, p_port r) sm = Some ep /\
      deadly (s_world (sites ep)) (p_path r) (as_file (p_uri r)) (p_ranges r).
Proof. exact @forwarded_paths_die. Qed.
Print Assumptions C106_deployment_paths.

Theorem C106_deployment_paths_defined :
  forall (F M : Type) (k : link F M), sound_link k ->
  forall sm (sites : endpoint -> site F M) (nodes : endpoint -> node F),
    (forall ep, sound_node (nodes ep) /\ s_world (sites ep) = node_world (nodes ep)) ->
    (forall ep, defined_outside (n_outside (nodes ep)) (n_paths (nodes ep))) ->
  forall (w : world F), (forall l, Permutation.Permutation l (w_sorter w l)) ->
  forall (cfg : config) r0 rest, let reqs := r0 :: rest in
    asks_to_forward r0 -> one_place_each reqs ->
    (forall r ep, In r reqs -> ep_find (p_host r, p_port r) sm = Some ep ->
       n_paths (nodes ep) (p_path r) /\ plain_ranges (p_ranges r) /\
       ((p_offset r < two63)%N -> within_points (n_outside (nodes ep)) (p_path r) (Z.of_N (p_offset r)) (p_ranges r))) ->
    extract_path_requests (forwarding k sm (fun ep => site_server k (sites ep)) w) cfg reqs <> UB.
Proof. exact @handed_paths_defined. Qed.
Print Assumptions C106_deployment_paths_defined.

(* ... and so for the clients of a server that forwards them *)
Theorem C106_through_front :
  forall (F M : Type) (k : link F M), sound_link k ->
  forall sm (sites : endpoint -> site F M) (P : endpoint -> string -> Prop) sorter,
    (forall l, Permutation.Permutation l (sorter l)) -> (forall ep, defined_world (s_world (sites ep)) (P ep)) ->
  forall (w : world F) (cfg : config), c_forward cfg = true -> w_sorter w = sorter ->
    (forall u, no_death (Forall (fun e => u_offset (l_uri e) <> UB /\ u_length (l_uri e) <> UB)) (w_list w u)) ->
    unique_listings w cfg -> (forall u listing, w_list w u = Ok listing -> placed_listing (c_ignore_ym cfg) listing) ->
    (forall u listing e ep, w_list w u = Ok listing -> In e listing -> ep_find (location (l_uri e)) sm = Some ep ->
       P ep (u_path (l_uri e))) ->
  forall (front : site F M) reqs, s_world front = forwarding k sm (fun ep => site_server k (sites ep)) w -> s_cfg front = cfg ->
    client_extract k (site_server k front) reqs = UB ->
    exists u listing r e ep, w_list w u = Ok listing /\ located cfg reqs listing r e /\
      ep_find (location (l_uri e)) sm = Some ep /\
      deadly (s_world (sites ep)) (u_path (l_uri e)) (as_file (l_uri e)) (r_ranges r).
Proof. exact @chained_requests_die. Qed.
Print Assumptions C106_through_front.

(* the assumptions on a server hold of the one with the file of two messages *)
Theorem C106_assumptions_hold : reading_link (strict_link Q) /\ defined_site (strict_link Q) one_site one_path.
Proof. exact (conj (strict_reading Q) one_site_defined). Qed.
Print Assumptions C106_assumptions_hold.

(* junk, a wrong version, a torn request, an unknown type and a count without elements are refused *)
Example C106_refused_example :
  let srv := site_server (strict_link Q) one_site in
  srv [] = Ok [KExc "?"] /\ srv [KWords [1; 2]%N] = Ok [KExc "?"] /\ srv [KU16 2] = Ok [KExc "bug"] /\
  srv (w_header 9 "x") = Ok [KExc "bug"] /\
  srv (w_header t_extract "x" ++ [KULong 1; KStr "step=0"; KTorn]) = Ok [KExc "?"] /\
  srv (w_header t_extract "x" ++ [KULong 18446744073709551615]) = Ok [KExc "?"] /\
  srv (w_header t_forward_extract "x" ++ [KULong 1; KStr "/fdb/x.data"; KULong 0]) = Ok [KExc "assert"].
Proof. vm_compute. auto 10. Qed.
(* the three fatal requests: two ranges announced and three numbers sent; a file without items; a range beyond the four points of
   a bitmap, asked for directly and through a forwarding server *)
Example C106_fatal_example :
  let srv := site_server (strict_link Q) one_site in
  srv (w_header t_extract "x" ++ [KULong 1; KStr "param=t,step=0"; KStr "g1"; KULong 2; KWords [0; 1; 2]%N]) = UB /\
  srv (w_header t_forward_extract "x" ++
       [KULong 2; KStr "/fdb/x.data"; KULong 0; KStr "/fdb/y.data"; KULong 1] ++
       w_forward_item w_demo_uri (mk_request "" [(0, 1)]%N "", mk_uri "file" "/fdb/y.data" "" 0 (Ok 4%Z) (Throw EAssert))) = UB /\
  srv (send_extract "x" [mk_request "step=6,param=u" [(0, 2); (3, 5)]%N "g2"]) = UB /\
  srv (send_extract "x" [mk_request "step=6,param=u" [(0, 2); (3, 4)]%N "g2"]) <> UB /\
  client_extract (plain_link Q) (site_server (plain_link Q) front_site) [mk_request "step=6,param=u" [(0, 2); (3, 5)]%N "g2"] = UB.
Proof. vm_compute. repeat split; try reflexivity; discriminate. Qed.
(* replies: one value too few is read past its end, one too many is ignored *)
Example C106_reply_example :
  let ask t := client_extract (plain_link Q) (fun _ => Ok t) [mk_request "step=6,param=u" [(0, 2)]%N "g2"] in
  ask ([KULong 0; KULong 1; KULong 1; KWords [2]%N; KULong 1; KDoubles [1]%Q] ++ w_mask [[3]]%N) = UB /\
  ask ([KULong 0; KULong 1; KULong 1; KWords [2]%N; KULong 2; KDoubles [1]%Q] ++ w_mask [[3]]%N) = UB /\
  ask ([KULong 0; KULong 1; KULong 1; KWords [2]%N; KULong 2; KDoubles [1; 2; 3]%Q] ++ w_mask [[3]]%N) = Ok ([([[1; 2]]%Q, [[3]]%N)], []).
Proof. vm_compute. auto. Qed.
(* by file and offset through a forwarding process: within the four points of the bitmap, and beyond them *)
Example C106_paths_example :
  let ask l := extract_path_requests (forwarding (plain_link Q) demo_servermap data_connect front_world) front_cfg
    [mk_path_request "/fdb/y.data" "file" "h2" 7000 12 l "g2"; mk_path_request "/fdb/x.data" "file" "h1" 7000 4 [(1, 4)]%N "g1"] in
  ask [(0, 2); (3, 4)]%N <> UB /\ ask [(0, 2); (3, 5)]%N = UB.
Proof. vm_compute. split; [discriminate|reflexivity]. Qed.
