(* Specification vocabulary for forwarding (C49-C51). *)
From Coq Require Import Permutation.
From Verif Require Import Base ModelRange ModelInfo ModelSimple ModelStream ModelJumper ModelStrings ModelEngine
  SpecEngine ModelProtocol ModelRemote SpecRemote ModelForward.

(* the location of an item: the endpoint its URI names *)
Definition location (u : uri) : endpoint := (u_host u, u_port u).

(* the server configured for the location of an item *)
Definition serves {F} (sm : list (endpoint * endpoint)) (its : list (string * @item F)) (k : string) (ep : endpoint)
  : Prop :=
  exists i, sfind k its = Some i /\ ep_find (location (it_uri i)) sm = Some ep.

(* all items of a file have the same location *)
Definition one_location {F} (its : list (string * @item F)) (keys : list string) : Prop :=
  forall k k' i i', In k keys -> In k' keys -> sfind k its = Some i -> sfind k' its = Some i' ->
    location (it_uri i) = location (it_uri i').

(* the offsets of the items of a file are known and all different *)
Definition distinct_offsets {F} (its : list (string * @item F)) (keys : list string) : Prop :=
  exists js, jobs its keys = Ok js /\ NoDup (map snd js).

(* the files of a file map have different names, at least one item each, and distinct offsets *)
Definition forwardable {F} (its : list (string * @item F)) (fm : list (string * list string)) : Prop :=
  NoDup (map fst fm) /\ fm <> [] /\
  forall f keys, In (f, keys) fm -> keys <> [] /\ distinct_offsets its keys.

(* the owner of a file: the server of its first item *)
Definition owner {F} (sm : list (endpoint * endpoint)) (its : list (string * @item F)) (f : string * list string)
    (ep : endpoint) : Prop :=
  exists k rest, snd f = k :: rest /\ serves sm its k ep.

(* the sub maps acc are a partition of the files done, each with the owner of its files *)
Definition split_over {F} (sm : list (endpoint * endpoint)) (its : list (string * @item F))
    (done : list (string * list string)) (acc : list (endpoint * list (string * list string))) : Prop :=
  NoDup (map fst acc) /\ Permutation done (concat (map snd acc)) /\
  (forall ep sub, In (ep, sub) acc -> sub <> [] /\ forall f, In f sub -> owner sm its f ep).

(* the single (path, offset) pairs of a scan map; those of all servers; the one of a URI *)
Definition scan_entries (m : list (string * list Z)) : list (string * Z) :=
  concat (map (fun f => map (pair (fst f)) (snd f)) m).
Definition flat (m : list (endpoint * list (string * list Z))) : list (endpoint * (string * Z)) :=
  concat (map (fun s => map (pair (fst s)) (scan_entries (snd s))) m).
Definition scans (sm : list (endpoint * endpoint)) (u : uri) (x : endpoint * (string * Z)) : Prop :=
  ep_find (location u) sm = Some (fst x) /\ u_path u = fst (snd x) /\ u_offset u = Ok (snd (snd x)).

(* ---- tasks ---- *)
Section Tasks.
Context {B : Type}.
Fixpoint errors_of (ts : list (outcome B)) : list error :=
  match ts with
  | [] => []
  | Throw e :: r => e :: errors_of r
  | _ :: r => errors_of r
  end.
Fixpoint results_in (ts : list (outcome B)) : list B :=
  match ts with
  | [] => []
  | Ok b :: r => b :: results_in r
  | _ :: r => results_in r
  end.
Definition is_ub (t : outcome B) : bool := match t with UB => true | _ => false end.
End Tasks.

(* ---- a server: its data, its configuration, and what else its engine uses ---- *)
Record site F M := mk_site {
  s_world : world F;
  s_cfg : config;
  s_scan_file : string -> list Z -> outcome N;
  s_list_uris : list M -> outcome (list uri);
  s_list_axes : string -> Z -> outcome (list (string * list string));
  s_servermap : list (endpoint * endpoint);
  s_connect : endpoint -> list (tok F) -> outcome (list (tok F));
  s_forward_scans : bool
}.
Arguments s_world {F M}. Arguments s_cfg {F M}. Arguments s_scan_file {F M}. Arguments s_list_uris {F M}.
Arguments s_list_axes {F M}. Arguments s_servermap {F M}. Arguments s_connect {F M}.
Arguments s_forward_scans {F M}. Arguments mk_site {F M}.

Section Sites.
Context {F M : Type}.
Variable k : link F M.
Notation site := (site F M).

Definition site_engine (s : site) : @engine F M :=
  let w := s_world s in
  the_engine (s_servermap s) (k_title k) (k_what k) (k_context k) (s_connect s) (w_sorter w)
    (s_scan_file s) (s_list_uris s) (s_list_axes s) (w_arith w) (w_aec w) (w_cache_get w) (w_files w)
    (w_build_info w) (w_pieces w) (w_fresh w) (w_forward w) (w_list w) (s_cfg s) (s_forward_scans s).
Definition site_server (s : site) : list (tok F) -> outcome (list (tok F)) := server k (site_engine s).

(* what the task of one file gives at a site, for items as the client knows them *)
Definition site_extracts (s : site) (its : list (string * @item F)) (f : string * list string)
  : outcome (list (string * result F)) :=
  extract_file (s_world s) (c_ignore_grid (s_cfg s)) its (fst f) (snd f).

(* ---- the forwarding client ---- *)
Definition forwards (sm : list (endpoint * endpoint)) (connect : endpoint -> list (tok F) -> outcome (list (tok F)))
    (sorter : list (string * @item F * Z) -> list (string * @item F * Z)) :=
  forward_extract sm (k_title k) (k_context k) (k_w_uri k) connect sorter.
Definition forwards_to (connect : endpoint -> list (tok F) -> outcome (list (tok F)))
    (sorter : list (string * @item F * Z) -> list (string * @item F * Z)) :=
  forward_task (k_title k) (k_context k) (k_w_uri k) connect sorter.
Definition forwards_scans (sm : list (endpoint * endpoint))
    (connect : endpoint -> list (tok F) -> outcome (list (tok F))) :=
  forward_scan (F := F) sm (k_title k) (k_context k) connect.

(* what the client should get from one server: all results, or one exception with all errors *)
Definition gathered (ts : list (outcome (list (string * result F)))) : outcome (list (string * result F)) :=
  if existsb is_ub ts then UB
  else match errors_of ts with
       | [] => Ok (concat (results_in ts))
       | es => Throw (EMsg (error_text (k_title k) (map (k_what k) es)))
       end.

(* every file was extracted at its owner, and every item got the result from there *)
Definition done_at_owners (sm : list (endpoint * endpoint)) (sites : endpoint -> site)
    (its : list (string * @item F)) (fm : list (string * list string)) (its2 : list (string * @item F)) : Prop :=
  map fst its2 = map fst its /\
  (forall f keys, In (f, keys) fm -> exists ep out, owner sm its (f, keys) ep /\
     site_extracts (sites ep) its (f, keys) = Ok out /\ Permutation keys (map fst out) /\
     forall x r, In (x, r) out -> exists i, sfind x its = Some i /\ sfind x its2 = Some (set_result r i)) /\
  (forall x, ~ In x (concat (map snd fm)) -> sfind x its2 = sfind x its).

(* ---- a client that forwards ---- *)

(* the client's world with its forwarder plugged in *)
Definition forwarding (sm : list (endpoint * endpoint)) (connect : endpoint -> list (tok F) -> outcome (list (tok F)))
    (w : world F) : world F :=
  mk_world F (w_arith w) (w_aec w) (w_cache_get w) (w_files w) (w_sorter w) (w_build_info w) (w_pieces w)
    (w_fresh w) (forwards sm connect (w_sorter w)) (w_list w) (w_true_info w).

(* res is what the server of u's own location reads from its copy of the file *)
Definition answers_at (sm : list (endpoint * endpoint)) (sites : endpoint -> site) (u : uri) (r : request)
    (res : result F) : Prop :=
  exists ep, ep_find (location u) sm = Some ep /\
    let w := s_world (sites ep) in
    own_answer (w_arith w) (w_aec w) (w_files w) (w_true_info w) (c_ignore_grid (s_cfg (sites ep))) u r res.
End Sites.

(* named URIs with readable offsets, where a path has one location and an offset one name *)
Definition placed (l : list (string * uri)) : Prop :=
  (forall n u, In (n, u) l -> exists o, u_offset u = Ok o) /\
  (forall n u n' u', In (n, u) l -> In (n', u') l -> u_path u = u_path u' ->
     location u = location u' /\ (u_offset u = u_offset u' -> n = n')).
Definition placed_listing (ignore_ym : bool) (listing : list listed) : Prop :=
  placed (map (fun e => (listed_as ignore_ym e, l_uri e)) listing).
Definition placed_paths (l : list path_request) : Prop :=
  placed (map (fun r => (p_string r, p_uri r)) l).
Definition asks_to_forward (r : path_request) : Prop := p_host r <> ""%string \/ p_port r <> 0%Z.

(* ---- two servers for the examples: the value of a field is its offset plus 1000 or 2000 ---- *)
Definition demo_world (add : Z) : world Z :=
  mk_world Z (w_arith demo) (w_aec demo) (fun _ offs => Ok (map (fun o => demo_info (add + o)) offs)) (w_files demo)
    (w_sorter demo) (w_build_info demo) (w_pieces demo) (w_fresh demo) (w_forward demo) (w_list demo)
    (fun _ off i => i = demo_info (add + off)).
Definition demo_site (add : Z) : site Z Z :=
  mk_site (demo_world add) demo_cfg (fun _ offs => Ok (lenN offs)) (fun _ => Ok []) (fun _ _ => Ok []) []
    (fun _ _ => Throw EStream) false.
Definition demo_sites (ep : endpoint) : site Z Z :=
  if ep_eqb ep ("jump1"%string, 9001%Z) then demo_site 1000 else demo_site 2000.
Definition demo_servermap : list (endpoint * endpoint) :=
  [(("h1", 7000%Z), ("jump1", 9001%Z)); (("h2", 7000%Z), ("jump2", 9002%Z))]%string.
Definition demo_connect (ep : endpoint) : list (tok Z) -> outcome (list (tok Z)) :=
  site_server demo_link (demo_sites ep).
Definition demo_client : world Z := forwarding demo_link demo_servermap demo_connect demo.
Definition demo_path (host : string) (port : Z) (path : string) (off : N) : path_request :=
  mk_path_request path "file" host port off [(0, 1)]%N "g".
Definition demo_two_hosts : list path_request := [demo_path "h1" 7000 "/a" 100; demo_path "h2" 7000 "/a" 200].
Definition demo_mixed : list path_request := [demo_path "" 0 "/b" 100; demo_path "h2" 7000 "/a" 200].
