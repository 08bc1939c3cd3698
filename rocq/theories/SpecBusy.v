(* Forwarded requests, and scans, whose tasks are run by workers among those of other requests (C105). *)
From Coq Require Import Permutation.
From Verif Require Import Base ModelInfo ModelStream ModelJumper ModelStrings ModelCache ModelEngine ModelQueue ModelTask ModelProtocol ModelRemote ModelForward
  SpecQueue SpecEngine SpecRemote SpecForward SpecConcurrent.

Section Busy.
Context {F M : Type}.
Variable k : link F M.
Variable sm : list (endpoint * endpoint).
Variable connect : endpoint -> list (tok F) -> outcome (list (tok F)).
Notation items := (list (string * @item F)).
Notation filemap := (list (string * list string)).
Notation work := (outcome (list (string * result F))).

(* the tasks of the servers, in some order *)
Definition server_tasks (w : world F) (its : items) (order : list (endpoint * filemap)) : list work :=
  map (fun s => forwards_to k connect (w_sorter w) (fst s) (snd s) its) order.

(* up to the scheduling of the tasks: the names of the requests, the items, and the task of every server; an
   unordered_map gives the servers in any order *)
Definition prepared_forward (w : world F) (cfg : ModelEngine.config) (reqs : list request) (keys : list string) (its : items)
    (ts : list work) : Prop :=
  exists u reqs' its0 listing fm subs order,
    build_request_map (c_ignore_ym cfg) reqs = Ok (u, reqs', its0) /\ w_list w u = Ok listing /\
    file_map (c_ignore_ym cfg) (c_allow_missing cfg) listing its0 = Ok (fm, its) /\
    server_file_map sm its fm = Ok subs /\ Permutation subs order /\ ts = server_tasks w its order /\
    keys = map r_string reqs'.
Definition prepared_forward_paths (w : world F) (reqs : list path_request) (keys : list string) (its : items)
    (ts : list work) : Prop :=
  exists subs order,
    its = build_uris_map reqs /\ server_file_map sm its (file_map_from_paths its) = Ok subs /\ Permutation subs order /\
    ts = server_tasks w its order /\ keys = map p_string reqs.

(* the tasks of a scan: one for every file, or one for every server *)
Definition scan_tasks (scan_file : string -> list Z -> outcome N) (m : list (string * list Z)) : list (outcome N) :=
  map (fun f => scan_file (fst f) (zsort (snd f))) (in_key_order m).
Definition server_scan_tasks (order : list (endpoint * list (string * list Z))) : list (outcome N) :=
  map (fun s => forward_scan_task (F := F) (k_title k) (k_context k) connect (fst s) (snd s)) order.
End Busy.

(* std::atomic<size_t>: its value after the tasks have ended in this order *)
Definition count_after (ts : list (outcome N)) (order : list nat) : N :=
  fold_left (fun n i => match nth_error ts i with Some (Ok m) => add64 n m | _ => n end) order 0%N.

(* two servers, that of h2 first *)
Definition far_requests : list path_request :=
  [demo_path "h2" 7000 "/b" 200; demo_path "h1" 7000 "/a" 300; demo_path "h2" 7000 "/b" 100].
Definition far_items : list (string * @item Z) := build_uris_map far_requests.
Definition far_order : list (endpoint * list (string * list string)) :=
  match server_file_map demo_servermap far_items (file_map_from_paths far_items) with Ok subs => rev subs | _ => [] end.
Definition far_tasks := server_tasks demo_link demo_connect demo far_items far_order.
(* three files, the second cannot be read *)
Definition far_scan (p : string) (offs : list Z) : outcome N :=
  if String.eqb p "/b" then Throw (EMsg "no such file") else Ok (lenN offs).
Definition far_scans : list (outcome N) := scan_tasks far_scan [("/b"%string, [7]); ("/c"%string, [4; 2]); ("/a"%string, [5; 1; 3])]%Z.
