(* Model of src/gribjump/Forwarder.cc, the forwarding tasks of Task.cc:244-277, the scanning side of
   src/gribjump/Engine.cc (250-299) with its file tasks (Task.cc:331-349), and of the engine that a server runs.

   Simplifications: an unordered_map keyed by endpoints is kept in order of insertion; an item's offset is
   parsed before the items of a file are sorted, even if there is only one; the tasks of a group run one after
   another and errors are reported in task order. *)
From Verif Require Import Base ModelRange ModelInfo ModelSimple ModelCcsds ModelStream ModelJumper ModelStrings ModelCache
  ModelEngine ModelProtocol ModelRemote.

(* eckit::net::Endpoint: host and port *)
Definition endpoint := (string * Z)%type.
Definition ep_eqb (a b : endpoint) : bool := String.eqb (fst a) (fst b) && (snd a =? snd b)%Z.
Fixpoint ep_find {V} (e : endpoint) (m : list (endpoint * V)) : option V :=
  match m with
  | [] => None
  | (e', v) :: r => if ep_eqb e e' then Some v else ep_find e r
  end.
(* m[e] = f(m[e]), the value of a new entry being d *)
Fixpoint ep_update {V} (e : endpoint) (d : V) (f : V -> V) (m : list (endpoint * V)) : list (endpoint * V) :=
  match m with
  | [] => [(e, f d)]
  | (e', v) :: r => if ep_eqb e e' then (e', f v) :: r else (e', v) :: ep_update e d f r
  end.

Section Forward.
Context {F M : Type}.
Notation stream := (list (tok F)).
Notation items := (list (string * @item F)).
Notation filemap := (list (string * list string)).

(* Config::serverMap: fdb endpoint -> gribjump endpoint *)
Variable servermap : list (endpoint * endpoint).

(* Forwarder.cc:65-75 *)
Definition server_for (u : uri) : outcome endpoint :=
  match ep_find (u_host u, u_port u) servermap with
  | Some e => Ok e
  | None => Throw ESeriousBug
  end.

(* Forwarder.cc:78-102: every file goes to the server of its first item *)
Fixpoint server_file_map_ (its : items) (fm : filemap) (acc : list (endpoint * filemap))
  : outcome (list (endpoint * filemap)) :=
  match fm with
  | [] => Ok acc
  | (fname, keys) :: r =>
      match keys with
      | [] => UB
      | k :: _ =>
          let* i := get_item its k in
          let* server := server_for (it_uri i) in
          server_file_map_ its r (ep_update server [] (fun sub => sub ++ [(fname, keys)]) acc)
      end
  end.
Definition server_file_map (its : items) (fm : filemap) : outcome (list (endpoint * filemap)) :=
  server_file_map_ its (in_key_order fm) [].

Variable error_title : N -> string.
Variable what : error -> string.
Variable context : string.
Variable w_mars : M -> stream.
Variable r_mars : @reader F M.
Variable w_uri : uri -> stream.
Variable r_uri : @reader F uri.
(* what a server sends back for what it receives; an exception: the connection fails *)
Variable connect : endpoint -> stream -> outcome stream.
Variable sorter : list (string * @item F * Z) -> list (string * @item F * Z).

(* Protocol.cc:238-239: the items of a file in ascending offset order *)
Definition sorted_file (its : items) (f : string * list string)
  : outcome (string * list (string * @item F * Z)) :=
  let* js := jobs its (snd f) in
  Ok (fst f, sorter js).
Definition to_wire (f : string * list (string * @item F * Z)) : string * list (request * uri) :=
  (fst f, map (fun j => (it_request (snd (fst j)), it_uri (snd (fst j)))) (snd f)).
(* Protocol.cc:291-294: the j-th result belongs to the j-th item of the file named before it *)
Definition by_position (files : list (string * list (string * @item F * Z))) (r : string * list (result F))
  : list (string * result F) :=
  match sfind (fst r) files with
  | Some js => combine (map (fun j => fst (fst j)) js) (snd r)
  | None => []
  end.

(* Task.cc:249-255, RemoteGribJump.cc:121-143: the results to attach to the items *)
Definition forward_task (server : endpoint) (fm : filemap) (its : items) : outcome (list (string * result F)) :=
  let* files := mapM (sorted_file its) (in_key_order fm) in
  let* (res, _) := remote_forward_extract error_title w_uri context (connect server) (map to_wire files) in
  Ok (concat (map (by_position files) res)).

(* Forwarder.cc:52-62 *)
Definition forward_extract (fm : filemap) (its : items) : outcome (list error * items) :=
  let* subs := server_file_map its fm in
  let* _ := assert_ (negb (lenN subs =? 0)%N) in
  run_tasks (map (fun s => forward_task (fst s) (snd s) its) subs) its.

(* Forwarder.cc:27-50 *)
Fixpoint server_scan_map_ (us : list uri) (acc : list (endpoint * list (string * list Z)))
  : outcome (list (endpoint * list (string * list Z))) :=
  match us with
  | [] => Ok acc
  | u :: r =>
      let* server := server_for u in
      let* o := u_offset u in
      server_scan_map_ r (ep_update server [] (spush (u_path u) o) acc)
  end.
Definition server_scan_map (us : list uri) : outcome (list (endpoint * list (string * list Z))) :=
  server_scan_map_ us [].

(* the tasks add to an atomic counter (size_t); errors are collected *)
Fixpoint count_tasks (ts : list (outcome N)) : outcome (N * list error) :=
  match ts with
  | [] => Ok (0%N, [])
  | Ok n :: t => let* (k, es) := count_tasks t in Ok (add64 n k, es)
  | Throw e :: t => let* (k, es) := count_tasks t in Ok (k, e :: es)
  | UB :: _ => UB
  end.
Definition forward_scan_task (server : endpoint) (m : list (string * list Z)) : outcome N :=
  omap fst (remote_forward_scan error_title context (connect server) m).
Definition forward_scan (us : list uri) : outcome (N * list error) :=
  let* _ := assert_ (negb (lenN us =? 0)%N) in
  let* subs := server_scan_map us in
  count_tasks (map (fun s => forward_scan_task (fst s) (snd s)) subs).

(* ---- Engine.cc:250-299 ---- *)

(* InfoCache::scan of a file with offsets, or of the whole file when there are none (Task.cc:341-349) *)
Variable scan_file : string -> list Z -> outcome N.
(* FDBLister::URIs, Lister.cc *)
Variable list_uris : list M -> outcome (list uri).
Variable list_axes : string -> Z -> outcome (list (string * list string)).

(* lines 287-299, Task.cc:335-338 *)
Definition schedule_scan (m : list (string * list Z)) : outcome (N * list error) :=
  let ts := map (fun f => scan_file (fst f) (zsort (snd f))) (in_key_order m) in
  let* _ := assert_ (negb (lenN ts =? 0)%N) in
  count_tasks ts.

(* lines 250-275 *)
Definition engine_scan (forward : bool) (reqs : list M) (byfiles : bool) : outcome (N * list error) :=
  let* us := list_uris reqs in
  match us with
  | [] => Ok (0%N, [])
  | _ =>
      if forward then forward_scan us
      else
        let* m := files_offsets us in
        schedule_scan (if byfiles then map (fun f => (fst f, [])) m else m)
  end.

(* lines 277-285: whole files, named by their paths; std::map *)
Definition engine_scan_files (names : list string) : outcome (N * list error) :=
  schedule_scan (map (fun f => (f, [])) (nodup string_dec names)).

(* ---- the engine of a server ---- *)
Variable A : farith F.
Variable aec : aec_oracle.
Variable cache_get : string -> list Z -> outcome (list (info F)).
Variable files : string -> option (list N).
Variable build_info : list N -> outcome (info F).
Variable pieces : uri -> Z -> outcome (list (list N)).
Variable fresh : Z -> list N.
Variable forward : filemap -> items -> outcome (list error * items).
Variable fdb_list : string -> outcome (list listed).
Variable cfg : config.
Variable forward_scans : bool.
Notation sched := (schedule A aec cache_get files sorter build_info pieces fresh forward cfg).

(* Engine.cc:181-205 *)
Definition engine_extract (reqs : list request)
  : outcome (list request * list (string * option (result F)) * list string) :=
  let* (u, reqs', its) := build_request_map (c_ignore_ym cfg) reqs in
  let* listing := fdb_list u in
  let* (fm, its1) := file_map (c_ignore_ym cfg) (c_allow_missing cfg) listing its in
  let* (es, its2) := sched (c_forward cfg) fm its1 in
  Ok (reqs', map (fun p => (fst p, it_result (snd p))) (collect_items its2), map what es).

(* Protocol.cc:252-272: a received item has no name; here it is named by its number of arrival *)
Fixpoint number_items (n : Z) (l : list (request * uri)) : items :=
  match l with
  | [] => []
  | (r, u) :: t => (decimal n, set_uri u (new_item r)) :: number_items (n + 1) t
  end.
Fixpoint number_files (n : Z) (m : list (string * list (request * uri))) : list (string * items) :=
  match m with
  | [] => []
  | (f, l) :: t => (f, number_items n l) :: number_files (n + Z.of_nat (length l)) t
  end.
(* the order of a file's items after its task: sorted in place, Task.cc:192-194 *)
Definition order_after (its : items) (keys : list string) : list string :=
  match jobs its keys with
  | Ok js => map (fun j => fst (fst j)) (sorter js)
  | _ => keys
  end.
(* Request.cc:140-146, Protocol.cc:274-282; dereferencing a null result is UB *)
Definition engine_forward_extract (m : list (string * list (request * uri)))
  : outcome (list (string * list (result F)) * list string) :=
  let named := number_files 0 m in
  let its := concat (map snd named) in
  let fm := map (fun f => (fst f, map fst (snd f))) named in
  let* (es, its') := sched false fm its in
  let* res := mapM (fun f =>
                let* rs := mapM (fun k => let* i := get_item its' k in
                                          match it_result i with Some r => Ok r | None => UB end)
                                (order_after its (snd f)) in
                Ok (fst f, rs)) (in_key_order fm) in
  Ok (res, map what es).

Definition with_text (x : outcome (N * list error)) : outcome (N * list string) :=
  let* (n, es) := x in Ok (n, map what es).

Definition the_engine : @engine F M :=
  mk_engine engine_extract
            (fun l byfiles => with_text (engine_scan forward_scans l byfiles))
            list_axes
            engine_forward_extract
            (fun m => with_text (schedule_scan m)).
End Forward.
