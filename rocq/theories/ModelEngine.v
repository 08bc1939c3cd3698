(* Model of src/gribjump/Engine.cc, Lister.cc, the extraction tasks of Task.cc, LocalGribJump.cc
   and ExtractionItem.h: from a batch of requests to the list of results.

   Simplifications: an eckit::URI is a record whose fragment and length query are given as what
   std::stoll makes of them; metrics, timers and logs are left out; tasks of a group are run one
   after another (ModelTask/ModelQueue treat their scheduling; the tasks of a group work on
   different items), an item set by a task that later fails keeps its old result here (never
   looked at: the errors are raised first). *)
From Verif Require Import Base ModelRange ModelInfo ModelSimple ModelCcsds ModelJumper ModelStrings ModelCache.

(* eckit::URI *)
Record uri := mk_uri {
  u_scheme : string;
  u_path : string;
  u_host : string;
  u_port : Z;
  u_offset : outcome Z;     (* ExtractionItem.h:66-78, URIHelper.h:20-31: stoll of the fragment *)
  u_length : outcome Z      (* Task.cc:297-299: stoll of the "length" query *)
}.
(* the default-constructed URI of an item that was not located *)
Definition no_uri : uri := mk_uri "" "" "" 0%Z (Throw EBadValue) (Throw EAssert).
(* URIHelper.h:33 *)
Definition is_remote (u : uri) : bool := String.eqb (u_scheme u) "fdb".

(* ExtractionData.h ExtractionRequest *)
Record request := mk_request {
  r_string : string;
  r_ranges : list interval;
  r_hash : string
}.
(* ExtractionData.h:98-119 PathExtractionRequest *)
Record path_request := mk_path_request {
  p_path : string;
  p_scheme : string;
  p_host : string;
  p_port : Z;
  p_offset : N;
  p_ranges : list interval;
  p_hash : string
}.
(* ExtractionData.cc:214-227 *)
Definition p_string (r : path_request) : string :=
  (p_scheme r ++ ":" ++ p_path r ++ "#" ++ decimal (Z.of_N (p_offset r)))%string.
Definition p_request (r : path_request) : request := mk_request (p_string r) (p_ranges r) (p_hash r).
(* Engine.cc:131-134; std::stoll of a decimal beyond long long throws std::out_of_range *)
Definition p_uri (r : path_request) : uri :=
  mk_uri (p_scheme r) (p_path r) (p_host r) (p_port r)
         (if (p_offset r <? two63)%N then Ok (Z.of_N (p_offset r)) else Throw EOutOfRange)
         (Throw EAssert).

(* ---- canonical form of a request, Engine.cc:43-90 ---- *)

(* lines 48-51: what makes the loop drop year and month *)
Definition triggers (s : string) : bool :=
  contains "year" s && contains "month" s && contains "date" s.

(* lines 59-65: the key and value of a token that is kept *)
Definition kept (drop : bool) (kv : string) : option (string * string) :=
  match split "="%char kv with
  | [k; v] => if drop && (String.eqb k "year" || String.eqb k "month") then None else Some (k, v)
  | _ => None
  end.
Definition is_kept (drop : bool) (kv : string) : bool :=
  match kept drop kv with Some _ => true | None => false end.

(* lines 53-67: kvs_sanitized *)
Definition sanitized (drop : bool) (s : string) : list string :=
  filter (is_kept drop) (split ","%char s).

(* lines 71-77: a comma after every element that differs from the last one *)
Fixpoint join_ (back : string) (l : list string) : string :=
  match l with
  | [] => ""
  | kv :: r => (kv ++ (if String.eqb kv back then "" else ",") ++ join_ back r)%string
  end.
Definition join (l : list string) : string := join_ (last l ""%string) l.

(* lines 53-77 *)
Definition canonical (drop : bool) (s : string) : string :=
  join (ssort (fun kv => kv) (sanitized drop s)).

(* line 65 *)
Definition add_pairs (drop : bool) (s : string) (kv : list (string * list string))
  : list (string * list string) :=
  fold_left (fun m t => match kept drop t with Some (k, v) => sset_insert k v m | None => m end)
            (split ","%char s) kv.

(* lines 94-115: the union request *)
Definition union_string (kv : list (string * list string)) : string :=
  ("retrieve," ++
   String.concat "," (map (fun p => (fst p ++ "=" ++ String.concat "/" (ssort (fun v => v) (snd p)))%string)
                          (in_key_order kv)))%string.

Section Engine.
Context {F : Type}.
Variable A : farith F.
Variable aec : aec_oracle.

(* ExtractionItem.h:95-103; the result pointer is None once it has been moved out *)
Record item := mk_item {
  it_request : request;
  it_uri : uri;
  it_result : option (result F)
}.
(* ExtractionItem.h:34-35 *)
Definition new_item (r : request) : item := mk_item r no_uri (Some ([], [])).
Definition set_uri (u : uri) (i : item) : item := mk_item (it_request i) u (it_result i).
Definition set_result (r : result F) (i : item) : item := mk_item (it_request i) (it_uri i) (Some r).
Definition take_result (i : item) : item := mk_item (it_request i) (it_uri i) None.

Notation items := (list (string * item)).
(* filemap_t: file name -> items, each named by its key in the item map *)
Notation filemap := (list (string * list string)).

(* ---- building the item map ---- *)

(* Engine.cc:43-90, one request *)
Record build_state := mk_build {
  b_drop : bool;
  b_pairs : list (string * list string);
  b_requests : list request;                (* the caller's requests, rewritten so far *)
  b_items : items
}.
Definition build_step (ignore_ym : bool) (b : build_state) (r : request) : outcome build_state :=
  let s := r_string r in
  let drop := b_drop b || (ignore_ym && triggers s) in
  let c := canonical drop s in
  match sfind c (b_items b) with
  | Some _ => Throw ESeriousBug
  | None =>
      let r' := mk_request c (r_ranges r) (r_hash r) in
      Ok (mk_build drop (add_pairs drop s (b_pairs b)) (b_requests b ++ [r'])
                   (semplace c (new_item r') (b_items b)))
  end.
Fixpoint build_loop (ignore_ym : bool) (b : build_state) (l : list request) : outcome build_state :=
  match l with
  | [] => Ok b
  | r :: t => let* b' := build_step ignore_ym b r in build_loop ignore_ym b' t
  end.
(* Engine.cc:35-122: the union request (as text), the rewritten requests, the items *)
Definition build_request_map (ignore_ym : bool) (l : list request)
  : outcome (string * list request * items) :=
  let* b := build_loop ignore_ym (mk_build false [] [] []) l in
  Ok (union_string (b_pairs b), b_requests b, b_items b).

(* Engine.cc:125-139 *)
Definition build_uris_map (l : list path_request) : items :=
  fold_left (fun m r => semplace (p_string r) (set_uri (p_uri r) (new_item (p_request r))) m) l [].

(* ---- listing ---- *)

(* fdb5::ListElement: combined key (distinct names) and full URI *)
Record listed := mk_listed { l_key : list (string * string); l_uri : uri }.

(* Lister.cc:59-82 *)
Definition fdbkey_to_str (ignore_ym : bool) (key : list (string * string)) : string :=
  let keys := in_key_order key in
  let erase := ignore_ym && existsb (fun p => String.eqb (fst p) "date") keys in
  let keys := if erase
              then filter (fun p => negb (String.eqb (fst p) "year" || String.eqb (fst p) "month")) keys
              else keys in
  String.concat "," (map (fun p => (fst p ++ "=" ++ snd p)%string)
                         (filter (fun p => negb (String.eqb (snd p) "")) keys)).

(* Lister.cc:98-125, one element: file map, items, count *)
Definition list_step (ignore_ym : bool) (st : filemap * items * N) (e : listed) : filemap * items * N :=
  let '(fm, its, count) := st in
  let key := fdbkey_to_str ignore_ym (l_key e) in
  match sfind key its with
  | None => st
  | Some _ => (spush (u_path (l_uri e)) key fm, supdate key (set_uri (l_uri e)) its, count + 1)%N
  end.
(* Lister.cc:85-154 *)
Definition file_map (ignore_ym allow_missing : bool) (listing : list listed) (its : items)
  : outcome (filemap * items) :=
  let '(fm, its', count) := fold_left (list_step ignore_ym) listing ([], its, 0%N) in
  if negb (count =? lenN its')%N && negb allow_missing then Throw EDataNotFound
  else Ok (fm, its').

(* Lister.cc:156-188 *)
Definition file_map_from_paths (its : items) : filemap :=
  fold_left (fun fm p => spush (u_path (it_uri (snd p))) (fst p) fm) (in_key_order its) [].

(* Lister.cc:195-211 *)
Fixpoint files_offsets_ (us : list uri) (m : list (string * list Z)) : outcome (list (string * list Z)) :=
  match us with
  | [] => Ok m
  | u :: r => let* o := u_offset u in files_offsets_ r (spush (u_path u) o m)
  end.
Definition files_offsets (us : list uri) : outcome (list (string * list Z)) := files_offsets_ us [].

(* ---- extraction tasks, Task.cc:183-236 and 280-321 ---- *)

(* InfoCache::get; the bytes of a data file (None: it cannot be opened) *)
Variable cache_get : string -> list Z -> outcome (list (info F)).
Variable files : string -> option (list N).
(* std::sort with the comparator of Task.cc:193-194 *)
Variable sorter : list (string * item * Z) -> list (string * item * Z).

(* items by key: an ExtractionItem* is always valid, a dangling one is UB *)
Definition get_item (its : items) (k : string) : outcome item :=
  match sfind k its with Some i => Ok i | None => UB end.
(* the items of a file with their offsets *)
Definition jobs (its : items) (keys : list string) : outcome (list (string * item * Z)) :=
  mapM (fun k => let* i := get_item its k in
                 let* o := u_offset (it_uri i) in
                 Ok (k, i, o)) keys.

(* Task.cc:216-235 *)
Fixpoint extract_loop (ignore_grid : bool) (bytes : list N) (l : list (string * item * Z))
                      (infos : list (info F)) : outcome (list (string * result F)) :=
  match l with
  | [] => Ok []
  | (k, i, o) :: t =>
      match infos with
      | [] => UB
      | inf :: infos' =>
          let hash := r_hash (it_request i) in
          if negb ignore_grid && String.eqb hash "" then Throw EBadValue
          else if negb ignore_grid && negb (String.eqb hash (i_md5 inf)) then Throw EBadValue
          else
            let* res := extract A aec bytes o inf (r_ranges (it_request i)) in
            let* rest := extract_loop ignore_grid bytes t infos' in
            Ok ((k, res) :: rest)
      end
  end.

(* Task.cc:190-236 *)
Definition file_task (ignore_grid : bool) (its : items) (path : string) (keys : list string)
  : outcome (list (string * result F)) :=
  let* js := jobs its keys in
  let sorted := sorter js in
  let* infos := cache_get path (map snd sorted) in
  match files path with
  | None => Throw ERead
  | Some bytes => extract_loop ignore_grid bytes sorted infos
  end.

(* InfoFactory::build on a memory handle, at offset 0 *)
Variable build_info : list N -> outcome (info F).
(* fdb.read(uri): the pieces its read() calls deliver before the first empty one; the initial
   contents of a fresh buffer of the given length *)
Variable pieces : uri -> Z -> outcome (list (list N)).
Variable fresh : Z -> list N.

(* Task.cc:304-313: every piece is stored at the start of the buffer *)
Definition read_loop (buffer : list N) (ps : list (list N)) : list N :=
  fold_left (fun b p => p ++ skipn (length p) b) ps buffer.

(* Task.cc:290-320 *)
Fixpoint inefficient_loop (l : list (string * item * Z)) : outcome (list (string * result F)) :=
  match l with
  | [] => Ok []
  | (k, i, _) :: t =>
      let u := it_uri i in
      if negb (String.eqb (u_scheme u) "fdb") then Throw ESeriousBug
      else
        let* n := u_length u in
        if (n <? 0)%Z then Throw EBadAlloc
        else
          let* ps := pieces u n in
          let buffer := read_loop (fresh n) ps in
          let* inf := build_info buffer in
          let* res := extract A aec buffer 0 inf (r_ranges (it_request i)) in
          let* rest := inefficient_loop t in
          Ok ((k, res) :: rest)
  end.
Definition inefficient_task (its : items) (keys : list string) : outcome (list (string * result F)) :=
  let* js := jobs its keys in
  inefficient_loop (sorter js).

(* ---- scheduling, Engine.cc:153-179 ---- *)

(* Forwarder::extract *)
Variable forward_extract : filemap -> items -> outcome (list error * items).

Record config := mk_config {
  c_ignore_ym : bool;
  c_allow_missing : bool;
  c_ignore_grid : bool;
  c_inefficient : bool;
  c_forward : bool
}.

(* lines 164-176: which task serves the file *)
Definition task_for (cfg : config) (its : items) (g : string * list string)
  : outcome (outcome (list (string * result F))) :=
  match snd g with
  | [] => UB
  | k :: _ =>
      let* i := get_item its k in
      if is_remote (it_uri i) then
        if c_inefficient cfg then Ok (inefficient_task its (snd g)) else Throw ESeriousBug
      else Ok (file_task (c_ignore_grid cfg) its (fst g) (snd g))
  end.

(* what the group leaves behind: results of the tasks that succeed, errors of the others *)
Fixpoint run_tasks (ts : list (outcome (list (string * result F)))) (its : items)
  : outcome (list error * items) :=
  match ts with
  | [] => Ok ([], its)
  | Ok rs :: t => run_tasks t (fold_left (fun m p => supdate (fst p) (set_result (snd p)) m) rs its)
  | Throw e :: t => let* x := run_tasks t its in Ok (e :: fst x, snd x)
  | UB :: _ => UB
  end.

Definition schedule (cfg : config) (forward : bool) (fm : filemap) (its : items)
  : outcome (list error * items) :=
  if forward then forward_extract fm its
  else
    let* ts := mapM (task_for cfg its) (in_key_order fm) in
    (* TaskGroup::waitForTasks, Task.cc:138: ASSERT(tasks_.size() > 0) *)
    let* _ := assert_ (negb (lenN ts =? 0)%N) in
    run_tasks ts its.

(* Task.cc:171-180 raiseErrors *)
Definition raise_errors (es : list error) : outcome unit :=
  match es with [] => Ok tt | _ => Throw ESeriousBug end.

(* Engine.cc:238-248 *)
Definition collect_items (its : items) : items :=
  fold_left (fun m p => sset (r_string (it_request (snd p))) (snd p) m) (in_key_order its) [].

(* LocalGribJump.cc:95-101 *)
Fixpoint take_all (keys : list string) (m : items) : outcome (list (result F)) :=
  match keys with
  | [] => Ok []
  | k :: t =>
      match sfind k m with
      | None => Throw EAssert
      | Some i =>
          match it_result i with
          | None => Throw EAssert
          | Some r => let* rest := take_all t (supdate k take_result m) in Ok (r :: rest)
          end
      end
  end.
(* LocalGribJump.cc:89-119 *)
Definition collect_results (keys : list string) (m : items) : outcome (list (result F)) :=
  let* _ := assert_ (lenN m =? lenN keys)%N in
  take_all keys m.

(* MarsParser, ASSERT(unionRequests.size() == 1) and FDB::list of the union request *)
Variable fdb_list : string -> outcome (list listed).

(* LocalGribJump.cc:121-129, Engine.cc:181-205 *)
Definition local_extract (cfg : config) (reqs : list request) : outcome (list (result F)) :=
  let* (u, reqs', its) := build_request_map (c_ignore_ym cfg) reqs in
  let* listing := fdb_list u in
  let* (fm, its1) := file_map (c_ignore_ym cfg) (c_allow_missing cfg) listing its in
  let* (es, its2) := schedule cfg (c_forward cfg) fm its1 in
  let* _ := raise_errors es in
  collect_results (map r_string reqs') (collect_items its2).

(* LocalGribJump.cc:131-139, Engine.cc:208-236; requests[0] of an empty vector is UB *)
Definition local_extract_paths (cfg : config) (reqs : list path_request) : outcome (list (result F)) :=
  let its := build_uris_map reqs in
  let fm := file_map_from_paths its in
  match reqs with
  | [] => UB
  | r0 :: _ =>
      let forward := negb (String.eqb (p_host r0) "" && (p_port r0 =? 0)%Z) in
      let* (es, its2) := schedule cfg forward fm its in
      let* _ := raise_errors es in
      collect_results (map p_string reqs) (collect_items its2)
  end.

(* LocalGribJump.cc:62-87: directly from a file *)
Variable extractor : string -> list Z -> outcome (list (info F)).
Fixpoint direct_loop (bytes : list N) (offs : list Z) (infos : list (info F))
                     (ranges : list (list interval)) : outcome (list (result F)) :=
  match offs with
  | [] => Ok []
  | o :: offs' =>
      match infos, ranges with
      | inf :: infos', l :: ranges' =>
          let* res := extract A aec bytes o inf l in
          let* rest := direct_loop bytes offs' infos' ranges' in
          Ok (res :: rest)
      | _, _ => UB
      end
  end.
Definition direct_extract (path : string) (offs : list Z) (ranges : list (list interval))
  : outcome (list (result F)) :=
  let* infos := extractor path offs in
  match files path with
  | None => Throw ERead
  | Some bytes => direct_loop bytes offs infos ranges
  end.

(* ---- GribJump.cc:60-107 ---- *)
Definition api_extract (cfg : config) (reqs : list request) : outcome (list (result F)) :=
  match reqs with [] => Throw EUser | _ => local_extract cfg reqs end.
Definition api_extract_paths (cfg : config) (reqs : list path_request) : outcome (list (result F)) :=
  match reqs with [] => Throw EUser | _ => local_extract_paths cfg reqs end.
Definition api_extract_direct (path : string) (offs : list Z) (ranges : list (list interval))
  : outcome (list (result F)) :=
  if String.eqb path "" then Throw EUser
  else if (lenN offs =? 0)%N then Throw EUser
  else if negb (lenN offs =? lenN ranges)%N then Throw EUser
  else direct_extract path offs ranges.
End Engine.
Arguments mk_item {F}. Arguments it_request {F}. Arguments it_uri {F}. Arguments it_result {F}.
Arguments mk_build {F}. Arguments b_drop {F}. Arguments b_pairs {F}. Arguments b_requests {F}.
Arguments b_items {F}.
