(* Model of InfoCache, src/gribjump/info/InfoCache.cc:31-274: the in-memory cache, the staged
   index files and the scans.  A call either returns or throws; the object keeps its state after
   an exception, so the functions return the new state beside the outcome. *)
From Coq Require Import DecimalString.
From Verif Require Import Base ModelInfo ModelStream ModelIndex ModelLRU.

(* std::to_string(long long) *)
Definition decimal (z : Z) : string := NilZero.string_of_int (Z.to_int z).

(* cachekey, lines 34-36 *)
Definition cachekey (path : string) (off : Z) : string := (base_name path ++ decimal off)%string.

(* std::sort on offsets: insertion sort *)
Fixpoint zinsert (z : Z) (l : list Z) : list Z :=
  match l with [] => [z] | x :: r => if (z <=? x)%Z then z :: l else x :: zinsert z r end.
Definition zsort (l : list Z) : list Z := fold_right zinsert [] l.

Section Cache.
Context {F : Type}.
Notation ptr := (option (info F)).
Notation lruc := (@lru string (info F)).

(* eckit::PathName::unique *)
Variable uniq : string -> string.
(* InfoExtractor::extract(path, offset), InfoExtractor.cc:104-121: reads the data file *)
Variable data : string -> Z -> outcome (info F).
(* InfoExtractor::offsets(path), InfoExtractor.cc:141-167 *)
Variable data_offsets : string -> outcome (list Z).

(* the members that do not change after construction, lines 48-77 *)
Record config := mk_config { g_shadow : bool; g_dir : string; g_lazy : bool }.
Variable g : config.

(* cacheFilePath, lines 79-85 *)
Definition cache_file_path (path : string) : string :=
  if g_shadow g then (path ++ file_ext)%string
  else (g_dir g ++ "/" ++ base_name path ++ file_ext)%string.

Record cache := mk_cache {
  c_disk : @disk F;                          (* not a member: the file system *)
  c_lru : lruc;                              (* infocache_ *)
  c_staged : list (string * @index F)        (* stagedFiles_ *)
}.

(* getIndexFile, lines 87-93 *)
Definition get_index_file (path : string) : @index F := new_index (cache_file_path path).

(* getCached, lines 107-118 *)
Fixpoint get_cached (path : string) (offs : list Z) (c : lruc) (res : list (Z * info F))
  : outcome (list (Z * info F) * lruc) :=
  match offs with
  | [] => Ok (res, c)
  | o :: r =>
      if lru_exists string_dec c (cachekey path o) then
        let* (v, c) := lru_get string_dec c (cachekey path o) in
        get_cached path r c (mset o v res)
      else get_cached path r c res
  end.

(* putCache, lines 120-126 *)
Fixpoint put_cache (path : string) (l : list (Z * info F)) (c : lruc) : outcome lruc :=
  match l with
  | [] => Ok c
  | (o, v) :: r => let* c := lru_put string_dec c (cachekey path o) v in put_cache path r c
  end.

Definition absent {A} (m : list (Z * A)) (o : Z) : bool :=
  match mfind o m with Some _ => false | None => true end.

(* the part of get below getCached, lines 132-173: completes the map of results *)
Definition get_rest (d : @disk F) (path : string) (offs : list Z) (res : list (Z * info F))
  : outcome (list (Z * info F)) :=
  if (lenN res =? lenN offs)%N then Ok res
  else
    let file_offs := filter (absent res) offs in
    let* fileinfos := x_get d (get_index_file path) file_offs in
    let missing := filter (absent fileinfos) file_offs in
    (* result[offset] = fileinfos[offset], line 157 *)
    let res := fold_left (fun m o => match mfind o fileinfos with
                                     | Some (Some i) => mset o i m
                                     | _ => m end) file_offs res in
    match missing with
    | [] => Ok res
    | _ => if g_lazy g then
             let* uinfos := mapM (data path) missing in
             Ok (fold_left (fun m e => mset (fst e) (snd e) m) (combine missing uinfos) res)
           else Throw EExtractionDisabled
    end.

(* result[offset], line 179: a missing entry would give a null pointer *)
Definition pick (m : list (Z * info F)) (o : Z) : outcome (info F) :=
  match mfind o m with Some i => Ok i | None => UB end.

(* get, lines 128-182 *)
Definition c_get (c : cache) (path : string) (offs : list Z) : cache * outcome (list (info F)) :=
  match get_cached path offs (c_lru c) [] with
  | Ok (res, l1) =>
      let c1 := mk_cache (c_disk c) l1 (c_staged c) in
      match (let* res := get_rest (c_disk c) path offs res in
             let* _ := assert_ (lenN res =? lenN offs)%N in
             let* vec := mapM (pick res) offs in
             let* l2 := put_cache path (combine offs vec) l1 in
             Ok (vec, l2)) with
      | Ok (vec, l2) => (mk_cache (c_disk c) l2 (c_staged c), Ok vec)
      | Throw e => (c1, Throw e)
      | UB => (c1, UB)
      end
  | Throw e => (c, Throw e)
  | UB => (c, UB)
  end.

Fixpoint staged_find (p : string) (l : list (string * @index F)) : option index :=
  match l with [] => None | (q, x) :: r => if String.eqb p q then Some x else staged_find p r end.

Fixpoint staged_set (p : string) (x : @index F) (l : list (string * @index F)) :=
  match l with
  | [] => [(p, x)]
  | (q, y) :: r => if String.eqb p q then (q, x) :: r else (q, y) :: staged_set p x r
  end.

(* insert, lines 184-197 *)
Definition c_insert (c : cache) (path : string) (off : Z) (i : info F) : cache :=
  let fp := cache_file_path path in
  let x := match staged_find fp (c_staged c) with Some x => x | None => get_index_file path end in
  mk_cache (c_disk c) (c_lru c) (staged_set fp (x_insert x off (Some i)) (c_staged c)).

(* flush, lines 199-205 *)
Fixpoint flush_all (append : bool) (l : list (string * @index F)) (d : @disk F) : outcome (@disk F) :=
  match l with
  | [] => Ok d
  | (_, x) :: r => let* ops := x_flush uniq d x append in flush_all append r (apply_ops d ops)
  end.

Definition c_flush (c : cache) (append : bool) : cache * outcome unit :=
  match flush_all append (c_staged c) (c_disk c) with
  | Ok d => (mk_cache d (c_lru c) [], Ok tt)
  | Throw e => (c, Throw e)
  | UB => (c, UB)
  end.

(* clear, lines 207-210 *)
Definition c_clear (c : cache) : cache := mk_cache (c_disk c) (lru_clear (c_lru c)) (c_staged c).

Definition insert_all (x : @index F) (l : list (Z * info F)) : index :=
  fold_left (fun x e => x_insert x (fst e) (Some (snd e))) l x.

(* scan at given offsets, lines 212-251: disk effects and the returned count *)
Definition scan_offsets (d : @disk F) (path : string) (offs : list Z) : outcome (list file_op * N) :=
  let* x := x_load d (get_index_file path) in
  let new_offs := filter (fun o => match x_find x o with Some _ => false | None => true end) offs in
  match new_offs with
  | [] => Ok ([], 0%N)
  | _ =>
      let sorted := zsort new_offs in
      let* infos := mapM (data path) sorted in
      let* ops := x_write uniq (insert_all x (combine sorted infos)) in
      Ok (ops, lenN infos)
  end.

(* scan of a whole file, lines 253-274; extractor.extract(path) is InfoExtractor.cc:88-102 *)
Definition scan_file (d : @disk F) (path : string) (merge : bool) : outcome (list file_op * N) :=
  if merge then
    let* offs := data_offsets path in scan_offsets d path offs
  else
    let* x := x_reload d (get_index_file path) in
    let* offs := data_offsets path in
    let* infos := mapM (data path) offs in
    let* ops := x_write uniq (insert_all x (combine offs infos)) in
    Ok (ops, lenN infos).

Definition c_scan (c : cache) (r : outcome (list file_op * N)) : cache * outcome N :=
  match r with
  | Ok (ops, n) => (mk_cache (apply_ops (c_disk c) ops) (c_lru c) (c_staged c), Ok n)
  | Throw e => (c, Throw e)
  | UB => (c, UB)
  end.

(* one call on the InfoCache *)
Inductive call :=
| CGet (path : string) (offs : list Z)
| CInsert (path : string) (off : Z) (i : info F)
| CFlush (append : bool)
| CScan (path : string) (offs : list Z)
| CScanFile (path : string) (merge : bool)
| CClear.

Inductive answer := AInfos (l : list (info F)) | ACount (n : N) | AUnit.

Definition c_call (c : cache) (q : call) : cache * outcome answer :=
  match q with
  | CGet p offs => let (c, r) := c_get c p offs in (c, omap AInfos r)
  | CInsert p o i => (c_insert c p o i, Ok AUnit)
  | CFlush a => let (c, r) := c_flush c a in (c, omap (fun _ => AUnit) r)
  | CScan p offs => let (c, r) := c_scan c (scan_offsets (c_disk c) p offs) in (c, omap ACount r)
  | CScanFile p m => let (c, r) := c_scan c (scan_file (c_disk c) p m) in (c, omap ACount r)
  | CClear => (c_clear c, Ok AUnit)
  end.

(* a history of calls: the answers, in order *)
Fixpoint c_calls (c : cache) (l : list call) : cache * list (call * outcome answer) :=
  match l with
  | [] => (c, [])
  | q :: r => let (c1, a) := c_call c q in let (c2, rest) := c_calls c1 r in (c2, (q, a) :: rest)
  end.

(* the state of a process that starts on a given file system *)
Definition cache_new (d : @disk F) (capacity : nat) : cache := mk_cache d (lru_new capacity) [].
End Cache.
