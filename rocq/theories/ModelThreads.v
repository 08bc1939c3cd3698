(* Model of several threads of several processes calling their InfoCache at the same time,
   src/gribjump/info/InfoCache.cc:107-274 and 299-413.  InfoCache is a singleton per process (lines
   41-44); the index files are common to all processes, which are configured alike.  infomutex_
   makes getCached, putCache and clear atomic (lines 109, 122, 208); stageMutex_ makes insert
   atomic and is held for the whole of flush (lines 186, 200).  Nothing else is locked between
   threads: every get and every scan has an IndexFile object of its own (getIndexFile, lines
   87-93), and the index files on disk are read and written without a lock.

   A step is: an atomic section, one system call on an index file (exists, fopen, rename), one
   primitive read from or written to an index file, or a computation on the thread's own data.
   Files are reached through inodes: a file that was opened stays the same file when another
   one is renamed over its name.  stdio and eckit buffering make what a writer writes reach the
   file in larger pieces; any piece boundary is a point of this model.  The data files do not
   change.  The name of a temporary file is fresh (eckit::PathName::unique), so the thread that
   writes it finds it under that name when it renames it. *)
From Verif Require Import Base ModelInfo ModelStream ModelIndex ModelLRU ModelCache.

(* a file: one that was there at the start, or the n-th that was created since *)
Inductive inode := Old (p : string) | New (n : nat).
Definition inode_eqb (a b : inode) : bool :=
  match a, b with
  | Old p, Old q => String.eqb p q
  | New n, New m => Nat.eqb n m
  | _, _ => false
  end.

Section Threads.
Context {F : Type}.
Notation ptr := (option (info F)).
Notation stream := (list (tok F)).

(* eckit::PathName::unique: the n-th name given out *)
Variable uniq : nat -> string -> string.
Variable data : string -> Z -> outcome (info F).
Variable data_offsets : string -> outcome (list Z).
Variable g : config.

(* the InfoCache of a process *)
Record proc := mk_proc {
  p_lru : @lru string (info F);                   (* infocache_ *)
  p_staged : list (string * @index F);            (* stagedFiles_ *)
  p_lock : bool                                   (* stageMutex_ is held by a flush *)
}.

Record shared := mk_shared {
  h_names : string -> option inode;               (* the file system: names *)
  h_data : inode -> stream;                       (* and contents *)
  h_next : nat;                                   (* files created so far *)
  h_proc : nat -> proc;                           (* the processes *)
  h_lost : bool                                   (* not in the program: an fopen "w" emptied a file that existed *)
}.

(* what an index file is loaded for *)
Inductive purpose :=
| ForGet (offs : list Z) (res : list (Z * info F))   (* get: result of getCached, line 130 *)
| ForScan (offs : list Z)                            (* line 220-221 *)
| ForScanFile (merge : bool).                        (* line 263-264 *)

(* where a thread is inside its current call *)
Inductive work :=
| WIdle                                                        (* before the call *)
| WExists (p : string) (w : purpose)                           (* IndexFile::load, line 303: path_.exists() *)
| WOpen (p : string) (w : purpose)                             (* fromFile, lines 376-380: fopen *)
| WRead (p : string) (w : purpose) (i : inode) (acc : stream)  (* decode: read so far *)
| WHave (p : string) (w : purpose) (c : option stream)         (* loaded; the content that was read *)
| WPut (p : string) (offs : list Z) (vec : list (info F))      (* get, line 181: putCache *)
| WWrite (ops : list (@file_op F)) (i : inode) (n : N)         (* scan: write(), the file i is open *)
| WFlush (append : bool) (rest : list (string * @index F))     (* flush, line 201: next staged file *)
| WFlushOpen (append : bool) (ops : list (@file_op F)) (rest : list (string * @index F))
| WFlushWrite (append : bool) (ops : list (@file_op F)) (i : inode) (rest : list (string * @index F)).

(* a thread: its process, the calls it will make (the first is the current one) and the calls
   it made *)
Record thread := mk_thread {
  t_proc : nat;
  t_work : work;
  t_todo : list (@call F);
  t_log : list (@call F * outcome (@answer F))
}.

Definition set_name (n : string -> option inode) (p : string) (i : inode) : string -> option inode :=
  fun q => if String.eqb q p then Some i else n q.
Definition set_data (d : inode -> stream) (i : inode) (s : stream) : inode -> stream :=
  fun j => if inode_eqb j i then s else d j.

(* fopen "w": a new file, or the existing one emptied *)
Definition open_new (s : shared) (p : string) : shared * inode :=
  match h_names s p with
  | Some i => (mk_shared (h_names s) (set_data (h_data s) i []) (h_next s) (h_proc s) true, i)
  | None => let i := New (h_next s) in
            (mk_shared (set_name (h_names s) p i) (set_data (h_data s) i []) (S (h_next s))
                       (h_proc s) (h_lost s), i)
  end.

(* fopen "a" *)
Definition open_append (s : shared) (p : string) : shared * inode :=
  match h_names s p with Some i => (s, i) | None => open_new s p end.

Definition append_tok (s : shared) (i : inode) (t : tok F) : shared :=
  mk_shared (h_names s) (set_data (h_data s) i (h_data s i ++ [t])) (h_next s)
            (h_proc s) (h_lost s).

(* rename of the file i, which this thread wrote under the name p, to the name q *)
Definition rename_to (s : shared) (i : inode) (p q : string) : shared :=
  mk_shared (fun r => if String.eqb r p then None else set_name (h_names s) q i r)
            (h_data s) (h_next s) (h_proc s) (h_lost s).

Definition set_proc (s : shared) (k : nat) (c : proc) : shared :=
  mk_shared (h_names s) (h_data s) (h_next s) (fun j => if Nat.eqb j k then c else h_proc s j) (h_lost s).
Definition set_lru (s : shared) (k : nat) (l : @lru string (info F)) : shared :=
  set_proc s k (mk_proc l (p_staged (h_proc s k)) (p_lock (h_proc s k))).
Definition set_staged (s : shared) (k : nat) (l : list (string * @index F)) : shared :=
  set_proc s k (mk_proc (p_lru (h_proc s k)) l (p_lock (h_proc s k))).
Definition set_lock (s : shared) (k : nat) (b : bool) : shared :=
  set_proc s k (mk_proc (p_lru (h_proc s k)) (p_staged (h_proc s k)) b).

(* one effect on the open file i of a thread; the remaining effects *)
Definition write_step (s : shared) (ops : list (@file_op F)) (i : inode) : shared * list (@file_op F) :=
  match ops with
  | OpAppend p (t :: r) :: rest => (append_tok s i t, OpAppend p r :: rest)
  | OpRename p q :: rest => (rename_to s i p q, rest)
  | _ :: rest => (s, rest)
  | [] => (s, [])
  end.

(* the call is over *)
Definition finish (t : thread) (a : outcome (@answer F)) : thread :=
  match t_todo t with
  | q :: r => mk_thread (t_proc t) WIdle r (t_log t ++ [(q, a)])
  | [] => t
  end.
Definition go (t : thread) (w : work) : thread := mk_thread (t_proc t) w (t_todo t) (t_log t).

(* get, from line 132 on, with the index file's content; then line 175-180 *)
Definition get_vec (c : option stream) (p : string) (offs : list Z) (res : list (Z * info F)) : outcome (list (info F)) :=
  let* res := get_rest data g (fun _ => c) p offs res in
  let* _ := assert_ (lenN res =? lenN offs)%N in
  mapM (pick res) offs.

(* scan after load, with the index file's content *)
Definition scan_ops (n : nat) (c : option stream) (p : string) (w : purpose) : outcome (list (@file_op F) * N) :=
  match w with
  | ForScan offs => scan_offsets (uniq n) data g (fun _ => c) p offs
  | ForScanFile m => scan_file (uniq n) data data_offsets g (fun _ => c) p m
  | ForGet _ _ => Throw ESeriousBug
  end.

(* the first step of a call; None: the thread has to wait for stageMutex_ *)
Definition start (s : shared) (t : thread) (q : @call F) : option (shared * thread) :=
  let k := t_proc t in
  match q with
  | CGet p offs =>
      match get_cached p offs (p_lru (h_proc s k)) [] with
      | Ok (res, l) =>
          Some (set_lru s k l, go t (if (lenN res =? lenN offs)%N then WHave p (ForGet offs res) None
                                   else WExists p (ForGet offs res)))
      | Throw e => Some (s, finish t (Throw e))
      | UB => Some (s, finish t UB)
      end
  | CInsert p o i =>
      if p_lock (h_proc s k) then None
      else
        let fp := cache_file_path g p in
        let x := match staged_find fp (p_staged (h_proc s k)) with Some x => x | None => get_index_file g p end in
        Some (set_staged s k (staged_set fp (x_insert x o (Some i)) (p_staged (h_proc s k))), finish t (Ok AUnit))
  | CFlush a => if p_lock (h_proc s k) then None else Some (set_lock s k true, go t (WFlush a (p_staged (h_proc s k))))
  | CScan p offs => Some (s, go t (WExists p (ForScan offs)))
  | CScanFile p m => Some (s, go t (WExists p (ForScanFile m)))
  | CClear => Some (set_lru s k (lru_clear (p_lru (h_proc s k))), finish t (Ok AUnit))
  end.

(* one step of a thread.  [half i]: another thread is in the middle of writing a primitive to
   file i; [torn]: this thread, at the end of the file, finds that part of it *)
Definition step_thread (half : inode -> bool) (torn : bool) (s : shared) (t : thread) : option (shared * thread) :=
  let k := t_proc t in
  match t_todo t with
  | [] => None
  | q :: _ =>
    match t_work t with
    | WIdle => start s t q
    | WExists p w =>
        match h_names s (cache_file_path g p) with
        | Some _ => Some (s, go t (WOpen p w))
        | None => Some (s, go t (WHave p w None))
        end
    | WOpen p w =>
        match h_names s (cache_file_path g p) with
        | Some i => Some (s, go t (WRead p w i []))
        | None => Some (s, finish t (Throw ERead))
        end
    | WRead p w i acc =>
        match nth_error (h_data s i) (length acc) with
        | Some x => Some (s, go t (WRead p w i (acc ++ [x])))
        | None => Some (s, go t (WHave p w (Some (if torn && half i then acc ++ [KTorn] else acc))))
        end
    | WHave p (ForGet offs res) c =>
        match get_vec c p offs res with
        | Ok vec => Some (s, go t (WPut p offs vec))
        | Throw e => Some (s, finish t (Throw e))
        | UB => Some (s, finish t UB)
        end
    | WHave p w c =>
        match scan_ops (h_next s) c p w with
        | Ok (OpTrunc tmp :: ops, n) => let (s, i) := open_new s tmp in Some (s, go t (WWrite ops i n))
        | Ok (_, n) => Some (s, finish t (Ok (ACount n)))
        | Throw e => Some (s, finish t (Throw e))
        | UB => Some (s, finish t UB)
        end
    | WPut p offs vec =>
        match put_cache p (combine offs vec) (p_lru (h_proc s k)) with
        | Ok l => Some (set_lru s k l, finish t (Ok (AInfos vec)))
        | Throw e => Some (s, finish t (Throw e))
        | UB => Some (s, finish t UB)
        end
    | WWrite [] i n => Some (s, finish t (Ok (ACount n)))
    | WWrite ops i n => let (s, ops) := write_step s ops i in Some (s, go t (WWrite ops i n))
    | WFlush a [] => Some (set_lock (set_staged s k []) k false, finish t (Ok AUnit))
    | WFlush a ((_, x) :: rest) =>
        (* appendToFile looks whether the file exists, line 358; write() opens a temporary file *)
        match x_flush (uniq (h_next s)) (fun q => option_map (h_data s) (h_names s q)) x a with
        | Ok (OpTrunc p :: ops) =>
            if a then Some (s, go t (WFlushOpen a (OpTrunc p :: ops) rest))
            else let (s, i) := open_new s p in Some (s, go t (WFlushWrite a ops i rest))
        | Ok ops => Some (s, go t (WFlushOpen a ops rest))
        | Throw e => Some (set_lock s k false, finish t (Throw e))
        | UB => Some (set_lock s k false, finish t UB)
        end
    | WFlushOpen a ops rest =>
        match ops with
        | OpTrunc p :: ops => let (s, i) := open_new s p in Some (s, go t (WFlushWrite a ops i rest))
        | OpAppend p _ :: _ => let (s, i) := open_append s p in Some (s, go t (WFlushWrite a ops i rest))
        | _ => Some (s, go t (WFlush a rest))
        end
    | WFlushWrite a [] i rest => Some (s, go t (WFlush a rest))
    | WFlushWrite a ops i rest => let (s, ops) := write_step s ops i in Some (s, go t (WFlushWrite a ops i rest))
    end
  end.

(* is the thread about to write a primitive longer than a tag to file i? *)
Definition mid_write (t : thread) (i : inode) : bool :=
  match t_work t with
  | WWrite (OpAppend _ (k :: _) :: _) j _ | WFlushWrite _ (OpAppend _ (k :: _) :: _) j _ =>
      inode_eqb i j && match k with KStart | KEnd => false | _ => true end
  | _ => false
  end.

Definition pool := (shared * list thread)%type.

Fixpoint set_nth {A} (n : nat) (a : A) (l : list A) : list A :=
  match l, n with
  | [], _ => []
  | _ :: r, O => a :: r
  | b :: r, S m => b :: set_nth m a r
  end.

(* thread number k makes a step *)
Definition step_pool (k : nat) (torn : bool) (s : pool) : option pool :=
  match nth_error (snd s) k with
  | None => None
  | Some t =>
      match step_thread (fun i => existsb (fun u => mid_write u i) (snd s)) torn (fst s) t with
      | Some (h, t') => Some (h, set_nth k t' (snd s))
      | None => None
      end
  end.

(* a schedule: which thread steps, and whether it sees half-written primitives *)
Fixpoint run (l : list (nat * bool)) (s : pool) : option pool :=
  match l with
  | [] => Some s
  | (k, b) :: r => match step_pool k b s with Some s => run r s | None => None end
  end.

(* threads of the given processes that are to make the given calls, on a given file system *)
Definition start_pool (d : @disk F) (capacity : nat) (programs : list (nat * list (@call F))) : pool :=
  (mk_shared (fun p => match d p with Some _ => Some (Old p) | None => None end)
             (fun i => match i with Old p => match d p with Some s => s | None => [] end | New _ => [] end)
             0 (fun _ => mk_proc (lru_new capacity) [] false) false,
   map (fun l => mk_thread (fst l) WIdle (snd l) []) programs).
End Threads.
