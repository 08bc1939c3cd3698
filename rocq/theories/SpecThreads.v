(* Vocabulary to state what calls made at the same time by several threads should do. *)
From Verif Require Import Base ModelInfo ModelStream ModelIndex SpecIndex ModelLRU ModelCache SpecCache ModelThreads.

Section Spec.
Context {F : Type}.
Notation programs := (list (nat * list (@call F))).

(* the names of temporary files are given out once, are not the names of index files, and are
   not in use at the start *)
Definition unique_names (uniq : nat -> string -> string) (g : config) (P : string -> Prop) (d : @disk F) : Prop :=
  (forall n, fresh_names (uniq n) g P) /\
  (forall n m p q, (uniq n p ++ file_ext)%string = (uniq m q ++ file_ext)%string -> n = m) /\
  (forall n p, d (uniq n p ++ file_ext)%string = None).

(* every call is about files in P and inserts what is true; records of one file are inserted by
   one process (FDB gives every writing process its own data files) *)
Definition sound_programs (data : string -> Z -> outcome (info F)) (P : string -> Prop) (writer : string -> nat)
    (ps : programs) : Prop :=
  Forall (fun e => Forall (fun q => true_call data P q /\
                                    match q with CInsert p _ _ => writer p = fst e | _ => True end) (snd e)) ps.

Definition is_flush (q : @call F) : bool := match q with CFlush _ => true | _ => false end.
Definition is_scan (q : @call F) : bool := match q with CScan _ _ | CScanFile _ _ => true | _ => false end.
Definition no_call (f : @call F -> bool) (ps : programs) : Prop :=
  Forall (fun e => Forall (fun q => f q = false) (snd e)) ps.

(* an answered lookup: not undefined; what it returns is one description per offset, each that of
   the message there; it fails only because it met an index file that was being written, if
   extraction on demand is allowed, the offsets are distinct and the messages are fine *)
Definition lookup_right (data : string -> Z -> outcome (info F)) (g : config)
    (e : @call F * outcome (@answer F)) : Prop :=
  forall p offs, fst e = CGet p offs ->
    snd e <> UB /\
    (forall ans, snd e = Ok ans ->
       exists infos, ans = AInfos infos /\ Forall2 (fun o i => data p o = Ok i) offs infos) /\
    (g_lazy g = true -> NoDup offs -> (forall o, In o offs -> exists i, data p o = Ok i) ->
       (exists infos, snd e = Ok (AInfos infos)) \/ snd e = Throw EStream).

(* the pool can be reached from threads that have just been started *)
Definition reached (uniq : nat -> string -> string) (data : string -> Z -> outcome (info F))
    (data_offsets : string -> outcome (list Z)) (g : config) (d : @disk F) (cap : nat) (ps : programs)
    (s : @pool F) : Prop :=
  exists sched, run uniq data data_offsets g sched (start_pool d cap ps) = Some s.

(* P comes about whatever the schedule: it holds, or a thread can move and P comes about after each move of each thread *)
Inductive comes_about (uniq : nat -> string -> string) (data : string -> Z -> outcome (info F))
    (data_offsets : string -> outcome (list Z)) (g : config) (P : @pool F -> Prop) (s : @pool F) : Prop :=
| comes_now : P s -> comes_about uniq data data_offsets g P s
| comes_later : (exists k b s', step_pool uniq data data_offsets g k b s = Some s') ->
    (forall k b s', step_pool uniq data data_offsets g k b s = Some s' -> comes_about uniq data data_offsets g P s') ->
    comes_about uniq data data_offsets g P s.
(* every call has returned, in the order of the program *)
Definition all_returned (ps : programs) (s : @pool F) : Prop :=
  Forall2 (fun e t => t_todo t = [] /\ map fst (t_log t) = snd e) ps (snd s).

(* what the theorems suppose: reading data files has a defined outcome, the names of the files are
   apart, the index files present at the start are true, the calls are sound *)
Definition sound_world (uniq : nat -> string -> string) (data : string -> Z -> outcome (info F))
    (data_offsets : string -> outcome (list Z)) (g : config) (P : string -> Prop) (writer : string -> nat)
    (d : @disk F) (cap : nat) (ps : programs) : Prop :=
  (forall p o, data p o <> UB) /\ (forall p, data_offsets p <> UB) /\ names_apart g P /\
  unique_names uniq g P d /\ true_disk data g P d /\ 1 <= cap /\ sound_programs data P writer ps.

(* no scans, and every flush appends: what FDB does when it archives *)
Definition archiving (ps : programs) : Prop :=
  no_call is_scan ps /\ no_call (fun q => match q with CFlush a => negb a | _ => false end) ps.

(* the file system as a map from names to contents *)
Definition disk_of (s : @shared F) : @disk F := fun q => option_map (h_data s) (h_names s q).

(* the record of offset o is in the index file of p; it is staged by process k *)
Definition filed (g : config) (s : @shared F) (p : string) (o : Z) (i : info F) : Prop :=
  exists m, load_index (disk_of s) (cache_file_path g p) = Ok m /\ mfind o m = Some (Some i).
Definition staged_by (g : config) (s : @shared F) (k : nat) (p : string) (o : Z) (i : info F) : Prop :=
  exists x, staged_find (cache_file_path g p) (p_staged (h_proc s k)) = Some x /\ mfind o (x_map x) = Some (Some i).

(* all calls have returned *)
Definition all_done (s : @pool F) : Prop := Forall (fun t => t_todo t = []) (snd s).
End Spec.

(* names for temporary files: /tmp/, u's and the extension *)
Fixpoint ex_us (n : nat) : string := match n with O => "" | S m => String "u" (ex_us m) end.
Definition ex_tickets (n : nat) (p : string) : string := ("/tmp/" ++ ex_us n)%string.
Definition ex_paths (p : string) : Prop := p = "/a/x.data"%string \/ p = "/a/y.data"%string.

Definition ex_writer (p : string) : nat := if String.eqb p "/a/x.data" then 0 else 1.
Definition ex_empty : @disk Z := fun _ => None.
Definition ex_insert : @call Z := CInsert "/a/x.data" 0%Z (sample 1%Z 5 "m0").

(* a process archives, another one looks up; scans; two processes scan *)
Definition ex_archive_get : list (nat * list (@call Z)) :=
  [(0, [ex_insert; CFlush true]); (1, [CGet "/a/x.data" [0%Z]])].
Definition ex_archive_scan : list (nat * list (@call Z)) :=
  [(0, [ex_insert; CFlush true]); (1, [CScan "/a/x.data" [300%Z]])].
Definition ex_archive_scan_get : list (nat * list (@call Z)) :=
  ex_archive_scan ++ [(2, [CGet "/a/x.data" [300%Z]])].
Definition ex_scan_scan : list (nat * list (@call Z)) :=
  [(0, [CScan "/a/x.data" [0%Z]]); (1, [CScan "/a/x.data" [300%Z]])].

(* a number of steps of thread k *)
Definition steps (n k : nat) : list (nat * bool) := repeat (k, false) n.

Section Scanning.
Context {F : Type}.
Variable data_offsets : string -> outcome (list Z).

(* the data file a call scans; the offsets it is to index *)
Definition scan_path (q : @call F) : option string :=
  match q with CScan p _ | CScanFile p _ => Some p | _ => None end.
Definition scanned (q : @call F) (p : string) (o : Z) : Prop :=
  match q with
  | CScan p' offs => p' = p /\ In o offs
  | CScanFile p' _ => p' = p /\ exists offs, data_offsets p' = Ok offs /\ In o offs
  | _ => False
  end.

(* only thread number [scanner p] scans the file p: what the engine does, which makes one task per
   file of the map it scans; a worker thread runs the tasks it pops one after the other *)
Definition one_scanner (scanner : string -> nat) (ps : list (nat * list (@call F))) : Prop :=
  forall k e q p, nth_error ps k = Some e -> In q (snd e) -> scan_path q = Some p -> scanner p = k.

(* the index file of p has a record of offset o, on a given file system *)
Definition indexed (g : config) (d : @disk F) (p : string) (o : Z) (i : info F) : Prop :=
  exists m, load_index d (cache_file_path g p) = Ok m /\ mfind o m = Some (Some i).
End Scanning.

(* two threads of one process scan two files, each in two calls; a third one looks a message up *)
Definition ex_two_files : list (nat * list (@call Z)) :=
  [(0, [CScan "/a/x.data" [300%Z]; CScan "/a/x.data" [0%Z]]); (0, [CScanFile "/a/y.data" false]); (1, [CGet "/a/x.data" [0%Z]])].
