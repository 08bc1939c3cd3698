(* Properties C69 to C72 and C75: the info cache used by several threads of several processes at the same
   time.  A pool is a file system and a list of threads; a schedule says which thread makes the
   next step; a step is one access to the file system or to a member under its mutex. *)
From Verif Require Import Base ModelInfo ModelStream ModelIndex SpecIndex ModelLRU ModelCache SpecCache ModelThreads SpecThreads
  ProofsThreads2 ProofsThreads4 ProofsThreads5 ProofsThreads6.

Local Open Scope nat_scope.

(* C69.  Under every schedule, what a lookup returns is the description of the message at each
   offset, and a lookup fails only because it met an index file that was being written.
   Missing (hence _partial): it needs that no flush has emptied an existing index file. *)
Theorem C69_lookups_right_partial :
  forall (F : Type) uniq data data_offsets g P writer d cap ps,
    @sound_world F uniq data data_offsets g P writer d cap ps ->
    forall s t, reached uniq data data_offsets g d cap ps s -> h_lost (fst s) = false -> In t (snd s) ->
      Forall (lookup_right data g) (t_log t).
Proof. exact concurrent_lookup. Qed.
Print Assumptions C69_lookups_right_partial.

(* ... which is so if nobody scans, and if nobody flushes *)
Theorem C69_not_emptied :
  forall (F : Type) uniq data data_offsets g P writer d cap ps,
    @sound_world F uniq data data_offsets g P writer d cap ps ->
    no_call is_scan ps \/ no_call is_flush ps ->
    forall s, reached uniq data data_offsets g d cap ps s -> h_lost (fst s) = false.
Proof. exact concurrent_not_emptied. Qed.
Print Assumptions C69_not_emptied.

(* A flush that found no index file empties the one a scan puts in place meanwhile; a lookup that
   is reading it gets the description of another message. *)
Theorem C69_refuted_wrong_description :
  exists s, reached ex_tickets ex_data ex_offsets ex_cfg ex_empty 4 ex_archive_scan_get s /\
    In (CGet "/a/x.data" [300%Z], Ok (AInfos [sample 1%Z 5 "m0"])) (concat (map (@t_log Z) (snd s))) /\
    ex_data "/a/x.data" 300 = Ok (sample 2%Z 6 "m1").
Proof. exact lookup_wrong. Qed.
Print Assumptions C69_refuted_wrong_description.

Theorem C69_refuted_emptied :
  exists s, reached ex_tickets ex_data ex_offsets ex_cfg ex_empty 4 ex_archive_scan s /\
    map (@t_log Z) (snd s) = [[(ex_insert, Ok AUnit); (CFlush true, Ok AUnit)]; [(CScan "/a/x.data" [300%Z], Ok (ACount 1))]] /\
    h_lost (fst s) = true /\
    load_index (disk_of (fst s)) "/a/x.data.gribjump" = Ok [(0%Z, Some (sample 1%Z 5 "m0"))].
Proof. exact flush_empties. Qed.
Print Assumptions C69_refuted_emptied.

Example C69_hypotheses_hold :
  sound_world ex_tickets ex_data ex_offsets ex_cfg ex_paths ex_writer ex_empty 4 ex_archive_get /\
  sound_world ex_tickets ex_data ex_offsets ex_cfg ex_paths ex_writer ex_empty 4 ex_archive_scan /\
  sound_world ex_tickets ex_data ex_offsets ex_cfg ex_paths ex_writer ex_empty 4 ex_archive_scan_get /\
  sound_world ex_tickets ex_data ex_offsets ex_cfg ex_paths ex_writer ex_empty 4 ex_scan_scan.
Proof.
  exact (conj (ex_world _ archive_get_sound) (conj (ex_world _ archive_scan_sound)
    (conj (ex_world _ archive_scan_get_sound) (ex_world _ scan_scan_sound)))).
Qed.

(* a lookup in the middle of a scan by another process *)
Example C69_example :
  option_map (fun s => (h_lost (fst s), map (@t_log Z) (snd s)))
    (run ex_tickets ex_data ex_offsets ex_cfg (steps 12 0 ++ steps 2 1 ++ steps 16 0 ++ steps 2 1)
      (start_pool ex_empty 4 [(0, [CScan "/a/x.data" [0%Z]]); (1, [CGet "/a/x.data" [0; 300]%Z])])) =
  Some (false, [[(CScan "/a/x.data" [0%Z], Ok (ACount 1))];
                [(CGet "/a/x.data" [0; 300]%Z, Ok (AInfos [sample 1%Z 5 "m0"; sample 2%Z 6 "m1"]))]]).
Proof. vm_compute. reflexivity. Qed.

(* C70.  If nobody flushes: every call has a defined outcome, and a lookup of described messages
   with distinct offsets succeeds when extraction on demand is allowed.
   Missing (hence _partial): flushes. *)
Theorem C70_lookups_succeed_partial :
  forall (F : Type) uniq data data_offsets g P writer d cap ps,
    @sound_world F uniq data data_offsets g P writer d cap ps -> no_call is_flush ps ->
    forall s t, reached uniq data data_offsets g d cap ps s -> In t (snd s) -> Forall (good_answer data g) (t_log t).
Proof. exact concurrent_no_flush. Qed.
Print Assumptions C70_lookups_succeed_partial.

(* A lookup while another process flushes finds an empty or half-written index file and fails. *)
Theorem C70_refuted_lookup_beside_flush :
  exists s, reached ex_tickets ex_data ex_offsets ex_cfg ex_empty 4 ex_archive_get s /\
    map (@t_log Z) (snd s) = [[(ex_insert, Ok AUnit)]; [(CGet "/a/x.data" [0%Z], Throw EStream)]].
Proof. exact lookup_beside_flush. Qed.
Print Assumptions C70_refuted_lookup_beside_flush.

(* A scan that reads a file ending after an offset dereferences a null pointer. *)
Theorem C70_refuted_scan_beside_flush :
  exists s, reached ex_tickets ex_data ex_offsets ex_cfg ex_empty 4 ex_archive_scan s /\
    map (@t_log Z) (snd s) = [[(ex_insert, Ok AUnit)]; [(CScan "/a/x.data" [300%Z], UB)]].
Proof. exact scan_beside_flush. Qed.
Print Assumptions C70_refuted_scan_beside_flush.

(* four threads, no flush, interleaved step by step *)
Example C70_example :
  option_map (fun s => map (@t_log Z) (snd s))
    (run ex_tickets ex_data ex_offsets ex_cfg
       (concat (repeat [(0, false); (1, false); (2, true)] 4) ++ steps 24 0)
       (start_pool ex_empty 4 [(0, [CScan "/a/x.data" [0%Z]]); (0, [CGet "/a/x.data" [300%Z]]); (1, [CGet "/a/y.data" [0%Z]])])) =
  Some [[(CScan "/a/x.data" [0%Z], Ok (ACount 1))]; [(CGet "/a/x.data" [300%Z], Ok (AInfos [sample 2%Z 6 "m1"]))];
        [(CGet "/a/y.data" [0%Z], Ok (AInfos [sample 3%Z 7 "m2"]))]].
Proof. vm_compute. reflexivity. Qed.

(* C71.  Without scans, with flushes that append: an inserted record is staged or in the index file
   whenever its process is not flushing; and it is in the index file once its thread has flushed.
   Missing (hence _partial): scans at the same time, which replace the index file. *)
Theorem C71_inserts_kept_partial :
  forall (F : Type) uniq data data_offsets g P writer d cap ps,
    @sound_world F uniq data data_offsets g P writer d cap ps -> archiving ps ->
    forall s t p o i a, reached uniq data data_offsets g d cap ps s -> In t (snd s) ->
      p_lock (h_proc (fst s) (writer p)) = false ->
      (In (CInsert p o i, a) (t_log t) -> staged_by g (fst s) (writer p) p o i \/ filed g (fst s) p o i) /\
      (forall l1 y l2, t_log t = l1 ++ (CFlush true, Ok y) :: l2 -> In (CInsert p o i, a) l1 -> filed g (fst s) p o i).
Proof. exact concurrent_kept. Qed.
Print Assumptions C71_inserts_kept_partial.

(* The scan reads the index file, the other process inserts and flushes, the scan replaces the file. *)
Theorem C71_refuted_beside_scan :
  exists s, reached ex_tickets ex_data ex_offsets ex_cfg ex_empty 4 ex_archive_scan s /\
    map (@t_log Z) (snd s) = [[(ex_insert, Ok AUnit); (CFlush true, Ok AUnit)]; [(CScan "/a/x.data" [300%Z], Ok (ACount 1))]] /\
    load_index (disk_of (fst s)) "/a/x.data.gribjump" = Ok [(300%Z, Some (sample 2%Z 6 "m1"))].
Proof. exact scan_replaces. Qed.
Print Assumptions C71_refuted_beside_scan.

(* Of two scans at the same time one loses its records. *)
Theorem C71_refuted_two_scans :
  exists s, reached ex_tickets ex_data ex_offsets ex_cfg ex_empty 4 ex_scan_scan s /\
    map (@t_log Z) (snd s) = [[(CScan "/a/x.data" [0%Z], Ok (ACount 1))]; [(CScan "/a/x.data" [300%Z], Ok (ACount 1))]] /\
    load_index (disk_of (fst s)) "/a/x.data.gribjump" = Ok [(0%Z, Some (sample 1%Z 5 "m0"))].
Proof. exact scans_replace. Qed.
Print Assumptions C71_refuted_two_scans.

(* two threads of one process insert and flush *)
Example C71_example :
  option_map (fun s => (map (fun t => map snd (t_log t)) (snd s), omap (map fst) (load_index (disk_of (fst s)) "/a/x.data.gribjump")))
    (run ex_tickets ex_data ex_offsets ex_cfg (steps 5 0 ++ steps 24 0 ++ steps 28 1)
      (start_pool ex_empty 4 [(0, [ex_insert; CFlush true]);
                              (0, [CInsert "/a/x.data" 300%Z (sample 2%Z 6 "m1"); CFlush true])])) =
  Some ([[Ok AUnit; Ok AUnit]; [Ok AUnit; Ok AUnit]], Ok [0; 300]%Z).
Proof. vm_compute. reflexivity. Qed.

(* C72.  As long as some call has not returned, some thread can make a step: no deadlock. *)
Theorem C72_no_deadlock :
  forall (F : Type) uniq (data : string -> Z -> outcome (info F)) data_offsets g d cap ps s,
    reached uniq data data_offsets g d cap ps s -> (exists t, In t (snd s) /\ t_todo t <> []) ->
    exists k, forall b, exists s', step_pool uniq data data_offsets g k b s = Some s'.
Proof. exact @threads_progress. Qed.
Print Assumptions C72_no_deadlock.

(* Whatever the schedule, all calls of all threads return, in the order of each program, after finitely many steps:
   readers follow a file that grows only as long as somebody has something left to write. *)
Theorem C72_all_calls_return :
  forall (F : Type) uniq (data : string -> Z -> outcome (info F)) data_offsets g d cap ps s,
    reached uniq data data_offsets g d cap ps s -> comes_about uniq data data_offsets g (all_returned ps) s.
Proof. exact @all_calls_return. Qed.
Print Assumptions C72_all_calls_return.
Theorem C72_no_endless_run :
  forall (F : Type) uniq (data : string -> Z -> outcome (info F)) data_offsets g (f : nat -> @pool F),
    ~ forall n, exists k b, step_pool uniq data data_offsets g k b (f n) = Some (f (S n)).
Proof. exact @no_endless_run. Qed.
Print Assumptions C72_no_endless_run.

(* a thread that waits for the mutex while another one of its process flushes *)
Example C72_example :
  let s := run ex_tickets ex_data ex_offsets ex_cfg (steps 5 0)
             (start_pool ex_empty 4 [(0, [ex_insert; CFlush true]); (0, [ex_insert])]) in
  option_map (fun s => map (fun k => match step_pool ex_tickets ex_data ex_offsets ex_cfg k false s with Some _ => true | None => false end) [0; 1]) s =
  Some [true; false].
Proof. vm_compute. reflexivity. Qed.

(* C75.  If each file is scanned by one thread only, which is what one scan request does (C74: one
   task per file), and nothing is flushed meanwhile, then under every schedule every message of a
   scan that has returned has its true record in the index file, and no record that was there at
   the start is lost.  Without the first condition it is false: C71_refuted_two_scans. *)
Theorem C75_concurrent_scans_keep :
  forall (F : Type) uniq data data_offsets g P writer d cap ps,
    @sound_world F uniq data data_offsets g P writer d cap ps -> no_call is_flush ps ->
    forall scanner, one_scanner scanner ps ->
    forall s, reached uniq data data_offsets g d cap ps s ->
      (forall t q a p o, In t (snd s) -> In (q, Ok a) (t_log t) -> scanned data_offsets q p o ->
        exists i, data p o = Ok i /\ filed g (fst s) p o i) /\
      (forall p o i, P p -> indexed g d p o i -> filed g (fst s) p o i).
Proof. exact concurrent_scans. Qed.
Print Assumptions C75_concurrent_scans_keep.

(* the conditions hold of a pool of three threads, and the threads take turns *)
Example C75_example_world :
  sound_world ex_tickets ex_data ex_offsets ex_cfg ex_paths ex_writer ex_empty 4 ex_two_files /\ no_call is_flush ex_two_files /\
  one_scanner (fun p => if String.eqb p "/a/x.data" then 0 else 1) ex_two_files.
Proof. exact two_files_world. Qed.

Example C75_example :
  option_map (fun s => (map (fun t => map snd (t_log t)) (snd s),
                        omap (map fst) (load_index (disk_of (fst s)) "/a/x.data.gribjump"), omap (map fst) (load_index (disk_of (fst s)) "/a/y.data.gribjump")))
    (run ex_tickets ex_data ex_offsets ex_cfg (steps 20 0 ++ steps 20 1 ++ steps 40 0 ++ steps 8 1 ++ steps 5 2 ++ steps 41 0 ++ steps 23 2)
      (start_pool ex_empty 4 ex_two_files)) =
  Some ([[Ok (ACount 1); Ok (ACount 1)]; [Ok (ACount 1)]; [Ok (AInfos [sample 1%Z 5 "m0"])]], Ok [0; 300]%Z, Ok [0]%Z).
Proof. vm_compute. reflexivity. Qed.
