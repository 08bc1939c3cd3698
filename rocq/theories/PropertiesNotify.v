(* C107: storing a task's status and reporting the task are two steps, and condition variables may wake up for nothing. *)
From Verif Require Import Base ModelInfo ModelEngine ModelQueue ModelTask ModelNotify SpecEngine SpecQueue SpecConcurrent SpecNotify
  ProofsNotify ProofsNotify2.
From Verif Require Import ProofsRuns.
From Coq Require Import Permutation.
Local Open Scope nat_scope.

(* every execution of the finer system is one of ModelTask: same queue, clients and workers, the same order in which tasks
   end, and the same groups but for the statuses stored and not yet reported *)
Theorem C107_seen_as :
  forall cf f h, no_abandon cf -> fruns cf f h -> exists s, runs cf s h /\ seen_as cf f s.
Proof. exact (fun cf f h NA => sim_runs cf NA f h). Qed.
Print Assumptions C107_seen_as.

(* and none is lost *)
Theorem C107_nothing_lost :
  forall cf s h, no_abandon cf -> runs cf s h -> exists f, fruns cf f h /\ seen_as cf f s.
Proof. exact (fun cf s h NA => back_runs cf NA s h). Qed.
Print Assumptions C107_nothing_lost.

Theorem C107_histories :
  forall cf f, no_abandon cf -> f_reachable cf f -> exists h, fruns cf f h.
Proof. exact (fun cf f NA => f_reachable_runs cf f). Qed.
Print Assumptions C107_histories.

(* when waitForTasks has returned, every task of the group has its final status, no thread will touch the group any more,
   and the report has exactly the messages of the tasks that failed *)
Theorem C107_returned :
  forall cf f g e, no_abandon cf -> f_reachable cf f -> returned (fst f) g e ->
    length (g_status (s_groups (fst f) g)) = cf_tasks cf g /\
    (forall i, i < cf_tasks cf g ->
       nth_error (g_status (s_groups (fst f) g)) i = Some (match cf_result cf g i with None => DONE | Some _ => FAILED end)) /\
    (forall i, ~ in_flight (fst f) g i) /\
    Permutation e (failures cf g).
Proof. exact (fun cf f g e NA => f_returned cf NA f g e). Qed.
Print Assumptions C107_returned.

(* the call returns what the sequential engine returns (C88) *)
Theorem C107_answer :
  forall (F : Type) (w : world F) text cf g cfg reqs keys its ts f h errs,
    sound_world w -> unique_listings w cfg -> c_forward cfg = false -> prepared w cfg reqs keys its ts ->
    no_abandon cf -> runs_tasks text cf g ts -> fruns cf f h -> returned (fst f) g errs ->
    answer_of keys errs (items_after ts (of_group g h) its) = extract_requests w cfg reqs.
Proof. exact (fun F => @f_answer F). Qed.
Print Assumptions C107_answer.

(* no destroyed group or task is used, also not by the store *)
Theorem C107_never_dangling :
  forall cf f, no_abandon cf -> f_reachable cf f -> s_ub (fst f) = false /\
    (forall g i, in_flight (fst f) g i -> g_alive (s_groups (fst f) g) = true).
Proof. exact (fun cf f NA => f_never_dangling cf NA f). Qed.
Print Assumptions C107_never_dangling.

(* a request of which no other task can fail gets its answer *)
Theorem C107_completes :
  forall cf, no_abandon cf -> 0 < cf_workers cf ->
  forall f g, f_reachable cf f -> g < cf_clients cf -> cf_tasks cf g <> 0 ->
    (forall i j, i < cf_tasks cf g -> j < cf_tasks cf g -> i <> j -> cf_result cf g j = None) ->
    f_completes cf f g.
Proof. exact (fun cf NA NW f g => f_completes_if cf NA NW f g). Qed.
Print Assumptions C107_completes.

Theorem C107_no_endless_run :
  forall cf f g (run : nat -> fsys), f_completes cf f g -> run 0 = f ->
  (forall i, fstep cf (run i) (run (S i)) \/ fwoken cf (run i) (run (S i))) ->
  forall i, exists j, i <= j /\ fwoken cf (run j) (run (S j)).
Proof. exact f_no_endless_run. Qed.
Print Assumptions C107_no_endless_run.

(* no thread waits for ever for a lock or a notification, but in the states in which all are asleep *)
Theorem C107_progress :
  forall cf f, no_abandon cf -> 0 < cf_workers cf -> f_reachable cf f -> (exists f', fstep cf f f') \/ asleep cf (fst f).
Proof. exact (fun cf f NA NW => f_progress cf NA NW f). Qed.
Print Assumptions C107_progress.

Theorem C107_schedules :
  forall cf l f f', f_play cf f l = Some f' -> fsteps cf f f'.
Proof. exact f_play_steps. Qed.
Print Assumptions C107_schedules.

(* both statuses are there and no task is counted; then both are reported *)
Example C107_example :
  let show f := (s_clients (fst f) 0, g_status (s_groups (fst f) 0), g_complete (s_groups (fst f) 0)) in
  option_map show (f_play late_cf f_init late_stored) = Some (CBlocked, [DONE; FAILED], 0) /\
  option_map show (f_play late_cf f_init (late_stored ++ late_reported)) = Some (CDone ["no such file"%string], [DONE; FAILED], 2).
Proof. vm_compute. split; reflexivity. Qed.
