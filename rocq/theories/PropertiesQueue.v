(* Properties C27-C35: the work queue, the worker threads and the task groups. *)
From Verif Require Import Base ModelQueue ModelTask SpecQueue ProofsQueue ProofsPool ProofsTask ProofsTask2 ProofsTask3 ProofsRuns.
From Coq Require Import Permutation.
Open Scope nat_scope.

(* C27.  For every history of pushes, pops and close: no call hits one of the queue's own
   assertions; per group, what was handed out followed by what is queued is what was pushed,
   in order; over all groups nothing is lost, duplicated or invented. *)
Theorem C27_conserves :
  forall (T : Type) (ops : list (@qop T)), exists q l,
    q_run (wq_new, mk_qlog [] []) ops = Ok (q, l) /\
    (forall g, of_group g (l_popped l) ++ queue_of q g = of_group g (l_pushed l)) /\
    Permutation (l_popped l ++ queued q) (l_pushed l).
Proof. exact @queue_conserves. Qed.
Print Assumptions C27_conserves.

(* two groups: tasks 1 2 3 of group 7, task 9 of group 5 *)
Example C27_example :
  q_run (wq_new, mk_qlog [] []) [QPush 7 1; QPush 7 2; QPush 5 9; QPop; QPush 7 3; QPop; QPop; QClose; QPush 7 4] =
  Ok (mk_wq true [(7, [3])] [7], mk_qlog [(7, 1); (7, 2); (5, 9); (7, 3)] [(7, 1); (5, 9); (7, 2)]).
Proof. reflexivity. Qed.

(* C28.  The groups with queued work are those of the rotation (C30).  Whatever is pushed and
   popped from here on, the next dispatches are one task for each group of the present rotation,
   in that order. *)
Theorem C28_rotation :
  forall (T : Type) (q : @wq T) l ops q' l',
    q_reachable q l -> q_run (q, l) ops = Ok (q', l') ->
    exists P, l_popped l' = l_popped l ++ P /\
      firstn (length (q_order q)) (map fst P) = firstn (length P) (q_order q).
Proof. exact @queue_fair. Qed.
Print Assumptions C28_rotation.

(* A group with the groups pre ahead of it is served right after one task of each of those. *)
Theorem C28_bound :
  forall (T : Type) (q : @wq T) l g pre post ops q' l',
    q_reachable q l -> q_order q = pre ++ g :: post -> q_run (q, l) ops = Ok (q', l') ->
    exists P, l_popped l' = l_popped l ++ P /\
      (length pre < length P -> map fst (firstn (S (length pre)) P) = pre ++ [g]) /\
      (length P <= length pre -> map fst P = firstn (length P) pre) /\ NoDup (pre ++ [g]).
Proof. exact @queue_bound. Qed.
Print Assumptions C28_bound.

(* group 1 has three tasks, group 2 arrives later and is served second; group 3, later still, third *)
Example C28_example :
  omap (fun s => l_popped (snd s))
    (q_run (wq_new, mk_qlog [] []) [QPush 1 10; QPush 1 11; QPush 1 12; QPush 2 20; QPop; QPush 3 30; QPop; QPop; QPop; QPop]) =
  Ok [(1, 10); (2, 20); (1, 11); (3, 30); (1, 12)].
Proof. reflexivity. Qed.

(* C29.  A stopped worker means the queue is closed and empty. *)
Theorem C29_stops_when_empty :
  forall (T : Type) (n : nat) (s : @pool T) w,
    0 < n -> pool_reach n pool_init s -> p_workers s w = PStopped ->
    q_closed (p_q s) = true /\ queued (p_q s) = [].
Proof. exact @worker_stops. Qed.
Print Assumptions C29_stops_when_empty.

(* When the destructor's joins return, the executed tasks are exactly the accepted ones. *)
Theorem C29_all_executed :
  forall (T : Type) (n : nat) (s : @pool T),
    0 < n -> pool_reach n pool_init s -> (forall w, w < n -> p_workers s w = PStopped) ->
    Permutation (p_executed s) (p_pushed s).
Proof. exact @all_stopped. Qed.
Print Assumptions C29_all_executed.

(* After close no push is accepted. *)
Theorem C29_push_refused :
  forall (T : Type) (q : @wq T) g t, q_closed q = true -> wq_push q g t = Throw EAssert.
Proof. exact @push_refused. Qed.
Print Assumptions C29_push_refused.

(* And the joins do return: after close every step and every wake-up uses up a finite budget, and as
   long as a worker has not stopped some worker, or the notify_all, can move. *)
Theorem C29_terminates :
  forall (T : Type) (n : nat) (s : @pool T),
    0 < n -> pool_reach n pool_init s -> q_closed (p_q s) = true ->
    (forall s', pool_reach n s s' -> q_closed (p_q s') = true /\ p_pushed s' = p_pushed s /\
       ((exists w, w < n /\ p_workers s' w <> PStopped) -> exists s'', worker_moves n s' s'')) /\
    (forall s1 s2, pool_reach n s s1 -> pool_step n s1 s2 \/ pool_woken n s1 s2 -> pmeasure n s2 < pmeasure n s1).
Proof. exact @shutdown. Qed.
Print Assumptions C29_terminates.

(* a task queued before close is still handed out; then the worker is told to stop *)
Example C29_example :
  let* q := wq_push (@wq_new nat) 4 40 in
  let* p := wq_pop (wq_close q) in
  match p with
  | PTask g t q' => let* p' := wq_pop q' in
                    Ok (g, t, match p' with PStop => true | _ => false end)
  | _ => Throw EAssert end = Ok (4, 40, true).
Proof. reflexivity. Qed.

(* C30 *)
Theorem C30_mentions_exactly :
  forall (T : Type) (q : @wq T) l, q_reachable q l ->
    NoDup (q_order q) /\ NoDup (map fst (q_groups q)) /\
    (forall g, In g (q_order q) <-> exists t, In (g, t) (queued q)) /\
    (forall g, In g (map fst (q_groups q)) <-> exists t, In (g, t) (queued q)).
Proof. exact @queue_mentions. Qed.
Print Assumptions C30_mentions_exactly.

Theorem C30_forgotten_after_last :
  forall (T : Type) (q : @wq T) l g t q',
    q_reachable q l -> wq_pop q = Ok (PTask g t q') -> queue_of q g = [t] -> ~ mentions q' g.
Proof. exact @pop_last. Qed.
Print Assumptions C30_forgotten_after_last.

Example C30_example :
  omap fst (q_run (wq_new, mk_qlog [] []) [QPush 7 1; QPush 5 9; QPush 5 8; QPop]) =
  Ok (mk_wq false [(5, [9; 8])] [5]).
Proof. reflexivity. Qed.

(* C31.  When waiting has returned, every task of the group has run: it is DONE, or FAILED if its
   executeImpl threw; none is queued, popped or executing, now or in any later state (a returned
   client stays returned, C31_stays). *)
Theorem C31_returned_means_finished :
  forall cf, no_abandon cf -> forall s g e, reachable cf s -> returned s g e ->
    length (g_status (s_groups s g)) = cf_tasks cf g /\
    (forall i, i < cf_tasks cf g ->
       nth_error (g_status (s_groups s g)) i = Some (match cf_result cf g i with None => DONE | Some _ => FAILED end)) /\
    (forall i, ~ in_flight s g i) /\
    Permutation e (failures cf g).
Proof. exact returned_spec. Qed.
Print Assumptions C31_returned_means_finished.

Theorem C31_stays :
  forall cf s s' g e, steps cf s s' -> returned s g e -> returned s' g e.
Proof. exact returned_steps. Qed.
Print Assumptions C31_stays.

(* both requests of the schedule return; the second with the message of its failing task *)
Example C31_example :
  option_map (fun s => (s_clients s 0, s_clients s 1, g_status (s_groups s 1))) (play ok_cf sys_init ok_schedule) =
  Some (CDone [], CDone ["no such file"%string], [DONE; FAILED]).
Proof. vm_compute. reflexivity. Qed.

(* C32.  Any number of workers, of requests and of tasks; other requests may fail (and hang). *)
Theorem C32_successful_request_completes :
  forall cf, no_abandon cf -> 0 < cf_workers cf ->
  forall s g, reachable cf s -> g < cf_clients cf -> cf_tasks cf g <> 0 ->
    (forall i j, i < cf_tasks cf g -> j < cf_tasks cf g -> i <> j -> cf_result cf g j = None) ->
    completes cf s g.
Proof. exact completes_if. Qed.
Print Assumptions C32_successful_request_completes.

(* So a request that completes is not kept from it by a run without end, unless threads are woken again
   and again without having been notified. *)
Theorem C32_no_endless_run :
  forall cf s g (run : nat -> sys), completes cf s g -> run 0 = s ->
  (forall i, step cf (run i) (run (S i)) \/ wakeup cf (run i) (run (S i))) ->
  forall i, exists j, i <= j /\ wakeup cf (run j) (run (S j)).
Proof. exact no_endless_run. Qed.
Print Assumptions C32_no_endless_run.

(* Every reachable state can be run to the end, and the only clients that never get an answer are
   those with a cancelled task. *)
Theorem C32_settles :
  forall cf, no_abandon cf -> 0 < cf_workers cf ->
  forall s, reachable cf s -> exists s', steps cf s s' /\ asleep cf s'.
Proof. exact settles. Qed.
Print Assumptions C32_settles.

Theorem C32_who_is_left :
  forall cf, no_abandon cf -> 0 < cf_workers cf ->
  forall s g, reachable cf s -> asleep cf s -> g < cf_clients cf -> cf_tasks cf g <> 0 ->
    (exists e, s_clients s g = CDone e) \/
    (s_clients s g = CBlocked /\ exists i, i < cf_tasks cf g /\ nth_error (g_status (s_groups s g)) i = Some CANCELLED).
Proof. exact outcome_of_client. Qed.
Print Assumptions C32_who_is_left.

(* C33 is false: one worker, two tasks, the first fails.  The second is cancelled, nobody counts
   it, and the waiter sleeps for ever. *)
Theorem C33_refuted :
  exists s, reachable hang_cf s /\ asleep hang_cf s /\ s_clients s 0 = CBlocked /\
    g_errors (s_groups s 0) = ["grid hash mismatch"%string].
Proof. exact hang_found. Qed.
Print Assumptions C33_refuted.

(* In general: once a task has been cancelled, waiting for its group never returns. *)
Theorem C33_cancelled_hangs :
  forall cf, no_abandon cf -> forall s s' g i e,
    reachable cf s -> nth_error (g_status (s_groups s g)) i = Some CANCELLED -> steps cf s s' -> ~ returned s' g e.
Proof. exact cancelled_hangs. Qed.
Print Assumptions C33_cancelled_hangs.

(* What remains true: a request of a single task completes, failing or not. *)
Theorem C33_partial :
  forall cf, no_abandon cf -> 0 < cf_workers cf ->
  forall s g, reachable cf s -> g < cf_clients cf -> cf_tasks cf g = 1 -> completes cf s g.
Proof. exact completes_single. Qed.
Print Assumptions C33_partial.

(* C34.  The errors returned are one message per failing task. *)
Theorem C34_errors_exact :
  forall cf, no_abandon cf -> forall s g e, reachable cf s -> returned s g e ->
    Permutation e (failures cf g) /\
    (e = [] <-> forall i, i < cf_tasks cf g -> cf_result cf g i = None).
Proof. exact errors_exact. Qed.
Print Assumptions C34_errors_exact.

(* Workers survive failures: a worker is always in its loop, and when nothing moves any more all
   workers are back asleep in popNext with an empty queue. *)
Theorem C34_workers_survive :
  forall cf, no_abandon cf -> 0 < cf_workers cf ->
  forall s, reachable cf s -> (exists s', step cf s s') \/
    (asleep cf s /\ queued (s_queue s) = []).
Proof. exact workers_survive. Qed.
Print Assumptions C34_workers_survive.

Example C34_example : failures ok_cf 1 = ["no such file"%string] /\ failures ok_cf 0 = [].
Proof. split; reflexivity. Qed.

(* C35 is false: a request that throws after enqueuing a task destroys the group while the task
   is queued; a worker then uses the destroyed task. *)
Theorem C35_refuted : exists s, reachable abandon_cf s /\ s_ub s = true.
Proof. exact dangling_found. Qed.
Print Assumptions C35_refuted.

(* When no request is interrupted between its first enqueueTask and waitForTasks, no destroyed
   group or task is ever used. *)
Theorem C35_partial :
  forall cf, no_abandon cf -> forall s, reachable cf s ->
    s_ub s = false /\ (forall g i, in_flight s g i -> g_alive (s_groups s g) = true).
Proof. exact never_dangling. Qed.
Print Assumptions C35_partial.
