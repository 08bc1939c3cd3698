(* Model of src/gribjump/Task.cc lines 42-180 (Task, TaskGroup) together with the worker threads
   of WorkQueue.cc, as an interleaving transition system.

   Any number of requests ("clients") run at the same time; client g owns task group g, enqueues
   its tasks one by one (Task.cc:125-134), waits for them (136-159), takes the report
   (Task.h:122-126) and destroys the group.  A step is either one critical section of the queue
   mutex or of the group mutex m_, or one atomic operation on a task's status; between two steps
   of a thread any other thread may run.

   Differences from the code:
   - Task::notify stores DONE and then calls TaskGroup::notify (lines 42-45); here both are one
     step.  The status is otherwise only read by the compare-exchange of execute and cancel, which
     treat EXECUTING and DONE alike.  The same holds for FAILED in notifyError (47-50).
     ModelNotify.v takes the two apart; C107 is that nothing changes.
   - executeImpl is a step that ends with the result given by cf_result (None: returned normally,
     Some m: threw an exception with text m).  That it ends is an assumption.
   - A group's address is not reused while the model runs: group numbers are unique.
   - logging and the progress report (ModelLog.v) are left out. *)
From Verif Require Import Base ModelQueue.
Local Open Scope nat_scope.

Inductive status := PENDING | EXECUTING | DONE | FAILED | CANCELLED.          (* Task.h:60-67 *)

Definition task := (nat * nat)%type.                                          (* group, index in tasks_ *)

Record group := mk_group {
  g_status : list status;               (* one entry per element of tasks_ *)
  g_complete : nat;                     (* nComplete_ *)
  g_errors : list string;               (* errors_ *)
  g_lock : option nat;                  (* m_ held by this worker between two steps *)
  g_alive : bool                        (* the object exists *)
}.

Inductive client :=
| CEnqueue                              (* about to enqueue the next task, or to wait *)
| CPush (i : nat)                       (* task i is in tasks_, not yet in the queue *)
| CNotify                               (* pushed, notify_one still to come *)
| CWait                                 (* inside waitForTasks, about to test the condition *)
| CBlocked                              (* asleep on cv_ *)
| CReturned (errs : list string)        (* waitForTasks returned; report taken *)
| CDone (errs : list string)            (* group destroyed *)
| CThrown.                              (* left with an exception; group destroyed *)

Inductive worker :=
| WReady                                (* entering popNext *)
| WWaiting                              (* asleep on the queue's cv_ *)
| WPopped (t : task)                    (* about to call execute *)
| WRunning (t : task)                   (* inside executeImpl *)
| WNotify (t : task)                    (* executeImpl returned *)
| WFail (t : task) (m : string)         (* executeImpl threw; about to call notifyError *)
| WCancel (g : nat) (k : nat).          (* in cancelTasks, at element k; holds m_ *)

Record config := mk_config {
  cf_workers : nat;
  cf_clients : nat;
  cf_tasks : nat -> nat;                             (* number of tasks client g enqueues *)
  cf_abandon : nat -> option nat;                    (* client g throws after enqueuing this many *)
  cf_result : nat -> nat -> option string
}.

Record sys := mk_sys {
  s_queue : @wq task;
  s_groups : nat -> group;
  s_clients : nat -> client;
  s_workers : nat -> worker;
  s_ub : bool                           (* a destroyed group or task was used *)
}.

Definition new_group : group := mk_group [] 0 [] None true.
Definition sys_init : sys := mk_sys wq_new (fun _ => new_group) (fun _ => CEnqueue) (fun _ => WReady) false.

Fixpoint set_nth {A} (l : list A) (i : nat) (a : A) : list A :=
  match l, i with
  | [], _ => []
  | _ :: r, O => a :: r
  | x :: r, S j => x :: set_nth r j a
  end.

Definition set_status (G : group) (i : nat) (st : status) : group :=
  mk_group (set_nth (g_status G) i st) (g_complete G) (g_errors G) (g_lock G) (g_alive G).
Definition set_lock (G : group) (l : option nat) : group :=
  mk_group (g_status G) (g_complete G) (g_errors G) l (g_alive G).
Definition destroy (G : group) : group :=
  mk_group (g_status G) (g_complete G) (g_errors G) (g_lock G) false.

(* std::vector::push_back of a new task, lines 128-131 *)
Definition add_task (G : group) : group :=
  mk_group (g_status G ++ [PENDING]) (g_complete G) (g_errors G) (g_lock G) (g_alive G).

(* TaskGroup::notify, lines 76-91 *)
Definition complete_ok (G : group) (i : nat) : group :=
  mk_group (set_nth (g_status G) i DONE) (S (g_complete G)) (g_errors G) (g_lock G) (g_alive G).

(* TaskGroup::notifyError, lines 101-111, up to the call of cancelTasks; worker w keeps m_ *)
Definition complete_err (G : group) (i : nat) (m : string) (w : nat) : group :=
  mk_group (set_nth (g_status G) i FAILED) (S (g_complete G)) (g_errors G ++ [m]) (Some w) (g_alive G).

(* Task::cancel, lines 68-72: compare-exchange PENDING -> CANCELLED *)
Definition cancel_task (G : group) (k : nat) : group :=
  match nth_error (g_status G) k with Some PENDING => set_status G k CANCELLED | _ => G end.

(* cv_.notify_one() of the group *)
Definition wake (c : client) : client := match c with CBlocked => CWait | x => x end.

Definition upd_g (s : sys) (g : nat) (G : group) : sys :=
  mk_sys (s_queue s) (wupd (s_groups s) g G) (s_clients s) (s_workers s) (s_ub s).
Definition upd_c (s : sys) (g : nat) (c : client) : sys :=
  mk_sys (s_queue s) (s_groups s) (wupd (s_clients s) g c) (s_workers s) (s_ub s).
Definition upd_w (s : sys) (w : nat) (x : worker) : sys :=
  mk_sys (s_queue s) (s_groups s) (s_clients s) (wupd (s_workers s) w x) (s_ub s).
Definition upd_q (s : sys) (q : wq) : sys :=
  mk_sys q (s_groups s) (s_clients s) (s_workers s) (s_ub s).
Definition set_ub (s : sys) : sys :=
  mk_sys (s_queue s) (s_groups s) (s_clients s) (s_workers s) true.

(* the group a worker is about to touch *)
Definition touches (x : worker) : option nat :=
  match x with
  | WPopped t | WRunning t | WNotify t | WFail t _ => Some (fst t)
  | WCancel g _ => Some g
  | WReady | WWaiting => None
  end.

Section Step.
Variable cf : config.

Inductive step : sys -> sys -> Prop :=
(* ---- a client ---- *)
(* enqueueTask, lines 125-131 *)
| S_add : forall s g, g < cf_clients cf -> s_clients s g = CEnqueue -> g_lock (s_groups s g) = None ->
    length (g_status (s_groups s g)) < cf_tasks cf g ->
    cf_abandon cf g <> Some (length (g_status (s_groups s g))) ->
    step s (upd_c (upd_g s g (add_task (s_groups s g))) g (CPush (length (g_status (s_groups s g)))))
(* line 132: WorkQueue::push *)
| S_push : forall s g i q', g < cf_clients cf -> s_clients s g = CPush i ->
    wq_push (s_queue s) g (g, i) = Ok q' ->
    step s (upd_c (upd_q s q') g CNotify)
(* WorkQueue.cc:125: notify_one wakes a sleeping worker, if there is one *)
| S_notify : forall s g w, g < cf_clients cf -> s_clients s g = CNotify ->
    w < cf_workers cf -> s_workers s w = WWaiting ->
    step s (upd_w (upd_c s g CEnqueue) w WReady)
| S_notify_none : forall s g, g < cf_clients cf -> s_clients s g = CNotify ->
    (forall w, w < cf_workers cf -> s_workers s w <> WWaiting) ->
    step s (upd_c s g CEnqueue)
(* an exception while tasks are still being created: the group is destroyed *)
| S_abandon : forall s g, g < cf_clients cf -> s_clients s g = CEnqueue ->
    cf_abandon cf g = Some (length (g_status (s_groups s g))) ->
    step s (upd_c (upd_g s g (destroy (s_groups s g))) g CThrown)
(* waitForTasks with no task: the ASSERT of line 138 throws *)
| S_wait_none : forall s g, g < cf_clients cf -> s_clients s g = CEnqueue ->
    cf_tasks cf g = 0 -> cf_abandon cf g = None ->
    step s (upd_c (upd_g s g (destroy (s_groups s g))) g CThrown)
(* waitForTasks, lines 136-144 *)
| S_wait : forall s g, g < cf_clients cf -> s_clients s g = CEnqueue ->
    length (g_status (s_groups s g)) = cf_tasks cf g -> cf_tasks cf g <> 0 ->
    cf_abandon cf g <> Some (cf_tasks cf g) ->
    step s (upd_c s g CWait)
(* the condition of line 147 holds: return; report() moves the errors out *)
| S_return : forall s g, g < cf_clients cf -> s_clients s g = CWait -> g_lock (s_groups s g) = None ->
    g_complete (s_groups s g) = length (g_status (s_groups s g)) ->
    step s (upd_c s g (CReturned (g_errors (s_groups s g))))
(* it does not hold: sleep *)
| S_block : forall s g, g < cf_clients cf -> s_clients s g = CWait -> g_lock (s_groups s g) = None ->
    g_complete (s_groups s g) <> length (g_status (s_groups s g)) ->
    step s (upd_c s g CBlocked)
(* the TaskGroup goes out of scope *)
| S_destroy : forall s g errs, g < cf_clients cf -> s_clients s g = CReturned errs ->
    step s (upd_c (upd_g s g (destroy (s_groups s g))) g (CDone errs))
(* ---- a worker ---- *)
(* popNext *)
| S_pop : forall s w g t q', w < cf_workers cf -> s_workers s w = WReady ->
    wq_pop (s_queue s) = Ok (PTask g t q') ->
    step s (upd_w (upd_q s q') w (WPopped t))
| S_sleep : forall s w, w < cf_workers cf -> s_workers s w = WReady ->
    wq_pop (s_queue s) = Ok PBlocks ->
    step s (upd_w s w WWaiting)
(* execute, lines 57-62: compare-exchange PENDING -> EXECUTING *)
| S_start : forall s w g i, w < cf_workers cf -> s_workers s w = WPopped (g, i) ->
    g_alive (s_groups s g) = true -> nth_error (g_status (s_groups s g)) i = Some PENDING ->
    step s (upd_w (upd_g s g (set_status (s_groups s g) i EXECUTING)) w (WRunning (g, i)))
(* lines 59-61: it was not pending any more: execute returns *)
| S_skip : forall s w g i st, w < cf_workers cf -> s_workers s w = WPopped (g, i) ->
    g_alive (s_groups s g) = true -> nth_error (g_status (s_groups s g)) i = Some st -> st <> PENDING ->
    step s (upd_w s w WReady)
(* executeImpl returns or throws *)
| S_finish : forall s w g i, w < cf_workers cf -> s_workers s w = WRunning (g, i) ->
    g_alive (s_groups s g) = true ->
    step s (upd_w s w (match cf_result cf g i with None => WNotify (g, i) | Some m => WFail (g, i) m end))
(* notify *)
| S_ok : forall s w g i, w < cf_workers cf -> s_workers s w = WNotify (g, i) ->
    g_alive (s_groups s g) = true -> g_lock (s_groups s g) = None ->
    step s (upd_w (upd_c (upd_g s g (complete_ok (s_groups s g) i)) g (wake (s_clients s g))) w WReady)
(* notifyError *)
| S_err : forall s w g i m, w < cf_workers cf -> s_workers s w = WFail (g, i) m ->
    g_alive (s_groups s g) = true -> g_lock (s_groups s g) = None ->
    step s (upd_w (upd_c (upd_g s g (complete_err (s_groups s g) i m w)) g (wake (s_clients s g))) w (WCancel g 0))
(* cancelTasks, lines 119-123, one element *)
| S_cancel : forall s w g k, w < cf_workers cf -> s_workers s w = WCancel g k ->
    g_alive (s_groups s g) = true -> k < length (g_status (s_groups s g)) ->
    step s (upd_w (upd_g s g (cancel_task (s_groups s g) k)) w (WCancel g (S k)))
(* the end of notifyError: m_ is released *)
| S_unlock : forall s w g k, w < cf_workers cf -> s_workers s w = WCancel g k ->
    g_alive (s_groups s g) = true -> length (g_status (s_groups s g)) <= k ->
    step s (upd_w (upd_g s g (set_lock (s_groups s g) None)) w WReady)
(* a worker touches a group that no longer exists *)
| S_dangling : forall s w g, w < cf_workers cf -> touches (s_workers s w) = Some g ->
    g_alive (s_groups s g) = false -> s_ub s = false ->
    step s (set_ub s).

(* std::condition_variable::wait may return without a notification; the thread then tests its condition again *)
Inductive wakeup : sys -> sys -> Prop :=
| W_client : forall s g, g < cf_clients cf -> s_clients s g = CBlocked -> wakeup s (upd_c s g CWait)
| W_worker : forall s w, w < cf_workers cf -> s_workers s w = WWaiting -> wakeup s (upd_w s w WReady).

(* executions: any number of steps and of such wake-ups *)
Inductive steps : sys -> sys -> Prop :=
| steps_refl : forall s, steps s s
| steps_next : forall s s' s'', steps s s' -> step s' s'' -> steps s s''
| steps_woken : forall s s' s'', steps s s' -> wakeup s' s'' -> steps s s''.

(* n steps and k wake-ups *)
Inductive nsteps : nat -> nat -> sys -> sys -> Prop :=
| nsteps_O : forall s, nsteps 0 0 s s
| nsteps_S : forall n k s s' s'', nsteps n k s s' -> step s' s'' -> nsteps (S n) k s s''
| nsteps_woken : forall n k s s' s'', nsteps n k s s' -> wakeup s' s'' -> nsteps n (S k) s s''.

Definition reachable (s : sys) : Prop := steps sys_init s.

(* no thread can move, unless it is woken without a notification *)
Definition stuck (s : sys) : Prop := forall s', ~ step s s'.
End Step.
