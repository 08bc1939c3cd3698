(* Model of src/gribjump/remote/WorkQueue.cc: the round-robin queue of tasks (lines 78-126) and
   the loop of its worker threads (lines 50-76).
   Every method body runs under the queue's mutex, so a concurrent execution is a sequence of
   whole method calls.  A TaskGroup* is a number, a Task is an element of T.  The unordered_map
   is an association list (its iteration order is not used). *)
From Verif Require Import Base.
Local Open Scope nat_scope.

Section Queue.
Context {T : Type}.

Record wq := mk_wq {
  q_closed : bool;                          (* closed_ *)
  q_groups : list (nat * list T);           (* groupQueues_ *)
  q_order : list nat                        (* rrOrder_, front first *)
}.

Definition wq_new : wq := mk_wq false [] [].

Fixpoint gfind (g : nat) (m : list (nat * list T)) : option (list T) :=
  match m with [] => None | (g', q) :: r => if Nat.eqb g g' then Some q else gfind g r end.

Fixpoint gset (g : nat) (q : list T) (m : list (nat * list T)) : list (nat * list T) :=
  match m with [] => [] | (g', q') :: r => if Nat.eqb g g' then (g', q) :: r else (g', q') :: gset g q r end.

Definition gerase (g : nat) (m : list (nat * list T)) : list (nat * list T) :=
  filter (fun e => negb (Nat.eqb g (fst e))) m.

(* push, lines 110-126 *)
Definition wq_push (q : wq) (g : nat) (t : T) : outcome wq :=
  if q_closed q then Throw EAssert
  else match gfind g (q_groups q) with
       | None => Ok (mk_wq false ((g, [t]) :: q_groups q) (q_order q ++ [g]))
       | Some l => Ok (mk_wq false (gset g (l ++ [t]) (q_groups q)) (q_order q))
       end.

(* what popNext does when it is entered, lines 78-108 *)
Inductive popped := PBlocks                         (* goes to sleep on the condition variable *)
                  | PStop                           (* returns false *)
                  | PTask (g : nat) (t : T) (q : wq).

Definition wq_pop (q : wq) : outcome popped :=
  match q_order q with
  | [] => Ok (if q_closed q then PStop else PBlocks)
  | g :: order =>
      match gfind g (q_groups q) with
      | Some (t :: rest) =>
          Ok (PTask g t (match rest with
                         | [] => mk_wq (q_closed q) (gerase g (q_groups q)) order
                         | _ => mk_wq (q_closed q) (gset g rest (q_groups q)) (order ++ [g])
                         end))
      | _ => Throw EAssert                          (* lines 93-94 *)
      end
  end.

(* the destructor, lines 30-34 *)
Definition wq_close (q : wq) : wq := mk_wq true (q_groups q) (q_order q).

(* a history of calls made by any threads *)
Inductive qop := QPush (g : nat) (t : T) | QPop | QClose.

(* what was accepted and what was handed out, oldest first *)
Record qlog := mk_qlog { l_pushed : list (nat * T); l_popped : list (nat * T) }.

Definition q_step (s : wq * qlog) (o : qop) : outcome (wq * qlog) :=
  let (q, l) := s in
  match o with
  | QPush g t => match wq_push q g t with
                 | Ok q' => Ok (q', mk_qlog (l_pushed l ++ [(g, t)]) (l_popped l))
                 | Throw _ => Ok (q, l)             (* the caller gets the exception *)
                 | UB => UB
                 end
  | QPop => let* p := wq_pop q in
            match p with
            | PTask g t q' => Ok (q', mk_qlog (l_pushed l) (l_popped l ++ [(g, t)]))
            | _ => Ok (q, l)
            end
  | QClose => Ok (wq_close q, l)
  end.

Fixpoint q_run (s : wq * qlog) (ops : list qop) : outcome (wq * qlog) :=
  match ops with [] => Ok s | o :: r => let* s' := q_step s o in q_run s' r end.

(* all queued tasks *)
Definition queued (q : wq) : list (nat * T) := flat_map (fun e => map (pair (fst e)) (snd e)) (q_groups q).
Definition queue_of (q : wq) (g : nat) : list T := match gfind g (q_groups q) with Some l => l | None => [] end.

(* ---- the worker pool, workerLoop and destructor, with any number of threads ---- *)
Inductive pworker := PReady | PWaiting | PBusy (g : nat) (t : T) | PStopped.

Record pool := mk_pool {
  p_q : wq;
  p_workers : nat -> pworker;               (* threads 0 .. n-1 *)
  p_notify : nat;                           (* pushes whose notify_one is still to come *)
  p_closing : bool;                         (* the queue is closed, notify_all is still to come *)
  p_pushed : list (nat * T);
  p_executed : list (nat * T)               (* tasks whose run() has returned or thrown *)
}.

Definition wupd {A} (f : nat -> A) (i : nat) (a : A) : nat -> A := fun j => if Nat.eqb j i then a else f j.

Inductive pool_step (n : nat) : pool -> pool -> Prop :=
(* some thread pushes (lines 110-123) *)
| PS_push : forall s g t q', wq_push (p_q s) g t = Ok q' ->
    pool_step n s (mk_pool q' (p_workers s) (S (p_notify s)) (p_closing s) (p_pushed s ++ [(g, t)]) (p_executed s))
(* its notify_one (line 125) wakes a waiting thread *)
| PS_notify : forall s k w, p_notify s = S k -> w < n -> p_workers s w = PWaiting ->
    pool_step n s (mk_pool (p_q s) (wupd (p_workers s) w PReady) k (p_closing s) (p_pushed s) (p_executed s))
(* or there is none *)
| PS_notify_none : forall s k, p_notify s = S k -> (forall w, w < n -> p_workers s w <> PWaiting) ->
    pool_step n s (mk_pool (p_q s) (p_workers s) k (p_closing s) (p_pushed s) (p_executed s))
(* the destructor closes the queue (lines 31-34) *)
| PS_close : forall s, q_closed (p_q s) = false ->
    pool_step n s (mk_pool (wq_close (p_q s)) (p_workers s) (p_notify s) true (p_pushed s) (p_executed s))
(* and wakes every thread (line 35) *)
| PS_notify_all : forall s, p_closing s = true ->
    pool_step n s (mk_pool (p_q s) (fun w => match p_workers s w with PWaiting => PReady | x => x end)
                     (p_notify s) false (p_pushed s) (p_executed s))
(* popNext *)
| PS_pop : forall s w g t q', w < n -> p_workers s w = PReady -> wq_pop (p_q s) = Ok (PTask g t q') ->
    pool_step n s (mk_pool q' (wupd (p_workers s) w (PBusy g t)) (p_notify s) (p_closing s) (p_pushed s) (p_executed s))
| PS_sleep : forall s w, w < n -> p_workers s w = PReady -> wq_pop (p_q s) = Ok PBlocks ->
    pool_step n s (mk_pool (p_q s) (wupd (p_workers s) w PWaiting) (p_notify s) (p_closing s) (p_pushed s) (p_executed s))
| PS_stop : forall s w, w < n -> p_workers s w = PReady -> wq_pop (p_q s) = Ok PStop ->
    pool_step n s (mk_pool (p_q s) (wupd (p_workers s) w PStopped) (p_notify s) (p_closing s) (p_pushed s) (p_executed s))
(* run() returns or throws; exceptions are caught in either case (lines 63-74) *)
| PS_done : forall s w g t, w < n -> p_workers s w = PBusy g t ->
    pool_step n s (mk_pool (p_q s) (wupd (p_workers s) w PReady) (p_notify s) (p_closing s) (p_pushed s) (p_executed s ++ [(g, t)])).
(* a thread waiting on cv_ may wake without a notification *)
Inductive pool_woken (n : nat) : pool -> pool -> Prop :=
| PS_woken : forall s w, w < n -> p_workers s w = PWaiting ->
    pool_woken n s (mk_pool (p_q s) (wupd (p_workers s) w PReady) (p_notify s) (p_closing s) (p_pushed s) (p_executed s)).

Definition pool_init : pool := mk_pool wq_new (fun _ => PReady) 0 false [] [].
End Queue.
