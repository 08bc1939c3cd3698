(* What C27-C35 say. *)
From Verif Require Import Base ModelQueue ModelTask.
From Coq Require Import Permutation.
Local Open Scope nat_scope.

(* the tasks of one group in a history *)
Definition of_group {T} (g : nat) (l : list (nat * T)) : list T :=
  map snd (filter (fun e => Nat.eqb g (fst e)) l).

(* the queue mentions a group: in the rotation, or in the table *)
Definition mentions {T} (q : @wq T) (g : nat) : Prop := In g (q_order q) \/ In g (map fst (q_groups q)).

Definition q_reachable {T} (q : @wq T) (l : qlog) : Prop :=
  exists ops, q_run (wq_new, mk_qlog [] []) ops = Ok (q, l).

Inductive pool_reach {T} (n : nat) : @pool T -> @pool T -> Prop :=
| pr_refl : forall s, pool_reach n s s
| pr_step : forall s s' s'', pool_reach n s s' -> pool_step n s' s'' -> pool_reach n s s''
| pr_woken : forall s s' s'', pool_reach n s s' -> pool_woken n s' s'' -> pool_reach n s s''.

(* a step of a worker or of the destructor, rather than of the threads that use the queue *)
Definition worker_moves {T} (n : nat) (s s' : @pool T) : Prop :=
  pool_step n s s' /\ p_pushed s' = p_pushed s /\ p_notify s' = p_notify s /\ q_closed (p_q s') = q_closed (p_q s).

(* task (g, i) is queued, popped, or executing *)
Definition in_flight (s : sys) (g i : nat) : Prop :=
  In (g, (g, i)) (queued (s_queue s)) \/
  exists w, s_workers s w = WPopped (g, i) \/ s_workers s w = WRunning (g, i) \/
            s_workers s w = WNotify (g, i) \/ exists m, s_workers s w = WFail (g, i) m.

(* the messages of the tasks of group g that fail *)
Definition failures (cf : config) (g : nat) : list string :=
  flat_map (fun i => match cf_result cf g i with Some m => [m] | None => [] end) (seq 0 (cf_tasks cf g)).

Definition returned (s : sys) (g : nat) (errs : list string) : Prop :=
  s_clients s g = CReturned errs \/ s_clients s g = CDone errs.

(* no client is interrupted while it enqueues *)
Definition no_abandon (cf : config) : Prop := forall g, cf_abandon cf g = None.
Definition all_succeed (cf : config) (g : nat) : Prop := forall i, cf_result cf g i = None.

(* nothing has anything to do any more: all workers asleep, all clients finished or asleep *)
Definition asleep (cf : config) (s : sys) : Prop :=
  (forall w, w < cf_workers cf -> s_workers s w = WWaiting) /\
  (forall g, g < cf_clients cf ->
     (exists e, s_clients s g = CDone e) \/ s_clients s g = CThrown \/ s_clients s g = CBlocked).

(* ---- concrete schedules, for the examples ---- *)
Inductive action :=
| Client (g : nat)              (* client g moves; a notify_one finds nobody asleep *)
| Notify (g w : nat)            (* client g's notify_one wakes worker w *)
| Work (w : nat).

Fixpoint nobody (n : nat) (f : nat -> worker) : bool :=
  match n with O => true | S k => match f k with WWaiting => false | _ => nobody k f end end.

Definition act (cf : config) (s : sys) (a : action) : option sys :=
  match a with
  | Client g =>
      let G := s_groups s g in
      if negb (Nat.ltb g (cf_clients cf)) then None
      else match s_clients s g with
      | CEnqueue =>
          match cf_abandon cf g with
          | Some k => if Nat.eqb k (length (g_status G)) then Some (upd_c (upd_g s g (destroy G)) g CThrown)
                      else match g_lock G with
                           | None => if Nat.ltb (length (g_status G)) (cf_tasks cf g)
                                     then Some (upd_c (upd_g s g (add_task G)) g (CPush (length (g_status G)))) else None
                           | Some _ => None end
          | None =>
              if Nat.eqb (cf_tasks cf g) 0 then Some (upd_c (upd_g s g (destroy G)) g CThrown)
              else if Nat.ltb (length (g_status G)) (cf_tasks cf g)
              then match g_lock G with None => Some (upd_c (upd_g s g (add_task G)) g (CPush (length (g_status G)))) | Some _ => None end
              else if Nat.eqb (length (g_status G)) (cf_tasks cf g) then Some (upd_c s g CWait) else None
          end
      | CPush i => match wq_push (s_queue s) g (g, i) with Ok q' => Some (upd_c (upd_q s q') g CNotify) | _ => None end
      | CNotify => if nobody (cf_workers cf) (s_workers s) then Some (upd_c s g CEnqueue) else None
      | CWait => match g_lock G with
                 | None => if Nat.eqb (g_complete G) (length (g_status G)) then Some (upd_c s g (CReturned (g_errors G)))
                           else Some (upd_c s g CBlocked)
                 | Some _ => None end
      | CReturned e => Some (upd_c (upd_g s g (destroy G)) g (CDone e))
      | _ => None
      end
  | Notify g w =>
      if negb (Nat.ltb g (cf_clients cf) && Nat.ltb w (cf_workers cf)) then None
      else match s_clients s g, s_workers s w with
           | CNotify, WWaiting => Some (upd_w (upd_c s g CEnqueue) w WReady)
           | _, _ => None end
  | Work w =>
      if negb (Nat.ltb w (cf_workers cf)) then None
      else match touches (s_workers s w) with
      | Some g0 =>
          if g_alive (s_groups s g0) then
            match s_workers s w with
            | WPopped (g, i) =>
                match nth_error (g_status (s_groups s g)) i with
                | Some PENDING => Some (upd_w (upd_g s g (set_status (s_groups s g) i EXECUTING)) w (WRunning (g, i)))
                | Some _ => Some (upd_w s w WReady)
                | None => None end
            | WRunning (g, i) =>
                Some (upd_w s w (match cf_result cf g i with None => WNotify (g, i) | Some m => WFail (g, i) m end))
            | WNotify (g, i) =>
                match g_lock (s_groups s g) with
                | None => Some (upd_w (upd_c (upd_g s g (complete_ok (s_groups s g) i)) g (wake (s_clients s g))) w WReady)
                | Some _ => None end
            | WFail (g, i) m =>
                match g_lock (s_groups s g) with
                | None => Some (upd_w (upd_c (upd_g s g (complete_err (s_groups s g) i m w)) g (wake (s_clients s g))) w (WCancel g 0))
                | Some _ => None end
            | WCancel g k =>
                if Nat.ltb k (length (g_status (s_groups s g)))
                then Some (upd_w (upd_g s g (cancel_task (s_groups s g) k)) w (WCancel g (S k)))
                else Some (upd_w (upd_g s g (set_lock (s_groups s g) None)) w WReady)
            | _ => None
            end
          else if s_ub s then None else Some (set_ub s)
      | None =>
          match s_workers s w with
          | WReady => match wq_pop (s_queue s) with
                      | Ok (PTask g t q') => Some (upd_w (upd_q s q') w (WPopped t))
                      | Ok PBlocks => Some (upd_w s w WWaiting)
                      | _ => None end
          | _ => None
          end
      end
  end.

Fixpoint play (cf : config) (s : sys) (l : list action) : option sys :=
  match l with [] => Some s | a :: r => match act cf s a with Some s' => play cf s' r | None => None end end.

(* client g gets its answer whatever the schedule: executions have bounded length (every wake-up without a
   notification may cost one more step), and as long as it has no answer some thread can move; the answer lists
   the errors of all failing tasks *)
Definition completes (cf : config) (s : sys) (g : nat) : Prop :=
  (exists bound, forall n k s', nsteps cf n k s s' -> n <= bound + k) /\
  (forall s', steps cf s s' ->
     (exists s'', step cf s' s'') \/ (exists e, s_clients s' g = CDone e /\ Permutation e (failures cf g))).

(* one worker, one request of two tasks, the first of which fails *)
Definition hang_cf : config :=
  mk_config 1 1 (fun _ => 2) (fun _ => None)
            (fun _ i => if Nat.eqb i 0 then Some "grid hash mismatch"%string else None).
Definition hang_schedule : list action :=
  repeat (Client 0) 8 ++ repeat (Work 0) 10 ++ [Client 0].

(* one worker, one request that throws after it has enqueued one of its two tasks *)
Definition abandon_cf : config := mk_config 1 1 (fun _ => 2) (fun _ => Some 1) (fun _ _ => None).
Definition abandon_schedule : list action := repeat (Client 0) 4 ++ repeat (Work 0) 2.

(* two workers, two requests of two tasks each; the second request has a failing task *)
Definition ok_cf : config :=
  mk_config 2 2 (fun _ => 2) (fun _ => None)
            (fun g i => if Nat.eqb g 1 && Nat.eqb i 1 then Some "no such file"%string else None).
Definition ok_schedule : list action :=
  repeat (Client 0) 6 ++ repeat (Client 1) 6 ++
  repeat (Work 0) 4 ++ repeat (Work 1) 4 ++           (* one task of each group *)
  [Client 0; Client 0; Client 1; Client 1] ++
  repeat (Work 0) 4 ++ repeat (Work 1) 7 ++
  repeat (Client 0) 2 ++ repeat (Client 1) 2.
