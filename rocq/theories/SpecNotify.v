(* What is said about ModelNotify (C107). *)
From Verif Require Import Base ModelQueue ModelTask ModelNotify SpecQueue SpecConcurrent.
From Coq Require Import Permutation.
Local Open Scope nat_scope.

(* the order in which the tasks' executeImpl end, as in SpecConcurrent *)
Inductive fruns (cf : config) : fsys -> list task -> Prop :=
| fr_init : fruns cf f_init []
| fr_end : forall f h w t f', fruns cf f h -> fstep cf f f' ->
    s_workers (fst f) w = WRunning t -> s_workers (fst f') w <> WRunning t -> fruns cf f' (h ++ [t])
| fr_step : forall f h f', fruns cf f h -> fstep cf f f' ->
    (forall w t, s_workers (fst f) w = WRunning t -> s_workers (fst f') w = WRunning t) -> fruns cf f' h
| fr_woken : forall f h f', fruns cf f h -> fwoken cf f f' -> fruns cf f' h.

(* worker w has stored the status v of task (g, i), and has not reported it *)
Definition stored (cf : config) (f : fsys) (g i : nat) (v : status) : Prop :=
  exists w, w < cf_workers cf /\ snd f w = true /\ reporting (s_workers (fst f) w) = Some ((g, i), v).

(* the state s of the system in which storing and reporting are one: a stored status is not there yet *)
Definition seen_as (cf : config) (f : fsys) (s : sys) : Prop :=
  s_queue s = s_queue (fst f) /\ s_clients s = s_clients (fst f) /\ s_workers s = s_workers (fst f) /\ s_ub s = s_ub (fst f) /\
  forall g, let G := s_groups (fst f) g in let H := s_groups s g in
    g_complete H = g_complete G /\ g_errors H = g_errors G /\ g_lock H = g_lock G /\ g_alive H = g_alive G /\
    length (g_status H) = length (g_status G) /\
    (forall i v, stored cf f g i v -> nth_error (g_status H) i = Some EXECUTING /\ nth_error (g_status G) i = Some v) /\
    (forall i, (forall v, ~ stored cf f g i v) -> nth_error (g_status H) i = nth_error (g_status G) i).

(* as SpecQueue's [completes] *)
Definition f_completes (cf : config) (f : fsys) (g : nat) : Prop :=
  (exists bound, forall n k f', fnsteps cf n k f f' -> n <= bound + 2 * k) /\
  (forall f', fsteps cf f f' ->
     (exists f'', fstep cf f' f'') \/ (exists e, s_clients (fst f') g = CDone e /\ Permutation e (failures cf g))).

(* executable schedules, for the examples *)
Definition same_worker (x y : worker) : bool :=
  let same (t u : task) := Nat.eqb (fst t) (fst u) && Nat.eqb (snd t) (snd u) in
  match x, y with
  | WReady, WReady | WWaiting, WWaiting => true
  | WPopped t, WPopped u | WRunning t, WRunning u | WNotify t, WNotify u => same t u
  | WFail t m, WFail u n => same t u && String.eqb m n
  | WCancel g k, WCancel h l => Nat.eqb g h && Nat.eqb k l
  | _, _ => false
  end.
Definition f_after (cf : config) (s s' : sys) (st : nat -> bool) : option fsys :=
  if forallb (fun w => same_worker (s_workers s' w) (s_workers s w) || st w ||
                       match reporting (s_workers s w) with Some _ => false | None => true end) (seq 0 (cf_workers cf))
  then Some (s', fun w => st w && same_worker (s_workers s' w) (s_workers s w)) else None.

Inductive f_action :=
| Store (w : nat)               (* worker w stores the status of its task *)
| Go (a : action)
| Wake (g : nat).               (* client g wakes up without a notification *)
Definition f_act (cf : config) (f : fsys) (a : f_action) : option fsys :=
  let (s, st) := f in
  match a with
  | Store w => match reporting (s_workers s w) with
               | Some ((g, i), v) => if Nat.ltb w (cf_workers cf) && negb (st w) && g_alive (s_groups s g)
                                     then Some (upd_g s g (set_status (s_groups s g) i v), wupd st w true) else None
               | None => None end
  | Go b => match act cf s b with Some s' => f_after cf s s' st | None => None end
  | Wake g => match s_clients s g with
              | CBlocked => if Nat.ltb g (cf_clients cf) then f_after cf s (upd_c s g CWait) st else None
              | _ => None end
  end.
Fixpoint f_play (cf : config) (f : fsys) (l : list f_action) : option fsys :=
  match l with [] => Some f | a :: r => match f_act cf f a with Some f' => f_play cf f' r | None => None end end.

(* two workers, one request of two tasks, the second of which fails *)
Definition late_cf : config :=
  mk_config 2 1 (fun _ => 2) (fun _ => None) (fun _ i => if Nat.eqb i 1 then Some "no such file"%string else None).
(* both statuses are stored; the client finds that nothing has been counted, sleeps, and is woken for nothing *)
Definition late_stored : list f_action :=
  map Go (repeat (Client 0) 7 ++ repeat (Work 0) 3 ++ repeat (Work 1) 3) ++
  [Store 1; Store 0; Go (Client 0); Wake 0; Go (Client 0)].
Definition late_reported : list f_action := map Go (repeat (Work 0) 1 ++ repeat (Work 1) 4 ++ repeat (Client 0) 2).
