(* Task.cc:42-50 at the granularity of the code: Task::notify and Task::notifyError store the task's status first and enter
   the group's critical section later.  Any other thread may run in between, with the status already DONE or FAILED and the
   task not yet counted.  Everything else is as in ModelTask. *)
From Verif Require Import Base ModelQueue ModelTask.
Local Open Scope nat_scope.

(* the system, and which workers have stored the status of the task they are about to report *)
Definition fsys := (sys * (nat -> bool))%type.
Definition f_init : fsys := (sys_init, fun _ => false).

(* executeImpl of the task is over, it has not been counted yet; the status to be stored *)
Definition reporting (x : worker) : option (task * status) :=
  match x with WNotify t => Some (t, DONE) | WFail t _ => Some (t, FAILED) | _ => None end.

Section Fine.
Variable cf : config.

(* a step of ModelTask that is possible now; afterwards a worker that has moved on has nothing stored *)
Definition moves (s s' : sys) (st st' : nat -> bool) : Prop :=
  (forall w, w < cf_workers cf -> reporting (s_workers s w) <> None -> s_workers s' w <> s_workers s w -> st w = true) /\
  (forall w, st' w = true <-> st w = true /\ s_workers s' w = s_workers s w).

Inductive fstep : fsys -> fsys -> Prop :=
(* lines 43, 48 *)
| F_store : forall s st w g i v, w < cf_workers cf -> reporting (s_workers s w) = Some ((g, i), v) -> st w = false ->
    g_alive (s_groups s g) = true ->
    fstep (s, st) (upd_g s g (set_status (s_groups s g) i v), wupd st w true)
(* lines 44, 49 and all other steps; a worker that uses a destroyed object need not have stored anything *)
| F_move : forall s st s' st', step cf s s' -> moves s s' st st' -> fstep (s, st) (s', st').
Inductive fwoken : fsys -> fsys -> Prop :=
| F_woken : forall s st s' st', wakeup cf s s' -> moves s s' st st' -> fwoken (s, st) (s', st').

Inductive fsteps : fsys -> fsys -> Prop :=
| fs_refl : forall f, fsteps f f
| fs_next : forall f f' f'', fsteps f f' -> fstep f' f'' -> fsteps f f''
| fs_woken : forall f f' f'', fsteps f f' -> fwoken f' f'' -> fsteps f f''.
(* n steps and k wake-ups *)
Inductive fnsteps : nat -> nat -> fsys -> fsys -> Prop :=
| fn_O : forall f, fnsteps 0 0 f f
| fn_S : forall n k f f' f'', fnsteps n k f f' -> fstep f' f'' -> fnsteps (S n) k f f''
| fn_woken : forall n k f f' f'', fnsteps n k f f' -> fwoken f' f'' -> fnsteps n (S k) f f''.
Definition f_reachable (f : fsys) : Prop := fsteps f_init f.
End Fine.
