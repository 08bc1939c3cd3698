(* C94: the texts of errors at the C and Python interfaces *)
From Verif Require Import Base ModelErrors SpecErrors ProofsErrors.
Local Open Scope nat_scope.

(* ---- C94 ---- *)

(* If at most one thread makes calls that fail, then whatever the others do nothing undefined happens, and the
   exceptions every thread has raised are those of its failing calls, each with its own text.
   Partial: with two threads whose calls may fail this is false, see below. *)
Theorem C94_own_text_partial :
  forall calls, (forall t t', may_fail calls t -> may_fail calls t' -> t = t') ->
  forall l o, errors_run calls l o ->
    exists s, o = Ok s /\ forall t, er_users s t = Idle ->
      raised_by t s = map told (filter failing (first_calls (calls t) (er_calls s t))).
Proof. exact own_errors. Qed.
Print Assumptions C94_own_text_partial.

(* a step other than the end of storing a text leaves the text alone; so does a call that succeeds *)
Theorem C94_text_stays :
  forall calls s t b s', user_step calls s t b = Some (Ok s') ->
    (forall n e x, er_users s t <> Storing n e x) -> er_text s' = er_text s.
Proof. exact text_kept. Qed.
Print Assumptions C94_text_stays.

(* Two failing calls in two threads: one user is told the error of the other, ... *)
Theorem C94_refuted_other_text :
  exists l s, errors_run two_failures l (Ok s) /\
    er_raised s = [(0, Exception "file is missing", python_message "gribjump_extract" "no permission")]%string.
Proof. exact others_text. Qed.
Print Assumptions C94_refuted_other_text.

(* ... both store their text at the same time, ... *)
Theorem C94_refuted_race : exists l, errors_run two_failures l UB.
Proof. exact stores_race. Qed.
Print Assumptions C94_refuted_race.

(* ... or a user reads through a pointer to a text that has been replaced, though nobody is storing then. *)
Theorem C94_refuted_dangling :
  exists l s name e p, errors_run two_failures l (Ok s) /\ er_users s 0 = Asked name e p /\
    (forall t', storing (er_users s t') = false) /\ errors_run two_failures (l ++ [0]) UB.
Proof. exact pointer_dangles. Qed.
Print Assumptions C94_refuted_dangling.

(* one call after the other: everybody is told the error of their own call *)
Example C94_example :
  (exists s, errors_play two_failures 2 errors_init [0; 0; 0; 0; 0; 1; 1; 1; 1; 1] = Some (Ok s) /\
     raised_by 0 s = [(Exception "file is missing", "Error in function 'gribjump_extract': file is missing")]%string /\
     raised_by 1 s = [(Exception "no permission", "Error in function 'gribjump_scan': no permission")]%string) /\
  stored_text NullIterator <> None /\ stored_text Success = None.
Proof. split; [|split; [discriminate|reflexivity]]. eexists. split; [vm_compute; reflexivity|]. split; reflexivity. Qed.
