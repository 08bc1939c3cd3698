(* C110: the C objects behind Python objects. *)
From Verif Require Import Base ModelLife SpecLife ProofsLife.
Local Open Scope nat_scope.

(* C110.  No program, no interleaving of its threads and no order of garbage collection uses a C object that is gone or frees
   one twice, as long as nobody changes a list of requests while a call is about to copy them. *)
Theorem C110_safe_partial :
  forall s op o, careful s -> quiet s op -> pstep s op o -> exists s', o = Ok s'.
Proof. exact life_safe. Qed.
Print Assumptions C110_safe_partial.

(* what a program can reach is there *)
Theorem C110_kept :
  forall s x k p, careful s -> reach s x -> has s x (Cdata k p) -> c_live s p.
Proof. exact life_kept. Qed.
Print Assumptions C110_kept.

(* every C object ever made has one owner in Python and lives exactly as long: nothing leaks *)
Theorem C110_owned :
  forall s p o, careful s -> nth_error (ps_c s) p = Some o ->
    exists x, (forall y, belongs s p y <-> y = x) /\ (co_live o = true <-> py_live s x).
Proof. exact life_owned. Qed.
Print Assumptions C110_owned.

(* and a program that holds nothing leaves nothing behind *)
Theorem C110_all_freed :
  forall s, careful s -> ps_roots s = [] ->
    exists ops s', psteps s ops s' /\ only_collects ops /\ (forall x, ~ py_live s' x) /\ (forall p, ~ c_live s' p).
Proof. exact life_all_freed. Qed.
Print Assumptions C110_all_freed.

(* The claim is false if a thread changes the list while another extracts it: the array handed to gribjump_extract holds bare
   pointers, and only the list keeps the requests. *)
Theorem C110_refuted : exists s, psteps py_start life_program s /\ pstep s (PCopy 5) UB.
Proof. exact life_refuted. Qed.
Print Assumptions C110_refuted.

Example C110_example : exists s, psteps py_start life_good s /\ Forall (fun n => pn_live n = false) (firstn 10 (ps_py s)) /\
  ps_c s = [mk_cobj CHandle false 0; mk_cobj CRequest false 0; mk_cobj CIterator false 0; mk_cobj CResult false 0; mk_cobj CBuffer true 0].
Proof. exact life_example. Qed.
