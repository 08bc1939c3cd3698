(* What is said about ModelLife (C110). *)
From Verif Require Import Base ModelLife.
Local Open Scope nat_scope.

(* a call that has made c_requests and has not copied the requests yet *)
Definition pending (s : pstate) (l : nat) : Prop :=
  exists f h k ps n, In f (ps_roots s) /\ has s f (Extracting h l k ps n false).
(* nobody changes the list a call is about to read *)
Definition quiet (s : pstate) (op : pop) : Prop := match op with PSetList x _ => ~ pending s x | _ => True end.

(* the states of programs that do not *)
Inductive careful : pstate -> Prop :=
| Ca_start : careful py_start
| Ca_step s op s' : careful s -> quiet s op -> pstep s op (Ok s') -> careful s'.

(* C object p belongs to the cffi object x *)
Definition belongs (s : pstate) (p x : nat) : Prop := exists k b, nth_error (ps_py s) x = Some (mk_pnode (Cdata k p) b).
Definition c_live (s : pstate) (p : nat) : Prop := exists o, nth_error (ps_c s) p = Some o /\ co_live o = true.
Definition py_live (s : pstate) (x : nat) : Prop := exists d, nth_error (ps_py s) x = Some (mk_pnode d true).
Definition only_collects (l : list pop) : Prop := forall op, In op l -> exists x, op = PCollect x.

(* a thread empties the list another is extracting: handle 1, request 3, list 4, the call 5 *)
Definition life_program : list pop :=
  [PCreate CHandle; PCreate CRequest; PMakeList [3]; PDrop 3; PExtract 1 4; PSetList 4 []; PCollect 3; PCollect 2].
(* everything is let go as early as possible: handle, request and list during the call, the iterator (7) while its generator (8)
   runs, the generator while its result (10) is used, the result while a view of its values (12) is *)
Definition life_good : list pop :=
  [PCreate CHandle; PCreate CRequest; PMakeList [3]; PExtract 1 4; PDrop 1; PDrop 3; PDrop 4; PCollect 1; PCopy 5; PExtracted 5 1;
   PCollect 5; PCollect 4; PCollect 3; PCollect 2; PCollect 0; PIter 7; PDrop 7; PNext 8; PDrop 8; PCollect 6; PCollect 8; PCollect 7;
   PRead 10; PDrop 10; PCollect 9; PCollect 10; PLook 12].
