(* What a search for message starts should return. *)
From Coq Require Import Sorted.
From Verif Require Import Base ModelScan.

(* the letters GRIB *)
Definition occurs (file : list N) (p : nat) : Prop := slice file p 4 = [71; 82; 73; 66]%N.

(* [l] lists exactly the positions satisfying P, in increasing order *)
Definition lists_exactly (P : nat -> Prop) (l : list nat) : Prop :=
  StronglySorted lt l /\ (forall p, In p l <-> P p).

(* position of an occurrence that has another one after it *)
Definition complete_start (file : list N) (p : nat) : Prop :=
  occurs file p /\ exists q, p < q /\ occurs file q.
