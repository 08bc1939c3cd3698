(* Specification vocabulary for ranges: plain interval arithmetic, no wrap-around. *)
From Verif Require Import Base.
From Coq Require Import Sorted.

(* a range (offset, size) denotes the points offset <= p < offset+size *)
Definition covers (r : N * N) (p : N) : Prop := (fst r <= p < fst r + snd r)%N.

(* the range does not run past the end of the 64-bit index space *)
Definition fits64 (r : N * N) : Prop := (fst r + snd r < two64)%N.

(* the range lies inside a field of n points *)
Definition in_field (n : N) (r : N * N) : Prop := (fst r + snd r <= n)%N.

(* r lies inside b *)
Definition inside (b r : N * N) : Prop :=
  (fst b <= fst r /\ fst r + snd r <= fst b + snd b)%N.

(* a comes before b with at least one point between them *)
Definition strictly_before (a b : N * N) : Prop := (fst a + snd a < fst b)%N.

(* the points of a field selected by a range *)
Definition points {V} (field : list V) (r : N * N) : list V :=
  slice field (N.to_nat (fst r)) (N.to_nat (snd r)).
