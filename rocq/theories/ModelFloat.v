(* Instances of the arithmetic used by the decoders: exact rationals (what the formula means)
   and IEEE-754 binary64 with round-to-nearest-even (what the compiled code computes with
   double), the latter with the executable definitions of Coq.Floats.SpecFloat. *)
From Verif Require Import Base ModelSimple.
From Coq Require Import QArith.
From Coq Require Import Floats.SpecFloat.

Definition q_arith : farith Q :=
  mk_farith Q (fun n => inject_Z (Z.of_N n)) inject_Z Qplus Qmult Qdiv 0%Q.

Definition b64_of_Z (z : Z) : spec_float := binary_normalize 53 1024 z 0 false.
Definition b64_arith : farith spec_float :=
  mk_farith spec_float (fun n => b64_of_Z (Z.of_N n)) b64_of_Z
            (SFadd 53 1024) (SFmul 53 1024) (SFdiv 53 1024) S754_nan.
