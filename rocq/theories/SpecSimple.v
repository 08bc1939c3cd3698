(* Specification of packed integers: a buffer is a string of bits, most significant bit of
   each byte first; a sample is a bit field read as an unsigned number. *)
From Verif Require Import Base.
From Coq Require Import QArith Qpower.

Definition byte_bits (b : N) : list bool :=
  map (fun j => N.testbit b (N.of_nat (7 - j))) (seq 0 8).
Definition bits_of (buf : list N) : list bool := flat_map byte_bits buf.
Definition number_of_bits (bits : list bool) : N :=
  fold_left (fun (acc : N) (b : bool) => 2 * acc + (if b then 1 else 0))%N bits 0%N.

(* the k-th b-bit sample of a bit string whose first sample starts at bit [skip] *)
Definition sample_at (bits : list bool) (skip b k : nat) : N :=
  number_of_bits (slice bits (skip + k * b) b).

Definition samples (bits : list bool) (skip b n : nat) : list N :=
  map (sample_at bits skip b) (seq 0 n).

Definition is_bytes (buf : list N) : Prop := Forall (fun b => b < 256)%N buf.

(* the GRIB value formula, exactly: (R + X * 2^E) * 10^(-D) *)
Definition grib_value (R : Q) (E D : Z) (X : N) : Q :=
  ((R + inject_Z (Z.of_N X) * Qpower 2 E) * Qpower 10 (- D))%Q.
