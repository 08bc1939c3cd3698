(* C96: how far the values a user gets are from the GRIB formula, in IEEE binary64 arithmetic.  [number f] is
   the rational a double stands for, u = 2^-53, eta = 2^-1075. *)
From Coq Require Import QArith Qabs Floats.SpecFloat.
From Verif Require Import Base ModelSimple ModelCcsds ModelFloat ModelInfo ModelJumper ModelBuild SpecSimple SpecCcsds
  SpecJumper SpecBuild SpecAccuracy ProofsAccuracy.

(* A value the code computes for a packed integer X, if it has not overflowed, is within k+5 half units in the
   last place of (R + X 2^E) 10^-D, where k is 0 for -22 <= D <= 0, 3 for |D| <= 30 and 22 otherwise. *)
Theorem C96_accuracy :
  forall (R : spec_float) (E D : Z) (X : N),
    a_double R -> scales_in_range E D ->
    finite (simple_scale b64_arith R E D X) ->
    accurate R E D X (simple_scale b64_arith R E D X).
Proof. exact scale_accurate. Qed.
Print Assumptions C96_accuracy.

(* It does not overflow if the exact values do not come within a factor 4 of the largest double; and the result
   is a double in normal form again. *)
Theorem C96_no_overflow :
  forall (R : spec_float) (E D : Z) (X : N),
    a_double R -> scales_in_range E D -> (X < two64)%N ->
    (grib_value (Qabs (number R)) E 0 X <= p2 1022)%Q -> (grib_value (Qabs (number R)) E D X <= p2 1022)%Q ->
    a_double (simple_scale b64_arith R E D X).
Proof. exact scale_finite. Qed.
Print Assumptions C96_no_overflow.

(* Even if it overflows it is not the missing value (a NaN), so present and missing points stay distinct. *)
Theorem C96_present_is_not_missing :
  forall (R : spec_float) (E D : Z) (X : N),
    a_double R -> scales_in_range E D -> simple_scale b64_arith R E D X <> f_nan b64_arith.
Proof. exact scale_not_missing. Qed.
Print Assumptions C96_present_is_not_missing.

(* 2^E for every E of a normal double is exact; 10^-D is the only inexact factor. *)
Theorem C96_powers_of_two_exact :
  forall E : Z, (-1022 <= E <= 1023)%Z -> (number (codes_power b64_arith E 2) == p2 E)%Q.
Proof. exact twos_exact. Qed.
Print Assumptions C96_powers_of_two_exact.
Theorem C96_powers_of_ten :
  forall D : Z, (-300 <= D <= 300)%Z ->
    (Qabs (number (codes_power b64_arith (- D) 10) - Qpower 10 (- D)) <= inject_Z (tens_error D) * u * Qpower 10 (- D))%Q.
Proof. exact tens_accurate. Qed.
Print Assumptions C96_powers_of_ten.

(* Describing a message and extracting from it: every point of every range within that bound of the formula,
   missing points NaN and only these.  For decimal scale factor 0 and for simple packing with at least one bit
   per value; elsewhere the formula itself is not followed (C05_refuted, C66_refuted). *)
Theorem C96_extracted_values_partial :
  forall (libaec : aec_oracle) (full : aec_full_oracle) (fresh : Z -> list N)
         (grib_at : list N -> Z -> outcome (option (codes spec_float))),
    libaec_consistent full libaec -> (forall n, length (fresh n) = Z.to_nat n) ->
    forall (bytes : list N) (off : Z) (m : grib spec_float) (S : list N) (l : list (N * N)),
    message_at full grib_at bytes off m S -> formula_holds m ->
    a_double (m_reference m) -> scales_in_range (m_binary m) (m_decimal m) ->
    good_request (Z.to_N (m_points m)) l ->
    exists inf x, build full fresh grib_at bytes off = Ok inf /\ extract b64_arith libaec bytes off inf l = Ok x /\
                  near_result m bytes off S l x.
Proof. exact near_values. Qed.
Print Assumptions C96_extracted_values_partial.

(* 3 with D = 1 becomes 0.30000000000000004: within the bound, not the nearest double to 3/10 *)
Example C96_example :
  simple_scale b64_arith (S754_zero false) 0 1 3 = S754_finite false 5404319552844596 (-54) /\
  SFdiv 53 1024 (b64_of_Z 3) (b64_of_Z 10) = S754_finite false 5404319552844595 (-54) /\
  (grib_value 0 0 1 3 == 3 # 10)%Q.
Proof. repeat split; vm_compute; reflexivity. Qed.
Example C96_example_double : a_double (S754_zero false) /\ a_double three /\ scales_in_range (-1) 1.
Proof. repeat split; discriminate. Qed.
(* the overflow hypothesis is needed: 2^63 * 2^1023 *)
Example C96_example_overflow : simple_scale b64_arith three 1023 0 9223372036854775808 = S754_infinity false.
Proof. vm_compute. reflexivity. Qed.
(* outside the range of scales the missing value does appear: 0 * 2^1024 *)
Example C96_example_nan : simple_scale b64_arith three 1024 0 0 = f_nan b64_arith.
Proof. vm_compute. reflexivity. Qed.
Example C96_example_message : message_at raw_full ex_eccodes64 gribs 12 ex_simple64 [1; 9; 3]%N.
Proof. exact ex_simple64_at. Qed.
(* 0.35000000000000003, missing, 0.75, 0.45 *)
Example C96_example_values :
  (let* i := build raw_full zeros ex_eccodes64 gribs 12 in extract b64_arith raw_libaec gribs 12 i [(0, 4)]%N)
    = Ok ([[S754_finite false 6305039478318695 (-54); S754_nan; S754_finite false 6755399441055744 (-53);
            S754_finite false 8106479329266893 (-54)]], [[13]%N]).
Proof. vm_compute. reflexivity. Qed.
