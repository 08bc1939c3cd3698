(* The numbers that binary64 values stand for, and how far a decoded value may be from the GRIB formula. *)
From Coq Require Import QArith Qabs Floats.SpecFloat.
From Verif Require Import Base SpecSimple ModelSimple ModelInfo ModelBuild SpecBuild.
Local Open Scope Q_scope.

Definition p2 (e : Z) : Q := (2 # 1) ^ e.
Definition sign (s : bool) : Q := if s then -(1) else 1.
(* the number; 0 where there is none *)
Definition number (f : spec_float) : Q :=
  match f with
  | S754_finite s m e => sign s * inject_Z (Zpos m) * p2 e
  | _ => 0
  end.
Definition finite (f : spec_float) : Prop :=
  match f with S754_finite _ _ _ | S754_zero _ => True | _ => False end.
(* a double as the machine stores it *)
Definition a_double (f : spec_float) : Prop := finite f /\ valid_binary 53 1024 f = true.

(* half a unit in the last place of 1 *)
Definition u : Q := 1 # 9007199254740992.
(* half the smallest positive double *)
Definition eta : Q := p2 (-1075).

(* error of the powers of ten the code computes by repeated multiplication or division by ten, in units of u *)
Definition tens_error (D : Z) : Z :=
  if ((-22 <=? D) && (D <=? 0))%Z then 0%Z else if (Z.abs D <=? 30)%Z then 3%Z else 22%Z.
(* v is within a few units in the last place of the GRIB formula; the unit is that of the larger of the two
   terms of the sum, since terms of opposite sign may cancel *)
Definition accurate (R : spec_float) (E D : Z) (X : N) (v : spec_float) : Prop :=
  Qabs (number v - grib_value (number R) E D X) <=
  inject_Z (tens_error D + 5) * u * grib_value (Qabs (number R)) E D X + eta.
(* scale factors for which 2^E and 10^-D are normal doubles *)
Definition scales_in_range (E D : Z) : Prop := (-1021 <= E <= 1023)%Z /\ (-300 <= D <= 300)%Z.

(* one point of a field: a value within the bound (if it has not overflowed) or the missing value *)
Definition near_point (m : grib spec_float) (o : option N) (v : spec_float) : Prop :=
  match o with
  | Some X => v <> S754_nan /\
      (finite v -> accurate (m_reference m) (m_binary m) (m_decimal m) X v)
  | None => v = S754_nan
  end.
Definition near_result (m : grib spec_float) (bytes : list N) (off : Z) (S : list N) (l : list (N * N))
    (x : list (list spec_float) * list (list N)) : Prop :=
  Forall2 (fun i v => Forall2 (fun p q => near_point m (m_point m bytes off (fun X => X) S p) q) (points i) v) l (fst x) /\
  right_masks m bytes off S l (snd x).

(* the message ex_simple of SpecBuild with a double as reference value: R = 3, E = -1, D = 1, values 1 9 3 *)
Definition three : spec_float := S754_finite false 6755399441055744 (-51).
Definition ex_simple64 : grib spec_float :=
  mk_grib spec_float 1 "grid_simple" three (-1) 1 4 9 11 4 3 0 12 "g2" (Some 8%Z) 0 0 0.
Definition ex_eccodes64 (bytes : list N) (off : Z) : outcome (option (codes spec_float)) :=
  if (off =? 12)%Z then Ok (Some (codes_of ex_simple64)) else Ok None.
