(* The numbers a user gets when the library computes in IEEE binary64: SpecAccuracy put on top of the whole way from
   a call to its results (SpecSystem, SpecDeploy, SpecUser). *)
From Coq Require Import QArith Qabs Floats.SpecFloat.
From Verif Require Import Base ModelInfo ModelSimple ModelCcsds ModelFloat ModelJumper ModelCache ModelBuild ModelEngine ModelApi ModelPython
  SpecSimple SpecCcsds SpecJumper SpecBuild SpecEngine SpecSystem SpecUser SpecAccuracy.
Local Open Scope nat_scope.

(* a message for which the code follows the GRIB formula, with scale factors whose powers are normal doubles *)
Definition double_message (m : grib spec_float) : Prop :=
  formula_holds m /\ a_double (m_reference m) /\ scales_in_range (m_binary m) (m_decimal m).

(* the exact value and the exact sum before decimal scaling stay a factor 4 below the largest double *)
Definition stays_in_range (m : grib spec_float) (X : N) : Prop :=
  (X < two64)%N /\
  (grib_value (Qabs (number (m_reference m))) (m_binary m) 0 X <= p2 1022)%Q /\
  (grib_value (Qabs (number (m_reference m))) (m_binary m) (m_decimal m) X <= p2 1022)%Q.

(* the number shown for a point with packed integer X, or for one without *)
Definition shows (m : grib spec_float) (o : option N) (v : spec_float) : Prop :=
  match o with
  | Some X => v <> S754_nan /\
      (finite v -> accurate (m_reference m) (m_binary m) (m_decimal m) X v) /\
      (stays_in_range m X -> a_double v)
  | None => v = S754_nan
  end.
Definition shows_ranges (m : grib spec_float) (bytes : list N) (off : Z) (S : list N) (l : list (N * N)) (vs : list (list spec_float)) : Prop :=
  Forall2 (fun i v => Forall2 (fun p q => shows m (m_point m bytes off (fun X => X) S p) q) (points i) v) l vs.

Section Numbers.
Variable o : outside spec_float.
Variable P : string -> Prop.
Variable cfg : ModelEngine.config.

(* the results of a batch, position by position *)
Definition number_results (reqs : list request) (listing : list listed) (res : list (result spec_float)) : Prop :=
  Forall2 (fun r x => match entry_of (c_ignore_ym cfg) listing (r_string r) with
                      | Some e => forall m S bytes off, entry_message o P e m S bytes off -> double_message m ->
                          good_request (Z.to_N (m_points m)) (r_ranges r) ->
                          shows_ranges m bytes off S (r_ranges r) (fst x) /\ right_masks m bytes off S (r_ranges r) (snd x)
                      | None => c_allow_missing cfg = true /\ x = ([], [])
                      end)
          (canon_requests (c_ignore_ym cfg) false reqs) res.

Variable expand : list (string * string) -> list (string * string).
(* what a Python user sees for their dict and ranges *)
Definition python_numbers (listing : list listed) (a : ModelUser.pyask) (y : result spec_float * list Z) : Prop :=
  forall e, In e listing -> names (expand (ModelUser.a_dict a)) (l_key e) ->
  forall m S bytes off, entry_message o P e m S bytes off -> double_message m ->
  good_request (Z.to_N (m_points m)) (asked_ranges a) ->
  exists vs, py_values (S754_zero false) (fst y) (snd y) = Ok vs /\ shows_ranges m bytes off S (asked_ranges a) vs.
(* and for points given by a mask or by indices *)
Definition region_numbers (pts : list nat) (listing : list listed) (d : list (string * string)) (y : result spec_float * list Z) : Prop :=
  forall e, In e listing -> names (expand d) (l_key e) ->
  forall m S bytes off, entry_message o P e m S bytes off -> double_message m ->
  Forall (fun p => Z.of_nat p < m_points m)%Z pts ->
  exists vs, py_values (S754_zero false) (fst y) (snd y) = Ok vs /\
    Forall2 (fun p q => shows m (m_point m bytes off (fun X => X) S p) q) pts (concat vs).
End Numbers.

(* ---- the file with two messages of SpecSystem, in binary64 ---- *)
Definition one_file64 : outside spec_float :=
  mk_outside spec_float b64_arith raw_libaec raw_full ex_eccodes64
    (fun p => if String.eqb p "/fdb/x.data" then Some gribs else None)
    (fun p => if String.eqb p "/fdb/x.data" then Some [4; 12]%Z else None) false 8 zeros
    (fun p => (p ++ ".tmp")%string) (fun l => fold_right by_offset [] l)
    (fun _ _ => Throw ELibrary) (fun _ _ => Throw ESeriousBug)
    (fun _ => Ok [ mk_listed [("param", "u"); ("step", "6")]%string (mk_uri "file" "/fdb/x.data" "" 0 (Ok 12%Z) (Throw EAssert)) ]).
Definition one_state64 (p : string) (offs : list Z) : @cache spec_float := cache_new (fun _ => None) 2.
Definition one_impl64 : impl spec_float unit :=
  mk_impl (fun _ => throw ELibrary) (fun _ _ => throw ELibrary)
    (fun reqs w => (extract_requests (world_of one_file64 one_cache one_path one_state64) one_cfg reqs, w))
    (fun _ => throw ELibrary) (fun _ _ _ => throw ELibrary) (fun _ _ => throw ELibrary).
