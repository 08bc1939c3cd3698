(* Comparing and showing infos, independently of the code. *)
From Verif Require Import Base ModelStrings ModelInfo ModelStream ModelIndex ModelCache ModelInspect SpecIndex.

(* the class that goes with a packing *)
Inductive kind := KindSimple | KindCcsds | KindOther.
Definition kind_of (c : info_class) : kind :=
  match c with SimpleInfo => KindSimple | CcsdsInfo _ _ _ _ => KindCcsds | UnsupportedInfo => KindOther end.
Definition kind_of_packing (p : string) : kind :=
  if String.eqb p "grid_simple" then KindSimple else if String.eqb p "grid_ccsds" then KindCcsds else KindOther.

Section Infos.
Context {F : Type}.
Definition proper_class (i : info F) : Prop := kind_of (i_class i) = kind_of_packing (i_packing i).
Definition with_reference (i : info F) (r : F) : info F :=
  mk_info F (i_version i) r (i_binary_scale i) (i_decimal_scale i) (i_edition i)
    (i_bits_per_value i) (i_offset_before_data i) (i_offset_after_data i) (i_offset_before_bitmap i)
    (i_number_of_values i) (i_number_of_points i) (i_total_length i) (i_spherical i) (i_md5 i) (i_packing i) (i_class i).
(* the same in everything, the reference values compared as doubles *)
Definition same_info (feq : F -> F -> bool) (a b : info F) : Prop :=
  a = with_reference b (i_reference a) /\ feq (i_reference a) (i_reference b) = true.

(* everything that is known about a message, by name *)
Definition class_name (c : info_class) : string :=
  match c with SimpleInfo => "SimpleInfo" | CcsdsInfo _ _ _ _ => "CcsdsInfo" | UnsupportedInfo => "UnsupportedInfo" end.
Definition facts_of (show : F -> string) (i : info F) : list (string * string) :=
  let n := fun x => decimal (Z.of_N x) in
  [("version", n (i_version i)); ("referenceValue", show (i_reference i)); ("binaryScaleFactor", decimal (i_binary_scale i));
   ("decimalScaleFactor", decimal (i_decimal_scale i)); ("editionNumber", n (i_edition i)); ("bitsPerValue", n (i_bits_per_value i));
   ("offsetBeforeData", decimal (i_offset_before_data i)); ("offsetAfterData", decimal (i_offset_after_data i));
   ("offsetBeforeBitmap", decimal (i_offset_before_bitmap i)); ("numberOfValues", n (i_number_of_values i));
   ("numberOfDataPoints", n (i_number_of_points i)); ("totalLength", decimal (i_total_length i));
   ("sphericalHarmonics", decimal (i_spherical i)); ("md5GridSection", i_md5 i); ("packingType", i_packing i)]%string ++
  match i_class i with
  | CcsdsInfo flags block_size rsi offsets =>
      [("ccsdsFlags", n flags); ("ccsdsBlockSize", n block_size); ("ccsdsRsi", n rsi); ("ccsdsOffsets.size", n (lenN offsets))]%string
  | _ => []
  end.
Definition info_text (show : F -> string) (i : info F) : string :=
  String.concat "," (class_name (i_class i) :: map (fun f => fst f ++ "=" ++ snd f)%string (facts_of show i)).
(* the lines for an index file with these records *)
Definition record_line (show : F -> string) (e : Z * info F) : string :=
  ("  Offset:" ++ decimal (fst e) ++ " -> " ++ info_text show (snd e))%string.
Definition dump_lines (show : F -> string) (f : string * list (Z * info F)) : list string :=
  ("IndexFile[" ++ fst f ++ " (" ++ decimal (Z.of_N (lenN (snd f))) ++ " entries)]:")%string :: map (record_line show) (snd f).
(* an index file that can be read, with these records *)
Definition index_file_with (d : @disk F) (f : string * list (Z * info F)) : Prop :=
  d (fst f) <> None /\ load_index d (fst f) = Ok (lift (snd f)).
End Infos.

(* an option given as true *)
Definition on (b : option bool) : bool := match b with Some true => true | _ => false end.
(* the requests are scanned, if there are any *)
Definition then_scanned {M} (scan : list M -> bool -> outcome N) (rs : list M) (byfiles : option bool) : outcome string :=
  match rs with
  | [] => Throw EUser
  | _ => omap (fun n => "Scanned " ++ decimal (Z.of_N n) ++ " field(s)")%string (scan rs (on byfiles))
  end.

(* for the examples *)
Definition inspect_info (c : info_class) (p : string) : info Z :=
  mk_info Z 1 273%Z (-2)%Z 0%Z 2 16 100%Z 300%Z 0%Z 100 100 320%Z 0%Z "abc" p c.
Definition show_z (z : Z) : string := decimal z.
Definition inspect_disk : @disk Z :=
  fun p => if String.eqb p "a.gribjump"
           then Some (KU8 1 :: [KStart; KLL 320%Z] ++ w_info (inspect_info (CcsdsInfo 14 32 128 [0; 5]%N) "grid_ccsds") ++ [KEnd] ++
                      [KStart; KLL 0%Z] ++ w_info (inspect_info SimpleInfo "grid_simple") ++ [KEnd])
           else if String.eqb p "torn.gribjump" then Some [KU8 1; KStart; KLL 0%Z] else None.
Definition all_about : about := mk_about "1.2" "f00" "/opt" "/opt/lib" "".
