(* What a GRIB message is, what eccodes and libaec are expected to say about it, and which value each grid
   point has.  Nothing here follows the code that builds a JumpInfo or extracts from it. *)
From Coq Require Import QArith.
From Verif Require Import Base ModelInfo ModelSimple ModelCcsds ModelBuild SpecSimple SpecCcsds SpecJumper.
Open Scope nat_scope.

Record grib (F : Type) := mk_grib {
  m_edition : Z;
  m_packing : string;
  m_reference : F;             (* R *)
  m_binary : Z;                (* E *)
  m_decimal : Z;               (* D *)
  m_bits : Z;                  (* bits per value *)
  m_before : Z;                (* the packed data are the octets before .. after-1 of the message *)
  m_after : Z;
  m_points : Z;                (* grid points *)
  m_values : Z;                (* packed values *)
  m_spectral : Z;
  m_total : Z;
  m_md5 : string;
  m_bitmap : option Z;         (* where the bitmap starts in the message, if there is one *)
  m_flags : Z;                 (* CCSDS parameters *)
  m_block : Z;
  m_rsi : Z
}.
Arguments m_edition {F}. Arguments m_packing {F}. Arguments m_reference {F}. Arguments m_binary {F}.
Arguments m_decimal {F}. Arguments m_bits {F}. Arguments m_before {F}. Arguments m_after {F}.
Arguments m_points {F}. Arguments m_values {F}. Arguments m_spectral {F}. Arguments m_total {F}.
Arguments m_md5 {F}. Arguments m_bitmap {F}. Arguments m_flags {F}. Arguments m_block {F}. Arguments m_rsi {F}.

Section Message.
Context {F : Type}.
Variable m : grib F.

(* a number a long can hold and that is not negative *)
Definition natural (z : Z) : Prop := (0 <= z < 9223372036854775808)%Z.

Definition wf_grib : Prop :=
  (m_edition m = 1 \/ m_edition m = 2)%Z /\
  natural (m_bits m) /\ natural (m_before m) /\ natural (m_after m) /\
  natural (m_points m) /\ natural (m_values m) /\
  natural (m_flags m) /\ natural (m_block m) /\ natural (m_rsi m) /\
  match m_bitmap m with None => True | Some b => natural b /\ (6 <= b)%Z end.

(* the keys of eccodes.  Section 6 of edition 2 has six octets before the bitmap. *)
Record reports (k : codes F) : Prop := mk_reports {
  rep_edition : k_long k "editionNumber" = Ok (m_edition m);
  rep_packing : k_string k "packingType" = Ok (m_packing m);
  rep_reference : k_double k "referenceValue" = Ok (m_reference m);
  rep_binary : k_long k "binaryScaleFactor" = Ok (m_binary m);
  rep_decimal : k_long k "decimalScaleFactor" = Ok (m_decimal m);
  rep_bits : k_long k "bitsPerValue" = Ok (m_bits m);
  rep_before : k_long k "offsetBeforeData" = Ok (m_before m);
  rep_after : k_long k "offsetAfterData" = Ok (m_after m);
  rep_points : k_long k "numberOfDataPoints" = Ok (m_points m);
  rep_values : k_long k "numberOfValues" = Ok (m_values m);
  rep_total : k_long k "totalLength" = Ok (m_total m);
  rep_md5 : k_string k "md5GridSection" = Ok (m_md5 m);
  rep_spectral : (k_has k "sphericalHarmonics" = true /\ k_long k "sphericalHarmonics" = Ok (m_spectral m)) \/
                 (k_has k "sphericalHarmonics" = false /\ m_spectral m = 0%Z /\
                  exists e, k_long k "sphericalHarmonics" = Throw e);
  rep_bitmap : match m_bitmap m with
               | None => k_long k "bitmapPresent" = Ok 0%Z
               | Some b => (exists n, k_long k "bitmapPresent" = Ok n /\ n <> 0%Z) /\
                           (m_edition m = 1%Z -> k_long k "offsetBeforeBitmap" = Ok b) /\
                           (m_edition m = 2%Z -> k_long k "offsetBSection6" = Ok (b - 6)%Z)
               end;
  rep_ccsds : m_packing m = "grid_ccsds"%string ->
              k_has k "ccsdsFlags" = true /\ k_long k "ccsdsFlags" = Ok (m_flags m) /\
              k_has k "ccsdsBlockSize" = true /\ k_long k "ccsdsBlockSize" = Ok (m_block m) /\
              k_has k "ccsdsRsi" = true /\ k_long k "ccsdsRsi" = Ok (m_rsi m)
}.

(* the description of the message *)
Definition info_of (c : info_class) : info F :=
  mk_info F 1 (m_reference m) (m_binary m) (m_decimal m) (Z.to_N (m_edition m)) (Z.to_N (m_bits m))
    (m_before m) (m_after m) (match m_bitmap m with None => 0%Z | Some b => b end)
    (Z.to_N (m_values m)) (Z.to_N (m_points m)) (m_total m) (m_spectral m) (m_md5 m) (m_packing m) c.

(* ---- the values, for the message at position off of bytes ---- *)
Variable bytes : list N.
Variable off : Z.

Definition m_data : list N :=
  slice bytes (Z.to_nat (off + m_before m)) (Z.to_nat (m_after m - m_before m)).

(* which grid points have a value *)
Definition m_present : list bool :=
  match m_bitmap m with
  | None => repeat true (Z.to_nat (m_points m))
  | Some b => firstn (Z.to_nat (m_points m))
                (bits_of (slice bytes (Z.to_nat (off + b)) (Z.to_nat ((m_points m + 7) / 8))))
  end.

(* the packed integers, in order; libaec says what a compressed stream contains *)
Variable libaec_full : aec_full_oracle.
Inductive m_samples : list N -> Prop :=
| constant_samples : m_bits m = 0%Z -> m_samples (repeat 0%N (Z.to_nat (m_values m)))
| simple_samples : (0 < m_bits m)%Z -> m_packing m = "grid_simple"%string ->
    m_samples (samples (bits_of m_data) 0 (Z.to_nat (m_bits m)) (Z.to_nat (m_values m)))
| ccsds_samples : forall S offsets native,
    (0 < m_bits m)%Z -> m_packing m = "grid_ccsds"%string -> native_flags (Z.to_N (m_flags m)) native ->
    libaec_full (mk_aec native (Z.to_N (m_bits m)) (Z.to_N (m_block m)) (Z.to_N (m_rsi m))) m_data
                (Z.to_N (m_values m)) = Some (S, offsets) ->
    m_samples S.

(* point p: no value, or the value of the packed integer whose number is the count of present points before *)
Definition m_point {V} (value : N -> V) (S : list N) (p : nat) : option V :=
  if nth p m_present false then Some (value (nth (present_before m_present p) S 0%N)) else None.

(* the value the code gives to a packed integer; C05 relates the scaling functions to the GRIB formula *)
Definition code_value (A : farith F) (X : N) : F :=
  if (m_bits m =? 0)%Z then m_reference m
  else if String.eqb (m_packing m) "grid_simple"
       then simple_scale A (m_reference m) (m_binary m) (m_decimal m) X
       else ccsds_scale A (m_reference m) (m_binary m) (m_decimal m) X.

(* a message gribjump supports, complete in bytes *)
Definition supported : Prop :=
  wf_grib /\ is_bytes bytes /\ (lenN bytes < two63)%N /\ m_spectral m = 0%Z /\ (0 <= off)%Z /\
  (m_points m < 144115188075855872)%Z /\
  Z.to_nat (m_values m) = present_before m_present (Z.to_nat (m_points m)) /\
  match m_bitmap m with
  | None => True
  | Some b => (off + b + (m_points m + 7) / 8 <= Z.of_nat (length bytes))%Z
  end /\
  ( (* a constant field *)
    (m_bits m = 0%Z /\ m_bitmap m = None /\ (m_packing m = "grid_simple" \/ m_packing m = "grid_ccsds")%string)
    \/
    (0 < m_bits m /\ m_before m <= m_after m /\ off + m_after m <= Z.of_nat (length bytes))%Z /\
    (m_after m - m_before m < 1152921504606846976)%Z /\
    ( (m_packing m = "grid_simple"%string /\
       (let b := Z.to_nat (m_bits m) in b <= 58 \/ b = 60 \/ b = 64) /\
       (m_values m * m_bits m <= 8 * (m_after m - m_before m))%Z)
      \/
      (m_packing m = "grid_ccsds"%string /\ (m_bits m <= 32)%Z /\ (m_before m < m_after m)%Z /\
       (0 < m_rsi m * m_block m < 2305843009213693952)%Z))).
End Message.

Definition or_missing {F} (A : farith F) (o : option F) : F := match o with Some x => x | None => f_nan A end.
Definition is_some {V} (o : option V) : bool := match o with Some _ => true | None => false end.

(* libaec: when it decodes a stream, it returns as many samples as asked for and a table of the interval
   starts with which every part of the stream can be decoded again *)
Definition libaec_consistent (full : aec_full_oracle) (libaec : aec_oracle) : Prop :=
  forall p data n S offsets,
    (0 < aec_rsi p * aec_block_size p)%N ->
    full p data n = Some (S, offsets) ->
    lenN S = n /\
    rsi_stream (libaec p) (N.to_nat (aec_rsi p * aec_block_size p)) data offsets S /\
    offsets_sorted data offsets /\
    lenN offsets = (n / (aec_rsi p * aec_block_size p) + 1)%N.

(* ---- what an extraction of given point ranges has to return ---- *)
Section Result.
Context {F : Type}.
Variable m : grib F.
Variables (bytes : list N) (off : Z) (S : list N).

Definition points (i : N * N) : list nat := seq (N.to_nat (fst i)) (N.to_nat (snd i) - N.to_nat (fst i)).

Definition right_masks (l : list (N * N)) (masks : list (list N)) : Prop :=
  Forall2 (fun i w => is_mask (map (fun p => is_some (m_point m bytes off (fun X => X) S p)) (points i)) w) l masks.

(* per range one list of values, per point its value or the missing value; per range one mask *)
Definition stored_result (A : farith F) (l : list (N * N)) (x : list (list F) * list (list N)) : Prop :=
  Forall2 (fun i v => v = map (fun p => or_missing A (m_point m bytes off (code_value m A) S p)) (points i)) l (fst x) /\
  right_masks l (snd x).
End Result.

(* the same against the GRIB formula, exactly *)
Definition is_point (o : option Q) (q : Q) : Prop := match o with Some x => (q == x)%Q | None => True end.
Definition exact_result (m : grib Q) (bytes : list N) (off : Z) (S : list N) (l : list (N * N))
    (x : list (list Q) * list (list N)) : Prop :=
  Forall2 (fun i v => Forall2 (fun p q => is_point (m_point m bytes off (grib_value (m_reference m) (m_binary m) (m_decimal m)) S p) q)
                              (points i) v) l (fst x) /\
  right_masks m bytes off S l (snd x).

(* messages for which the code follows the formula *)
Definition formula_holds {F} (m : grib F) : Prop :=
  m_decimal m = 0%Z \/ (m_packing m = "grid_simple"%string /\ m_bits m <> 0%Z).

(* ---- the message at a place of a file ---- *)
Section At.
Context {F : Type}.
Variable full : aec_full_oracle.
Variable grib_at : list N -> Z -> outcome (option (codes F)).

(* eccodes reads the supported message m at position off, and its packed integers are S *)
Definition message_at (bytes : list N) (off : Z) (m : grib F) (S : list N) : Prop :=
  (exists k, grib_at bytes off = Ok (Some k) /\ reports m k) /\ supported m bytes off /\ m_samples m bytes off full S.
End At.

(* no undefined behaviour inside eccodes *)
Definition defined {X} (o : outcome X) : Prop := o <> UB.
Definition defined_codes {F} (k : codes F) : Prop :=
  (forall n, defined (k_long k n)) /\ (forall n, defined (k_double k n)) /\ (forall n, defined (k_string k n)).
Definition defined_eccodes {F} (grib_at : list N -> Z -> outcome (option (codes F))) : Prop :=
  forall b o, defined (grib_at b o) /\ forall k, grib_at b o = Ok (Some k) -> defined_codes k.

Definition told_if_there {F} (k : codes F) (name : string) (v : N) : Prop :=
  if k_has k name then exists z, k_long k name = Ok z /\ v = u64_of_Z z else v = 0%N.

Definition told_class {F} (k : codes F) (packing : string) (c : info_class) : Prop :=
  match c with
  | SimpleInfo => packing = "grid_simple"%string
  | CcsdsInfo f b r _ => packing = "grid_ccsds"%string /\ told_if_there k "ccsdsFlags" f /\
                         told_if_there k "ccsdsBlockSize" b /\ told_if_there k "ccsdsRsi" r
  | UnsupportedInfo => packing <> "grid_simple"%string /\ packing <> "grid_ccsds"%string
  end.

(* every field of the description is an answer of the handle, under the key it is stored under *)
Definition told_by {F} (k : codes F) (i : info F) : Prop :=
  (exists z, k_long k "editionNumber" = Ok z /\ i_edition i = u64_of_Z z /\ (i_edition i = 1 \/ i_edition i = 2)%N) /\
  k_string k "packingType" = Ok (i_packing i) /\
  k_double k "referenceValue" = Ok (i_reference i) /\
  k_long k "binaryScaleFactor" = Ok (i_binary_scale i) /\
  k_long k "decimalScaleFactor" = Ok (i_decimal_scale i) /\
  (exists z, k_long k "bitsPerValue" = Ok z /\ i_bits_per_value i = u64_of_Z z) /\
  k_long k "offsetBeforeData" = Ok (i_offset_before_data i) /\
  k_long k "offsetAfterData" = Ok (i_offset_after_data i) /\
  (exists z, k_long k "numberOfDataPoints" = Ok z /\ i_number_of_points i = u64_of_Z z) /\
  (exists z, k_long k "numberOfValues" = Ok z /\ i_number_of_values i = u64_of_Z z) /\
  k_long k "totalLength" = Ok (i_total_length i) /\
  k_string k "md5GridSection" = Ok (i_md5 i) /\
  (if k_has k "sphericalHarmonics" then k_long k "sphericalHarmonics" = Ok (i_spherical i) else i_spherical i = 0%Z) /\
  (exists z, k_long k "bitmapPresent" = Ok z /\
     if (z =? 0)%Z then i_offset_before_bitmap i = 0%Z
     else exists o, k_long k (if (i_edition i =? 1)%N then "offsetBeforeBitmap" else "offsetBSection6")%string = Ok o /\
          i_offset_before_bitmap i = s64 (u64_of_Z (if (i_edition i =? 1)%N then o else o + 6))) /\
  told_class k (i_packing i) (i_class i).

(* ---- a handle that reports a given message ---- *)
Section Handle.
Context {F : Type}.
Variable m : grib F.
Definition is_name (a b : string) : bool := String.eqb a b.
Definition codes_of : codes F := mk_codes
  (fun n => negb (is_name n "ccsdsFlags" || is_name n "ccsdsBlockSize" || is_name n "ccsdsRsi") || is_name (m_packing m) "grid_ccsds")
  (fun n =>
     if is_name n "editionNumber" then Ok (m_edition m)
     else if is_name n "binaryScaleFactor" then Ok (m_binary m)
     else if is_name n "decimalScaleFactor" then Ok (m_decimal m)
     else if is_name n "bitsPerValue" then Ok (m_bits m)
     else if is_name n "offsetBeforeData" then Ok (m_before m)
     else if is_name n "offsetAfterData" then Ok (m_after m)
     else if is_name n "numberOfDataPoints" then Ok (m_points m)
     else if is_name n "numberOfValues" then Ok (m_values m)
     else if is_name n "totalLength" then Ok (m_total m)
     else if is_name n "sphericalHarmonics" then Ok (m_spectral m)
     else if is_name n "bitmapPresent" then Ok (match m_bitmap m with None => 0 | Some _ => 1 end)%Z
     else if is_name n "offsetBeforeBitmap" then Ok (match m_bitmap m with None => 0 | Some b => b end)%Z
     else if is_name n "offsetBSection6" then Ok (match m_bitmap m with None => 0 | Some b => b - 6 end)%Z
     else if (is_name n "ccsdsFlags" && is_name (m_packing m) "grid_ccsds")%bool then Ok (m_flags m)
     else if (is_name n "ccsdsBlockSize" && is_name (m_packing m) "grid_ccsds")%bool then Ok (m_block m)
     else if (is_name n "ccsdsRsi" && is_name (m_packing m) "grid_ccsds")%bool then Ok (m_rsi m)
     else Throw ELibrary)
  (fun n => if is_name n "referenceValue" then Ok (m_reference m) else Throw ELibrary)
  (fun n => if is_name n "packingType" then Ok (m_packing m)
            else if is_name n "md5GridSection" then Ok (m_md5 m) else Throw ELibrary).
End Handle.

(* ---- a file for the examples: 4 octets that belong to nothing, a CCSDS message of 8 octets (one octet per
   sample, intervals of two), a simple-packed message with a bitmap, and a message cut off by the end ---- *)
Definition gribs : list N :=
  [0; 0; 0; 0;  71; 71; 40; 50; 60; 70; 80; 55;  71; 82; 73; 66; 0; 0; 12; 1; 176; 25; 48; 55;  71; 9; 8]%N.
Definition ex_ccsds : grib Q :=
  mk_grib Q 2 "grid_ccsds" (1 # 2) 1 0 8 2 7 5 5 0 8 "g1" None 14 2 1.
Definition ex_simple : grib Q :=
  mk_grib Q 1 "grid_simple" (3 # 1) (-1) 1 4 9 11 4 3 0 12 "g2" (Some 8%Z) 0 0 0.
Definition ex_cut : grib Q :=
  mk_grib Q 2 "grid_ccsds" (0 # 1) 0 0 8 1 5 4 4 0 6 "g1" None 14 2 1.
Definition ex_eccodes (bytes : list N) (off : Z) : outcome (option (codes Q)) :=
  if (off =? 4)%Z then Ok (Some (codes_of ex_ccsds))
  else if (off =? 12)%Z then Ok (Some (codes_of ex_simple))
  else if (off =? 24)%Z then Ok (Some (codes_of ex_cut))
  else Ok None.
Definition zeros (n : Z) : list N := repeat 0%N (Z.to_nat n).
Definition ones (n : Z) : list N := repeat 1%N (Z.to_nat n).

(* a codec whose interval starts depend on the contents *)
Definition sum_full : aec_full_oracle := fun p data n => Some (data, [0; fold_left N.add data 0]%N).
(* a constant field packed as grid_ccsds *)
Definition ex_constant : grib Q :=
  mk_grib Q 2 "grid_ccsds" (7 # 1) 0 2 0 0 0 3 3 0 8 "g1" None 14 2 1.
