(* Specification of extraction from one GRIB field, independent of the jumper's algorithm. *)
From Verif Require Import Base ModelSimple ModelCcsds ModelInfo SpecRange SpecSimple SpecCcsds.
From Coq Require Import Sorted.

(* ---- request ---- *)
(* half-open point ranges, each inside a field of n points, in increasing order without overlap *)
Definition good_request (n : N) (l : list (N * N)) : Prop :=
  l <> [] /\ Forall (fun i => fst i <= snd i <= n)%N l /\
  StronglySorted (fun a b => snd a <= fst b)%N l.

(* points begin .. end-1 of a field *)
Definition cut {V} (field : list V) (i : N * N) : list V :=
  slice field (N.to_nat (fst i)) (N.to_nat (snd i) - N.to_nat (fst i)).

(* ---- masks ---- *)
(* words is the presence vector in 64-bit words, least significant bit first *)
Definition is_mask (present : list bool) (words : list N) : Prop :=
  length words = (length present + 63) / 64 /\
  forall i w, nth_error words i = Some w ->
    (w < two64)%N /\
    forall j, j < 64 -> N.testbit w (N.of_nat j) = nth (i * 64 + j) present false.

(* ---- bitmap ---- *)
(* number of present points before point p *)
Definition present_before (bitmap : list bool) (p : nat) : nat :=
  length (filter (fun b => b) (firstn p bitmap)).

(* the value of point p: missing, or the packed value whose number is the count of present
   points before p *)
Definition masked_point {V} (missing : V) (bitmap : list bool) (packed : list V) (p : nat) : V :=
  if nth p bitmap false then nth (present_before bitmap p) packed missing else missing.

Definition masked_field {V} (missing : V) (bitmap : list bool) (packed : list V) : list V :=
  map (masked_point missing bitmap packed) (seq 0 (length bitmap)).

(* ---- the message ---- *)
Section Message.
  Context {F : Type}.
  Variable A : farith F.
  Variable aec_samples : aec_oracle.
  Variable file : list N.
  Variable offset : Z.
  Variable inf : info F.

  (* the byte range [from, from+len) of the file *)
  Definition bytes_at (from len : Z) : list N := slice file (Z.to_nat from) (Z.to_nat len).

  (* the data section named by the info lies in the file, and the file size fits a signed 64-bit offset *)
  Definition data_in_file : Prop :=
    (0 <= offset + i_offset_before_data inf)%Z /\
    (i_offset_before_data inf <= i_offset_after_data inf)%Z /\
    (offset + i_offset_after_data inf <= Z.of_nat (length file))%Z /\
    (lenN file < two63)%N.

  Definition data_bytes : list N :=
    bytes_at (offset + i_offset_before_data inf) (i_offset_after_data inf - i_offset_before_data inf).

  (* the bitmap: one bit per grid point, most significant bit of each byte first *)
  Definition bitmap_bytes : Z := Z.of_N ((i_number_of_points inf + 7) / 8).
  Definition bitmap_in_file : Prop :=
    (0 <= offset + i_offset_before_bitmap inf)%Z /\
    (offset + i_offset_before_bitmap inf + bitmap_bytes <= Z.of_nat (length file))%Z /\
    (i_number_of_points inf < 1152921504606846976)%N.
  Definition bitmap : list bool :=
    firstn (N.to_nat (i_number_of_points inf))
           (bits_of (bytes_at (offset + i_offset_before_bitmap inf) bitmap_bytes)).

  (* the packed values stored in the data section.  The scaling functions are the code's; C05 relates
     them to the GRIB formula.  For simple packing the width is one for which C03 holds; for CCSDS
     libaec is assumed to decode the stream (valid_stream). *)
  Inductive packed_field : list F -> Prop :=
  | packed_simple : forall n,
      i_packing inf = "grid_simple"%string -> i_class inf = SimpleInfo ->
      is_bytes file -> data_in_file ->
      (let b := N.to_nat (i_bits_per_value inf) in
       (1 <= b <= 58 \/ b = 60 \/ b = 64) /\ n * b <= 8 * length data_bytes) ->
      (N.of_nat n * 8 < 1152921504606846976)%N ->
      packed_field (map (fun k => simple_scale A (i_reference inf) (i_binary_scale inf) (i_decimal_scale inf)
                                    (sample_at (bits_of data_bytes) 0 (N.to_nat (i_bits_per_value inf)) k))
                        (seq 0 n))
  | packed_ccsds : forall flags block_size rsi offsets S,
      i_packing inf = "grid_ccsds"%string -> i_class inf = CcsdsInfo flags block_size rsi offsets ->
      data_in_file -> (lenN data_bytes < 1152921504606846976)%N ->
      (1 <= i_bits_per_value inf <= 32)%N -> (0 < rsi * block_size < 2305843009213693952)%N ->
      valid_stream aec_samples flags (i_bits_per_value inf) block_size rsi data_bytes offsets S ->
      offsets_sorted data_bytes offsets ->
      (lenN S < 144115188075855872)%N ->
      (lenN offsets = lenN S / (rsi * block_size) + 1)%N ->
      packed_field (map (ccsds_scale A (i_reference inf) (i_binary_scale inf) (i_decimal_scale inf)) S).

  (* the field as the user sees it: one value per grid point, and presence *)
  Inductive field_of_message : list F -> list bool -> Prop :=
  | constant_field :
      i_bits_per_value inf = 0%N -> i_offset_before_bitmap inf = 0%Z ->
      (i_packing inf = "grid_simple" \/ i_packing inf = "grid_ccsds")%string ->
      (i_number_of_points inf < 144115188075855872)%N ->
      field_of_message (repeat (i_reference inf) (N.to_nat (i_number_of_points inf)))
                       (repeat true (N.to_nat (i_number_of_points inf)))
  | plain_field : forall vs,
      i_bits_per_value inf <> 0%N -> i_offset_before_bitmap inf = 0%Z -> packed_field vs ->
      field_of_message vs (repeat true (length vs))
  | bitmap_field : forall vs,
      i_bits_per_value inf <> 0%N -> i_offset_before_bitmap inf <> 0%Z -> bitmap_in_file ->
      packed_field vs -> present_before bitmap (length bitmap) <= length vs ->
      field_of_message (masked_field (f_nan A) bitmap vs) bitmap.
End Message.
