(* Properties C07-C15: extraction of point ranges from one GRIB field. *)
From Verif Require Import Base ModelRange ModelSimple ModelCcsds ModelInfo ModelJumper
     SpecRange SpecSimple SpecCcsds SpecJumper ProofsJumper ProofsJumper2 ProofsJumper3.
From Coq Require Import Sorted.
Open Scope nat_scope.

(* C07.  A read request with an offset below 2^63 that succeeds returned bytes of the section only. *)
Theorem C07_read_inside_section_partial :
  forall (file : list N) (section : N * N) (o s : N) (d : list N),
    (fst section + snd section <= lenN file)%N /\ (lenN file < two63)%N ->
    (o < two63)%N -> (s < two64)%N ->
    gj_read file section (o, s) = Ok d ->
    (o + s <= snd section)%N /\
    d = slice (slice file (N.to_nat (fst section)) (N.to_nat (snd section))) (N.to_nat o) (N.to_nat s).
Proof. exact gj_read_inside. Qed.
Print Assumptions C07_read_inside_section_partial.

(* Missing above: offsets of 2^63 and more.  There the check is wrong: offset -1 as a size_t reads the
   byte before the section (byte 2 at position 1 of the file; the section is positions 2..3). *)
Theorem C07_refuted :
  gj_read [1; 2; 3; 4]%N (2, 2)%N (18446744073709551615, 1)%N = Ok [2]%N.
Proof. exact (eq_refl : gj_read [1; 2; 3; 4]%N (2, 2)%N (18446744073709551615, 1)%N = Ok [2]%N). Qed.
Print Assumptions C07_refuted.

(* The decoders never make such a request: extraction depends on nothing but the bytes of the message's own
   data section and bitmap.  Two files that agree on those give the same outcome (values, error or not)
   for every request, well-formed or not, wherever the message lies in the files. *)
Theorem C07_extraction_reads_own_sections_only :
  forall (F : Type) (A : farith F) (aec : aec_oracle)
         (f1 : list N) (o1 : Z) (f2 : list N) (o2 : Z) (inf : info F) (l : list (N * N)),
    match i_class inf with CcsdsInfo _ _ _ offs => Forall (fun o => o < two64)%N offs | _ => True end ->
    data_in_file f1 o1 inf -> data_in_file f2 o2 inf -> data_bytes f1 o1 inf = data_bytes f2 o2 inf ->
    (i_offset_before_bitmap inf = 0%Z \/
     bitmap_in_file f1 o1 inf /\ bitmap_in_file f2 o2 inf /\ bitmap f1 o1 inf = bitmap f2 o2 inf) ->
    extract A aec f1 o1 inf l = extract A aec f2 o2 inf l.
Proof. exact (fun F A => @extract_local F A). Qed.
Print Assumptions C07_extraction_reads_own_sections_only.

(* the same four data bytes at different places: a request for the fifth point never sees a neighbour *)
Example C07_example :
  extract z_arith no_aec [7; 180; 10; 20; 30; 40; 9; 9]%N 0 (ex_info 8 2 6 0 4) [(3, 5)]%N = Throw EOutOfRange /\
  extract z_arith no_aec [1; 1; 1; 7; 180; 10; 20; 30; 40; 77]%N 3 (ex_info 8 2 6 0 4) [(3, 5)]%N = Throw EOutOfRange /\
  extract z_arith no_aec [1; 1; 1; 7; 180; 10; 20; 30; 40; 77]%N 3 (ex_info 8 2 6 0 4) [(2, 4)]%N = Ok ([[130; 140]%Z], [[3]%N]).
Proof. vm_compute. auto. Qed.

(* the in-memory accessor lets a wrapped request through (undefined behaviour) *)
Example C07_memory_accessor_wraps : mem_read [1; 2; 3; 4]%N (18446744073709551615, 2)%N = UB.
Proof. vm_compute. reflexivity. Qed.

(* C08.  Field without bitmap: the points of each range in order, every point marked present. *)
Theorem C08_extract_without_bitmap :
  forall (F : Type) (A : farith F) (aec : aec_oracle)
         (file : list N) (offset : Z) (inf : info F) (vs : list F) (l : list (N * N)),
    i_bits_per_value inf <> 0%N -> i_offset_before_bitmap inf = 0%Z -> i_spherical inf = 0%Z ->
    packed_field A aec file offset inf vs -> good_request (lenN vs) l ->
    exists masks, extract A aec file offset inf l = Ok (map (cut vs) l, masks) /\
      Forall2 (fun i m => is_mask (repeat true (N.to_nat (snd i) - N.to_nat (fst i))) m) l masks.
Proof. exact @extract_plain. Qed.
Print Assumptions C08_extract_without_bitmap.

Example C08_example :
  extract z_arith no_aec ex_file 0 (ex_info 8 2 6 0 4) [(0, 1); (1, 1); (2, 4)]%N =
  Ok ([[110]; []; [130; 140]]%Z, [[1]; []; [3]]%N).
Proof. vm_compute. reflexivity. Qed.

(* C09.  Field with bitmap: point p is the missing value or packed value number (present points before p). *)
Theorem C09_extract_with_bitmap :
  forall (F : Type) (A : farith F) (aec : aec_oracle)
         (file : list N) (offset : Z) (inf : info F) (vs : list F) (l : list (N * N)),
    i_bits_per_value inf <> 0%N -> i_offset_before_bitmap inf <> 0%Z -> i_spherical inf = 0%Z ->
    bitmap_in_file file offset inf -> packed_field A aec file offset inf vs ->
    present_before (bitmap file offset inf) (length (bitmap file offset inf)) <= length vs ->
    good_request (i_number_of_points inf) l ->
    exists vals masks, extract A aec file offset inf l = Ok (vals, masks) /\
      Forall2 (fun i v => v = map (masked_point (f_nan A) (bitmap file offset inf) vs)
                                  (seq (N.to_nat (fst i)) (N.to_nat (snd i) - N.to_nat (fst i)))) l vals /\
      Forall2 (fun i m => is_mask (cut (bitmap file offset inf) i) m) l masks.
Proof. exact @extract_bitmap. Qed.
Print Assumptions C09_extract_with_bitmap.

(* bitmap 101101: missing points 1 and 4; adjacent, empty and entirely missing ranges *)
Example C09_example :
  bitmap ex_file 0 (ex_info 8 2 6 1 6) = [true; false; true; true; false; true] /\
  packed_field z_arith no_aec ex_file 0 (ex_info 8 2 6 1 6) [110; 120; 130; 140]%Z /\
  bitmap_in_file ex_file 0 (ex_info 8 2 6 1 6) /\
  extract z_arith no_aec ex_file 0 (ex_info 8 2 6 1 6) [(0, 1); (1, 2); (2, 2); (2, 2); (3, 6)]%N =
  Ok ([[110]; [-999]; []; []; [130; -999; 140]]%Z, [[1]; [0]; []; []; [5]]%N).
Proof. exact (conj eq_refl (conj ex_packed (conj ex_bitmap_in_file eq_refl))). Qed.

(* C10.  The mask words. *)
Theorem C10_mask_words :
  forall present : list bool,
    length (to_bitset present) = (length present + 63) / 64 /\
    forall i w, nth_error (to_bitset present) i = Some w ->
      (w < two64)%N /\
      forall j, j < 64 -> N.testbit w (N.of_nat j) = nth (i * 64 + j) present false.
Proof. exact to_bitset_mask. Qed.
Print Assumptions C10_mask_words.

(* and they are the only words with that property *)
Theorem C10_mask_words_unique : forall present words, is_mask present words -> words = to_bitset present.
Proof. exact is_mask_unique. Qed.
Print Assumptions C10_mask_words_unique.

Example C10_example :
  to_bitset (repeat true 3 ++ repeat false 59 ++ [true; false; true; true])
  = [4611686018427387911; 3]%N.
Proof. vm_compute. reflexivity. Qed.

(* C11.  Shape of every successful result, for every info and file whatsoever. *)
Theorem C11_result_shape :
  forall (F : Type) (A : farith F) (aec : aec_oracle)
         (file : list N) (offset : Z) (inf : info F) (l : list (N * N)) vals masks,
    Forall (fun i => fst i <= snd i < two64)%N l ->
    extract A aec file offset inf l = Ok (vals, masks) ->
    Forall2 (fun i v => length v = N.to_nat (snd i) - N.to_nat (fst i)) l vals /\
    exists present, Forall2 (fun i p => length p = N.to_nat (snd i) - N.to_nat (fst i)) l present /\
                    Forall2 is_mask present masks.
Proof. exact @extract_shape. Qed.
Print Assumptions C11_result_shape.

Example C11_example :
  extract z_arith no_aec [] 0 (ex_info 0 2 6 0 4) [(5, 8); (100, 165)]%N =
  Ok ([repeat 100%Z 3; repeat 100%Z 65], [[7]; [18446744073709551615; 1]]%N).
Proof. vm_compute. reflexivity. Qed.

(* C12.  Simple packing without bitmap: a range that needs more bits than the data section has is refused.
   Missing: ends between the number of points and the bits available (padding), bit positions beyond 2^64,
   constant fields and fields with bitmap; the property is false there (see C12_refuted_constant and C12_refuted_packed). *)
Theorem C12_beyond_data_refused_partial :
  forall (F : Type) (A : farith F) (aec : aec_oracle)
         (file : list N) (offset : Z) (inf : info F) (l : list (N * N)) (i : N * N),
    is_bytes file -> data_in_file file offset inf -> i_class inf = SimpleInfo ->
    i_packing inf = "grid_simple"%string ->
    (1 <= i_bits_per_value inf <= 64)%N -> i_offset_before_bitmap inf = 0%Z ->
    Forall (fun i => fst i <= snd i /\ snd i * i_bits_per_value inf + 7 < two64)%N l ->
    In i l -> (8 * lenN (data_bytes file offset inf) < snd i * i_bits_per_value inf)%N ->
    exists e, extract A aec file offset inf l = Throw e.
Proof. exact @no_mask_beyond. Qed.
Print Assumptions C12_beyond_data_refused_partial.

(* and no list of ranges with begin <= end, however large, has undefined behaviour there *)
Theorem C12_no_undefined_behaviour_partial :
  forall (F : Type) (A : farith F) (aec : aec_oracle)
         (file : list N) (offset : Z) (inf : info F) (l : list (N * N)),
    is_bytes file -> data_in_file file offset inf -> i_class inf = SimpleInfo ->
    i_packing inf = "grid_simple"%string ->
    (1 <= i_bits_per_value inf <= 64)%N -> i_offset_before_bitmap inf = 0%Z ->
    Forall (fun i => fst i <= snd i < two64)%N l ->
    extract A aec file offset inf l <> UB.
Proof. exact @no_mask_not_ub. Qed.
Print Assumptions C12_no_undefined_behaviour_partial.

(* constant field: the number of points is never looked at *)
Theorem C12_refuted_constant :
  forall (F : Type) (A : farith F) (aec : aec_oracle)
         (file : list N) (offset : Z) (inf : info F) (n : N) (l : list (N * N)),
    i_bits_per_value inf = 0%N -> i_spherical inf = 0%Z ->
    (i_packing inf = "grid_simple" \/ i_packing inf = "grid_ccsds")%string ->
    (n < 144115188075855872)%N -> good_request n l ->
    exists masks,
      extract A aec file offset inf l =
        Ok (map (fun i => repeat (i_reference inf) (N.to_nat (snd i) - N.to_nat (fst i))) l, masks) /\
      Forall2 (fun i m => is_mask (repeat true (N.to_nat (snd i) - N.to_nat (fst i))) m) l masks.
Proof. exact @constant_ignores. Qed.
Print Assumptions C12_refuted_constant.

(* padding bits, a wrapped bit position, and a range beyond the bitmap *)
Theorem C12_refuted_packed :
  (* one 4-bit point in one byte: points 0 and 1 are "returned" *)
  extract z_arith no_aec [171]%N 0 (ex_info 4 0 1 0 1) [(0, 2)]%N = Ok ([[110; 111]]%Z, [[3]]%N) /\
  (* two 16-bit points: point 2^60 is answered with point 0 *)
  extract z_arith no_aec [0; 5; 0; 6]%N 0 (ex_info 16 0 4 0 2) [(1152921504606846976, 1152921504606846977)]%N
    = Ok ([[105]]%Z, [[1]]%N) /\
  (* six points with a bitmap: asking for seven reads outside the bitmap *)
  extract z_arith no_aec ex_file 0 (ex_info 8 2 6 1 6) [(0, 7)]%N = UB.
Proof. exact (conj eq_refl (conj eq_refl eq_refl)). Qed.
Print Assumptions C12_refuted_packed.

Example C12_example :
  extract z_arith no_aec [10; 20]%N 0 (ex_info 8 0 2 0 2) [(0, 1); (1, 3)]%N = Throw EOutOfRange.
Proof. vm_compute. reflexivity. Qed.

(* C13.  Empty or unsorted lists are refused without looking at the file or the data. *)
Theorem C13_malformed_refused :
  forall (F : Type) (A : farith F) (aec : aec_oracle)
         (file : list N) (offset : Z) (inf : info F) (l : list (N * N)),
    (i_packing inf = "grid_simple" \/ i_packing inf = "grid_ccsds")%string ->
    l = [] \/ ~ Sorted (fun a b => snd a <= fst b)%N l ->
    extract A aec file offset inf l = Throw EAssert.
Proof. exact @extract_refuses. Qed.
Print Assumptions C13_malformed_refused.

(* two overlapping ranges anywhere in a list of proper ranges *)
Theorem C13_overlap_refused :
  forall (F : Type) (A : farith F) (aec : aec_oracle)
         (file : list N) (offset : Z) (inf : info F) (l : list (N * N)) (i j : nat) (a b : N * N),
    (i_packing inf = "grid_simple" \/ i_packing inf = "grid_ccsds")%string ->
    Forall (fun x => fst x <= snd x)%N l -> i < j -> nth_error l i = Some a -> nth_error l j = Some b ->
    (fst b < snd a)%N -> extract A aec file offset inf l = Throw EAssert.
Proof. exact @extract_refuses_overlap. Qed.
Print Assumptions C13_overlap_refused.

(* every increasing non-overlapping list passes the check *)
Theorem C13_wellformed_accepted :
  forall (n : N) (l : list (N * N)), good_request n l -> check_intervals l = Ok true.
Proof. exact check_ok. Qed.
Print Assumptions C13_wellformed_accepted.

(* inverted ranges are not refused by the check and reach the decoder: undefined behaviour *)
Theorem C13_refuted :
  check_intervals [(10, 3)]%N = Ok true /\
  check_intervals [(10, 3); (3, 12)]%N = Ok true /\
  extract z_arith no_aec [1; 2; 3; 4; 5; 6; 7; 8; 9; 10; 11; 12; 13; 14; 15; 16]%N 0 (ex_info 8 0 16 0 16) [(10, 3); (3, 12)]%N = UB /\
  extract z_arith no_aec ex_file 0 (ex_info 8 2 6 1 6) [(4, 2)]%N = UB.
Proof. exact (conj eq_refl (conj eq_refl (conj eq_refl eq_refl))). Qed.
Print Assumptions C13_refuted.

Example C13_example :
  extract z_arith no_aec ex_file 0 (ex_info 8 2 6 0 4) [(0, 2); (1, 3)]%N = Throw EAssert /\
  extract z_arith no_aec ex_file 0 (ex_info 8 2 6 0 4) [(2, 3); (0, 1)]%N = Throw EAssert /\
  extract z_arith no_aec ex_file 0 (ex_info 8 2 6 0 4) [(0, 2); (2, 3)]%N = Ok ([[110; 120]; [130]]%Z, [[3]; [1]]%N).
Proof. vm_compute. auto. Qed.

(* C14.  Whenever a field with bitmap and bitsPerValue > 0 is extracted successfully, missing points are
   missing, whatever the packing and the data.  Missing: constant fields, where it is false (C14_refuted). *)
Theorem C14_missing_points_partial :
  forall (F : Type) (A : farith F) (aec : aec_oracle)
         (file : list N) (offset : Z) (inf : info F) (l : list (N * N)) vals masks k i v m p,
    (i_number_of_points inf < 1152921504606846976)%N ->
    i_bits_per_value inf <> 0%N -> i_offset_before_bitmap inf <> 0%Z ->
    extract A aec file offset inf l = Ok (vals, masks) ->
    nth_error l k = Some i -> nth_error vals k = Some v -> nth_error masks k = Some m ->
    N.to_nat (fst i) <= p < N.to_nat (snd i) ->
    p < length (bitmap file offset inf) /\
    (nth p (bitmap file offset inf) false = false ->
     nth_error v (p - N.to_nat (fst i)) = Some (f_nan A) /\
     exists w, nth_error m ((p - N.to_nat (fst i)) / 64) = Some w /\
               N.testbit w (N.of_nat ((p - N.to_nat (fst i)) mod 64)) = false).
Proof. exact @extract_missing. Qed.
Print Assumptions C14_missing_points_partial.

(* constant field with bitmap 101101: points 1 and 4 are reported present with the reference value *)
Theorem C14_refuted :
  bitmap ex_file 0 (ex_info 0 2 6 1 6) = [true; false; true; true; false; true] /\
  extract z_arith no_aec ex_file 0 (ex_info 0 2 6 1 6) [(0, 6)]%N = Ok ([[100; 100; 100; 100; 100; 100]]%Z, [[63]]%N).
Proof. exact (conj eq_refl eq_refl). Qed.
Print Assumptions C14_refuted.

(* C15.  Splitting one range of a request into two adjacent ones, for constant, plain and bitmap fields;
   the other ranges keep their values. *)
Theorem C15_splitting :
  forall (F : Type) (A : farith F) (aec : aec_oracle)
         (file : list N) (offset : Z) (inf : info F) field present (l1 l2 : list (N * N)) (a b c : N),
    field_of_message A aec file offset inf field present -> i_spherical inf = 0%Z ->
    (a <= b <= c)%N -> good_request (lenN field) (l1 ++ (a, c) :: l2) ->
    exists v1 v x y v2 m m', length v1 = length l1 /\ length v2 = length l2 /\
      extract A aec file offset inf (l1 ++ (a, c) :: l2) = Ok (v1 ++ v :: v2, m) /\
      extract A aec file offset inf (l1 ++ (a, b) :: (b, c) :: l2) = Ok (v1 ++ x :: y :: v2, m') /\
      v = x ++ y.
Proof. exact @extract_split. Qed.
Print Assumptions C15_splitting.

Example C15_example :
  extract z_arith no_aec ex_file 0 (ex_info 8 2 6 1 6) [(0, 1); (1, 6)]%N
    = Ok ([[110]; [-999; 120; 130; -999; 140]]%Z, [[1]; [22]]%N) /\
  extract z_arith no_aec ex_file 0 (ex_info 8 2 6 1 6) [(0, 1); (1, 4); (4, 6)]%N
    = Ok ([[110]; [-999; 120; 130]; [-999; 140]]%Z, [[1]; [6]; [2]]%N).
Proof. vm_compute. auto. Qed.
