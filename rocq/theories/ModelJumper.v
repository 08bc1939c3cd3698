(* Model of src/gribjump/jumper/Jumper.cc, SimpleJumper.cc, CcsdsJumper.cc, JumperFactory.cc. *)
From Verif Require Import Base ModelRange ModelSimple ModelCcsds ModelInfo.

(* Types.h: using Interval = std::pair<size_t,size_t>, begin inclusive, end exclusive *)
Notation interval := (N * N)%type.

(* Jumper.cc:34-41: one 64-bit word of the mask, bit j set iff bitmap[i*64+j] *)
Definition mask_word (bitmap : list bool) (i : nat) : N :=
  fold_right (fun j acc => N.lor (match nth_error bitmap (i * 64 + j) with
                                  | Some true => N.shiftl 1 (N.of_nat j)
                                  | _ => 0%N end) acc) 0%N (seq 0 64).

(* Jumper.cc:30-44 toBitset; a std::bitset<64> is a number below 2^64 *)
Definition to_bitset (bitmap : list bool) : list N :=
  map (mask_word bitmap) (seq 0 ((length bitmap + 63) / 64)).

(* std::vector<bool>(n, true): n bits, n/8 bytes *)
Definition all_true (n : N) : outcome (list bool) :=
  let* _ := alloc (n / 8) 1 in Ok (repeat true (N.to_nat n)).

(* Jumper.cc:48-55 toRanges; end - begin is size_t subtraction *)
Definition to_ranges (intervals : list interval) : list (N * N) :=
  map (fun i => (fst i, sub64 (snd i) (fst i))) intervals.

(* Jumper.cc:58-64 checkIntervals *)
Fixpoint increasing (intervals : list interval) : bool :=
  match intervals with
  | a :: ((b :: _) as rest) => ((snd a <=? fst b)%N && increasing rest)%bool
  | _ => true
  end.
Definition check_intervals (intervals : list interval) : outcome bool :=
  let* _ := assert_ (negb (lenN intervals =? 0)%N) in Ok (increasing intervals).

(* Jumper.cc:194-214 ExtendedInterval (without missing_cum, see below) *)
Record ext_interval := mk_ext {
  e_is_interval : bool;
  e_begin : N;
  e_end : N;
  e_missing : N;
  e_bitmap : list bool
}.

(* Jumper.cc:206-213: the constructor copies all_bitmap[begin, end); iterators outside the
   bitmap or in the wrong order are undefined behaviour *)
Definition make_ext (is_interval : bool) (bitmap : list bool) (b e : N) : outcome ext_interval :=
  if ((b <=? e) && (e <=? lenN bitmap))%N
  then let part := slice bitmap (N.to_nat b) (N.to_nat (e - b)) in
       Ok (mk_ext is_interval b e (lenN (filter negb part)) part)
  else UB.

(* Jumper.cc:225-228: the gaps between consecutive intervals *)
Fixpoint make_gaps (bitmap : list bool) (ints : list ext_interval) : outcome (list ext_interval) :=
  match ints with
  | a :: ((b :: _) as rest) =>
      let* g := make_ext false bitmap (e_end a) (e_begin b) in
      let* gs := make_gaps bitmap rest in Ok (g :: gs)
  | _ => Ok []
  end.

(* std::merge(first1,last1,first2,last2,out,comp) (Jumper.cc:231-232): takes from the second
   sequence only if its head is strictly smaller.  Both inputs are sorted here (shown in the
   proofs); the fuel is the total length. *)
Fixpoint std_merge {A} (lt : A -> A -> bool) (fuel : nat) (l1 l2 : list A) : list A :=
  match fuel with
  | O => []
  | S f =>
      match l1, l2 with
      | [], _ => l2
      | _, [] => l1
      | x :: r1, y :: r2 => if lt y x then y :: std_merge lt f l1 r2 else x :: std_merge lt f r1 l2
      end
  end.

(* Jumper.cc:234-245: missing_cum of an element is the number of missing values of all elements
   before it; the INTERVAL elements give the new intervals and their bitmaps *)
Fixpoint new_intervals (cum : N) (l : list ext_interval) : list (interval * list bool) :=
  match l with
  | [] => []
  | e :: rest =>
      let tail := new_intervals (add64 cum (e_missing e)) rest in
      if e_is_interval e
      then ((sub64 (e_begin e) cum, sub64 (sub64 (e_end e) cum) (e_missing e)), e_bitmap e) :: tail
      else tail
  end.

(* Jumper.cc:192-248 calculateMaskedIntervals; intervals.front() of an empty list is undefined *)
Definition calculate_masked_intervals (intervals : list interval) (bitmap : list bool)
  : outcome (list (interval * list bool)) :=
  let* ints := mapM (fun i => make_ext true bitmap (fst i) (snd i)) intervals in
  match ints with
  | [] => UB
  | first :: _ =>
      let* g0 := make_ext false bitmap 0%N (e_begin first) in
      let* gs := make_gaps bitmap ints in
      let gaps := g0 :: gs in
      Ok (new_intervals 0%N
            (std_merge (fun a b => e_begin a <? e_begin b)%N (length ints + length gaps) ints gaps))
  end.

(* Jumper.cc:122-124: put decoded values at the present positions *)
Fixpoint scatter {F} (missing : F) (bitmap : list bool) (decoded : list F) : outcome (list F) :=
  match bitmap with
  | [] => Ok []
  | true :: rest =>
      match decoded with
      | [] => UB
      | v :: more => let* vs := scatter missing rest more in Ok (v :: vs)
      end
  | false :: rest => let* vs := scatter missing rest decoded in Ok (missing :: vs)
  end.

(* Jumper.cc:119-127: the loop over intervals; decoded->values()[i] must exist *)
Fixpoint scatter_all {F} (missing : F) (bitmaps : list (list bool)) (decoded : list (list F))
  : outcome (list (list F)) :=
  match bitmaps with
  | [] => Ok []
  | b :: rest =>
      match decoded with
      | [] => UB
      | d :: more =>
          let* v := scatter missing b d in
          let* vs := scatter_all missing rest more in Ok (v :: vs)
      end
  end.

(* the extraction result: values and mask words per interval (ExtractionData.h ExtractionResult) *)
Definition result (F : Type) := (list (list F) * list (list N))%type.

Section Jumper.
  Context {F : Type}.
  Variable A : farith F.
  Variable aec_samples : aec_oracle.
  (* the bytes of the file (data handle) and the message start (eckit::Offset) *)
  Variable file : list N.
  Variable offset : Z.
  Variable inf : info F.

  (* SimpleJumper.cc:36-37, CcsdsJumper.cc:49: the data section as a Block of size_t *)
  Definition data_section : N * N :=
    (u64_of_Z (offset + i_offset_before_data inf),
     u64_of_Z (i_offset_after_data inf - i_offset_before_data inf)).

  (* SimpleJumper.cc:25-50 readValues *)
  Definition simple_read_values (intervals : list interval) : outcome (list (list F)) :=
    match i_class inf with
    | SimpleInfo =>
        decode_ranges
          (simple_decode (simple_scale A (i_reference inf) (i_binary_scale inf) (i_decimal_scale inf))
                         (i_reference inf) (i_bits_per_value inf) (gj_accessor file data_section))
          (to_ranges intervals)
    | _ => Throw EBadJumpInfo
    end.

  (* CcsdsJumper.cc:27-58 readValues *)
  Definition ccsds_read_values (intervals : list interval) : outcome (list (list F)) :=
    match i_class inf with
    | CcsdsInfo flags block_size rsi offsets =>
        let* _ := assert_ (negb (lenN offsets =? 0)%N) in
        decode_ranges
          (ccsds_decode aec_samples
             (ccsds_scale A (i_reference inf) (i_binary_scale inf) (i_decimal_scale inf))
             flags (i_bits_per_value inf) block_size rsi offsets (gj_accessor file data_section))
          (to_ranges intervals)
    | _ => Throw EBadJumpInfo
    end.

  (* JumperFactory.cc:68-77 and the builders registered in SimpleJumper.cc:52, CcsdsJumper.cc:60:
     the jumper is chosen by packingType; unknown types throw SeriousBug *)
  Definition read_values (intervals : list interval) : outcome (list (list F)) :=
    if String.eqb (i_packing inf) "grid_simple" then simple_read_values intervals
    else if String.eqb (i_packing inf) "grid_ccsds" then ccsds_read_values intervals
    else Throw ESeriousBug.

  (* Jumper.cc:159-185 readBitmap *)
  Definition read_bitmap : outcome (list bool) :=
    let bitmap_offset := (offset + i_offset_before_bitmap inf)%Z in
    let npoints := i_number_of_points inf in
    let bitmap_size := (add64 npoints 7 / 8)%N in
    if (bitmap_size =? 0)%N then Ok []
    else if (i_bits_per_value inf =? 0)%N then Ok (repeat true (N.to_nat npoints))
    else
      let* _ := alloc npoints 1 in
      if (bitmap_offset <? 0)%Z then Throw ERead
      else if (bitmap_offset + Z.of_N bitmap_size <=? Z.of_nat (length file))%Z then
        let bytes := slice file (Z.to_nat bitmap_offset) (N.to_nat bitmap_size) in
        mapM (fun i => let* b := at_ bytes (N.of_nat (i / 8)) in
                       Ok (N.testbit b (N.of_nat (7 - i mod 8))))
             (seq 0 (N.to_nat npoints))
      else Throw ERead.

  (* Jumper.cc:134-154 extractConstant *)
  Definition extract_constant (intervals : list interval) : outcome (result F) :=
    let* vals := mapM (fun i => let n := sub64 (snd i) (fst i) in
                                let* _ := alloc n 8 in
                                Ok (repeat (i_reference inf) (N.to_nat n))) intervals in
    let* masks := mapM (fun i => omap to_bitset (all_true (sub64 (snd i) (fst i)))) intervals in
    Ok (vals, masks).

  (* Jumper.cc:87-100 extractNoMask *)
  Definition extract_no_mask (intervals : list interval) : outcome (result F) :=
    let* vals := read_values intervals in
    let* masks := mapM (fun i => omap to_bitset (all_true (sub64 (snd i) (fst i)))) intervals in
    Ok (vals, masks).

  (* Jumper.cc:102-131 extractMasked *)
  Definition extract_masked (intervals : list interval) : outcome (result F) :=
    let* fullbitmap := read_bitmap in
    let* new := calculate_masked_intervals intervals fullbitmap in
    let* decoded := read_values (map fst new) in
    let* vals := scatter_all (f_nan A) (map snd new) decoded in
    Ok (vals, map to_bitset (map snd new)).

  (* Jumper.cc:73-85 extract.  The jumper object is built from packingType before this call
     (Task.cc), so an unknown packing type fails first. *)
  Definition extract (intervals : list interval) : outcome (result F) :=
    let* _ := (if String.eqb (i_packing inf) "grid_simple" then Ok tt
               else if String.eqb (i_packing inf) "grid_ccsds" then Ok tt
               else Throw ESeriousBug) in
    let* ok := check_intervals intervals in
    let* _ := assert_ ok in
    let* _ := assert_ (i_spherical inf =? 0)%Z in
    if (i_bits_per_value inf =? 0)%N then extract_constant intervals
    else if (i_offset_before_bitmap inf =? 0)%Z then extract_no_mask intervals
    else extract_masked intervals.
End Jumper.
