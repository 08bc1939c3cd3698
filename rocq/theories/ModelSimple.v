(* Model of simple packing:
   src/gribjump/compression/NumericCompressor.h (codes_power),
   src/gribjump/compression/compressors/SimplePacking.cc,
   src/gribjump/compression/compressors/Simple.cc,
   and of the data accessors:
   src/gribjump/GribJumpDataAccessor.h, src/gribjump/compression/DataAccessor.h. *)
From Verif Require Import Base.

(* The floating point operations the decoders use, as a parameter.  Instances: exact
   rationals and IEEE binary64 (ModelFloat.v).  f_of_N is the conversion from unsigned
   long / uint32_t, f_of_Z the conversion from long. *)
Record farith (F : Type) := mk_farith {
  f_of_N : N -> F;
  f_of_Z : Z -> F;
  f_add : F -> F -> F;
  f_mul : F -> F -> F;
  f_div : F -> F -> F;
  f_nan : F
}.
Arguments f_of_N {F}. Arguments f_of_Z {F}. Arguments f_add {F}.
Arguments f_mul {F}. Arguments f_div {F}. Arguments f_nan {F}.

(* NumericCompressor.h:91-107 codes_power<T>(long s, long n): n to the power s.
   The two while loops run |s| times. *)
Definition codes_power {F} (A : farith F) (s n : Z) : F :=
  if (s =? 0)%Z then f_of_Z A 1
  else if (s =? 1)%Z then f_of_Z A n
  else if (s <? 0)%Z
  then Nat.iter (Z.to_nat (- s)) (fun d => f_div A d (f_of_Z A n)) (f_of_Z A 1)
  else Nat.iter (Z.to_nat s) (fun d => f_mul A d (f_of_Z A n)) (f_of_Z A 1).

(* SimplePacking.cc:17-20 bitmask *)
Definition bitmask (x : N) : N :=
  if (x =? 64)%N then (two64 - 1)%N else (N.shiftl 1 x - 1)%N.

(* memory allocation of n elements of the given size: requests that cannot be satisfied on any
   64-bit machine (2^60 bytes or more) throw std::bad_alloc / std::length_error, all others are
   assumed to succeed *)
Definition alloc (n elem_size : N) : outcome unit :=
  if (n * elem_size <? 1152921504606846976)%N then Ok tt else Throw EBadAlloc.

Section DecodeArray.
  Context {V : Type}.
  (* x = ((lvalue * s) + reference_value) * d   (SimplePacking.cc:44 and :84) *)
  Variable scale : N -> V.
  (* the encoded buffer; p[i] outside of it is undefined behaviour *)
  Variable p : list N.

  (* SimplePacking.cc:40-43: for (bc = 1; bc < l; bc++) { lvalue <<= 8; lvalue |= p[o++]; } *)
  Fixpoint or_bytes (cnt : nat) (o lvalue : N) : outcome (N * N) :=
    match cnt with
    | O => Ok (o, lvalue)
    | S c => let* b := at_ p o in
             or_bytes c (o + 1)%N (N.lor (w64 (N.shiftl lvalue 8)) b)
    end.

  (* SimplePacking.cc:35-46: whole-byte widths; the first byte is read unconditionally *)
  Fixpoint decode_bytewise (n : nat) (l o : N) : outcome (list V) :=
    match n with
    | O => Ok []
    | S n' =>
        let* b := at_ p o in
        let* (o', lvalue) := or_bytes (N.to_nat l - 1) (o + 1)%N (N.lor (w64 (N.shiftl 0 8)) b) in
        let* rest := decode_bytewise n' l o' in
        Ok (scale lvalue :: rest)
    end.

  (* SimplePacking.cc:63-69: the while loop.  toRead is the long bitsToRead.  The fuel is
     bitsPerValue + 1; each iteration consumes at least one bit so it never runs out
     (running out is reported as UB, so the theorems also show termination). *)
  Fixpoint read_bits (fuel : nat) (pi lvalue : N) (toRead : Z) (useful : N) : outcome (N * N * Z) :=
    match fuel with
    | O => UB
    | S f =>
        if (0 <? toRead)%Z then
          let* b := at_ p pi in
          read_bits f (pi + 1)%N (add64 (w64 (N.shiftl lvalue 8)) b) (toRead - Z.of_N useful)%Z 8%N
        else Ok (pi, lvalue, toRead)
    end.

  (* SimplePacking.cc:57-86: the value loop for widths that are not a multiple of 8 *)
  Fixpoint decode_bitwise (n : nat) (bpv pi useful : N) : outcome (list V) :=
    match n with
    | O => Ok []
    | S n' =>
        let* (pi', acc, toRead) := read_bits (S (N.to_nat bpv)) pi 0%N (Z.of_N bpv) useful in
        let shift := Z.to_N (- toRead) in
        let lvalue := N.land (N.shiftr acc shift) (bitmask bpv) in
        let* rest :=
          (if (0 <? shift)%N
           then decode_bitwise n' bpv (pi' - 1)%N shift
           else decode_bitwise n' bpv pi' 8%N) in
        Ok (scale lvalue :: rest)
    end.

  (* SimplePacking.cc:24-89 decode_array(p, bitsPerValue, ..., n_vals, val, bitp).
     bitp is ignored for whole-byte widths, as in the code. *)
  Definition decode_array (bpv n_vals bitp : N) : outcome (list V) :=
    if (bpv mod 8 =? 0)%N
    then decode_bytewise (N.to_nat n_vals) (bpv / 8)%N 0%N
    else decode_bitwise (N.to_nat n_vals) bpv (bitp / 8)%N (8 - N.land bitp 7)%N.

  (* SimplePacking.cc:96-122 SimplePacking::unpack *)
  Definition unpack (reference : V) (bpv n_vals bitp : N) : outcome (list V) :=
    if (64 <? bpv)%N then Throw EBadValue
    else if (n_vals =? 0)%N then Ok []
    else
      let* _ := alloc n_vals 8 in
      if (bpv =? 0)%N then Ok (repeat reference (N.to_nat n_vals))
      else decode_array bpv n_vals bitp.
End DecodeArray.

(* SimplePacking.cc:44,84 with s and d from SimplePacking.cc:114-115 *)
Definition simple_scale {F} (A : farith F) (reference : F) (E D : Z) (lvalue : N) : F :=
  let s := codes_power A E 2 in
  let d := codes_power A (- D) 10 in
  f_mul A (f_add A (f_mul A (f_of_N A lvalue) s) reference) d.

(* compression/DataAccessor.h DataAccessor: read(Block) and eof() *)
Record accessor := mk_accessor {
  acc_read : (N * N) -> outcome (list N);
  acc_eof : N
}.

(* GribJumpDataAccessor.h:25-39 read(range).  The data handle is the byte content of the file.
   Offsets and lengths are eckit::Offset / eckit::Length, i.e. signed 64-bit.  A seek to a
   negative position and a short read are failures. *)
Definition gj_read (file : list N) (section : N * N) (range : N * N) : outcome (list N) :=
  let offset := s64 (fst range) in
  let size := s64 (snd range) in
  let* _ := alloc (snd range) 1 in
  if (offset + size >? s64 (snd section))%Z then Throw EOutOfRange
  else
    let pos := (s64 (fst section) + offset)%Z in
    if (pos <? 0)%Z then Throw ERead
    else if (pos + size <=? Z.of_nat (length file))%Z
    then Ok (slice file (Z.to_nat pos) (Z.to_nat size))
    else Throw ERead.

(* GribJumpDataAccessor.h:19-49 *)
Definition gj_accessor (file : list N) (section : N * N) : accessor :=
  mk_accessor (gj_read file section) (snd section).

(* compression/DataAccessor.h:40-48 MemoryAccessor::read; the addition wraps and a read outside
   the buffer that passes the check is undefined behaviour *)
Definition mem_read (buf : list N) (range : N * N) : outcome (list N) :=
  let '(offset, size) := range in
  if (lenN buf <? add64 offset size)%N then Throw EOutOfRange
  else if (offset + size <=? lenN buf)%N
  then Ok (slice buf (N.to_nat offset) (N.to_nat size))
  else UB.

(* compression/compressors/Simple.cc:18-44 SimpleDecompressor::decode(accessor, range) *)
Definition simple_decode {V} (scale : N -> V) (reference : V) (bpv : N) (acc : accessor)
           (range : N * N) : outcome (list V) :=
  let '(offset, size) := range in
  let end_offset := add64 offset size in
  let start_offset_bytes := (mul64 offset bpv / 8)%N in
  let skipbits := (mul64 offset bpv mod 8)%N in
  let end_offset_bytes := (add64 (mul64 end_offset bpv) 7 / 8)%N in
  let size_bytes := sub64 end_offset_bytes start_offset_bytes in
  let* encoded := acc_read acc (start_offset_bytes, size_bytes) in
  unpack scale encoded reference bpv size skipbits.
