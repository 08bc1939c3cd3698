(* Model of CCSDS random access:
   src/gribjump/compression/compressors/Aec.cc, Aec.h, Ccsds.cc, Ccsds.h.
   libaec is an oracle: [aec_samples p buf bit k], set up with the parameters p, decodes k samples from
   the reference sample interval (RSI) that starts at bit [bit] of buf, or fails; [aec_full p buf n]
   decodes a whole stream of n samples and returns the samples and the table of RSI bit offsets.
   The members of aec_stream are 32 bits wide; larger parameters are not truncated here. *)
From Verif Require Import Base ModelSimple.

(* the members of struct aec_stream that describe the encoding, Aec.cc:68-72 and 138-141 *)
Record aec_params := mk_aec { aec_flags : N; aec_bits : N; aec_block_size : N; aec_rsi : N }.
Definition aec_oracle := aec_params -> list N -> N -> N -> option (list N).
Definition aec_full_oracle := aec_params -> list N -> N -> option (list N * list N).

(* Ccsds.cc:20-35 modify_aec_flags on a little-endian machine: clears AEC_DATA_3BYTE (2) and
   AEC_DATA_MSB (4) *)
Definition modify_flags (flags : N) : N := N.ldiff (N.ldiff flags 2) 4.

(* Ccsds.cc:126-132 sample_nbytes; Aec.cc:109-112 *)
Definition sample_nbytes (bits_per_sample : N) : N :=
  let nbytes := (add64 bits_per_sample 7 / 8)%N in
  if (nbytes =? 3)%N then 4%N else nbytes.

(* Aec.cc:171-178 validateBitsPerSample, with sizeof(ValueType) = elem *)
Definition validate_bits (elem bits_per_sample : N) : outcome unit :=
  if ((elem =? 1) && negb ((0 <? bits_per_sample) && (bits_per_sample <=? 8)))%N then Throw EUser
  else if ((elem =? 2) && negb ((8 <? bits_per_sample) && (bits_per_sample <=? 16)))%N then Throw EUser
  else if ((elem =? 4) && negb ((16 <? bits_per_sample) && (bits_per_sample <=? 32)))%N then Throw EUser
  else Ok tt.

(* a / b on size_t; division by zero is undefined behaviour *)
Definition div_ (a b : N) : outcome N := if (b =? 0)%N then UB else Ok (a / b)%N.

Section Libaec.
  Variable aec_samples : aec_oracle.
  Variable aec_full : aec_full_oracle.

  (* libaec aec_decode_range(strm, offsets, count, pos, size): find the RSI containing byte pos of
     the output, decode from there, drop what precedes pos.  Positions in output bytes, [elem]
     bytes per sample.  (libaec's own code, simplified; recorded in the trusted base.) *)
  Definition aec_decode_range (p : aec_params) (elem rsi_size_bytes : N) (enc offsets : list N) (pos size : N)
    : outcome (list N) :=
    let* rsi_n := div_ pos rsi_size_bytes in
    if (lenN offsets <=? rsi_n)%N then Throw ELibrary
    else
      let* o := at_ offsets rsi_n in
      let skip := ((pos - rsi_n * rsi_size_bytes) / elem)%N in
      let count := (size / elem)%N in
      match aec_samples p enc o (skip + count)%N with
      | None => Throw ELibrary
      | Some s => Ok (slice s (N.to_nat skip) (N.to_nat count))
      end.

  (* Aec.cc:96-159 AecDecompressor<ValueType>::decode(accessor, range), sizeof(ValueType) = elem *)
  Definition aec_decode (elem flags bits block_size rsi : N) (offsets : list N) (acc : accessor)
             (range : N * N) : outcome (list N) :=
    let* _ := validate_bits elem bits in
    let* _ := assert_ (negb (lenN offsets =? 0)%N) in
    let '(range_offset, range_size) := range in
    let range_offset_bytes := mul64 range_offset elem in
    let range_size_bytes := mul64 range_size elem in
    let* _ := alloc range_size elem in
    let nbytes := sample_nbytes bits in
    let rsi_size_bytes := mul64 (mul64 rsi block_size) nbytes in
    let* start_idx := div_ range_offset_bytes rsi_size_bytes in
    let* end_idx0 := div_ (add64 range_offset_bytes range_size_bytes) rsi_size_bytes in
    let end_idx := add64 end_idx0 1 in
    let* _ := assert_ (start_idx <? end_idx)%N in
    let* _ := assert_ (end_idx <=? lenN offsets)%N in
    let* start_offset_bits := at_ offsets start_idx in
    let start_offset_bytes := (start_offset_bits / 8)%N in
    let* end_offset_bytes :=
      (if (end_idx =? lenN offsets)%N then Ok (acc_eof acc)
       else let* e := at_ offsets end_idx in Ok (add64 e 7 / 8)%N) in
    let shift := N.shiftl (N.shiftr start_offset_bits 3) 3 in
    let new_offsets := map (fun o => sub64 o shift) (skipn (N.to_nat start_idx) offsets) in
    let* _ := assert_ (negb (lenN new_offsets =? 0)%N) in
    let* encoded := acc_read acc (start_offset_bytes, sub64 end_offset_bytes start_offset_bytes) in
    let new_offset_bytes := sub64 range_offset_bytes (mul64 rsi_size_bytes start_idx) in
    aec_decode_range (mk_aec flags bits block_size rsi) elem rsi_size_bytes encoded new_offsets new_offset_bytes range_size_bytes.

  (* Ccsds.cc:134-153 decode_range_ and Ccsds.cc:94-122 decode(accessor, range): the sample type is
     chosen by sample_nbytes, the samples are scaled *)
  Definition ccsds_decode {V} (scale : N -> V) (flags bits block_size rsi : N) (offsets : list N)
             (acc : accessor) (range : N * N) : outcome (list V) :=
    if (snd range =? 0)%N then Ok []
    else
      let nbytes := sample_nbytes bits in
      if ((nbytes =? 1) || (nbytes =? 2) || (nbytes =? 4))%N then
        let* simple_values := aec_decode nbytes (modify_flags flags) bits block_size rsi offsets acc range in
        let* _ := alloc (lenN simple_values) 8 in
        Ok (map scale simple_values)
      else Throw ESeriousBug.

  (* Aec.cc:61-92 AecDecompressor::decode(encoded): decode everything, keep the offsets *)
  Definition aec_decode_all (elem flags bits block_size rsi n_elems : N) (encoded : list N)
    : outcome (list N * list N) :=
    let* _ := validate_bits elem bits in
    let* _ := alloc n_elems elem in
    match aec_full (mk_aec flags bits block_size rsi) encoded n_elems with
    | None => Throw ELibrary
    | Some r => Ok r
    end.

  (* Ccsds.cc:42-63 and 156-167 decode_offsets *)
  Definition ccsds_decode_offsets (flags bits block_size rsi n_elems : N) (encoded : list N) : outcome (list N) :=
    let nbytes := sample_nbytes bits in
    if ((nbytes =? 1) || (nbytes =? 2) || (nbytes =? 4))%N
    then omap snd (aec_decode_all nbytes (modify_flags flags) bits block_size rsi n_elems encoded)
    else Throw ESeriousBug.

  (* Ccsds.cc:66-91 decode(in_buf) and decode_all_ (Ccsds.cc:170-190) *)
  Definition ccsds_decode_all {V} (scale : N -> V) (flags bits block_size rsi n_elems : N) (encoded : list N)
    : outcome (list V * list N) :=
    let nbytes := sample_nbytes bits in
    if ((nbytes =? 1) || (nbytes =? 2) || (nbytes =? 4))%N
    then let* (s, o) := aec_decode_all nbytes (modify_flags flags) bits block_size rsi n_elems encoded in Ok (map scale s, o)
    else Throw ESeriousBug.
End Libaec.

(* Ccsds.cc:149-150 with bscale and dscale from Ccsds.cc:101-102: note codes_power(D, -10) *)
Definition ccsds_scale {F} (A : farith F) (reference : F) (E D : Z) (lvalue : N) : F :=
  let bscale := codes_power A E 2 in
  let dscale := codes_power A D (-10) in
  f_mul A (f_add A (f_mul A (f_of_N A lvalue) bscale) reference) dscale.
