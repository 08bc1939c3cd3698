(* What is assumed of libaec, and of the offset table stored in the info, relative to a
   compressed stream. *)
From Verif Require Import Base ModelCcsds.

(* [data] is the compressed form of the samples [S] in reference sample intervals of R samples;
   [offsets] lists the bit positions where interval 0, 1, 2, ... start.
   Decoding from the start of interval i, out of any byte window of the stream that starts at or
   before that position and reaches the end of the stream or the start of an interval j beyond
   the samples wanted, gives the samples i*R, i*R+1, ... *)
Definition rsi_stream (aec_samples : list N -> N -> N -> option (list N))
           (R : nat) (data : list N) (offsets : list N) (S : list N) : Prop :=
  forall i oi a len k,
    nth_error offsets i = Some oi ->
    (8 * N.of_nat a <= oi)%N -> a + len <= length data -> i * R + k <= length S ->
    (a + len = length data \/
     exists j oj, nth_error offsets j = Some oj /\ i * R + k <= j * R /\ (oj <= 8 * N.of_nat (a + len))%N) ->
    aec_samples (slice data a len) (oi - 8 * N.of_nat a)%N (N.of_nat k) = Some (slice S (i * R) k).

(* the table lists interval starts in increasing order and within the stream *)
Definition offsets_sorted (data offsets : list N) : Prop :=
  (forall i j oi oj, i <= j -> nth_error offsets i = Some oi -> nth_error offsets j = Some oj -> (oi <= oj)%N) /\
  Forall (fun o => o <= 8 * lenN data)%N offsets.

(* libaec is asked for samples in the native format of a little-endian machine: the flags of the message
   without AEC_DATA_3BYTE (bit 1) and AEC_DATA_MSB (bit 2) *)
Definition native_flags (flags native : N) : Prop :=
  forall i, N.testbit native i = (N.testbit flags i && negb (i =? 1) && negb (i =? 2))%N.

(* libaec, set up with the parameters of the message, decodes the stream *)
Definition valid_stream (libaec : aec_oracle) (flags bits block_size rsi : N) (data offsets S : list N) : Prop :=
  forall native, native_flags flags native ->
    rsi_stream (libaec (mk_aec native bits block_size rsi)) (N.to_nat (rsi * block_size)) data offsets S.

(* ---- a codec that satisfies the contract, for the examples: 8-bit samples stored as they are.  It needs
   the native format. ---- *)
Definition raw_samples (enc : list N) (bit k : N) : option (list N) :=
  if (bit / 8 + k <=? lenN enc)%N then Some (slice enc (N.to_nat (bit / 8)) (N.to_nat k)) else None.
Definition raw_accepts (p : aec_params) : bool :=
  (negb (N.testbit (aec_flags p) 1 || N.testbit (aec_flags p) 2) && (aec_bits p =? 8)%N)%bool.
Definition raw_libaec : aec_oracle :=
  fun p => if raw_accepts p then raw_samples else fun _ _ _ => None.
Definition raw_full : aec_full_oracle :=
  fun p data n =>
    let R := (aec_rsi p * aec_block_size p)%N in
    if (raw_accepts p && (n =? lenN data)%N)%bool
    then Some (data, map (fun i => N.of_nat (8 * (i * N.to_nat R))) (seq 0 (N.to_nat (n / R + 1))))
    else None.
