(* Properties C01-C06: decoding ranges of a packed field. *)
From Verif Require Import Base ModelRange ModelSimple ModelCcsds ModelFloat
     SpecRange SpecSimple SpecCcsds ProofsRange ProofsSimple ProofsCcsds ProofsFloat.
From Coq Require Import Permutation Sorted QArith.
Open Scope nat_scope.

(* C01.  If the single-range decoder answers every in-field range with the points of the field,
   the multi-range decoder answers every list of in-field ranges with one vector per range, in
   request order, each being exactly the points of its range. *)
Theorem C01_multi_range_transparent :
  forall (V : Type) (field : list V) (decode1 : N * N -> outcome (list V)) (rs : list (N * N)),
    (lenN field < two64)%N ->
    (forall r, in_field (lenN field) r -> decode1 r = Ok (points field r)) ->
    Forall (in_field (lenN field)) rs ->
    decode_ranges decode1 rs = Ok (map (points field) rs).
Proof. exact (fun V field decode1 rs H1 H2 H3 => decode_ranges_ok field decode1 H1 H2 rs H3). Qed.
Print Assumptions C01_multi_range_transparent.

(* overlapping, touching, duplicated, empty and unsorted ranges of a 10-point field *)
Example C01_example :
  let field := [10; 11; 12; 13; 14; 15; 16; 17; 18; 19]%N in
  let decode1 := fun r : N * N => if (fst r + snd r <=? 10)%N then Ok (points field r) else Throw EOutOfRange in
  decode_ranges decode1 [(7, 2); (0, 3); (2, 3); (7, 2); (5, 0); (5, 1); (10, 0)]%N =
  Ok [[17; 18]; [10; 11; 12]; [12; 13; 14]; [17; 18]; []; [15]; []]%N.
Proof. vm_compute. reflexivity. Qed.

(* C01, for an arbitrary single-range decoder (which may refuse): the multi-range decoder never has
   undefined behaviour and each answer is cut out of a successful single decode of a block that
   contains the range. *)
Theorem C01_answers_cut_from_decoded_blocks :
  forall (V : Type) (decode1 : N * N -> outcome (list V)) (rs : list (N * N)),
    (forall r d, fits64 r -> decode1 r = Ok d -> length d = N.to_nat (snd r)) ->
    (forall r, fits64 r -> decode1 r <> UB) ->
    Forall fits64 rs ->
    match decode_ranges decode1 rs with
    | Ok vs => Forall2 (fun r v => exists b d, inside b r /\ fits64 b /\ decode1 b = Ok d /\
                  v = slice d (N.to_nat (fst r) - N.to_nat (fst b)) (N.to_nat (snd r))) rs vs
    | Throw _ => True
    | UB => False
    end.
Proof. exact (fun V decode1 rs H1 H2 H3 => decode_ranges_gen decode1 H1 H2 rs H3). Qed.
Print Assumptions C01_answers_cut_from_decoded_blocks.

(* C02.  Buckets after any sequence of insertions. *)
Theorem C02_buckets :
  forall rs : list (N * N), Forall fits64 rs ->
  exists bs, bucket_all [] rs = Ok bs /\
    StronglySorted (fun a b => strictly_before (fst a) (fst b)) bs /\
    (forall p, (exists b, In b bs /\ covers (fst b) p) <-> (exists r, In r rs /\ covers r p)) /\
    Permutation (flat_map snd bs) rs /\
    (forall b r, In b bs -> In r (snd b) -> inside (fst b) r).
Proof. exact buckets_invariant. Qed.
Print Assumptions C02_buckets.

Example C02_example :
  Forall fits64 [(10, 5); (0, 3); (15, 2); (3, 1); (100, 0); (2, 9)]%N /\
  bucket_all [] [(10, 5); (0, 3); (15, 2); (3, 1); (100, 0)]%N =
    Ok [((0, 4), [(3, 1); (0, 3)]); ((10, 7), [(15, 2); (10, 5)]); ((100, 0), [(100, 0)])]%N.
Proof. split; [repeat constructor|vm_compute; reflexivity]. Qed.

(* C03.  n samples of b bits starting at sample k of a byte string p.  The full property (every
   width 1..64) is false: see C03_refuted.  Missing here: widths 59, 61, 62 and 63. *)
Theorem C03_simple_samples_partial :
  forall (V : Type) (scale : N -> V) (reference : V) (p : list N) (b k n : nat),
    is_bytes p -> (1 <= b <= 58 \/ b = 60 \/ b = 64) ->
    (k + n) * b <= 8 * length p -> (N.of_nat n * 8 < 1152921504606846976)%N ->
    unpack scale (skipn (k * b / 8) p) reference (N.of_nat b) (N.of_nat n) (N.of_nat ((k * b) mod 8)) =
    Ok (map (fun i => scale (number_of_bits (slice (bits_of p) ((k + i) * b) b))) (seq 0 n)).
Proof. exact @unpack_exact. Qed.
Print Assumptions C03_simple_samples_partial.

Example C03_example :
  unpack (fun x => x) (skipn (3 * 5 / 8) [170; 187; 204; 221]%N) 0%N 5%N 3%N 7%N = Ok [28; 25; 23]%N /\
  map (fun i => number_of_bits (slice (bits_of [170; 187; 204; 221]%N) ((3 + i) * 5) 5)) (seq 0 3) = [28; 25; 23]%N.
Proof. split; vm_compute; reflexivity. Qed.

(* for every width the low bits are right: sample i is the true sample modulo 2^(64 - padding), where
   padding is the number of bits from the end of the sample to the next byte boundary *)
Theorem C03_any_width :
  forall (V : Type) (scale : N -> V) (reference : V) (p : list N) (b k n : nat),
    is_bytes p -> 1 <= b <= 64 ->
    (k + n) * b <= 8 * length p -> (N.of_nat n * 8 < 1152921504606846976)%N ->
    unpack scale (skipn (k * b / 8) p) reference (N.of_nat b) (N.of_nat n) (N.of_nat ((k * b) mod 8)) =
    Ok (map (fun i => scale (number_of_bits (slice (bits_of p) ((k + i) * b) b)
                  mod 2 ^ N.min (N.of_nat b) (64 - N.of_nat ((8 - ((k + i) * b + b) mod 8) mod 8)))%N) (seq 0 n)).
Proof. exact @unpack_lossy. Qed.
Print Assumptions C03_any_width.

(* the widths for which the accumulator overflows: all-ones data is misread *)
Theorem C03_refuted :
  forall b, In b [59; 61; 62; 63] ->
  exists p n, is_bytes p /\ n * b <= 8 * length p /\
    exists got, unpack (fun x => x) p 0%N (N.of_nat b) (N.of_nat n) 0%N = Ok got /\
      got <> map (fun i => number_of_bits (slice (bits_of p) (i * b) b)) (seq 0 n).
Proof. exact wide_samples_wrong. Qed.
Print Assumptions C03_refuted.

(* C04.  Random access equals full decode, for every width 0..64. *)
Theorem C04_random_access :
  forall (V : Type) (scale : N -> V) (reference : V) (file : list N) (section : N * N) (b npoints : nat) (o n : N),
    is_bytes file -> (fst section + snd section <= lenN file)%N -> (lenN file < two63)%N -> b <= 64 ->
    (N.of_nat npoints * 8 < 1152921504606846976)%N -> (N.of_nat (npoints * b) <= 8 * snd section)%N ->
    (o + n <= N.of_nat npoints)%N ->
    exists all,
      simple_decode scale reference (N.of_nat b) (gj_accessor file section) (0%N, N.of_nat npoints) = Ok all /\
      length all = npoints /\
      simple_decode scale reference (N.of_nat b) (gj_accessor file section) (o, n) =
        Ok (slice all (N.to_nat o) (N.to_nat n)).
Proof.
  exact (fun V scale reference file section b npoints o n Hf H1 H2 =>
           simple_random_access scale reference file section b npoints o n Hf (conj H1 H2)).
Qed.
Print Assumptions C04_random_access.

Example C04_example :
  let file := [1; 2; 3; 170; 187; 204; 221; 9]%N in
  simple_decode (fun x => x) 0%N 5 (gj_accessor file (3, 4)%N) (0, 6)%N = Ok [21; 10; 29; 28; 25; 23]%N /\
  simple_decode (fun x => x) 0%N 5 (gj_accessor file (3, 4)%N) (2, 3)%N = Ok [29; 28; 25]%N.
Proof. split; vm_compute; reflexivity. Qed.

(* C05.  Scaling, over exact rationals.  Simple packing follows the formula. *)
Theorem C05_simple_scaling :
  forall (R : Q) (E D : Z) (X : N), (simple_scale q_arith R E D X == grib_value R E D X)%Q.
Proof. exact simple_scale_formula. Qed.
Print Assumptions C05_simple_scaling.

Example C05_example : (simple_scale q_arith (3 # 2) (-2) 1 7 == 13 # 40)%Q.
Proof. vm_compute. reflexivity. Qed.

(* CCSDS follows it for D = 0 only.  Missing: D <> 0, where it is false (C05_refuted). *)
Theorem C05_ccsds_scaling_partial :
  forall (R : Q) (E : Z) (X : N), (ccsds_scale q_arith R E 0 X == grib_value R E 0 X)%Q.
Proof. exact ccsds_scale_right. Qed.
Print Assumptions C05_ccsds_scaling_partial.

(* CCSDS multiplies by (-10)^D instead of 10^(-D): every non-zero value is wrong when D <> 0 *)
Theorem C05_refuted :
  forall (R : Q) (E D : Z) (X : N), D <> 0%Z ->
    ~ (R + inject_Z (Z.of_N X) * Qpower 2 E == 0)%Q ->
    ~ (ccsds_scale q_arith R E D X == grib_value R E D X)%Q.
Proof. exact ccsds_scale_wrong. Qed.
Print Assumptions C05_refuted.

Example C05_refuted_example :
  (ccsds_scale q_arith 0 0 1 25 == -250)%Q /\ (grib_value 0 0 1 25 == 5 # 2)%Q.
Proof. split; vm_compute; reflexivity. Qed.

(* C06.  CCSDS random access: for a stream of samples S in intervals of R = rsi*block_size samples with a
   valid offset table, an in-field range whose last interval is listed in the table decodes to exactly the
   samples of the range.  libaec is the oracle aec_samples, assumed to decode the stream when set up
   with the parameters of the message and the native sample format (valid_stream).
   With the table libaec produces ((number of samples)/R + 1 entries) every in-field range qualifies. *)
Theorem C06_ccsds_window :
  forall (V : Type) (scale : N -> V) (aec_samples : aec_oracle)
         (file : list N) (section : N * N) (flags bits block_size rsi : N) (offsets S : list N) (o n : N),
    let data := slice file (N.to_nat (fst section)) (N.to_nat (snd section)) in
    (fst section + snd section <= lenN file)%N -> (lenN file < two63)%N -> (snd section < 1152921504606846976)%N ->
    (1 <= bits <= 32)%N -> (0 < rsi * block_size < 2305843009213693952)%N ->
    valid_stream aec_samples flags bits block_size rsi data offsets S -> offsets_sorted data offsets ->
    (lenN S < 144115188075855872)%N ->
    (lenN offsets = lenN S / (rsi * block_size) + 1)%N ->
    (o + n <= lenN S)%N ->
    ccsds_decode aec_samples scale flags bits block_size rsi offsets (gj_accessor file section) (o, n) =
    Ok (map scale (slice S (N.to_nat o) (N.to_nat n))).
Proof. exact @ccsds_window_full. Qed.
Print Assumptions C06_ccsds_window.

(* If the table has only ceil(samples/R) entries, a range that ends at an interval boundary equal to the
   end of the field is refused although it lies inside the field (never answered wrongly). *)
Theorem C06_short_table_refuses :
  forall (V : Type) (scale : N -> V) (aec_samples : aec_oracle)
         (file : list N) (section : N * N) (flags bits block_size rsi : N) (offsets : list N) (o n : N),
    (1 <= bits <= 32)%N -> (0 < rsi * block_size)%N -> (rsi * block_size < 2305843009213693952)%N ->
    (0 < n)%N -> (o + n < 144115188075855872)%N -> (lenN offsets <= (o + n) / (rsi * block_size))%N ->
    ccsds_decode aec_samples scale flags bits block_size rsi offsets (gj_accessor file section) (o, n) = Throw EAssert.
Proof. exact @ccsds_short_table. Qed.
Print Assumptions C06_short_table_refuses.

(* a concrete stream: 10 eight-bit samples in intervals of 4, stored uncompressed *)
Example C06_example :
  let file := [0; 0; 31; 32; 33; 34; 35; 36; 37; 38; 39; 40; 0]%N in
  let S := [31; 32; 33; 34; 35; 36; 37; 38; 39; 40]%N in
  valid_stream raw_libaec 14 8 2 2 (slice file 2 10) [0; 32; 64]%N S /\
  offsets_sorted (slice file 2 10) [0; 32; 64]%N /\
  ccsds_decode raw_libaec (fun x => x) 14 8 2 2 [0; 32; 64]%N (gj_accessor file (2, 10)%N) (3, 6)%N =
    Ok [34; 35; 36; 37; 38; 39]%N.
Proof. exact raw_example. Qed.
