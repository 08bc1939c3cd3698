(* Token-level model of eckit::Stream, and the serialisation of JumpInfo.
   eckit writes every primitive as a type tag followed by its value, so a stream is a list of
   typed tokens; reading with another type than was written raises an exception (bad tag).
   A stream cut in the middle of a primitive ends with [KTorn]. *)
From Verif Require Import Base ModelInfo.

Inductive tok (F : Type) :=
| KStart                  (* Stream::startObject *)
| KEnd                    (* Stream::endObject *)
| KU8 (n : N)             (* uint8_t *)
| KU16 (n : N)            (* uint16_t *)
| KULong (n : N)          (* unsigned long, size_t *)
| KLong (z : Z)           (* long *)
| KLL (z : Z)             (* long long: eckit::Offset and eckit::Length *)
| KInt (z : Z)            (* int *)
| KBool (b : bool)
| KDouble (f : F)
| KStr (s : string)
| KWords (l : list N)     (* eckit::Buffer holding 64-bit integers *)
| KDoubles (l : list F)   (* eckit::Buffer holding doubles *)
| KExc (s : string)       (* an exception with its what(), written by a failing peer *)
| KTorn.                  (* an incompletely written primitive *)
Arguments KStart {F}. Arguments KEnd {F}. Arguments KU8 {F} n. Arguments KU16 {F} n.
Arguments KULong {F} n. Arguments KLong {F} z. Arguments KLL {F} z. Arguments KInt {F} z.
Arguments KBool {F} b. Arguments KDouble {F} f. Arguments KStr {F} s. Arguments KWords {F} l.
Arguments KDoubles {F} l. Arguments KExc {F} s. Arguments KTorn {F}.

Section Stream.
Context {F : Type}.
Notation stream := (list (tok F)).
Definition reader (A : Type) := stream -> outcome (A * stream).

(* Stream::readTag with another tag than the one needed: the exception written by the peer is raised here
   as eckit::RemoteException; anything else, and the end of the stream, is an error of its own *)
Definition refuse {A} (s : stream) : outcome A :=
  match s with KExc m :: _ => Throw (EMsg m) | _ => Throw EStream end.

Definition r_u8 : reader N := fun s => match s with KU8 n :: r => Ok (n, r) | _ => refuse s end.
Definition r_u16 : reader N := fun s => match s with KU16 n :: r => Ok (n, r) | _ => refuse s end.
Definition r_ulong : reader N := fun s => match s with KULong n :: r => Ok (n, r) | _ => refuse s end.
Definition r_long : reader Z := fun s => match s with KLong z :: r => Ok (z, r) | _ => refuse s end.
Definition r_ll : reader Z := fun s => match s with KLL z :: r => Ok (z, r) | _ => refuse s end.
Definition r_int : reader Z := fun s => match s with KInt z :: r => Ok (z, r) | _ => refuse s end.
Definition r_bool : reader bool := fun s => match s with KBool b :: r => Ok (b, r) | _ => refuse s end.
Definition r_double : reader F := fun s => match s with KDouble f :: r => Ok (f, r) | _ => refuse s end.
Definition r_str : reader string := fun s => match s with KStr x :: r => Ok (x, r) | _ => refuse s end.
Definition r_words : reader (list N) := fun s => match s with KWords l :: r => Ok (l, r) | _ => refuse s end.
Definition r_doubles : reader (list F) := fun s => match s with KDoubles l :: r => Ok (l, r) | _ => refuse s end.

(* for (i < n) push_back(read) *)
Fixpoint r_times {A} (n : nat) (f : reader A) : reader (list A) :=
  fun s => match n with
           | O => Ok ([], s)
           | S n' => let* (x, s) := f s in let* (l, s) := r_times n' f s in Ok (x :: l, s)
           end.

(* a count larger than the number of remaining tokens cannot be satisfied: every element
   takes at least one token, so the loop ends with the exception of one of the first reads *)
Definition r_count {A} (n : N) (f : reader A) : reader (list A) :=
  fun s => if (n <=? lenN s)%N then r_times (N.to_nat n) f s
           else let* _ := r_times (S (length s)) f s in Throw EStream.

(* eckit's operator<< / >> for std::vector<size_t>: the size, then the elements *)
Definition w_vec (l : list N) : stream := KULong (lenN l) :: map KULong l.
Definition r_vec : reader (list N) := fun s => let* (n, s) := r_ulong s in r_count n r_ulong s.

(* for std::vector<eckit::Offset> *)
Definition w_offsets (l : list Z) : stream := KULong (lenN l) :: map KLL l.
Definition r_offsets : reader (list Z) := fun s => let* (n, s) := r_ulong s in r_count n r_ll s.

(* Stream::next: end-of-object tags left over from the previous object are skipped; true on a
   start tag, false at the end of the stream *)
Fixpoint s_next (s : stream) : outcome (bool * stream) :=
  match s with
  | [] => Ok (false, [])
  | KStart :: r => Ok (true, r)
  | KEnd :: r => s_next r
  | _ => refuse s
  end.

(* Stream::skipEndObject *)
Definition s_end (s : stream) : outcome (unit * stream) :=
  match s with KEnd :: r => Ok (tt, r) | _ => refuse s end.

Definition class_name (c : info_class) : string :=
  match c with
  | SimpleInfo => "SimpleInfo"         (* SimpleInfo.h:31 *)
  | CcsdsInfo _ _ _ _ => "CcsdsInfo"   (* CcsdsInfo.h:32 *)
  | UnsupportedInfo => "UnsupportedInfo"   (* UnsupportedInfo.h:31 *)
  end%string.

(* JumpInfo::encode, JumpInfo.cc:131-148 *)
Definition w_base (i : info F) : stream :=
  [KU8 (i_version i); KDouble (i_reference i); KLong (i_binary_scale i); KLong (i_decimal_scale i);
   KULong (i_edition i); KULong (i_bits_per_value i); KLL (i_offset_before_data i);
   KLL (i_offset_after_data i); KLL (i_offset_before_bitmap i); KULong (i_number_of_values i);
   KULong (i_number_of_points i); KLL (i_total_length i); KLong (i_spherical i);
   KStr (i_md5 i); KStr (i_packing i)].

(* CcsdsInfo::encode, CcsdsInfo.cc:90-96; the other two classes add nothing *)
Definition w_class (c : info_class) : stream :=
  match c with
  | CcsdsInfo f b r o => [KULong f; KULong b; KULong r] ++ w_vec o
  | _ => []
  end.

(* operator<<(Stream, Streamable): start tag, class name, encode, end tag *)
Definition w_info (i : info F) : stream :=
  [KStart; KStr (class_name (i_class i))] ++ w_base i ++ w_class (i_class i) ++ [KEnd].

(* JumpInfo(Stream), JumpInfo.cc:113-129; the class is filled in by the subclass *)
Definition r_base (c : info_class) : reader (info F) := fun s =>
  let* (v, s) := r_u8 s in
  let* (ref, s) := r_double s in
  let* (b, s) := r_long s in
  let* (d, s) := r_long s in
  let* (e, s) := r_ulong s in
  let* (bpv, s) := r_ulong s in
  let* (ob, s) := r_ll s in
  let* (oa, s) := r_ll s in
  let* (obm, s) := r_ll s in
  let* (nv, s) := r_ulong s in
  let* (np, s) := r_ulong s in
  let* (tl, s) := r_ll s in
  let* (sph, s) := r_long s in
  let* (md5, s) := r_str s in
  let* (pk, s) := r_str s in
  Ok (mk_info F v ref b d e bpv ob oa obm nv np tl sph md5 pk c, s).

Definition with_class (i : info F) (c : info_class) : info F :=
  mk_info F (i_version i) (i_reference i) (i_binary_scale i) (i_decimal_scale i) (i_edition i)
    (i_bits_per_value i) (i_offset_before_data i) (i_offset_after_data i) (i_offset_before_bitmap i)
    (i_number_of_values i) (i_number_of_points i) (i_total_length i) (i_spherical i) (i_md5 i)
    (i_packing i) c.

(* the stream constructors: CcsdsInfo.cc:83-88, SimpleInfo.cc:23, UnsupportedInfo.cc:24 *)
Definition r_body (name : string) : reader (info F) := fun s =>
  if String.eqb name "SimpleInfo" then r_base SimpleInfo s
  else if String.eqb name "UnsupportedInfo" then r_base UnsupportedInfo s
  else if String.eqb name "CcsdsInfo" then
    let* (i, s) := r_base SimpleInfo s in
    let* (f, s) := r_ulong s in
    let* (b, s) := r_ulong s in
    let* (r, s) := r_ulong s in
    let* (o, s) := r_vec s in
    Ok (with_class i (CcsdsInfo f b r o), s)
  else Throw EStream.

(* eckit::Reanimator<JumpInfo>::reanimate: null at the end of the stream *)
Definition r_info : reader (option (info F)) := fun s =>
  let* (more, s) := s_next s in
  if more then
    let* (name, s) := r_str s in
    let* (i, s) := r_body name s in
    let* (_, s) := s_end s in
    Ok (Some i, s)
  else Ok (None, s).
End Stream.
