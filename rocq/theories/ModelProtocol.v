(* Model of src/gribjump/remote/Protocol.cc and of the stream operators of src/gribjump/ExtractionData.cc:
   one writer and one reader per message of the remote protocol, over the token streams of ModelStream.

   Simplifications: an eckit::Buffer is a token holding the numbers it was made from; when a buffer holds
   fewer numbers than the count sent before it, reading it is undefined behaviour, when it holds more the
   rest is ignored.  The stream operators of eckit::URI and metkit::mars::MarsRequest are oracles. *)
From Verif Require Import Base ModelRange ModelInfo ModelStream ModelJumper ModelStrings ModelEngine.

(* Protocol.h:47-55 *)
Definition remote_protocol_version : N := 3.
Definition t_extract : N := 0.
Definition t_axes : N := 1.
Definition t_scan : N := 2.
Definition t_forward_extract : N := 3.
Definition t_forward_scan : N := 4.

Definition newline : string := String (ascii_of_nat 10) "".

(* ExtractionData.cc:66-70 and 121-129: cutting a flat vector into vectors of the given sizes *)
Fixpoint split_by {A} (sizes : list N) (flat : list A) : outcome (list (list A)) :=
  match sizes with
  | [] => Ok []
  | n :: r =>
      if (lenN flat <? n)%N then UB
      else let* vv := split_by r (skipn (N.to_nat n) flat) in
           Ok (firstn (N.to_nat n) flat :: vv)
  end.

(* the vector inside a buffer announced to have n elements *)
Definition from_buffer {A} (n : N) (l : list A) : outcome (list A) :=
  if (lenN l <? n)%N then UB else Ok (firstn (N.to_nat n) l).

(* ExtractionData.cc:77: a std::vector of pairs of size_t seen as an array of size_t *)
Definition flatten_ranges (l : list interval) : list N := concat (map (fun r => [fst r; snd r]) l).
Fixpoint pair_up (l : list N) : list interval :=
  match l with a :: b :: r => (a, b) :: pair_up r | _ => [] end.

Section Protocol.
Context {F : Type}.
Notation stream := (list (tok F)).
Notation reader := (@reader F).

(* ---- ExtractionData.cc:19-132 ---- *)

(* encodeVector, decodeVector, lines 21-38, for T = size_t, uint64_t *)
Definition w_words_vector (l : list N) : stream := [KULong (lenN l); KWords l].
Definition r_words_vector : reader (list N) := fun s =>
  let* (n, s) := r_ulong s in
  let* (l, s) := r_words s in
  let* v := from_buffer n l in
  Ok (v, s).
(* for T = double *)
Definition w_doubles_vector (l : list F) : stream := [KULong (lenN l); KDoubles l].
Definition r_doubles_vector : reader (list F) := fun s =>
  let* (n, s) := r_ulong s in
  let* (l, s) := r_doubles s in
  let* v := from_buffer n l in
  Ok (v, s).

(* encodeVectorVector, decodeVectorVector, lines 40-72 *)
Definition w_values (vv : list (list F)) : stream :=
  w_words_vector (map lenN vv) ++ w_doubles_vector (concat vv).
Definition r_values : reader (list (list F)) := fun s =>
  let* (sizes, s) := r_words_vector s in
  let* (flat, s) := r_doubles_vector s in
  let* vv := split_by sizes flat in
  Ok (vv, s).

(* encodeRanges, decodeRanges, lines 74-94 *)
Definition w_ranges (l : list interval) : stream := [KULong (lenN l); KWords (flatten_ranges l)].
Definition r_ranges_ : reader (list interval) := fun s =>
  let* (n, s) := r_ulong s in
  let* (l, s) := r_words s in
  let* v := from_buffer (2 * n) l in
  Ok (pair_up v, s).

(* encodeMask, decodeMask, lines 96-131 *)
Definition w_mask (mask : list (list N)) : stream :=
  w_words_vector (map lenN mask) ++ w_words_vector (concat mask).
Definition r_mask : reader (list (list N)) := fun s =>
  let* (sizes, s) := r_words_vector s in
  let* (flat, s) := r_words_vector s in
  let* m := split_by sizes flat in
  Ok (m, s).

(* ExtractionResult, lines 140-148 *)
Definition w_result (r : result F) : stream := w_values (fst r) ++ w_mask (snd r).
Definition r_result : reader (result F) := fun s =>
  let* (v, s) := r_values s in
  let* (m, s) := r_mask s in
  Ok ((v, m), s).

(* ExtractionRequest, lines 184-199 *)
Definition w_request (r : request) : stream := [KStr (r_string r); KStr (r_hash r)] ++ w_ranges (r_ranges r).
Definition r_request : reader request := fun s =>
  let* (str, s) := r_str s in
  let* (hash, s) := r_str s in
  let* (l, s) := r_ranges_ s in
  Ok (mk_request str l hash, s).

(* ---- Protocol.cc ---- *)

(* writeRequestHeader, readRequestHeader, lines 30-51; LogContext is a string, Metrics.h:40,46 *)
Definition w_header (type : N) (context : string) : stream :=
  [KU16 remote_protocol_version; KStr context; KU16 type].
Definition r_header : reader N := fun s =>
  let* (version, s) := r_u16 s in
  if negb (version =? remote_protocol_version)%N then Throw ESeriousBug
  else
    let* (_, s) := r_str s in
    r_u16 s.

(* what is printed before the error messages, lines 70-71, as a function of their number *)
Variable error_title : N -> string.

(* encodeErrors, decodeErrors with raise = true, lines 56-84 *)
Definition w_errors (es : list string) : stream := KULong (lenN es) :: map KStr es.
Definition error_text (es : list string) : string :=
  (error_title (lenN es) ++ newline ++ fold_right (fun e t => e ++ newline ++ t) "" es)%string.
Definition r_errors : reader unit := fun s =>
  let* (n, s) := r_ulong s in
  if (n =? 0)%N then Ok (tt, s)
  else
    let* (es, s) := r_count n r_str s in
    Throw (EMsg (error_text es)).

(* lines 89-105 *)
Definition w_extract_request (l : list request) : stream := KULong (lenN l) :: concat (map w_request l).
Definition r_extract_request : reader (list request) := fun s =>
  let* (n, s) := r_ulong s in
  r_count n r_request s.

(* lines 107-125 *)
Definition w_field (r : result F) : stream := KULong 1 :: w_result r.
Definition r_field : reader (result F) := fun s =>
  let* (n, s) := r_ulong s in
  let* _ := assert_ (n =? 1)%N in
  r_result s.
Definition w_extract_reply (l : list (result F)) : stream := concat (map w_field l).
Definition r_extract_reply (n : N) : reader (list (result F)) := r_count n r_field.

(* lines 130-159; MarsRequest's stream operators *)
Context {M : Type}.
Variable w_mars : M -> stream.
Variable r_mars : reader M.
Definition w_scan_request (l : list M) (byfiles : bool) : stream :=
  [KBool byfiles; KULong (lenN l)] ++ concat (map w_mars l).
Definition r_scan_request : reader (list M * bool) := fun s =>
  let* (b, s) := r_bool s in
  let* (n, s) := r_ulong s in
  let* (l, s) := r_count n r_mars s in
  Ok ((l, b), s).
Definition w_scan_reply (n : N) : stream := [KULong n].
Definition r_scan_reply : reader N := r_ulong.

(* lines 164-204; a set is the list of its elements in the order of iteration *)
Definition w_axes_request (r : string) (level : Z) : stream := [KStr r; KInt level].
Definition r_axes_request : reader (string * Z) := fun s =>
  let* (r, s) := r_str s in
  let* (l, s) := r_int s in
  Ok ((r, l), s).
Notation axes := (list (string * list string)).
Definition w_axis (a : string * list string) : stream :=
  [KStr (fst a); KULong (lenN (snd a))] ++ map KStr (snd a).
Definition w_axes_reply (m : axes) : stream := KULong (lenN m) :: concat (map w_axis (in_key_order m)).
Definition set_insert (vs : list string) (v : string) : list string :=
  if existsb (String.eqb v) vs then vs else vs ++ [v].
Definition r_axis : reader (string * list string) := fun s =>
  let* (name, s) := r_str s in
  let* (n, s) := r_ulong s in
  let* (vs, s) := r_count n r_str s in
  Ok ((name, fold_left set_insert vs []), s).
Definition r_axes_reply : reader axes := fun s =>
  let* (n, s) := r_ulong s in
  let* (l, s) := r_count n r_axis s in
  Ok (fold_left (fun m a => sset (fst a) (snd a) m) l [], s).

(* lines 209-229; scanmap_t *)
Definition w_scan_file (f : string * list Z) : stream := KStr (fst f) :: w_offsets (snd f).
Definition r_scan_file : reader (string * list Z) := fun s =>
  let* (name, s) := r_str s in
  let* (l, s) := r_offsets s in
  Ok ((name, l), s).
Definition w_forward_scan_request (m : list (string * list Z)) : stream :=
  KULong (lenN m) :: concat (map w_scan_file (in_key_order m)).
Definition r_forward_scan_request : reader (list (string * list Z)) := fun s =>
  let* (n, s) := r_ulong s in
  let* (l, s) := r_count n r_scan_file s in
  Ok (fold_left (fun m f => sset (fst f) (snd f) m) l [], s).

(* lines 234-272: files with their items, already sorted; what is sent of an item is its ranges, hash and URI *)
Variable w_uri : uri -> stream.
Variable r_uri : reader uri.
Notation wire_item := (request * uri)%type.
Definition w_forward_item (i : wire_item) : stream :=
  w_request (mk_request "" (r_ranges (fst i)) (r_hash (fst i))) ++ w_uri (snd i).
(* line 266: eckit::URI("file", uri) *)
Definition as_file (u : uri) : uri :=
  mk_uri "file" (u_path u) (u_host u) (u_port u) (u_offset u) (u_length u).
Definition r_forward_item : reader wire_item := fun s =>
  let* (r, s) := r_request s in
  let* (u, s) := r_uri s in
  Ok ((r, as_file u), s).
Definition w_forward_file (f : string * list wire_item) : stream :=
  [KStr (fst f); KULong (lenN (snd f))] ++ concat (map w_forward_item (snd f)).
Definition r_forward_file : reader (string * list wire_item) := fun s =>
  let* (name, s) := r_str s in
  let* (n, s) := r_ulong s in
  let* (l, s) := r_count n r_forward_item s in
  Ok ((name, l), s).
Definition w_forward_extract_request (m : list (string * list wire_item)) : stream :=
  KULong (lenN m) :: concat (map w_forward_file m).
Definition r_forward_extract_request : reader (list (string * list wire_item)) := fun s =>
  let* (n, s) := r_ulong s in
  let* (l, s) := r_count n r_forward_file s in
  Ok (fold_left (fun m f => sset (fst f) (snd f) m) l [], s).

(* lines 274-296: the results of a file in the order of its items *)
Definition w_forward_results (f : string * list (result F)) : stream :=
  [KStr (fst f); KULong (lenN (snd f))] ++ concat (map w_result (snd f)).
Definition w_forward_extract_reply (m : list (string * list (result F))) : stream :=
  concat (map w_forward_results m).
(* one turn of the loop of lines 286-295; [sizes] are the numbers of items of the files asked for *)
Definition r_forward_results (sizes : list (string * N)) : reader (string * list (result F)) := fun s =>
  let* (name, s) := r_str s in
  let* (n, s) := r_ulong s in
  let* _ := assert_ (n =? match sfind name sizes with Some k => k | None => 0 end)%N in
  let* (l, s) := r_count n r_result s in
  Ok ((name, l), s).
Definition r_forward_extract_reply (sizes : list (string * N)) : reader (list (string * list (result F))) :=
  r_count (lenN sizes) (r_forward_results sizes).
End Protocol.
