(* Model of what the Rust interface makes of results, exceptions and requests:
   rust/crates/gribjump/src/{result,error,request,handle}.rs and
   rust/crates/gribjump-sys/cpp/gribjump_bridge.{h,cpp}.  The iterator and file requests are in ModelApi.v.

   A slice is a list.  Memory the views borrow is not modelled: the borrow checker ties a view to its result.
   Sums of usize wrap (a debug build panics instead). *)
From Verif Require Import Base ModelStrings ModelJumper ModelEngine ModelApi.

(* ---- ExtractionResultHandle, gribjump_bridge.cpp:91-150 ---- *)
Section Result.
Context {F : Type}.

Record handle := mk_handle {
  h_result : result F;
  h_converted : bool;              (* masks_converted_ *)
  h_cache : list (list N)          (* masks_cache_ *)
}.
(* lines 91-92 *)
Definition handle_new (r : result F) : handle := mk_handle r false [].
(* lines 94-96 *)
Definition num_ranges (h : handle) : N := lenN (fst (h_result h)).
(* lines 98-110; the pointer and the length together; None is a null pointer *)
Definition values_at (h : handle) (i : N) : option (list F) :=
  nth_error (fst (h_result h)) (N.to_nat i).
Definition values_len (h : handle) (i : N) : N :=
  match values_at h i with Some v => lenN v | None => 0%N end.
(* lines 112-132; a bitset<64> is its number *)
Definition convert_masks (h : handle) : handle :=
  if h_converted h then h
  else mk_handle (h_result h) true (h_cache h ++ snd (h_result h)).
(* lines 134-150 *)
Definition masks_at (h : handle) (i : N) : option (list N) * handle :=
  let h1 := convert_masks h in (nth_error (h_cache h1) (N.to_nat i), h1).

(* ---- result.rs ---- *)
Record view := mk_view { v_values : list F; v_masks : list N }.
Definition or_empty {A} (p : option (list A)) : list A := match p with Some l => l | None => [] end.
(* lines 82-113 *)
Definition rs_range (h : handle) (i : N) : option view * handle :=
  if (num_ranges h <=? i)%N then (None, h)
  else
    let (m, h1) := masks_at h i in
    (Some (mk_view (or_empty (values_at h i)) (or_empty m)), h1).
(* any calls of range() or get() *)
Fixpoint rs_ranges (h : handle) (is : list N) : list (option view) * handle :=
  match is with
  | [] => ([], h)
  | i :: r => let (v, h1) := rs_range h i in
              let (vs, h2) := rs_ranges h1 r in (v :: vs, h2)
  end.
(* lines 141-148: filter_map drops the None *)
Definition indices (h : handle) : list N := map N.of_nat (seq 0 (N.to_nat (num_ranges h))).
Definition rs_iter (h : handle) : list view * handle :=
  let (vs, h1) := rs_ranges h (indices h) in
  (flat_map (fun v => match v with Some x => [x] | None => [] end) vs, h1).
(* lines 134-138 *)
Definition total_values (h : handle) : N :=
  fold_left (fun s i => add64 s (values_len h i)) (indices h) 0%N.

(* lines 195-208, and 239-252 for owned data *)
Definition is_valid (masks : list N) (i : N) : bool :=
  match masks with
  | [] => true
  | _ =>
      let word := (i / 64)%N in
      let bit := (i mod 64)%N in
      if (lenN masks <=? word)%N then true
      else match nth_error masks (N.to_nat word) with
           | Some w => negb (N.land w (w64 (N.shiftl 1 bit)) =? 0)%N
           | None => true
           end
  end.
Definition enumerate {A} (l : list A) : list (N * A) := combine (map N.of_nat (seq 0 (length l))) l.
(* lines 223-228 *)
Definition iter_with_validity (v : view) : list (F * bool) :=
  map (fun p => (snd p, is_valid (v_masks v) (fst p))) (enumerate (v_values v)).
(* lines 231-237 *)
Definition valid_values (v : view) : list F :=
  map snd (filter (fun p => is_valid (v_masks v) (fst p)) (enumerate (v_values v))).
End Result.
Arguments handle : clear implicits.
Arguments view : clear implicits.

(* ---- exceptions: gribjump_bridge.h:20-56 ---- *)
Inductive kind := KSeriousBug | KUserError | KBadParameter | KNotImplemented | KOutOfRange | KFileError
                | KAssertionFailed | KException.
(* what is thrown: an eckit exception with the classes it is an instance of, another std::exception, or
   anything else *)
Inductive thrown := TEckit (is_a : kind -> bool) (what : string) | TStd (what : string) | TOther.
(* the order of the catch clauses, with the text put in front *)
Definition clauses : list (kind * string) :=
  [(KSeriousBug, "ECKIT_SERIOUS_BUG: "); (KUserError, "ECKIT_USER_ERROR: ");
   (KBadParameter, "ECKIT_BAD_PARAMETER: "); (KNotImplemented, "ECKIT_NOT_IMPLEMENTED: ");
   (KOutOfRange, "ECKIT_OUT_OF_RANGE: "); (KFileError, "ECKIT_FILE_ERROR: ");
   (KAssertionFailed, "ECKIT_ASSERTION_FAILED: "); (KException, "ECKIT: ")]%string.
Fixpoint caught (cl : list (kind * string)) (is_a : kind -> bool) (what : string) : string :=
  match cl with
  | [] => what
  | (k, p) :: r => if is_a k then (p ++ what)%string else caught r is_a what
  end.
Definition trycatch (t : thrown) : string :=
  match t with
  | TEckit is_a what => caught clauses is_a what
  | TStd what => what
  | TOther => "unknown exception (non-std::exception type)"
  end.

(* ---- error.rs:53-80 ---- *)
Inductive rs_error := Eckit_ (k : kind) (text : string) | Gribjump_ (text : string).
Fixpoint strip_prefix (p s : string) : option string :=
  match p, s with
  | EmptyString, _ => Some s
  | String a p', String b s' => if Ascii.eqb a b then strip_prefix p' s' else None
  | String _ _, EmptyString => None
  end.
(* lines 60-79 *)
Definition rs_prefixes : list (string * kind) :=
  [("ECKIT_SERIOUS_BUG: ", KSeriousBug); ("ECKIT_USER_ERROR: ", KUserError);
   ("ECKIT_BAD_PARAMETER: ", KBadParameter); ("ECKIT_NOT_IMPLEMENTED: ", KNotImplemented);
   ("ECKIT_OUT_OF_RANGE: ", KOutOfRange); ("ECKIT_FILE_ERROR: ", KFileError);
   ("ECKIT_ASSERTION_FAILED: ", KAssertionFailed); ("ECKIT: ", KException)]%string.
Fixpoint classify (l : list (string * kind)) (msg : string) : rs_error :=
  match l with
  | [] => Gribjump_ msg
  | (p, k) :: r => match strip_prefix p msg with Some rest => Eckit_ k rest | None => classify r msg end
  end.
Definition rs_from (msg : string) : rs_error := classify rs_prefixes msg.
Definition rs_error_of (t : thrown) : rs_error := rs_from (trycatch t).

(* ---- requests ---- *)
(* request.rs:107-126 *)
Record rs_path_request := mk_rs_path_request {
  q_filename : string;
  q_scheme : string;
  q_offset : N;
  q_host : option string;
  q_port : Z;
  q_ranges : list interval;
  q_hash : string
}.
(* request.rs:132-148 and the setters, lines 183-210 *)
Definition rs_path_new (filename : string) (ranges : list interval) (hash : string) : rs_path_request :=
  mk_rs_path_request filename "file" 0 None 0 ranges hash.
Definition with_scheme (r : rs_path_request) (s : string) :=
  mk_rs_path_request (q_filename r) s (q_offset r) (q_host r) (q_port r) (q_ranges r) (q_hash r).
Definition with_offset (r : rs_path_request) (o : N) :=
  mk_rs_path_request (q_filename r) (q_scheme r) o (q_host r) (q_port r) (q_ranges r) (q_hash r).
Definition with_host (r : rs_path_request) (h : string) :=
  mk_rs_path_request (q_filename r) (q_scheme r) (q_offset r) (Some h) (q_port r) (q_ranges r) (q_hash r).
Definition with_port (r : rs_path_request) (p : Z) :=
  mk_rs_path_request (q_filename r) (q_scheme r) (q_offset r) (q_host r) p (q_ranges r) (q_hash r).
(* request.rs:212-223 then gribjump_bridge.cpp:50-60 and ExtractionData.cc:214-227: the host that is not set
   is the empty one *)
Definition cpp_path_request (r : rs_path_request) : path_request :=
  mk_path_request (q_filename r) (q_scheme r) (match q_host r with Some h => h | None => ""%string end)
    (q_port r) (q_offset r) (q_ranges r) (q_hash r).
(* handle.rs:93-102, gribjump_bridge.cpp:191-196 *)
Definition rs_extract_from_paths {F W} (i : impl F W) (reqs : list rs_path_request) : action (source (result F)) :=
  gj_extract_paths i (map cpp_path_request reqs).
(* request.rs:70-100, handle.rs:76-82, gribjump_bridge.cpp:41-48, 184-189: the fields are handed on as they are *)
Definition rs_extract {F W} (i : impl F W) (reqs : list request) : action (source (result F)) :=
  gj_extract i reqs.

(* A MARS request: a verb and the values of its keys. *)
Record mars := mk_mars { mr_verb : string; mr_keys : list (string * list string) }.
(* MarsRequest(const std::string&) makes a request of that verb with no keys (tests/remote/test_protocol_codec.cc:90),
   MarsRequest::parse reads the text.  gribjump_bridge.cpp:276-283 uses the first; extract_mars, lines
   197-206, and gribjump-scan the second. *)
Section Scan.
Context {W : Type}.
Variable scan : list mars -> bool -> @action W N.
Definition of_verb (s : string) : mars := mk_mars s [].
Definition rs_scan_requests (reqs : list string) (by_files : bool) : action N :=
  match reqs with
  | [] => throw EUser
  | _ => scan (map of_verb reqs) by_files
  end.
End Scan.
