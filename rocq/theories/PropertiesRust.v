(* C83-C85: results, errors and requests of the Rust interface.  Proofs in ProofsRust.v. *)
From Verif Require Import Base ModelStrings ModelInfo ModelSimple ModelCcsds ModelJumper ModelEngine ModelApi ModelRust SpecJumper SpecRust
  ProofsRust.
Open Scope nat_scope.

(* C83.  Whatever ranges are asked for, in any order and repeatedly: index i shows the values and mask words of
   range i, or nothing if there is no such range. *)
Theorem C83_range :
  forall (F : Type) (r : result F) (is : list N),
    fst (rs_ranges (handle_new r) is) =
    map (fun i => match nth_error (fst r) (N.to_nat i) with
                  | Some v => Some (mk_view v (nth (N.to_nat i) (snd r) []))
                  | None => None
                  end) is.
Proof. exact @ranges_shown. Qed.
Print Assumptions C83_range.

Theorem C83_iter :
  forall (F : Type) (vals : list (list F)) (masks : list (list N)), length masks = length vals ->
    fst (rs_iter (handle_new (vals, masks))) = map (fun p => mk_view (fst p) (snd p)) (combine vals masks).
Proof. exact @iter_shown. Qed.
Print Assumptions C83_iter.

Theorem C83_total_values :
  forall (F : Type) (r : result F), (N.of_nat (count_values r) < two64)%N ->
    total_values (handle_new r) = N.of_nat (count_values r).
Proof. exact @total_shown. Qed.
Print Assumptions C83_total_values.

(* a point is valid exactly if it is present *)
Theorem C83_is_valid :
  forall (present : list bool) (words : list N) (i : nat),
    is_mask present words -> i < length present -> is_valid words (N.of_nat i) = nth i present false.
Proof. exact valid_is_present. Qed.
Print Assumptions C83_is_valid.

(* outside the range: invalid in the last mask word, valid after it *)
Theorem C83_is_valid_beyond :
  forall (present : list bool) (words : list N) (i : nat),
    is_mask present words -> length present <= i ->
    is_valid words (N.of_nat i) = negb (i / 64 <? (length present + 63) / 64).
Proof. exact valid_beyond. Qed.
Print Assumptions C83_is_valid_beyond.

Theorem C83_validity :
  forall (F : Type) (vs : list F) (present : list bool) (words : list N),
    is_mask present words -> length vs = length present ->
    iter_with_validity (mk_view vs words) = combine vs present /\
    valid_values (mk_view vs words) = present_values vs present.
Proof. exact @validity_shown. Qed.
Print Assumptions C83_validity.

Theorem C83_no_masks :
  forall (F : Type) (vs : list F) (i : N), is_valid [] i = true /\ valid_values (mk_view vs []) = vs.
Proof. exact @no_masks_all_valid. Qed.
Print Assumptions C83_no_masks.

(* and so for the extraction of every field: the views are the cuts of the field, valid where it is present *)
Theorem C83_views_of_extraction :
  forall (F : Type) (A : farith F) aec file offset inf field present (l : list (N * N)),
    field_of_message A aec file offset inf field present -> i_spherical inf = 0%Z -> good_request (lenN field) l ->
    exists res, extract A aec file offset inf l = Ok res /\
      map v_values (fst (rs_iter (handle_new res))) = map (cut field) l /\
      map iter_with_validity (fst (rs_iter (handle_new res)))
        = map (fun i => combine (cut field i) (cut present i)) l /\
      map valid_values (fst (rs_iter (handle_new res)))
        = map (fun i => present_values (cut field i) (cut present i)) l.
Proof. exact @rust_views_of_field. Qed.
Print Assumptions C83_views_of_extraction.

Example C83_example :
  let r := ([[1; 2; 3]; repeat 9 65], [[5]; [18446744073709551614; 0]])%N in
  fst (rs_ranges (handle_new r) [1; 0; 2; 0]%N) =
    [Some (mk_view (repeat 9 65) [18446744073709551614; 0]); Some (mk_view [1; 2; 3] [5]); None;
     Some (mk_view [1; 2; 3] [5])]%N /\
  map iter_with_validity (firstn 1 (fst (rs_iter (handle_new r)))) = [[(1, true); (2, false); (3, true)]]%N /\
  map valid_values (fst (rs_iter (handle_new r))) = [[1; 3]; repeat 9 63]%N /\
  total_values (handle_new r) = 68%N /\
  map (is_valid [5]%N) [2; 3; 63; 64]%N = [true; false; false; true].
Proof. vm_compute. repeat split. Qed.

(* C84.  An eckit exception arrives as the variant of its class, with its text. *)
Theorem C84_variant_partial :
  forall (is_a : kind -> bool) (k : kind) (what : string),
    of_kind is_a k -> rs_error_of (TEckit is_a what) = Eckit_ k what.
Proof. exact eckit_variant. Qed.
Print Assumptions C84_variant_partial.

(* so no exception of eckit, or derived from one like those of gribjump, is reported as Error::Gribjump *)
Theorem C84_never_gribjump :
  forall (is_a : kind -> bool) (what text : string),
    is_a KException = true -> rs_error_of (TEckit is_a what) <> Gribjump_ text.
Proof. exact eckit_never_gribjump. Qed.
Print Assumptions C84_never_gribjump.

(* another std::exception is Error::Gribjump with its text exactly if the text does not begin like a prefix.
   Missing (hence C84_variant_partial): that holds for every text; false, see C84_refuted. *)
Theorem C84_std_exception :
  forall what : string, rs_error_of (TStd what) = Gribjump_ what <-> ~ looks_prefixed what.
Proof. exact std_variant. Qed.
Print Assumptions C84_std_exception.

Theorem C84_refuted :
  exists what : string, rs_error_of (TStd what) = Eckit_ KUserError "bad step".
Proof. exact (ex_intro _ "ECKIT_USER_ERROR: bad step"%string eq_refl). Qed.
Print Assumptions C84_refuted.

Example C84_example :
  of_kind (instance_of KOutOfRange) KOutOfRange /\
  map rs_error_of [TEckit (instance_of KOutOfRange) "index 4"; TEckit (instance_of KException) "GribJumpException: x";
                   TStd "stoll"; TOther]
  = [Eckit_ KOutOfRange "index 4"; Eckit_ KException "GribJumpException: x"; Gribjump_ "stoll";
     Gribjump_ "unknown exception (non-std::exception type)"]%string.
Proof. exact (conj (instance_of_kind KOutOfRange) eq_refl). Qed.

(* C85.  Path requests reach the library field by field.  Missing (hence _partial): scan_requests, which does
   not read the request texts; see C85_refuted. *)
Theorem C85_path_request_partial :
  forall r : rs_path_request,
    p_path (cpp_path_request r) = q_filename r /\ p_scheme (cpp_path_request r) = q_scheme r /\
    p_offset (cpp_path_request r) = q_offset r /\ p_port (cpp_path_request r) = q_port r /\
    p_ranges (cpp_path_request r) = q_ranges r /\ p_hash (cpp_path_request r) = q_hash r /\
    (forall h, q_host r = Some h -> p_host (cpp_path_request r) = h) /\
    (q_host r = None -> p_host (cpp_path_request r) = ""%string).
Proof. exact path_request_kept. Qed.
Print Assumptions C85_path_request_partial.

(* new() and the setters set their field and no other *)
Theorem C85_built_request :
  forall filename ranges hash s o h p,
    q_filename (rs_path_new filename ranges hash) = filename /\ q_ranges (rs_path_new filename ranges hash) = ranges /\
    q_hash (rs_path_new filename ranges hash) = hash /\ q_scheme (rs_path_new filename ranges hash) = "file"%string /\
    q_offset (rs_path_new filename ranges hash) = 0%N /\ q_host (rs_path_new filename ranges hash) = None /\
    q_port (rs_path_new filename ranges hash) = 0%Z /\
    forall r, with_scheme r s = mk_rs_path_request (q_filename r) s (q_offset r) (q_host r) (q_port r) (q_ranges r) (q_hash r) /\
              with_offset r o = mk_rs_path_request (q_filename r) (q_scheme r) o (q_host r) (q_port r) (q_ranges r) (q_hash r) /\
              with_host r h = mk_rs_path_request (q_filename r) (q_scheme r) (q_offset r) (Some h) (q_port r) (q_ranges r) (q_hash r) /\
              with_port r p = mk_rs_path_request (q_filename r) (q_scheme r) (q_offset r) (q_host r) p (q_ranges r) (q_hash r).
Proof. exact built_request. Qed.
Print Assumptions C85_built_request.

(* all requests of a call are handed to the library, in their order *)
Theorem C85_paths_handed_on :
  forall (F W : Type) (i : impl F W) r reqs,
    rs_extract_from_paths i (r :: reqs) = as_iterator (m_extract_paths i (map cpp_path_request (r :: reqs))).
Proof. exact @paths_handed_on. Qed.
Print Assumptions C85_paths_handed_on.
Theorem C85_requests_handed_on :
  forall (F W : Type) (i : impl F W) r reqs, rs_extract i (r :: reqs) = as_iterator (m_extract i (r :: reqs)).
Proof. exact @requests_handed_on. Qed.
Print Assumptions C85_requests_handed_on.

(* the texts given to scan_requests have no influence on what is scanned *)
Theorem C85_refuted :
  forall (W : Type) (scan : list mars -> bool -> @action W N), by_keys scan ->
    forall (r r' : list string) (b : bool), length r = length r' ->
    forall w, rs_scan_requests scan r b w = rs_scan_requests scan r' b w.
Proof. exact @scan_ignores_text. Qed.
Print Assumptions C85_refuted.

Example C85_example :
  cpp_path_request (with_port (with_host (with_offset (rs_path_new "/d/x" [(0, 4)]%N "h") 12) "node") 7777)
    = mk_path_request "/d/x" "file" "node" 7777 12 [(0, 4)]%N "h" /\
  fst (scan_parsed parse_class scan_two_fields ["class=od"%string] false tt) = Ok 1%N /\
  fst (rs_scan_requests scan_two_fields ["class=od"%string] false tt) = Ok 2%N /\
  fst (rs_scan_requests scan_two_fields ["class=xx"%string] false tt) = Ok 2%N.
Proof. vm_compute. repeat split. Qed.
