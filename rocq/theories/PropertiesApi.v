(* Properties C52 - C57, C60, C61: the interface layers. *)
From Verif Require Import Base ModelSimple ModelInfo ModelJumper ModelStrings ModelEngine ModelApi SpecApi SpecJumper
  ModelPython SpecPython SpecEngine ProofsApi ProofsApi2 ProofsPython ProofsPython2 ProofsTight.
From Coq Require Import Sorted.

(* C52.  k calls of next() give the first k results in order and null ever after; hasNext() tells which;
   dumpVector() gives exactly the results not yet taken. *)
Theorem C52_iterator :
  forall (R : Type) (rs : list R), (lenN rs < two64)%N ->
  forall k, exists s, next_calls k (source_new (map Some rs)) = Ok (yields k rs, s) /\
    has_next s = (k <? length rs)%nat /\
    exists s', dump_vector s = Ok (map Some (skipn k rs), s').
Proof. exact @iterate_all. Qed.
Print Assumptions C52_iterator.

(* the C interface: one SUCCESS per result, in order, then COMPLETE for ever *)
Theorem C52_c_interface :
  forall (R : Type) (rs : list R), (lenN rs < two64)%N ->
  forall k, exists s, c_next_calls k (Some (source_new (map Some rs))) = Ok (c_yields k rs, s).
Proof. exact @c_iterate_all. Qed.
Print Assumptions C52_c_interface.

(* the Rust iterator: Some(Ok(result)) in order, then None for ever *)
Theorem C52_rust_interface :
  forall (R : Type) (rs : list R), (lenN rs < two64)%N ->
  forall k, exists s, rust_next_calls k (source_new (map Some rs)) = Ok (yields k rs, s).
Proof. exact @rust_iterate_all. Qed.
Print Assumptions C52_rust_interface.

(* the Python iterator: every result once, with the shape of the request at the same position *)
Theorem C52_python_interface :
  forall (F : Type) (rs : list (result F)), (lenN rs < two64)%N ->
  forall shapes : list (list Z), length shapes = length rs ->
    py_iterate (S (length rs)) shapes (Some (source_new (map Some rs))) = Ok (combine rs shapes).
Proof. exact @python_iteration. Qed.
Print Assumptions C52_python_interface.

Example C52_example :
  omap fst (c_next_calls 5 (Some (source_new [Some 7%Z; Some 8%Z; Some 9%Z]))) =
    Ok [(ItSuccess, Some 7%Z); (ItSuccess, Some 8%Z); (ItSuccess, Some 9%Z); (ItComplete, None); (ItComplete, None)] /\
  (* a null pointer among the results (never made by the library) would end the iteration early in
     C and crash in Rust *)
  omap fst (c_next_calls 3 (Some (source_new [Some 7%Z; None; Some 9%Z]))) =
    Ok [(ItSuccess, Some 7%Z); (ItComplete, None); (ItSuccess, Some 9%Z)] /\
  rust_next_calls 2 (source_new [Some 7%Z; None]) = UB.
Proof. repeat split. Qed.

(* C53.  Values: for a caller buffer of exactly the declared size, the call writes nothing outside the buffer
   (no undefined behaviour), succeeds iff the size is the number of values, and then has copied them all in
   order; otherwise the buffer is untouched. *)
Theorem C53_values_partial :
  forall (V : Type) (vss : list (list V)) (b : list V) (n : N),
    (N.of_nat (total vss) < two64)%N -> (n < two64)%N -> lenN b = n ->
    c_result_values (Some vss) (Some b) n =
      if (N.of_nat (total vss) =? n)%N then Ok (CSuccess, Some (concat vss)) else Ok (CError, Some b).
Proof. exact @result_values_exact. Qed.
Print Assumptions C53_values_partial.

(* Masks: the size is compared after the copy.  A buffer that is large enough is safe, and a wrong size is
   reported (after overwriting the buffer's beginning).  Missing: too small buffers. *)
Theorem C53_mask_partial :
  forall (V : Type) (wss : list (list V)) (b : list V) (n : N),
    (n < two64)%N -> lenN b = n -> (N.of_nat (total wss) <= n)%N ->
    c_result_mask (Some wss) (Some b) n =
      Ok (if (N.of_nat (total wss) =? n)%N then CSuccess else CError, Some (concat wss ++ skipn (total wss) b)).
Proof. exact @result_mask_large. Qed.
Print Assumptions C53_mask_partial.

(* every buffer that is too small is overrun *)
Theorem C53_mask_refuted :
  forall (V : Type) (wss : list (list V)) (b : list V) (n : N),
    (n < two64)%N -> lenN b = n -> (n < N.of_nat (total wss))%N ->
    c_result_mask (Some wss) (Some b) n = UB.
Proof. exact @result_mask_overrun. Qed.
Print Assumptions C53_mask_refuted.

(* The size documented above the function, 1 + floor(N/64) words for N points, is the real size only if N is
   no multiple of 64. *)
Theorem C53_documented_mask_size_refuted :
  forall n : nat, (n + 63) / 64 = 1 + n / 64 <-> n mod 64 <> 0.
Proof. exact mask_words_comment. Qed.
Print Assumptions C53_documented_mask_size_refuted.

(* the axes accessors check the size first *)
Theorem C53_axes :
  forall m : axes_map,
  (forall b n, (n < two64)%N -> lenN b = n ->
     c_axes_keys (Some m) b n = if (n =? lenN m)%N then Ok (CSuccess, map fst m) else Ok (CError, b)) /\
  (forall k b n, (n < two64)%N -> lenN b = n ->
     c_axes_values (Some m) (Some k) (Some b) n =
       match sfind k m with
       | Some vs => if (n =? lenN vs)%N then Ok (CSuccess, Some vs) else Ok (CError, Some b)
       | None => Ok (CError, Some b)
       end).
Proof. exact axes_accessors. Qed.
Print Assumptions C53_axes.

(* the sizes to be given to them *)
Theorem C53_axes_sizes :
  forall m : axes_map,
    c_axes_keys_size (Some m) = Ok (CSuccess, Some (lenN m)) /\
    forall k, c_axes_values_size (Some m) (Some k) =
      Ok (CSuccess, Some (lenN (match sfind k m with Some vs => vs | None => [] end))).
Proof. exact axes_sizes. Qed.
Print Assumptions C53_axes_sizes.

Example C53_example :
  c_result_values (Some [[1; 2]; []; [3]]%Z) (Some [0; 0; 0]%Z) 3 = Ok (CSuccess, Some [1; 2; 3]%Z) /\
  c_result_values (Some [[1; 2]; []; [3]]%Z) (Some [0; 0]%Z) 2 = Ok (CError, Some [0; 0]%Z) /\
  c_result_mask (Some [[5]; [6; 7]]%N) (Some [0; 0; 0; 0]%N) 4 = Ok (CError, Some [5; 6; 7; 0]%N) /\
  c_result_mask (Some [[5]; [6; 7]]%N) (Some [0; 0]%N) 2 = UB.
Proof. repeat split. Qed.

(* C54.  An array of 2k integers is understood as the k ranges in order, in all three entry points. *)
Theorem C54_ranges :
  forall l : list (N * N), (lenN (laid_out l) < two64)%N ->
    c_ranges (Some (laid_out l)) (lenN (laid_out l)) = Ok l.
Proof. exact ranges_of_array. Qed.
Print Assumptions C54_ranges.

(* every array of even length has that form *)
Theorem C54_every_even_array :
  forall (k : nat) (arr : list N), length arr = 2 * k -> exists l, arr = laid_out l /\ length l = k.
Proof. exact even_array_laid_out. Qed.
Print Assumptions C54_every_even_array.

Theorem C54_new_request :
  forall (parsing : bool) (parse : string -> outcome string) (s : string) (l : list (N * N)) (hash : option string),
    (lenN (laid_out l) < two64)%N -> parsing = false ->
    c_new_request parsing parse true (Some s) (Some (laid_out l)) (lenN (laid_out l)) hash
      = Ok (CSuccess, Some (mk_request s l (c_string hash))).
Proof. exact new_request_ranges. Qed.
Print Assumptions C54_new_request.

Theorem C54_new_request_parsed :
  forall (parse : string -> outcome string) (s : string) (l : list (N * N)) (hash : option string),
    (lenN (laid_out l) < two64)%N -> parse s <> UB ->
    c_new_request true parse true (Some s) (Some (laid_out l)) (lenN (laid_out l)) hash
      = Ok (match parse s with
            | Ok s' => (CSuccess, Some (mk_request s' l (c_string hash)))
            | _ => (CError, None)
            end).
Proof. exact new_request_parsed. Qed.
Print Assumptions C54_new_request_parsed.

Theorem C54_new_path_request :
  forall (f sch : string) (o : N) (h : string) (port : Z) (l : list (N * N)) (hash : option string),
    (lenN (laid_out l) < two64)%N ->
    c_new_path_request true (Some f) (Some sch) o (Some h) port (Some (laid_out l)) (lenN (laid_out l)) hash
      = Ok (CSuccess, Some (mk_path_request f sch h port o l (c_string hash))).
Proof. exact new_path_request_ranges. Qed.
Print Assumptions C54_new_path_request.

Theorem C54_extract_single :
  forall (F W : Type) flatten (parse : string -> outcome string) (i : impl F W) req s' (l : list (N * N)) hash w,
    (lenN (laid_out l) < two64)%N -> parse req = Ok s' ->
    c_extract_single flatten parse (Some i) (Some req) (Some (laid_out l)) (lenN (laid_out l)) hash w
      = let (r, w') := gj_extract i (map (fun r => mk_request r l (c_string hash)) (flatten s')) w in (try_catch r, w').
Proof. exact @extract_single_ranges. Qed.
Print Assumptions C54_extract_single.

(* odd lengths are refused with an error code, whatever the other arguments, and nothing is extracted *)
Theorem C54_odd_refused :
  forall (arr : option (list N)) (size : N), N.odd size = true ->
    (forall parsing parse out s hash, c_new_request parsing parse out s arr size hash = Ok (CError, None)) /\
    (forall out f sch o h port hash, c_new_path_request out f sch o h port arr size hash = Ok (CError, None)) /\
    (forall F W flatten parse (handle : option (impl F W)) req hash w,
       c_extract_single flatten parse handle req arr size hash w = (Ok (CError, None), w)).
Proof. exact odd_requests_refused. Qed.
Print Assumptions C54_odd_refused.

Example C54_example :
  c_ranges (Some [0; 10; 20; 25]%N) 4 = Ok [(0, 10); (20, 25)]%N /\
  c_ranges (Some [0; 10; 20]%N) 3 = Throw EAssert /\
  c_ranges (Some [0; 10]%N) 4 = UB /\      (* a declared size beyond the array *)
  c_ranges None 0 = Throw EAssert.
Proof. repeat split. Qed.

(* C55.  For every non-empty list of ranges and every result of that shape, the Python views are the per-range
   vectors and the boolean masks are the presence vectors. *)
Theorem C55_views :
  forall (F : Type) (zero : F) (l : list (N * N)) (vals : list (list F)) (present : list (list bool))
         (masks : list (list N)),
    l <> [] -> Forall (fun i => fst i <= snd i)%N l ->
    Forall2 (fun i v => length v = size_of i) l vals ->
    Forall2 (fun i p => length p = size_of i) l present ->
    Forall2 is_mask present masks ->
    (N.of_nat (total vals) < two64)%N ->
    py_values zero (vals, masks) (shape_of l) = Ok vals /\
    py_masks (vals, masks) (shape_of l) = Ok masks /\
    py_bool_masks (vals, masks) (shape_of l) = Ok present.
Proof. exact @python_views. Qed.
Print Assumptions C55_views.

(* the older interface pairs the values of each range with its mask words *)
Theorem C55_legacy_view :
  forall (F : Type) (zero : F) (l : list (N * N)) (vals : list (list F)) (present : list (list bool))
         (masks : list (list N)),
    l <> [] -> Forall (fun i => fst i <= snd i)%N l ->
    Forall2 (fun i v => length v = size_of i) l vals ->
    Forall2 (fun i p => length p = size_of i) l present ->
    Forall2 is_mask present masks ->
    (N.of_nat (total vals) < two64)%N ->
    exists pairs, py_legacy zero (vals, masks) (shape_of l) = Ok pairs /\ map fst pairs = vals /\ map snd pairs = masks.
Proof. exact @python_legacy. Qed.
Print Assumptions C55_legacy_view.

(* and so for the extraction of every field: Python sees the cuts of the field and of its presence *)
Theorem C55_views_of_extraction :
  forall (F : Type) (zero : F) (A : farith F) aec file offset inf field present (l : list (N * N)),
    field_of_message A aec file offset inf field present -> i_spherical inf = 0%Z ->
    good_request (lenN field) l -> (lenN field < two64)%N ->
    exists res, extract A aec file offset inf l = Ok res /\
      py_values zero res (shape_of l) = Ok (map (cut field) l) /\
      py_bool_masks res (shape_of l) = Ok (map (cut present) l).
Proof. exact @python_views_of_field. Qed.
Print Assumptions C55_views_of_extraction.

(* the first access to a result with another number of values (such as the empty one of a missing field) is an
   exception; what later accesses to the same object give is C109 *)
Theorem C55_other_shape_refused :
  forall (F : Type) (zero : F) (vals : list (list F)) (masks : list (list N)) (shape : list Z),
    (N.of_nat (total vals) < two64)%N -> (0 <= zsum shape < Z.of_N two64)%Z ->
    Z.of_nat (total vals) <> zsum shape ->
    py_values zero (vals, masks) shape = Throw EGribJump.
Proof. exact @py_values_mismatch. Qed.
Print Assumptions C55_other_shape_refused.

Example C55_example :
  (* ranges [0,2) and [5,70) : 2 and 65 points *)
  let vals := [[1; 2]; repeat 9 65]%Z in
  let masks := [[2]; [18446744073709551615; 1]]%N in
  py_values 0%Z (vals, masks) (shape_of [(0, 2); (5, 70)]%N) = Ok vals /\
  py_bool_masks (vals, masks) (shape_of [(0, 2); (5, 70)]%N) = Ok [[false; true]; repeat true 65] /\
  py_values 0%Z ([], []) [2; 65]%Z = Throw EGribJump.
Proof. vm_compute. repeat split. Qed.

(* C56.  A request from a mask asks for exactly the true positions, in increasing order, with proper ranges that
   pass the server's check; its indices() are those positions. *)
Theorem C56_from_mask :
  forall (parsing : bool) (parse : string -> outcome string) (s s' : string) (m : list bool) (hash : option string),
    text_ok parsing parse s s' -> existsb (fun b => b) m = true -> (2 * lenN m < two64)%N ->
    exists r, py_from_mask parsing parse s m hash = Ok r /\
      let l := r_ranges (py_ctype r) in
      asked_points l = true_points m /\
      good_request (lenN m) l /\ Forall (fun i => fst i < snd i)%N l /\ check_intervals l = Ok true /\
      py_indices r = map Z.of_nat (true_points m) /\ py_shape r = shape_of l /\
      r_string (py_ctype r) = s' /\ r_hash (py_ctype r) = c_string hash.
Proof. exact from_mask_exact. Qed.
Print Assumptions C56_from_mask.

Theorem C56_empty_mask_refused :
  forall (parsing : bool) (parse : string -> outcome string) (s : string) (m : list bool) (hash : option string),
    existsb (fun b => b) m = false -> py_from_mask parsing parse s m hash = Throw EBadValue.
Proof. exact from_mask_empty. Qed.
Print Assumptions C56_empty_mask_refused.

(* a request from an index list asks for exactly those points, one range each, in the given order *)
Theorem C56_from_indices :
  forall (parsing : bool) (parse : string -> outcome string) (s s' : string) (points : list N) (hash : option string),
    text_ok parsing parse s s' -> points <> [] -> (2 * lenN points < two64)%N ->
    Forall (fun p => p + 1 < two64)%N points ->
    exists r, py_from_indices parsing parse s (map Z.of_N points) hash = Ok r /\
      r_ranges (py_ctype r) = map (fun p => (p, p + 1)%N) points /\
      asked_points (r_ranges (py_ctype r)) = map N.to_nat points /\
      py_indices r = map Z.of_N points /\ py_shape r = map (fun _ => 1%Z) points /\
      r_string (py_ctype r) = s' /\ r_hash (py_ctype r) = c_string hash.
Proof. exact from_indices_exact. Qed.
Print Assumptions C56_from_indices.

(* lists without points and points that are no size_t are refused *)
Theorem C56_bad_indices_refused :
  forall (parsing : bool) (parse : string -> outcome string) (s : string) (points : list Z) (hash : option string),
    points = [] \/ Exists (fun p => p < 0 \/ Z.of_N two64 <= p + 1)%Z points ->
    exists e, py_from_indices parsing parse s points hash = Throw e.
Proof. exact from_indices_bad. Qed.
Print Assumptions C56_bad_indices_refused.

(* an index list passes the server's check iff it is increasing *)
Theorem C56_indices_accepted_iff_increasing :
  forall points : list N, points <> [] ->
    check_intervals (map (fun p => (p, p + 1)%N) points) = Ok true <-> StronglySorted N.lt points.
Proof. exact indices_accepted. Qed.
Print Assumptions C56_indices_accepted_iff_increasing.

Example C56_example :
  mask_ranges [true; true; false; false; true; false; true; true; true] = Ok [(0, 2); (4, 5); (6, 9)]%Z /\
  mask_ranges [false; false] = Throw EBadValue /\
  omap (fun r => r_ranges (py_ctype r)) (py_from_indices false Ok "retrieve,class=od" [3; 7; 8]%Z None)
    = Ok [(3, 4); (7, 8); (8, 9)]%N /\
  py_from_indices false Ok "retrieve,class=od" [3; -1]%Z None = Throw EOutOfRange.
Proof. repeat split. Qed.

(* C57.  Flattening and unflattening are inverse, for every list of messages, ranges or none. *)
Theorem C57_round_trip :
  forall (path : string) (ms : list (N * list (N * N))), (lenN ms < two64)%N ->
    from_cxx (to_cxx path ms) = Ok (path, map (fun m => s64 (fst m)) ms, map snd ms).
Proof. exact cxx_round_trip. Qed.
Print Assumptions C57_round_trip.

(* the library is called with the same path, offsets and range lists *)
Theorem C57_library_receives :
  forall (path : string) (F W : Type) (i : impl F W) (ms : list (N * list (N * N))),
    (lenN ms < two64)%N -> Forall (fun m => fst m < two63)%N ms ->
    bridge_extract_from_file i (to_cxx path ms)
      = gj_extract_direct i path (map (fun m => Z.of_N (fst m)) ms) (map snd ms).
Proof. exact @rust_file_extraction. Qed.
Print Assumptions C57_library_receives.

(* a range is accepted exactly if it is not empty *)
Theorem C57_range :
  forall a b : N,
    ((a < b)%N -> rust_range a b = Ok (a, b)) /\ ((b <= a)%N -> rust_range a b = Throw EBadParameter).
Proof. exact rust_range_accepts. Qed.
Print Assumptions C57_range.

Example C57_example :
  to_cxx "/x" [(0, [(1, 2); (3, 4)]); (50, []); (90, [(5, 6)])]%N =
    mk_fe "/x" [0; 50; 90]%N [(1, 2); (3, 4); (5, 6)]%N [0; 2; 2]%N /\
  from_cxx (mk_fe "/x" [0; 50; 90]%N [(1, 2); (3, 4); (5, 6)]%N [0; 2; 2]%N) =
    Ok ("/x"%string, [0; 50; 90]%Z, [[(1, 2); (3, 4)]; []; [(5, 6)]]%N) /\
  (* an offset of 2^63 and more becomes negative *)
  from_cxx (to_cxx "/x" [(9223372036854775808, [])]%N) = Ok ("/x"%string, [-9223372036854775808]%Z, [[]]).
Proof. repeat split. Qed.

(* C60.  Whatever the implementation behind the entry points, calls without paths, requests, offsets or request
   text, or with different numbers of offsets and range lists, raise a user error; the implementation is not
   called, so nothing it could touch (w) changes. *)
Theorem C60_empty_arguments_refused :
  forall (F W : Type) (i : impl F W) (w : W),
    gj_scan_paths i [] w = (Throw EUser, w) /\
    (forall byfiles, gj_scan_requests i [] byfiles w = (Throw EUser, w)) /\
    gj_extract i [] w = (Throw EUser, w) /\
    gj_extract_paths i [] w = (Throw EUser, w) /\
    (forall flatten req ranges hash, flatten req = [] -> gj_extract_mars flatten i req ranges hash w = (Throw EUser, w)) /\
    (forall path offs ranges, path = ""%string \/ offs = [] \/ length offs <> length ranges ->
       gj_extract_direct i path offs ranges w = (Throw EUser, w)) /\
    (forall level, gj_axes i "" level w = (Throw EUser, w)).
Proof. exact @empty_arguments_refused. Qed.
Print Assumptions C60_empty_arguments_refused.

(* the check refuses nothing else *)
Theorem C60_other_arguments_passed_on :
  forall (F W : Type) (i : impl F W),
    (forall paths, paths <> [] -> gj_scan_paths i paths = m_scan_paths i paths) /\
    (forall reqs byfiles, reqs <> [] -> gj_scan_requests i reqs byfiles = m_scan_requests i reqs byfiles) /\
    (forall reqs, reqs <> [] -> gj_extract i reqs = as_iterator (m_extract i reqs)) /\
    (forall reqs, reqs <> [] -> gj_extract_paths i reqs = as_iterator (m_extract_paths i reqs)) /\
    (forall path offs ranges, path <> ""%string -> offs <> [] -> length offs = length ranges ->
       gj_extract_direct i path offs ranges = as_iterator (m_extract_direct i path offs ranges)) /\
    (forall req level, req <> ""%string -> gj_axes i req level = m_axes i req level).
Proof. exact @other_arguments_passed_on. Qed.
Print Assumptions C60_other_arguments_passed_on.

(* the same calls through the C interface *)
Theorem C60_c_interface :
  forall (F W : Type) (i : impl F W) (w : W) (reqs : list request) (preqs : list path_request),
    c_extract (Some i) reqs 0 w = (Ok (CError, None), w) /\
    c_extract_paths (Some i) preqs 0 w = (Ok (CError, None), w).
Proof. exact @c_empty_refused. Qed.
Print Assumptions C60_c_interface.

Example C60_example :
  gj_extract_direct noisy "/x" [0; 50]%Z [[(0, 1)]]%N [] = (Throw EUser, []) /\
  gj_extract_direct noisy "/x" [0]%Z [[(0, 1)]]%N [] = (Ok (source_new [Some ([[5]]%Z, [[1]]%N)]), ["read"%string]) /\
  gj_axes noisy "" 3 [] = (Throw EUser, []) /\ gj_axes noisy "class=od" 3 [] = (Ok [], ["axes"%string]).
Proof. repeat split. Qed.

(* C61.  Extracting from a path succeeds with results rs exactly when rs are, in order, the extractions of the
   messages at the offsets with the range lists at the same positions. *)
Theorem C61_pairs :
  forall (F : Type) (A : farith F) aec (files : string -> option (list N)) (data : string -> Z -> outcome (info F))
         path offs ranges rs,
    path <> ""%string -> offs <> [] -> length offs = length ranges ->
    (api_extract_direct A aec files (info_extractor data) path offs ranges = Ok rs <->
     exists bytes, files path = Some bytes /\ Forall2 (extraction_at A aec data path bytes) (combine offs ranges) rs).
Proof. exact @direct_pairs. Qed.
Print Assumptions C61_pairs.

Theorem C61_one_result_per_offset :
  forall (F : Type) (A : farith F) aec (files : string -> option (list N)) (data : string -> Z -> outcome (info F))
         path offs ranges rs,
    length offs = length ranges ->
    api_extract_direct A aec files (info_extractor data) path offs ranges = Ok rs -> length rs = length offs.
Proof. exact @direct_length. Qed.
Print Assumptions C61_one_result_per_offset.

(* for files whose messages hold given fields the result is the cuts of these fields *)
Theorem C61_returns_fields :
  forall (F : Type) (A : farith F) aec (files : string -> option (list N)) (data : string -> Z -> outcome (info F))
         path bytes offs ranges (fields : list (list F * list bool)),
    path <> ""%string -> offs <> [] -> files path = Some bytes ->
    Forall2 (fun o f => stored A aec data path bytes o (fst f) (snd f)) offs fields ->
    Forall2 (fun l f => good_request (lenN (fst f)) l) ranges fields ->
    api_extract_direct A aec files (info_extractor data) path offs ranges =
      Ok (map (fun q => (map (cut (fst (snd q))) (fst q), map to_bitset (map (cut (snd (snd q))) (fst q))))
              (combine ranges fields)).
Proof. exact @direct_returns_fields. Qed.
Print Assumptions C61_returns_fields.

(* the entry point GribJump::extract(path, offsets, ranges) gives an iterator over these results *)
Theorem C61_entry_point :
  forall (F W : Type) (i : impl F W) A aec files data path offs ranges w,
    (forall p os rs, m_extract_direct i p os rs = pure (direct_extract A aec files (info_extractor data) p os rs)) ->
    gj_extract_direct i path offs ranges w =
      (omap (fun rs => source_new (map Some rs)) (api_extract_direct A aec files (info_extractor data) path offs ranges), w).
Proof. exact @direct_entry. Qed.
Print Assumptions C61_entry_point.

Example C61_example :
  (* two constant fields, 7 at offset 0 and 8 at offset 40 of one file *)
  let data := fun (_ : string) (o : Z) => if (o =? 0)%Z then Ok (demo_info 7%Z) else
                                          if (o =? 40)%Z then Ok (demo_info 8%Z) else Throw ELibrary in
  let go := api_extract_direct (w_arith demo) (w_aec demo) (fun _ => Some []) (info_extractor data) "/x" in
  go [40; 0]%Z [[(0, 1)]; [(0, 2); (2, 3)]]%N = Ok [([[8]]%Z, [[1]]%N); ([[7; 7]; [7]]%Z, [[3]; [1]]%N)] /\
  go [40; 5]%Z [[(0, 1)]; [(0, 2)]]%N = Throw ELibrary.
Proof. vm_compute. repeat split. Qed.
