(* Model of the layers between a caller and the library: the result iterator
   (src/gribjump/api/ExtractionIterator.h), the entry points (src/gribjump/GribJump.cc), the C
   interface (src/gribjump/gribjump_c.cc) and the Rust interface (rust/crates/gribjump/src,
   rust/crates/gribjump-sys/cpp/gribjump_bridge.cpp).

   A caller's memory of n elements is a list of length n; writing or reading outside it is
   undefined behaviour.  A pointer that may be null is an option.  Log contexts and the global
   error text are left out.  What an out-pointer is set to is returned. *)
From Verif Require Import Base ModelStrings ModelInfo ModelJumper ModelEngine.

(* ---- api/ExtractionIterator.h ---- *)
Section Iterator.
Context {R : Type}.

(* VectorSource, lines 33-52; None is a null unique_ptr *)
Record source := mk_source {
  s_data : list (option R);
  s_index : N
}.
Definition source_new (data : list (option R)) : source := mk_source data 0.

(* line 38 *)
Definition has_next (s : source) : bool := (s_index s <? lenN (s_data s))%N.

(* p[i] = x *)
Definition set_at {A} (l : list A) (i : N) (x : A) : outcome (list A) :=
  if (i <? lenN l)%N
  then Ok (firstn (N.to_nat i) l ++ x :: skipn (S (N.to_nat i)) l) else UB.

(* lines 40-45; the vector keeps a null pointer in place of the result *)
Definition next (s : source) : outcome (option R * source) :=
  if negb (has_next s) then Ok (None, s)
  else
    let* r := at_ (s_data s) (s_index s) in
    let* data := set_at (s_data s) (s_index s) None in
    Ok (r, mk_source data (add64 (s_index s) 1)).

(* k calls *)
Fixpoint next_calls (k : nat) (s : source) : outcome (list (option R) * source) :=
  match k with
  | O => Ok ([], s)
  | S k' => let* (r, s1) := next s in
            let* (rs, s2) := next_calls k' s1 in
            Ok (r :: rs, s2)
  end.

(* lines 69-75; the loop ends after at most one round per element *)
Fixpoint dump (fuel : nat) (s : source) : outcome (list (option R) * source) :=
  if negb (has_next s) then Ok ([], s)
  else match fuel with
       | O => Throw ESeriousBug
       | S f => let* (r, s1) := next s in
                let* (rs, s2) := dump f s1 in
                Ok (r :: rs, s2)
       end.
Definition dump_vector (s : source) := dump (length (s_data s)) s.

(* gribjump_c.cc:388-404 *)
Inductive it_status := ItSuccess | ItComplete | ItError.
Definition c_next (it : option source) : outcome (it_status * option R * option source) :=
  match it with
  | None => Ok (ItError, None, None)
  | Some s =>
      let* (r, s1) := next s in
      match r with
      | Some x => Ok (ItSuccess, Some x, Some s1)
      | None => Ok (ItComplete, None, Some s1)
      end
  end.
Fixpoint c_next_calls (k : nat) (it : option source)
  : outcome (list (it_status * option R) * option source) :=
  match k with
  | O => Ok ([], it)
  | S k' => let* (st, r, it1) := c_next it in
            let* (rs, it2) := c_next_calls k' it1 in
            Ok ((st, r) :: rs, it2)
  end.

(* gribjump_bridge.cpp:78-85; dereferencing a null pointer is undefined *)
Definition bridge_next (s : source) : outcome (R * source) :=
  if negb (has_next s) then Throw ESeriousBug
  else let* (r, s1) := next s in
       match r with Some x => Ok (x, s1) | None => UB end.
(* iterator.rs:45-54: Some(Ok r), Some(Err e) or None *)
Definition rust_next (s : source) : outcome (option R * source) :=
  if negb (has_next s) then Ok (None, s)
  else let* (x, s1) := bridge_next s in Ok (Some x, s1).
Fixpoint rust_next_calls (k : nat) (s : source) : outcome (list (option R) * source) :=
  match k with
  | O => Ok ([], s)
  | S k' => let* (r, s1) := rust_next s in
            let* (rs, s2) := rust_next_calls k' s1 in
            Ok (r :: rs, s2)
  end.
End Iterator.
Arguments source : clear implicits.

(* ---- GribJump.cc:33-120 ---- *)
(* The implementation behind the entry points (GribJumpBase), acting on a state W: files,
   caches, network, anything. *)
Section Entry.
Context {F W : Type}.
Definition action (A : Type) : Type := W -> outcome A * W.
Record impl := mk_impl {
  m_scan_paths : list string -> action N;
  m_scan_requests : list string -> bool -> action N;
  m_extract : list request -> action (list (result F));
  m_extract_paths : list path_request -> action (list (result F));
  m_extract_direct : string -> list Z -> list (list interval) -> action (list (result F));
  m_axes : string -> Z -> action (list (string * list string))
}.
Definition throw {A} (e : error) : action A := fun w => (Throw e, w).
Definition amap {A B} (f : A -> B) (x : action A) : action B := fun w => (omap f (fst (x w)), snd (x w)).

(* lines 66, 75, 106: the vector becomes a VectorSource.  That no result is null is shown for
   the local implementation by its type (item->result(), ASSERT(res)). *)
Definition as_iterator : action (list (result F)) -> action (source (result F)) :=
  amap (fun rs => source_new (map Some rs)).

Definition gj_scan_paths (i : impl) (paths : list string) : action N :=
  match paths with [] => throw EUser | _ => m_scan_paths i paths end.
Definition gj_scan_requests (i : impl) (reqs : list string) (byfiles : bool) : action N :=
  match reqs with [] => throw EUser | _ => m_scan_requests i reqs byfiles end.
Definition gj_extract (i : impl) (reqs : list request) : action (source (result F)) :=
  match reqs with [] => throw EUser | _ => as_iterator (m_extract i reqs) end.
Definition gj_extract_paths (i : impl) (reqs : list path_request) : action (source (result F)) :=
  match reqs with [] => throw EUser | _ => as_iterator (m_extract_paths i reqs) end.
(* lines 78-90; flatten is flattenRequest followed by asString *)
Definition gj_extract_mars (flatten : string -> list string) (i : impl)
    (req : string) (ranges : list interval) (hash : string) : action (source (result F)) :=
  gj_extract i (map (fun r => mk_request r ranges hash) (flatten req)).
Definition gj_extract_direct (i : impl) (path : string) (offs : list Z) (ranges : list (list interval))
  : action (source (result F)) :=
  if String.eqb path "" then throw EUser
  else if (lenN offs =? 0)%N then throw EUser
  else if negb (lenN offs =? lenN ranges)%N then throw EUser
  else as_iterator (m_extract_direct i path offs ranges).
Definition gj_axes (i : impl) (req : string) (level : Z) : action (list (string * list string)) :=
  if String.eqb req "" then throw EUser else m_axes i req level.
End Entry.
Arguments impl : clear implicits.

(* InfoExtractor.cc:104-121: one info per offset, in order; data p o is what InfoFactory::build
   makes of the message at offset o of the file p (the file is opened for each) *)
Definition info_extractor {F} (data : string -> Z -> outcome (info F)) (path : string) (offs : list Z)
  : outcome (list (info F)) := mapM (data path) offs.

(* ---- gribjump_c.cc ---- *)
Inductive c_error := CSuccess | CError.

(* lines 46-60 tryCatch: exceptions become an error code *)
Definition try_catch {A} (x : outcome A) : outcome (c_error * option A) :=
  match x with
  | Ok a => Ok (CSuccess, Some a)
  | Throw _ => Ok (CError, None)
  | UB => UB
  end.
(* ASSERT(p) for a pointer p *)
Definition not_null {A} (p : option A) : outcome A :=
  match p with Some a => Ok a | None => Throw EAssert end.

(* lines 169-172, 195-198, 307-310: the loop over the array *)
Fixpoint range_loop (fuel : nat) (arr : list N) (size i : N) : outcome (list interval) :=
  if (i <? size)%N then
    match fuel with
    | O => Throw ESeriousBug
    | S f => let* a := at_ arr i in
             let* b := at_ arr (add64 i 1) in
             let* rest := range_loop f arr size (add64 i 2) in
             Ok ((a, b) :: rest)
    end
  else Ok [].
(* lines 167-172, 193-198, 304-310 *)
Definition c_ranges (arr : option (list N)) (size : N) : outcome (list interval) :=
  let* a := not_null arr in
  let* _ := assert_ (size mod 2 =? 0)%N in
  range_loop (N.to_nat size) a size 0.

Definition c_string (p : option string) : string := match p with Some s => s | None => "" end.

(* lines 162-184; parse is parseMarsRequest followed by asString, lines 62-69.
   [out] is false for a null request pointer. *)
Definition c_new_request (request_parsing : bool) (parse : string -> outcome string)
    (out : bool) (reqstr : option string) (arr : option (list N)) (size : N) (hash : option string)
  : outcome (c_error * option request) :=
  try_catch
    (let* _ := assert_ out in
     let* s := not_null reqstr in
     let* ranges := c_ranges arr size in
     let* s' := if request_parsing then parse s else Ok s in
     Ok (mk_request s' ranges (c_string hash))).

(* lines 186-204 *)
Definition c_new_path_request (out : bool) (filename scheme : option string) (offset : N)
    (host : option string) (port : Z) (arr : option (list N)) (size : N) (hash : option string)
  : outcome (c_error * option path_request) :=
  try_catch
    (let* _ := assert_ out in
     let* f := not_null filename in
     let* s := not_null scheme in
     let* h := not_null host in
     let* ranges := c_ranges arr size in
     Ok (mk_path_request f s h port offset ranges (c_string hash))).

(* lines 298-320 *)
Definition c_extract_single {F W} (flatten : string -> list string) (parse : string -> outcome string)
    (handle : option (impl F W)) (req : option string) (arr : option (list N)) (size : N)
    (hash : option string) (w : W) : outcome (c_error * option (source (result F))) * W :=
  match (let* i := not_null handle in
         let* s := not_null req in
         let* ranges := c_ranges arr size in
         let* s' := parse s in
         Ok (i, s', ranges)) with
  | Ok (i, s', ranges) =>
      let (r, w') := gj_extract_mars flatten i s' ranges (c_string hash) w in (try_catch r, w')
  | Throw e => (try_catch (Throw e), w)
  | UB => (UB, w)
  end.

(* lines 264-278, 280-296: requests[i] for i < nrequests; a null handle is not checked *)
Definition c_extract {F W} (handle : option (impl F W)) (reqs : list request) (n : N) (w : W)
  : outcome (c_error * option (source (result F))) * W :=
  match mapM (fun k => at_ reqs (N.of_nat k)) (seq 0 (N.to_nat n)), handle with
  | Ok rs, Some i => let (r, w') := gj_extract i rs w in (try_catch r, w')
  | _, _ => (UB, w)
  end.
Definition c_extract_paths {F W} (handle : option (impl F W)) (reqs : list path_request) (n : N) (w : W)
  : outcome (c_error * option (source (result F))) * W :=
  match mapM (fun k => at_ reqs (N.of_nat k)) (seq 0 (N.to_nat n)), handle with
  | Ok rs, Some i => let (r, w') := gj_extract_paths i rs w in (try_catch r, w')
  | _, _ => (UB, w)
  end.

(* ---- the result accessors, lines 226-255 ---- *)
Section Accessors.
Context {V : Type}.

(* buffer[count++] = v for every v; the buffer as left behind *)
Fixpoint write_all (buf : list V) (count : N) (vs : list V) : outcome (list V * N) :=
  match vs with
  | [] => Ok (buf, count)
  | v :: r => let* buf' := set_at buf count v in write_all buf' (add64 count 1) r
  end.

(* the two nested loops *)
Fixpoint write_vectors (buf : list V) (count : N) (vss : list (list V)) : outcome (list V * N) :=
  match vss with
  | [] => Ok (buf, count)
  | vs :: r => let* (buf', count') := write_all buf count vs in write_vectors buf' count' r
  end.

(* ExtractionData.h:47-53 *)
Definition total_values (vss : list (list V)) : N := fold_left (fun t v => add64 t (lenN v)) vss 0%N.

(* lines 226-239: status and the buffer after the call *)
Definition c_result_values (res : option (list (list V))) (buf : option (list V)) (n : N)
  : outcome (c_error * option (list V)) :=
  match res, buf with
  | Some vss, Some b =>
      if negb (total_values vss =? n)%N then Ok (CError, buf)
      else let* (b', count) := write_vectors b 0 vss in
           Ok (if (count =? n)%N then CSuccess else CError, Some b')
  | _, _ => Ok (CError, buf)
  end.

(* lines 243-255: no check before the loop *)
Definition c_result_mask (res : option (list (list V))) (buf : option (list V)) (n : N)
  : outcome (c_error * option (list V)) :=
  match res, buf with
  | Some vss, Some b =>
      let* (b', count) := write_vectors b 0 vss in
      Ok (if (count =? n)%N then CSuccess else CError, Some b')
  | _, _ => Ok (CError, buf)
  end.
End Accessors.

(* ---- the axes accessors, lines 102-151, 342-371; a std::map is a sorted association list ---- *)
Definition axes_map := list (string * list string).
Definition c_axes_keys_size (ax : option axes_map) : outcome (c_error * option N) :=
  try_catch (let* m := not_null ax in Ok (lenN m)).
Definition c_axes_values_size (ax : option axes_map) (key : option string) : outcome (c_error * option N) :=
  try_catch (let* m := not_null ax in
             let* k := not_null key in
             Ok (match sfind k m with Some vs => lenN vs | None => 0%N end)).
Definition c_axes_keys (ax : option axes_map) (buf : list string) (n : N)
  : outcome (c_error * list string) :=
  match ax with
  | Some m => if (n =? lenN m)%N
              then let* (b, _) := write_all buf 0 (map fst m) in Ok (CSuccess, b)
              else Ok (CError, buf)
  | None => Ok (CError, buf)
  end.
Definition c_axes_values (ax : option axes_map) (key : option string) (buf : option (list string)) (n : N)
  : outcome (c_error * option (list string)) :=
  match ax, key, buf with
  | Some m, Some k, Some b =>
      match sfind k m with
      | Some vs => if (n =? lenN vs)%N
                   then let* (b', _) := write_all b 0 vs in Ok (CSuccess, Some b')
                   else Ok (CError, buf)
      | None => Ok (CError, buf)
      end
  | _, _, _ => Ok (CError, buf)
  end.

(* ---- Rust ---- *)
(* request.rs:23-30 Range::new; line 54: From<std::ops::Range> builds one without the check *)
Definition rust_range (start stop : N) : outcome interval :=
  if (stop <=? start)%N then Throw EBadParameter else Ok (start, stop).

(* FileExtractionData *)
Record file_extraction := mk_fe {
  fe_path : string;
  fe_offsets : list N;
  fe_ranges : list interval;
  fe_starts : list N        (* ranges_offsets *)
}.
(* request.rs:275-294 *)
Definition fe_push (d : file_extraction) (m : N * list interval) : file_extraction :=
  mk_fe (fe_path d) (fe_offsets d ++ [fst m]) (fe_ranges d ++ snd m) (fe_starts d ++ [lenN (fe_ranges d)]).
Definition to_cxx (path : string) (messages : list (N * list interval)) : file_extraction :=
  fold_left fe_push messages (mk_fe path [] [] []).

(* gribjump_bridge.cpp:223-233, one round *)
Definition message_ranges (d : file_extraction) (i : N) : outcome (list interval) :=
  let* start := at_ (fe_starts d) i in
  let* stop := if (add64 i 1 <? lenN (fe_starts d))%N then at_ (fe_starts d) (add64 i 1)
               else Ok (lenN (fe_ranges d)) in
  (* reserve(end - start) *)
  if (stop <? start)%N then Throw EBadAlloc
  else mapM (fun j => at_ (fe_ranges d) (N.of_nat j)) (seq (N.to_nat start) (N.to_nat stop - N.to_nat start)).
Definition from_cxx (d : file_extraction) : outcome (string * list Z * list (list interval)) :=
  let* rs := mapM (fun i => message_ranges d (N.of_nat i)) (seq 0 (length (fe_starts d))) in
  Ok (fe_path d, map s64 (fe_offsets d), rs).
(* gribjump_bridge.cpp:208-237 *)
Definition bridge_extract_from_file {F W} (i : impl F W) (d : file_extraction)
  : action (source (result F)) :=
  match from_cxx d with
  | Ok (path, offs, ranges) => gj_extract_direct i path offs ranges
  | Throw e => throw e
  | UB => fun w => (UB, w)
  end.
