(* The calls of a Python user: dic_to_request and multivalued_dic_to_request (pygribjump.py:734-748),
   ExtractionRequest(req, ranges, gridHash) (lines 143-169) and GribJump.extract with its iterator
   (lines 288-309,415-458).  A dict is an association list with distinct keys in insertion order.
   Texts here have no NUL, at which the C text would end (ModelFetch.v: c_text). *)
From Verif Require Import Base ModelInfo ModelJumper ModelEngine ModelApi ModelPython.

(* lines 734-736 *)
Definition dic_to_request (d : list (string * string)) : string :=
  String.concat "," (map (fun kv => String.concat "=" [fst kv; snd kv]) d).

(* a value of a dict: str(v), or a list of which every element is printed *)
Inductive dvalue := One (v : string) | Many (l : list string).
(* lines 739-748; out[:-1] *)
Fixpoint multi_loop (d : list (string * dvalue)) (out : string) : string :=
  match d with
  | [] => out
  | (k, Many l) :: r => multi_loop r (out ++ (k ++ "=") ++ String.concat "/" l ++ ",")%string
  | (k, One v) :: r => multi_loop r (out ++ k ++ "=" ++ v ++ ",")%string
  end.
Definition but_last (s : string) : string := substring 0 (String.length s - 1) s.
Definition multivalued_dic_to_request (d : list (string * dvalue)) : string := but_last (multi_loop d "").

Record pyask := mk_pyask { a_dict : list (string * string); a_ranges : list (Z * Z); a_hash : option string }.
Definition py_request_of (parsing : bool) (parse : string -> outcome string) (a : pyask) : outcome py_request :=
  py_new_request parsing parse ("retrieve," ++ dic_to_request (a_dict a))%string (a_ranges a) (a_hash a).

(* lines 434-458 and 288-309: the results, each with the shape of its request *)
Definition py_extract {F W} (parsing : bool) (parse : string -> outcome string) (i : impl F W) (asks : list pyask) (w : W)
  : outcome (list (result F * list Z)) * W :=
  match asks with
  | [] => (Throw EBadValue, w)
  | _ =>
      match mapM (py_request_of parsing parse) asks with
      | Ok rs =>
          let (r, w') := c_extract (Some i) (map py_ctype rs) (lenN rs) w in
          (let* src := checked r in py_iterate (S (length rs)) (map py_shape rs) (Some src), w')
      | Throw e => (Throw e, w)
      | UB => (UB, w)
      end
  end.

(* lines 474-508: the same region of every field, by a mask, by indices or by ranges.  from_mask and from_indices
   of each dict are called before extract; their requests are made there and not here, which cannot be told apart. *)
Definition py_extract_region {F W} (parsing : bool) (parse : string -> outcome string) (i : impl F W)
    (region : outcome (list (Z * Z))) (dicts : list (list (string * string))) (hash : option string) (w : W)
  : outcome (list (result F * list Z)) * W :=
  match mapM (fun d => omap (fun rs => mk_pyask d rs hash) region) dicts with
  | Ok asks => py_extract parsing parse i asks w
  | Throw e => (Throw e, w)
  | UB => (UB, w)
  end.
Definition py_extract_mask {F W} parsing parse (i : impl F W) dicts (mask : list bool) hash w :=
  py_extract_region parsing parse i (mask_ranges mask) dicts hash w.
Definition py_extract_indices {F W} parsing parse (i : impl F W) dicts (points : list Z) hash w :=
  py_extract_region parsing parse i (Ok (index_ranges points)) dicts hash w.
Definition py_extract_ranges {F W} parsing parse (i : impl F W) dicts (ranges : list (Z * Z)) hash w :=
  py_extract_region parsing parse i (Ok ranges) dicts hash w.
