(* Axes from the catalogue to the user: FDBLister::axes (Lister.cc:227-262), gribjump_new_axes and gribjump_axes_t
   (gribjump_c.cc:106-151,327-340), GribJump.axes of Python (pygribjump.py:524-551), axes of the Rust bridge
   (gribjump_bridge.cpp:243-261) and handle.rs:173-178.  The accessors of the C interface are in ModelApi.v, the wire in
   ModelProtocol.v and ModelRemote.v.

   An unordered_set is the list of its elements in the order of iteration; [order] is the order of a set made from
   other elements, and changes with every copy.  A C string ends at the first zero.  A character of a Python string
   from 128 on stands for one that ASCII cannot encode; the errors of encoding and decoding are ValueErrors.
   The int that counts in values() and keys() does not overflow here: there are fewer than 2^31 values. *)
From Verif Require Import Base ModelStrings ModelInfo ModelJumper ModelEngine ModelProtocol ModelApi ModelPython ModelUser.

Notation named_values := (list (string * list string)).

(* ---- Lister.cc:227-262 ---- *)
Section Lister.
Context {R : Type}.
Variable order : list string -> list string.
(* FDBToolRequest::requestsFromString, and FDB::axes with IndexAxis::map; a DenseSet is the list of its elements *)
Variable parse : string -> outcome (list R).
Variable fdb_axes : R -> Z -> outcome named_values.

(* lines 248-258 *)
Definition as_sets (m : named_values) : named_values :=
  fold_left (fun values kv => sset (fst kv) (order (fold_left set_insert (snd kv) [])) values) m [].
Definition lister_axes (request : string) (level : Z) : outcome named_values :=
  let* rs := parse request in
  match rs with
  | [r] => omap as_sets (fdb_axes r level)
  | _ => Throw EAssert
  end.
End Lister.

(* ---- C ---- *)
Fixpoint c_str (s : string) : string :=
  match s with
  | EmptyString => EmptyString
  | String c r => if Ascii.eqb c Ascii.zero then EmptyString else String c (c_str r)
  end.

(* gribjump_c.cc:327-340 and 109: the map is copied.  The request is a C string *)
Definition c_new_axes {F W} (order : list string -> list string) (handle : option (impl F W)) (request : string) (level : Z) (w : W)
  : outcome (c_error * option axes_map) * W :=
  match handle with
  | Some i =>
      let (r, w') := gj_axes i (c_str request) level w in
      (try_catch (omap (fun m => map (fun kv => (fst kv, order (snd kv))) (in_key_order m)) r), w')
  | None => (Ok (CError, None), w)
  end.

(* ---- Python ---- *)
Definition is_ascii (s : string) : bool := forallb (fun c => N_of_ascii c <? 128)%N (list_ascii_of_string s).
(* encode('ascii') and decode('ascii') *)
Definition py_ascii (s : string) : outcome string := if is_ascii s then Ok s else Throw EBadValue.
(* cffi: a Python integer given as int *)
Definition to_int (x : Z) : outcome Z :=
  if ((-2147483648 <=? x) && (x <? 2147483648))%Z then Ok x else Throw EOutOfRange.
(* dict() of pairs: a later pair replaces the value of an earlier one *)
Definition dict_of {V} (l : list (string * V)) : list (string * V) := fold_left (fun d kv => sset (fst kv) (snd kv) d) l [].
(* ffi.new('const char*[]', n) *)
Definition new_array (n : N) : list string := repeat ""%string (N.to_nat n).

(* lines 536-548 *)
Definition py_axis_values (m : axes_map) (key : string) : outcome (list string) :=
  let* n := checked (c_axes_values_size (Some m) (Some (c_str key))) in
  let* out := checked (c_axes_values (Some m) (Some (c_str key)) (Some (new_array n)) n) in
  mapM (fun v => py_ascii (c_str v)) out.
Definition py_read_axes (m : axes_map) : outcome named_values :=
  let* n := checked (c_axes_keys_size (Some m)) in
  let* keys := checked (let* (e, b) := c_axes_keys (Some m) (new_array n) n in Ok (e, Some b)) in
  let* values := mapM (py_axis_values m) keys in
  let* names := mapM (fun k => py_ascii (c_str k)) keys in
  Ok (dict_of (combine names values)).
(* lines 524-551 *)
Definition py_axes {F W} (order : list string -> list string) (i : impl F W) (d : list (string * string)) (level : Z) (w : W)
  : outcome named_values * W :=
  match (let* s := py_ascii (dic_to_request d) in let* l := to_int level in Ok (s, l)) with
  | Ok (s, l) =>
      let (r, w') := c_new_axes order (Some i) s l w in
      (let* m := checked r in py_read_axes m, w')
  | Throw e => (Throw e, w)
  | UB => (UB, w)
  end.

(* ---- Rust ---- *)
Section Rust.
(* rust::String throws for bytes that are not UTF-8 *)
Variable utf8 : string -> bool.
Definition rust_string (s : string) : outcome string := if utf8 s then Ok s else Throw EBadValue.
(* gribjump_bridge.cpp:243-261 *)
Definition bridge_axes (m : named_values) : outcome named_values :=
  mapM (fun kv => let* k := rust_string (fst kv) in
                  let* vs := mapM rust_string (snd kv) in
                  Ok (k, vs)) (in_key_order m).
(* handle.rs:173-178: the entries are collected into a HashMap *)
Definition rust_axes {F W} (i : impl F W) (request : string) (level : Z) (w : W) : outcome named_values * W :=
  let (r, w') := gj_axes i request level w in
  (let* m := r in omap dict_of (bridge_axes m), w').
End Rust.
