(* Users of requests by file and offset in Python (pygribjump.py:224-259, 341-352, 448-452) and C (gribjump_c.cc:186-204,
   280-296), and of extract_single in Python (pygribjump.py:356-388, 454-471).

   Text passes from Python to C as bytes that end at the first NUL.  cffi refuses (OverflowError) an offset that is no
   size_t and a port that is no int. *)
From Verif Require Import Base ModelInfo ModelJumper ModelEngine ModelApi ModelPython ModelUser ModelClient.
Local Open Scope Z_scope.

Fixpoint c_text (s : string) : string :=
  match s with
  | EmptyString => EmptyString
  | String c r => if Ascii.eqb c "000"%char then EmptyString else String c (c_text r)
  end.
Definition to_int (x : Z) : outcome Z :=
  if (- 2 ^ 31 <=? x) && (x <? 2 ^ 31) then Ok x else Throw EOutOfRange.

(* ---- Python, by file and offset ---- *)
Record path_ask := mk_path_ask {
  f_path : string;
  f_scheme : string;
  f_offset : Z;
  f_host : string;
  f_port : Z;
  f_ranges : list (Z * Z);
  f_hash : option string
}.
Record py_path_request := mk_py_path_request { pp_shape : list Z; pp_ctype : path_request }.

(* lines 225-259 *)
Definition py_new_path_request (a : path_ask) : outcome py_path_request :=
  match f_ranges a with
  | [] => Throw EBadValue
  | ranges =>
      let* (arr, shape) := flatten_ranges ranges in
      let* offset := to_size_t (f_offset a) in
      let* port := to_int (f_port a) in
      let* r := checked (c_new_path_request true (Some (c_text (f_path a))) (Some (c_text (f_scheme a))) offset
                           (Some (c_text (f_host a))) port (Some arr) (lenN arr) (option_map c_text (f_hash a))) in
      Ok (mk_py_path_request shape r)
  end.

(* lines 448-452, 342-352 and the loop 300-309 over the iterator *)
Definition py_extract_paths {F W} (i : impl F W) (asks : list path_ask) (w : W) : outcome (list (result F * list Z)) * W :=
  match mapM py_new_path_request asks with
  | Ok rs =>
      let (r, w') := c_extract_paths (Some i) (map pp_ctype rs) (lenN rs) w in
      (let* src := checked r in py_iterate (S (length rs)) (map pp_shape rs) (Some src), w')
  | Throw e => (Throw e, w)
  | UB => (UB, w)
  end.

(* ---- Python, one request for many fields ---- *)
(* lines 366-371: the ranges are not checked *)
Fixpoint store_ranges (ranges : list (Z * Z)) : outcome (list N * list Z) :=
  match ranges with
  | [] => Ok ([], [])
  | (lo, hi) :: rest =>
      let* a := to_size_t lo in
      let* b := to_size_t hi in
      let* (arr, shape) := store_ranges rest in
      Ok (a :: b :: arr, hi - lo :: shape)
  end.
(* lines 379-387: every result with the one shape; the loop ends after at most one round per result *)
Fixpoint py_single_for {F} (fuel : nat) (shape : list Z) (it : option (source (result F))) : outcome (list (result F * list Z)) :=
  let* (st, r, it1) := c_next it in
  match st, r, fuel with
  | ItSuccess, Some x, S f => omap (cons (x, shape)) (py_single_for f shape it1)
  | ItSuccess, Some _, O => Throw ESeriousBug
  | ItError, _, _ => Throw EGribJump
  | _, _, _ => Ok []
  end.
(* lines 454-471, 357-377 and the loop *)
Definition py_extract_single {F W} (parse : string -> outcome string) (flatten : string -> list string) (i : impl F W)
    (d : list (string * dvalue)) (ranges : list (Z * Z)) (hash : option string) (w : W)
  : outcome (list (result F * list Z)) * W :=
  match store_ranges ranges with
  | Ok (arr, shape) =>
      let text := c_text ("retrieve," ++ multivalued_dic_to_request d) in
      let (r, w') := c_extract_single flatten parse (Some i) (Some text) (Some arr) (lenN arr) (option_map c_text hash) w in
      (let* s := checked r in py_single_for (length (s_data s)) shape (Some s), w')
  | Throw e => (Throw e, w)
  | UB => (UB, w)
  end.

(* ---- C, by file and offset ---- *)
(* file, scheme, offset, host, port, begin and end of every range, hash *)
Definition c_path_ask := (string * string * N * string * Z * list N * string)%type.
Definition c_fetch_paths {F W} (i : impl F W) (asks : list c_path_ask) : @action W (list (result F)) := fun w =>
  match mapM (fun a : c_path_ask => let '(file, scheme, off, host, port, arr, hash) := a in
                checked (c_new_path_request true (Some file) (Some scheme) off (Some host) port (Some arr) (lenN arr) (Some hash))) asks with
  | Ok rs =>
      let (r, w') := c_extract_paths (Some i) rs (lenN rs) w in
      (let* s := checked r in c_for (length (s_data s)) (Some s), w')
  | Throw e => (Throw e, w)
  | UB => (UB, w)
  end.
