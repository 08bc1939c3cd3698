(* Clients of the Rust and C interfaces, as their examples are written: a loop over the results of a call
   (rust/crates/gribjump/examples/gribjump_extract.rs:57-75, iterator.rs:42-55; tests/test_c_api.cc:84-163),
   extract_mars (handle.rs:118-129, gribjump_bridge.cpp:198-206) and extract_from_file (handle.rs:140-146).
   The functions they call are in ModelApi.v and ModelRust.v.  A C client stops at the first error code. *)
From Verif Require Import Base ModelStrings ModelJumper ModelEngine ModelApi ModelRust ModelPython.

(* ---- Rust ---- *)
(* for r in it { r? }; the loop ends after at most one round per element *)
Fixpoint rust_for {R} (fuel : nat) (s : source R) : outcome (list R) :=
  let* (r, s1) := rust_next s in
  match r, fuel with
  | None, _ => Ok []
  | Some _, O => Throw ESeriousBug
  | Some x, S f => omap (cons x) (rust_for f s1)
  end.
Section Rust.
Context {F W : Type}.
(* result.rs: from_handle *)
Definition rs_fetch (call : @action W (source (result F))) : @action W (list (handle F)) := fun w =>
  let (r, w') := call w in
  (let* s := r in omap (map handle_new) (rust_for (length (s_data s)) s), w').
(* MarsRequest::parse(text).  The text of the parsed request stands for it *)
Definition rs_extract_mars (parse : string -> outcome string) (flatten : string -> list string) (i : impl F W)
    (text : string) (ranges : list interval) (hash : string) : @action W (source (result F)) := fun w =>
  match parse text with
  | Ok s => gj_extract_mars flatten i s ranges hash w
  | Throw e => (Throw e, w)
  | UB => (UB, w)
  end.
Definition rs_extract_from_file (i : impl F W) (path : string) (messages : list (N * list interval)) : @action W (source (result F)) :=
  bridge_extract_from_file i (to_cxx path messages).
End Rust.

(* ---- C ---- *)
(* while ((status = gribjump_extractioniterator_next(it, &result)) == SUCCESS) *)
Fixpoint c_for {R} (fuel : nat) (it : option (source R)) : outcome (list R) :=
  let* (st, r, it1) := c_next it in
  match st, r, fuel with
  | ItComplete, _, _ => Ok []
  | ItSuccess, Some x, S f => omap (cons x) (c_for f it1)
  | ItSuccess, Some _, O => Throw ESeriousBug
  | _, _, _ => Throw EGribJump
  end.
(* gribjump_extraction_result_values and _mask into arrays of these lengths *)
Definition c_read {F} (zero : F) (x : result F) (n words : nat) : outcome (list F * list N) :=
  let* vs := checked (c_result_values (Some (fst x)) (Some (repeat zero n)) (N.of_nat n)) in
  let* ms := checked (c_result_mask (Some (snd x)) (Some (repeat 0%N words)) (N.of_nat words)) in
  Ok (vs, ms).
(* a request: its text, begin and end of every range, the hash *)
Definition c_ask := (string * list N * string)%type.
Definition c_fetch {F W} (parsing : bool) (parse : string -> outcome string) (i : impl F W) (asks : list c_ask) : @action W (list (result F)) := fun w =>
  match mapM (fun a : c_ask => let '(text, arr, hash) := a in
                checked (c_new_request parsing parse true (Some text) (Some arr) (lenN arr) (Some hash))) asks with
  | Ok rs =>
      let (r, w') := c_extract (Some i) rs (lenN rs) w in
      (let* s := checked r in c_for (length (s_data s)) (Some s), w')
  | Throw e => (Throw e, w)
  | UB => (UB, w)
  end.
