(* Model of the Python objects that keep a state between calls: ExtractionIterator with the generators made by its
   __iter__ (pygribjump.py lines 275-309, 354-387) and ExtractionResult with its buffers (lines 558-715).
   ModelPython.v has what one access, or one complete iteration, of a new object gives.

   The numpy arrays handed out are views of the object's buffer; the caller does not write into them. *)
From Verif Require Import Base ModelInfo ModelJumper ModelEngine ModelApi ModelPython.
Local Open Scope Z_scope.

Section Objects.
Context {F : Type}.
Variable zero : F.

(* ---- ExtractionIterator ---- *)

(* __iter__ is a generator function: each call (each for loop, each iter()) makes a generator with its own counter i.
   All share the C iterator. *)
Record py_iter := mk_py_iter {
  pi_shape : nat -> option (list Z);            (* self._shapes[i], or self.__shape; None raises IndexError *)
  pi_source : option (source (result F));       (* self._iterator *)
  pi_gens : list (option nat)                   (* i of each generator; None: it has finished *)
}.
(* lines 289-298 *)
Definition py_iter_new (shapes : list (list Z)) (s : source (result F)) : py_iter := mk_py_iter (nth_error shapes) (Some s) [].
(* lines 357-377 *)
Definition py_single_new (shape : list Z) (s : source (result F)) : py_iter := mk_py_iter (fun _ => Some shape) (Some s) [].

Inductive given := Yielded (r : result F) (shape : list Z) | Stopped | Raised (e : error).

Fixpoint set_gen (l : list (option nat)) (k : nat) (x : option nat) : list (option nat) :=
  match l, k with
  | [], _ => []
  | _ :: r, O => x :: r
  | y :: r, S j => y :: set_gen r j x
  end.

(* iter(it): lines 304-305 run at the first next *)
Definition gen_new (it : py_iter) : py_iter := mk_py_iter (pi_shape it) (pi_source it) (pi_gens it ++ [Some 0%nat]).

(* next of generator k: lines 306-309 (383-387); a generator that has returned or raised is finished *)
Definition gen_next (it : py_iter) (k : nat) : outcome (given * py_iter) :=
  match nth_error (pi_gens it) k with
  | None => Throw EOutOfRange                                   (* no such generator *)
  | Some None => Ok (Stopped, it)
  | Some (Some i) =>
      let* (st, r, src) := c_next (pi_source it) in
      let leave x g := Ok (x, mk_py_iter (pi_shape it) src (set_gen (pi_gens it) k g)) in
      match st, r with
      | ItSuccess, Some x =>
          match pi_shape it i with
          | Some s => leave (Yielded x s) (Some (S i))
          | None => leave (Raised EOutOfRange) None
          end
      | ItError, _ => leave (Raised EGribJump) None
      | _, _ => leave Stopped None
      end
  end.

(* a program using an iterator: it makes generators and advances them *)
Inductive use := Iter | Next (k : nat).
Fixpoint use_iter (it : py_iter) (l : list use) : outcome (list (nat * given) * py_iter) :=
  match l with
  | [] => Ok ([], it)
  | Iter :: r => use_iter (gen_new it) r
  | Next k :: r =>
      let* (x, it1) := gen_next it k in
      let* (xs, it2) := use_iter it1 r in
      Ok ((k, x) :: xs, it2)
  end.

(* ---- ExtractionResult ---- *)
Record py_result := mk_py_result {
  pr_result : result F;
  pr_shape : list Z;
  pr_values : option (list F);                  (* __values_cdata *)
  pr_masks : option (list N)                    (* __mask_cdata *)
}.
(* lines 571-591 *)
Definition py_result_new (r : result F) (shape : list Z) : py_result := mk_py_result r shape None None.

(* lines 648-657, 682-691: the attribute is set to a zeroed buffer before the C function is called, and stays set when
   that raises *)
Definition fill {A} (z : A) (c : option (list A) -> N -> outcome (c_error * option (list A))) (shape : list Z)
    (buf : option (list A)) : outcome unit * option (list A) :=
  match buf with
  | Some _ => (Ok tt, buf)
  | None =>
      let n := zsum shape in
      if n <? 0 then (Throw EBadValue, None)
      else
        let fresh := Some (repeat z (Z.to_nat n)) in
        match c fresh (Z.to_N n) with
        | Ok (CSuccess, b) => (Ok tt, b)
        | Ok (CError, b) => (Throw EGribJump, b)
        | Throw e => (Throw e, fresh)
        | UB => (UB, fresh)
        end
  end.
Definition load_values (o : py_result) : outcome unit * py_result :=
  let (x, b) := fill zero (c_result_values (Some (fst (pr_result o)))) (pr_shape o) (pr_values o) in
  (x, mk_py_result (pr_result o) (pr_shape o) b (pr_masks o)).
Definition load_masks (o : py_result) : outcome unit * py_result :=
  let (x, b) := fill 0%N (c_result_mask (Some (snd (pr_result o)))) (mask_shape (pr_shape o)) (pr_masks o) in
  (x, mk_py_result (pr_result o) (pr_shape o) (pr_values o) b).

(* lines 659-668, 693-703: the whole buffer; frombuffer of a missing one is not reached *)
Definition view {A} (x : outcome unit) (b : option (list A)) : outcome (list A) :=
  let* _ := x in match b with Some l => Ok l | None => UB end.

(* what a program can ask of a result object *)
Inductive access := Values | ValuesFlat | Masks | MasksFlat | BoolMasks.
Inductive seen :=
| SValues (l : list (list F)) | SValuesFlat (l : list F) | SMasks (l : list (list N)) | SMasksFlat (l : list N)
| SBools (l : list (list bool)).
(* lines 593-646; copy_values and copy_masks copy what values and masks give *)
Definition ask_result (o : py_result) (a : access) : outcome seen * py_result :=
  let shape := pr_shape o in
  let cuts {A} (s : list Z) (l : list A) := np_split l (removelast (accumulate 0 s)) in
  match a with
  | Values => let (x, o') := load_values o in (let* v := view x (pr_values o') in Ok (SValues (cuts shape v)), o')
  | ValuesFlat => let (x, o') := load_values o in (let* v := view x (pr_values o') in Ok (SValuesFlat v), o')
  | Masks => let (x, o') := load_masks o in (let* m := view x (pr_masks o') in Ok (SMasks (cuts (mask_shape shape) m)), o')
  | MasksFlat => let (x, o') := load_masks o in (let* m := view x (pr_masks o') in Ok (SMasksFlat m), o')
  | BoolMasks =>
      let (x, o') := load_masks o in
      (let* m := view x (pr_masks o') in
       let* (bms, count) := mask_loop (cuts (mask_shape shape) m) shape 0 in
       let* _ := assert_ (Z.of_nat count =? zsum shape) in
       Ok (SBools bms), o')
  end.
Fixpoint ask_all (o : py_result) (l : list access) : list (outcome seen) * py_result :=
  match l with
  | [] => ([], o)
  | a :: r => let (x, o1) := ask_result o a in let (xs, o2) := ask_all o1 r in (x :: xs, o2)
  end.

(* ---- dump_values (lines 337-338): a generator of its own; an exception ends it ---- *)
Fixpoint dump_from (fuel : nat) (it : py_iter) (k : nat) : outcome (outcome (list (list (list F))) * py_iter) :=
  match fuel with
  | O => Ok (Ok [], it)
  | S f =>
      let* (x, it1) := gen_next it k in
      match x with
      | Yielded r s =>
          match py_values zero r s with
          | Ok v => let* (rest, it2) := dump_from f it1 k in Ok (let* l := rest in Ok (v :: l), it2)
          | Throw e => Ok (Throw e, it1)
          | UB => UB
          end
      | Stopped => Ok (Ok [], it1)
      | Raised e => Ok (Throw e, it1)
      end
  end.
Definition dump_values (fuel : nat) (it : py_iter) : outcome (outcome (list (list (list F))) * py_iter) :=
  dump_from fuel (gen_new it) (length (pi_gens it)).
End Objects.
