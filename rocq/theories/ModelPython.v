(* Model of python/pygribjump/src/pygribjump/pygribjump.py: requests and results.

   Python integers are Z.  The exceptions: ValueError is EBadValue, OverflowError and IndexError
   are EOutOfRange, a failed assert is EAssert, GribJumpException is EGribJump.  numpy arrays
   are lists; index arithmetic of numpy (int64) does not overflow for arrays that fit in memory.
   A numpy array given as mask is taken after ravel() (line 178). *)
From Verif Require Import Base ModelInfo ModelJumper ModelEngine ModelApi.
Local Open Scope Z_scope.

(* ---- ExtractionRequest, lines 131-221 ---- *)

(* storing a Python integer in a size_t array: cffi raises OverflowError *)
Definition to_size_t (x : Z) : outcome N :=
  if (0 <=? x) && (x <? Z.of_N two64) then Ok (Z.to_N x) else Throw EOutOfRange.

(* lines 159-165, 244-249: the array and the shape *)
Fixpoint flatten_ranges (ranges : list (Z * Z)) : outcome (list N * list Z) :=
  match ranges with
  | [] => Ok ([], [])
  | (lo, hi) :: rest =>
      if negb (lo <? hi) then Throw EBadValue
      else
        let* a := to_size_t lo in
        let* b := to_size_t hi in
        let* (arr, shape) := flatten_ranges rest in
        Ok (a :: b :: arr, hi - lo :: shape)
  end.

(* lines 93-126: the wrapper around every C function *)
Definition checked {A} (x : outcome (c_error * option A)) : outcome A :=
  match x with
  | Ok (CSuccess, Some a) => Ok a
  | Ok (_, _) => Throw EGribJump
  | Throw e => Throw e
  | UB => UB
  end.

Record py_request := mk_py_request {
  py_shape : list Z;
  py_ranges : list (Z * Z);
  py_ctype : request
}.

(* lines 143-169; reqstr is "retrieve," + dic_to_request(req) *)
Definition py_new_request (request_parsing : bool) (parse : string -> outcome string)
    (reqstr : string) (ranges : list (Z * Z)) (hash : option string) : outcome py_request :=
  match ranges with
  | [] => Throw EBadValue
  | _ =>
      let* (arr, shape) := flatten_ranges ranges in
      let* r := checked (c_new_request request_parsing parse true (Some reqstr) (Some arr) (lenN arr) hash) in
      Ok (mk_py_request shape ranges r)
  end.

Definition b2z (b : bool) : Z := if b then 1 else 0.
(* np.diff *)
Fixpoint diff (l : list Z) : list Z :=
  match l with
  | a :: ((b :: _) as rest) => b - a :: diff rest
  | _ => []
  end.
(* np.where(d == x)[0] *)
Fixpoint where_eq (x : Z) (i : Z) (d : list Z) : list Z :=
  match d with
  | [] => []
  | y :: rest => if y =? x then i :: where_eq x (i + 1) rest else where_eq x (i + 1) rest
  end.
(* lines 178-187 *)
Definition mask_ranges (m : list bool) : outcome (list (Z * Z)) :=
  if negb (existsb (fun b => b) m) then Throw EBadValue
  else
    let padded := [false] ++ m ++ [false] in
    let d := diff (map b2z padded) in
    Ok (combine (where_eq 1 0 d) (where_eq (-1) 0 d)).
(* lines 171-189 *)
Definition py_from_mask (request_parsing : bool) (parse : string -> outcome string)
    (reqstr : string) (m : list bool) (hash : option string) : outcome py_request :=
  let* ranges := mask_ranges m in
  py_new_request request_parsing parse reqstr ranges hash.

(* lines 191-197 *)
Definition index_ranges (points : list Z) : list (Z * Z) := map (fun p => (p, p + 1)) points.
Definition py_from_indices (request_parsing : bool) (parse : string -> outcome string)
    (reqstr : string) (points : list Z) (hash : option string) : outcome py_request :=
  py_new_request request_parsing parse reqstr (index_ranges points) hash.

(* range(lo, hi) *)
Definition py_range (lo hi : Z) : list Z := map (fun k => lo + Z.of_nat k) (seq 0 (Z.to_nat (hi - lo))).
(* lines 214-221 *)
Definition py_indices (r : py_request) : list Z :=
  flat_map (fun x => py_range (fst x) (snd x)) (py_ranges r).

(* ---- ExtractionResult, lines 558-715 ---- *)
Section Result.
Context {F : Type}.
Variable zero : F.

Definition zsum (l : list Z) : Z := fold_left Z.add l 0.

(* itertools.accumulate *)
Fixpoint accumulate (t : Z) (l : list Z) : list Z :=
  match l with [] => [] | x :: r => (t + x) :: accumulate (t + x) r end.

(* a[st:end] of a list, with Python's treatment of negative and too large indices *)
Definition clip (n : nat) (i : Z) : nat :=
  if i <? 0 then Z.to_nat (Z.max 0 (i + Z.of_nat n)) else Nat.min (Z.to_nat i) n.
Definition py_slice {A} (l : list A) (st en : Z) : list A :=
  slice l (clip (length l) st) (clip (length l) en - clip (length l) st).

(* np.split(l, indices): division points 0, indices, length *)
Fixpoint split_from {A} (l : list A) (st : Z) (indices : list Z) : list (list A) :=
  match indices with
  | [] => [py_slice l st (Z.of_nat (length l))]
  | i :: r => py_slice l st i :: split_from l i r
  end.
Definition np_split {A} (l : list A) (indices : list Z) : list (list A) := split_from l 0 indices.

(* lines 576, 648-657, 682-691: a fresh zeroed buffer of the expected size, filled by the C function *)
Definition load {A} (z : A) (fill : option (list A) -> N -> outcome (c_error * option (list A)))
    (shape : list Z) : outcome (list A) :=
  let n := zsum shape in
  if n <? 0 then Throw EBadValue
  else checked (fill (Some (repeat z (Z.to_nat n))) (Z.to_N n)).

Definition mask_shape (shape : list Z) : list Z := map (fun s => (s + 63) / 64) shape.

(* lines 648-680 *)
Definition py_values_flat (res : result F) (shape : list Z) : outcome (list F) :=
  load zero (c_result_values (Some (fst res))) shape.
Definition py_values (res : result F) (shape : list Z) : outcome (list (list F)) :=
  let* view := py_values_flat res shape in
  Ok (np_split view (removelast (accumulate 0 shape))).

(* lines 682-715 *)
Definition py_masks_flat (res : result F) (shape : list Z) : outcome (list N) :=
  load 0%N (c_result_mask (Some (snd res))) (mask_shape shape).
Definition py_masks (res : result F) (shape : list Z) : outcome (list (list N)) :=
  let* view := py_masks_flat res shape in
  Ok (np_split view (removelast (accumulate 0 (mask_shape shape)))).

(* lines 629-635: the loop over k with its break *)
Fixpoint bit_loop (todo : nat) (w : N) (nvalues j k : nat) (bm : list bool) (count : nat)
  : outcome (list bool * nat) :=
  match todo with
  | O => Ok (bm, count)
  | S t =>
      let bp := (j * 64 + k)%nat in
      if (nvalues <=? bp)%nat then Ok (bm, count)
      else
        let* bm' := set_at bm (N.of_nat bp) (negb (N.land (N.shiftr w (N.of_nat k)) 1 =? 0)%N) in
        bit_loop t w nvalues j (S k) bm' (S count)
  end.
(* lines 628-635 *)
Fixpoint word_loop (ws : list N) (nvalues j : nat) (bm : list bool) (count : nat) : outcome (list bool * nat) :=
  match ws with
  | [] => Ok (bm, count)
  | w :: r => let* (bm', count') := bit_loop 64 w nvalues j 0 bm count in
              word_loop r nvalues (S j) bm' count'
  end.
(* lines 625-636; shape[i] *)
Fixpoint mask_loop (masks : list (list N)) (shape : list Z) (count : nat) : outcome (list (list bool) * nat) :=
  match masks with
  | [] => Ok ([], count)
  | ws :: r =>
      match shape with
      | [] => Throw EOutOfRange
      | s :: shape' =>
          if s <? 0 then Throw EBadValue
          else
            let* (bm, count1) := word_loop ws (Z.to_nat s) 0 (repeat false (Z.to_nat s)) count in
            let* (rest, count2) := mask_loop r shape' count1 in
            Ok (bm :: rest, count2)
      end
  end.
(* lines 619-640 *)
Definition py_bool_masks (res : result F) (shape : list Z) : outcome (list (list bool)) :=
  let* masks := py_masks res shape in
  let* (bms, count) := mask_loop masks shape 0 in
  let* _ := assert_ (Z.of_nat count =? zsum shape) in
  Ok bms.

(* lines 300-309: results paired with the shape of the request at the same position *)
Fixpoint py_iterate (fuel : nat) (shapes : list (list Z)) (it : option (source (result F)))
  : outcome (list (result F * list Z)) :=
  match fuel with
  | O => Ok []
  | S f =>
      let* (st, r, it') := c_next it in
      match st, r with
      | ItSuccess, Some x =>
          match shapes with
          | [] => Throw EOutOfRange
          | s :: shapes' => let* rest := py_iterate f shapes' it' in Ok ((x, s) :: rest)
          end
      | ItError, _ => Throw EGribJump
      | _, _ => Ok []
      end
  end.

(* lines 311-335, one result: (values, mask words) per range *)
Definition py_legacy (res : result F) (shape : list Z) : outcome (list (list F * list N)) :=
  let* vs := py_values res shape in
  let* ms := py_masks res shape in
  Ok (combine vs ms).
End Result.
