(* What is said about ModelObjects (C108, C109). *)
From Verif Require Import Base ModelInfo ModelJumper ModelEngine ModelApi ModelPython ModelObjects SpecJumper.
Local Open Scope Z_scope.

Section Objects.
Context {F : Type}.
Variable zero : F.

(* the results given to the program, in order, with the generator that gave them and the shape they were given with *)
Definition yields (xs : list (nat * @given F)) : list (nat * (result F * list Z)) :=
  flat_map (fun x => match snd x with Yielded r s => [(fst x, (r, s))] | _ => [] end) xs.
Definition raised (xs : list (nat * @given F)) : Prop := exists k e, In (k, Raised e) xs.

(* how often generator k occurs *)
Fixpoint times (k : nat) (l : list nat) : nat :=
  match l with [] => O | j :: r => ((if Nat.eqb j k then 1 else 0) + times k r)%nat end.

(* every generator is made before it is advanced; n have been made *)
Fixpoint proper (n : nat) (l : list use) : Prop :=
  match l with
  | [] => True
  | Iter :: r => proper (S n) r
  | Next k :: r => (k < n)%nat /\ proper n r
  end.

(* the answer of a new result object *)
Definition first_answer (r : result F) (shape : list Z) (a : access) : outcome (@seen F) :=
  match a with
  | Values => omap SValues (py_values zero r shape)
  | ValuesFlat => omap SValuesFlat (py_values_flat zero r shape)
  | Masks => omap SMasks (py_masks r shape)
  | MasksFlat => omap SMasksFlat (py_masks_flat r shape)
  | BoolMasks => omap SBools (py_bool_masks r shape)
  end.

Definition of_values (a : access) : bool := match a with Values | ValuesFlat => true | _ => false end.

(* zeros in the given shape *)
Definition zeros {A} (z : A) (shape : list Z) : list (list A) := map (fun n => repeat z (Z.to_nat n)) shape.
Definition zero_answer (shape : list Z) (a : access) : @seen F :=
  match a with
  | Values => SValues (zeros zero shape)
  | ValuesFlat => SValuesFlat (concat (zeros zero shape))
  | Masks => SMasks (zeros 0%N (mask_shape shape))
  | MasksFlat => SMasksFlat (concat (zeros 0%N (mask_shape shape)))
  | BoolMasks => SBools (zeros false shape)
  end.

(* the answers for a missing field: an exception at the first access to the values and at the first to the masks, then
   zeros *)
Fixpoint missing_answers (shape : list Z) (v m : bool) (l : list access) : list (outcome (@seen F)) :=
  match l with
  | [] => []
  | a :: r =>
      (if (if of_values a then v else m) then Ok (zero_answer shape a) else Throw EGribJump)
        :: missing_answers shape (v || of_values a) (m || negb (of_values a)) r
  end.
End Objects.
