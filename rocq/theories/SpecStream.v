(* What it means for a reader to read exactly what a writer wrote. *)
From Verif Require Import Base ModelStream.

(* [f] reads the tokens [w] as the value [v]: whatever follows is left untouched, and if the
   stream ends (or is torn) inside [w] the read raises a stream exception *)
Definition exact {F A} (f : @reader F A) (w : list (tok F)) (v : A) : Prop :=
  (forall rest, f (w ++ rest) = Ok (v, rest)) /\
  (forall p q, w = p ++ q -> q <> [] -> f p = Throw EStream /\ f (p ++ [KTorn]) = Throw EStream).
