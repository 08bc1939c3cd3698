(* Vocabulary to state what the Python layer should do. *)
From Verif Require Import Base ModelInfo ModelJumper ModelEngine ModelApi ModelPython.

(* the grid points asked for by a list of half-open ranges, in order *)
Definition asked_points (l : list (N * N)) : list nat :=
  flat_map (fun i => seq (N.to_nat (fst i)) (N.to_nat (snd i) - N.to_nat (fst i))) l.

(* the positions at which a mask is true, in increasing order *)
Definition true_points (m : list bool) : list nat :=
  filter (fun p => nth p m false) (seq 0 (length m)).

(* the text of the request is accepted, becoming s' if the library parses it *)
Definition text_ok (parsing : bool) (parse : string -> outcome string) (s s' : string) : Prop :=
  (if parsing then parse s else Ok s) = Ok s'.

(* sizes of ranges *)
Definition shape_of (l : list (N * N)) : list Z := map (fun i => (Z.of_N (snd i) - Z.of_N (fst i))%Z) l.
Definition size_of (i : N * N) : nat := N.to_nat (snd i) - N.to_nat (fst i).
