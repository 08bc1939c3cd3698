(* Vocabulary to state what the interface layers should do. *)
From Verif Require Import Base ModelSimple ModelCcsds ModelInfo ModelJumper ModelEngine ModelApi SpecJumper.

(* total number of elements *)
Definition total {A} (ls : list (list A)) : nat := length (concat ls).

(* ranges laid out one after another: begin, end, begin, end, ... *)
Definition laid_out (l : list (N * N)) : list N := flat_map (fun r => [fst r; snd r]) l.

(* exactly the first k results, in order, and then nothing, for k calls *)
Definition yields {R} (k : nat) (rs : list R) : list (option R) :=
  map Some (firstn k rs) ++ repeat None (k - length rs).
Definition c_yields {R} (k : nat) (rs : list R) : list (it_status * option R) :=
  map (fun r => (ItSuccess, Some r)) (firstn k rs) ++ repeat (ItComplete, None) (k - length rs).

(* an implementation whose calls would be noticed: each adds a line to a log *)
Definition noisy : impl Z (list string) :=
  mk_impl (fun _ w => (Ok 1%N, ("scan" :: w)%string)) (fun _ _ w => (Ok 1%N, ("scan" :: w)%string))
          (fun _ w => (Ok [], ("extract" :: w)%string)) (fun _ w => (Ok [], ("extract" :: w)%string))
          (fun _ _ _ w => (Ok [([[5]]%Z, [[1]]%N)], ("read" :: w)%string))
          (fun _ _ w => (Ok [], ("axes" :: w)%string)).

(* the entry points behind the local implementation of ModelEngine; it does not change a state *)
Definition pure {A W} (x : outcome A) : W -> outcome A * W := fun w => (x, w).

Section Direct.
Context {F : Type}.
Variable A : farith F.
Variable aec : aec_oracle.
Variable data : string -> Z -> outcome (info F).

(* the result r is the extraction of the message at one offset with one range list *)
Definition extraction_at (path : string) (bytes : list N) (q : Z * list (N * N)) (r : result F) : Prop :=
  exists inf, data path (fst q) = Ok inf /\ extract A aec bytes (fst q) inf (snd q) = Ok r.

(* the message at offset o of the file holds this field, with these points present *)
Definition stored (path : string) (bytes : list N) (o : Z) (field : list F) (present : list bool) : Prop :=
  exists inf, data path o = Ok inf /\ i_spherical inf = 0%Z /\
              field_of_message A aec bytes o inf field present.
End Direct.
