(* C108, C109: Python programs that use an iterator or a result object more than once. *)
From Verif Require Import Base BaseLemmas ModelInfo ModelJumper ModelEngine ModelApi ModelPython ModelObjects SpecApi SpecJumper SpecPython SpecObjects
  ProofsObjects.
Local Open Scope nat_scope.

(* C108.  Whatever loops a program makes over one iterator, in whatever order it advances them: no exception, and the
   results come once each, in the order of the requests.  The shape each comes with is the one at the number of results
   its own loop has had before. *)
Theorem C108_any_use_partial :
  forall (F : Type) (rs : list (result F)), (lenN rs < two64)%N ->
  forall (shapes : list (list Z)) (l : list use), length shapes = length rs -> proper 0 l ->
    exists xs it, use_iter (py_iter_new shapes (source_new (map Some rs))) l = Ok (xs, it) /\ ~ raised xs /\
      map (fun y => fst (snd y)) (yields xs) = firstn (length (yields xs)) rs /\
      forall m k r s, nth_error (yields xs) m = Some (k, (r, s)) ->
        nth_error shapes (times k (firstn m (map fst (yields xs)))) = Some s.
Proof. exact @any_use. Qed.
Print Assumptions C108_any_use_partial.

(* so a program whose results all come from one loop gets each result with the shape of its own request *)
Theorem C108_one_loop :
  forall (F : Type) (rs : list (result F)), (lenN rs < two64)%N ->
  forall (shapes : list (list Z)) (l : list use) (k : nat) xs it, length shapes = length rs -> proper 0 l ->
    use_iter (py_iter_new shapes (source_new (map Some rs))) l = Ok (xs, it) ->
    (forall y, In y (yields xs) -> fst y = k) ->
    map snd (yields xs) = firstn (length (yields xs)) (combine rs shapes).
Proof. exact @one_generator. Qed.
Print Assumptions C108_one_loop.

Theorem C108_whole_loop :
  forall (F : Type) (rs : list (result F)), (lenN rs < two64)%N ->
  forall (shapes : list (list Z)) (n : nat), length shapes = length rs ->
    exists xs it, use_iter (py_iter_new shapes (source_new (map Some rs))) (Iter :: repeat (Next 0) n) = Ok (xs, it) /\
      map snd (yields xs) = firstn n (combine rs shapes).
Proof. exact @whole_loop. Qed.
Print Assumptions C108_whole_loop.

(* the iterator of extract_single, whose results all have one shape, can be used in any way *)
Theorem C108_single :
  forall (F : Type) (rs : list (result F)), (lenN rs < two64)%N ->
  forall (shape : list Z) (l : list use), proper 0 l ->
    exists xs it, use_iter (py_single_new shape (source_new (map Some rs))) l = Ok (xs, it) /\ ~ raised xs /\
      map (fun y => fst (snd y)) (yields xs) = firstn (length (yields xs)) rs /\
      forall y, In y (yields xs) -> snd (snd y) = shape.
Proof. exact @single_use. Qed.
Print Assumptions C108_single.

(* dump_values of an iterator nothing has been taken from *)
Theorem C108_dump_values :
  forall (F : Type) (zero : F) (rs : list (result F)), (lenN rs < two64)%N ->
  forall (shapes : list (list Z)) (vss : list (list (list F))) it, length shapes = length rs ->
    Forall2 (fun rs v => py_values zero (fst rs) (snd rs) = Ok v) (combine rs shapes) vss ->
    pi_shape it = nth_error shapes -> pi_source it = Some (source_new (map Some rs)) ->
    exists it', dump_values zero (S (length rs)) it = Ok (Ok vss, it').
Proof. exact @dump_all. Qed.
Print Assumptions C108_dump_values.

(* The claim is false for a second loop over an iterator the first has not exhausted: whatever the requests and results,
   the second result comes with the shape of the first request. *)
Theorem C108_refuted :
  forall (F : Type) (rs : list (result F)), (lenN rs < two64)%N ->
  forall r1 r2 more s1 s2 others, rs = r1 :: r2 :: more ->
    exists it, use_iter (py_iter_new (s1 :: s2 :: others) (source_new (map Some rs))) [Iter; Next 0; Iter; Next 1] =
      Ok ([(0, Yielded r1 s1); (1, Yielded r2 s1)], it).
Proof. exact @second_loop. Qed.
Print Assumptions C108_refuted.

(* and for a loop after dump_values has raised at a result that does not fit, as that of a missing field *)
Theorem C108_after_dump_refuted :
  forall (F : Type) (zero : F) (rs : list (result F)), (lenN rs < two64)%N ->
  forall (shapes : list (list Z)) (vss : list (list (list F))) r s e r2 s0, length shapes = length rs ->
    Forall2 (fun rs v => py_values zero (fst rs) (snd rs) = Ok v) (firstn (length vss) (combine rs shapes)) vss ->
    nth_error (combine rs shapes) (length vss) = Some (r, s) -> py_values zero r s = Throw e ->
    nth_error rs (S (length vss)) = Some r2 -> nth_error shapes 0 = Some s0 ->
    exists it xs it', dump_values zero (S (length rs)) (py_iter_new shapes (source_new (map Some rs))) = Ok (Throw e, it) /\
      use_iter it [Iter; Next (length (pi_gens it))] = Ok (xs, it') /\ map snd (yields xs) = [(r2, s0)].
Proof. exact @after_dump. Qed.
Print Assumptions C108_after_dump_refuted.

(* Three requests: [0,2) [5,6); [0,1) [5,7); [0,65).  Leaving the first loop after one result and starting another gives
   the second result cut in the wrong places, and the third, read with the shape of the second, raises when its values
   are asked for; in a third loop it would have been read with the shape of the first. *)
Example C108_example :
  let r1 := ([[1; 2]; [3]], [[3]; [1]])%Z in
  let r2 := ([[10]; [20; 30]], [[1]; [3]])%Z in
  let r3 := ([repeat 7 65], [[18446744073709551615; 1]])%Z in
  let ns (r : list (list Z) * list (list Z)) : result Z := (fst r, map (map Z.to_N) (snd r)) in
  let it := py_iter_new [[2; 1]; [1; 2]; [65]]%Z (source_new (map Some [ns r1; ns r2; ns r3])) in
  (exists it', use_iter it [Iter; Next 0; Next 0; Next 0; Next 0] =
     Ok ([(0, Yielded (ns r1) [2; 1]%Z); (0, Yielded (ns r2) [1; 2]%Z); (0, Yielded (ns r3) [65]%Z); (0, Stopped)], it')) /\
  (exists it', use_iter it [Iter; Next 0; Iter; Next 1; Next 1; Next 1] =
     Ok ([(0, Yielded (ns r1) [2; 1]%Z); (1, Yielded (ns r2) [2; 1]%Z); (1, Yielded (ns r3) [1; 2]%Z); (1, Stopped)], it')) /\
  py_values 0%Z (ns r2) [1; 2]%Z = Ok [[10]; [20; 30]]%Z /\ py_values 0%Z (ns r2) [2; 1]%Z = Ok [[10; 20]; [30]]%Z /\
  py_values 0%Z (ns r3) [1; 2]%Z = Throw EGribJump /\
  (* a shape with fewer mask words than the result has: gribjump_result_mask writes past the buffer *)
  py_masks (ns r3) [1]%Z = UB.
Proof. vm_compute. repeat split; eexists; reflexivity. Qed.

(* C109.  The first access to a result object gives what ModelPython says *)
Theorem C109_first_access :
  forall (F : Type) (zero : F) (res : result F) (shape : list Z) (a : access),
    fst (ask_result zero (py_result_new res shape) a) = first_answer zero res shape a.
Proof. exact @first_access. Qed.
Print Assumptions C109_first_access.

(* and, when the buffers can be filled (or not even made, for a total below zero), so does every later one, in every order
   and however often *)
Theorem C109_repeatable_partial :
  forall (F : Type) (zero : F) (res : result F) (shape : list Z),
    (exists v, py_values_flat zero res shape = Ok v) \/ (zsum shape < 0)%Z ->
    (exists m, py_masks_flat res shape = Ok m) \/ (zsum (mask_shape shape) < 0)%Z ->
    forall l, fst (ask_all zero (py_result_new res shape) l) = map (first_answer zero res shape) l.
Proof. exact @repeatable. Qed.
Print Assumptions C109_repeatable_partial.

(* The claim is false when they cannot: for the empty result of a missing field, whatever was asked for, the first access
   to the values raises and every later one gives zeros; likewise the masks. *)
Theorem C109_refuted :
  forall (F : Type) (zero : F) (shape : list Z), shape <> [] -> Forall (fun n => (0 < n)%Z) shape -> (zsum shape < Z.of_N two64)%Z ->
  forall l, fst (ask_all zero (py_result_new ([], []) shape) l) = missing_answers zero shape false false l.
Proof. exact @missing_object_answers. Qed.
Print Assumptions C109_refuted.

(* the values of any result with another number of values *)
Theorem C109_other_shape_refuted :
  forall (F : Type) (zero : F) (res : result F) (shape : list Z), shape <> [] -> Forall (fun n => (0 <= n)%Z) shape ->
    (zsum shape < Z.of_N two64)%Z -> (N.of_nat (total (fst res)) < two64)%N -> Z.of_nat (total (fst res)) <> zsum shape ->
  forall a b, of_values a = true -> of_values b = true ->
    fst (ask_all zero (py_result_new res shape) [a; b]) = [Throw EGribJump; Ok (zero_answer zero shape b)].
Proof. exact @other_shape. Qed.
Print Assumptions C109_other_shape_refuted.

Example C109_example :
  let good : result Z := ([[1; 2]; [3]]%Z, [[3]; [1]]%N) in
  fst (ask_all 0%Z (py_result_new good [2; 1]%Z) [Values; BoolMasks; ValuesFlat; Values; MasksFlat]) =
    [Ok (SValues [[1; 2]; [3]]%Z); Ok (SBools [[true; true]; [true]]); Ok (SValuesFlat [1; 2; 3]%Z); Ok (SValues [[1; 2]; [3]]%Z);
     Ok (SMasksFlat [3; 1]%N)] /\
  (* a missing field *)
  fst (ask_all 0%Z (py_result_new ([], []) [2; 1]%Z) [Values; BoolMasks; ValuesFlat; Values; BoolMasks]) =
    [Throw EGribJump; Throw EGribJump; Ok (SValuesFlat [0; 0; 0]%Z); Ok (SValues [[0; 0]; [0]]%Z); Ok (SBools [[false; false]; [false]])].
Proof. vm_compute. repeat split. Qed.
