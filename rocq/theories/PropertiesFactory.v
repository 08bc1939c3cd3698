(* C114: what the factories give, from the start of a program to its exit. *)
From Coq Require Import Permutation.
From Verif Require Import Base ModelStrings ModelInfo ModelSimple ModelCcsds ModelJumper ModelForward ModelFactory SpecFactory ProofsFactory ProofsFactory2.
From Verif Require ModelBuild ModelConfig.
Local Open Scope nat_scope.

(* C114: static objects constructed in any order: if no factory meets a name twice and the static objects of clients use
   what was registered before them, the program starts and exits without an error, and every lookup - at the start, in
   main and at the exit - gives what the builder of that name makes *)
Theorem C114_life : forall l,
  unique_names (all_builders l) -> starts_served l -> exits_served l ->
  exists p log log', lives l p log log' /\
    start_told [] l log /\ exit_told [] l log' /\
    (forall f n m, lookup f n p = Ok m <-> gives (all_builders l) f n m) /\ (forall f n, lookup f n p <> UB).
Proof. exact life. Qed.
Print Assumptions C114_life.

(* C114: and no other program starts and exits without an error *)
Theorem C114_only : forall l p log log',
  lives l p log log' ->
  unique_names (all_builders l) /\ starts_served l /\ exits_served l /\ start_told [] l log /\ exit_told [] l log'.
Proof. exact lives_only. Qed.
Print Assumptions C114_only.

(* C114: in whatever order the seven builders of the library are constructed, it starts and exits, and its factories
   choose what the models of describing (C63), extracting (C01) and configuring (C80) choose *)
Theorem C114_library : forall l, Permutation library l -> exists p, lives (map ABuilder l) p [] [] /\
  (forall n, lookup Infos n p = omap info_made (ModelBuild.get_builder n)) /\
  (forall F (A : farith F) aec file off inf ranges,
     read_values A aec file off inf ranges =
     let* j := lookup Jumpers (i_packing inf) p in read_with A aec file off inf j ranges) /\
  (forall parse y,
     ModelConfig.build_implementation parse y =
     let* name := ModelConfig.get_string ModelConfig.ConfigType y in
     let* m := lookup Implementations name p in implementation_of parse y m).
Proof. exact library_life. Qed.
Print Assumptions C114_library.

(* C114: static objects constructed after the library may use it in their constructors and destructors, under any packing
   for a description and any registered name otherwise *)
Theorem C114_after : forall l, Permutation library l -> forall us,
  Forall (fun x => Forall known (fst x ++ snd x)) us ->
  exists p log log', lives (map ABuilder l ++ clients us) p log log' /\
    Forall2 (fun x m => gives l (fst x) (snd x) m) (flat_map fst us) log /\
    Forall2 (fun x m => gives l (fst x) (snd x) m) (flat_map snd (rev us)) log'.
Proof. exact after_library. Qed.
Print Assumptions C114_after.

(* C114: threads that look up and make in any interleaving, while more builders are loaded and none is unloaded, make what
   their lookup found *)
Theorem C114_threads : forall l es p ends log,
  start 0 l fresh_process [] = Ok (p, ends, log) ->
  NoDup (map fst (loads es)) -> Forall (fun e => length l <= fst e) (loads es) ->
  unique_names (all_builders l ++ map snd (loads es)) -> unloads_nothing es ->
  exists p' h xs, happens es p [] = Ok (p', h, xs) /\ told (all_builders l) (fun _ => None) es xs.
Proof. exact running. Qed.
Print Assumptions C114_threads.

(* C114: the first client meets "grid_ccsds" before its builder and is told it is unsupported; the others come after it *)
Example C114_some_order : exists p, lives some_order p [AnUnsupportedInfo; ACcsdsJumper; AnUnsupportedInfo] [ALocalGribJump; ACcsdsInfo].
Proof. eexists. eexists. eexists. split; vm_compute; reflexivity. Qed.

(* C114: a name registered twice ends the program as it starts *)
Example C114_twice : start 0 [ABuilder (mk_builder Infos "grid_simple" ASimpleInfo); ABuilder (mk_builder Jumpers "grid_simple" ASimpleJumper);
    ABuilder (mk_builder Infos "grid_simple" ACcsdsInfo)] fresh_process [] = Throw ESeriousBug.
Proof. vm_compute. reflexivity. Qed.

(* C114: a client constructed before the library, that uses it as the program exits, uses a factory that is gone *)
Example C114_too_early : exists p ends log,
  start 0 (AClient [] [(Jumpers, "grid_simple"%string)] :: map ABuilder library) fresh_process [] = Ok (p, ends, log) /\ finish ends p = UB.
Proof. do 3 eexists. split; vm_compute; reflexivity. Qed.
(* C114: of GribJumpFactory it meets an empty one, because that is never destroyed *)
Example C114_too_early_implementation : exists p ends log,
  start 0 (AClient [] [(Implementations, "local"%string)] :: map ABuilder library) fresh_process [] = Ok (p, ends, log) /\ finish ends p = Throw ESeriousBug.
Proof. do 3 eexists. split; vm_compute; reflexivity. Qed.

(* C114: a builder unloaded after a thread found it and before the thread uses it; without the unload the thread is served *)
Example C114_unloaded_in_use : exists p ends,
  start 0 (map ABuilder library) fresh_process [] = Ok (p, ends, []) /\
  happens [Get 1 Jumpers "grid_ccsds"; Unload 1; Make 1] p [] = UB /\
  (exists q h, happens [Get 1 Jumpers "grid_ccsds"; Get 2 Infos "grid_png"; Get 3 Jumpers "grid_png"; Load 7 (mk_builder Infos "grid_png" ASimpleInfo); Make 1; Make 2; Get 2 Infos "grid_png"; Make 2; Build "remote"] p []
     = Ok (q, h, [Throw ESeriousBug; Ok ACcsdsJumper; Ok AnUnsupportedInfo; Ok ASimpleInfo; Ok ARemoteGribJump])).
Proof. do 2 eexists. split; [vm_compute; reflexivity|]. split; [vm_compute; reflexivity|]. do 2 eexists. vm_compute. reflexivity. Qed.
