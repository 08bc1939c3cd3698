(* What loading the Python package should do (C115). *)
From Verif Require Import Base ModelStrings ModelLoad.
Local Open Scope string_scope.

(* ---- versions ---- *)
(* a version without a suffix *)
Definition final (v : ver) : Prop := v_epoch v = 0%N /\ v_pre v = None /\ v_post v = None /\ v_dev v = None.
(* missing numbers of a release are zero; the first number that differs decides *)
Definition number (l : list N) (i : nat) : N := nth i l 0%N.
Definition older (a b : list N) : Prop :=
  exists i, (number a i < number b i)%N /\ forall j, (j < i)%nat -> number a j = number b j.
(* major, minor, patch *)
Definition before3 (a b : N * N * N) : Prop :=
  let '(a1, a2, a3) := a in let '(b1, b2, b3) := b in
  (a1 < b1 \/ a1 = b1 /\ (a2 < b2 \/ a2 = b2 /\ a3 < b3))%N.

(* ---- a program that imports the package, any module of it, any number of times ---- *)
Inductive phase :=
  | NotLoaded                       (* never tried *)
  | Tried (own : string)            (* every attempt has failed; the package's version was found to be own *)
  | Loaded (lib own : string).
Record history := mk_history { h_phase : phase; h_initialised : bool; h_warnings : nat }.
Definition start_of_program : history := mk_history NotLoaded false 0.

(* an attempt works if the library is there, can be initialised, and is not too old; it warns if the versions differ *)
Definition attempt (parse : string -> option ver) (w : world) (h : history) : history * option error :=
  match h_phase h with
  | Loaded _ _ => (h, None)
  | p =>
      let own := match p with Tried o => o | _ => w_own w end in
      if negb (w_found w) then (mk_history (Tried own) (h_initialised h) (h_warnings h), Some LibraryNotFound)
      else if negb (h_initialised h || w_main w) then (mk_history (Tried own) (h_initialised h) (h_warnings h), Some LibraryFailed)
      else
        let (warned, r) := check_versions parse (w_lib w) own "0.10.0" in
        let n := if warned then S (h_warnings h) else h_warnings h in
        match r with
        | Some e => (mk_history (Tried own) true n, Some e)
        | None => (mk_history (Loaded (w_lib w) own) true n, None)
        end
  end.
Fixpoint attempts (parse : string -> option ver) (l : list (world * string)) (h : history) : history * list (option error) :=
  match l with
  | [] => (h, [])
  | (w, _) :: r => let (h, e) := attempt parse w h in let (h, es) := attempts parse r h in (h, e :: es)
  end.

(* what users find in the package *)
Definition interface : list string :=
  ["GribJumpException"; "ExtractionRequest"; "PathExtractionRequest"; "ExtractionIterator"; "ExtractionIteratorFromPath";
   "ExtractionSingleIterator"; "GribJump"; "ExtractionResult"; "rangestr_to_list"; "list_to_rangestr"; "dic_to_request";
   "multivalued_dic_to_request"; "version"; "library_version"; "default_context"; "merge_default_context"].
Definition offers (s : python) (m lib own : string) : Prop :=
  (forall x, In x interface -> lookup m x s = Some (Own main_module x)) /\
  lookup m "lib" s = Some (Library lib) /\ lookup m "__version__" s = Some (Text own).
Definition has_module (s : python) (m : string) : Prop := assoc m (y_modules s) <> None.

Definition stands (h : history) (s : python) : Prop :=
  y_initialised s = h_initialised h /\ y_warnings s = h_warnings h /\
  match h_phase h with
  | NotLoaded => y_modules s = []
  | Tried own => ~ has_module s package /\ ~ has_module s main_module
  | Loaded lib own => has_module s version_module /\ offers s package lib own /\ offers s main_module lib own
  end.
Definition modules_of_package : list string := [package; main_module; version_module].

(* ---- for the examples ---- *)
Definition plain_version (l : list N) : ver := mk_ver 0 l None None None.
Definition some_parse (s : string) : option ver :=
  assoc s [("0.9.3", plain_version [0; 9; 3]%N); ("0.10.0", plain_version [0; 10; 0]%N); ("0.13", plain_version [0; 13]%N);
           ("0.13.0", plain_version [0; 13; 0]%N); ("0.13.0.5", plain_version [0; 13; 0; 5]%N);
           ("0.10.0rc1", mk_ver 0 [0; 10; 0]%N (Some (2, 1)%N) None None); ("0.10.0.dev3", mk_ver 0 [0; 10; 0]%N None None (Some 3%N));
           ("0.10.0.post1", mk_ver 0 [0; 10; 0]%N None (Some 1%N) None); ("1!0.1", mk_ver 1 [0; 1]%N None None None)].
