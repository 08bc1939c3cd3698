(* C115: loading the Python package. *)
From Verif Require Import Base ModelStrings ModelLoad SpecLoad ProofsLoad.
Local Open Scope string_scope.

(* C115: a program that imports the package or its modules, any number of times and in any order, catching what is raised,
   while the library comes and goes: each attempt does what the specification says, and what users find in the package is
   complete as soon as one attempt works, although two of its modules import each other *)
Theorem C115_importing : forall parse l, Forall (fun x => In (snd x) modules_of_package) l ->
  snd (imports parse l fresh_python) = snd (attempts parse l start_of_program) /\
  stands (fst (attempts parse l start_of_program)) (fst (imports parse l fresh_python)).
Proof. exact importing. Qed.
Print Assumptions C115_importing.

(* C115: the library is refused exactly if it is older than the oldest one allowed; the warning is given exactly if major,
   minor or patch differ *)
Theorem C115_checked : forall parse lib own min a b c,
  parse lib = Some a -> parse own = Some b -> parse min = Some c ->
  (snd (check_versions parse lib own min) = if ver_lt a c then Some LibraryTooOld else None) /\
  ((3 <= length (v_release a))%nat -> (3 <= length (v_release b))%nat ->
   (fst (check_versions parse lib own min) = false <->
    forall i, (i < 3)%nat -> number (v_release a) i = number (v_release b) i)).
Proof. exact checked. Qed.
Print Assumptions C115_checked.

(* C115: nothing is accepted with a version that cannot be read *)
Theorem C115_unreadable : forall parse lib own min, parse lib = None \/ parse own = None \/ parse min = None ->
  snd (check_versions parse lib own min) = Some InvalidVersion.
Proof. exact unreadable. Qed.
Print Assumptions C115_unreadable.

Theorem C115_older : forall a b, final a -> final b -> (ver_lt a b = true <-> older (v_release a) (v_release b)).
Proof. exact final_older. Qed.
Print Assumptions C115_older.

(* C115: epoch and release decide before any suffix *)
Theorem C115_release_decides : forall a b,
  (v_epoch a < v_epoch b)%N \/ v_epoch a = v_epoch b /\ older (v_release a) (v_release b) -> ver_lt a b = true.
Proof. exact release_decides. Qed.
Print Assumptions C115_release_decides.

(* C115: of one release, the development versions come first, then the pre-releases by letter and number, the release itself,
   and those after it *)
Theorem C115_suffixes : forall e r,
  let v := mk_ver e r in
  (forall a n d d', ver_lt (v None None (Some d)) (v (Some (a, n)) None d') = true) /\
  (forall a n p d, ver_lt (v (Some (a, n)) p d) (v None None None) = true) /\
  (forall a n a' n' p d p' d', (a < a' \/ a = a' /\ n < n')%N -> ver_lt (v (Some (a, n)) p d) (v (Some (a', n')) p' d') = true) /\
  (forall q n d d', ver_lt (v q None d') (v q (Some n) d) = true) /\
  (forall q n n' d d', (n < n')%N -> ver_lt (v q (Some n) d) (v q (Some n') d') = true) /\
  (forall q p d, ver_lt (v q p (Some d)) (v q p None) = true) /\
  (forall q p d d', (d < d')%N -> ver_lt (v q p (Some d)) (v q p (Some d')) = true).
Proof. exact suffixes. Qed.
Print Assumptions C115_suffixes.

(* C115: the number of gribjump_version_int orders versions whose minor and patch have at most two digits *)
Theorem C115_version_int : forall M m p M' m' p',
  (M < 400000)%N -> (M' < 400000)%N -> (m < 100)%N -> (p < 100)%N -> (m' < 100)%N -> (p' < 100)%N ->
  ((version_int M m p < version_int M' m' p')%N <-> before3 (M, m, p) (M', m', p')).
Proof. exact int_order. Qed.
Print Assumptions C115_version_int.

(* C115: once the package is loaded PatchedLib cannot be made again; pygribjump.py:756 has replaced the module it needs *)
Theorem C115_patched_once : forall parse l lib own w, Forall (fun x => In (snd x) modules_of_package) l ->
  h_phase (fst (attempts parse l start_of_program)) = Loaded lib own ->
  exists s' e, make_library parse w main_module (fst (imports parse l fresh_python)) = (s', inl e).
Proof. exact patched_once. Qed.
Print Assumptions C115_patched_once.

(* C115: no library; too old a library, which also differs in version; then the right one, which is not looked at again *)
Example C115_example :
  let none := mk_world false true "" "0.13.0.5" in
  let w v := mk_world true true v "0.13.0.5" in
  let l := [(none, version_module); (w "0.9.3", main_module); (mk_world true false "0.10.0rc1" "", package); (w "0.13.0", version_module); (none, package)] in
  let (s, es) := imports some_parse l fresh_python in
  es = [Some LibraryNotFound; Some LibraryTooOld; Some LibraryTooOld; None; None] /\ y_warnings s = 2%nat /\
  lookup package "GribJump" s = Some (Own main_module "GribJump") /\ lookup package "__version__" s = Some (Text "0.13.0.5") /\
  (* the version module, which survived the failures, is not a name of the package *)
  lookup package "_version" s = None /\ lookup package "_version" (fst (imports some_parse [(w "0.13.0", package)] fresh_python)) = Some (Sub version_module).
Proof. vm_compute. repeat split. Qed.

(* C115: suffixes; and releases of fewer than three numbers that are the same version but differ for the warning *)
Example C115_versions :
  let lt a b := match some_parse a, some_parse b with Some a, Some b => ver_lt a b | _, _ => false end in
  map (fun x => lt x "0.10.0") ["0.9.3"; "0.10.0"; "0.10.0rc1"; "0.10.0.dev3"; "0.10.0.post1"; "0.13"; "1!0.1"] = [true; false; true; true; false; false; false] /\
  lt "0.10.0.dev3" "0.10.0rc1" = true /\ lt "0.13" "0.13.0" = false /\ lt "0.13.0" "0.13" = false /\
  check_versions some_parse "0.13" "0.13.0" "0.10.0" = (true, None) /\ check_versions some_parse "0.13.0" "0.13.0.5" "0.10.0" = (false, None) /\
  (version_int 0 100 0 = version_int 1 0 0)%N.
Proof. vm_compute. repeat split. Qed.
