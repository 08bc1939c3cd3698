(* What users of path requests and of extract_single ask for and have to see. *)
From Coq Require Import QArith.
From Verif Require Import Base ModelStrings ModelInfo ModelSimple ModelJumper ModelEngine ModelApi ModelRust ModelPython ModelUser ModelClient ModelFetch
     SpecEngine SpecJumper SpecBuild SpecApi SpecPython SpecSystem ModelRemote ModelForward SpecRemote SpecForward SpecDeploy SpecPaths SpecUser SpecClient.

Definition in_n (l : list (Z * Z)) : list (N * N) := map (fun r => (Z.to_N (fst r), Z.to_N (snd r))) l.
Definition hash_text (h : option string) : string := match h with Some s => s | None => ""%string end.
(* no NUL within the text *)
Definition clean (s : string) : Prop := c_text s = s.
Definition clean_hash (h : option string) : Prop := clean (hash_text h).
Definition proper_range (r : Z * Z) : Prop := (0 <= fst r /\ fst r < snd r /\ snd r < Z.of_N two64)%Z.

Definition sizes (l : list (Z * Z)) : list Z := map (fun r => snd r - fst r)%Z l.

(* the request a user of Python writes down *)
Definition means (a : path_ask) : path_request :=
  mk_path_request (f_path a) (f_scheme a) (f_host a) (f_port a) (Z.to_N (f_offset a)) (in_n (f_ranges a)) (hash_text (f_hash a)).
Definition clean_ask (a : path_ask) : Prop := clean (f_path a) /\ clean (f_scheme a) /\ clean (f_host a) /\ clean_hash (f_hash a).
Definition fits_memory (l : list (Z * Z)) : Prop := (2 * lenN l < two64)%N.
Definition proper_ask (a : path_ask) : Prop :=
  f_ranges a <> [] /\ Forall proper_range (f_ranges a) /\ (0 <= f_offset a < Z.of_N two64)%Z /\ (- 2 ^ 31 <= f_port a < 2 ^ 31)%Z.
(* and in C *)
Definition c_means (a : c_path_ask) (l : list (N * N)) (r : path_request) : Prop :=
  let '(file, scheme, off, host, port, arr, hash) := a in
  arr = laid_out l /\ (lenN arr < two64)%N /\ r = mk_path_request file scheme host port off l hash.

Section View.
Context {F : Type}.
Variable zero : F.
Variable n : node F.

(* of the message at the offset: [shows] for its ranges, if the hash is that of its grid *)
Definition of_its_message {X} (shows : grib F -> list N -> list N -> Z -> list (N * N) -> X -> Prop) (ignore_grid : bool)
    (r : path_request) (x : X) : Prop :=
  (p_offset r < two63)%N /\
  forall m S bytes, n_paths n (p_path r) -> message_of n (p_path r) (Z.of_N (p_offset r)) m S bytes ->
    (ignore_grid = false -> p_hash r = m_md5 m) /\
    (good_request (Z.to_N (m_points m)) (p_ranges r) -> shows m S bytes (Z.of_N (p_offset r)) (p_ranges r) x).
Definition c_path_sees : bool -> path_request -> result F -> Prop :=
  of_its_message (fun m S bytes off => c_shows (o_arith (n_outside n)) m S bytes off zero).
Definition python_path_sees (ignore_grid : bool) (a : path_ask) (y : result F * list Z) : Prop :=
  of_its_message (fun m S bytes off l y => sees_values zero (o_arith (n_outside n)) m S bytes off l (fst y) (snd y)) ignore_grid (means a) y.
End View.

(* the text of a dict of extract_single, and what the library is asked for if that is taken for [s] *)
Definition single_text (d : list (string * dvalue)) : string := ("retrieve," ++ multivalued_dic_to_request d)%string.
Definition single_requests (flatten : string -> list string) (s : string) (ranges : list (Z * Z)) (hash : option string) : list request :=
  map (fun r => mk_request r (in_n ranges) (hash_text hash)) (flatten s).

Section Single.
Context {F : Type}.
Variable zero : F.
Variable o : outside F.
Variable P : string -> Prop.
Variable cfg : ModelEngine.config.
(* of the field with these keys; of a field that is missing the values cannot be read if any were asked for *)
Definition single_sees (ranges : list (Z * Z)) (hash : option string) (listing : list listed) (d : list (string * string)) (y : result F * list Z) : Prop :=
  of_its_field o P cfg (fun m S bytes off l y => sees_values zero (o_arith o) m S bytes off l (fst y) (snd y))
    (fun y => (0 < zsum (sizes ranges) < Z.of_N two64)%Z -> py_values zero (fst y) (snd y) = Throw EGribJump)
    listing (mk_wanted d (in_n ranges) (hash_text hash)) y.
End Single.

(* for the examples *)
Definition path_impl : impl Q unit :=
  mk_impl (fun _ => throw ELibrary) (fun _ _ => throw ELibrary) (fun _ => throw ELibrary)
    (fun reqs w => (extract_path_requests (node_world (node_at "/fdb/x.data")) one_cfg reqs, w))
    (fun _ _ _ => throw ELibrary) (fun _ _ => throw ELibrary).
Definition two_path_asks : list path_ask :=
  [ mk_path_ask "/fdb/x.data" "file" 12 "" 0 [(0, 2); (3, 4)]%Z (Some "g2"); mk_path_ask "/fdb/x.data" "file" 4 "" 0 [(1, 4)]%Z (Some "g1") ]%string.
Definition two_c_paths : list c_path_ask :=
  [ ("/fdb/x.data", "file", 12%N, "", 0%Z, [0; 2; 3; 4]%N, "g2"); ("/fdb/x.data", "file", 4%N, "", 0%Z, [1; 4]%N, "g1") ]%string.
(* a request for step 0 and 9 of t as the text library would take it apart *)
Definition two_steps : list (string * dvalue) := [("param", One "t"); ("step", Many ["0"; "9"])]%string.
Definition split_steps (s : string) : list string :=
  if String.eqb s "retrieve,param=t,step=0/9" then ["param=t,step=0"; "param=t,step=9"]%string else [s].
