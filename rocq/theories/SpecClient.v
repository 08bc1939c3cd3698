(* What users of the Rust and C interfaces ask for and have to see. *)
From Coq Require Import QArith.
From Verif Require Import Base ModelStrings ModelInfo ModelSimple ModelJumper ModelEngine ModelApi ModelRust ModelPython ModelUser ModelClient
     SpecEngine SpecJumper SpecBuild SpecApi SpecPython SpecSystem ModelRemote ModelForward SpecRemote SpecForward SpecDeploy SpecPaths SpecUser.

(* a field by its keys, ranges of its points, the hash of its grid *)
Record wanted := mk_wanted { wt_field : list (string * string); wt_ranges : list (N * N); wt_hash : string }.
(* key=value,... with or without the verb *)
Definition spells (text : string) (d : list (string * string)) : Prop :=
  text = request_string d \/ text = ("retrieve," ++ request_string d)%string.
Definition request_for (q : wanted) (r : request) : Prop :=
  spells (r_string r) (wt_field q) /\ r_ranges r = wt_ranges q /\ r_hash r = wt_hash q.

Section View.
Context {F : Type}.
Variable A : farith F.
Variable m : grib F.
Variables S bytes : list N.
Variable off : Z.

(* value and presence of a point, and the value if it is present *)
Definition point_value (p : nat) : F := or_missing A (m_point m bytes off (code_value m A) S p).
Definition point_present (p : nat) : bool := is_some (m_point m bytes off (code_value m A) S p).
Definition present_value (p : nat) : list F := match m_point m bytes off (code_value m A) S p with Some v => [v] | None => [] end.
Definition point_count (l : list (N * N)) : nat := length (asked_points l).

Definition rust_shows (l : list (N * N)) (h : handle F) : Prop :=
  num_ranges h = lenN l /\ ModelRust.total_values h = N.of_nat (point_count l) /\
  map iter_with_validity (fst (rs_iter h)) = map (fun i => map (fun p => (point_value p, point_present p)) (points i)) l /\
  map valid_values (fst (rs_iter h)) = map (fun i => flat_map present_value (points i)) l.

(* the mask words of the ranges, one range after the other; each range begins with a new word *)
Definition word_count (l : list (N * N)) : nat := fold_right (fun i n => (length (points i) + 63) / 64 + n)%nat 0%nat l.
Definition c_shows (zero : F) (l : list (N * N)) (x : result F) : Prop :=
  exists masks, Forall2 (fun i w => is_mask (map point_present (points i)) w) l masks /\
    c_read zero x (point_count l) (word_count l) = Ok (map point_value (asked_points l), concat masks).
End View.

Section User.
Context {F : Type}.
Variable o : outside F.
Variable P : string -> Prop.
Variable cfg : ModelEngine.config.

(* what is seen of the field that [q] names *)
Definition of_its_field {X} (shows : grib F -> list N -> list N -> Z -> list (N * N) -> X -> Prop) (missing : X -> Prop)
    (listing : list listed) (q : wanted) (x : X) : Prop :=
  (forall e, In e listing -> names (wt_field q) (l_key e) ->
     forall m S bytes off, entry_message o P e m S bytes off ->
       (c_ignore_grid cfg = false -> wt_hash q = m_md5 m) /\
       (good_request (Z.to_N (m_points m)) (wt_ranges q) -> shows m S bytes off (wt_ranges q) x)) /\
  ((forall e, In e listing -> ~ names (wt_field q) (l_key e)) -> c_allow_missing cfg = true /\ missing x).

Definition rust_sees : list listed -> wanted -> handle F -> Prop :=
  of_its_field (rust_shows (o_arith o)) (fun h => num_ranges h = 0%N /\ fst (rs_iter h) = []).
Definition cpp_sees : list listed -> wanted -> result F -> Prop :=
  of_its_field (fun m S bytes off => stored_result m bytes off S (o_arith o)) (fun x => x = ([], [])).
(* of a field that is missing, no value can be read *)
Definition c_sees (zero : F) : list listed -> wanted -> result F -> Prop :=
  of_its_field (fun m S bytes off => c_shows (o_arith o) m S bytes off zero)
    (fun x => forall n words, (0 < N.of_nat n < two64)%N -> c_read zero x n words = Throw EGribJump).
Definition fine_wanted (q : wanted) : Prop := plain_field (c_ignore_ym cfg) (wt_field q).
End User.

(* requests by file and offset *)
Section Paths.
Context {F : Type}.
Variable n : node F.
Definition right_paths {W} (ignore_grid : bool) (i : impl F W) (w : W) (reqs : list path_request) : Prop :=
  forall res w', m_extract_paths i reqs w = (Ok res, w') -> Forall2 (path_result n ignore_grid) reqs res.
Definition rust_path_sees (ignore_grid : bool) (r : rs_path_request) (h : handle F) : Prop :=
  (q_offset r < two63)%N /\
  forall m S bytes, n_paths n (q_filename r) -> message_of n (q_filename r) (Z.of_N (q_offset r)) m S bytes ->
    (ignore_grid = false -> q_hash r = m_md5 m) /\
    (good_request (Z.to_N (m_points m)) (q_ranges r) ->
     rust_shows (o_arith (n_outside n)) m S bytes (Z.of_N (q_offset r)) (q_ranges r) h).
Definition right_direct {W} (i : impl F W) (w : W) : Prop :=
  forall path offs ranges res w', path <> ""%string -> offs <> [] -> length offs = length ranges ->
    m_extract_direct i path offs ranges w = (Ok res, w') -> Forall2 (offset_result n path) (combine offs ranges) res.
Definition rust_file_sees (path : string) (q : N * list interval) (h : handle F) : Prop :=
  forall m S bytes, message_of n path (Z.of_N (fst q)) m S bytes -> good_request (Z.to_N (m_points m)) (snd q) ->
    rust_shows (o_arith (n_outside n)) m S bytes (Z.of_N (fst q)) (snd q) h.
End Paths.

(* the texts a C client gives: with request parsing, what the text is taken for *)
Definition asks_c (parsing : bool) (parse : string -> outcome string) (q : wanted) (a : c_ask) : Prop :=
  let '(text, arr, hash) := a in
  (if parsing then exists t, parse text = Ok t /\ spells t (wt_field q) else spells text (wt_field q)) /\
  arr = laid_out (wt_ranges q) /\ (lenN arr < two64)%N /\ hash = wt_hash q.

(* for the examples *)
Definition two_requests : list request :=
  [ mk_request "retrieve,step=6,param=u" [(0, 2); (3, 4)]%N "g2"; mk_request "param=t,step=9" [(0, 1)]%N "g1";
    mk_request "step=0,param=t" [(1, 4)]%N "g1" ].
Definition two_asks : list c_ask :=
  [ ("retrieve,step=6,param=u", [0; 2; 3; 4]%N, "g2"); ("param=t,step=9", [0; 1]%N, "g1"); ("step=0,param=t", [1; 4]%N, "g1") ]%string.
Definition two_wanted : list wanted :=
  [ mk_wanted [("step", "6"); ("param", "u")]%string [(0, 2); (3, 4)]%N "g2"; mk_wanted [("param", "t"); ("step", "9")]%string [(0, 1)]%N "g1";
    mk_wanted [("step", "0"); ("param", "t")]%string [(1, 4)]%N "g1" ].
