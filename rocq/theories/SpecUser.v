(* What a Python user asks for and what they have to see. *)
From Coq Require Import Permutation QArith.
From Verif Require Import Base ModelInfo ModelSimple ModelJumper ModelEngine ModelApi ModelPython ModelUser
     SpecEngine SpecJumper SpecBuild SpecPython SpecSystem.

Definition valued (p : string * string) : bool := negb (String.eqb (snd p) "").
(* the dict describes the field with these keys, whatever the order; keys without a value do not count *)
Definition names (d key : list (string * string)) : Prop := Permutation (filter valued d) (filter valued key).

(* keys and values as the MARS language writes them; with the ignore-year-month option, no year or month *)
Definition plain_field (ignore_ym : bool) (d : list (string * string)) : Prop :=
  wf_pairs d /\ (forall k v, In (k, v) d -> after_equals k = true) /\
  (ignore_ym = true -> has_key "year" d = false /\ has_key "month" d = false).
Definition plain_listing (ignore_ym : bool) (l : list listed) : Prop := Forall (fun e => plain_field ignore_ym (l_key e)) l.

Definition asked_ranges (a : pyask) : list (N * N) := map (fun r => (Z.to_N (fst r), Z.to_N (snd r))) (a_ranges a).
Definition asked_total (a : pyask) : Z := fold_right (fun r n => (snd r - fst r + n)%Z) 0%Z (a_ranges a).
(* an array of the values fits into memory *)
Definition asked_fits (a : pyask) : Prop := (2 * lenN (a_ranges a) < two64)%N /\ (asked_total a < Z.of_N two64)%Z.

(* [expand d]: the keys and values of the request the text of d is taken for; d itself without request parsing *)
Definition understood_as (parsing : bool) (parse : string -> outcome string) (expand : list (string * string) -> list (string * string))
    (d : list (string * string)) : Prop :=
  forall s, text_ok parsing parse ("retrieve," ++ dic_to_request d) s -> s = ("retrieve," ++ request_string (expand d))%string.

(* what the library is asked for *)
Definition asked_request (a : pyask) (text : string) : request :=
  mk_request text (asked_ranges a) match a_hash a with Some h => h | None => ""%string end.
(* the dict has a text that is accepted, and the ranges are proper *)
Definition accepted (parsing : bool) (parse : string -> outcome string) (a : pyask) (text : string) : Prop :=
  text_ok parsing parse ("retrieve," ++ dic_to_request (a_dict a)) text /\ a_ranges a <> [] /\ asked_fits a /\
  Forall (fun r => 0 <= fst r /\ fst r < snd r /\ snd r < Z.of_N two64)%Z (a_ranges a).

Section View.
Context {F : Type}.
Variable zero : F.
Variable A : farith F.

(* the values and the mask of every range, as lists of arrays *)
Definition sees_values (m : grib F) (S bytes : list N) (off : Z) (l : list (N * N)) (x : result F) (shape : list Z) : Prop :=
  py_values zero x shape = Ok (map (fun i => map (fun p => or_missing A (m_point m bytes off (code_value m A) S p)) (points i)) l) /\
  py_bool_masks x shape = Ok (map (fun i => map (fun p => is_some (m_point m bytes off (fun X => X) S p)) (points i)) l).
End View.

Section User.
Context {F : Type}.
Variable zero : F.
Variable o : outside F.
Variable P : string -> Prop.
Variable cfg : ModelEngine.config.
Variable expand : list (string * string) -> list (string * string).

(* what the user sees of the result at the position of [a]: of the field their dict names *)
Definition python_sees (listing : list listed) (a : pyask) (y : result F * list Z) : Prop :=
  (forall e, In e listing -> names (expand (a_dict a)) (l_key e) ->
     forall m S bytes off, entry_message o P e m S bytes off ->
       (c_ignore_grid cfg = false -> match a_hash a with Some h => h | None => ""%string end = m_md5 m) /\
       (good_request (Z.to_N (m_points m)) (asked_ranges a) ->
        sees_values zero (o_arith o) m S bytes off (asked_ranges a) (fst y) (snd y))) /\
  ((forall e, In e listing -> ~ names (expand (a_dict a)) (l_key e)) ->
     c_allow_missing cfg = true /\ py_values zero (fst y) (snd y) = Throw EGribJump).

(* the implementation answers a batch with what some listing of the catalogue names *)
Definition right_answers {W} (i : impl F W) (w : W) : Prop :=
  forall reqs res w', m_extract i reqs w = (Ok res, w') ->
    exists u listing, o_list o u = Ok listing /\ right_results o P cfg reqs listing res.
Definition plain_catalogue : Prop :=
  forall u l, o_list o u = Ok l -> plain_listing (c_ignore_ym cfg) l /\ duplicate_free (c_ignore_ym cfg) l.
Definition fine_dict (parsing : bool) (parse : string -> outcome string) (d : list (string * string)) : Prop :=
  understood_as parsing parse expand d /\ plain_field (c_ignore_ym cfg) (expand d).
Definition fine_ask (parsing : bool) (parse : string -> outcome string) (a : pyask) : Prop :=
  asked_fits a /\ fine_dict parsing parse (a_dict a).

(* of a field of which some points are asked for, the values and the presence of these points, one after the other *)
Definition region_sees (pts : list nat) (hash : option string) (listing : list listed) (d : list (string * string)) (y : result F * list Z) : Prop :=
  forall e, In e listing -> names (expand d) (l_key e) ->
    forall m S bytes off, entry_message o P e m S bytes off ->
      (c_ignore_grid cfg = false -> match hash with Some h => h | None => ""%string end = m_md5 m) /\
      (Forall (fun p => Z.of_nat p < m_points m)%Z pts ->
      exists vs bs, py_values zero (fst y) (snd y) = Ok vs /\
        concat vs = map (fun p => or_missing (o_arith o) (m_point m bytes off (code_value m (o_arith o)) S p)) pts /\
        py_bool_masks (fst y) (snd y) = Ok bs /\
        concat bs = map (fun p => is_some (m_point m bytes off (fun X => X) S p)) pts).
End User.

(* the text of a dict whose values are lists *)
Definition dvalue_text (v : dvalue) : string := match v with One s => s | Many l => String.concat "/" l end.

(* the implementation over the file with two messages, for the examples *)
Definition one_impl : impl Q unit :=
  mk_impl (fun _ => throw ELibrary) (fun _ _ => throw ELibrary)
    (fun reqs w => (extract_requests (world_of one_file one_cache one_path one_state) one_cfg reqs, w))
    (fun _ => throw ELibrary) (fun _ _ _ => throw ELibrary) (fun _ _ => throw ELibrary).
Definition one_asks : list pyask :=
  [ mk_pyask [("step", "6"); ("param", "u")]%string [(0, 2); (3, 4)]%Z (Some "g2"%string);
    mk_pyask [("param", "t"); ("step", "9")]%string [(0, 1)]%Z (Some "g1"%string);
    mk_pyask [("param", "t"); ("step", "0")]%string [(1, 4)]%Z (Some "g1"%string) ].
