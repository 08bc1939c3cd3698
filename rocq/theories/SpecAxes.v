(* Axes: what the catalogue has and what a user has to see. *)
From Coq Require Import Permutation.
From Verif Require Import Base ModelStrings ModelInfo ModelJumper ModelEngine ModelApi ModelPython ModelUser ModelRemote ModelAxes SpecRemote.

(* the same keys in the same order, and for every key the same values, each as often *)
Definition same_axes (a b : named_values) : Prop := Forall2 (fun x y => fst x = fst y /\ Permutation (snd x) (snd y)) a b.

(* a map of sets, of texts of a MARS request *)
Definition plain_text (s : string) : Prop := Forall (fun c => 0 < N_of_ascii c < 128)%N (list_ascii_of_string s).
Definition a_map_of_sets (m : named_values) : Prop := NoDup (map fst m) /\ Forall (fun kv => NoDup (snd kv)) m.
Definition fits_memory (m : named_values) : Prop := (lenN m < two64)%N /\ Forall (fun kv => lenN (snd kv) < two64)%N m.
Definition plain_axes (m : named_values) : Prop := Forall (fun kv => plain_text (fst kv) /\ Forall plain_text (snd kv)) m.
Definition good_axes (m : named_values) : Prop := a_map_of_sets m /\ fits_memory m /\ plain_axes m.

Definition an_order (order : list string -> list string) : Prop := forall l, Permutation l (order l).

(* what the catalogue answers to the text: of exactly one request *)
Definition catalogue_axes {R} (parse : string -> outcome (list R)) (fdb_axes : R -> Z -> outcome named_values)
    (text : string) (level : Z) : outcome named_values :=
  let* rs := parse text in
  match rs with [r] => fdb_axes r level | _ => Throw EAssert end.

(* a library on this machine, and one that asks a server *)
Definition local_library {F W R} (order : list string -> list string) (parse : string -> outcome (list R)) fdb_axes (i : impl F W) : Prop :=
  forall text level w, m_axes i text level w = (lister_axes order parse fdb_axes text level, w).
Definition library_of_server {F M W} (k : link F M) (e : @engine F M) (i : impl F W) : Prop :=
  forall text level w, m_axes i text level w = (omap fst (client_axes k (server k e) text level), w).
Definition serves_axes {F M R} (order : list string -> list string) (parse : string -> outcome (list R)) fdb_axes (e : @engine F M) : Prop :=
  forall text level, e_axes e text level = lister_axes order parse fdb_axes text level.

Definition proper_ask (d : list (string * string)) (level : Z) : Prop :=
  dic_to_request d <> ""%string /\ plain_text (dic_to_request d) /\ (-2147483648 <= level < 2147483648)%Z.

(* the user's mapping is the catalogue's axes, or there is the exception an error of the catalogue becomes *)
Definition sees_axes {W} (becomes : error -> error) (catalogue : outcome named_values) (w : W) (seen : outcome named_values * W) : Prop :=
  match catalogue with
  | Ok m => exists r, seen = (Ok r, w) /\ same_axes (in_key_order m) r
  | Throw e => seen = (Throw (becomes e), w)
  | UB => True
  end.

(* for the example *)
Definition axes_parse (s : string) : outcome (list string) :=
  if String.eqb s "class=od,levtype=sfc" then Ok [s] else if String.eqb s "class=od/class=rd" then Ok ["a"; "b"]%string else Throw ELibrary.
Definition axes_fdb (r : string) (level : Z) : outcome named_values :=
  Ok (("class", ["od"]) :: ("levelist", [""]) :: (if (level <? 3)%Z then [] else [("param", ["t"; "u"])]) ++ [("step", ["0"; "12"; "6"])])%string%list.
Definition axes_impl : impl N unit :=
  mk_impl (fun _ => throw ELibrary) (fun _ _ => throw ELibrary) (fun _ => throw ELibrary) (fun _ => throw ELibrary)
    (fun _ _ _ => throw ELibrary) (fun t l w => (lister_axes (@rev string) axes_parse axes_fdb t l, w)).
