(* What the Rust interface is expected to show: the parts of the result, and the kind of the exception. *)
From Verif Require Import Base ModelStrings ModelJumper ModelEngine ModelApi ModelRust SpecJumper.
Open Scope nat_scope.

(* the values whose point is present *)
Fixpoint present_values {F} (values : list F) (present : list bool) : list F :=
  match values, present with
  | v :: vs, p :: ps => if p then v :: present_values vs ps else present_values vs ps
  | _, _ => []
  end.

Definition sum_len {F} (l : list (list F)) : nat := fold_right (fun v n => length v + n) 0 l.
Definition count_values {F} (r : result F) : nat := sum_len (fst r).

(* an eckit exception of kind k: of that class, of the common base class, and of no other class in the list *)
Definition of_kind (is_a : kind -> bool) (k : kind) : Prop :=
  is_a KException = true /\ is_a k = true /\ forall k', is_a k' = true -> k' = k \/ k' = KException.

(* the instance test of an exception class that derives from k *)
Definition kind_eqb (a b : kind) : bool :=
  match a, b with
  | KSeriousBug, KSeriousBug | KUserError, KUserError | KBadParameter, KBadParameter
  | KNotImplemented, KNotImplemented | KOutOfRange, KOutOfRange | KFileError, KFileError
  | KAssertionFailed, KAssertionFailed | KException, KException => true
  | _, _ => false
  end.
Definition instance_of (k k' : kind) : bool := kind_eqb k k' || kind_eqb KException k'.

(* a text that begins with one of the prefixes *)
Definition looks_prefixed (s : string) : Prop :=
  exists p k rest, In (p, k) rs_prefixes /\ s = (p ++ rest)%string.

(* scanning what the request texts say *)
Definition scan_parsed {W} (parse : string -> outcome mars) (scan : list mars -> bool -> @action W N)
    (reqs : list string) (by_files : bool) : action N :=
  match mapM parse reqs with
  | Ok [] => throw EUser
  | Ok ms => scan ms by_files
  | Throw e => throw e
  | UB => fun w => (UB, w)
  end.
(* a scan that, like any listing, is determined by the keys of the requests *)
Definition by_keys {W} (scan : list mars -> bool -> @action W N) : Prop :=
  forall l l' b, map mr_keys l = map mr_keys l' -> forall w, scan l b w = scan l' b w.

(* two fields in the catalogue; a request lists those that have each of its values *)
Definition two_fields : list (list (string * string)) :=
  [[("class", "od"); ("step", "0")]; [("class", "rd"); ("step", "0")]]%string.
Definition matches_keys (keys : list (string * list string)) (field : list (string * string)) : bool :=
  forallb (fun kv => existsb (fun f => String.eqb (fst f) (fst kv) && existsb (String.eqb (snd f)) (snd kv)) field) keys.
Definition scan_two_fields (reqs : list mars) (by_files : bool) : @action unit N :=
  fun w => (Ok (fold_right N.add 0%N (map (fun r => lenN (filter (matches_keys (mr_keys r)) two_fields)) reqs)), w).
Definition parse_class (s : string) : outcome mars :=
  match strip_prefix "class=" s with
  | Some v => Ok (mk_mars "retrieve" [("class"%string, [v])])
  | None => Throw EUser
  end.
