(* The string and map operations used by src/gribjump/Engine.cc and Lister.cc: eckit's
   StringTools::split, std::string::find, std::sort on strings, and std::map keyed by strings. *)
From Verif Require Import Base.

(* eckit::StringTools::split(c, s) (a Tokenizer that does not keep empty tokens) *)
Fixpoint split_ (c : ascii) (s cur : string) : list string :=
  match s with
  | EmptyString => if String.eqb cur "" then [] else [cur]
  | String a r =>
      if Ascii.eqb a c then (if String.eqb cur "" then split_ c r "" else cur :: split_ c r "")
      else split_ c r (cur ++ String a "")
  end.
Definition split (c : ascii) (s : string) : list string := split_ c s "".

(* s.find(sub) != npos *)
Fixpoint contains (sub s : string) : bool :=
  prefix sub s || match s with EmptyString => false | String _ r => contains sub r end.

(* std::sort with std::string's operator<, on the string part of the elements: insertion sort *)
Section Sort.
  Context {A : Type}.
  Variable key : A -> string.
  Fixpoint sinsert (x : A) (l : list A) : list A :=
    match l with
    | [] => [x]
    | y :: r => if String.leb (key x) (key y) then x :: l else y :: sinsert x r
    end.
  Definition ssort (l : list A) : list A := fold_right sinsert [] l.
End Sort.

(* std::map<std::string, V>: a list of pairs with distinct keys, kept in order of insertion;
   where the code iterates over a map it goes through [in_key_order] *)
Section SMap.
  Context {V : Type}.
  Notation smap := (list (string * V)).

  Fixpoint sfind (k : string) (m : smap) : option V :=
    match m with
    | [] => None
    | (k', v) :: r => if String.eqb k k' then Some v else sfind k r
    end.
  (* emplace: keeps an existing entry *)
  Definition semplace (k : string) (v : V) (m : smap) : smap :=
    match sfind k m with Some _ => m | None => m ++ [(k, v)] end.
  (* applies f to the value stored under k, if any *)
  Fixpoint supdate (k : string) (f : V -> V) (m : smap) : smap :=
    match m with
    | [] => []
    | (k', v) :: r => if String.eqb k k' then (k', f v) :: r else (k', v) :: supdate k f r
    end.
  (* m[k] = v *)
  Definition sset (k : string) (v : V) (m : smap) : smap :=
    match sfind k m with Some _ => supdate k (fun _ => v) m | None => m ++ [(k, v)] end.
  Definition in_key_order (m : smap) : smap := ssort fst m.
End SMap.

(* m[k].push_back(v) on a map of vectors *)
Definition spush {V} (k : string) (v : V) (m : list (string * list V)) : list (string * list V) :=
  match sfind k m with
  | Some _ => supdate k (fun l => l ++ [v]) m
  | None => m ++ [(k, [v])]
  end.

(* m[k].insert(v) on a map of sets *)
Definition sset_insert (k v : string) (m : list (string * list string)) : list (string * list string) :=
  match sfind k m with
  | Some vs => if existsb (String.eqb v) vs then m else supdate k (fun l => l ++ [v]) m
  | None => m ++ [(k, [v])]
  end.
