(* What a user of the C or Python interface may expect of error texts. *)
From Verif Require Import Base ModelErrors.
Local Open Scope nat_scope.

(* thread t makes a call that fails *)
Definition may_fail (calls : nat -> nat -> option (string * call_end)) (t : nat) : Prop :=
  exists k name e, calls t k = Some (name, e) /\ e <> Success.

(* what the caller should be told: the exception's own text *)
Definition own_text (e : call_end) : string :=
  match e with
  | Success => ""
  | Exception what => what
  | Other => "Unknown exception"
  | NullIterator => "gribjump_extractioniterator_next: iterator is null"
  end.

(* the first [n] calls of a thread that makes them all *)
Fixpoint first_calls (calls : nat -> option (string * call_end)) (n : nat) : list (string * call_end) :=
  match n with
  | O => []
  | S n => (first_calls calls n ++ match calls n with Some c => [c] | None => [] end)%list
  end.
Definition failing (c : string * call_end) : bool := match snd c with Success => false | _ => true end.
Definition told (c : string * call_end) : call_end * string :=
  (snd c, "Error in function '" ++ fst c ++ "': " ++ own_text (snd c))%string.
(* the exceptions thread t has raised *)
Definition raised_by (t : nat) (s : errors) : list (call_end * string) :=
  map (fun r => (snd (fst r), snd r)) (filter (fun r => Nat.eqb (fst (fst r)) t) (er_raised s)).

(* two threads, each with one failing call *)
Definition two_failures (t k : nat) : option (string * call_end) :=
  match t, k with
  | 0, 0 => Some ("gribjump_extract", Exception "file is missing")%string
  | 1, 0 => Some ("gribjump_scan", Exception "no permission")%string
  | _, _ => None
  end.
