(* What the archive plugin should do. *)
From Verif Require Import Base ModelStrings ModelInfo ModelLRU ModelIndex ModelCache SpecIndex SpecCache SpecEngine ModelQueue ModelPlugin.
Local Open Scope nat_scope.

(* ---- selection ---- *)
Section Select.
Variable regex : string -> option (string -> bool).

(* a key satisfies a list of conditions *)
Definition satisfies (conditions key : list (string * string)) : Prop :=
  Forall (fun c => exists v f, sfind (fst c) key = Some v /\ regex (snd c) = Some f /\ f v = true) conditions.

(* "k1=p1,k2=p2,..." *)
Definition condition_text (c : string * string) : string := (fst c ++ "=" ++ snd c)%string.
Definition select_text (l : list (string * string)) : string := String.concat "," (map condition_text l).

(* names and patterns that can be written down, distinct names, valid patterns *)
Definition plain (s : string) : Prop := s <> ""%string /\ has_char "="%char s = false /\ has_char ","%char s = false.
Definition good_conditions (l : list (string * string)) : Prop :=
  NoDup (map fst l) /\ Forall (fun c => plain (fst c) /\ plain (snd c) /\ regex (snd c) <> None) l.
End Select.

Section Plugin.
Context {F : Type}.
Variable selected : list (string * string) -> outcome bool.
Variable build : list N -> outcome (info F).
Variable loc : nat -> nat -> outcome location.

(* what archiving a field should leave in the index: its description at its location *)
Definition to_index (e : event) : option (info F) :=
  match e with
  | Archive key bytes =>
      match selected key with
      | Ok true => if is_grib bytes then match build bytes with Ok inf => Some inf | _ => None end else None
      | _ => None
      end
  | Flush => None
  end.

(* all of them, with the number of the event *)
Fixpoint fields_from (n : nat) (l : list event) : list (nat * info F) :=
  match l with
  | [] => []
  | e :: r => match to_index e with Some inf => (n, inf) :: fields_from (S n) r | None => fields_from (S n) r end
  end.
Definition fields (l : list event) := fields_from 0 l.

(* the record of element e of FDB object i *)
Definition record_of (i : nat) (e : nat * info F) : list (string * Z * info F) :=
  match loc i (fst e) with Ok (p, Ok o) => [(p, o, snd e)] | _ => [] end.
Definition records (i : nat) (l : list (nat * info F)) : list (string * Z * info F) := flat_map (record_of i) l.

(* every future gives a location with a readable fragment *)
Definition all_located : Prop := forall i n, exists p o, loc i n = Ok (p, Ok o).

(* what the callback answers *)
Definition callback_outcome (e : event) : outcome unit :=
  match e with
  | Archive key bytes =>
      match selected key with
      | Ok true => if is_grib bytes then match build bytes with Ok _ => Ok tt | Throw err => Throw err | UB => UB end
                   else Ok tt
      | Ok false => Ok tt
      | Throw err => Throw err
      | UB => UB
      end
  | Flush => Ok tt
  end.

(* the records inserted in a trace of calls on the InfoCache, with the FDB object they are made for: those
   flushed to disk since and those not yet *)
Notation records_by := (list (nat * (string * Z * info F))).
Definition settle (x : records_by * records_by) (e : nat * @call F) : records_by * records_by :=
  match snd e with
  | CInsert p o inf => (fst x, snd x ++ [(fst e, (p, o, inf))])
  | CFlush _ => (fst x ++ snd x, [])
  | _ => x
  end.
Definition settled (tr : list (nat * @call F)) : records_by * records_by := fold_left settle tr ([], []).
Definition made_by {A} (i : nat) (l : list (nat * A)) : list A := map snd (filter (fun e => Nat.eqb i (fst e)) l).

(* FDB object i has gone through all its events *)
Definition finished (events : nat -> list event) (s : @sys F) (i : nat) : Prop :=
  length (d_log (y_fdbs s i)) = length (events i) /\ d_pc (y_fdbs s i) = UIdle.

(* steps of the two threads of FDB object i in a schedule *)
Definition steps_of (i : nat) (l : list action) : nat :=
  length (filter (fun a => match a with Caller j | Worker j => Nat.eqb i j | Fulfil _ _ => false end) l).
End Plugin.

(* ---- for the examples ---- *)
(* patterns without special characters match themselves; "[" does not compile *)
Definition demo_regex (p : string) : option (string -> bool) :=
  if String.eqb p "[" then None else Some (String.eqb p).
Definition demo_build (bytes : list N) : outcome (info Z) :=
  match bytes with
  | [_; _; _; _; n] => Ok (sample (Z.of_N n) 5 "m")
  | _ => Throw ELibrary
  end.
Definition grib (n : N) : list N := [71; 82; 73; 66; n]%N.
Definition demo_loc (i n : nat) : outcome location := Ok ("/a/x.data"%string, Ok (Z.of_nat (100 * i + n))).
Definition od := [("class", "od"); ("stream", "oper")]%string.
Definition rd := [("class", "rd"); ("stream", "oper")]%string.
Definition demo_events (i : nat) : list event :=
  match i with
  | 0 => [Archive od (grib 1); Archive rd (grib 2); Archive od [0; 0; 0; 0]%N; Archive od (grib 3); Flush]
  | 1 => [Archive od (grib 7); Flush; Archive od (grib 8)]
  | _ => []
  end.
Definition demo_select := matches demo_regex [("class", "od")]%string.
