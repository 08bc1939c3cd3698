(* What C92 and C93 say about log channels and progress messages. *)
From Verif Require Import Base ModelStrings ModelLog.

(* small letters for capital ones *)
Fixpoint position (a : Ascii.ascii) (s : string) : option nat :=
  match s with
  | EmptyString => None
  | String b r => if Ascii.eqb a b then Some O else option_map S (position a r)
  end.
Definition small (a : Ascii.ascii) : Ascii.ascii :=
  match position a "ABCDEFGHIJKLMNOPQRSTUVWXYZ" with
  | Some i => match get i "abcdefghijklmnopqrstuvwxyz" with Some b => b | None => a end
  | None => a
  end.
Fixpoint in_small (s : string) : string :=
  match s with EmptyString => EmptyString | String a r => String (small a) (in_small r) end.

(* the channel a text of the configuration stands for; None under Some: the default one *)
Definition meaning (v : string) : option (option channel) :=
  let v := in_small v in
  if String.eqb v "debug" then Some (Some Debug)
  else if String.eqb v "info" then Some (Some Info)
  else if String.eqb v "error" then Some (Some Error)
  else if String.eqb v "default" then Some None
  else None.
Definition default_channel (server : bool) : channel := if server then Info else Debug.
Fixpoint last_value (k : string) (l : list (string * string)) : option string :=
  match l with
  | [] => None
  | (k', v) :: r => match last_value k r with Some x => Some x | None => if String.eqb k k' then Some v else None end
  end.
Definition entries (logging : option (list (string * string))) : list (string * string) := match logging with Some l => l | None => [] end.
(* where the messages of a kind belong *)
Definition belongs (server : bool) (logging : option (list (string * string))) (kind : string) : channel :=
  match last_value kind (entries logging) with
  | Some v => match meaning v with Some (Some c) => c | _ => default_channel server end
  | None => default_channel server
  end.
Definition understood (logging : option (list (string * string))) : Prop :=
  forall k v, In (k, v) (entries logging) -> meaning v <> None.

(* tasks that have ended *)
Definition completions (l : list group_call) : N := lenN (filter (fun c => match c with Waits => false | _ => true end) l).
(* every tenth of n, at least every task *)
Definition tenth (n : N) : N := N.max 1 (n / 10).
Fixpoint upto (k : nat) : list N := match k with O => [] | S j => upto j ++ [N.of_nat k] end.
Definition milestones (n : nat) : list N := filter (fun k => ((k - 1) mod tenth (N.of_nat n) =? 0)%N) (upto n).
