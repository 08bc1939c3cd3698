(* What the files given to the tools mean, and what the tools should do with them. *)
From Verif Require Import Base ModelStrings ModelIndex ModelTools SpecEngine.

(* a decimal numeral: at least one digit, most significant first *)
Fixpoint numeral_value (s : string) : N :=
  match s with
  | EmptyString => 0
  | String a r => ((N_of_ascii a - 48) * 10 ^ N.of_nat (String.length r) + numeral_value r)%N
  end.
Fixpoint all_chars (f : ascii -> bool) (s : string) : bool :=
  match s with EmptyString => true | String a r => f a && all_chars f r end.
Definition is_digit (a : ascii) : bool := ((48 <=? N_of_ascii a) && (N_of_ascii a <=? 57))%N.
Definition numeral (s : string) (n : N) : Prop := s <> ""%string /\ all_chars is_digit s = true /\ numeral_value s = n.

(* blanks that may stand around a range: space, tab, carriage return *)
Definition is_blank (a : ascii) : bool := ((N_of_ascii a =? 32) || (N_of_ascii a =? 9) || (N_of_ascii a =? 13))%N.
Definition blank (s : string) : Prop := all_chars is_blank s = true.

(* the format documented in ToolUtils.cc:24-30: "10-20, 30-40" *)
Definition range_text (t : string) (r : N * N) : Prop :=
  exists sp a b sp', t = (sp ++ a ++ "-" ++ b ++ sp')%string /\ blank sp /\ blank sp' /\ numeral a (fst r) /\ numeral b (snd r).
Definition line_text (t : string) (l : list (N * N)) : Prop :=
  exists ts, t = String.concat "," ts /\ Forall2 range_text ts l.
(* the lines of a text, each ended by a newline; the last one may end with the text if it is not empty *)
Definition ended (ts : list string) : string := String.concat "" (map (fun t => t ++ String newline "")%string ts).
Definition lines_of (s : string) (ts : list string) : Prop :=
  Forall (fun t => has_char newline t = false) ts /\
  (s = ended ts \/ exists init t, ts = (init ++ [t])%list /\ t <> ""%string /\ s = (ended init ++ t)%string).
Definition file_text (s : string) (ls : list (list (N * N))) : Prop :=
  exists ts, lines_of s ts /\ Forall2 line_text ts ls.
Definition int_range (r : N * N) : Prop := (fst r <= int_max)%N /\ (snd r <= int_max)%N.

(* the number a text begins with, after white space and a plus sign *)
Definition leads (s : string) (n : N) : Prop :=
  exists sp plus d rest, s = (sp ++ plus ++ d ++ rest)%string /\ all_chars is_space sp = true /\
    (plus = "" \/ plus = "+")%string /\ numeral d n /\ starts_with_digit rest = false.
(* what is accepted as a range: two parts between dashes, each beginning with a number *)
Definition accepted_range (t : string) (r : N * N) : Prop :=
  exists x y, split "-" t = [x; y] /\ leads x (fst r) /\ leads y (snd r) /\ int_range r.
Definition accepted_file (s : string) (ls : list (list (N * N))) : Prop :=
  exists ts, lines_of s ts /\ Forall2 (fun t l => Forall2 accepted_range (split "," t) l) ts ls.

(* one line per request, or one line for all *)
Definition lines_fit {R} (requests : list R) (all ranges : list (list (N * N))) : Prop :=
  (exists r, all = [r] /\ requests <> [] /\ ranges = map (fun _ => r) requests) \/
  (length all = length requests /\ ranges = all).

(* the extraction answers one result per request, with one list of values per range *)
Definition answers {V} (poly : list (string * list (N * N))) (results : list (list (list V))) : Prop :=
  Forall2 (fun q v => length (snd q) = length v) poly results.

Definition same_points {V} (veq : V -> V -> bool) (a b : list (list V)) : Prop :=
  Forall2 (Forall2 (fun x y => veq x y = true)) a b.
(* v is the points b, ..., e-1 of data *)
Definition points {V} (veq : V -> V -> bool) (data : list V) (r : N * N) (v : list V) : Prop :=
  lenN v = (snd r - fst r)%N /\
  forall j x, nth_error v j = Some x -> exists y, nth_error data (N.to_nat (fst r) + j) = Some y /\ veq y x = true.
(* the values extracted for a request are those of the one field stored for it *)
Definition agrees {R V} (stored : R -> list (list V)) (veq : V -> V -> bool) (q : R * list (N * N)) (vals : list (list V)) : Prop :=
  exists data, stored (fst q) = [data] /\ Forall2 (points veq data) (snd q) vals.

(* where gribjump keeps the index file of a data file is a function of the configuration (ModelCache.cache_file_path) *)
Definition to_scan (exists_ : string -> bool) (skip : bool) (files : list string) : list string :=
  filter (fun f => negb (exists_ (f ++ file_ext)%string)) files ++
  (if skip then [] else filter (fun f => exists_ (f ++ file_ext)%string) files).

(* ---- examples ---- *)
Definition ex_ranges_text : string := ("10-20, 30-40" ++ String newline ("0-7" ++ String newline ""))%string.
Definition ex_flatten (r : nat) : list string :=
  if Nat.ltb r 9 then ["retrieve,param=p,step=0"%string] else ["retrieve,param=p,step=1"; "retrieve,param=p,step=2"]%string.
(* each range answered with the number of the result, from 10 *)
Fixpoint ex_extract_ (i : N) (l : list (string * list (N * N))) : list (list (list N)) :=
  match l with [] => [] | q :: r => map (fun _ => [i]) (snd q) :: ex_extract_ (i + 1)%N r end.
Definition ex_extract (l : list (string * list (N * N))) : outcome (list (list (list N))) := Ok (ex_extract_ 10%N l).
Definition ex_exists (f : string) : bool := existsb (String.eqb f) ["/d/a"; "/d/a.gribjump"; "/d/b"]%string.
