(* Vocabulary to state what the one request sent to the catalogue has to ask for (C73). *)
From Verif Require Import Base ModelStrings ModelEngine.

(* a request in MARS syntax: verb,key=value/value/...,key=value,... *)
Definition read_request (text : string) : list (string * list string) :=
  map (fun kv => match split "="%char kv with [k; v] => (k, split "/"%char v) | _ => (kv, []) end)
      (tl (split ","%char text)).
Definition has_value (m : list (string * list string)) (k v : string) : Prop :=
  exists vs, In (k, vs) m /\ In v vs.

(* the request s mentions the value v for the key k; with drop, a year or a month does not count *)
Definition asks (drop : bool) (s k v : string) : Prop :=
  exists t vs, In t (split ","%char s) /\ split "="%char t = [k; vs] /\ In v (split "/"%char vs) /\
    ~ (drop = true /\ (k = "year"%string \/ k = "month"%string)).
(* the n-th request of a batch, or one before it, mentions year, month and date *)
Definition dropping (ignore_ym : bool) (reqs : list request) (n : nat) : bool :=
  ignore_ym && existsb (fun r => triggers (r_string r)) (firstn (S n) reqs).
