(* What a least-recently-used cache should do, stated on the log of past calls (newest
   first) only. *)
From Verif Require Import Base ModelLRU.

Section Spec.
Context {K V : Type} (K_eq_dec : forall a b : K, {a = b} + {a <> b}).

(* the key an event uses: a put, or a get that returned a value *)
Definition used (e : @lru_event K V) : option K :=
  match e with EvPut k _ | EvGet k _ => Some k | _ => None end.

(* last value put for k since the last clear *)
Fixpoint last_put (log : list (@lru_event K V)) (k : K) : option V :=
  match log with
  | [] => None
  | EvClear :: _ => None
  | EvPut k' v :: r => if K_eq_dec k k' then Some v else last_put r k
  | _ :: r => last_put r k
  end.

(* the other keys used since k was last used (None: k was not used since the last clear) *)
Fixpoint used_since (log : list (@lru_event K V)) (k : K) : option (list K) :=
  match log with
  | [] => None
  | EvClear :: _ => None
  | e :: r => match used e with
              | Some k' => if K_eq_dec k k' then Some [] else option_map (cons k') (used_since r k)
              | None => used_since r k
              end
  end.

(* the value a cache of that capacity should hold for k *)
Definition lru_should (capacity : nat) (log : list lru_event) (k : K) : option V :=
  match used_since log k with
  | Some others => if Nat.ltb (length (nodup K_eq_dec others)) capacity then last_put log k else None
  | None => None
  end.

(* the call an event records *)
Definition call_of (e : @lru_event K V) : @lru_op K V :=
  match e with
  | EvPut k v => OpPut k v | EvGet k _ | EvGetFails k => OpGet k
  | EvExists k _ => OpExists k | EvClear => OpClear
  end.
End Spec.
