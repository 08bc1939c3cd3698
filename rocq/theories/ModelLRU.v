(* Model of src/gribjump/info/LRUCache.h:28-63.
   std::list<K> is a list with its front first; std::unordered_map is an association list with
   at most one pair per key (its iteration order is not used). *)
From Verif Require Import Base.

Section LRU.
Context {K V : Type} (K_eq_dec : forall a b : K, {a = b} + {a <> b}).

Fixpoint afind (k : K) (m : list (K * V)) : option V :=
  match m with
  | [] => None
  | (k', v) :: r => if K_eq_dec k k' then Some v else afind k r
  end.

(* map_.erase(k) *)
Definition aerase (k : K) (m : list (K * V)) : list (K * V) :=
  filter (fun p => if K_eq_dec k (fst p) then false else true) m.

(* map_[k] = v *)
Definition aset (k : K) (v : V) (m : list (K * V)) : list (K * V) := (k, v) :: aerase k m.

Record lru := mk_lru { l_capacity : nat; l_list : list K; l_map : list (K * V) }.

Definition lru_new (capacity : nat) : lru := mk_lru capacity [] [].   (* line 32 *)

(* lines 34-49; list_.back() and pop_back() on an empty list are undefined *)
Definition lru_put (c : lru) (k : K) (v : V) : outcome lru :=
  let* (l, m) :=
    match afind k (l_map c) with
    | None =>
        if Nat.eqb (length (l_list c)) (l_capacity c) then
          match rev (l_list c) with
          | [] => UB
          | last :: _ => Ok (k :: removelast (l_list c), aerase last (l_map c))
          end
        else Ok (k :: l_list c, l_map c)
    | Some _ => Ok (k :: remove K_eq_dec k (l_list c), l_map c)
    end in
  Ok (mk_lru (l_capacity c) l (aset k v m)).

(* lines 52-59 *)
Definition lru_get (c : lru) (k : K) : outcome (V * lru) :=
  match afind k (l_map c) with
  | None => Throw EBadValue
  | Some v => Ok (v, mk_lru (l_capacity c) (k :: remove K_eq_dec k (l_list c)) (l_map c))
  end.

(* line 61 *)
Definition lru_exists (c : lru) (k : K) : bool :=
  match afind k (l_map c) with None => false | Some _ => true end.

(* lines 67-70 *)
Definition lru_clear (c : lru) : lru := mk_lru (l_capacity c) [] [].

(* one call made by a client; a get that throws leaves the cache as it is and the client
   goes on *)
Inductive lru_op := OpPut (k : K) (v : V) | OpGet (k : K) | OpExists (k : K) | OpClear.

(* what a client sees happening: newest first *)
Inductive lru_event := EvPut (k : K) (v : V) | EvGet (k : K) (v : V) | EvGetFails (k : K)
                     | EvExists (k : K) (b : bool) | EvClear.

Definition lru_step (c : lru) (o : lru_op) : outcome (lru * lru_event) :=
  match o with
  | OpPut k v => let* c' := lru_put c k v in Ok (c', EvPut k v)
  | OpGet k => match lru_get c k with
               | Ok (v, c') => Ok (c', EvGet k v)
               | Throw _ => Ok (c, EvGetFails k)
               | UB => UB
               end
  | OpExists k => Ok (c, EvExists k (lru_exists c k))
  | OpClear => Ok (lru_clear c, EvClear)
  end.

Fixpoint lru_run (c : lru) (log : list lru_event) (ops : list lru_op) : outcome (lru * list lru_event) :=
  match ops with
  | [] => Ok (c, log)
  | o :: r => let* (c', e) := lru_step c o in lru_run c' (e :: log) r
  end.
End LRU.
