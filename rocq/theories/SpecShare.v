(* What threads that share a Rust handle can rely on. *)
From Verif Require Import Base ModelStrings ModelJumper ModelEngine ModelApi ModelRust ModelShare.
Local Open Scope nat_scope.

Section Share.
Context {F W : Type}.
Variable flatten : string -> list string.
Variable i : impl F W.

(* the calls made one after another by one thread: the answers, and the state of the outside world at the end *)
Fixpoint one_by_one (calls : list rcall) (w : W) : list (outcome (ranswer F)) * W :=
  match calls with
  | [] => ([], w)
  | c :: r => let (a, w1) := rust_call flatten i c w in
              let (l, w2) := one_by_one r w1 in (a :: l, w2)
  end.
(* [may]: the calls that the program makes *)
Variable may : rcall -> Prop.
(* no sequence of them is undefined *)
Definition defined_calls (w : W) : Prop := forall calls, Forall may calls -> ~ In UB (fst (one_by_one calls w)).
(* no answer has 2^64 results *)
Definition in_memory (w : W) : Prop :=
  forall calls rs, Forall may calls -> In (Ok (AIter (source_new (map Some rs)))) (fst (one_by_one calls w)) -> (lenN rs < two64)%N.

Definition reached (w : W) (s : rstate F W) : Prop := rsteps flatten i may (start w) (Ok s).

Definition calls_of (s : rstate F W) : list rcall := map (fun e => snd (fst e)) (r_hist s).
Definition answers_of (s : rstate F W) : list (outcome (ranswer F)) := map snd (r_hist s).
(* those of one thread, in order *)
Definition mine {A} (t : nat) (l : list (nat * A)) : list A := map snd (filter (fun e => fst e =? t) l).
Definition my_calls (t : nat) (s : rstate F W) := mine t (map (fun e => (fst (fst e), snd (fst e))) (r_hist s)).
Definition my_answers (t : nat) (s : rstate F W) := mine t (map (fun e => (fst (fst e), snd e)) (r_hist s)).
(* a method that has been called and has not reached the library; one whose answer has not been returned *)
Definition not_made (p : rphase F) : list rcall :=
  match p with Locking _ _ c | Locked _ _ c => [c] | _ => [] end.
Definition not_returned (p : rphase F) : list (outcome (ranswer F)) :=
  match p with Called _ _ _ r => [r] | _ => [] end.

(* the results of the k-th library call *)
Definition results_of (s : rstate F W) (k : nat) (rs : list (result F)) : Prop :=
  exists t c, nth_error (r_hist s) k = Some (t, c, Ok (AIter (source_new (map Some rs)))).
(* the positions that have been taken from the answer of call k, in order *)
Definition taken (s : rstate F W) (k : nat) : list nat := mine k (r_taken s).

(* the range at index n of a result *)
Definition nth_range (r : result F) (n : N) : view F :=
  mk_view (nth (N.to_nat n) (fst r) []) (nth (N.to_nat n) (snd r) []).

(* the values that hold handle h *)
Definition holds (h : nat) (v : option (nat * rvalue F)) : bool :=
  match v with Some (_, VHandle h') => h' =? h | _ => false end.
Definition holders (s : rstate F W) (h : nat) : nat := length (filter (holds h) (r_slots s)).
(* thread t has the lock of handle h *)
Definition inside (s : rstate F W) (t h : nat) : Prop :=
  exists j, (exists c, r_phase s t = Locked j h c) \/ (exists k r, r_phase s t = Called j h k r).
(* thread t is in a call on handle h *)
Definition in_call (s : rstate F W) (t h : nat) : Prop :=
  inside s t h \/ exists j c, r_phase s t = Locking j h c.

(* steps of the threads that are in a call, no others *)
Inductive call_steps : nat -> rstate F W -> rstate F W -> Prop :=
| CS_end s : call_steps 0 s s
| CS_lock n t j h c s s1 s2 : r_phase s t = Locking j h c -> do_lock t j h c s = Some (Ok s1) -> call_steps n s1 s2 ->
    call_steps (S n) s s2
| CS_lib n t j h c s s1 s2 : r_phase s t = Locked j h c -> do_call flatten i t j h c s = Ok s1 -> call_steps n s1 s2 ->
    call_steps (S n) s s2
| CS_return n t j h k r s s1 s2 : r_phase s t = Called j h k r -> do_return t h k r s = Ok s1 -> call_steps n s1 s2 ->
    call_steps (S n) s s2.
End Share.

(* two threads: a library that gives one result per request and counts its calls *)
Definition small_result (r : request) : result nat := ([[length (r_ranges r); 7]], [[3%N]]).
Definition counting : impl nat nat :=
  mk_impl (fun _ w => (Ok 0%N, S w)) (fun _ _ w => (Ok 0%N, S w)) (fun l w => (Ok (map small_result l), S w))
    (fun _ w => (Throw EUser, S w)) (fun _ _ _ w => (Throw EUser, S w)) (fun _ _ w => (Ok [], S w)).
Definition ask_one (n : nat) : rcall := RExtract [mk_request "retrieve,class=od" (repeat (0, 2)%N n) ""].
Definition shared_slots : list (option (nat * rvalue nat)) :=
  [None; None;                                                     (* both handles dropped *)
   Some (5, VIter 0 (mk_source [None] 1));                         (* the first iterator, moved to a third thread *)
   Some (1, VIter 1 (mk_source [Some ([[2; 7]], [[3%N]])] 0));     (* that of the second thread *)
   Some (0, VRes 0 0 (mk_handle ([[1; 7]], [[3%N]]) true [[3%N]]))].
Definition made_calls (c : rcall) : Prop := In c [ask_one 1; ask_one 2; RExtract []].
