From Coq Require Import Lia.
From Verif Require Import Base ModelQueue ModelTask ModelNotify SpecQueue SpecNotify.
Local Open Scope nat_scope.

(* a run in which something recurs within every bounded stretch *)
Section Run.
Context {S : Type}.
Variables (step woken : S -> S -> Prop).
Variable nsteps : nat -> nat -> S -> S -> Prop.
Hypothesis n_O : forall s, nsteps 0 0 s s.
Hypothesis n_S : forall n k s s' s'', nsteps n k s s' -> step s' s'' -> nsteps (Datatypes.S n) k s s''.
Hypothesis n_W : forall n k s s' s'', nsteps n k s s' -> woken s' s'' -> nsteps n (Datatypes.S k) s s''.
Variables (c bound : nat) (run : nat -> S).
Hypothesis bounded : forall n k s', nsteps n k (run 0) s' -> n <= bound + c * k.
Hypothesis goes : forall i, step (run i) (run (Datatypes.S i)) \/ woken (run i) (run (Datatypes.S i)).

Lemma counted i : exists n k, nsteps n k (run 0) (run i) /\ n + k = i.
Proof.
  induction i as [|i (n & k & H & E)]; [exists 0, 0; auto|].
  destruct (goes i) as [G|G]; [exists (Datatypes.S n), k|exists n, (Datatypes.S k)]; (split; [eauto|lia]).
Qed.
Lemma stretch i m : (exists j, i <= j /\ woken (run j) (run (Datatypes.S j))) \/
  exists n k, nsteps n k (run 0) (run (i + m)) /\ n + k = i + m /\ k <= i.
Proof.
  induction m as [|m [H|(n & k & H & E & L)]]; [right| left; exact H|].
  - destruct (counted i) as (n & k & H & E). exists n, k. rewrite Nat.add_0_r. repeat split; auto; lia.
  - destruct (goes (i + m)) as [G|G]; [right|left; exists (i + m); split; [lia|exact G]].
    exists (Datatypes.S n), k. rewrite Nat.add_succ_r. split; [eauto|]. lia.
Qed.
Lemma recurs i : exists j, i <= j /\ woken (run j) (run (Datatypes.S j)).
Proof.
  destruct (stretch i (bound + c * i + 1)) as [H|(n & k & H & E & L)]; [exact H|]. exfalso.
  specialize (bounded _ _ _ H). assert (c * k <= c * i) by (apply Nat.mul_le_mono_l; exact L). lia.
Qed.
End Run.

Theorem no_endless_run cf s g (run : nat -> sys) : completes cf s g -> run 0 = s ->
  (forall i, step cf (run i) (run (S i)) \/ wakeup cf (run i) (run (S i))) ->
  forall i, exists j, i <= j /\ wakeup cf (run j) (run (S j)).
Proof.
  intros [(bound & B) _] <- G. apply (recurs (step cf) (wakeup cf) (nsteps cf) (nsteps_O cf) (nsteps_S cf) (nsteps_woken cf) 1 bound run); [|exact G].
  intros n k s' H. specialize (B n k s' H). lia.
Qed.
Theorem f_no_endless_run cf f g (run : nat -> fsys) : f_completes cf f g -> run 0 = f ->
  (forall i, fstep cf (run i) (run (S i)) \/ fwoken cf (run i) (run (S i))) ->
  forall i, exists j, i <= j /\ fwoken cf (run j) (run (S j)).
Proof.
  intros [(bound & B) _] <- G. apply (recurs (fstep cf) (fwoken cf) (fnsteps cf) (fn_O cf) (fn_S cf) (fn_woken cf) 2 bound run); [|exact G].
  intros n k s' H. specialize (B n k s' H). lia.
Qed.
