(* Proofs about the worker pool, for C29, and sums over finitely many threads. *)
From Verif Require Import Base BaseLemmas ModelQueue ModelTask SpecQueue ProofsQueue.
From Coq Require Import Permutation Lia.
Local Open Scope nat_scope.

(* ---- sums and collections over 0 .. n-1 ---- *)
Fixpoint sumf (n : nat) (f : nat -> nat) : nat := match n with O => 0 | S k => sumf k f + f k end.
Fixpoint gather {A} (n : nat) (f : nat -> list A) : list A := match n with O => [] | S k => gather k f ++ f k end.

Lemma wupd_eq {A} (f : nat -> A) i a : wupd f i a i = a.
Proof. unfold wupd. now rewrite Nat.eqb_refl. Qed.
Lemma wupd_ne {A} (f : nat -> A) i j a : j <> i -> wupd f i a j = f j.
Proof. unfold wupd. intro H. apply Nat.eqb_neq in H. now rewrite H. Qed.

Lemma sumf_ext n f g : (forall i, i < n -> f i = g i) -> sumf n f = sumf n g.
Proof.
  induction n as [|n IH]; intro H; cbn; [reflexivity|]. rewrite IH by (intros; apply H; lia). now rewrite H by lia.
Qed.

Lemma sumf_upd {A} n (f : nat -> A) (h : A -> nat) w x : w < n ->
  sumf n (fun i => h (wupd f w x i)) + h (f w) = sumf n (fun i => h (f i)) + h x.
Proof.
  induction n as [|n IH]; intro H; [lia|]. cbn. destruct (Nat.eq_dec w n) as [E|E].
  - subst w. rewrite wupd_eq. rewrite (sumf_ext n _ (fun i => h (f i))) by (intros; rewrite wupd_ne by lia; reflexivity). lia.
  - rewrite (wupd_ne f w n) by lia. specialize (IH ltac:(lia)). lia.
Qed.

(* the same for a function of the index as well *)
Lemma sumf_upd2 n (f g : nat -> nat) w : w < n -> (forall i, i <> w -> f i = g i) -> sumf n f + g w = sumf n g + f w.
Proof.
  induction n as [|n IH]; intros H E; [lia|]. cbn. destruct (Nat.eq_dec w n) as [X|X].
  - subst w. rewrite (sumf_ext n f g) by (intros; apply E; lia). lia.
  - rewrite (E n) by lia. specialize (IH ltac:(lia) E). lia.
Qed.

Lemma sumf_zero n f : sumf n f = 0 -> forall i, i < n -> f i = 0.
Proof.
  induction n as [|n IH]; cbn; intros H i L; [lia|]. destruct (Nat.eq_dec i n) as [->|]; [lia|]. apply IH; lia.
Qed.

Lemma sumf_pos n f i : i < n -> f i <= sumf n f.
Proof. induction n as [|n IH]; cbn; intro H; [lia|]. destruct (Nat.eq_dec i n) as [->|]; [lia|]. specialize (IH ltac:(lia)). lia. Qed.

Lemma sumf_ex n f : sumf n f <> 0 -> exists i, i < n /\ f i <> 0.
Proof.
  induction n as [|n IH]; cbn; intro H; [lia|]. destruct (Nat.eq_dec (f n) 0) as [E|E].
  - destruct IH as (i & L & X); [lia|]. exists i. split; [lia|exact X].
  - exists n. split; [lia|exact E].
Qed.

Lemma gather_ext {A} n (f g : nat -> list A) : (forall i, i < n -> f i = g i) -> gather n f = gather n g.
Proof.
  induction n as [|n IH]; intro H; cbn; [reflexivity|]. rewrite IH by (intros; apply H; lia). now rewrite H by lia.
Qed.

Lemma gather_upd {A B} n (f : nat -> A) (h : A -> list B) w x : w < n ->
  Permutation (gather n (fun i => h (wupd f w x i)) ++ h (f w)) (gather n (fun i => h (f i)) ++ h x).
Proof.
  induction n as [|n IH]; intro H; [lia|]. cbn. destruct (Nat.eq_dec w n) as [E|E].
  - subst w. rewrite wupd_eq. rewrite (gather_ext n _ (fun i => h (f i))) by (intros; rewrite wupd_ne by lia; reflexivity).
    rewrite <- !app_assoc. apply Permutation_app_head, Permutation_app_comm.
  - rewrite (wupd_ne f w n) by lia. specialize (IH ltac:(lia)).
    rewrite <- !app_assoc. rewrite (Permutation_app_comm (h (f n)) (h (f w))), (Permutation_app_comm (h (f n)) (h x)).
    rewrite !app_assoc. apply Permutation_app_tail, IH.
Qed.

Lemma gather_nil {A} n (f : nat -> list A) : (forall i, i < n -> f i = []) -> gather n f = [].
Proof.
  induction n as [|n IH]; intro H; cbn; [reflexivity|]. rewrite IH by (intros; apply H; lia). now rewrite H by lia.
Qed.

Section P.
Context {T : Type}.
Variable n : nat.
Implicit Types (s : @pool T).

Definition busy (w : @pworker T) : list (nat * T) := match w with PBusy g t => [(g, t)] | _ => [] end.

Definition pool_ok s : Prop :=
  q_wf (p_q s) /\
  Permutation (p_executed s ++ gather n (fun w => busy (p_workers s w)) ++ queued (p_q s)) (p_pushed s) /\
  (forall w, p_workers s w = PStopped -> q_closed (p_q s) = true /\ q_order (p_q s) = []) /\
  (forall w, p_workers s w = PWaiting -> q_closed (p_q s) = false \/ p_closing s = true) /\
  (q_closed (p_q s) = false -> q_order (p_q s) <> [] ->
     p_notify s <> 0 \/ exists w, w < n /\ p_workers s w <> PWaiting) .

Lemma pop_closed q g t q' : wq_pop q = Ok (@PTask T g t q') -> q_closed q' = q_closed q /\ q_order q <> [].
Proof.
  unfold wq_pop. destruct (q_order q) as [|g0 o]; [destruct (q_closed q); discriminate|].
  destruct (gfind g0 (q_groups q)) as [[|x l]|]; try discriminate. intro H. injection H as _ _ <-.
  split; [destruct l; reflexivity|discriminate].
Qed.
Lemma push_closed q g t q' : wq_push q g t = Ok q' -> @q_closed T q = false /\ q_closed q' = false.
Proof.
  unfold wq_push. destruct (q_closed q); [discriminate|]. destruct (gfind g (q_groups q)); intro H; injection H as <-; auto.
Qed.
Lemma pop_blocks q : wq_pop q = Ok (@PBlocks T) -> q_closed q = false /\ q_order q = [].
Proof.
  unfold wq_pop. destruct (q_order q) as [|g0 o]; [destruct (q_closed q); [discriminate|auto]|].
  destruct (gfind g0 (q_groups q)) as [[|x l]|]; discriminate.
Qed.
Lemma pop_stop q : wq_pop q = Ok (@PStop T) -> q_closed q = true /\ q_order q = [].
Proof.
  unfold wq_pop. destruct (q_order q) as [|g0 o]; [destruct (q_closed q); [auto|discriminate]|].
  destruct (gfind g0 (q_groups q)) as [[|x l]|]; discriminate.
Qed.

Lemma pool_init_ok : pool_ok pool_init.
Proof.
  split; [apply new_wf|]. cbn. repeat split; try discriminate; try congruence.
  rewrite gather_nil by reflexivity. constructor.
Qed.

Lemma pool_step_ok s s' : 0 < n -> pool_ok s -> pool_step n s s' -> pool_ok s'.
Proof.
  intros Hn (W & P & A & B & C) H. destruct H as [s g t q' H|s k w H Hw E|s k H Hw|s H|s H|s w g t q' Hw E H|s w Hw E H|s w Hw E H|s w g t Hw E];
    unfold pool_ok; cbn [p_q p_workers p_notify p_closing p_pushed p_executed].
  - destruct (push_closed _ _ _ _ H) as [C1 C2]. split; [eapply push_wf; eassumption|]. split; [|split; [|split]].
    + rewrite (queued_push _ _ _ _ W H), <- P. rewrite !app_assoc. rewrite <- Permutation_middle.
      rewrite <- Permutation_cons_append. reflexivity.
    + intros w X. apply A in X as [X _]. congruence.
    + intros w X. left. exact C2.
    + left. discriminate.
  - split; [exact W|]. split; [|split; [|split]].
    + rewrite <- P. apply Permutation_app_head, Permutation_app_tail.
      pose proof (gather_upd n (p_workers s) busy w PReady Hw) as G. rewrite E in G. cbn [busy] in G. now rewrite !app_nil_r in G.
    + intros w0 X. destruct (Nat.eq_dec w0 w) as [->|N]; [rewrite wupd_eq in X; discriminate|rewrite wupd_ne in X by exact N; eauto].
    + intros w0 X. destruct (Nat.eq_dec w0 w) as [->|N]; [rewrite wupd_eq in X; discriminate|rewrite wupd_ne in X by exact N; eauto].
    + intros _ _. right. exists w. split; [exact Hw|]. rewrite wupd_eq. discriminate.
  - repeat split; auto; try apply W; try (eapply A; eassumption).
    intros _ _. right. exists 0. split; [exact Hn|]. apply Hw, Hn.
  - split; [exact W|]. split; [exact P|]. split; [|split; [|discriminate]].
    + intros w X. apply A in X as [X _]. congruence.
    + intros w _. now right.
  - split; [exact W|]. split; [|split; [|split]].
    + rewrite <- P. apply Permutation_app_head, Permutation_app_tail.
      rewrite (gather_ext n _ (fun w => busy (p_workers s w))); [reflexivity|].
      intros i _. destruct (p_workers s i); reflexivity.
    + intros w X. destruct (p_workers s w) eqn:Y; try discriminate. eauto.
    + intros w X. destruct (p_workers s w) eqn:Y; discriminate.
    + intros X O. destruct (C X O) as [Y|(w & L & Y)]; [now left|]. right. exists w. split; [exact L|].
      destruct (p_workers s w); congruence.
  - destruct (pop_closed _ _ _ _ H) as [C1 C2]. split; [eapply pop_wf; eassumption|]. split; [|split; [|split]].
    + rewrite <- P. apply Permutation_app_head. rewrite (queued_pop _ _ _ _ W H).
      pose proof (gather_upd n (p_workers s) busy w (PBusy g t) Hw) as G. rewrite E in G. cbn [busy] in G.
      rewrite app_nil_r in G. rewrite G. rewrite <- app_assoc. reflexivity.
    + intros w0 X. exfalso. destruct (Nat.eq_dec w0 w) as [->|N]; [rewrite wupd_eq in X; discriminate|rewrite wupd_ne in X by exact N].
      apply A in X as [_ X]. tauto.
    + intros w0 X. destruct (Nat.eq_dec w0 w) as [->|N]; [rewrite wupd_eq in X; discriminate|rewrite wupd_ne in X by exact N].
      rewrite C1. now apply B in X.
    + intros _ _. right. exists w. split; [exact Hw|]. rewrite wupd_eq. discriminate.
  - destruct (pop_blocks _ H) as [C1 C2]. split; [exact W|]. split; [|split; [|split]].
    + rewrite <- P. apply Permutation_app_head, Permutation_app_tail.
      pose proof (gather_upd n (p_workers s) busy w PWaiting Hw) as G. rewrite E in G. cbn [busy] in G. now rewrite !app_nil_r in G.
    + intros w0 X. destruct (Nat.eq_dec w0 w) as [->|N]; [rewrite wupd_eq in X; discriminate|rewrite wupd_ne in X by exact N; eauto].
    + intros w0 X. left. exact C1.
    + intros _ X. congruence.
  - destruct (pop_stop _ H) as [C1 C2]. split; [exact W|]. split; [|split; [|split]].
    + rewrite <- P. apply Permutation_app_head, Permutation_app_tail.
      pose proof (gather_upd n (p_workers s) busy w PStopped Hw) as G. rewrite E in G. cbn [busy] in G. now rewrite !app_nil_r in G.
    + intros w0 X. auto.
    + intros w0 X. destruct (Nat.eq_dec w0 w) as [->|N]; [rewrite wupd_eq in X; discriminate|rewrite wupd_ne in X by exact N; eauto].
    + intros X. congruence.
  - split; [exact W|]. split; [|split; [|split]].
    + rewrite <- P. rewrite <- !app_assoc. apply Permutation_app_head.
      rewrite !app_assoc. apply Permutation_app_tail.
      pose proof (gather_upd n (p_workers s) busy w PReady Hw) as G. rewrite E in G. cbn [busy] in G.
      rewrite app_nil_r in G. rewrite <- G. apply Permutation_app_comm.
    + intros w0 X. destruct (Nat.eq_dec w0 w) as [->|N]; [rewrite wupd_eq in X; discriminate|rewrite wupd_ne in X by exact N; eauto].
    + intros w0 X. destruct (Nat.eq_dec w0 w) as [->|N]; [rewrite wupd_eq in X; discriminate|rewrite wupd_ne in X by exact N; eauto].
    + intros _ _. right. exists w. split; [exact Hw|]. rewrite wupd_eq. discriminate.
Qed.

Lemma pool_woken_ok s s' : pool_ok s -> pool_woken n s s' -> pool_ok s'.
Proof.
  intros (W & P & A & B & C) H. destruct H as [s0 w Hw E]. unfold pool_ok. cbn [p_q p_workers p_notify p_closing p_pushed p_executed].
  split; [exact W|]. split; [|split; [|split]].
  - rewrite <- P. apply Permutation_app_head, Permutation_app_tail.
    pose proof (gather_upd n (p_workers s0) busy w PReady Hw) as G. rewrite E in G. cbn [busy] in G. now rewrite !app_nil_r in G.
  - intros w0 X. destruct (Nat.eq_dec w0 w) as [->|N]; [rewrite wupd_eq in X; discriminate|rewrite wupd_ne in X by exact N; eauto].
  - intros w0 X. destruct (Nat.eq_dec w0 w) as [->|N]; [rewrite wupd_eq in X; discriminate|rewrite wupd_ne in X by exact N; eauto].
  - intros _ _. right. exists w. split; [exact Hw|]. rewrite wupd_eq. discriminate.
Qed.

Lemma pool_reach_ok s s' : 0 < n -> pool_ok s -> pool_reach n s s' -> pool_ok s'.
Proof.
  intros Hn H R. induction R as [|s s1 s2 R IH S|s s1 s2 R IH S]; [exact H| |].
  - eapply pool_step_ok; [exact Hn|apply IH, H|exact S].
  - eapply pool_woken_ok; [apply IH, H|exact S].
Qed.

Lemma wf_empty q : q_wf q -> @q_order T q = [] -> queued q = [].
Proof.
  intros (_ & _ & W3 & _) E. unfold queued. destruct (q_groups q) as [|[k l] m]; [reflexivity|].
  exfalso. rewrite E in W3. apply (proj2 (W3 k)). now left.
Qed.

Lemma worker_stops s w : 0 < n -> pool_reach n pool_init s -> p_workers s w = PStopped ->
  q_closed (p_q s) = true /\ queued (p_q s) = [].
Proof.
  intros Hn R E. destruct (pool_reach_ok _ _ Hn pool_init_ok R) as (W & _ & A & _).
  destruct (A w E) as [X Y]. split; [exact X|]. now apply wf_empty.
Qed.

Lemma all_stopped s : 0 < n -> pool_reach n pool_init s -> (forall w, w < n -> p_workers s w = PStopped) ->
  Permutation (p_executed s) (p_pushed s).
Proof.
  intros Hn R E. destruct (pool_reach_ok _ _ Hn pool_init_ok R) as (W & P & A & _).
  destruct (A 0 (E 0 Hn)) as [X Y]. rewrite (wf_empty _ W Y) in P. rewrite gather_nil in P.
  - now rewrite !app_nil_r in P.
  - intros i L. now rewrite E.
Qed.

Lemma push_refused q g t : @q_closed T q = true -> wq_push q g t = Throw EAssert.
Proof. intro H. unfold wq_push. now rewrite H. Qed.

(* after close the workers run to the end *)
Definition pweight (w : @pworker T) : nat :=
  match w with PReady => 1 | PWaiting => 2 | PBusy _ _ => 2 | PStopped => 0 end.
Definition pmeasure s : nat := 3 * length (queued (p_q s)) + sumf n (fun w => pweight (p_workers s w)) + 2 * p_notify s +
  (if p_closing s then 1 else 0).

Lemma pool_decreases s s' : pool_ok s -> q_closed (p_q s) = true -> pool_step n s s' ->
  pmeasure s' < pmeasure s /\ q_closed (p_q s') = true.
Proof.
  intros (W & _ & A & B & _) C H. unfold pmeasure.
  destruct H as [s g t q' H|s k w H Hw E|s k H Hw|s H|s H|s w g t q' Hw E H|s w Hw E H|s w Hw E H|s w g t Hw E];
    cbn [p_q p_workers p_notify p_closing p_pushed p_executed].
  - destruct (push_closed _ _ _ _ H). congruence.
  - split; [|exact C]. pose proof (sumf_upd n (p_workers s) pweight w PReady Hw) as S. rewrite E in S. cbn [pweight] in S. lia.
  - split; [rewrite H; lia|exact C].
  - congruence.
  - split; [|exact C]. rewrite H.
    assert (X : forall k, sumf k (fun w => pweight (match p_workers s w with PWaiting => PReady | x => x end)) <= sumf k (fun w => pweight (p_workers s w))).
    { induction k as [|k IH]; cbn [sumf]; [lia|]. destruct (p_workers s k); cbn [pweight]; lia. }
    specialize (X n). lia.
  - destruct (pop_closed _ _ _ _ H) as [C1 _]. split; [|congruence].
    pose proof (Permutation_length (queued_pop _ _ _ _ W H)) as L. cbn in L.
    pose proof (sumf_upd n (p_workers s) pweight w (PBusy g t) Hw) as S. rewrite E in S. cbn [pweight] in S. lia.
  - destruct (pop_blocks _ H). congruence.
  - split; [|exact C].
    pose proof (sumf_upd n (p_workers s) pweight w PStopped Hw) as S. rewrite E in S. cbn [pweight] in S. lia.
  - split; [|exact C].
    pose proof (sumf_upd n (p_workers s) pweight w PReady Hw) as S. rewrite E in S. cbn [pweight] in S. lia.
Qed.

Lemma woken_decreases s s' : pool_woken n s s' -> pmeasure s' < pmeasure s /\ q_closed (p_q s') = q_closed (p_q s) /\ p_pushed s' = p_pushed s.
Proof.
  intros [s0 w Hw E]. unfold pmeasure. cbn [p_q p_workers p_notify p_closing p_pushed p_executed]. split; [|auto].
  pose proof (sumf_upd n (p_workers s0) pweight w PReady Hw) as S. rewrite E in S. cbn [pweight] in S. lia.
Qed.

Lemma pool_progress s w : 0 < n -> pool_ok s -> q_closed (p_q s) = true -> w < n -> p_workers s w <> PStopped ->
  exists s', worker_moves n s s'.
Proof.
  intros Hn (W & _ & A & B & _) C Hw E. destruct (p_workers s w) as [| |g t|] eqn:F.
  - destruct (pop_cases _ W) as [(_ & _ & P)|(g & o & t & r & _ & _ & P)].
    + rewrite C in P. eexists. split; [eapply PS_stop; eassumption|]. now cbn.
    + eexists. split; [eapply PS_pop; eassumption|]. cbn. repeat split. now destruct r.
  - apply B in F as [F|F]; [congruence|]. eexists. split; [eapply PS_notify_all; exact F|]. now cbn.
  - eexists. split; [eapply PS_done; eassumption|]. now cbn.
  - congruence.
Qed.

(* from any closed state: finitely many steps, never blocked before every worker has stopped *)
Lemma shutdown s : 0 < n -> pool_reach n pool_init s -> q_closed (p_q s) = true ->
  (forall s', pool_reach n s s' -> q_closed (p_q s') = true /\ p_pushed s' = p_pushed s /\
     ((exists w, w < n /\ p_workers s' w <> PStopped) -> exists s'', worker_moves n s' s'')) /\
  (forall s1 s2, pool_reach n s s1 -> pool_step n s1 s2 \/ pool_woken n s1 s2 -> pmeasure s2 < pmeasure s1).
Proof.
  intros Hn R C. pose proof (pool_reach_ok _ _ Hn pool_init_ok R) as K.
  assert (X : forall s', pool_reach n s s' -> pool_ok s' /\ q_closed (p_q s') = true /\ p_pushed s' = p_pushed s).
  { intros s' R'. induction R' as [|s s1 s2 R' IH S|s s1 s2 R' IH S]; [auto| |].
    2: { destruct (IH R C K) as (K1 & C1 & P1). destruct (woken_decreases _ _ S) as (_ & C2 & P2).
         split; [eapply pool_woken_ok; eassumption|]. split; congruence. }
    destruct (IH R C K) as (K1 & C1 & P1).
    split; [eapply pool_step_ok; eassumption|]. split; [eapply pool_decreases; eassumption|]. rewrite <- P1.
    destruct S; try reflexivity. destruct (push_closed _ _ _ _ H). congruence. }
  split.
  - intros s' R'. destruct (X s' R') as (K1 & C1 & P1). repeat split; auto.
    intros (w & Hw & E). eapply pool_progress; eassumption.
  - intros s1 s2 R' [S|S]; [|now apply woken_decreases]. destruct (X s1 R') as (K1 & C1 & P1). eapply pool_decreases; eassumption.
Qed.
End P.
