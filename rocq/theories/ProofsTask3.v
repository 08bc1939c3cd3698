(* Progress and termination of the task system, and schedules, for C32-C35. *)
From Verif Require Import Base BaseLemmas ModelQueue ModelTask SpecQueue ProofsQueue ProofsPool ProofsTask ProofsTask2.
From Coq Require Import Permutation Lia.
Local Open Scope nat_scope.

(* ---- schedules are executions ---- *)
Lemma nobody_spec n f : nobody n f = true -> forall w, w < n -> f w <> WWaiting.
Proof.
  induction n as [|n IH]; cbn; intros H w L; [lia|]. destruct (Nat.eq_dec w n) as [->|N].
  - destruct (f n); discriminate || congruence.
  - apply IH; [|lia]. destruct (f n); congruence || discriminate.
Qed.

Ltac kill := match goal with H : None = Some _ |- _ => discriminate H | H : Some _ = Some _ |- _ => injection H as <- end.

Lemma act_step cf s a s' : act cf s a = Some s' -> step cf s s'.
Proof.
  destruct a as [g|g w|w]; cbn [act]; intro H.
  - destruct (Nat.ltb_spec g (cf_clients cf)) as [Lg|]; cbn [negb] in H; [|discriminate].
    destruct (s_clients s g) as [|i| | | |e|e|] eqn:E; try discriminate.
    + destruct (cf_abandon cf g) as [k|] eqn:Ab.
      * destruct (Nat.eqb_spec k (length (g_status (s_groups s g)))) as [->|N]; [kill; now apply S_abandon|].
        destruct (g_lock (s_groups s g)) eqn:L; [discriminate|].
        destruct (Nat.ltb_spec (length (g_status (s_groups s g))) (cf_tasks cf g)); [|discriminate]. kill.
        apply S_add; auto. rewrite Ab. congruence.
      * destruct (Nat.eqb_spec (cf_tasks cf g) 0) as [Z|Z]; [kill; now apply S_wait_none|].
        destruct (Nat.ltb_spec (length (g_status (s_groups s g))) (cf_tasks cf g)).
        -- destruct (g_lock (s_groups s g)) eqn:L; [discriminate|]. kill. apply S_add; auto. congruence.
        -- destruct (Nat.eqb_spec (length (g_status (s_groups s g))) (cf_tasks cf g)); [|discriminate]. kill.
           apply S_wait; auto. congruence.
    + destruct (wq_push (s_queue s) g (g, i)) eqn:P; try discriminate. kill. eapply S_push; eassumption.
    + destruct (nobody (cf_workers cf) (s_workers s)) eqn:N; [|discriminate]. kill.
      apply S_notify_none; auto. now apply nobody_spec.
    + destruct (g_lock (s_groups s g)) eqn:L; [discriminate|].
      destruct (Nat.eqb_spec (g_complete (s_groups s g)) (length (g_status (s_groups s g)))); kill; [now apply S_return|now apply S_block].
    + kill. now apply S_destroy.
  - destruct (Nat.ltb_spec g (cf_clients cf)) as [Lg|]; cbn [negb andb] in H; [|discriminate].
    destruct (Nat.ltb_spec w (cf_workers cf)) as [Lw|]; cbn [negb andb] in H; [|discriminate].
    destruct (s_clients s g) eqn:E; try discriminate. destruct (s_workers s w) eqn:F; try discriminate. kill. now apply S_notify.
  - destruct (Nat.ltb_spec w (cf_workers cf)) as [Lw|]; cbn [negb andb] in H; [|discriminate].
    destruct (touches (s_workers s w)) as [g0|] eqn:T.
    + destruct (g_alive (s_groups s g0)) eqn:A.
      * destruct (s_workers s w) as [| |[g i]|[g i]|[g i]|[g i] m|g k] eqn:E; cbn in T; try discriminate; injection T as ->.
        -- destruct (nth_error (g_status (s_groups s g0)) i) as [st|] eqn:S1; [|discriminate].
           destruct st; kill; first [now apply S_start | eapply S_skip; eauto; discriminate].
        -- kill. now apply S_finish.
        -- destruct (g_lock (s_groups s g0)) eqn:L; [discriminate|]. kill. now apply S_ok.
        -- destruct (g_lock (s_groups s g0)) eqn:L; [discriminate|]. kill. now apply S_err.
        -- destruct (Nat.ltb_spec k (length (g_status (s_groups s g0)))); kill; [now apply S_cancel|now apply S_unlock with k].
      * destruct (s_ub s) eqn:U; [discriminate|]. kill. now apply S_dangling with w g0.
    + destruct (s_workers s w) as [| |[g i]|[g i]|[g i]|[g i] m|g k] eqn:E; try discriminate.
      destruct (wq_pop (s_queue s)) as [[| |g t q']| |] eqn:P; try discriminate; kill; [now apply S_sleep|eapply S_pop; eassumption].
Qed.

Lemma steps_trans cf a b c : steps cf a b -> steps cf b c -> steps cf a c.
Proof.
  intros H K. induction K as [|b x y K IH S|b x y K IH S]; [exact H|eapply steps_next|eapply steps_woken];
    [apply IH, H|exact S|apply IH, H|exact S].
Qed.

Lemma play_steps cf l : forall s s', play cf s l = Some s' -> steps cf s s'.
Proof.
  induction l as [|a l IH]; cbn; intros s s' H; [injection H as <-; constructor|].
  destruct (act cf s a) as [s1|] eqn:E; [|discriminate]. eapply steps_trans; [|apply IH, H].
  eapply steps_next; [constructor|now apply act_step in E].
Qed.

Section Live.
Variable cf : config.
Let nw := cf_workers cf.
Let nc := cf_clients cf.
Hypothesis NA : no_abandon cf.
Hypothesis NW : 0 < nw.

(* ---- no wake-up is lost ---- *)
Definition inv3 (s : sys) : Prop :=
  q_order (s_queue s) <> [] ->
  (exists w, w < nw /\ s_workers s w <> WWaiting) \/ (exists g, g < nc /\ s_clients s g = CNotify).

Lemma inv3_w s w x : w < nw -> x <> WWaiting -> inv3 (upd_w s w x).
Proof. intros H N _. left. exists w. split; [exact H|]. cbn. now rewrite wupd_eq. Qed.

Lemma inv3_c s g c : inv3 s -> s_clients s g <> CNotify -> inv3 (upd_c s g c).
Proof.
  intros I N O. destruct (I O) as [X|(g' & L & X)]; [left; exact X|]. right. exists g'. split; [exact L|].
  cbn. rewrite wupd_ne; [exact X|]. intros ->. congruence.
Qed.

Lemma inv3_step s s' : inv1 cf s -> inv3 s -> step cf s s' -> inv3 s'.
Proof.
  intros I1 I H.
  destruct H as [s g Hg E L Hn Ha|s g i q' Hg E P|s g w Hg E Hw Ew|s g Hg E Hw|s g Hg E Ha|s g Hg E Hz Ha|s g Hg E Hn Hz Ha
                |s g Hg E L Hc|s g Hg E L Hc|s g errs Hg E
                |s w g t q' Hw E P|s w Hw E P|s w g i Hw E Al St|s w g i st Hw E Al St Ne|s w g i Hw E Al
                |s w g i Hw E Al L|s w g i m Hw E Al L|s w g k Hw E Al Hk|s w g k Hw E Al Hk|s w g Hw E Al U];
    try (apply inv3_w; [exact Hw|discriminate || (destruct (cf_result cf g i); discriminate)]);
    try (apply inv3_c; [exact I|cbn; congruence]).
  - intros _. right. exists g. split; [exact Hg|]. cbn. now rewrite wupd_eq.
  - intros _. left. exists 0. split; [exact NW|]. apply Hw, NW.
  - intros O. destruct (pop_blocks _ P) as [_ X]. cbn in O. congruence.
  - exact I.
Qed.

(* ---- finite search ---- *)
Lemma search n (P : nat -> Prop) : (forall i, {P i} + {~ P i}) -> (exists i, i < n /\ P i) \/ (forall i, i < n -> ~ P i).
Proof.
  intro D. induction n as [|n IH]; [right; intros; lia|]. destruct IH as [(i & L & X)|IH]; [left; exists i; split; [lia|exact X]|].
  destruct (D n) as [Y|Y]; [left; exists n; split; [lia|exact Y]|]. right. intros i L. destruct (Nat.eq_dec i n) as [->|]; [exact Y|]. apply IH. lia.
Qed.

Definition w_free (s : sys) (w : nat) : Prop := s_workers s w <> WWaiting.
Lemma w_free_dec s w : {w_free s w} + {~ w_free s w}.
Proof. unfold w_free. destruct (s_workers s w); (left; discriminate) || (right; tauto). Qed.
Definition is_cancel (x : worker) : Prop := match x with WCancel _ _ => True | _ => False end.
Lemma cancel_dec s w : {is_cancel (s_workers s w)} + {~ is_cancel (s_workers s w)}.
Proof. destruct (s_workers s w); cbn; tauto. Qed.
Definition c_free (s : sys) (g : nat) : Prop :=
  match s_clients s g with CEnqueue | CPush _ | CNotify | CWait | CReturned _ => True | _ => False end.
Lemma c_free_dec s g : {c_free s g} + {~ c_free s g}.
Proof. unfold c_free. destruct (s_clients s g); tauto. Qed.

Lemma push_ok q g t : q_closed q = false -> exists q', @wq_push task q g t = Ok q'.
Proof. intro C. unfold wq_push. rewrite C. destruct (gfind g (q_groups q)); eauto. Qed.

Lemma progress s : reachable cf s -> (exists s', step cf s s') \/ asleep cf s.
Proof.
  intro R. destruct (inv_reach cf NA s R) as [I J].
  destruct (search nw _ (cancel_dec s)) as [(w & Hw & C)|NC].
  { left. destruct (s_workers s w) as [| | | | | |g k] eqn:E; try (destruct C; fail).
    assert (AL : g_alive (s_groups s g) = true) by (eapply no_dangling; [exact I|exact J|exact Hw|rewrite E; reflexivity]).
    destruct (Nat.lt_ge_cases k (length (g_status (s_groups s g)))) as [L|L].
    - eexists. eapply S_cancel; eassumption.
    - eexists. eapply S_unlock; eassumption. }
  assert (LK : forall g, g_lock (s_groups s g) = None).
  { intro g. destruct (g_lock (s_groups s g)) as [w|] eqn:L; [|reflexivity]. exfalso.
    apply (i_lock _ _ J) in L as (Hw & k & E). apply (NC w Hw). rewrite E. exact Logic.I. }
  destruct (search nw _ (w_free_dec s)) as [(w & Hw & F)|NF].
  { left. unfold w_free in F.
    assert (AL : forall g, touches (s_workers s w) = Some g -> g_alive (s_groups s g) = true)
      by (intros g T; eapply no_dangling; [exact I|exact J|exact Hw|exact T]).
    destruct (s_workers s w) as [| |[g i]|[g i]|[g i]|[g i] m|g k] eqn:E.
    - destruct (pop_cases _ (i_wf _ _ I)) as [(_ & _ & P)|(g & o & t & r & _ & _ & P)].
      + rewrite (i_open _ _ I) in P. eexists. eapply S_sleep; eassumption.
      + eexists. eapply S_pop; eassumption.
    - congruence.
    - destruct (held_A _ _ _ _ _ I Hw E) as ([S1|S1] & _ & _).
      + eexists. eapply S_start; eauto.
      + eexists. eapply S_skip; eauto. discriminate.
    - eexists. eapply S_finish; eauto.
    - eexists. eapply S_ok; eauto.
    - eexists. eapply S_err; eauto.
    - exfalso. apply (NC w Hw). rewrite E. exact Logic.I. }
  assert (WW : forall w, w < nw -> s_workers s w = WWaiting).
  { intros w Hw. specialize (NF w Hw). unfold w_free in NF. destruct (s_workers s w); try reflexivity; exfalso; apply NF; discriminate. }
  destruct (search nc _ (c_free_dec s)) as [(g & Hg & F)|NG].
  { left. unfold c_free in F. destruct (s_clients s g) as [|i| | | |e|e|] eqn:E; try (destruct F; fail).
    - pose proof (i_len _ _ J g) as LE. unfold ntasks in LE.
      destruct (Nat.eq_dec (cf_tasks cf g) 0) as [Z|Z]; [eexists; apply S_wait_none; eauto|].
      destruct (Nat.eq_dec (length (g_status (s_groups s g))) (cf_tasks cf g)) as [Q|Q].
      + eexists. apply S_wait; eauto. now rewrite NA.
      + eexists. apply S_add; eauto; [lia|]. now rewrite NA.
    - destruct (push_ok _ g (g, i) (i_open _ _ I)) as [q' P]. eexists. eapply S_push; eauto.
    - eexists. eapply (S_notify cf s g 0); eauto.
    - destruct (Nat.eq_dec (g_complete (s_groups s g)) (length (g_status (s_groups s g)))) as [Q|Q].
      + eexists. apply S_return; eauto.
      + eexists. apply S_block; eauto.
    - eexists. eapply S_destroy; eauto. }
  right. split; [exact WW|]. intros g Hg. specialize (NG g Hg). unfold c_free in NG.
  destruct (s_clients s g); eauto; exfalso; tauto.
Qed.

Lemma inv3_reach s : reachable cf s -> inv3 s.
Proof.
  intro R. remember sys_init as s0 eqn:E0. unfold reachable in R. rewrite <- E0 in R.
  induction R as [|s0 s1 s2 R IH S|s0 s1 s2 R IH S]; [subst; intro O; exfalso; now apply O| |].
  2: { specialize (IH E0). destruct S as [s g Hg E|s w Hw E]; [apply inv3_c; [exact IH|congruence]|apply inv3_w; [exact Hw|discriminate]]. }
  specialize (IH E0). assert (RR : reachable cf s1) by (unfold reachable; now rewrite <- E0).
  destruct (inv_reach cf NA s1 RR) as [I _]. eapply inv3_step; [exact I|exact IH|exact S].
Qed.

Lemma asleep_stuck s s' : reachable cf s -> asleep cf s -> step cf s s' -> False.
Proof.
  intros R [W C] H. destruct (inv_reach cf NA s R) as [I J].
  destruct H as [s g Hg E L Hn Ha|s g i q' Hg E P|s g w Hg E Hw Ew|s g Hg E Hw|s g Hg E Ha|s g Hg E Hz Ha|s g Hg E Hn Hz Ha
                |s g Hg E L Hc|s g Hg E L Hc|s g errs Hg E
                |s w g t q' Hw E P|s w Hw E P|s w g i Hw E Al St|s w g i st Hw E Al St Ne|s w g i Hw E Al
                |s w g i Hw E Al L|s w g i m Hw E Al L|s w g k Hw E Al Hk|s w g k Hw E Al Hk|s w g Hw E Al U];
    try (destruct (C g Hg) as [[e' X]|[X|X]]; congruence);
    try (rewrite (W w Hw) in E; discriminate).
Qed.

Lemma asleep_queue s : reachable cf s -> asleep cf s -> q_order (s_queue s) = [].
Proof.
  intros R [W C]. destruct (q_order (s_queue s)) as [|g0 o] eqn:O; [reflexivity|]. exfalso.
  destruct (inv3_reach s R) as [(w & Hw & X)|(g & Hg & X)]; [congruence| |].
  - now apply X, W.
  - destruct (C g Hg) as [[e Y]|[Y|Y]]; congruence.
Qed.

(* a client asleep when all is quiet has a cancelled task *)
Lemma asleep_blocked s g : reachable cf s -> asleep cf s -> g < nc -> s_clients s g = CBlocked ->
  exists i, i < cf_tasks cf g /\ nth_error (g_status (s_groups s g)) i = Some CANCELLED.
Proof.
  intros R A Hg B. destruct (inv_reach cf NA s R) as [I J].
  destruct (i_wait _ _ J g) as [N Z]; [rewrite B; reflexivity|].
  pose proof (i_blocked _ _ J g B) as NE.
  assert (D : forall i, {status_of s g i = Some CANCELLED} + {status_of s g i <> Some CANCELLED}).
  { intro i. destruct (status_of s g i) as [[]|]; (left; reflexivity) || (right; discriminate). }
  destruct (search (cf_tasks cf g) _ D) as [X|X]; [exact X|]. exfalso. apply NE.
  rewrite (gi_count _ _ _ (i_ginv _ _ J g)). fold (ntasks s g). rewrite N.
  assert (T : forall i, i < cf_tasks cf g -> count_of (s_groups s g) i = 1).
  { intros i L. pose proof (i_place _ _ I g i) as P. specialize (X i L).
    assert (Q : atA cf s g i = 0 /\ atR cf s g i = 0).
    { destruct A as [W C]. unfold atA, atR. rewrite B.
      assert (queue_of (s_queue s) g = []) as ->.
      { destruct (queue_of (s_queue s) g) as [|t l] eqn:QQ; [reflexivity|]. exfalso.
        assert (In (g, t) (queued (s_queue s))) as IN by (apply in_queued; [apply (i_wf _ _ I)|rewrite QQ; now left]).
        rewrite (wf_empty _ (i_wf _ _ I)) in IN; [destruct IN|]. apply asleep_queue; [exact R|]. split; assumption. }
      rewrite (sumf_ext _ _ (fun _ => 0)) by (intros w Hw; rewrite W by exact Hw; reflexivity).
      rewrite (sumf_ext _ (fun w => hR (s_workers s w) g i) (fun _ => 0)) by (intros w Hw; rewrite W by exact Hw; reflexivity).
      assert (ZZ : forall n, sumf n (fun _ => 0) = 0) by (clear; induction n; cbn; lia). rewrite !ZZ. cbn. lia. }
    unfold count_of. unfold status_of in P, X.
    assert (i < length (g_status (s_groups s g))) as LL by (unfold ntasks in N; lia).
    apply nth_error_Some in LL. destruct (nth_error (g_status (s_groups s g)) i) as [[]|]; cbn in P; try reflexivity; try lia; congruence. }
  clear -T. revert T. generalize (cf_tasks cf g) as n. induction n as [|n IH]; cbn; intro T; [reflexivity|].
  rewrite IH by (intros; apply T; lia). rewrite T by lia. lia.
Qed.

(* ---- termination: every step uses up some of a finite budget ---- *)
Definition budget : nat := sumf nc (cf_tasks cf).

Definition c_weight (c : client) : nat :=
  match c with
  | CEnqueue => 4 | CPush _ => budget + 13 | CNotify => 6
  | CWait => 3 | CBlocked => 2 | CReturned _ => 1 | CDone _ => 0 | CThrown => 0 end.
Definition w_weight (x : worker) : nat :=
  match x with
  | WWaiting => 0 | WReady => 1 | WPopped _ => budget + 6 | WRunning _ => budget + 5
  | WNotify _ => 3 | WFail _ _ => budget + 4 | WCancel _ k => 2 + (budget - k) end.
Definition measure (s : sys) : nat :=
  sumf nc (fun g => c_weight (s_clients s g)) + sumf nc (fun g => (cf_tasks cf g - ntasks s g) * (budget + 10)) +
  (budget + 6) * length (queued (s_queue s)) + sumf nw (fun w => w_weight (s_workers s w)).

Lemma measure_w s w x : w < nw -> measure (upd_w s w x) + w_weight (s_workers s w) = measure s + w_weight x.
Proof.
  intro H. unfold measure. cbn [s_clients s_queue s_workers upd_w].
  pose proof (sumf_upd nw (s_workers s) w_weight w x H) as X.
  change (fun g => (cf_tasks cf g - ntasks (upd_w s w x) g) * (budget + 10)) with (fun g => (cf_tasks cf g - ntasks s g) * (budget + 10)).
  cbn beta in X. lia.
Qed.
Lemma measure_c s g c : g < nc -> measure (upd_c s g c) + c_weight (s_clients s g) = measure s + c_weight c.
Proof.
  intro H. unfold measure. cbn [s_clients s_queue s_workers upd_c].
  pose proof (sumf_upd nc (s_clients s) c_weight g c H) as X.
  change (fun g0 => (cf_tasks cf g0 - ntasks (upd_c s g c) g0) * (budget + 10)) with (fun g => (cf_tasks cf g - ntasks s g) * (budget + 10)).
  cbn beta in X. lia.
Qed.
Lemma measure_g s g G : length (g_status G) = ntasks s g -> measure (upd_g s g G) = measure s.
Proof.
  intro H. unfold measure. cbn [s_clients s_queue s_workers upd_g].
  rewrite (sumf_ext nc (fun g0 => (cf_tasks cf g0 - ntasks (upd_g s g G) g0) * (budget + 10))
                    (fun g => (cf_tasks cf g - ntasks s g) * (budget + 10))); [reflexivity|].
  intros i L. rewrite nt_g. destruct (Nat.eqb_spec i g) as [->|N]; [rewrite H|]; reflexivity.
Qed.
Lemma measure_add s g : g < nc -> ntasks s g < cf_tasks cf g ->
  measure (upd_g s g (add_task (s_groups s g))) + (budget + 10) = measure s.
Proof.
  intros H L. unfold measure. cbn [s_clients s_queue s_workers upd_g].
  pose proof (sumf_upd2 nc (fun g0 => (cf_tasks cf g0 - ntasks (upd_g s g (add_task (s_groups s g))) g0) * (budget + 10))
                    (fun g => (cf_tasks cf g - ntasks s g) * (budget + 10)) g H) as X.
  cbn beta in X. rewrite nt_g, Nat.eqb_refl in X. cbn [add_task g_status] in X. rewrite app_length in X. cbn [length] in X.
  fold (ntasks s g) in X.
  assert (Y : (cf_tasks cf g - ntasks s g) * (budget + 10) = (cf_tasks cf g - (ntasks s g + 1)) * (budget + 10) + (budget + 10)).
  { replace (cf_tasks cf g - ntasks s g) with (S (cf_tasks cf g - (ntasks s g + 1))) by lia. cbn [Nat.mul]. lia. }
  rewrite Y in X. assert (Z : forall i, i <> g ->
     (cf_tasks cf i - ntasks (upd_g s g (add_task (s_groups s g))) i) * (budget + 10) = (cf_tasks cf i - ntasks s i) * (budget + 10)).
  { intros i N. rewrite nt_g. apply Nat.eqb_neq in N. now rewrite N. }
  specialize (X Z). lia.
Qed.
Lemma measure_q s q : measure (upd_q s q) + (budget + 6) * length (queued (s_queue s)) = measure s + (budget + 6) * length (queued q).
Proof.
  unfold measure. cbn [s_clients s_queue s_workers upd_q].
  change (fun g => (cf_tasks cf g - ntasks (upd_q s q) g) * (budget + 10)) with (fun g => (cf_tasks cf g - ntasks s g) * (budget + 10)). lia.
Qed.

Lemma wake_weight c : c_weight (wake c) <= c_weight c + 1.
Proof. destruct c; cbn; lia. Qed.

Lemma idle_client s g : reachable cf s -> nc <= g -> ntasks s g = 0.
Proof.
  intros R L. unfold reachable in R. remember sys_init as s0 eqn:E0. induction R as [|s0 s1 s2 R IH S|s0 s1 s2 R IH S];
    [subst; reflexivity| |specialize (IH E0); destruct S; exact IH].
  specialize (IH E0). clear R E0. unfold ntasks in *. apply length_zero_iff_nil in IH.
  destruct S; cbn [s_groups upd_g upd_c upd_w upd_q set_ub]; try (rewrite IH; reflexivity);
    unfold wupd; destruct (Nat.eqb_spec g g0) as [X|X]; try (rewrite IH; reflexivity); subst g0;
    try (exfalso; unfold nc in L; clear -H L; lia); cbn; rewrite ?cancel_length, IH; reflexivity.
Qed.

Lemma decreases s s' : reachable cf s -> step cf s s' -> measure s' < measure s.
Proof.
  intros R H. destruct (inv_reach cf NA s R) as [I J].
  destruct H as [s g Hg E L Hn Ha|s g i q' Hg E P|s g w Hg E Hw Ew|s g Hg E Hw|s g Hg E Ha|s g Hg E Hz Ha|s g Hg E Hn Hz Ha
                |s g Hg E L Hc|s g Hg E L Hc|s g errs Hg E
                |s w g t q' Hw E P|s w Hw E P|s w g i Hw E Al St|s w g i st Hw E Al St Ne|s w g i Hw E Al
                |s w g i Hw E Al L|s w g i m Hw E Al L|s w g k Hw E Al Hk|s w g k Hw E Al Hk|s w g Hw E Al U].
  - set (s1 := upd_g s g (add_task (s_groups s g))).
    pose proof (measure_c s1 g (CPush (length (g_status (s_groups s g)))) Hg) as X.
    pose proof (measure_add s g Hg Hn) as Y. fold s1 in Y. replace (s_clients s1 g) with CEnqueue in X by (symmetry; exact E).
    cbn [c_weight] in X. clear -X Y. lia.
  - pose proof (measure_c (upd_q s q') g CNotify Hg) as X. pose proof (measure_q s q') as Y.
    pose proof (Permutation_length (queued_push _ _ _ _ (i_wf _ _ I) P)) as LL. cbn [length] in LL. rewrite LL in Y.
    rewrite Nat.mul_succ_r in Y. cbn [s_clients upd_q] in X. rewrite E in X. cbn [c_weight] in X. clear -X Y. lia.
  - pose proof (measure_w (upd_c s g CEnqueue) w WReady Hw) as X. pose proof (measure_c s g CEnqueue Hg) as Y.
    cbn [s_workers upd_c] in X. rewrite Ew in X. rewrite E in Y. cbn [c_weight w_weight] in X, Y. clear -X Y. lia.
  - pose proof (measure_c s g CEnqueue Hg) as Y. rewrite E in Y. cbn [c_weight] in Y. clear -Y. lia.
  - now rewrite NA in Ha.
  - pose proof (measure_c (upd_g s g (destroy (s_groups s g))) g CThrown Hg) as X. rewrite measure_g in X by reflexivity.
    cbn [s_clients upd_g] in X. rewrite E in X. cbn [c_weight] in X. clear -X. lia.
  - pose proof (measure_c s g CWait Hg) as Y. rewrite E in Y. cbn [c_weight] in Y. clear -Y. lia.
  - pose proof (measure_c s g (CReturned (g_errors (s_groups s g))) Hg) as Y. rewrite E in Y. cbn [c_weight] in Y. clear -Y. lia.
  - pose proof (measure_c s g CBlocked Hg) as Y. rewrite E in Y. cbn [c_weight] in Y. clear -Y. lia.
  - pose proof (measure_c (upd_g s g (destroy (s_groups s g))) g (CDone errs) Hg) as X. rewrite measure_g in X by reflexivity.
    cbn [s_clients upd_g] in X. rewrite E in X. cbn [c_weight] in X. clear -X. lia.
  - pose proof (measure_w (upd_q s q') w (WPopped t) Hw) as X. pose proof (measure_q s q') as Y.
    pose proof (Permutation_length (queued_pop _ _ _ _ (i_wf _ _ I) P)) as LL. cbn [length] in LL. rewrite LL in Y.
    rewrite Nat.mul_succ_r in Y. cbn [s_workers upd_q] in X. rewrite E in X. cbn [w_weight] in X. clear -X Y. lia.
  - pose proof (measure_w s w WWaiting Hw) as X. rewrite E in X. cbn [w_weight] in X. clear -X. lia.
  - pose proof (measure_w (upd_g s g (set_status (s_groups s g) i EXECUTING)) w (WRunning (g, i)) Hw) as X.
    rewrite measure_g in X by (apply set_nth_length). cbn [s_workers upd_g] in X. rewrite E in X. cbn [w_weight] in X. clear -X. lia.
  - pose proof (measure_w s w WReady Hw) as X. rewrite E in X. cbn [w_weight] in X. clear -X. lia.
  - pose proof (measure_w s w (match cf_result cf g i with None => WNotify (g, i) | Some m => WFail (g, i) m end) Hw) as X.
    rewrite E in X. destruct (cf_result cf g i); cbn [w_weight] in X |- *; clear -X; lia.
  - set (s1 := upd_g s g (complete_ok (s_groups s g) i)). set (c := wake (s_clients s g)).
    pose proof (measure_w (upd_c s1 g c) w WReady Hw) as X.
    cbn [s_workers upd_c] in X. replace (s_workers s1 w) with (WNotify (g, i)) in X by (symmetry; exact E).
    assert (M1 : measure s1 = measure s) by (apply measure_g, set_nth_length).
    assert (M2 : measure (upd_c s1 g c) <= measure s1 + 1).
    { destruct (Nat.lt_ge_cases g nc) as [Lg|Lg].
      - pose proof (measure_c s1 g c Lg) as Y. pose proof (wake_weight (s_clients s g)) as Z. fold c in Z.
        replace (s_clients s1 g) with (s_clients s g) in Y by reflexivity. clear -Y Z. lia.
      - unfold measure. cbn [s_clients s_queue s_workers upd_c].
        rewrite (sumf_ext nc _ (fun g0 => c_weight (s_clients s1 g0))) by (intros; rewrite wupd_ne by lia; reflexivity).
        change (fun g0 => (cf_tasks cf g0 - ntasks (upd_c s1 g c) g0) * (budget + 10)) with (fun g => (cf_tasks cf g - ntasks s1 g) * (budget + 10)). lia. }
    cbn [w_weight] in X. clear -X M1 M2. lia.
  - set (s1 := upd_g s g (complete_err (s_groups s g) i m w)). set (c := wake (s_clients s g)).
    pose proof (measure_w (upd_c s1 g c) w (WCancel g 0) Hw) as X.
    cbn [s_workers upd_c] in X. replace (s_workers s1 w) with (WFail (g, i) m) in X by (symmetry; exact E).
    assert (M1 : measure s1 = measure s) by (apply measure_g, set_nth_length).
    assert (M2 : measure (upd_c s1 g c) <= measure s1 + 1).
    { destruct (Nat.lt_ge_cases g nc) as [Lg|Lg].
      - pose proof (measure_c s1 g c Lg) as Y. pose proof (wake_weight (s_clients s g)) as Z. fold c in Z.
        replace (s_clients s1 g) with (s_clients s g) in Y by reflexivity. clear -Y Z. lia.
      - unfold measure. cbn [s_clients s_queue s_workers upd_c].
        rewrite (sumf_ext nc _ (fun g0 => c_weight (s_clients s1 g0))) by (intros; rewrite wupd_ne by lia; reflexivity).
        change (fun g0 => (cf_tasks cf g0 - ntasks (upd_c s1 g c) g0) * (budget + 10)) with (fun g => (cf_tasks cf g - ntasks s1 g) * (budget + 10)). lia. }
    cbn [w_weight] in X. clear -X M1 M2. lia.
  - pose proof (measure_w (upd_g s g (cancel_task (s_groups s g) k)) w (WCancel g (S k)) Hw) as X.
    rewrite measure_g in X by (apply cancel_length). cbn [s_workers upd_g] in X. rewrite E in X. cbn [w_weight] in X.
    assert (KB : k < budget).
    { pose proof (i_len _ _ J g) as LE. unfold ntasks in LE.
      destruct (Nat.lt_ge_cases g nc) as [Lg|Lg]; [pose proof (sumf_pos nc (cf_tasks cf) g Lg); unfold budget; lia|].
      exfalso. pose proof (idle_client s g R Lg) as Z. unfold ntasks in Z. lia. }
    clear -X KB. lia.
  - pose proof (measure_w (upd_g s g (set_lock (s_groups s g) None)) w WReady Hw) as X.
    rewrite measure_g in X by reflexivity. cbn [s_workers upd_g] in X. rewrite E in X. cbn [w_weight] in X. clear -X. lia.
  - exfalso. pose proof (no_dangling _ _ _ _ I J Hw E). congruence.
Qed.

Lemma reach_step s s' : reachable cf s -> step cf s s' -> reachable cf s'.
Proof. intros R S. eapply steps_next; [exact R|exact S]. Qed.
Lemma reach_steps s s' : reachable cf s -> steps cf s s' -> reachable cf s'.
Proof. intros R S. eapply steps_trans; [exact R|exact S]. Qed.

Lemma nsteps_steps n k s s' : nsteps cf n k s s' -> steps cf s s'.
Proof.
  intro H. induction H as [|n k s s1 s2 H IH S|n k s s1 s2 H IH S]; [constructor|eapply steps_next|eapply steps_woken];
    [exact IH|exact S|exact IH|exact S].
Qed.

Lemma wakeup_cost s s' : wakeup cf s s' -> measure s' = measure s + 1.
Proof.
  intro W. destruct W as [s g Hg E|s w Hw E].
  - pose proof (measure_c s g CWait Hg) as X. rewrite E in X. cbn [c_weight] in X. clear -X. lia.
  - pose proof (measure_w s w WReady Hw) as X. rewrite E in X. cbn [w_weight] in X. clear -X. lia.
Qed.

Lemma bounded n k s s' : reachable cf s -> nsteps cf n k s s' -> n + measure s' <= measure s + k.
Proof.
  intros R H. induction H as [|n k s s1 s2 H IH S|n k s s1 s2 H IH S]; [lia|..]; specialize (IH R).
  - pose proof (decreases s1 s2 (reach_steps _ _ R (nsteps_steps _ _ _ _ H)) S). lia.
  - pose proof (wakeup_cost s1 s2 S). lia.
Qed.

Lemma settles s : reachable cf s -> exists s', steps cf s s' /\ asleep cf s'.
Proof.
  intro R. remember (measure s) as n eqn:E. revert s R E. induction n as [n IH] using lt_wf_ind. intros s R E.
  destruct (progress s R) as [[s1 S]|A]; [|exists s; split; [constructor|exact A]].
  destruct (IH (measure s1)) with (s := s1) as (s' & S' & A'); [subst; now apply decreases|now apply reach_step with s|reflexivity|].
  exists s'. split; [|exact A']. eapply steps_trans; [|exact S']. eapply steps_next; [constructor|exact S].
Qed.

(* in the end a client has its answer, or one of its tasks was cancelled *)
Lemma outcome_of_client s g : reachable cf s -> asleep cf s -> g < nc -> cf_tasks cf g <> 0 ->
  (exists e, s_clients s g = CDone e) \/
  (s_clients s g = CBlocked /\ exists i, i < cf_tasks cf g /\ nth_error (g_status (s_groups s g)) i = Some CANCELLED).
Proof.
  intros R A Hg Z. destruct (proj2 A g Hg) as [X|[X|X]]; [now left| |].
  - destruct (inv_reach cf NA s R) as [I J]. apply (i_thrown _ _ J) in X. congruence.
  - right. split; [exact X|]. now apply asleep_blocked.
Qed.

Lemma cancelled_why s g i : reachable cf s -> nth_error (g_status (s_groups s g)) i = Some CANCELLED ->
  exists j, j < cf_tasks cf g /\ j <> i /\ cf_result cf g j <> None.
Proof.
  intros R C. destruct (inv_reach cf NA s R) as [I J]. pose proof (i_ginv _ _ J g) as [_ _ _ G4 G5].
  destruct (G5 i C) as [j F]. exists j. repeat split.
  - apply nth_lt in F. pose proof (i_len _ _ J g) as LE. unfold ntasks in LE. lia.
  - congruence.
  - now apply G4.
Qed.

Lemma cancelled_stays s s' g i : reachable cf s -> step cf s s' ->
  nth_error (g_status (s_groups s g)) i = Some CANCELLED -> nth_error (g_status (s_groups s' g)) i = Some CANCELLED.
Proof.
  intros R H C. destruct (inv_reach cf NA s R) as [I J].
  destruct H as [s g' Hg E L Hn Ha|s g' i' q' Hg E P|s g' w Hg E Hw Ew|s g' Hg E Hw|s g' Hg E Ha|s g' Hg E Hz Ha|s g' Hg E Hn Hz Ha
                |s g' Hg E L Hc|s g' Hg E L Hc|s g' errs Hg E
                |s w g' t q' Hw E P|s w Hw E P|s w g' i' Hw E Al St|s w g' i' st Hw E Al St Ne|s w g' i' Hw E Al
                |s w g' i' Hw E Al L|s w g' i' m Hw E Al L|s w g' k Hw E Al Hk|s w g' k Hw E Al Hk|s w g' Hw E Al U];
    cbn [s_groups upd_c upd_g upd_w upd_q set_ub]; try exact C; unfold wupd;
    destruct (Nat.eqb_spec g g') as [X|X]; try exact C; subst g'; cbn [g_status add_task destroy set_status complete_ok complete_err set_lock]; try exact C.
  - rewrite nth_error_app1; [exact C|]. eapply nth_lt, C.
  - rewrite set_nth_get. destruct (Nat.eqb_spec i i') as [Y|Y]; [congruence|exact C].
  - destruct (held_R _ _ _ g i' I Hw) as (S1 & _ & _); [apply hR_self; rewrite E; tauto|]. unfold status_of in S1.
    rewrite set_nth_get. destruct (Nat.eqb_spec i i') as [Y|Y]; [congruence|exact C].
  - destruct (held_R _ _ _ g i' I Hw) as (S1 & _ & _); [apply hR_self; rewrite E; eauto|]. unfold status_of in S1.
    rewrite set_nth_get. destruct (Nat.eqb_spec i i') as [Y|Y]; [congruence|exact C].
  - rewrite cancel_get, C. reflexivity.
Qed.

Lemma cancelled_hangs s s' g i e : reachable cf s -> nth_error (g_status (s_groups s g)) i = Some CANCELLED ->
  steps cf s s' -> ~ returned s' g e.
Proof.
  intros R C H X.
  assert (C' : nth_error (g_status (s_groups s' g)) i = Some CANCELLED).
  { clear X. induction H as [|s s1 s2 H IH S|s s1 s2 H IH S]; [exact C| |specialize (IH R C); destruct S; exact IH]. eapply cancelled_stays; [|exact S|apply IH; assumption].
    eapply reach_steps; [exact R|exact H]. }
  destruct (returned_spec cf NA s' g e (reach_steps _ _ R H) X) as (N & ST & _).
  specialize (ST i). rewrite C' in ST. assert (i < cf_tasks cf g) as L by (rewrite <- N; eapply nth_lt, C').
  specialize (ST L). destruct (cf_result cf g i); discriminate.
Qed.

Lemma completes_if s g : reachable cf s -> g < nc -> cf_tasks cf g <> 0 ->
  (forall i j, i < cf_tasks cf g -> j < cf_tasks cf g -> i <> j -> cf_result cf g j = None) -> completes cf s g.
Proof.
  intros R Hg Z NF. split.
  - exists (measure s). intros n k s' H. pose proof (bounded n k s s' R H). lia.
  - intros s' H. pose proof (reach_steps _ _ R H) as R'. destruct (progress s' R') as [X|A]; [now left|]. right.
    destruct (outcome_of_client s' g R' A Hg Z) as [[e X]|[B (i & L & C)]].
    + exists e. split; [exact X|]. eapply (returned_spec cf NA s' g e R'). now right.
    + exfalso. destruct (cancelled_why s' g i R' C) as (j & Lj & N & F). apply F. eapply (NF i j); auto.
Qed.
End Live.

(* ---- the two findings ---- *)
Lemma hang_found : exists s, reachable hang_cf s /\ asleep hang_cf s /\ s_clients s 0 = CBlocked /\
  g_errors (s_groups s 0) = ["grid hash mismatch"%string].
Proof.
  destruct (play hang_cf sys_init hang_schedule) as [s|] eqn:E; [|vm_compute in E; discriminate].
  pose proof (play_steps _ _ _ _ E) as R. exists s. split; [exact R|].
  vm_compute in E. injection E as <-. repeat split.
  - intros w Hw. cbn in Hw. assert (w = 0) as -> by lia. reflexivity.
  - intros g Hg. cbn in Hg. assert (g = 0) as -> by lia. right. right. reflexivity.
Qed.

Lemma dangling_found : exists s, reachable abandon_cf s /\ s_ub s = true.
Proof.
  destruct (play abandon_cf sys_init abandon_schedule) as [s|] eqn:E; [|vm_compute in E; discriminate].
  pose proof (play_steps _ _ _ _ E) as R. exists s. split; [exact R|].
  vm_compute in E. injection E as <-. reflexivity.
Qed.

Lemma completes_single cf : no_abandon cf -> 0 < cf_workers cf ->
  forall s g, reachable cf s -> g < cf_clients cf -> cf_tasks cf g = 1 -> completes cf s g.
Proof. intros NA NW s g R Hg O. apply completes_if; auto; [lia|]. intros i j Hi Hj N. lia. Qed.

Lemma errors_exact cf : no_abandon cf -> forall s g e, reachable cf s -> returned s g e ->
    Permutation e (failures cf g) /\
    (e = [] <-> forall i, i < cf_tasks cf g -> cf_result cf g i = None).
Proof.
  intros NA s g e R H. destruct (returned_spec cf NA s g e R H) as (_ & _ & _ & P). split; [exact P|]. split.
  - intros -> i L. apply Permutation_nil in P. destruct (cf_result cf g i) as [m|] eqn:E; [|reflexivity]. exfalso.
    assert (In m (failures cf g)) as X.
    { unfold failures. apply in_flat_map. exists i. split; [apply in_seq; lia|]. rewrite E. now left. }
    rewrite P in X. destruct X.
  - intro A. assert (failures cf g = []) as F.
    { unfold failures. assert (forall l, (forall i, In i l -> i < cf_tasks cf g) -> 
         flat_map (fun i => match cf_result cf g i with Some m => [m] | None => [] end) l = []) as X.
      { induction l as [|i l IH]; intro B; [reflexivity|]. cbn. rewrite (A i) by (apply B; now left). cbn. apply IH.
        intros k K. apply B. now right. }
      apply X. intros i I. apply in_seq in I. lia. }
    rewrite F in P. symmetry in P. now apply Permutation_nil in P.
Qed.

Lemma workers_survive cf : no_abandon cf -> 0 < cf_workers cf ->
  forall s, reachable cf s -> (exists s', step cf s s') \/ (asleep cf s /\ queued (s_queue s) = []).
Proof.
  intros NA NW s R. destruct (progress cf NA NW s R) as [X|A]; [now left|]. right. split; [exact A|].
  apply wf_empty; [|now apply asleep_queue with cf]. destruct (inv_reach cf NA s R) as [I _]. apply (i_wf _ _ I).
Qed.
