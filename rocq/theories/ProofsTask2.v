(* The invariants of the task system, second part, and C31-C35. *)
From Verif Require Import Base BaseLemmas ModelQueue ModelTask SpecQueue ProofsQueue ProofsPool ProofsTask.
From Coq Require Import Permutation Lia.
Local Open Scope nat_scope.

Lemma gather_upd2 {A} n (f g : nat -> list A) w : w < n -> (forall i, i <> w -> f i = g i) ->
  Permutation (gather n f ++ g w) (gather n g ++ f w).
Proof.
  induction n as [|n IH]; intros H E; [lia|]. cbn. destruct (Nat.eq_dec w n) as [X|X].
  - subst w. rewrite (gather_ext n f g) by (intros; apply E; lia).
    rewrite <- !app_assoc. apply Permutation_app_head, Permutation_app_comm.
  - rewrite (E n) by lia. specialize (IH ltac:(lia) E).
    rewrite <- !app_assoc. rewrite (Permutation_app_comm (g n) (g w)), (Permutation_app_comm (g n) (f w)).
    rewrite !app_assoc. apply Permutation_app_tail, IH.
Qed.

Lemma sumf_full n (f : nat -> bool) : sumf n (fun i => b2n (f i)) = n -> forall i, i < n -> f i = true.
Proof.
  induction n as [|n IH]; cbn; intros H i L; [lia|].
  assert (B : forall k, sumf k (fun i => b2n (f i)) <= k) by (clear; induction k; cbn; [lia|destruct (f k); cbn; lia]).
  specialize (B n). destruct (f n) eqn:F; cbn in H; [|lia].
  destruct (Nat.eq_dec i n) as [->|]; [exact F|]. apply IH; lia.
Qed.

Lemma nth_lt {A} (l : list A) i x : nth_error l i = Some x -> i < length l.
Proof. intro H. apply nth_error_Some. congruence. Qed.

Definition optl {A} (o : option A) : list A := match o with Some x => [x] | None => [] end.

Section Inv.
Variable cf : config.
Let nw := cf_workers cf.
Let nc := cf_clients cf.
Hypothesis NA : no_abandon cf.

Definition count_of (G : group) (i : nat) : nat := b2n (terminal (nth_error (g_status G) i)).
Definition msgs_of (g : nat) (G : group) (i : nat) : list string :=
  match nth_error (g_status G) i with Some FAILED => optl (cf_result cf g i) | _ => [] end.

(* facts about one group by itself *)
Record ginv (g : nat) (G : group) : Prop := mk_ginv {
  gi_count : g_complete G = sumf (length (g_status G)) (count_of G);
  gi_errs : Permutation (g_errors G) (gather (length (g_status G)) (msgs_of g G));
  gi_done : forall i, nth_error (g_status G) i = Some DONE -> cf_result cf g i = None;
  gi_failed : forall i, nth_error (g_status G) i = Some FAILED -> cf_result cf g i <> None;
  gi_canc : forall i, nth_error (g_status G) i = Some CANCELLED -> exists j, nth_error (g_status G) j = Some FAILED
}.

Lemma ginv_new g : ginv g new_group.
Proof. constructor; cbn; try reflexivity; intros [|i]; discriminate. Qed.

Lemma ginv_same g G G' : ginv g G -> g_status G' = g_status G -> g_complete G' = g_complete G -> g_errors G' = g_errors G -> ginv g G'.
Proof.
  intros [A B C D E] H1 H2 H3. unfold count_of, msgs_of in *. constructor; unfold count_of, msgs_of; rewrite ?H1, ?H2, ?H3; auto.
Qed.

Lemma ginv_add g G : ginv g G -> ginv g (add_task G).
Proof.
  intros [A B C D E].
  assert (X : forall i st, nth_error (g_status G ++ [PENDING]) i = Some st -> st <> PENDING -> nth_error (g_status G) i = Some st).
  { intros i st H N. destruct (Nat.lt_ge_cases i (length (g_status G))) as [L|L].
    - now rewrite nth_error_app1 in H by exact L.
    - rewrite nth_error_app2 in H by exact L. destruct (i - length (g_status G)) as [|k]; cbn in H; [congruence|].
      destruct k; discriminate. }
  constructor; cbn.
  - rewrite app_length. cbn. rewrite Nat.add_1_r. cbn. unfold count_of at 2. cbn.
    rewrite nth_error_app2, Nat.sub_diag by lia. cbn. rewrite Nat.add_0_r, A. apply sumf_ext. intros i L.
    unfold count_of. cbn. now rewrite nth_error_app1.
  - rewrite app_length. cbn. rewrite Nat.add_1_r. cbn. unfold msgs_of at 2. cbn.
    rewrite nth_error_app2, Nat.sub_diag by lia. cbn. rewrite app_nil_r, B.
    rewrite (gather_ext _ (msgs_of g (add_task G)) (msgs_of g G)); [reflexivity|]. intros i L.
    unfold msgs_of. cbn. now rewrite nth_error_app1.
  - intros i H. apply C, X; [exact H|discriminate].
  - intros i H. apply D, X; [exact H|discriminate].
  - intros i H. destruct (E i) as [j J]; [apply X; [exact H|discriminate]|]. exists j.
    rewrite nth_error_app1 by (eapply nth_lt; exact J). exact J.
Qed.

(* one status changes; count and errors follow *)
Lemma ginv_set g G G' i old new : ginv g G -> nth_error (g_status G) i = Some old -> old <> FAILED ->
  g_status G' = set_nth (g_status G) i new ->
  g_complete G' + b2n (terminal (Some old)) = g_complete G + b2n (terminal (Some new)) ->
  (g_errors G' = g_errors G ++ match new with FAILED => optl (cf_result cf g i) | _ => [] end) ->
  (new = DONE -> cf_result cf g i = None) -> (new = FAILED -> cf_result cf g i <> None) ->
  (new = CANCELLED -> exists j, nth_error (g_status G) j = Some FAILED) -> ginv g G'.
Proof.
  intros [A B C D E] H NF H1 H2 H3 H4 H5 H6. pose proof (nth_lt _ _ _ H) as L.
  constructor; rewrite ?H1, ?set_nth_length.
  - pose proof (sumf_upd2 (length (g_status G)) (count_of G') (count_of G) i L) as S.
    rewrite <- A in S. assert (X : forall j, j <> i -> count_of G' j = count_of G j).
    { intros j N. unfold count_of. rewrite H1, set_nth_get. apply Nat.eqb_neq in N. now rewrite N. }
    specialize (S X). unfold count_of at 2 3 in S. rewrite H1, set_nth_get, Nat.eqb_refl, H in S. lia.
  - pose proof (gather_upd2 (length (g_status G)) (msgs_of g G') (msgs_of g G) i L) as S.
    rewrite <- B in S. assert (X : forall j, j <> i -> msgs_of g G' j = msgs_of g G j).
    { intros j N. unfold msgs_of. rewrite H1, set_nth_get. apply Nat.eqb_neq in N. now rewrite N. }
    specialize (S X). unfold msgs_of at 2 3 in S. rewrite H1, set_nth_get, Nat.eqb_refl, H in S. rewrite H3.
    destruct old; try congruence; rewrite app_nil_r in S; symmetry; exact S.
  - intros j J. rewrite set_nth_get, H in J. destruct (Nat.eqb_spec j i) as [X|N]; [subst j; injection J as J; auto|auto].
  - intros j J. rewrite set_nth_get, H in J. destruct (Nat.eqb_spec j i) as [X|N]; [subst j; injection J as J; auto|auto].
  - intros j J. rewrite set_nth_get, H in J.
    assert (exists k, nth_error (g_status G) k = Some FAILED) as [k K].
    { destruct (Nat.eqb_spec j i) as [X|N]; [subst j; injection J as J; auto|eauto]. }
    exists k. rewrite set_nth_get. destruct (Nat.eqb_spec k i) as [->|N]; [congruence|exact K].
Qed.

Definition waits (c : client) : bool := match c with CWait | CBlocked | CReturned _ | CDone _ => true | _ => false end.

Record inv2 (s : sys) : Prop := mk_inv2 {
  i_ginv : forall g, ginv g (s_groups s g);
  i_notify : forall w g i, s_workers s w = WNotify (g, i) -> cf_result cf g i = None;
  i_fail : forall w g i m, s_workers s w = WFail (g, i) m -> cf_result cf g i = Some m;
  i_lock : forall g w, g_lock (s_groups s g) = Some w <-> (w < nw /\ exists k, s_workers s w = WCancel g k);
  i_canc : forall w g k, s_workers s w = WCancel g k -> exists j, status_of s g j = Some FAILED;
  i_len : forall g, ntasks s g <= cf_tasks cf g;
  i_wait : forall g, waits (s_clients s g) = true -> ntasks s g = cf_tasks cf g /\ cf_tasks cf g <> 0;
  i_ret : forall g e, returned s g e -> g_complete (s_groups s g) = ntasks s g /\ g_errors (s_groups s g) = e /\ g_lock (s_groups s g) = None;
  i_blocked : forall g, s_clients s g = CBlocked -> g_complete (s_groups s g) <> ntasks s g;
  i_alive : forall g, g_alive (s_groups s g) = false ->
     (exists e, s_clients s g = CDone e) \/ (s_clients s g = CThrown /\ cf_tasks cf g = 0);
  i_thrown : forall g, s_clients s g = CThrown -> cf_tasks cf g = 0;
  i_range : forall w, nw <= w -> s_workers s w = WReady;
  i_ub : s_ub s = false
}.

Lemma inv2_init : inv2 sys_init.
Proof.
  constructor; cbn; try discriminate; auto.
  - intro g. apply ginv_new.
  - intros g w. split; [discriminate|]. intros (_ & k & H). discriminate.
  - intros g. unfold ntasks. cbn. lia.
  - intros g e [H|H]; discriminate.
Qed.

(* everything has finished when the count is reached *)
Lemma complete_all s g i : inv2 s -> g_complete (s_groups s g) = ntasks s g -> i < ntasks s g ->
  terminal (status_of s g i) = true.
Proof.
  intros I H L. pose proof (gi_count _ _ (i_ginv _ I g)) as C. rewrite H in C. symmetry in C.
  exact (sumf_full _ _ C i L).
Qed.

Lemma complete_place s g i : inv1 cf s -> inv2 s -> g_complete (s_groups s g) = ntasks s g ->
  atA cf s g i = 0 /\ atR cf s g i = 0.
Proof.
  intros I J H. pose proof (i_place _ _ I g i) as P. destruct (Nat.lt_ge_cases i (ntasks s g)) as [L|L].
  - pose proof (complete_all _ _ _ J H L) as T. destruct (status_of s g i) as [[]|]; try discriminate; exact P.
  - unfold status_of in P. rewrite (proj2 (nth_error_None _ _)) in P by exact L. exact P.
Qed.

(* the group a worker is about to touch exists, and nobody has returned from it *)
Lemma touched_open s w g : inv1 cf s -> inv2 s -> w < nw -> touches (s_workers s w) = Some g ->
  (forall e, ~ returned s g e) /\ ntasks s g <> 0.
Proof.
  intros I J H T.
  assert (X : (exists i, 1 <= atA cf s g i + atR cf s g i) \/ g_lock (s_groups s g) <> None /\ ntasks s g <> 0).
  { destruct (s_workers s w) as [| |[a b]|[a b]|[a b]|[a b] m|a b] eqn:E; cbn in T; try discriminate; injection T as ->.
    - left. exists b. destruct (held_A _ _ _ _ _ I H E) as (_ & A & _). lia.
    - left. exists b. destruct (held_R _ _ _ g b I H) as (_ & _ & A); [apply hR_self; tauto|]. lia.
    - left. exists b. destruct (held_R _ _ _ g b I H) as (_ & _ & A); [apply hR_self; tauto|]. lia.
    - left. exists b. destruct (held_R _ _ _ g b I H) as (_ & _ & A); [apply hR_self; eauto|]. lia.
    - right. split.
      + rewrite (proj2 (i_lock _ J g w)); [discriminate|]. eauto.
      + destruct (i_canc _ J _ _ _ E) as [j K]. apply nth_lt in K. unfold ntasks. lia. }
  split.
  - intros e R. destruct (i_ret _ J _ _ R) as (C & _ & L). destruct X as [(i & X)|[X _]]; [|congruence].
    pose proof (complete_place _ _ i I J C). lia.
  - destruct X as [(i & X)|[_ X]]; [|exact X]. intro Z. pose proof (i_place _ _ I g i) as P.
    unfold status_of in P. rewrite (proj2 (nth_error_None _ _)) in P by (fold (ntasks s g); lia). cbn in P. lia.
Qed.

Lemma no_dangling s w g : inv1 cf s -> inv2 s -> w < nw -> touches (s_workers s w) = Some g -> g_alive (s_groups s g) = true.
Proof.
  intros I J H T. destruct (g_alive (s_groups s g)) eqn:E; [reflexivity|]. exfalso.
  destruct (touched_open _ _ _ I J H T) as [X Y]. destruct (i_alive _ J g E) as [[e C]|[C Z]].
  - apply (X e). now right.
  - pose proof (i_len _ J g). lia.
Qed.

(* ---- preservation, one component at a time ---- *)
Lemma inv2_w s w x : inv2 s -> w < nw ->
  (forall g, (exists k, x = WCancel g k) <-> (exists k, s_workers s w = WCancel g k)) ->
  (forall g i, x = WNotify (g, i) -> cf_result cf g i = None) ->
  (forall g i m, x = WFail (g, i) m -> cf_result cf g i = Some m) -> inv2 (upd_w s w x).
Proof.
  intros I H C N F. destruct I as [A1 A2 A3 A4 A5 A6 A7 A8 A9 A10 A11 A12 A13].
  constructor; auto; cbn [s_workers s_groups s_clients upd_w].
  - intros v g i. unfold wupd. destruct (Nat.eqb v w); [apply N|apply A2].
  - intros v g i m. unfold wupd. destruct (Nat.eqb v w); [apply F|apply A3].
  - intros g v. unfold wupd. destruct (Nat.eqb_spec v w) as [E|E]; [subst v; rewrite C|]; apply A4.
  - intros v g k. unfold wupd. destruct (Nat.eqb_spec v w) as [E|E]; [|apply A5].
    intros ->. destruct (proj1 (C g)) as [k' K]; [eauto|]. eapply A5, K.
  - intros v L. rewrite wupd_ne by lia. now apply A12.
Qed.

Lemma inv2_q s q : inv2 s -> inv2 (upd_q s q).
Proof. intros [A1 A2 A3 A4 A5 A6 A7 A8 A9 A10 A11 A12 A13]. constructor; auto. Qed.

Lemma inv2_c s g c : inv2 s ->
  (waits c = true -> ntasks s g = cf_tasks cf g /\ cf_tasks cf g <> 0) ->
  (forall e, c = CReturned e \/ c = CDone e ->
     g_complete (s_groups s g) = ntasks s g /\ g_errors (s_groups s g) = e /\ g_lock (s_groups s g) = None) ->
  (c = CBlocked -> g_complete (s_groups s g) <> ntasks s g) ->
  (g_alive (s_groups s g) = false -> (exists e, c = CDone e) \/ (c = CThrown /\ cf_tasks cf g = 0)) ->
  (c = CThrown -> cf_tasks cf g = 0) -> inv2 (upd_c s g c).
Proof.
  intros I H1 H2 H3 H4 H5. destruct I as [A1 A2 A3 A4 A5 A6 A7 A8 A9 A10 A11 A12 A13].
  constructor; auto; cbn [s_workers s_groups s_clients upd_c].
  - intros g'. unfold wupd. destruct (Nat.eqb_spec g' g) as [->|E]; [exact H1|apply A7].
  - intros g' e. unfold returned. cbn [s_clients upd_c]. unfold wupd. destruct (Nat.eqb_spec g' g) as [->|E]; [apply H2|apply A8].
  - intros g'. unfold wupd. destruct (Nat.eqb_spec g' g) as [->|E]; [exact H3|apply A9].
  - intros g'. unfold wupd. destruct (Nat.eqb_spec g' g) as [->|E]; [exact H4|apply A10].
  - intros g'. unfold wupd. destruct (Nat.eqb_spec g' g) as [->|E]; [exact H5|apply A11].
Qed.

Lemma inv2_g s g G : inv2 s -> ginv g G -> g_lock G = g_lock (s_groups s g) ->
  (forall j, status_of s g j = Some FAILED -> nth_error (g_status G) j = Some FAILED) ->
  length (g_status G) <= cf_tasks cf g ->
  (waits (s_clients s g) = true -> length (g_status G) = ntasks s g) ->
  ((g_complete G = g_complete (s_groups s g) /\ g_errors G = g_errors (s_groups s g)) \/
     ((forall e, ~ returned s g e) /\ s_clients s g <> CBlocked)) ->
  (g_alive G = false -> (exists e, s_clients s g = CDone e) \/ (s_clients s g = CThrown /\ cf_tasks cf g = 0)) ->
  inv2 (upd_g s g G).
Proof.
  intros I H1 H2 H3 H4 H5 H6 H7. destruct I as [A1 A2 A3 A4 A5 A6 A7 A8 A9 A10 A11 A12 A13].
  constructor; auto; cbn [s_workers s_groups s_clients upd_g].
  - intros g'. unfold wupd. destruct (Nat.eqb_spec g' g) as [->|E]; [exact H1|apply A1].
  - intros g' w. unfold wupd. destruct (Nat.eqb_spec g' g) as [->|E]; [rewrite H2|]; apply A4.
  - intros w g' k K. destruct (A5 _ _ _ K) as [j J]. exists j. rewrite st_g. destruct (Nat.eqb_spec g' g) as [->|E]; auto.
  - intros g'. rewrite nt_g. destruct (Nat.eqb_spec g' g) as [->|E]; auto.
  - intros g' W. rewrite nt_g. destruct (Nat.eqb_spec g' g) as [->|E]; [|auto]. rewrite H5 by exact W. auto.
  - intros g' e R. rewrite nt_g. unfold wupd. destruct (Nat.eqb_spec g' g) as [->|E]; [|auto].
    assert (waits (s_clients s g) = true) as W by (destruct R as [R|R]; cbn in R; rewrite R; reflexivity).
    rewrite (H5 W), H2. destruct H6 as [[-> ->]|[N _]]; [now apply A8|]. exfalso. exact (N e R).
  - intros g' B. rewrite nt_g. unfold wupd. destruct (Nat.eqb_spec g' g) as [->|E]; [|auto].
    rewrite H5 by (rewrite B; reflexivity). destruct H6 as [[-> _]|[_ N]]; [now apply A9|congruence].
  - intros g'. unfold wupd. destruct (Nat.eqb_spec g' g) as [->|E]; [exact H7|apply A10].
Qed.

Lemma alive_case s g : inv2 s -> s_clients s g <> CThrown -> (forall e, s_clients s g <> CDone e) -> g_alive (s_groups s g) = true.
Proof.
  intros I N M. destruct (g_alive (s_groups s g)) eqn:E; [reflexivity|]. destruct (i_alive _ I g E) as [[e C]|[C _]]; [now apply M in C|congruence].
Qed.

Lemma inv2_wake s g : inv2 s -> inv2 (upd_c s g (wake (s_clients s g))).
Proof.
  intro I. destruct I as [A1 A2 A3 A4 A5 A6 A7 A8 A9 A10 A11 A12 A13] eqn:EI. apply inv2_c; auto.
  - intro W. apply A7. destruct (s_clients s g); auto.
  - intros e R. apply A8. destruct (s_clients s g) eqn:E; cbn in R; destruct R as [R|R]; try discriminate; injection R as ->;
      [now left|now right].
  - intro B. destruct (s_clients s g); discriminate.
  - intro D. destruct (A10 g D) as [[e C]|[C Z]]; rewrite C; cbn; eauto.
  - intro T. apply A11. destruct (s_clients s g); try discriminate; auto.
Qed.

Lemma wake_ret s g e : returned (upd_c s g (wake (s_clients s g))) g e <-> returned s g e.
Proof.
  unfold returned. cbn. rewrite wupd_eq. destruct (s_clients s g); cbn; split; intros [R|R]; try discriminate; auto.
Qed.

(* a step that takes the lock: a task failed *)
Lemma inv2_err s w g i m : inv1 cf s -> inv2 s -> w < nw -> s_workers s w = WFail (g, i) m -> g_lock (s_groups s g) = None ->
  inv2 (upd_w (upd_c (upd_g s g (complete_err (s_groups s g) i m w)) g (wake (s_clients s g))) w (WCancel g 0)).
Proof.
  intros I J H E L.
  destruct (held_R _ _ _ g i I H) as (S1 & _ & _); [apply hR_self; rewrite E; eauto|].
  destruct (touched_open _ _ g I J H) as [T1 T2]; [now rewrite E|].
  pose proof (i_fail _ J _ _ _ _ E) as R.
  pose proof (inv2_wake _ g J) as K.
  change (inv2 (upd_w (upd_g (upd_c s g (wake (s_clients s g))) g (complete_err (s_groups s g) i m w)) w (WCancel g 0))).
  assert (T3 : forall e, ~ returned (upd_c s g (wake (s_clients s g))) g e) by (intros e X; exact (T1 e (proj1 (wake_ret s g e) X))).
  assert (T4 : s_clients (upd_c s g (wake (s_clients s g))) g <> CBlocked) by (cbn; rewrite wupd_eq; destruct (s_clients s g); discriminate).
  set (s1 := upd_c s g (wake (s_clients s g))) in *.
  assert (EG : s_groups s1 = s_groups s) by reflexivity.
  assert (EW : s_workers s1 = s_workers s) by reflexivity.
  assert (S1' : status_of s1 g i = Some EXECUTING) by exact S1.
  assert (AL : g_alive (s_groups s g) = true) by (eapply no_dangling; [exact I|exact J|exact H|rewrite E; reflexivity]).
  clearbody s1. rewrite <- EG in *. clear EG.
  destruct K as [A1 A2 A3 A4 A5 A6 A7 A8 A9 A10 A11 A12 A13].
  assert (GI : ginv g (complete_err (s_groups s1 g) i m w)).
  { eapply (ginv_set g (s_groups s1 g) _ i EXECUTING FAILED); cbn; auto; try discriminate; try congruence; try lia.
    rewrite R. reflexivity. }
  constructor; auto; cbn [s_workers s_groups s_clients upd_w upd_g s_ub].
  - intros g'. unfold wupd. destruct (Nat.eqb_spec g' g) as [->|N]; [exact GI|apply A1].
  - intros v g' i'. unfold wupd. destruct (Nat.eqb_spec v w) as [->|N]; [discriminate|apply A2].
  - intros v g' i' m'. unfold wupd. destruct (Nat.eqb_spec v w) as [->|N]; [discriminate|apply A3].
  - intros g' v. unfold wupd. destruct (Nat.eqb_spec g' g) as [->|N]; cbn [complete_err g_lock].
    + destruct (Nat.eqb_spec v w) as [->|M]; split; intro X.
      * split; [exact H|]. eauto.
      * reflexivity.
      * injection X as ->. congruence.
      * exfalso. pose proof (proj2 (A4 g v) X) as Y. congruence.
    + rewrite A4. destruct (Nat.eqb_spec v w) as [->|M]; [|tauto]. rewrite EW, E. split; intros (_ & k & X); [discriminate|].
      injection X as -> _. congruence.
  - intros v g' k X. rewrite st_w, st_g in * || idtac.
    assert (Y : forall j, status_of s1 g' j = Some FAILED ->
                status_of (upd_w (upd_g s1 g (complete_err (s_groups s1 g) i m w)) w (WCancel g 0)) g' j = Some FAILED).
    { intros j Z. rewrite st_w, st_g. destruct (Nat.eqb_spec g' g) as [->|N]; [|exact Z]. cbn.
      rewrite set_nth_get. unfold status_of in *. destruct (Nat.eqb_spec j i) as [->|M]; [congruence|exact Z]. }
    unfold wupd in X. destruct (Nat.eqb_spec v w) as [->|N].
    + injection X as <- <-. exists i. rewrite st_w, st_g, Nat.eqb_refl. cbn. rewrite set_nth_get, Nat.eqb_refl.
      unfold status_of in S1'. now rewrite S1'.
    + destruct (A5 _ _ _ X) as [j Z]. exists j. now apply Y.
  - intros g'. change (ntasks (upd_g s1 g (complete_err (s_groups s1 g) i m w)) g' <= cf_tasks cf g'). rewrite nt_g.
    destruct (Nat.eqb_spec g' g) as [->|N]; [|apply A6]. cbn. rewrite set_nth_length. apply A6.
  - intros g' W. change (ntasks (upd_g s1 g (complete_err (s_groups s1 g) i m w)) g' = cf_tasks cf g' /\ cf_tasks cf g' <> 0). rewrite nt_g.
    destruct (Nat.eqb_spec g' g) as [->|N]; [|now apply A7]. cbn. rewrite set_nth_length. now apply A7.
  - intros g' e X. unfold wupd. destruct (Nat.eqb_spec g' g) as [->|N]; [exfalso; exact (T3 e X)|].
    change (ntasks (upd_w (upd_g s1 g (complete_err (s_groups s1 g) i m w)) w (WCancel g 0)) g')
      with (ntasks (upd_g s1 g (complete_err (s_groups s1 g) i m w)) g').
    rewrite nt_g. apply Nat.eqb_neq in N. rewrite N. now apply A8.
  - intros g' X. unfold wupd. destruct (Nat.eqb_spec g' g) as [->|N]; [congruence|].
    change (ntasks (upd_w (upd_g s1 g (complete_err (s_groups s1 g) i m w)) w (WCancel g 0)) g')
      with (ntasks (upd_g s1 g (complete_err (s_groups s1 g) i m w)) g').
    rewrite nt_g. apply Nat.eqb_neq in N. rewrite N. now apply A9.
  - intros g'. unfold wupd. destruct (Nat.eqb_spec g' g) as [->|N]; [|apply A10]. cbn. congruence.
  - intros v L'. rewrite wupd_ne by lia. now apply A12.
Qed.

Lemma inv2_unlock s w g k : inv1 cf s -> inv2 s -> w < nw -> s_workers s w = WCancel g k ->
  inv2 (upd_w (upd_g s g (set_lock (s_groups s g) None)) w WReady).
Proof.
  intros I J H E. destruct (touched_open _ _ g I J H) as [T1 T2]; [now rewrite E|].
  destruct J as [A1 A2 A3 A4 A5 A6 A7 A8 A9 A10 A11 A12 A13].
  assert (LK : g_lock (s_groups s g) = Some w) by (apply A4; eauto).
  assert (NT : forall g', ntasks (upd_w (upd_g s g (set_lock (s_groups s g) None)) w WReady) g' = ntasks s g').
  { intro g'. change (ntasks (upd_g s g (set_lock (s_groups s g) None)) g' = ntasks s g'). rewrite nt_g.
    destruct (Nat.eqb_spec g' g) as [->|N]; reflexivity. }
  constructor; auto; cbn [s_workers s_groups s_clients upd_w upd_g s_ub].
  - intros g'. unfold wupd. destruct (Nat.eqb_spec g' g) as [->|N]; [|apply A1]. eapply ginv_same; [apply A1|reflexivity..].
  - intros v g' i'. unfold wupd. destruct (Nat.eqb_spec v w) as [->|N]; [discriminate|apply A2].
  - intros v g' i' m'. unfold wupd. destruct (Nat.eqb_spec v w) as [->|N]; [discriminate|apply A3].
  - intros g' v. unfold wupd. destruct (Nat.eqb_spec g' g) as [->|N]; cbn [set_lock g_lock].
    + split; [discriminate|]. intros (X & k' & Y). exfalso. destruct (Nat.eqb_spec v w) as [->|M]; [discriminate|].
      pose proof (proj2 (A4 g v) (conj X (ex_intro _ _ Y))). congruence.
    + rewrite A4. destruct (Nat.eqb_spec v w) as [->|M]; [|tauto]. rewrite E. split; intros (_ & k' & X); [|discriminate].
      injection X as -> _. congruence.
  - intros v g' k' X. unfold wupd in X. destruct (Nat.eqb_spec v w) as [->|N]; [discriminate|].
    destruct (A5 _ _ _ X) as [j Z]. exists j. rewrite st_w, st_g. destruct (Nat.eqb_spec g' g) as [->|M]; exact Z.
  - intros g'. rewrite NT. apply A6.
  - intros g' W. rewrite NT. now apply A7.
  - intros g' e X. rewrite NT. unfold wupd. destruct (Nat.eqb_spec g' g) as [->|N]; [exfalso; exact (T1 e X)|]. now apply A8.
  - intros g' X. rewrite NT. unfold wupd. destruct (Nat.eqb_spec g' g) as [->|N]; now apply A9.
  - intros g'. unfold wupd. destruct (Nat.eqb_spec g' g) as [->|N]; apply A10.
  - intros v L'. rewrite wupd_ne by lia. now apply A12.
Qed.

Ltac nocancel E := intros; rewrite ?E; cbn [s_workers upd_c upd_q upd_g]; rewrite ?E; split; intros [? ?]; discriminate.

Lemma inv2_step s s' : inv1 cf s -> inv2 s -> step cf s s' -> inv2 s'.
Proof.
  intros I J H.
  destruct H as [s g Hg E L Hn Ha|s g i q' Hg E P|s g w Hg E Hw Ew|s g Hg E Hw|s g Hg E Ha|s g Hg E Hz Ha|s g Hg E Hn Hz Ha
                |s g Hg E L Hc|s g Hg E L Hc|s g errs Hg E
                |s w g t q' Hw E P|s w Hw E P|s w g i Hw E Al St|s w g i st Hw E Al St Ne|s w g i Hw E Al
                |s w g i Hw E Al L|s w g i m Hw E Al L|s w g k Hw E Al Hk|s w g k Hw E Al Hk|s w g Hw E Al U].
  - (* add *) assert (AL : g_alive (s_groups s g) = true) by (apply alive_case; [exact J|congruence|congruence]).
    assert (K : inv2 (upd_c s g (CPush (length (g_status (s_groups s g)))))).
    { apply inv2_c; try discriminate; [exact J| |congruence]. intros e [X|X]; discriminate. }
    change (inv2 (upd_g (upd_c s g (CPush (length (g_status (s_groups s g))))) g (add_task (s_groups s g)))).
    apply inv2_g; [exact K|apply ginv_add, (i_ginv _ J)|reflexivity|..]; cbn [s_clients upd_c]; rewrite ?wupd_eq.
    + intros j X. cbn. rewrite nth_error_app1 by (eapply nth_lt; exact X). exact X.
    + cbn. rewrite app_length. cbn. lia.
    + discriminate.
    + left. split; reflexivity.
    + cbn. congruence.
  - (* push *) change (inv2 (upd_q (upd_c s g CNotify) q')). apply inv2_q. apply inv2_c; try discriminate; [exact J| |].
    + intros e [X|X]; discriminate.
    + rewrite (alive_case s g J) by congruence. discriminate.
  - (* notify *) apply inv2_w; [|exact Hw|nocancel Ew|discriminate|discriminate]. apply inv2_c; try discriminate; [exact J| |].
    + intros e [X|X]; discriminate.
    + rewrite (alive_case s g J) by congruence. discriminate.
  - apply inv2_c; try discriminate; [exact J| |].
    + intros e [X|X]; discriminate.
    + rewrite (alive_case s g J) by congruence. discriminate.
  - now rewrite NA in Ha.
  - (* wait_none *) assert (K : inv2 (upd_c s g CThrown)).
    { apply inv2_c; try discriminate; [exact J| | |auto]. { intros e [X|X]; discriminate. } auto. }
    change (inv2 (upd_g (upd_c s g CThrown) g (destroy (s_groups s g)))).
    apply inv2_g; [exact K|eapply ginv_same; [apply (i_ginv _ J)|reflexivity..]|reflexivity|..]; cbn [s_clients upd_c]; rewrite ?wupd_eq; auto.
    + apply (i_len _ J).
  - (* wait *) apply inv2_c; try discriminate; [exact J| | |].
    + auto.
    + intros e [X|X]; discriminate.
    + rewrite (alive_case s g J) by congruence. discriminate.
  - (* return *) apply inv2_c; try discriminate; [exact J| | |].
    + intros _. apply (i_wait _ J). now rewrite E.
    + intros e [X|X]; [|discriminate]. injection X as <-. auto.
    + rewrite (alive_case s g J) by congruence. discriminate.
  - (* block *) apply inv2_c; try discriminate; [exact J| | | |].
    + intros _. apply (i_wait _ J). now rewrite E.
    + intros e [X|X]; discriminate.
    + auto.
    + rewrite (alive_case s g J) by congruence. discriminate.
  - (* destroy *) assert (K : inv2 (upd_c s g (CDone errs))).
    { apply inv2_c; try discriminate; [exact J| | |].
      - intros _. apply (i_wait _ J). now rewrite E.
      - intros e [X|X]; [discriminate|]. injection X as <-. apply (i_ret _ J). now left.
      - intros _. left. now exists errs. }
    change (inv2 (upd_g (upd_c s g (CDone errs)) g (destroy (s_groups s g)))).
    apply inv2_g; [exact K|eapply ginv_same; [apply (i_ginv _ J)|reflexivity..]|reflexivity|..]; cbn [s_clients upd_c]; rewrite ?wupd_eq; auto.
    + apply (i_len _ J).
    + intros _. left. now exists errs.
  - (* pop *) apply inv2_w; [apply inv2_q, J|exact Hw|nocancel E|discriminate|discriminate].
  - apply inv2_w; [exact J|exact Hw|nocancel E|discriminate|discriminate].
  - (* start *) destruct (touched_open _ _ g I J Hw) as [T1 T2]; [now rewrite E|].
    apply inv2_w; [|exact Hw|nocancel E|discriminate|discriminate].
    apply inv2_g; [exact J| |reflexivity|..].
    + eapply (ginv_set g (s_groups s g) _ i PENDING EXECUTING); [apply (i_ginv _ J)|..]; cbn; auto; try discriminate. now rewrite app_nil_r.
    + intros j X. cbn. rewrite set_nth_get. destruct (Nat.eqb_spec j i) as [->|M]; [unfold status_of in X; congruence|exact X].
    + cbn. rewrite set_nth_length. apply (i_len _ J).
    + intros _. cbn. now rewrite set_nth_length.
    + left. split; reflexivity.
    + cbn. congruence.
  - (* skip *) apply inv2_w; [exact J|exact Hw|nocancel E|discriminate|discriminate].
  - (* finish *) apply inv2_w; [exact J|exact Hw| | |].
    + intros g'. rewrite E. destruct (cf_result cf g i); split; intros [? X]; discriminate.
    + intros g' i' X. destruct (cf_result cf g i) eqn:R; [discriminate|]. injection X as <- <-. exact R.
    + intros g' i' m X. destruct (cf_result cf g i) eqn:R; [|discriminate]. injection X as <- <- <-. exact R.
  - (* ok *) destruct (held_R _ _ _ g i I Hw) as (S1 & _ & _); [apply hR_self; rewrite E; tauto|].
    destruct (touched_open _ _ g I J Hw) as [T1 T2]; [now rewrite E|].
    change (inv2 (upd_w (upd_g (upd_c s g (wake (s_clients s g))) g (complete_ok (s_groups s g) i)) w WReady)).
    apply inv2_w; [|exact Hw|nocancel E|discriminate|discriminate].
    apply inv2_g; [now apply inv2_wake| |reflexivity|..].
    + eapply (ginv_set g (s_groups s g) _ i EXECUTING DONE); [apply (i_ginv _ J)|..]; cbn; auto; try discriminate; try lia.
      * now rewrite app_nil_r.
      * intros _. eapply (i_notify _ J), E.
    + intros j X. cbn. rewrite set_nth_get. unfold status_of in *. destruct (Nat.eqb_spec j i) as [->|M]; [cbn in X; congruence|exact X].
    + cbn. rewrite set_nth_length. apply (i_len _ J).
    + intros _. cbn. now rewrite set_nth_length.
    + right. split.
      * intros e X. exact (T1 e (proj1 (wake_ret s g e) X)).
      * cbn. rewrite wupd_eq. destruct (s_clients s g); discriminate.
    + cbn. congruence.
  - now apply inv2_err.
  - (* cancel *) apply inv2_w; [|exact Hw| |discriminate|discriminate].
    + assert (LN : length (g_status (cancel_task (s_groups s g) k)) = ntasks s g) by (apply cancel_length).
      assert (SAME : g_complete (cancel_task (s_groups s g) k) = g_complete (s_groups s g) /\
                     g_errors (cancel_task (s_groups s g) k) = g_errors (s_groups s g) /\
                     g_lock (cancel_task (s_groups s g) k) = g_lock (s_groups s g) /\
                     g_alive (cancel_task (s_groups s g) k) = g_alive (s_groups s g)).
      { unfold cancel_task. destruct (nth_error (g_status (s_groups s g)) k) as [[]|]; repeat split. }
      destruct SAME as (Q1 & Q2 & Q3 & Q4).
      apply inv2_g; [exact J| |exact Q3|..].
      * unfold cancel_task. destruct (nth_error (g_status (s_groups s g)) k) as [[]|] eqn:S1; try apply (i_ginv _ J).
        eapply (ginv_set g (s_groups s g) _ k PENDING CANCELLED); [apply (i_ginv _ J)|..]; cbn; auto; try discriminate.
        -- now rewrite app_nil_r.
        -- intros _. destruct (i_canc _ J _ _ _ E) as [j Z]. now exists j.
      * intros j X. rewrite cancel_get. unfold status_of in X. now rewrite X.
      * rewrite LN. apply (i_len _ J).
      * intros _. exact LN.
      * left. now rewrite Q1, Q2.
      * rewrite Q4. congruence.
    + intros g'. cbn [s_workers upd_g]. rewrite E. split; intros [k' X]; injection X as <- _; eauto.
  - now apply inv2_unlock with k.
  - (* dangling *) exfalso. pose proof (no_dangling _ _ _ I J Hw E). congruence.
Qed.

Definition inv s : Prop := inv1 cf s /\ inv2 s.

(* waking a thread that was not notified is waking it *)
Lemma inv_wakeup s s' : inv s -> wakeup cf s s' -> inv s'.
Proof.
  intros [I J] W. destruct W as [s g Hg E|s w Hw E]; split.
  - apply inv1_c; [exact I|now rewrite E].
  - pose proof (inv2_wake s g J) as K. rewrite E in K. exact K.
  - apply inv1_w; [exact I|exact Hw|]. rewrite E. intros; split; reflexivity.
  - apply inv2_w; [exact J|exact Hw|nocancel E|discriminate|discriminate].
Qed.

Lemma inv_steps s s' : inv s -> steps cf s s' -> inv s'.
Proof.
  intros I R. induction R as [|s s1 s2 R IH S|s s1 s2 R IH S]; [exact I| |eapply inv_wakeup; [now apply IH|exact S]].
  destruct (IH I) as [A B].
  split; [eapply inv1_step; eassumption|eapply inv2_step; eassumption].
Qed.

Lemma inv_reach s : reachable cf s -> inv s.
Proof. intro R. eapply inv_steps; [|exact R]. split; [apply inv1_init|apply inv2_init]. Qed.

(* ---- C35 ---- *)
Lemma never_dangling s : reachable cf s -> s_ub s = false /\
  (forall g i, in_flight s g i -> g_alive (s_groups s g) = true).
Proof.
  intro R. destruct (inv_reach _ R) as [I J]. split; [apply (i_ub _ J)|].
  intros g i F.
  assert (X : 1 <= atA cf s g i + atR cf s g i).
  { destruct F as [F|(w & F)].
    - apply (in_queued _ _ _ (i_wf _ _ I)) in F. apply occ_in in F. unfold atA. lia.
    - destruct (Nat.lt_ge_cases w nw) as [L|L].
      2: { exfalso. rewrite (i_range _ J w L) in F. destruct F as [F|[F|[F|[m F]]]]; discriminate. }
      destruct F as [F|F].
      + destruct (held_A _ _ _ _ _ I L F) as (_ & A & _). lia.
      + destruct (held_R _ _ _ g i I L) as (_ & _ & A); [apply hR_self; tauto|]. lia. }
  destruct (g_alive (s_groups s g)) eqn:E; [reflexivity|]. exfalso. destruct (i_alive _ J g E) as [[e C]|[C Z]].
  - destruct (i_ret _ J g e) as (K & _); [now right|]. pose proof (complete_place _ _ i I J K). lia.
  - pose proof (i_place _ _ I g i) as P. pose proof (i_len _ J g) as LE. unfold status_of in P.
    rewrite (proj2 (nth_error_None _ _)) in P by (fold (ntasks s g); lia). cbn in P. lia.
Qed.

(* ---- C31, C34 ---- *)
Lemma returned_spec s g e : reachable cf s -> returned s g e ->
  length (g_status (s_groups s g)) = cf_tasks cf g /\
  (forall i, i < cf_tasks cf g ->
     nth_error (g_status (s_groups s g)) i = Some (match cf_result cf g i with None => DONE | Some _ => FAILED end)) /\
  (forall i, ~ in_flight s g i) /\
  Permutation e (failures cf g).
Proof.
  intros R H. destruct (inv_reach _ R) as [I J].
  assert (W : waits (s_clients s g) = true) by (destruct H as [H|H]; rewrite H; reflexivity).
  destruct (i_wait _ J g W) as [N Z]. destruct (i_ret _ J g e H) as (C & EE & LK).
  pose proof (i_ginv _ J g) as [G1 G2 G3 G4 G5].
  assert (ST : forall i, i < cf_tasks cf g ->
     nth_error (g_status (s_groups s g)) i = Some (match cf_result cf g i with None => DONE | Some _ => FAILED end)).
  { intros i L. pose proof (complete_all _ _ i J C ltac:(lia)) as T. unfold status_of in T.
    destruct (nth_error (g_status (s_groups s g)) i) as [[]|] eqn:S1; try discriminate.
    - now rewrite (G3 _ S1).
    - specialize (G4 _ S1). destruct (cf_result cf g i); [reflexivity|congruence]. }
  split; [exact N|]. split; [exact ST|]. split.
  - intros i F. pose proof (complete_place _ _ i I J C) as X. destruct F as [F|(w & F)].
    + apply (in_queued _ _ _ (i_wf _ _ I)) in F. apply occ_in in F. unfold atA in X. lia.
    + destruct (Nat.lt_ge_cases w nw) as [L|L].
      2: { rewrite (i_range _ J w L) in F. destruct F as [F|[F|[F|[m F]]]]; discriminate. }
      destruct F as [F|F].
      * destruct (held_A _ _ _ _ _ I L F) as (_ & A & _). lia.
      * destruct (held_R _ _ _ g i I L) as (_ & _ & A); [apply hR_self; tauto|]. lia.
  - rewrite <- EE, G2. replace (length (g_status (s_groups s g))) with (cf_tasks cf g) by (symmetry; exact N).
    rewrite (gather_ext _ _ (fun i => optl (cf_result cf g i))).
    + unfold failures. clear. generalize (cf_tasks cf g) as n. induction n as [|n IH]; [constructor|].
      cbn [gather]. rewrite seq_S, flat_map_app, <- IH. cbn. rewrite app_nil_r. reflexivity.
    + intros i L. unfold msgs_of. rewrite ST by exact L. destruct (cf_result cf g i); reflexivity.
Qed.

(* once returned, always returned with the same errors *)
Lemma returned_stays s s' g e : step cf s s' -> returned s g e -> returned s' g e.
Proof.
  intros H R. unfold returned in *.
  destruct H as [s g' Hg E L Hn Ha|s g' i q' Hg E P|s g' w Hg E Hw Ew|s g' Hg E Hw|s g' Hg E Ha|s g' Hg E Hz Ha|s g' Hg E Hn Hz Ha
                |s g' Hg E L Hc|s g' Hg E L Hc|s g' errs Hg E
                |s w g' t q' Hw E P|s w Hw E P|s w g' i Hw E Al St|s w g' i st Hw E Al St Ne|s w g' i Hw E Al
                |s w g' i Hw E Al L|s w g' i m Hw E Al L|s w g' k Hw E Al Hk|s w g' k Hw E Al Hk|s w g' Hw E Al U];
    cbn [s_clients upd_c upd_g upd_w upd_q set_ub]; try exact R; unfold wupd;
    destruct (Nat.eqb_spec g g') as [X|X]; try exact R; subst g'; try (rewrite E in R; destruct R; discriminate).
  - rewrite E in R. destruct R as [R|R]; [|discriminate]. injection R as ->. now right.
  - destruct (s_clients s g); cbn; exact R || (destruct R; discriminate).
  - destruct (s_clients s g); cbn; exact R || (destruct R; discriminate).
Qed.
Lemma returned_steps s s' g e : steps cf s s' -> returned s g e -> returned s' g e.
Proof.
  intros H R. induction H as [|s s1 s2 H IH S|s s1 s2 H IH S]; [exact R|eapply returned_stays; [exact S|now apply IH]|].
  specialize (IH R). destruct S as [s3 g' Hg E|s3 w Hw E]; [|exact IH]. unfold returned in *. cbn [s_clients upd_c]. unfold wupd.
  destruct (Nat.eqb_spec g g') as [->|]; [|exact IH]. destruct IH; congruence.
Qed.
End Inv.
