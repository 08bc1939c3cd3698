(* For C88: the order in which tasks end does not matter. *)
From Verif Require Import Base BaseLemmas ModelInfo ModelSimple ModelCcsds ModelJumper ModelStrings ModelEngine ModelQueue ModelTask SpecQueue SpecEngine
  ProofsQueue ProofsPool ProofsTask ProofsTask2 ProofsTask3 ProofsStrings ProofsEngine ProofsEngine2 ProofsEngine3 SpecForward ProofsForward SpecConcurrent.
From Coq Require Import Permutation Lia.
Local Open Scope nat_scope.

(* ---- histories ---- *)

Lemma find_below n (P : nat -> Prop) : (forall i, {P i} + {~ P i}) -> (exists i, i < n /\ P i) \/ (forall i, i < n -> ~ P i).
Proof.
  intro D. induction n as [|n [(i & L & H)|IH]]; [right; lia|left; exists i; split; [lia|exact H]|].
  destruct (D n) as [H|H]; [left; exists n; split; [lia|exact H]|]. right. intros i L.
  destruct (Nat.eq_dec i n) as [->|]; [exact H|]. apply IH. lia.
Qed.

(* executeImpl of the task has ended, its notification is to come *)
Definition hN (x : worker) (g i : nat) : nat :=
  match x with WNotify t | WFail t _ => b2n (is_task t g i) | _ => 0 end.

Section Runs.
Variable cf : ModelTask.config.
Hypothesis NA : no_abandon cf.
Let nw := cf_workers cf.

Definition atN (s : sys) (g i : nat) : nat := sumf nw (fun w => hN (s_workers s w) g i).
Definition ended (s : sys) (g i : nat) : nat := b2n (terminal (status_of s g i)) + atN s g i.

Lemma runs_reachable s h : runs cf s h -> reachable cf s.
Proof.
  induction 1 as [|s h w t s' _ IH St _ _|s h s' _ IH St _|s h s' _ IH St];
    [constructor|exact (steps_next _ _ _ _ IH St)..|exact (steps_woken _ _ _ _ IH St)].
Qed.

Lemma atN_w s w x g i : w < nw -> atN (upd_w s w x) g i + hN (s_workers s w) g i = atN s g i + hN x g i.
Proof.
  intro H. unfold atN. cbn. pose proof (sumf_upd nw (s_workers s) (fun y => hN y g i) w x H) as Q. cbn in Q. lia.
Qed.
Lemma atN_c s g c g' i : atN (upd_c s g c) g' i = atN s g' i. Proof. reflexivity. Qed.
Lemma atN_g s g c g' i : atN (upd_g s g c) g' i = atN s g' i. Proof. reflexivity. Qed.
Lemma atN_q s q g' i : atN (upd_q s q) g' i = atN s g' i. Proof. reflexivity. Qed.


Lemma is_task_self g i : is_task (g, i) g i = true.
Proof. unfold is_task. cbn. now rewrite !Nat.eqb_refl. Qed.

Ltac cases_of H :=
  destruct H as [s g Hg E L Hn Ha|s g i q' Hg E P|s g w Hg E Hw Ew|s g Hg E Hw|s g Hg E Ha|s g Hg E Hz Ha|s g Hg E Hn Hz Ha
                |s g Hg E L Hc|s g Hg E L Hc|s g errs Hg E
                |s w g t q' Hw E P|s w Hw E P|s w g i Hw E Al St|s w g i st Hw E Al St Ne|s w g i Hw E Al
                |s w g i Hw E Al L|s w g i m Hw E Al L|s w g k Hw E Al Hk|s w g k Hw E Al Hk|s w g Hw E Al U].

(* the step that ends a task's executeImpl *)
Lemma end_step s s' w0 t0 : step cf s s' -> s_workers s w0 = WRunning t0 -> s_workers s' w0 <> WRunning t0 ->
  w0 < nw /\ s' = upd_w s w0 (match cf_result cf (fst t0) (snd t0) with None => WNotify t0 | Some m => WFail t0 m end).
Proof.
  intros H R C. cases_of H; cbn in C; try (now contradiction C);
    unfold wupd in C; try (destruct (Nat.eqb_spec w0 w) as [->|M]; [try congruence|now contradiction C]).
  rewrite E in R. injection R as <-. cbn [fst snd]. split; [exact Hw|reflexivity].
Qed.

Lemma ended_end s s' w0 t0 g i : step cf s s' -> s_workers s w0 = WRunning t0 -> s_workers s' w0 <> WRunning t0 ->
  ended s' g i = ended s g i + b2n (is_task t0 g i).
Proof.
  intros H R C. destruct (end_step _ _ _ _ H R C) as [L ->]. unfold ended. rewrite st_w.
  pose proof (atN_w s w0 (match cf_result cf (fst t0) (snd t0) with None => WNotify t0 | Some m => WFail t0 m end) g i L) as Q.
  rewrite R in Q. destruct (cf_result cf (fst t0) (snd t0)); cbn [hN] in Q; lia.
Qed.

Lemma terminal_set l k st j : terminal (nth_error (set_nth l k st) j) =
  if Nat.eqb j k then match nth_error l k with Some _ => terminal (Some st) | None => false end else terminal (nth_error l j).
Proof.
  rewrite set_nth_get. destruct (Nat.eqb_spec j k) as [->|]; [|reflexivity]. destruct (nth_error l k); reflexivity.
Qed.

Lemma ended_other s s' g0 i0 : inv cf s -> step cf s s' ->
  (forall w t, s_workers s w = WRunning t -> s_workers s' w = WRunning t) -> ended s' g0 i0 = ended s g0 i0.
Proof.
  intros [I J] H K. unfold ended. cases_of H.
  - rewrite atN_c, atN_g, st_c, st_g. destruct (Nat.eqb_spec g0 g) as [->|]; [|reflexivity]. cbn.
    f_equal. f_equal. unfold status_of. destruct (Nat.lt_ge_cases i0 (length (g_status (s_groups s g)))) as [L0|L0].
    + now rewrite nth_error_app1.
    + rewrite nth_error_app2 by exact L0. rewrite (proj2 (nth_error_None _ _) L0).
      destruct (i0 - _) as [|[]]; reflexivity.
  - reflexivity.
  - pose proof (atN_w (upd_c s g CEnqueue) w WReady g0 i0 Hw) as Q. cbn [s_workers upd_c] in Q. rewrite Ew in Q. cbn [hN] in Q.
    rewrite st_w, st_c. rewrite atN_c in Q. lia.
  - reflexivity.
  - now rewrite NA in Ha.
  - rewrite atN_c, atN_g, st_c, st_g. destruct (Nat.eqb_spec g0 g) as [->|]; reflexivity.
  - reflexivity.
  - reflexivity.
  - reflexivity.
  - rewrite atN_c, atN_g, st_c, st_g. destruct (Nat.eqb_spec g0 g) as [->|]; reflexivity.
  - pose proof (atN_w (upd_q s q') w (WPopped t) g0 i0 Hw) as Q. cbn [s_workers upd_q] in Q. rewrite E in Q. cbn [hN] in Q.
    rewrite st_w, st_q. rewrite atN_q in Q. lia.
  - pose proof (atN_w s w WWaiting g0 i0 Hw) as Q. rewrite E in Q. cbn [hN] in Q. rewrite st_w. lia.
  - pose proof (atN_w (upd_g s g (set_status (s_groups s g) i EXECUTING)) w (WRunning (g, i)) g0 i0 Hw) as Q.
    cbn [s_workers upd_g] in Q. rewrite E in Q. cbn [hN] in Q. rewrite atN_g in Q. rewrite st_w, st_g.
    destruct (Nat.eqb_spec g0 g) as [->|]; [|lia]. cbn [g_status set_status]. rewrite terminal_set.
    destruct (Nat.eqb_spec i0 i) as [->|]; [|unfold status_of; lia]. unfold status_of. rewrite St. cbn. lia.
  - pose proof (atN_w s w WReady g0 i0 Hw) as Q. rewrite E in Q. cbn [hN] in Q. rewrite st_w. lia.
  - specialize (K w (g, i) E). cbn in K. rewrite wupd_eq in K. destruct (cf_result cf g i); discriminate.
  - destruct (held_R _ _ _ g i I Hw) as (S1 & _ & _); [apply hR_self; rewrite E; tauto|].
    pose proof (atN_w (upd_c (upd_g s g (complete_ok (s_groups s g) i)) g (wake (s_clients s g))) w WReady g0 i0 Hw) as Q.
    cbn [s_workers upd_g upd_c] in Q. rewrite E in Q. cbn [hN] in Q. rewrite atN_c, atN_g in Q. rewrite st_w, st_c, st_g.
    unfold is_task in Q. cbn [fst snd] in Q. rewrite (Nat.eqb_sym g g0), (Nat.eqb_sym i i0) in Q.
    destruct (Nat.eqb_spec g0 g) as [->|]; cbn [andb b2n] in Q; [|lia]. cbn [g_status complete_ok]. rewrite terminal_set.
    unfold status_of in *. destruct (Nat.eqb_spec i0 i) as [->|]; cbn [b2n] in Q; [|lia]. rewrite S1. cbn. lia.
  - destruct (held_R _ _ _ g i I Hw) as (S1 & _ & _); [apply hR_self; rewrite E; eauto|].
    pose proof (atN_w (upd_c (upd_g s g (complete_err (s_groups s g) i m w)) g (wake (s_clients s g))) w (WCancel g 0) g0 i0 Hw) as Q.
    cbn [s_workers upd_g upd_c] in Q. rewrite E in Q. cbn [hN] in Q. rewrite atN_c, atN_g in Q. rewrite st_w, st_c, st_g.
    unfold is_task in Q. cbn [fst snd] in Q. rewrite (Nat.eqb_sym g g0), (Nat.eqb_sym i i0) in Q.
    destruct (Nat.eqb_spec g0 g) as [->|]; cbn [andb b2n] in Q; [|lia]. cbn [g_status complete_err]. rewrite terminal_set.
    unfold status_of in *. destruct (Nat.eqb_spec i0 i) as [->|]; cbn [b2n] in Q; [|lia]. rewrite S1. cbn. lia.
  - pose proof (atN_w (upd_g s g (cancel_task (s_groups s g) k)) w (WCancel g (S k)) g0 i0 Hw) as Q.
    cbn [s_workers upd_g] in Q. rewrite E in Q. cbn [hN] in Q. rewrite atN_g in Q. rewrite st_w, st_g.
    destruct (Nat.eqb_spec g0 g) as [->|]; [|lia]. revert Q. unfold cancel_task, status_of.
    destruct (nth_error (g_status (s_groups s g)) k) as [[]|] eqn:Sk; intro Q; try lia.
    cbn [g_status set_status]. rewrite terminal_set. destruct (Nat.eqb_spec i0 k) as [->|]; [|lia]. rewrite Sk. cbn. lia.
  - pose proof (atN_w (upd_g s g (set_lock (s_groups s g) None)) w WReady g0 i0 Hw) as Q.
    cbn [s_workers upd_g] in Q. rewrite E in Q. cbn [hN] in Q. rewrite atN_g in Q. rewrite st_w, st_g.
    destruct (Nat.eqb_spec g0 g) as [->|]; unfold status_of; cbn [g_status set_lock]; lia.
  - reflexivity.
Qed.

Lemma history_exact s h : runs cf s h -> forall g i, occ h g i = ended s g i.
Proof.
  induction 1 as [|s h w t s' R IH St Ew Ew'|s h s' R IH St K|s h s' R IH St]; intros g i.
  - unfold ended, atN. cbn. unfold status_of. cbn. destruct i; cbn; clear; induction nw; cbn; lia.
  - rewrite occ_app, IH, (ended_end _ _ _ _ _ _ St Ew Ew'). cbn. lia.
  - rewrite IH. symmetry. apply ended_other; auto. apply inv_reach; auto. exact (runs_reachable _ _ R).
  - rewrite IH. destruct St as [s k Hk E|s w Hw E]; [reflexivity|]. unfold ended. rewrite st_w.
    pose proof (atN_w s w WReady g i Hw) as Q. rewrite E in Q. cbn [hN] in Q. lia.
Qed.

(* every execution has its history *)
Lemma reachable_runs s : reachable cf s -> exists h, runs cf s h.
Proof.
  unfold reachable. intro H. remember sys_init as s0 eqn:E0. induction H as [s|s s' s'' _ IH St|s s' s'' _ IH St]; [subst; eexists; constructor| |].
  2: { destruct (IH E0) as [h R]. exists h. eapply runs_woken; eauto. }
  destruct (IH E0) as [h R].
  destruct (find_below nw (fun w => exists t, s_workers s' w = WRunning t /\ s_workers s'' w <> WRunning t)) as [(w & L & t & A & B)|NO].
  - intro w. destruct (s_workers s' w) as [| |t|t|t|t m|g k] eqn:A; try (right; intros (t' & X & _); discriminate).
    destruct (s_workers s'' w) as [| |t'|t'|t'|t' m|g k] eqn:B; try (left; exists t; split; [reflexivity|discriminate]).
    destruct t as [a b], t' as [a' b']. destruct (Nat.eq_dec a a') as [->|N1]; [destruct (Nat.eq_dec b b') as [->|N2]|].
    + right. intros (t' & X & Y). injection X as <-. now apply Y.
    + left. eexists. split; [reflexivity|]. congruence.
    + left. eexists. split; [reflexivity|]. congruence.
  - exists (h ++ [t]). eapply runs_end; eauto.
  - exists h. eapply runs_step; eauto. intros w t A.
    destruct (inv_reach cf NA s' (runs_reachable _ _ R)) as [I J].
    destruct (Nat.lt_ge_cases w nw) as [L|L].
    + destruct (s_workers s'' w) as [| |t'|t'|t'|t' m|g k] eqn:B; try (exfalso; apply (NO w L); exists t; split; [exact A|congruence]).
      f_equal. destruct t as [a b], t' as [a' b']. destruct (Nat.eq_dec a a') as [->|N1]; [destruct (Nat.eq_dec b b') as [->|N2]|]; auto;
        exfalso; apply (NO w L); eexists; split; try exact A; congruence.
    + rewrite (i_range _ _ J w L) in A. discriminate.
Qed.

(* when the client has returned, its tasks have ended, each once *)
Lemma order_complete s h g errs : runs cf s h -> returned s g errs -> Permutation (of_group g h) (seq 0 (cf_tasks cf g)).
Proof.
  intros R Ret. pose proof (runs_reachable _ _ R) as Re. destruct (returned_spec cf NA s g errs Re Ret) as (N & St & NF & _).
  assert (C : forall i, count_occ Nat.eq_dec (of_group g h) i = occ h g i).
  { intro i. clear. unfold of_group. induction h as [|[a b] h IH]; [reflexivity|]. cbn [occ filter fst].
    unfold is_task. cbn [fst snd]. rewrite (Nat.eqb_sym a g). destruct (Nat.eqb_spec g a) as [->|]; cbn [andb].
    - cbn [map snd count_occ]. destruct (Nat.eq_dec b i) as [->|D]; [rewrite Nat.eqb_refl|rewrite (proj2 (Nat.eqb_neq b i) D)]; cbn [b2n]; lia.
    - cbn [b2n]. lia. }
  assert (Z : forall i, atN s g i = 0).
  { intro i. destruct (atN s g i) as [|k] eqn:A; [reflexivity|]. exfalso.
    destruct (sumf_ex nw (fun w => hN (s_workers s w) g i)) as (w & L & X); [unfold atN in A; lia|].
    apply (NF i). right. exists w. unfold hN in X.
    destruct (s_workers s w) as [| |t|t|t|t m|g' k'] eqn:B; try (now contradiction X);
      unfold is_task in X; destruct t as [a b]; cbn in X;
      destruct (Nat.eqb_spec a g) as [->|]; destruct (Nat.eqb_spec b i) as [->|]; cbn in X; try (now contradiction X); eauto. }
  apply (Permutation_count_occ Nat.eq_dec). intro i. rewrite C, (history_exact _ _ R). unfold ended. rewrite Z, Nat.add_0_r.
  unfold status_of. destruct (Nat.lt_ge_cases i (cf_tasks cf g)) as [L|L].
  - rewrite (St i L). assert (In i (seq 0 (cf_tasks cf g))) as Hin by (apply in_seq; lia).
    rewrite (proj1 (NoDup_count_occ' Nat.eq_dec _) (seq_NoDup _ _) i Hin). destruct (cf_result cf g i); reflexivity.
  - rewrite (proj2 (nth_error_None _ _)) by lia. symmetry. apply count_occ_not_In. rewrite in_seq. lia.
Qed.
End Runs.

(* ---- the items ---- *)
Section Items.
Context {F : Type}.
Notation items := (list (string * @item F)).
Notation work := (outcome (list (string * result F))).
Notation keys_of := (@writes_to F).

Lemma supdate_comm {V} (k k' : string) (f f' : V -> V) m : k <> k' -> supdate k f (supdate k' f' m) = supdate k' f' (supdate k f m).
Proof.
  intro N. induction m as [|[a v] m IH]; [reflexivity|]. cbn.
  destruct (String.eqb_spec k' a) as [E1|E1]; destruct (String.eqb_spec k a) as [E2|E2]; cbn.
  - congruence.
  - subst a. rewrite String.eqb_refl. destruct (String.eqb_spec k k'); [contradiction|reflexivity].
  - subst a. rewrite String.eqb_refl. destruct (String.eqb_spec k' k); [congruence|reflexivity].
  - destruct (String.eqb_spec k a); [contradiction|]. destruct (String.eqb_spec k' a); [contradiction|]. now rewrite IH.
Qed.
Lemma write_one_comm rs : forall k f (m : items), ~ In k (map fst rs) ->
  fold_left (fun m p => supdate (fst p) (set_result (F := F) (snd p)) m) rs (supdate k f m) =
  supdate k f (fold_left (fun m p => supdate (fst p) (set_result (snd p)) m) rs m).
Proof.
  induction rs as [|p rs IH]; intros k f m N; [reflexivity|]. cbn [fold_left]. cbn [map In] in N.
  rewrite supdate_comm by tauto. apply IH. tauto.
Qed.
Lemma write_comm (t t' : work) m : (forall k, In k (keys_of t) -> ~ In k (keys_of t')) ->
  write_results t (write_results t' m) = write_results t' (write_results t m).
Proof.
  intro D. destruct t as [rs| |], t' as [rs'| |]; try reflexivity. cbn [write_results] in *.
  revert m D. induction rs as [|p rs IH]; intros m D; [reflexivity|]. cbn [fold_left].
  rewrite <- IH by (intros k I; apply D; right; exact I). f_equal. symmetry. apply write_one_comm. apply D. left. reflexivity.
Qed.

Lemma nodup_separate (ts : list work) : NoDup (concat (map keys_of ts)) -> separate ts.
Proof.
  induction ts as [|x ts IH]; intros ND; [constructor|]. cbn [map concat] in ND. apply NoDup_app_iff_ in ND as (_ & ND & X).
  constructor; [|exact (IH ND)]. apply Forall_forall. intros t I k K K'. apply (X k K). apply in_concat. exists (keys_of t).
  split; [now apply in_map|exact K'].
Qed.
Lemma separate_apart (ts : list work) : separate ts -> forall i j t t', nth_error ts i = Some t -> nth_error ts j = Some t' -> i <> j ->
  forall k, In k (keys_of t) -> ~ In k (keys_of t').
Proof.
  induction 1 as [|x ts X S IH]; intros i j t t' A B D k I I'; [destruct i; discriminate|]. rewrite Forall_forall in X.
  destruct i as [|i], j as [|j]; cbn in A, B.
  - congruence.
  - injection A as ->. exact (X t' (nth_error_In _ _ B) k I I').
  - injection B as ->. exact (X t (nth_error_In _ _ A) k I' I).
  - exact (IH i j t t' A B ltac:(congruence) k I I').
Qed.

(* any order of distinct tasks leaves the same items *)
Lemma items_order (ts : list work) l l' : separate ts -> Permutation l l' -> NoDup l -> forall its, items_after ts l its = items_after ts l' its.
Proof.
  intro Sep. unfold items_after. induction 1 as [|i l l' Pm IH|i j l|l l' l'' P1 IH1 P2 IH2]; intros ND its; cbn [fold_left].
  - reflexivity.
  - inversion ND; subst. now apply IH.
  - f_equal. destruct (nth_error ts i) as [t|] eqn:A; destruct (nth_error ts j) as [t'|] eqn:B; try reflexivity.
    apply write_comm. apply (separate_apart ts Sep i j t t' A B). inversion ND as [|? ? X _]; subst. intro; subst. apply X. left. reflexivity.
  - rewrite IH1 by exact ND. apply IH2. eapply Permutation_NoDup; eauto.
Qed.

(* in the order of the files *)
Lemma run_tasks_spec (ts : list work) : (forall t, In t ts -> t <> UB) -> forall its,
  run_tasks ts its = Ok (errors_of ts, items_after ts (seq 0 (length ts)) its).
Proof.
  intro D. assert (Q : forall pre its, items_after (pre ++ ts) (seq (length pre) (length ts)) its = fold_left (fun m t => write_results t m) ts its).
  { clear D. induction ts as [|t ts IH]; intros pre its; [reflexivity|]. cbn [length seq]. unfold items_after. cbn [fold_left].
    rewrite nth_error_app2, Nat.sub_diag by lia. cbn [nth_error].
    specialize (IH (pre ++ [t])). rewrite <- app_assoc in IH. cbn [app] in IH. rewrite app_length in IH. cbn [length] in IH.
    rewrite Nat.add_1_r in IH. apply IH. }
  intro its. specialize (Q [] its). cbn [app length] in Q. rewrite Q. clear Q. revert its.
  induction ts as [|t ts IH]; intro its; [reflexivity|]. cbn [run_tasks errors_of fold_left].
  assert (D' : forall x, In x ts -> x <> UB) by (intros x I; apply D; right; exact I).
  destruct t as [rs|e|].
  - now rewrite IH.
  - rewrite IH by exact D'. reflexivity.
  - exfalso. exact (D UB (or_introl eq_refl) eq_refl).
Qed.

Lemma failures_spec {A} text cf g (ts : list (outcome A)) : runs_tasks text cf g ts -> failures cf g = map text (errors_of ts).
Proof.
  intros [N R]. unfold failures. rewrite N.
  assert (Q : forall l k, (forall i t, nth_error l i = Some t -> nth_error ts (k + i) = Some t) ->
    flat_map (fun i => match cf_result cf g i with Some m => [m] | None => [] end) (seq k (length l)) = map text (errors_of l)).
  { induction l as [|t l IH]; intros k E; [reflexivity|]. cbn [length seq flat_map].
    pose proof (E 0 t eq_refl) as E0. rewrite Nat.add_0_r in E0. specialize (R k t E0).
    rewrite (IH (S k)) by (intros i t' X; replace (S k + i) with (k + S i) by lia; now apply E).
    destruct t as [rs|e|]; [rewrite R; reflexivity|rewrite R; reflexivity|contradiction]. }
  apply Q. auto.
Qed.

Theorem tasks_schedule_independent text cf g (ts : list work) its s h errs :
  no_abandon cf -> runs_tasks text cf g ts -> separate ts -> runs cf s h -> returned s g errs ->
  exists es, run_tasks ts its = Ok (es, items_after ts (of_group g h) its) /\ Permutation errs (map text es).
Proof.
  intros NA RT Sep R Ret. exists (errors_of ts).
  assert (D : forall t, In t ts -> t <> UB).
  { intros t I ->. apply In_nth_error in I. destruct I as [i E]. exact (proj2 RT i UB E). }
  split.
  - rewrite (run_tasks_spec ts D). f_equal. f_equal. pose proof (order_complete cf NA s h g errs R Ret) as Pm.
    rewrite (proj1 RT) in Pm. symmetry. apply items_order; auto. eapply Permutation_NoDup; [symmetry; exact Pm|apply seq_NoDup].
  - rewrite <- (failures_spec text cf g ts RT). exact (proj2 (proj2 (proj2 (returned_spec cf NA s g errs (runs_reachable _ _ _ R) Ret)))).
Qed.
End Items.
