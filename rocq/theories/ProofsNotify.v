(* C107: storing a status and reporting the task may be two steps. *)
From Verif Require Import Base BaseLemmas ModelQueue ModelTask ModelNotify SpecQueue SpecConcurrent SpecNotify
  ProofsQueue ProofsPool ProofsTask ProofsTask2 ProofsTask3 ProofsConcurrent.
From Coq Require Import Permutation Lia.
Local Open Scope nat_scope.

(* one group: H is as G, but for the statuses stored *)
Definition grel (Q : nat -> status -> Prop) (G H : group) : Prop :=
  g_complete H = g_complete G /\ g_errors H = g_errors G /\ g_lock H = g_lock G /\ g_alive H = g_alive G /\
  length (g_status H) = length (g_status G) /\
  (forall i v, Q i v -> nth_error (g_status H) i = Some EXECUTING /\ nth_error (g_status G) i = Some v) /\
  (forall i, (forall v, ~ Q i v) -> nth_error (g_status H) i = nth_error (g_status G) i).

Lemma gr_add Q G H : grel Q G H -> grel Q (add_task G) (add_task H).
Proof.
  intros (A & B & C & D & L & S1 & S2). repeat split; cbn; auto.
  - rewrite !app_length. cbn. lia.
  - destruct (S1 _ _ H0) as [X _]. rewrite nth_error_app1; [exact X|]. eapply nth_lt, X.
  - destruct (S1 _ _ H0) as [_ X]. rewrite nth_error_app1; [exact X|]. eapply nth_lt, X.
  - intros i N. destruct (Nat.lt_ge_cases i (length (g_status G))) as [X|X].
    + rewrite !nth_error_app1 by lia. now apply S2.
    + rewrite !nth_error_app2 by lia. now rewrite L.
Qed.
Lemma gr_destroy Q G H : grel Q G H -> grel Q (destroy G) (destroy H).
Proof. intros (A & B & C & D & L & S1 & S2). repeat split; cbn; auto; eapply S1; eauto. Qed.
Lemma gr_unlock Q G H : grel Q G H -> grel Q (set_lock G None) (set_lock H None).
Proof. intros (A & B & C & D & L & S1 & S2). repeat split; cbn; auto; eapply S1; eauto. Qed.

Lemma gr_start (Q : nat -> status -> Prop) G H i : (forall j v, Q j v -> v <> PENDING) -> grel Q G H -> nth_error (g_status G) i = Some PENDING ->
  nth_error (g_status H) i = Some PENDING /\ grel Q (set_status G i EXECUTING) (set_status H i EXECUTING).
Proof.
  intros NP (A & B & C & D & L & S1 & S2) E.
  assert (NQ : forall v, ~ Q i v). { intros v X. destruct (S1 _ _ X) as [_ Y]. apply (NP _ _ X). congruence. }
  split; [now rewrite S2|]. repeat split; cbn; auto.
  - now rewrite !set_nth_length.
  - destruct (S1 _ _ H0) as [X _]. rewrite set_nth_get. destruct (Nat.eqb_spec i0 i) as [->|]; [|exact X]. exfalso. exact (NQ _ H0).
  - destruct (S1 _ _ H0) as [_ X]. rewrite set_nth_get. destruct (Nat.eqb_spec i0 i) as [->|]; [|exact X]. exfalso. exact (NQ _ H0).
  - intros j N. rewrite !set_nth_get, (S2 i NQ). destruct (Nat.eqb j i); [reflexivity|now apply S2].
Qed.

Lemma gr_cancel (Q : nat -> status -> Prop) G H k : (forall j v, Q j v -> v <> PENDING) -> grel Q G H ->
  grel Q (cancel_task G k) (cancel_task H k).
Proof.
  intros NP (A & B & C & D & L & S1 & S2).
  assert (K : forall G0, g_complete (cancel_task G0 k) = g_complete G0 /\ g_errors (cancel_task G0 k) = g_errors G0 /\
     g_lock (cancel_task G0 k) = g_lock G0 /\ g_alive (cancel_task G0 k) = g_alive G0).
  { intro G0. unfold cancel_task. destruct (nth_error (g_status G0) k) as [[]|]; repeat split. }
  destruct (K G) as (K1 & K2 & K3 & K4), (K H) as (K1' & K2' & K3' & K4').
  unfold grel. rewrite K1, K2, K3, K4, K1', K2', K3', K4', !cancel_length. repeat split; auto.
  - destruct (S1 _ _ H0) as [X _]. rewrite cancel_get, X. reflexivity.
  - destruct (S1 _ _ H0) as [_ X]. rewrite cancel_get, X. pose proof (NP _ _ H0). destruct v; congruence.
  - intros j N. rewrite !cancel_get. now rewrite S2.
Qed.

(* the report of a stored status: it is there in both *)
Lemma gr_report (Q Q' : nat -> status -> Prop) G H i v : grel Q G H -> Q i v -> (forall j u, Q' j u <-> Q j u /\ j <> i) ->
  forall G' H', g_status G' = set_nth (g_status G) i v -> g_status H' = set_nth (g_status H) i v ->
    g_complete G' = S (g_complete G) -> g_complete H' = S (g_complete H) ->
    g_errors H' = g_errors G' -> g_lock H' = g_lock G' -> g_alive G' = g_alive G -> g_alive H' = g_alive H -> grel Q' G' H'.
Proof.
  intros (A & B & C & D & L & S1 & S2) I X G' H' E1 E2 E3 E4 E5 E6 E7 E8. destruct (S1 _ _ I) as [Y Z].
  unfold grel. rewrite E1, E2, E3, E4, E5, E6, E7, E8, !set_nth_length. repeat split; auto.
  - rewrite set_nth_get. apply X in H0 as [H0 N]. apply Nat.eqb_neq in N. rewrite N. now apply S1 in H0.
  - rewrite set_nth_get. apply X in H0 as [H0 N]. apply Nat.eqb_neq in N. rewrite N. now apply S1 in H0.
  - intros j N. rewrite !set_nth_get. destruct (Nat.eqb_spec j i) as [->|M]; [now rewrite Y, Z|]. apply S2. intros u W.
    apply (N u). now apply X.
Qed.

Section Sim.
Variable cf : config.
Hypothesis NA : no_abandon cf.
Let nw := cf_workers cf.

Lemma seen_grel f s g : seen_as cf f s -> grel (stored cf f g) (s_groups (fst f) g) (s_groups s g).
Proof. intros (_ & _ & _ & _ & H). exact (H g). Qed.

Lemma reporting_not x t v : reporting x = Some (t, v) -> v <> PENDING /\ terminal (Some v) = true.
Proof. destruct x; cbn; try discriminate; intros [= _ <-]; split; try discriminate; reflexivity. Qed.
Lemma stored_not f g i v : stored cf f g i v -> v <> PENDING.
Proof. intros (w & _ & _ & R). now apply reporting_not in R. Qed.

(* no worker that reports has moved *)
Definition quiet (s s' : sys) : Prop :=
  forall w, w < nw -> reporting (s_workers s w) <> None -> s_workers s' w = s_workers s w.

Lemma stored_back s s' st st' g i v : moves cf s s' st st' -> stored cf (s', st') g i v -> stored cf (s, st) g i v.
Proof.
  intros [_ M] (w & L & S & R). cbn [fst snd] in *. apply M in S as [S E]. exists w. cbn [fst snd]. rewrite <- E. auto.
Qed.
Lemma stored_on s s' st st' : moves cf s s' st st' -> quiet s s' -> forall g i v, stored cf (s, st) g i v <-> stored cf (s', st') g i v.
Proof.
  intros M Qt g i v. split; [|apply (stored_back _ _ _ _ _ _ _ M)]. intros (w & L & S & R). cbn [fst snd] in *.
  assert (E : s_workers s' w = s_workers s w) by (apply Qt; [exact L|congruence]).
  exists w. cbn [fst snd]. rewrite E. repeat split; auto. apply M. auto.
Qed.

Lemma grel_ext (Q Q' : nat -> status -> Prop) G H : (forall i v, Q i v <-> Q' i v) -> grel Q G H -> grel Q' G H.
Proof.
  intros E (A & B & C & D & L & S1 & S2). repeat split; auto.
  - apply E in H0. now apply S1 in H0.
  - apply E in H0. now apply S1 in H0.
  - intros i N. apply S2. intros v X. apply (N v). now apply E.
Qed.

Lemma seen_quiet s s' st st' c' : moves cf s s' st st' -> quiet s s' ->
  s_queue c' = s_queue s' -> s_clients c' = s_clients s' -> s_workers c' = s_workers s' -> s_ub c' = s_ub s' ->
  (forall g, grel (stored cf (s, st) g) (s_groups s' g) (s_groups c' g)) -> seen_as cf (s', st') c'.
Proof.
  intros M Qt E1 E2 E3 E4 G. repeat split; auto; cbn [fst];
    eapply (grel_ext _ (stored cf (s', st') g)) in G; try (intros i0 v0; exact (stored_on _ _ _ _ M Qt g i0 v0));
    destruct G as (A & B & C & D & L & S1 & S2); auto; eapply S1; eauto.
Qed.

Lemma quiet_w s s' w x : s_workers s' = wupd (s_workers s) w x -> reporting (s_workers s w) = None -> quiet s s'.
Proof.
  intros E N v L R. rewrite E. unfold wupd. destruct (Nat.eqb_spec v w) as [->|]; [congruence|reflexivity].
Qed.
Lemma quiet_same s s' : s_workers s' = s_workers s -> quiet s s'.
Proof. intros E w _ _. now rewrite E. Qed.

Lemma groups_upd (Q : nat -> nat -> status -> Prop) (f h : nat -> group) g G H :
  (forall g', grel (Q g') (f g') (h g')) -> grel (Q g) G H -> forall g', grel (Q g') (wupd f g G g') (wupd h g H g').
Proof. intros A B g'. unfold wupd. destruct (Nat.eqb_spec g' g) as [->|]; auto. Qed.

(* a task is reported by one worker only *)
Lemma one_reporter c s w g i v : inv cf c -> s_workers c = s_workers s -> w < nw -> reporting (s_workers s w) = Some ((g, i), v) ->
  forall w', w' < nw -> forall u, reporting (s_workers s w') = Some ((g, i), u) -> w' = w.
Proof.
  intros [I1 I2] EW Hw R. intros w' L' u R'. destruct (Nat.eq_dec w' w) as [|D]; [assumption|exfalso].
    assert (HR : forall z q, reporting z = Some ((g, i), q) -> hR z g i = 1).
    { intros z q. destruct z as [| |t|t|t|t m|a b]; cbn; try discriminate; intros [= -> _]; now rewrite is_task_self. }
    destruct (held_R _ _ _ g i I1 Hw) as (_ & _ & A1); [rewrite EW; exact (HR _ _ R)|].
    unfold atR in A1. rewrite EW in A1.
    assert (TWO : forall n (h : nat -> nat), w < n -> w' < n -> h w + h w' <= sumf n h).
    { clear -D. induction n as [|n IH]; intros h A B; [lia|]. cbn [sumf].
      destruct (Nat.eq_dec w n) as [->|]; [|destruct (Nat.eq_dec w' n) as [->|]].
      - pose proof (sumf_pos n h w' ltac:(lia)). lia.
      - pose proof (sumf_pos n h w ltac:(lia)). lia.
      - specialize (IH h ltac:(lia) ltac:(lia)). lia. }
    specialize (TWO nw (fun z => hR (s_workers s z) g i) Hw L'). cbn beta in TWO.
    rewrite (HR _ _ R), (HR _ _ R') in TWO. unfold nw in TWO. lia.
Qed.

(* the stored statuses after worker w has reported its own *)
Lemma stored_report c s s' st st' w g i v x : inv cf c -> s_workers c = s_workers s -> moves cf s s' st st' -> w < nw ->
  reporting (s_workers s w) = Some ((g, i), v) -> s_workers s' = wupd (s_workers s) w x -> reporting x = None ->
  (forall j u, stored cf (s', st') g j u <-> stored cf (s, st) g j u /\ j <> i) /\
  (forall g' j u, g' <> g -> (stored cf (s', st') g' j u <-> stored cf (s, st) g' j u)).
Proof.
  intros [I1 I2] EW M Hw R E N.
  pose proof (one_reporter c s w g i v (conj I1 I2) EW Hw R) as ONE.
  assert (ON : forall w', w' <> w -> s_workers s' w' = s_workers s w').
  { intros w' D. rewrite E. now apply wupd_ne. }
  assert (OFF : forall g' j u, stored cf (s', st') g' j u ->
     exists w', w' <> w /\ w' < nw /\ st w' = true /\ reporting (s_workers s w') = Some ((g', j), u)).
  { intros g' j u (w' & L' & S' & R'). cbn [fst snd] in *. destruct (Nat.eq_dec w' w) as [->|D].
    - rewrite E, wupd_eq in R'. congruence.
    - exists w'. apply M in S' as [S' _]. rewrite ON in R' by exact D. auto. }
  assert (BACK : forall g' j u w', w' <> w -> w' < nw -> st w' = true -> reporting (s_workers s w') = Some ((g', j), u) ->
     stored cf (s', st') g' j u).
  { intros g' j u w' D L' S' R'. exists w'. cbn [fst snd]. rewrite ON by exact D. repeat split; auto.
    apply M. split; [exact S'|now apply ON]. }
  split.
  - intros j u. split.
    + intro S. split; [exact (stored_back _ _ _ _ _ _ _ M S)|]. intros ->. apply OFF in S as (w' & D & L' & _ & R').
      apply D. now apply (ONE w' L' u).
    + intros ((w' & L' & S' & R') & D). cbn [fst snd] in *. apply (BACK g j u w'); auto. intros ->. congruence.
  - intros g' j u D. split; [exact (stored_back _ _ _ _ _ _ _ M)|]. intros (w' & L' & S' & R'). cbn [fst snd] in *.
    apply (BACK g' j u w'); auto. intros ->. congruence.
Qed.

Lemma grel_status (Q : nat -> status -> Prop) G H i : (forall j v, Q j v -> v <> PENDING) -> grel Q G H ->
  forall v, nth_error (g_status G) i = Some v -> exists u, nth_error (g_status H) i = Some u /\ (u = PENDING <-> v = PENDING).
Proof.
  intros NP (A & B & C & D & L & S1 & S2) v E.
  destruct (nth_error (g_status H) i) as [u|] eqn:EH.
  2:{ apply nth_error_None in EH. assert (i < length (g_status G)) by (apply nth_error_Some; congruence). lia. }
  exists u. split; [reflexivity|].
  assert (DD : {u = v} + {u <> v}) by decide equality. destruct DD as [->|N]; [reflexivity|].
  split; intros ->.
  - assert (X : forall w, ~ Q i w). { intros w X. apply S1 in X as [X _]. congruence. }
    apply S2 in X. congruence.
  - assert (X : forall w, ~ Q i w). { intros w X. pose proof (NP _ _ X). apply S1 in X as [_ X]. congruence. }
    apply S2 in X. congruence.
Qed.

Lemma sim_move s s' st st' c : inv cf c -> seen_as cf (s, st) c -> step cf s s' -> moves cf s s' st st' ->
  exists c', step cf c c' /\ seen_as cf (s', st') c'.
Proof.
  intros I A H M. pose proof A as (EQ & EC & EW & EU & EG). cbn [fst] in EQ, EC, EW, EU.
  assert (GR : forall g, grel (stored cf (s, st) g) (s_groups s g) (s_groups c g)) by (intro g; exact (EG g)). clear EG.
  assert (NP : forall g j v, stored cf (s, st) g j v -> v <> PENDING) by (intros g j v; apply stored_not).
  assert (gLEN : forall g, length (g_status (s_groups c g)) = length (g_status (s_groups s g))) by (intro g; apply (GR g)).
  assert (gLOCK : forall g, g_lock (s_groups c g) = g_lock (s_groups s g)) by (intro g; apply (GR g)).
  assert (gAL : forall g, g_alive (s_groups c g) = g_alive (s_groups s g)) by (intro g; apply (GR g)).
  assert (gN : forall g, g_complete (s_groups c g) = g_complete (s_groups s g)) by (intro g; apply (GR g)).
  assert (gE : forall g, g_errors (s_groups c g) = g_errors (s_groups s g)) by (intro g; apply (GR g)).
  destruct H as [s g Hg E L Hn Ha|s g i q' Hg E P|s g w Hg E Hw Ew|s g Hg E Hw|s g Hg E Ha|s g Hg E Hz Ha|s g Hg E Hn Hz Ha|s g Hg E L Hc|s g Hg E L Hc|s g errs Hg E|s w g t q' Hw E P|s w Hw E P|s w g i Hw E Al St|s w g i u Hw E Al St Ne|s w g i Hw E Al|s w g i Hw E Al L|s w g i m Hw E Al L|s w g k Hw E Al Hk|s w g k Hw E Al Hk|s w g Hw E Al U].
  - eexists. split; [apply S_add with (g := g); rewrite ?EC, ?gLEN, ?gLOCK; assumption|].
    apply (seen_quiet _ _ _ _ _ M); try (apply quiet_same; reflexivity); cbn; rewrite ?EC, ?gLEN; auto.
    apply groups_upd; auto. now apply gr_add.
  - eexists. split; [eapply S_push with (g := g); rewrite ?EC, ?EQ; eassumption|].
    apply (seen_quiet _ _ _ _ _ M); try (apply quiet_same; reflexivity); cbn; rewrite ?EC; auto.
  - eexists. split; [eapply S_notify with (g := g) (w := w); rewrite ?EC, ?EW; assumption|].
    apply (seen_quiet _ _ _ _ _ M); try (eapply quiet_w; [reflexivity|now rewrite Ew]); cbn; rewrite ?EC, ?EW; auto.
  - eexists. split; [eapply S_notify_none with (g := g); rewrite ?EC, ?EW; assumption|].
    apply (seen_quiet _ _ _ _ _ M); try (apply quiet_same; reflexivity); cbn; rewrite ?EC; auto.
  - eexists. split; [eapply S_abandon with (g := g); rewrite ?EC, ?gLEN; assumption|].
    apply (seen_quiet _ _ _ _ _ M); try (apply quiet_same; reflexivity); cbn; rewrite ?EC; auto.
    apply groups_upd; auto. now apply gr_destroy.
  - eexists. split; [eapply S_wait_none with (g := g); rewrite ?EC; assumption|].
    apply (seen_quiet _ _ _ _ _ M); try (apply quiet_same; reflexivity); cbn; rewrite ?EC; auto.
    apply groups_upd; auto. now apply gr_destroy.
  - eexists. split; [eapply S_wait with (g := g); rewrite ?EC, ?gLEN; assumption|].
    apply (seen_quiet _ _ _ _ _ M); try (apply quiet_same; reflexivity); cbn; rewrite ?EC; auto.
  - eexists. split; [eapply S_return with (g := g); rewrite ?EC, ?gLEN, ?gN, ?gLOCK; assumption|].
    apply (seen_quiet _ _ _ _ _ M); try (apply quiet_same; reflexivity); cbn; rewrite ?EC, ?gE; auto.
  - eexists. split; [eapply S_block with (g := g); rewrite ?EC, ?gLEN, ?gN, ?gLOCK; assumption|].
    apply (seen_quiet _ _ _ _ _ M); try (apply quiet_same; reflexivity); cbn; rewrite ?EC; auto.
  - eexists. split; [eapply S_destroy with (g := g); rewrite ?EC; eassumption|].
    apply (seen_quiet _ _ _ _ _ M); try (apply quiet_same; reflexivity); cbn; rewrite ?EC; auto.
    apply groups_upd; auto. now apply gr_destroy.
  - eexists. split; [eapply S_pop with (w := w); rewrite ?EW, ?EQ; eassumption|].
    apply (seen_quiet _ _ _ _ _ M); try (eapply quiet_w; [reflexivity|now rewrite E]); cbn; rewrite ?EC, ?EW; auto.
  - eexists. split; [eapply S_sleep with (w := w); rewrite ?EW, ?EQ; eassumption|].
    apply (seen_quiet _ _ _ _ _ M); try (eapply quiet_w; [reflexivity|now rewrite E]); cbn; rewrite ?EC, ?EW; auto.
  - destruct (gr_start _ _ _ _ (NP g) (GR g) St) as [St' G'].
    eexists. split; [eapply S_start with (w := w) (g := g) (i := i); rewrite ?EW, ?gAL; eassumption|].
    apply (seen_quiet _ _ _ _ _ M); try (eapply quiet_w; [reflexivity|now rewrite E]); cbn; rewrite ?EC, ?EW; auto.
    apply groups_upd; auto.
  - destruct (grel_status _ _ _ _ (NP g) (GR g) _ St) as (u' & St' & Ne').
    eexists. split; [eapply S_skip with (w := w) (g := g) (i := i) (st := u'); rewrite ?EW, ?gAL; try eassumption; tauto|].
    apply (seen_quiet _ _ _ _ _ M); try (eapply quiet_w; [reflexivity|now rewrite E]); cbn; rewrite ?EC, ?EW; auto.
  - eexists. split; [eapply S_finish with (w := w) (g := g) (i := i); rewrite ?EW, ?gAL; eassumption|].
    apply (seen_quiet _ _ _ _ _ M); try (eapply quiet_w; [reflexivity|now rewrite E]); cbn; rewrite ?EC, ?EW; auto.
  - eexists. split; [eapply S_ok with (w := w) (g := g) (i := i); rewrite ?EW, ?gAL, ?gLOCK; eassumption|].
    destruct (stored_report _ _ _ _ _ w g i DONE WReady I EW M Hw ltac:(now rewrite E) eq_refl eq_refl) as [T1 T2].
    assert (ST : stored cf (s, st) g i DONE).
    { exists w. cbn [fst snd]. rewrite E. repeat split; auto. apply (proj1 M w Hw); [now rewrite E|]. cbn. rewrite wupd_eq, E. discriminate. }
    repeat split; cbn [fst s_queue s_clients s_workers s_ub s_groups upd_w upd_c upd_g]; rewrite ?EC, ?EW; auto.
    all: unfold wupd; destruct (Nat.eqb_spec g0 g) as [->|Dg].
    all: try (pose proof (gr_report _ _ _ _ _ _ (GR g) ST T1 (complete_ok (s_groups s g) i) (complete_ok (s_groups c g) i) eq_refl eq_refl eq_refl eq_refl (gE g) (gLOCK g) eq_refl eq_refl) as (G1 & G2 & G3 & G4 & G5 & G6 & G7); solve [auto|eapply G6; eauto]).
    all: pose proof (grel_ext _ _ _ _ (fun j u => iff_sym (T2 g0 j u Dg)) (GR g0)) as (G1 & G2 & G3 & G4 & G5 & G6 & G7); solve [auto|eapply G6; eauto].
  - eexists. split; [eapply S_err with (w := w) (g := g) (i := i); rewrite ?EW, ?gAL, ?gLOCK; eassumption|].
    destruct (stored_report _ _ _ _ _ w g i FAILED (WCancel g 0) I EW M Hw ltac:(now rewrite E) eq_refl eq_refl) as [T1 T2].
    assert (ST : stored cf (s, st) g i FAILED).
    { exists w. cbn [fst snd]. rewrite E. repeat split; auto. apply (proj1 M w Hw); [now rewrite E|]. cbn. rewrite wupd_eq, E. discriminate. }
    repeat split; cbn [fst s_queue s_clients s_workers s_ub s_groups upd_w upd_c upd_g]; rewrite ?EC, ?EW; auto.
    all: unfold wupd; destruct (Nat.eqb_spec g0 g) as [->|Dg].
    all: try (pose proof (gr_report _ _ _ _ _ _ (GR g) ST T1 (complete_err (s_groups s g) i m w) (complete_err (s_groups c g) i m w) eq_refl eq_refl eq_refl eq_refl ltac:(cbn; now rewrite (gE g)) eq_refl eq_refl eq_refl) as (G1 & G2 & G3 & G4 & G5 & G6 & G7); solve [auto|eapply G6; eauto]).
    all: pose proof (grel_ext _ _ _ _ (fun j u => iff_sym (T2 g0 j u Dg)) (GR g0)) as (G1 & G2 & G3 & G4 & G5 & G6 & G7); solve [auto|eapply G6; eauto].
  - eexists. split; [eapply S_cancel with (w := w) (g := g) (k := k); rewrite ?EW, ?gAL, ?gLEN; eassumption|].
    apply (seen_quiet _ _ _ _ _ M); try (eapply quiet_w; [reflexivity|now rewrite E]); cbn; rewrite ?EC, ?EW; auto.
    apply groups_upd; auto. apply gr_cancel; auto. intros j v; apply NP.
  - eexists. split; [eapply S_unlock with (w := w) (g := g) (k := k); rewrite ?EW, ?gAL, ?gLEN; eassumption|].
    apply (seen_quiet _ _ _ _ _ M); try (eapply quiet_w; [reflexivity|now rewrite E]); cbn; rewrite ?EC, ?EW; auto.
    apply groups_upd; auto. now apply gr_unlock.
  - eexists. split; [eapply S_dangling with (w := w) (g := g); rewrite ?EW, ?gAL, ?EU; eassumption|].
    apply (seen_quiet _ _ _ _ _ M); try (apply quiet_same; reflexivity); cbn; rewrite ?EC; auto.
Qed.

Lemma sim_wakeup s s' st st' c : seen_as cf (s, st) c -> wakeup cf s s' -> moves cf s s' st st' ->
  exists c', wakeup cf c c' /\ seen_as cf (s', st') c'.
Proof.
  intros A H M. pose proof A as (EQ & EC & EW & EU & EG). cbn [fst] in EQ, EC, EW, EU.
  assert (GR : forall g, grel (stored cf (s, st) g) (s_groups s g) (s_groups c g)) by (intro g; exact (EG g)). clear EG.
  destruct H as [s g Hg E|s w Hw E].
  - eexists. split; [eapply W_client with (g := g); rewrite ?EC; assumption|].
    apply (seen_quiet _ _ _ _ _ M); try (apply quiet_same; reflexivity); cbn; rewrite ?EC; auto.
  - eexists. split; [eapply W_worker with (w := w); rewrite ?EW; assumption|].
    apply (seen_quiet _ _ _ _ _ M); try (eapply quiet_w; [reflexivity|now rewrite E]); cbn; rewrite ?EC, ?EW; auto.
Qed.

(* storing a status changes nothing for the others *)
Lemma sim_store s st w g i v c : inv cf c -> seen_as cf (s, st) c -> w < nw -> reporting (s_workers s w) = Some ((g, i), v) ->
  st w = false -> seen_as cf (upd_g s g (set_status (s_groups s g) i v), wupd st w true) c.
Proof.
  intros [I1 I2] A Hw R ST. pose proof A as (EQ & EC & EW & EU & EG). cbn [fst] in EQ, EC, EW, EU.
  assert (GR : forall g, grel (stored cf (s, st) g) (s_groups s g) (s_groups c g)) by (intro g'; exact (EG g')). clear EG.
  assert (HR : forall z q, reporting z = Some ((g, i), q) -> hR z g i = 1).
  { intros z q. destruct z as [| |t|t|t|t m|a b]; cbn; try discriminate; intros [= -> _]; now rewrite is_task_self. }
  destruct (held_R _ _ _ g i I1 Hw) as (EX & _ & _); [rewrite EW; exact (HR _ _ R)|].
  unfold status_of in EX.
  set (f' := (upd_g s g (set_status (s_groups s g) i v), wupd st w true)).
  assert (T : forall g' j u, stored cf f' g' j u <-> stored cf (s, st) g' j u \/ (g' = g /\ j = i /\ u = v)).
  { intros g' j u. split.
    - intros (w' & L' & S' & R'). cbn [f' fst snd upd_g s_workers] in *. unfold wupd in S'.
      destruct (Nat.eqb_spec w' w) as [->|D]; [right; rewrite R in R'; injection R' as <- <- <-; auto|left; exists w'; auto].
    - intros [(w' & L' & S' & R')|(-> & -> & ->)]; cbn [fst snd] in *.
      + exists w'. cbn [f' fst snd upd_g s_workers]. repeat split; auto. unfold wupd. now destruct (Nat.eqb w' w).
      + exists w. cbn [f' fst snd upd_g s_workers]. repeat split; auto. apply wupd_eq. }
  assert (G' : forall g', grel (stored cf f' g') (s_groups (fst f') g') (s_groups c g')).
  { intro g'. cbn [f' fst upd_g s_groups]. unfold wupd. destruct (GR g') as (G1 & G2 & G3 & G4 & G5 & G6 & G7).
    destruct (Nat.eqb_spec g' g) as [->|D].
    - repeat split; cbn; auto.
      + now rewrite set_nth_length.
      + apply T in H as [H|(_ & -> & ->)]; [now apply G6 in H|exact EX].
      + rewrite set_nth_get. assert (Li : nth_error (g_status (s_groups s g)) i <> None).
        { apply nth_error_Some. rewrite <- G5. eapply nth_lt, EX. }
        apply T in H as [H|(_ & -> & ->)].
        * destruct (Nat.eqb_spec i0 i) as [->|]; [|now apply G6 in H].
          destruct H as (w' & L' & S' & R'). cbn [fst snd] in S', R'.
          rewrite (one_reporter c s w g i v (conj I1 I2) EW Hw R w' L' _ R') in S'. congruence.
        * rewrite Nat.eqb_refl. destruct (nth_error (g_status (s_groups s g)) i); congruence.
      + intros j N. rewrite set_nth_get. destruct (Nat.eqb_spec j i) as [->|D].
        * exfalso. apply (N v). apply T. auto.
        * apply G7. intros u X. apply (N u). apply T. auto.
    - repeat split; auto.
      + apply T in H as [H|(-> & _)]; [now apply G6 in H|congruence].
      + apply T in H as [H|(-> & _)]; [now apply G6 in H|congruence].
      + intros j N. apply G7. intros u X. apply (N u). apply T. auto. }
  repeat split; cbn [f' fst upd_g s_queue s_clients s_workers s_ub]; auto; destruct (G' g0) as (G1 & G2 & G3 & G4 & G5 & G6 & G7);
    auto; eapply G6; eauto.
Qed.
Lemma one_worker s s' : step cf s s' -> s_workers s' = s_workers s \/ exists w x, s_workers s' = wupd (s_workers s) w x.
Proof. intro H. destruct H; cbn; eauto. Qed.

(* every reporting worker that the step from c to c' moves on has stored its status *)
Definition ready (c c' : sys) (st : nat -> bool) : Prop :=
  forall w, w < nw -> reporting (s_workers c w) <> None -> s_workers c' w <> s_workers c w -> st w = true.

Lemma grel_status_back (Q : nat -> status -> Prop) G H i : (forall j v, Q j v -> v <> PENDING) -> grel Q G H ->
  forall u, nth_error (g_status H) i = Some u -> exists v, nth_error (g_status G) i = Some v /\ (u = PENDING <-> v = PENDING).
Proof.
  intros NP R u E. destruct (nth_error (g_status G) i) as [v|] eqn:EG.
  - exists v. split; [reflexivity|]. destruct (grel_status _ _ _ _ NP R _ EG) as (u' & E' & X). congruence.
  - exfalso. apply nth_error_None in EG. assert (i < length (g_status H)) by (apply nth_error_Some; congruence).
    destruct R as (_ & _ & _ & _ & L & _). lia.
Qed.

Lemma back_move s st c c' : inv cf c -> seen_as cf (s, st) c -> step cf c c' -> ready c c' st ->
  exists s', step cf s s' /\ s_workers s' = s_workers c' /\ forall st', moves cf s s' st st' -> seen_as cf (s', st') c'.
Proof.
  intros I A H M0. pose proof A as (EQ & EC & EW & EU & EG). cbn [fst] in EQ, EC, EW, EU.
  assert (GR : forall g, grel (stored cf (s, st) g) (s_groups s g) (s_groups c g)) by (intro g; exact (EG g)). clear EG.
  assert (NP : forall g j v, stored cf (s, st) g j v -> v <> PENDING) by (intros g j v; apply stored_not).
  assert (gLEN : forall g, length (g_status (s_groups s g)) = length (g_status (s_groups c g))) by (intro g; symmetry; apply (GR g)).
  assert (gLOCK : forall g, g_lock (s_groups s g) = g_lock (s_groups c g)) by (intro g; symmetry; apply (GR g)).
  assert (gAL : forall g, g_alive (s_groups s g) = g_alive (s_groups c g)) by (intro g; symmetry; apply (GR g)).
  assert (gN : forall g, g_complete (s_groups s g) = g_complete (s_groups c g)) by (intro g; symmetry; apply (GR g)).
  assert (gE : forall g, g_errors (s_groups s g) = g_errors (s_groups c g)) by (intro g; symmetry; apply (GR g)).
  symmetry in EQ, EC, EW, EU.
  destruct H as [c g Hg E L Hn Ha|c g i q' Hg E P|c g w Hg E Hw Ew|c g Hg E Hw|c g Hg E Ha|c g Hg E Hz Ha|c g Hg E Hn Hz Ha|c g Hg E L Hc|c g Hg E L Hc|c g errs Hg E|c w g t q' Hw E P|c w Hw E P|c w g i Hw E Al St|c w g i u Hw E Al St Ne|c w g i Hw E Al|c w g i Hw E Al L|c w g i m Hw E Al L|c w g k Hw E Al Hk|c w g k Hw E Al Hk|c w g Hw E Al U].
  - eexists. split; [apply S_add with (g := g); rewrite ?EC, ?gLEN, ?gLOCK; assumption|].
    split; [cbn; rewrite ?EW; reflexivity|]. intros st' M. apply (seen_quiet _ _ _ _ _ M); try (apply quiet_same; reflexivity); cbn; rewrite ?EC, ?gLEN; auto.
    apply groups_upd; auto. now apply gr_add.
  - eexists. split; [eapply S_push with (g := g); rewrite ?EC, ?EQ; eassumption|].
    split; [cbn; rewrite ?EW; reflexivity|]. intros st' M. apply (seen_quiet _ _ _ _ _ M); try (apply quiet_same; reflexivity); cbn; rewrite ?EC; auto.
  - eexists. split; [eapply S_notify with (g := g) (w := w); rewrite ?EC, ?EW; assumption|].
    split; [cbn; rewrite ?EW; reflexivity|]. intros st' M. apply (seen_quiet _ _ _ _ _ M); try (eapply quiet_w; [reflexivity|now rewrite EW, Ew]); cbn; rewrite ?EC, ?EW; auto.
  - eexists. split; [eapply S_notify_none with (g := g); rewrite ?EC, ?EW; assumption|].
    split; [cbn; rewrite ?EW; reflexivity|]. intros st' M. apply (seen_quiet _ _ _ _ _ M); try (apply quiet_same; reflexivity); cbn; rewrite ?EC; auto.
  - eexists. split; [eapply S_abandon with (g := g); rewrite ?EC, ?gLEN; assumption|].
    split; [cbn; rewrite ?EW; reflexivity|]. intros st' M. apply (seen_quiet _ _ _ _ _ M); try (apply quiet_same; reflexivity); cbn; rewrite ?EC; auto.
    apply groups_upd; auto. now apply gr_destroy.
  - eexists. split; [eapply S_wait_none with (g := g); rewrite ?EC; assumption|].
    split; [cbn; rewrite ?EW; reflexivity|]. intros st' M. apply (seen_quiet _ _ _ _ _ M); try (apply quiet_same; reflexivity); cbn; rewrite ?EC; auto.
    apply groups_upd; auto. now apply gr_destroy.
  - eexists. split; [eapply S_wait with (g := g); rewrite ?EC, ?gLEN; assumption|].
    split; [cbn; rewrite ?EW; reflexivity|]. intros st' M. apply (seen_quiet _ _ _ _ _ M); try (apply quiet_same; reflexivity); cbn; rewrite ?EC; auto.
  - eexists. split; [eapply S_return with (g := g); rewrite ?EC, ?gLEN, ?gN, ?gLOCK; assumption|].
    split; [cbn; rewrite ?EW; reflexivity|]. intros st' M. apply (seen_quiet _ _ _ _ _ M); try (apply quiet_same; reflexivity); cbn; rewrite ?EC, ?gE; auto.
  - eexists. split; [eapply S_block with (g := g); rewrite ?EC, ?gLEN, ?gN, ?gLOCK; assumption|].
    split; [cbn; rewrite ?EW; reflexivity|]. intros st' M. apply (seen_quiet _ _ _ _ _ M); try (apply quiet_same; reflexivity); cbn; rewrite ?EC; auto.
  - eexists. split; [eapply S_destroy with (g := g); rewrite ?EC; eassumption|].
    split; [cbn; rewrite ?EW; reflexivity|]. intros st' M. apply (seen_quiet _ _ _ _ _ M); try (apply quiet_same; reflexivity); cbn; rewrite ?EC; auto.
    apply groups_upd; auto. now apply gr_destroy.
  - eexists. split; [eapply S_pop with (w := w); rewrite ?EW, ?EQ; eassumption|].
    split; [cbn; rewrite ?EW; reflexivity|]. intros st' M. apply (seen_quiet _ _ _ _ _ M); try (eapply quiet_w; [reflexivity|now rewrite EW, E]); cbn; rewrite ?EC, ?EW; auto.
  - eexists. split; [eapply S_sleep with (w := w); rewrite ?EW, ?EQ; eassumption|].
    split; [cbn; rewrite ?EW; reflexivity|]. intros st' M. apply (seen_quiet _ _ _ _ _ M); try (eapply quiet_w; [reflexivity|now rewrite EW, E]); cbn; rewrite ?EC, ?EW; auto.
  - destruct (grel_status_back _ _ _ _ (NP g) (GR g) _ St) as (v & Sv & Pv). rewrite (proj1 Pv eq_refl) in Sv.
    destruct (gr_start _ _ _ _ (NP g) (GR g) Sv) as [_ G'].
    eexists. split; [eapply S_start with (w := w) (g := g) (i := i); rewrite ?EW, ?gAL; eassumption|].
    split; [cbn; rewrite ?EW; reflexivity|]. intros st' M. apply (seen_quiet _ _ _ _ _ M); try (eapply quiet_w; [reflexivity|now rewrite EW, E]); cbn; rewrite ?EC, ?EW; auto.
    apply groups_upd; auto.
  - destruct (grel_status_back _ _ _ _ (NP g) (GR g) _ St) as (u' & St' & Ne').
    eexists. split; [eapply S_skip with (w := w) (g := g) (i := i) (st := u'); rewrite ?EW, ?gAL; try eassumption; tauto|].
    split; [cbn; rewrite ?EW; reflexivity|]. intros st' M. apply (seen_quiet _ _ _ _ _ M); try (eapply quiet_w; [reflexivity|now rewrite EW, E]); cbn; rewrite ?EC, ?EW; auto.
  - eexists. split; [eapply S_finish with (w := w) (g := g) (i := i); rewrite ?EW, ?gAL; eassumption|].
    split; [cbn; rewrite ?EW; reflexivity|]. intros st' M. apply (seen_quiet _ _ _ _ _ M); try (eapply quiet_w; [reflexivity|now rewrite EW, E]); cbn; rewrite ?EC, ?EW; auto.
  - eexists. split; [eapply S_ok with (w := w) (g := g) (i := i); rewrite ?EW, ?gAL, ?gLOCK; eassumption|].
    split; [cbn; rewrite ?EW; reflexivity|]. intros st' M.
    destruct (stored_report _ _ _ _ _ w g i DONE WReady I (eq_sym EW) M Hw ltac:(now rewrite EW, E) eq_refl eq_refl) as [T1 T2].
    assert (ST : stored cf (s, st) g i DONE).
    { exists w. cbn [fst snd]. rewrite EW, E. repeat split; auto. apply (M0 w Hw); [now rewrite E|]. cbn. rewrite wupd_eq, E. discriminate. }
    repeat split; cbn [fst s_queue s_clients s_workers s_ub s_groups upd_w upd_c upd_g]; rewrite ?EC, ?EW; auto.
    all: unfold wupd; destruct (Nat.eqb_spec g0 g) as [->|Dg].
    all: try (pose proof (gr_report _ _ _ _ _ _ (GR g) ST T1 (complete_ok (s_groups s g) i) (complete_ok (s_groups c g) i) eq_refl eq_refl eq_refl eq_refl (eq_sym (gE g)) (eq_sym (gLOCK g)) eq_refl eq_refl) as (G1 & G2 & G3 & G4 & G5 & G6 & G7); solve [auto|eapply G6; eauto]).
    all: pose proof (grel_ext _ _ _ _ (fun j u => iff_sym (T2 g0 j u Dg)) (GR g0)) as (G1 & G2 & G3 & G4 & G5 & G6 & G7); solve [auto|eapply G6; eauto].
  - eexists. split; [eapply S_err with (w := w) (g := g) (i := i); rewrite ?EW, ?gAL, ?gLOCK; eassumption|].
    split; [cbn; rewrite ?EW; reflexivity|]. intros st' M.
    destruct (stored_report _ _ _ _ _ w g i FAILED (WCancel g 0) I (eq_sym EW) M Hw ltac:(now rewrite EW, E) eq_refl eq_refl) as [T1 T2].
    assert (ST : stored cf (s, st) g i FAILED).
    { exists w. cbn [fst snd]. rewrite EW, E. repeat split; auto. apply (M0 w Hw); [now rewrite E|]. cbn. rewrite wupd_eq, E. discriminate. }
    repeat split; cbn [fst s_queue s_clients s_workers s_ub s_groups upd_w upd_c upd_g]; rewrite ?EC, ?EW; auto.
    all: unfold wupd; destruct (Nat.eqb_spec g0 g) as [->|Dg].
    all: try (pose proof (gr_report _ _ _ _ _ _ (GR g) ST T1 (complete_err (s_groups s g) i m w) (complete_err (s_groups c g) i m w) eq_refl eq_refl eq_refl eq_refl ltac:(cbn; now rewrite (gE g)) eq_refl eq_refl eq_refl) as (G1 & G2 & G3 & G4 & G5 & G6 & G7); solve [auto|eapply G6; eauto]).
    all: pose proof (grel_ext _ _ _ _ (fun j u => iff_sym (T2 g0 j u Dg)) (GR g0)) as (G1 & G2 & G3 & G4 & G5 & G6 & G7); solve [auto|eapply G6; eauto].
  - eexists. split; [eapply S_cancel with (w := w) (g := g) (k := k); rewrite ?EW, ?gAL, ?gLEN; eassumption|].
    split; [cbn; rewrite ?EW; reflexivity|]. intros st' M. apply (seen_quiet _ _ _ _ _ M); try (eapply quiet_w; [reflexivity|now rewrite EW, E]); cbn; rewrite ?EC, ?EW; auto.
    apply groups_upd; auto. apply gr_cancel; auto. intros j v; apply NP.
  - eexists. split; [eapply S_unlock with (w := w) (g := g) (k := k); rewrite ?EW, ?gAL, ?gLEN; eassumption|].
    split; [cbn; rewrite ?EW; reflexivity|]. intros st' M. apply (seen_quiet _ _ _ _ _ M); try (eapply quiet_w; [reflexivity|now rewrite EW, E]); cbn; rewrite ?EC, ?EW; auto.
    apply groups_upd; auto. now apply gr_unlock.
  - eexists. split; [eapply S_dangling with (w := w) (g := g); rewrite ?EW, ?gAL, ?EU; eassumption|].
    split; [cbn; rewrite ?EW; reflexivity|]. intros st' M. apply (seen_quiet _ _ _ _ _ M); try (apply quiet_same; reflexivity); cbn; rewrite ?EC; auto.
Qed.


Lemma back_wakeup s st c c' : seen_as cf (s, st) c -> wakeup cf c c' ->
  exists s', wakeup cf s s' /\ (forall w, s_workers s' w <> s_workers s w -> reporting (s_workers s w) = None) /\
    forall st', moves cf s s' st st' -> seen_as cf (s', st') c'.
Proof.
  intros A H. pose proof A as (EQ & EC & EW & EU & EG). cbn [fst] in EQ, EC, EW, EU.
  assert (GR : forall g, grel (stored cf (s, st) g) (s_groups s g) (s_groups c g)) by (intro g; exact (EG g)). clear EG.
  symmetry in EQ, EC, EW, EU. destruct H as [c g Hg E|c w Hw E].
  - eexists. split; [eapply W_client with (g := g); rewrite ?EC; assumption|]. split; [cbn; congruence|].
    intros st' M. apply (seen_quiet _ _ _ _ _ M); try (apply quiet_same; reflexivity); cbn; rewrite ?EC; auto.
  - eexists. split; [eapply W_worker with (w := w); rewrite ?EW; assumption|]. split.
    { intros w'. cbn. unfold wupd. destruct (Nat.eqb_spec w' w) as [->|]; [now rewrite EW, E|congruence]. }
    intros st' M. apply (seen_quiet _ _ _ _ _ M); try (eapply quiet_w; [reflexivity|now rewrite EW, E]); cbn; rewrite ?EC, ?EW; auto.
Qed.

Lemma worker_dec (x y : worker) : {x = y} + {x <> y}.
Proof. repeat decide equality. Qed.

(* what is still stored after a step from s to s' *)
Definition st_after (s s' : sys) (st : nat -> bool) (w : nat) : bool :=
  st w && (if worker_dec (s_workers s' w) (s_workers s w) then true else false).
Lemma moves_after s s' st : ready s s' st -> moves cf s s' st (st_after s s' st).
Proof.
  intro R. split; [exact R|]. intro w. unfold st_after. destruct (worker_dec _ _); cbn; rewrite andb_true_iff; split; intros [X Y]; auto; discriminate.
Qed.

Lemma ready_dec c c' st : ready c c' st \/
  exists w, w < nw /\ reporting (s_workers c w) <> None /\ s_workers c' w <> s_workers c w /\ st w = false.
Proof.
  destruct (find_below nw (fun w => reporting (s_workers c w) <> None /\ s_workers c' w <> s_workers c w /\ st w = false)) as [(w & L & X)|N].
  - intro w. destruct (reporting (s_workers c w)) as [r|]; [|right; intros [X _]; congruence].
    destruct (worker_dec (s_workers c' w) (s_workers c w)); [right; intros (_ & X & _); congruence|].
    destruct (st w); [right; intros (_ & _ & X); congruence|left; repeat split; auto; discriminate].
  - right. exists w. tauto.
  - left. intros w L R D. destruct (st w) eqn:E; [reflexivity|]. exfalso. apply (N w L). auto.
Qed.

(* ---- executions ---- *)
Lemma seen_init : seen_as cf f_init sys_init.
Proof.
  repeat split; auto.
  - destruct H as (w & _ & X & _). discriminate.
  - destruct H as (w & _ & X & _). discriminate.
Qed.

Lemma sim_fstep f f' c : reachable cf c -> seen_as cf f c -> fstep cf f f' ->
  (s_workers (fst f') = s_workers (fst f) /\ seen_as cf f' c) \/ exists c', step cf c c' /\ seen_as cf f' c'.
Proof.
  intros R A H. pose proof (inv_reach cf NA c R) as I. destruct H as [s st w g i v Hw Rp St Al|s st s' st' S M].
  - left. split; [reflexivity|]. eapply sim_store; eassumption.
  - right. eapply sim_move; eassumption.
Qed.
Lemma sim_fwoken f f' c : seen_as cf f c -> fwoken cf f f' -> exists c', wakeup cf c c' /\ seen_as cf f' c'.
Proof. intros A H. destruct H as [s st s' st' S M]. eapply sim_wakeup; eassumption. Qed.

Lemma sim_fsteps f f' c : reachable cf c -> seen_as cf f c -> fsteps cf f f' -> exists c', steps cf c c' /\ seen_as cf f' c'.
Proof.
  intros R A H. induction H as [f|f f1 f2 H IH S|f f1 f2 H IH S].
  - exists c. split; [constructor|exact A].
  - destruct (IH A) as (c1 & S1 & A1). destruct (sim_fstep f1 f2 c1 (reach_steps cf _ _ R S1) A1 S) as [[_ X]|(c2 & S2 & X)].
    + exists c1. auto.
    + exists c2. split; [eapply steps_next; eassumption|exact X].
  - destruct (IH A) as (c1 & S1 & A1). destruct (sim_fwoken f1 f2 c1 A1 S) as (c2 & S2 & X).
    exists c2. split; [eapply steps_woken; eassumption|exact X].
Qed.
Lemma sim_reach f : f_reachable cf f -> exists c, reachable cf c /\ seen_as cf f c.
Proof. intro H. destruct (sim_fsteps _ _ sys_init (steps_refl _ _) seen_init H) as (c & S & A). eauto. Qed.

Lemma sim_runs f h : fruns cf f h -> exists c, runs cf c h /\ seen_as cf f c.
Proof.
  induction 1 as [|f h w t f' R IH S E E'|f h f' R IH S K|f h f' R IH S].
  - exists sys_init. split; [constructor|exact seen_init].
  - destruct IH as (c & Rc & A). pose proof A as (_ & _ & W & _).
    destruct (sim_fstep f f' c (runs_reachable cf _ _ Rc) A S) as [[X _]|(c' & S' & A')].
    + exfalso. apply E'. rewrite X. exact E.
    + pose proof A' as (_ & _ & W' & _). exists c'. split; [|exact A'].
      eapply runs_end with (w := w) (s := c); [exact Rc|exact S'|rewrite W; exact E|rewrite W'; exact E'].
  - destruct IH as (c & Rc & A). pose proof A as (_ & _ & W & _).
    destruct (sim_fstep f f' c (runs_reachable cf _ _ Rc) A S) as [[X A']|(c' & S' & A')]; [exists c; auto|].
    pose proof A' as (_ & _ & W' & _). exists c'. split; [|exact A'].
    eapply runs_step; [exact Rc|exact S'|]. rewrite W, W'. exact K.
  - destruct IH as (c & Rc & A). destruct (sim_fwoken _ _ _ A S) as (c' & S' & A'). exists c'. split; [eapply runs_woken; eassumption|exact A'].
Qed.

(* and the other way round: nothing is lost by taking the finer steps *)
Lemma back_step f c c' : reachable cf c -> seen_as cf f c -> step cf c c' ->
  exists f1 f2, (f1 = f \/ (fstep cf f f1 /\ s_workers (fst f1) = s_workers (fst f) /\ seen_as cf f1 c)) /\
    fstep cf f1 f2 /\ seen_as cf f2 c'.
Proof.
  intros R A H. pose proof (inv_reach cf NA c R) as I. destruct f as [s st].
  pose proof A as (_ & _ & W & _). cbn [fst] in W.
  assert (GO : forall s st, seen_as cf (s, st) c -> ready c c' st -> exists f2, fstep cf (s, st) f2 /\ seen_as cf f2 c').
  { clear s st A W. intros s st A Y. destruct (back_move s st c c' I A H Y) as (s' & S & Ew & X).
    pose proof A as (_ & _ & W & _). cbn [fst] in W.
    assert (Y' : ready s s' st). { unfold ready. rewrite Ew, <- W. exact Y. }
    exists (s', st_after s s' st). split; [constructor; [exact S|now apply moves_after]|]. apply X. now apply moves_after. }
  destruct (ready_dec c c' st) as [Y|(w & Hw & Rp & D & N)].
  - destruct (GO s st A Y) as (f2 & S & X). exists (s, st), f2. auto.
  - destruct (reporting (s_workers c w)) as [[[g i] v]|] eqn:E; [clear Rp|congruence]. rewrite W in E.
    pose proof (sim_store s st w g i v c I A Hw E N) as A1.
    assert (Y : ready c c' (wupd st w true)).
    { intros w' Hw' R' D'. unfold wupd. destruct (Nat.eqb_spec w' w) as [->|NE]; [reflexivity|exfalso].
      destruct (one_worker _ _ H) as [X|(u & x & X)]; rewrite X in D, D'; [congruence|]. unfold wupd in D, D'.
      destruct (Nat.eqb_spec w u), (Nat.eqb_spec w' u); congruence. }
    destruct (GO _ _ A1 Y) as (f2 & S & X). eexists _, f2. split; [|split; [exact S|exact X]].
    right. split; [|split; [reflexivity|exact A1]]. constructor; auto.
    destruct I as [I J]. destruct A as (_ & _ & _ & _ & G). destruct (G g) as (_ & _ & _ & Ga & _). cbn [fst] in Ga. rewrite <- Ga.
    eapply no_dangling; [exact I|exact J|exact Hw|]. rewrite W. destruct (s_workers s w); cbn in E |- *; try discriminate; now injection E as -> _.
Qed.

Lemma back_runs c h : runs cf c h -> exists f, fruns cf f h /\ seen_as cf f c.
Proof.
  induction 1 as [|c h w t c' R IH S E E'|c h c' R IH S K|c h c' R IH S].
  - exists f_init. split; [constructor|exact seen_init].
  - destruct IH as (f & Rf & A). destruct (back_step f c c' (runs_reachable cf _ _ R) A S) as (f1 & f2 & X & S2 & A2).
    assert (Y : fruns cf f1 h /\ seen_as cf f1 c).
    { destruct X as [->|(S1 & W1 & A1)]; [auto|]. split; [|exact A1]. eapply fr_step; [exact Rf|exact S1|]. now rewrite W1. }
    destruct Y as [R1 (_ & _ & W1 & _)]. pose proof A2 as (_ & _ & W2 & _). exists f2. split; [|exact A2].
    eapply fr_end with (f := f1) (w := w); [exact R1|exact S2|rewrite <- W1; exact E|rewrite <- W2; exact E'].
  - destruct IH as (f & Rf & A). destruct (back_step f c c' (runs_reachable cf _ _ R) A S) as (f1 & f2 & X & S2 & A2).
    assert (Y : fruns cf f1 h /\ seen_as cf f1 c).
    { destruct X as [->|(S1 & W1 & A1)]; [auto|]. split; [|exact A1]. eapply fr_step; [exact Rf|exact S1|]. now rewrite W1. }
    destruct Y as [R1 (_ & _ & W1 & _)]. pose proof A2 as (_ & _ & W2 & _). exists f2. split; [|exact A2].
    eapply fr_step with (f := f1); [exact R1|exact S2|rewrite <- W1, <- W2; exact K].
  - destruct IH as (f & Rf & A). destruct f as [s st]. destruct (back_wakeup s st c c' A S) as (s' & S' & Q & X).
    assert (M : moves cf s s' st (st_after s s' st)) by (apply moves_after; intros w _ N D; exfalso; exact (N (Q w D))).
    exists (s', st_after s s' st). split; [|now apply X]. eapply fr_woken; [exact Rf|]. constructor; assumption.
Qed.

(* ---- consequences ---- *)
Lemma seen_returned f c g e : seen_as cf f c -> (returned c g e <-> returned (fst f) g e).
Proof. intros (_ & E & _). unfold returned. now rewrite E. Qed.
Lemma seen_in_flight f c g i : seen_as cf f c -> (in_flight c g i <-> in_flight (fst f) g i).
Proof. intros (Q & _ & W & _). unfold in_flight. now rewrite Q, W. Qed.

Lemma f_returned f g e : f_reachable cf f -> returned (fst f) g e ->
  length (g_status (s_groups (fst f) g)) = cf_tasks cf g /\
  (forall i, i < cf_tasks cf g ->
     nth_error (g_status (s_groups (fst f) g)) i = Some (match cf_result cf g i with None => DONE | Some _ => FAILED end)) /\
  (forall i, ~ in_flight (fst f) g i) /\
  Permutation e (failures cf g).
Proof.
  intros R X. destruct (sim_reach f R) as (c & Rc & A). apply (seen_returned _ _ _ _ A) in X.
  destruct (returned_spec cf NA c g e Rc X) as (L & S & N & P). pose proof A as (_ & _ & W & _ & G).
  destruct (G g) as (_ & _ & _ & _ & G5 & _ & G7).
  split; [now rewrite <- G5|]. split; [|split; [intros i Y; apply (N i); now apply (seen_in_flight f)|exact P]].
  intros i Li. rewrite <- G7; [now apply S|]. intros v (w & Hw & _ & Rp). apply (N i). right. exists w. rewrite W.
  destruct (s_workers (fst f) w); cbn in Rp |- *; try discriminate; injection Rp as -> _; eauto 7.
Qed.

Lemma f_never_dangling f : f_reachable cf f -> s_ub (fst f) = false /\
  (forall g i, in_flight (fst f) g i -> g_alive (s_groups (fst f) g) = true).
Proof.
  intro R. destruct (sim_reach f R) as (c & Rc & A). destruct (never_dangling cf NA c Rc) as [U L].
  pose proof A as (_ & _ & _ & EU & G). split; [now rewrite <- EU|]. intros g i X.
  destruct (G g) as (_ & _ & _ & Ga & _). rewrite <- Ga. apply (L g i). now apply (seen_in_flight f).
Qed.

Hypothesis NW : 0 < nw.

Definition unstored (f : fsys) : nat :=
  sumf nw (fun w => match reporting (s_workers (fst f) w) with Some _ => if snd f w then 0 else 1 | None => 0 end).

Lemma sumf_one n (a b : nat -> nat) w : (forall v, v <> w -> a v <= b v) -> a w <= S (b w) -> sumf n a <= S (sumf n b).
Proof.
  intros O W. assert (K : n <= w -> sumf n a <= sumf n b).
  { induction n as [|n IH]; intro L; [cbn; lia|]. cbn. specialize (IH ltac:(lia)). pose proof (O n ltac:(lia)). lia. }
  induction n as [|n IH]; [cbn; lia|]. cbn. destruct (Nat.eq_dec n w) as [->|D].
  - assert (X : sumf w a <= sumf w b); [|lia]. clear IH K. assert (Y : forall m, m <= w -> sumf m a <= sumf m b); [|now apply Y].
    induction m as [|m IH]; intro L; [cbn; lia|]. cbn. specialize (IH ltac:(lia)). pose proof (O m ltac:(lia)). lia.
  - destruct (Nat.lt_ge_cases w n) as [L|L].
    + assert (X : sumf n a <= S (sumf n b)) by (apply IH; lia). pose proof (O n D). lia.
    + specialize (K ltac:(lia)). cbn in K. lia.
Qed.
Lemma sumf_le n (a b : nat -> nat) : (forall v, v < n -> a v <= b v) -> sumf n a <= sumf n b.
Proof. induction n as [|n IH]; intro O; [cbn; lia|]. cbn. pose proof (O n ltac:(lia)). specialize (IH ltac:(intros; apply O; lia)). lia. Qed.

Lemma unstored_move s s' st st' : step cf s s' -> moves cf s s' st st' -> unstored (s', st') <= S (unstored (s, st)).
Proof.
  intros H [_ M]. unfold unstored. cbn [fst snd].
  assert (K : forall v, s_workers s' v = s_workers s v -> st' v = st v).
  { intros v E. destruct (st v) eqn:X; [apply M; auto|]. destruct (st' v) eqn:Y; [|reflexivity]. apply M in Y as [Y _]. congruence. }
  destruct (one_worker _ _ H) as [W|(w & x & W)].
  - apply le_S, sumf_le. intros v _. rewrite (K v), W by now rewrite W. lia.
  - apply sumf_one with (w := w).
    + intros v D. assert (E : s_workers s' v = s_workers s v) by (rewrite W; now apply wupd_ne). rewrite (K v E), E. lia.
    + destruct (reporting (s_workers s' w)); [destruct (st' w)|]; lia.
Qed.
Lemma unstored_woken s s' st st' : wakeup cf s s' -> moves cf s s' st st' -> unstored (s', st') <= unstored (s, st).
Proof.
  intros H [_ M]. unfold unstored. cbn [fst snd]. apply sumf_le. intros v _.
  assert (K : s_workers s' v = s_workers s v -> st' v = st v).
  { intros E. destruct (st v) eqn:X; [apply M; auto|]. destruct (st' v) eqn:Y; [|reflexivity]. apply M in Y as [Y _]. congruence. }
  destruct H as [s g Hg E|s w Hw E]; cbn in *; [now rewrite K|]. unfold wupd in *.
  destruct (Nat.eqb_spec v w) as [E1|D]; [cbn; lia|now rewrite K].
Qed.
Lemma unstored_store s st w g i v : w < nw -> reporting (s_workers s w) = Some ((g, i), v) -> st w = false ->
  S (unstored (upd_g s g (set_status (s_groups s g) i v), wupd st w true)) <= unstored (s, st).
Proof.
  intros Hw R N. unfold unstored. cbn [fst snd upd_g s_workers].
  assert (X : forall n, (w < n -> S (sumf n (fun w0 => match reporting (s_workers s w0) with Some _ => if wupd st w true w0 then 0 else 1 | None => 0 end)) <=
     sumf n (fun w0 => match reporting (s_workers s w0) with Some _ => if st w0 then 0 else 1 | None => 0 end))); [|now apply X].
  induction n as [|n IH]; intro L; [lia|]. cbn. destruct (Nat.eq_dec n w) as [->|D].
  - rewrite wupd_eq, N, R.
    assert (Y : sumf w (fun w0 => match reporting (s_workers s w0) with Some _ => if wupd st w true w0 then 0 else 1 | None => 0 end) <=
      sumf w (fun w0 => match reporting (s_workers s w0) with Some _ => if st w0 then 0 else 1 | None => 0 end)); [|lia].
    apply sumf_le. intros u Lu. rewrite wupd_ne by lia. lia.
  - specialize (IH ltac:(lia)). rewrite wupd_ne by exact D. lia.
Qed.

Lemma f_bounded n k f f' c : reachable cf c -> seen_as cf f c -> fnsteps cf n k f f' ->
  exists c', reachable cf c' /\ seen_as cf f' c' /\ n + (2 * measure cf c' + unstored f') <= 2 * measure cf c + unstored f + 2 * k.
Proof.
  intros R A H. induction H as [f|n k f f1 f2 H IH S|n k f f1 f2 H IH S].
  - exists c. split; [exact R|]. split; [exact A|]. lia.
  - destruct (IH A) as (c1 & R1 & A1 & B). pose proof (inv_reach cf NA c1 R1) as I1. destruct S as [s st w g i v Hw Rp St Al|s st s' st' S M].
    + exists c1. split; [exact R1|]. split; [eapply sim_store; eassumption|]. pose proof (unstored_store s st w g i v Hw Rp St). lia.
    + destruct (sim_move _ _ _ _ _ I1 A1 S M) as (c2 & S2 & A2). exists c2. split; [eapply steps_next; eassumption|]. split; [exact A2|].
      pose proof (unstored_move _ _ _ _ S M). pose proof (decreases cf NA NW _ _ R1 S2). lia.
  - destruct (IH A) as (c1 & R1 & A1 & B). destruct S as [s st s' st' S M].
    destruct (sim_wakeup _ _ _ _ _ A1 S M) as (c2 & S2 & A2). exists c2. split; [eapply steps_woken; eassumption|]. split; [exact A2|].
    pose proof (unstored_woken _ _ _ _ S M). pose proof (wakeup_cost cf NW _ _ S2). lia.
Qed.

Lemma f_progress f : f_reachable cf f -> (exists f', fstep cf f f') \/ asleep cf (fst f).
Proof.
  intro R. destruct (sim_reach f R) as (c & Rc & A). destruct (progress cf NA NW c Rc) as [[c' S]|Z].
  - left. destruct (back_step f c c' Rc A S) as (f1 & f2 & [->|(S1 & _)] & S2 & _); eauto.
  - right. destruct A as (_ & C & W & _). unfold asleep in *. now rewrite <- C, <- W.
Qed.

Lemma f_completes_if f g : f_reachable cf f -> g < cf_clients cf -> cf_tasks cf g <> 0 ->
  (forall i j, i < cf_tasks cf g -> j < cf_tasks cf g -> i <> j -> cf_result cf g j = None) -> f_completes cf f g.
Proof.
  intros R Hg Z NF. destruct (sim_reach f R) as (c & Rc & A). split.
  - exists (2 * measure cf c + unstored f). intros n k f' H. destruct (f_bounded _ _ _ _ _ Rc A H) as (c' & _ & _ & B). lia.
  - intros f' H. destruct (sim_fsteps _ _ _ Rc A H) as (c' & S & A'). pose proof (reach_steps cf _ _ Rc S) as Rc'.
    destruct (completes_if cf NA NW c g Rc Hg Z NF) as [_ X]. destruct (X c' S) as [[c'' S'']|(e & E & P)].
    + left. destruct (back_step f' c' c'' Rc' A' S'') as (f1 & f2 & [->|(S1 & _)] & S2 & _); eauto.
    + right. exists e. destruct A' as (_ & C & _). rewrite <- C. auto.
Qed.
End Sim.

(* ---- histories, schedules ---- *)
Lemma fstep_one cf f f' : fstep cf f f' ->
  s_workers (fst f') = s_workers (fst f) \/ exists w x, s_workers (fst f') = wupd (s_workers (fst f)) w x.
Proof. intro H. destruct H as [s st w g i v Hw Rp St Al|s st s' st' S M]; [left; reflexivity|exact (one_worker cf s s' S)]. Qed.

Lemma f_reachable_runs cf f : f_reachable cf f -> exists h, fruns cf f h.
Proof.
  unfold f_reachable. remember f_init as f0 eqn:E0. induction 1 as [f|f f1 f2 H IH S|f f1 f2 H IH S]; subst.
  - exists []. constructor.
  - destruct (IH eq_refl) as [h R].
    assert (K : (exists w t, s_workers (fst f1) w = WRunning t /\ s_workers (fst f2) w <> WRunning t) \/
                forall w t, s_workers (fst f1) w = WRunning t -> s_workers (fst f2) w = WRunning t).
    { destruct (fstep_one cf _ _ S) as [W|(w & x & W)]; [right; now rewrite W|].
      destruct (s_workers (fst f1) w) as [| |t|t|t|t m|g k] eqn:E;
        try (right; rewrite W; intros w' t'; unfold wupd; destruct (Nat.eqb_spec w' w) as [->|]; congruence).
      destruct (worker_dec (s_workers (fst f2) w) (WRunning t)) as [Y|N]; [|left; eauto].
      right. intros w' t' X. destruct (Nat.eq_dec w' w) as [->|D]; [congruence|]. rewrite W, wupd_ne; assumption. }
    destruct K as [(w & t & A & B)|K]; [exists (h ++ [t]); eapply fr_end; eassumption|exists h; eapply fr_step; eassumption].
  - destruct (IH eq_refl) as [h R]. exists h. eapply fr_woken; eassumption.
Qed.

Lemma same_worker_spec x y : same_worker x y = true <-> x = y.
Proof.
  assert (T : forall t u : task, Nat.eqb (fst t) (fst u) && Nat.eqb (snd t) (snd u) = true <-> t = u).
  { intros [a b] [c d]. cbn. rewrite andb_true_iff, !Nat.eqb_eq. split; [intros [-> ->]; reflexivity|intros [= -> ->]; auto]. }
  destruct x as [| |t|t|t|t m|a b], y as [| |u|u|u|u n|c d]; cbn [same_worker]; try (split; [discriminate|congruence]); try tauto.
  1,2,3: rewrite T; split; congruence.
  - rewrite andb_true_iff, T, String.eqb_eq. split; [intros [-> ->]; reflexivity|intro H; injection H; auto].
  - rewrite andb_true_iff, !Nat.eqb_eq. split; [intros [-> ->]; reflexivity|intro H; injection H; auto].
Qed.
Lemma f_after_moves cf s s' st f' : f_after cf s s' st = Some f' -> exists st', f' = (s', st') /\ moves cf s s' st st'.
Proof.
  unfold f_after. destruct (forallb _ _) eqn:E; [|discriminate]. intros [= <-]. eexists. split; [reflexivity|].
  rewrite forallb_forall in E. split.
  - intros w L R D. specialize (E w). rewrite in_seq in E. specialize (E ltac:(lia)).
    destruct (reporting (s_workers s w)); [|congruence]. rewrite orb_false_r in E. apply orb_true_iff in E as [E|E]; [|exact E].
    apply same_worker_spec in E. congruence.
  - intro w. now rewrite andb_true_iff, same_worker_spec.
Qed.
Lemma fsteps_trans cf f f1 f2 : fsteps cf f f1 -> fsteps cf f1 f2 -> fsteps cf f f2.
Proof. intros A B. induction B as [f1|f1 f3 f4 B IH S|f1 f3 f4 B IH S]; [exact A| |]. - eapply fs_next; [exact (IH A)|exact S]. - eapply fs_woken; [exact (IH A)|exact S]. Qed.
Lemma f_play_steps cf l f f' : f_play cf f l = Some f' -> fsteps cf f f'.
Proof.
  revert f. induction l as [|a l IH]; cbn; intros f H; [injection H as <-; constructor|].
  destruct (f_act cf f a) as [f1|] eqn:E; [|discriminate]. apply IH in H. eapply fsteps_trans; [|exact H]. clear H IH.
  destruct f as [s st], a as [w|b|g]; cbn [f_act] in E.
  - destruct (reporting (s_workers s w)) as [[[g i] v]|] eqn:R; [|discriminate].
    destruct (_ && _) eqn:Y in E; [|discriminate]. apply andb_true_iff in Y as [Y Al]. apply andb_true_iff in Y as [L X].
    apply Nat.ltb_lt in L. apply negb_true_iff in X. injection E as <-. eapply fs_next; [constructor|]. now constructor.
  - destruct (act cf s b) as [s'|] eqn:A; [|discriminate]. apply f_after_moves in E as (st' & -> & M).
    eapply fs_next; [constructor|]. constructor; [exact (act_step _ _ _ _ A)|exact M].
  - destruct (s_clients s g) eqn:C; try discriminate. destruct (Nat.ltb_spec g (cf_clients cf)) as [L|]; [|discriminate].
    apply f_after_moves in E as (st' & -> & M). eapply fs_woken; [constructor|]. constructor; [now constructor|exact M].
Qed.
