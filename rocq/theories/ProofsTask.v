(* The invariants of the task system, for C31-C35. *)
From Verif Require Import Base BaseLemmas ModelQueue ModelTask SpecQueue ProofsQueue ProofsPool.
From Coq Require Import Permutation Lia.
Local Open Scope nat_scope.

(* ---- small facts ---- *)
Lemma set_nth_length {A} (l : list A) i a : length (set_nth l i a) = length l.
Proof. revert i; induction l as [|x l IH]; intros [|i]; cbn; auto. Qed.

Lemma set_nth_get {A} (l : list A) i a j :
  nth_error (set_nth l i a) j = if Nat.eqb j i then match nth_error l i with Some _ => Some a | None => None end
                                else nth_error l j.
Proof.
  revert i j; induction l as [|x l IH]; intros [|i] [|j]; cbn; try reflexivity.
  - destruct (Nat.eqb j i); reflexivity.
  - apply IH.
Qed.

Definition b2n (b : bool) : nat := if b then 1 else 0.
Definition is_task (t : task) (g i : nat) : bool := Nat.eqb (fst t) g && Nat.eqb (snd t) i.

Fixpoint occ (l : list task) (g i : nat) : nat :=
  match l with [] => 0 | t :: r => b2n (is_task t g i) + occ r g i end.

Lemma occ_app l l' g i : occ (l ++ l') g i = occ l g i + occ l' g i.
Proof. induction l as [|t l IH]; cbn; [reflexivity|]. lia. Qed.

Lemma occ_in l g i : In (g, i) l <-> occ l g i <> 0.
Proof.
  induction l as [|[a b] l IH]; cbn; [tauto|]. unfold is_task; cbn.
  destruct (Nat.eqb_spec a g) as [E1|E1]; destruct (Nat.eqb_spec b i) as [E2|E2]; cbn; rewrite IH; split; intro H;
    try lia; try (right; lia); try (destruct H as [H|H]; [congruence|exact H]).
  left. congruence.
Qed.

(* how a worker holds a task: popped only / started *)
Definition hA (x : worker) (g i : nat) : nat := match x with WPopped t => b2n (is_task t g i) | _ => 0 end.
Definition hR (x : worker) (g i : nat) : nat :=
  match x with WRunning t | WNotify t | WFail t _ => b2n (is_task t g i) | _ => 0 end.
Definition hC (c : client) (i : nat) : nat := match c with CPush j => b2n (Nat.eqb j i) | _ => 0 end.

Definition terminal (st : option status) : bool := match st with Some DONE | Some FAILED => true | _ => false end.

Section Inv.
Variable cf : config.
Let nw := cf_workers cf.
Let nc := cf_clients cf.

Definition atA (s : sys) (g i : nat) : nat :=
  hC (s_clients s g) i + occ (queue_of (s_queue s) g) g i + sumf nw (fun w => hA (s_workers s w) g i).
Definition atR (s : sys) (g i : nat) : nat := sumf nw (fun w => hR (s_workers s w) g i).

Definition place_ok (st : option status) (a r : nat) : Prop :=
  match st with
  | Some PENDING => a = 1 /\ r = 0
  | Some EXECUTING => a = 0 /\ r = 1
  | Some CANCELLED => a <= 1 /\ r = 0
  | _ => a = 0 /\ r = 0
  end.

Definition status_of (s : sys) (g i : nat) : option status := nth_error (g_status (s_groups s g)) i.
Definition ntasks (s : sys) (g : nat) : nat := length (g_status (s_groups s g)).

(* first part: the queue, the places of the tasks *)
Record inv1 (s : sys) : Prop := mk_inv1 {
  i_wf : q_wf (s_queue s);
  i_open : q_closed (s_queue s) = false;
  i_qg : forall g t, In t (queue_of (s_queue s) g) -> fst t = g;
  i_place : forall g i, place_ok (status_of s g i) (atA s g i) (atR s g i);
  i_push : forall g i, s_clients s g = CPush i -> S i = ntasks s g
}.

Ltac projs := cbn [s_queue s_groups s_clients s_workers s_ub upd_g upd_c upd_w upd_q set_ub g_status g_complete g_errors g_lock g_alive
                   set_status set_lock destroy add_task complete_ok complete_err] in *.

Lemma open_none l g (q : @wq task) : gfind g (q_groups q) = l -> queue_of q g = match l with Some x => x | None => [] end.
Proof. unfold queue_of. now intros ->. Qed.

Lemma is_task_same g i g' i' : is_task (g, i) g' i' = Nat.eqb g g' && Nat.eqb i i'.
Proof. reflexivity. Qed.

Lemma inv1_init : inv1 sys_init.
Proof.
  constructor; cbn.
  - apply new_wf.
  - reflexivity.
  - intros g t [].
  - intros g i. unfold status_of, atA, atR. cbn. 
    assert (sumf nw (fun _ => 0) = 0) as -> by (clear; induction nw; cbn; lia).
    destruct i; cbn; lia.
  - discriminate.
Qed.

Lemma wake_push c i : wake c = CPush i -> c = CPush i.
Proof. destruct c; cbn; try discriminate; auto. Qed.
Lemma hC_wake c i : hC (wake c) i = hC c i.
Proof. now destruct c. Qed.

Lemma cancel_length G k : length (g_status (cancel_task G k)) = length (g_status G).
Proof. unfold cancel_task. destruct (nth_error (g_status G) k) as [[]|]; cbn; rewrite ?set_nth_length; reflexivity. Qed.

Lemma cancel_get G k j : nth_error (g_status (cancel_task G k)) j =
  match nth_error (g_status G) j with
  | Some PENDING => Some (if Nat.eqb j k then CANCELLED else PENDING)
  | x => x end.
Proof.
  unfold cancel_task. destruct (nth_error (g_status G) k) as [st|] eqn:E.
  - destruct st; cbn; try (destruct (Nat.eqb_spec j k) as [->|N]; [rewrite E; reflexivity|destruct (nth_error (g_status G) j) as [[]|]; reflexivity]).
    rewrite set_nth_get. destruct (Nat.eqb_spec j k) as [->|N]; [rewrite E; reflexivity|].
    destruct (nth_error (g_status G) j) as [[]|]; reflexivity.
  - destruct (Nat.eqb_spec j k) as [->|N]; [rewrite E; reflexivity|]. destruct (nth_error (g_status G) j) as [[]|]; reflexivity.
Qed.

(* the sums after a worker moved *)
Lemma atA_w s w x g i : w < nw -> atA (upd_w s w x) g i + hA (s_workers s w) g i = atA s g i + hA x g i.
Proof.
  intro H. unfold atA. cbn. pose proof (sumf_upd nw (s_workers s) (fun y => hA y g i) w x H) as P. cbn in P. lia.
Qed.
Lemma atR_w s w x g i : w < nw -> atR (upd_w s w x) g i + hR (s_workers s w) g i = atR s g i + hR x g i.
Proof.
  intro H. unfold atR. cbn. pose proof (sumf_upd nw (s_workers s) (fun y => hR y g i) w x H) as P. cbn in P. lia.
Qed.
Lemma atA_c s g c g' i : atA (upd_c s g c) g' i + (if Nat.eqb g' g then hC (s_clients s g) i else 0) =
  atA s g' i + (if Nat.eqb g' g then hC c i else 0).
Proof. unfold atA. cbn. unfold wupd. destruct (Nat.eqb_spec g' g) as [->|]; lia. Qed.
Lemma atA_g s g G g' i : atA (upd_g s g G) g' i = atA s g' i. Proof. reflexivity. Qed.
Lemma atR_c s g c g' i : atR (upd_c s g c) g' i = atR s g' i. Proof. reflexivity. Qed.
Lemma atR_g s g G g' i : atR (upd_g s g G) g' i = atR s g' i. Proof. reflexivity. Qed.
Lemma atR_q s q g' i : atR (upd_q s q) g' i = atR s g' i. Proof. reflexivity. Qed.
Lemma st_g s g G g' i : status_of (upd_g s g G) g' i = if Nat.eqb g' g then nth_error (g_status G) i else status_of s g' i.
Proof. unfold status_of. cbn. unfold wupd. destruct (Nat.eqb_spec g' g); reflexivity. Qed.
Lemma st_c s g c g' i : status_of (upd_c s g c) g' i = status_of s g' i. Proof. reflexivity. Qed.
Lemma st_w s g c g' i : status_of (upd_w s g c) g' i = status_of s g' i. Proof. reflexivity. Qed.
Lemma st_q s q g' i : status_of (upd_q s q) g' i = status_of s g' i. Proof. reflexivity. Qed.
Lemma nt_g s g G g' : ntasks (upd_g s g G) g' = if Nat.eqb g' g then length (g_status G) else ntasks s g'.
Proof. unfold ntasks. cbn. unfold wupd. destruct (Nat.eqb_spec g' g); reflexivity. Qed.

(* a held task has the right status *)
Lemma held_A s w g i : inv1 s -> w < nw -> s_workers s w = WPopped (g, i) ->
  (status_of s g i = Some PENDING \/ status_of s g i = Some CANCELLED) /\ atA s g i = 1 /\ atR s g i = 0.
Proof.
  intros I H E. pose proof (i_place _ I g i) as P.
  assert (1 <= atA s g i).
  { unfold atA. pose proof (sumf_pos nw (fun w => hA (s_workers s w) g i) w H) as X. cbn in X. rewrite E in X.
    cbn in X. unfold is_task in X. cbn in X. rewrite !Nat.eqb_refl in X. cbn in X. lia. }
  unfold place_ok in P. destruct (status_of s g i) as [[]|]; try lia; repeat split; auto; try lia.
Qed.
Lemma held_R s w g i : inv1 s -> w < nw -> hR (s_workers s w) g i = 1 ->
  status_of s g i = Some EXECUTING /\ atA s g i = 0 /\ atR s g i = 1.
Proof.
  intros I H E. pose proof (i_place _ I g i) as P.
  assert (1 <= atR s g i).
  { unfold atR. pose proof (sumf_pos nw (fun w => hR (s_workers s w) g i) w H) as X. cbn in X. lia. }
  unfold place_ok in P. destruct (status_of s g i) as [[]|]; try lia; repeat split; auto; try lia.
Qed.
Lemma hR_self x g i : (x = WRunning (g, i) \/ x = WNotify (g, i) \/ exists m, x = WFail (g, i) m) -> hR x g i = 1.
Proof.
  intros [->|[->|[m ->]]]; cbn; unfold is_task; cbn; rewrite !Nat.eqb_refl; reflexivity.
Qed.

Lemma pop_prefix q g t q' : q_wf q -> @wq_pop task q = Ok (PTask g t q') -> queue_of q g = t :: queue_of q' g.
Proof. intros W P. pose proof (queue_of_pop _ _ _ _ g W P) as X. rewrite Nat.eqb_refl in X. exact X. Qed.

(* worker moves that change neither what it holds nor anything else *)
Lemma inv1_w s w x : inv1 s -> w < nw -> (forall g i, hA x g i = hA (s_workers s w) g i /\ hR x g i = hR (s_workers s w) g i) ->
  inv1 (upd_w s w x).
Proof.
  intros I H E. destruct I as [I1 I2 I3 I4 I5]. constructor; auto.
  intros g i. rewrite st_w. pose proof (atA_w s w x g i H). pose proof (atR_w s w x g i H). destruct (E g i) as [E1 E2].
  specialize (I4 g i). replace (atA (upd_w s w x) g i) with (atA s g i) by lia.
  replace (atR (upd_w s w x) g i) with (atR s g i) by lia. exact I4.
Qed.

(* client moves that change nothing else *)
Lemma inv1_c s g c : inv1 s -> (forall i, hC c i = hC (s_clients s g) i) -> inv1 (upd_c s g c).
Proof.
  intros I E. destruct I as [I1 I2 I3 I4 I5]. constructor; auto.
  - intros g' i. rewrite st_c, atR_c. specialize (I4 g' i). pose proof (atA_c s g c g' i) as X. specialize (E i).
    replace (atA (upd_c s g c) g' i) with (atA s g' i); [exact I4|]. destruct (Nat.eqb g' g); lia.
  - intros g' i H. cbn in H. unfold wupd in H. destruct (Nat.eqb_spec g' g) as [->|N]; [|now apply I5].
    apply I5. specialize (E i). subst c. cbn in E. rewrite Nat.eqb_refl in E. cbn in E.
    destruct (s_clients s g) eqn:F; cbn in E; try discriminate.
    f_equal. destruct (Nat.eqb_spec i0 i); [assumption|cbn in E; discriminate].
Qed.

(* group changes that keep the statuses *)
Lemma inv1_g s g G : inv1 s -> g_status G = g_status (s_groups s g) -> inv1 (upd_g s g G).
Proof.
  intros [I1 I2 I3 I4 I5] E. constructor; auto.
  - intros g' i. rewrite st_g, atA_g, atR_g. specialize (I4 g' i). destruct (Nat.eqb_spec g' g) as [->|]; [|exact I4].
    rewrite E. exact I4.
  - intros g' i H. rewrite nt_g. destruct (Nat.eqb_spec g' g) as [->|]; [|now apply I5]. rewrite E. now apply I5.
Qed.

Lemma inv1_step s s' : no_abandon cf -> inv1 s -> step cf s s' -> inv1 s'.
Proof.
  intros NA I H.
  destruct H as [s g Hg E L Hn Ha|s g i q' Hg E P|s g w Hg E Hw Ew|s g Hg E Hw|s g Hg E Ha|s g Hg E Hz Ha|s g Hg E Hn Hz Ha
                |s g Hg E L Hc|s g Hg E L Hc|s g errs Hg E
                |s w g t q' Hw E P|s w Hw E P|s w g i Hw E Al St|s w g i st Hw E Al St Ne|s w g i Hw E Al
                |s w g i Hw E Al L|s w g i m Hw E Al L|s w g k Hw E Al Hk|s w g k Hw E Al Hk|s w g Hw E Al U].
  - (* add *) destruct I as [I1 I2 I3 I4 I5]. constructor; auto.
    + intros g' i'. rewrite st_c, st_g, atR_c, atR_g. specialize (I4 g' i').
      pose proof (atA_c (upd_g s g (add_task (s_groups s g))) g (CPush (length (g_status (s_groups s g)))) g' i') as X.
      rewrite atA_g in X. cbn [s_clients upd_g] in X. rewrite E in X. cbn [hC] in X.
      destruct (Nat.eqb_spec g' g) as [->|N].
      * cbn [add_task g_status]. unfold status_of in I4.
        destruct (Nat.eqb_spec (length (g_status (s_groups s g))) i') as [<-|N2].
        -- rewrite nth_error_app2, Nat.sub_diag by lia. cbn.
           rewrite (proj2 (nth_error_None _ _)) in I4 by lia. cbn in I4. cbn [b2n] in X. lia.
        -- cbn [b2n] in X. destruct (Nat.lt_ge_cases i' (length (g_status (s_groups s g)))) as [L1|L1].
           ++ rewrite nth_error_app1 by lia. rewrite !Nat.add_0_r in X. rewrite X. exact I4.
           ++ rewrite (proj2 (nth_error_None _ _)) by (rewrite app_length; cbn; lia).
              rewrite (proj2 (nth_error_None _ _)) in I4 by lia. cbn in *. lia.
      * rewrite !Nat.add_0_r in X. rewrite X. exact I4.
    + intros g' i' H. change (ntasks (upd_g s g (add_task (s_groups s g))) g' = S i') || idtac. cbn in H. unfold wupd in H.
      unfold ntasks. cbn. unfold wupd. destruct (Nat.eqb_spec g' g) as [->|N].
      * injection H as <-. cbn. rewrite app_length. cbn. lia.
      * now apply I5.
  - (* push *) destruct I as [I1 I2 I3 I4 I5]. destruct (push_closed _ _ _ _ P) as [C1 C2]. constructor; auto; cbn [s_queue upd_c upd_q].
    + eapply push_wf; eassumption.
    + intros g' t. rewrite (queue_of_push _ _ _ _ g' P). intro H. apply in_app_or in H as [H|H]; [now apply I3|].
      destruct (Nat.eqb_spec g' g) as [->|N]; [|destruct H]. destruct H as [<-|[]]. reflexivity.
    + intros g' i'. rewrite st_c, st_q, atR_c, atR_q. specialize (I4 g' i').
      replace (atA (upd_c (upd_q s q') g CNotify) g' i') with (atA s g' i'); [exact I4|].
      unfold atA. cbn [s_clients s_queue s_workers upd_c upd_q]. rewrite (queue_of_push _ _ _ _ g' P), occ_app.
      unfold wupd. destruct (Nat.eqb_spec g' g) as [->|N].
      * rewrite E. cbn. unfold is_task. cbn. rewrite Nat.eqb_refl. cbn. lia.
      * cbn. lia.
    + intros g' i' H. cbn in H. unfold wupd in H. destruct (Nat.eqb g' g); [discriminate|]. now apply I5.
  - (* notify *) apply inv1_w; [apply inv1_c; [exact I|now rewrite E]|exact Hw|]. cbn. rewrite Ew. intros; split; reflexivity.
  - apply inv1_c; [exact I|now rewrite E].
  - now rewrite NA in Ha.
  - apply inv1_c; [|cbn; now rewrite E]. apply inv1_g; [exact I|reflexivity].
  - apply inv1_c; [exact I|now rewrite E].
  - apply inv1_c; [exact I|now rewrite E].
  - apply inv1_c; [exact I|now rewrite E].
  - apply inv1_c; [|cbn; now rewrite E]. apply inv1_g; [exact I|reflexivity].
  - (* pop *) destruct I as [I1 I2 I3 I4 I5]. destruct (pop_closed _ _ _ _ P) as [C1 C2]. constructor; auto; cbn [s_queue upd_w upd_q].
    + eapply pop_wf; eassumption.
    + congruence.
    + intros g' t' H. apply I3. rewrite (queue_of_pop _ _ _ _ g' I1 P). apply in_or_app. now right.
    + intros g' i'. rewrite st_w, st_q. specialize (I4 g' i').
      pose proof (atA_w (upd_q s q') w (WPopped t) g' i' Hw) as X. pose proof (atR_w (upd_q s q') w (WPopped t) g' i' Hw) as Y.
      cbn [s_workers upd_q] in X, Y. rewrite E in X, Y. cbn [hA hR] in X, Y. rewrite atR_q in Y. rewrite !Nat.add_0_r in Y.
      rewrite Y. rewrite !Nat.add_0_r in X. rewrite X.
      replace (atA (upd_q s q') g' i' + b2n (is_task t g' i')) with (atA s g' i'); [exact I4|].
      unfold atA. cbn [s_clients s_queue s_workers upd_q]. rewrite (queue_of_pop _ _ _ _ g' I1 P), occ_app.
      assert (T : fst t = g) by (apply I3; rewrite (pop_prefix _ _ _ _ I1 P); now left).
      destruct (Nat.eqb_spec g' g) as [->|N].
      * cbn. lia.
      * unfold is_task. rewrite T. apply Nat.eqb_neq in N. rewrite Nat.eqb_sym in N. rewrite N. cbn. lia.
  - apply inv1_w; [exact I|exact Hw|]. rewrite E. intros; split; reflexivity.
  - (* start *) destruct (held_A _ _ _ _ I Hw E) as (_ & A1 & R1).
    destruct I as [I1 I2 I3 I4 I5]. constructor; auto.
    + intros g' i'. rewrite st_w, st_g. specialize (I4 g' i').
      pose proof (atA_w (upd_g s g (set_status (s_groups s g) i EXECUTING)) w (WRunning (g, i)) g' i' Hw) as X.
      pose proof (atR_w (upd_g s g (set_status (s_groups s g) i EXECUTING)) w (WRunning (g, i)) g' i' Hw) as Y.
      cbn [s_workers upd_g] in X, Y. rewrite E in X, Y. cbn [hA hR] in X, Y. rewrite atA_g in X. rewrite atR_g in Y.
      unfold is_task in X, Y. cbn [fst snd] in X, Y.
      destruct (Nat.eqb_spec g g') as [<-|N].
      * rewrite Nat.eqb_refl. cbn [set_status g_status]. rewrite set_nth_get, St.
        destruct (Nat.eqb_spec i i') as [<-|N2].
        -- rewrite Nat.eqb_refl. cbn in X, Y |- *. lia.
        -- apply Nat.eqb_neq in N2. rewrite Nat.eqb_sym in N2. rewrite N2. cbn in X, Y. rewrite !Nat.add_0_r in X, Y.
           rewrite X, Y. exact I4.
      * apply Nat.eqb_neq in N. rewrite Nat.eqb_sym in N. rewrite N. cbn in X, Y. rewrite !Nat.add_0_r in X, Y. rewrite X, Y. exact I4.
    + intros g' i' H. unfold ntasks. cbn. unfold wupd. destruct (Nat.eqb_spec g' g) as [->|N]; [|now apply I5].
      cbn. rewrite set_nth_length. now apply I5.
  - (* skip *) destruct (held_A _ _ _ _ I Hw E) as ([S1|S1] & A1 & R1); [unfold status_of in S1; congruence|].
    destruct I as [I1 I2 I3 I4 I5]. constructor; auto.
    intros g' i'. rewrite st_w. specialize (I4 g' i').
    pose proof (atA_w s w WReady g' i' Hw) as X. pose proof (atR_w s w WReady g' i' Hw) as Y.
    rewrite E in X, Y. cbn [hA hR] in X, Y. rewrite !Nat.add_0_r in Y. rewrite Y.
    unfold is_task in X. cbn [fst snd] in X.
    destruct (Nat.eqb_spec g g') as [<-|N].
    + destruct (Nat.eqb_spec i i') as [<-|N2].
      * rewrite S1 in *. cbn in X, I4 |- *. lia.
      * cbn in X. rewrite !Nat.add_0_r in X. rewrite X. exact I4.
    + cbn in X. rewrite !Nat.add_0_r in X. rewrite X. exact I4.
  - (* finish *) apply inv1_w; [exact I|exact Hw|]. rewrite E. intros; destruct (cf_result cf g i); split; reflexivity.
  - (* ok *) destruct (held_R _ _ g i I Hw) as (S1 & A1 & R1); [apply hR_self; rewrite E; tauto|].
    assert (J : forall c, (forall i, hC c i = hC (s_clients s g) i) ->
      inv1 (upd_w (upd_c (upd_g s g (complete_ok (s_groups s g) i)) g c) w WReady)).
    { intros c Ec. destruct I as [I1 I2 I3 I4 I5]. constructor; auto.
      - intros g' i'. rewrite st_w, st_c, st_g. specialize (I4 g' i').
        pose proof (atA_c (upd_g s g (complete_ok (s_groups s g) i)) g c g' i') as Z. rewrite atA_g in Z. cbn [s_clients upd_g] in Z.
        pose proof (atA_w (upd_c (upd_g s g (complete_ok (s_groups s g) i)) g c) w WReady g' i' Hw) as X.
        pose proof (atR_w (upd_c (upd_g s g (complete_ok (s_groups s g) i)) g c) w WReady g' i' Hw) as Y.
        cbn [s_workers upd_g upd_c] in X, Y. rewrite E in X, Y. cbn [hA hR] in X, Y. rewrite atR_c, atR_g in Y.
        rewrite (Ec i') in Z. assert (Z' : atA (upd_c (upd_g s g (complete_ok (s_groups s g) i)) g c) g' i' = atA s g' i') by lia.
        rewrite Z' in X. clear Z Z'. rewrite !Nat.add_0_r in X. rewrite X. clear X.
        unfold is_task in Y. cbn [fst snd] in Y.
        destruct (Nat.eqb_spec g g') as [<-|N].
        + rewrite Nat.eqb_refl. cbn [complete_ok g_status]. rewrite set_nth_get. unfold status_of in S1. rewrite S1.
          destruct (Nat.eqb_spec i i') as [<-|N2].
          * rewrite Nat.eqb_refl. cbn in Y |- *. lia.
          * apply Nat.eqb_neq in N2. rewrite Nat.eqb_sym in N2. rewrite N2. cbn in Y. rewrite !Nat.add_0_r in Y. rewrite Y. exact I4.
        + apply Nat.eqb_neq in N. rewrite Nat.eqb_sym in N. rewrite N. cbn in Y. rewrite !Nat.add_0_r in Y. rewrite Y. exact I4.
      - intros g' i' H. unfold ntasks. cbn in H |- *. unfold wupd in H |- *. destruct (Nat.eqb_spec g' g) as [->|N]; [|now apply I5].
        cbn. rewrite set_nth_length. apply I5. specialize (Ec i'). rewrite H in Ec. cbn in Ec. rewrite Nat.eqb_refl in Ec.
        destruct (s_clients s g) eqn:F; cbn in Ec; try discriminate. f_equal. destruct (Nat.eqb_spec i0 i'); [assumption|cbn in Ec; discriminate]. }
    apply J. apply hC_wake.
  - (* err *) destruct (held_R _ _ g i I Hw) as (S1 & A1 & R1); [apply hR_self; rewrite E; eauto|].
    assert (J : forall c, (forall i, hC c i = hC (s_clients s g) i) ->
      inv1 (upd_w (upd_c (upd_g s g (complete_err (s_groups s g) i m w)) g c) w (WCancel g 0))).
    { intros c Ec. destruct I as [I1 I2 I3 I4 I5]. constructor; auto.
      - intros g' i'. rewrite st_w, st_c, st_g. specialize (I4 g' i').
        pose proof (atA_c (upd_g s g (complete_err (s_groups s g) i m w)) g c g' i') as Z. rewrite atA_g in Z. cbn [s_clients upd_g] in Z.
        pose proof (atA_w (upd_c (upd_g s g (complete_err (s_groups s g) i m w)) g c) w (WCancel g 0) g' i' Hw) as X.
        pose proof (atR_w (upd_c (upd_g s g (complete_err (s_groups s g) i m w)) g c) w (WCancel g 0) g' i' Hw) as Y.
        cbn [s_workers upd_g upd_c] in X, Y. rewrite E in X, Y. cbn [hA hR] in X, Y. rewrite atR_c, atR_g in Y.
        rewrite (Ec i') in Z. assert (Z' : atA (upd_c (upd_g s g (complete_err (s_groups s g) i m w)) g c) g' i' = atA s g' i') by lia.
        rewrite Z' in X. clear Z Z'. rewrite !Nat.add_0_r in X. rewrite X. clear X.
        unfold is_task in Y. cbn [fst snd] in Y.
        destruct (Nat.eqb_spec g g') as [<-|N].
        + rewrite Nat.eqb_refl. cbn [complete_err g_status]. rewrite set_nth_get. unfold status_of in S1. rewrite S1.
          destruct (Nat.eqb_spec i i') as [<-|N2].
          * rewrite Nat.eqb_refl. cbn in Y |- *. lia.
          * apply Nat.eqb_neq in N2. rewrite Nat.eqb_sym in N2. rewrite N2. cbn in Y. rewrite !Nat.add_0_r in Y. rewrite Y. exact I4.
        + apply Nat.eqb_neq in N. rewrite Nat.eqb_sym in N. rewrite N. cbn in Y. rewrite !Nat.add_0_r in Y. rewrite Y. exact I4.
      - intros g' i' H. unfold ntasks. cbn in H |- *. unfold wupd in H |- *. destruct (Nat.eqb_spec g' g) as [->|N]; [|now apply I5].
        cbn. rewrite set_nth_length. apply I5. specialize (Ec i'). rewrite H in Ec. cbn in Ec. rewrite Nat.eqb_refl in Ec.
        destruct (s_clients s g) eqn:F; cbn in Ec; try discriminate. f_equal. destruct (Nat.eqb_spec i0 i'); [assumption|cbn in Ec; discriminate]. }
    apply J. apply hC_wake.
  - (* cancel *) apply inv1_w; [|exact Hw|cbn; rewrite E; intros; split; reflexivity].
    destruct I as [I1 I2 I3 I4 I5]. constructor; auto.
    + intros g' i'. rewrite st_g, atA_g, atR_g. specialize (I4 g' i'). destruct (Nat.eqb_spec g' g) as [->|N]; [|exact I4].
      rewrite cancel_get. unfold status_of in I4. destruct (nth_error (g_status (s_groups s g)) i') as [[]|]; try exact I4.
      destruct (Nat.eqb i' k); cbn in I4 |- *; lia.
    + intros g' i' H. rewrite nt_g. destruct (Nat.eqb_spec g' g) as [->|N]; [|now apply I5]. rewrite cancel_length. now apply I5.
  - (* unlock *) apply inv1_w; [|exact Hw|cbn; rewrite E; intros; split; reflexivity]. apply inv1_g; [exact I|reflexivity].
  - (* dangling *) destruct I as [I1 I2 I3 I4 I5]. constructor; auto.
Qed.
End Inv.
