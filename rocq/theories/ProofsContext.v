(* Contexts follow the calls, for C90. *)
From Verif Require Import Base BaseLemmas ModelInfo ModelStream ModelStrings ModelEngine ModelQueue ModelTask ModelProtocol ModelRemote ModelContext SpecQueue SpecContext
  ProofsQueue ProofsPool ProofsTask ProofsTask2 ProofsTask3.
From Coq Require Import Lia.
Local Open Scope nat_scope.

Local Ltac projs := cbn [s_queue s_groups s_clients s_workers s_ub upd_g upd_c upd_w upd_q set_ub g_status g_complete g_errors g_lock g_alive
                   set_status set_lock destroy add_task complete_ok complete_err] in *.

Section Follow.
Variable cc : cconfig.
Notation cf := (cc_tasks cc).
Notation th := (cc_thread cc).
Hypothesis NA : no_abandon cf.

(* a task appears only by a move of its caller *)
Lemma tasks_grow s s' g : step cf s s' -> ntasks s' g <> 0 -> ntasks s g <> 0 \/ s_clients s' g <> s_clients s g.
Proof.
  intros S N. destruct (Nat.eq_dec (ntasks s g) 0) as [Z|Z]; [right|now left].
  unfold ntasks in *. destruct S; projs; unfold wupd in *; try (exfalso; exact (N Z));
    (destruct (Nat.eqb_spec g g0) as [->|D]; [|exfalso; exact (N Z)]); projs;
    try (exfalso; exact (N Z)); try (exfalso; rewrite ?set_nth_length, ?cancel_length in N; exact (N Z)).
  congruence.
Qed.

Lemma returned_stays s s' g e : step cf s s' -> returned s g e -> exists e', returned s' g e'.
Proof.
  intros S R. unfold returned in *.
  destruct S; projs; unfold wupd in *;
    try (exists e; exact R);
    destruct (Nat.eqb_spec g g0) as [->|D]; projs; try (exists e; exact R);
    try (destruct R as [R|R]; congruence);
    try (destruct R as [R|R]; rewrite R; cbn; eauto; fail).
  exists errs. right. reflexivity.
Qed.

Record finv (s : csys) : Prop := mk_finv {
  f_reach : ModelTask.reachable cf (x_sys s);
  f_running : forall t g, x_running s t = Some g -> th g = t /\ x_context s t = cc_context cc g;
  f_tasks : forall g, ntasks (x_sys s) g <> 0 -> (exists e, returned (x_sys s) g e) \/ x_running s (th g) = Some g;
  f_installed : forall w g i, x_installed s w = Some (g, i) -> x_wcontext s w = cc_context cc g;
  f_sent : forall g c, In (g, c) (x_sent s) -> c = cc_context cc g
}.

Lemma running_dec (o : option nat) g : {o = Some g} + {o <> Some g}.
Proof. repeat decide equality. Qed.

Lemma finv_step s s' : finv s -> cstep cc s s' -> finv s'.
Proof.
  intros [A B C D E] S. destruct S as [s g NB NR|s y S K|s y S K|s g R|s w g i L W F|s w g i L W I|s g R O].
  - constructor; cbn [x_sys x_running x_context x_installed x_wcontext x_sent]; auto.
    + intros t h. unfold wupd. destruct (Nat.eqb_spec t (th g)) as [->|N]; [|apply B]. intros [= ->]. auto.
    + intros h N. destruct (C h N) as [R|R]; [now left|right]. unfold wupd.
      destruct (Nat.eqb_spec (th h) (th g)) as [Q|Q]; [|exact R]. congruence.
  - constructor; cbn [x_sys x_running x_context x_installed x_wcontext x_sent]; auto.
    + eapply steps_next; [exact A|exact S].
    + intros g N. destruct (running_dec (x_running s (th g)) g) as [R|R]; [now right|left].
      destruct (tasks_grow _ _ _ S N) as [N'|M]; [|exfalso; apply M, K, R].
      destruct (C g N') as [[e Q]|Q]; [|contradiction]. eapply returned_stays; eauto.
  - constructor; cbn [x_sys x_running x_context x_installed x_wcontext x_sent]; auto.
    + eapply steps_woken; [exact A|exact S].
    + intros g N. assert (N' : ntasks (x_sys s) g <> 0) by (destruct S; exact N).
      destruct (C g N') as [[e Q]|Q]; [left; exists e|now right].
      destruct S as [z h Hh E0|z v Hv E0]; [|exact Q]. unfold returned in *. cbn [s_clients upd_c]. unfold wupd.
      destruct (Nat.eqb_spec g h) as [->|]; [|exact Q]. destruct Q; congruence.
  - constructor; cbn [x_sys x_running x_context x_installed x_wcontext x_sent]; auto.
    intros h c H. apply in_app_iff in H. destruct H as [H|[H|[]]]; [now apply E|]. injection H as <- <-. now apply B.
  - constructor; cbn [x_sys x_running x_context x_installed x_wcontext x_sent]; auto.
    intros v h j H. unfold wupd in *. destruct (Nat.eqb_spec v w) as [->|N]; [|now apply (D v h j)].
    injection H as <- <-. destruct (inv_reach cf NA _ A) as [I1 I2].
    destruct (touched_open cf _ w g I1 I2 L) as [X Y]; [now rewrite W|].
    destruct (C g Y) as [[e Q]|Q]; [now apply X in Q|]. now apply B.
  - constructor; cbn [x_sys x_running x_context x_installed x_wcontext x_sent]; auto.
    intros h c H. apply in_app_iff in H. destruct H as [H|[H|[]]]; [now apply E|]. injection H as <- <-. now apply (D w g i).
  - constructor; cbn [x_sys x_running x_context x_installed x_wcontext x_sent]; auto.
    + intros t h. unfold wupd. destruct (Nat.eqb_spec t (th g)) as [->|N]; [discriminate|apply B].
    + intros h N. destruct (C h N) as [Q|Q]; [now left|]. unfold wupd.
      destruct (Nat.eqb_spec (th h) (th g)) as [T|T]; [|now right]. left.
      rewrite T, R in Q. injection Q as <-. destruct O as [[e O]|[O|O]].
      * exists e. now right.
      * exfalso. destruct (inv_reach cf NA _ A) as [_ I2]. pose proof (i_thrown _ _ I2 _ O). pose proof (i_len _ _ I2 g). lia.
      * exfalso. apply N. unfold ntasks. now rewrite O.
Qed.

Lemma finv_init : finv c_init.
Proof. constructor; cbn; try discriminate; try tauto. constructor. Qed.

Lemma finv_reach s : c_reachable cc s -> finv s.
Proof.
  intro R. unfold c_reachable in R. remember c_init as s0 eqn:Q. induction R as [|s0 s1 s2 R IH S]; [subst; apply finv_init|].
  eapply finv_step; [apply IH, Q|exact S].
Qed.

Lemma context_follows s g c : c_reachable cc s -> In (g, c) (x_sent s) -> c = cc_context cc g.
Proof. intros R H. exact (f_sent _ (finv_reach _ R) _ _ H). Qed.

(* while a worker is in a task, the thread that made the call is in that call: nobody writes the variable *)
Lemma caller_waits s w g i : c_reachable cc s -> w < cf_workers cf -> s_workers (x_sys s) w = WRunning (g, i) ->
  x_running s (th g) = Some g /\ x_context s (th g) = cc_context cc g.
Proof.
  intros R L W. destruct (finv_reach _ R) as [A B C D E]. destruct (inv_reach cf NA _ A) as [I1 I2].
  destruct (touched_open cf _ w g I1 I2 L) as [X Y]; [now rewrite W|].
  destruct (C g Y) as [[e Q]|Q]; [now apply X in Q|]. split; [exact Q|now apply B].
Qed.
End Follow.

(* schedules are executions *)
Lemma in_call_spec cc s g : in_call cc s g = true -> x_running s (cc_thread cc g) = Some g.
Proof. unfold in_call. destruct (x_running s (cc_thread cc g)) as [h|]; [|discriminate]. intro H. apply Nat.eqb_eq in H. now subst. Qed.

Lemma act_moves cf s a s' : act cf s a = Some s' -> forall g, s_clients s' g <> s_clients s g ->
  match a with Client h | Notify h _ => g = h | Work w => touches (s_workers s w) = Some g end.
Proof.
  intros H g N. destruct a as [h|h w|w]; cbn [act] in H.
  - destruct (Nat.eq_dec g h) as [->|D]; [reflexivity|]. exfalso. apply N. clear N.
    repeat match type of H with
           | match ?x with _ => _ end = _ => destruct x; try discriminate H
           end; injection H as <-; cbn; unfold wupd; apply Nat.eqb_neq in D; rewrite ?D; reflexivity.
  - destruct (Nat.eq_dec g h) as [->|D]; [reflexivity|]. exfalso. apply N. clear N.
    repeat match type of H with
           | match ?x with _ => _ end = _ => destruct x; try discriminate H
           end; injection H as <-; cbn; unfold wupd; apply Nat.eqb_neq in D; rewrite ?D; reflexivity.
  - destruct (negb (Nat.ltb w (cf_workers cf))); [discriminate|].
    revert H. destruct (s_workers s w) as [| |[a b]|[a b]|[a b]|[a b] m|a b] eqn:E; cbn [touches fst]; intro H; try discriminate H;
      repeat match type of H with
             | match ?x with _ => _ end = _ => destruct x; try discriminate H
             end; injection H as <-; cbn in N; unfold wupd in N;
      try (exfalso; now apply N);
      (destruct (Nat.eqb_spec g a) as [->|D]; [reflexivity|exfalso; now apply N]).
Qed.

Lemma cact_step cc s a s' : cact cc s a = Some s' -> cstep cc s s'.
Proof.
  destruct a as [g|b|g|w|w|g]; cbn [cact]; intro H.
  - destruct (x_begun s g) eqn:A; [discriminate|]. destruct (x_running s (cc_thread cc g)) eqn:B; [discriminate|].
    injection H as <-. now apply X_begin.
  - destruct (match b with Client g | Notify g _ => in_call cc s g | Work w => match touches (s_workers (x_sys s) w) with Some g => in_call cc s g | None => true end end) eqn:G; [|discriminate].
    destruct (act (cc_tasks cc) (x_sys s) b) as [y|] eqn:A; [|discriminate]. injection H as <-.
    apply X_move; [eapply act_step; exact A|]. intros g N.
    assert (DEC : {s_clients y g = s_clients (x_sys s) g} + {s_clients y g <> s_clients (x_sys s) g}) by (repeat decide equality).
    destruct DEC as [Q|Q]; [exact Q|exfalso]. pose proof (act_moves _ _ _ _ A g Q) as M. apply N, in_call_spec.
    destruct b as [h|h v|v]; [now subst|now subst|]. rewrite M in G. exact G.
  - destruct (in_call cc s g) eqn:A; [|discriminate]. injection H as <-. apply X_send. now apply in_call_spec.
  - destruct (s_workers (x_sys s) w) as [| |[a b]|[a b]|[a b]|[a b] m|a b] eqn:E; try discriminate.
    destruct (Nat.ltb_spec w (cf_workers (cc_tasks cc))); [|discriminate]. cbn [andb] in H.
    destruct (cc_forward cc a b) eqn:F; [|discriminate]. injection H as <-. now apply X_install.
  - destruct (s_workers (x_sys s) w) as [| |[a b]|[a b]|[a b]|[a b] m|a b] eqn:E; try discriminate.
    destruct (x_installed s w) as [[g' i']|] eqn:I; [|discriminate].
    destruct (Nat.ltb_spec w (cf_workers (cc_tasks cc))); [|discriminate]. cbn [andb] in H.
    destruct (Nat.eqb_spec a g'); [|discriminate]. cbn [andb] in H. destruct (Nat.eqb_spec b i'); [|discriminate]. subst.
    injection H as <-. now apply X_forward with i'.
  - destruct (in_call cc s g) eqn:A; [|discriminate]. cbn [andb] in H.
    destruct (s_clients (x_sys s) g) eqn:E; try discriminate; injection H as <-; apply X_end; try (now apply in_call_spec);
      unfold over; rewrite E; eauto.
Qed.

Lemma cplay_reach cc l s : cplay cc c_init l = Some s -> c_reachable cc s.
Proof.
  assert (X : forall l s0 s1, csteps cc c_init s0 -> cplay cc s0 l = Some s1 -> csteps cc c_init s1).
  { clear. induction l as [|a l IH]; cbn; intros s0 s1 R H; [injection H as <-; exact R|].
    destruct (cact cc s0 a) as [y|] eqn:E; [|discriminate]. eapply IH; [|exact H].
    eapply csteps_next; [exact R|now apply cact_step with a]. }
  intro H. eapply X; [constructor|exact H].
Qed.

(* ---- several processes ---- *)
Lemma behalf n p g p0 g0 : runs n -> on_behalf n p g p0 g0 -> cc_context (n_config n p) g = cc_context (n_config n p0) g0.
Proof.
  intros [A B] H. induction H as [p g H|p g p' k g' c p0 g0 H K _ IH]; [reflexivity|].
  destruct (B _ _ _ _ H) as [h X]. rewrite K in X. injection X as <- ->. rewrite <- IH.
  destruct (A p') as [NA R]. apply (context_follows _ NA _ _ _ R). eapply nth_error_In; exact K.
Qed.

Lemma behalf_sent n p g p0 g0 c : runs n -> on_behalf n p g p0 g0 -> In (g, c) (x_sent (n_state n p)) ->
  c = cc_context (n_config n p0) g0.
Proof.
  intros R H K. rewrite <- (behalf _ _ _ _ _ R H). destruct R as [A _]. destruct (A p) as [NA R]. now apply (context_follows _ NA _ _ _ R).
Qed.
