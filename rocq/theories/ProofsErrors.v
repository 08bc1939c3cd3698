(* Proofs about the error text of the C interface. *)
From Coq Require Import Lia.
From Verif Require Import Base ModelErrors SpecErrors.
Local Open Scope nat_scope.

Section One.
Variable calls : nat -> nat -> option (string * call_end).
Hypothesis one : forall t t', may_fail calls t -> may_fail calls t' -> t = t'.

Definition pending (u : user) : list (string * call_end) :=
  match u with
  | Idle => []
  | Calling n e => filter failing [(n, e)]
  | Storing n e _ | Failed n e | Asked n e _ => [(n, e)]
  end.
Definition user_ok (s : errors) (t : nat) : Prop :=
  match er_users s t with
  | Idle => True
  | Calling n e => e <> Success -> may_fail calls t
  | Storing n e text => e <> Success /\ may_fail calls t /\ text = own_text e
  | Failed n e => e <> Success /\ may_fail calls t /\ er_text s = own_text e
  | Asked n e p => e <> Success /\ may_fail calls t /\ er_text s = own_text e /\ p = er_stores s
  end.
Definition einv (s : errors) : Prop :=
  forall t, user_ok s t /\
    map told (filter failing (first_calls (calls t) (er_calls s t))) = raised_by t s ++ map told (pending (er_users s t)).

Lemma stored_own : forall e x, stored_text e = Some x -> e <> Success /\ x = own_text e.
Proof. intros [] x H; inversion H; split; try discriminate; reflexivity. Qed.

Lemma einv_init : einv errors_init.
Proof. intro t. split; [exact I|reflexivity]. Qed.

Lemma not_busy : forall s t busy, einv s -> may_fail calls t ->
  (busy = true <-> exists t', t' <> t /\ storing (er_users s t') = true) -> busy = false.
Proof.
  intros s t busy I F B. destruct busy; [|reflexivity]. destruct (proj1 B eq_refl) as (t' & D & S).
  destruct (I t') as [U _]. unfold user_ok in U. destruct (er_users s t'); try discriminate.
  destruct U as (_ & F' & _). elim D. now apply one.
Qed.

Lemma failing_true : forall n e, e <> Success -> failing (n, e) = true.
Proof. intros n [] H; try reflexivity. now elim H. Qed.

Lemma raised_app : forall t l s, raised_by t (mk_errors (er_text s) (er_stores s) (er_users s) (er_calls s) (er_raised s ++ l)) =
  raised_by t s ++ map (fun r => (snd (fst r), snd r)) (filter (fun r => Nat.eqb (fst (fst r)) t) l).
Proof. intros. unfold raised_by. cbn. now rewrite filter_app, map_app. Qed.

Lemma einv_step : forall s t busy o, einv s ->
  (busy = true <-> exists t', t' <> t /\ storing (er_users s t') = true) ->
  user_step calls s t busy = Some o -> exists s', o = Ok s' /\ einv s'.
Proof.
  intros s t busy o I B H. pose proof (I t) as [U P]. unfold user_ok in U. unfold user_step in H.
  destruct (er_users s t) eqn:E.
  - destruct (calls t (er_calls s t)) as [[n e]|] eqn:C; [|discriminate]. injection H as <-. eexists. split; [reflexivity|].
    intro t'. unfold user_ok, raised_by in *. cbn. destruct (Nat.eqb_spec t' t) as [->|D]; [|apply I].
    split. { intro H. exists (er_calls s t), n, e. auto. }
    cbn [first_calls]. rewrite C, filter_app, map_app, P. cbn. now rewrite app_nil_r.
  - destruct (stored_text e) as [x|] eqn:X.
    + destruct (stored_own _ _ X) as [X1 X2]. assert (F := U X1). rewrite (not_busy s t busy I F B) in H.
      injection H as <-. eexists. split; [reflexivity|]. intro t'. unfold user_ok, raised_by in *. cbn.
      destruct (Nat.eqb_spec t' t) as [->|D]; [|apply I]. split; [auto|].
      rewrite P. cbn. now rewrite (failing_true name e X1).
    + injection H as <-. eexists. split; [reflexivity|]. intro t'. unfold user_ok, raised_by in *. cbn.
      destruct (Nat.eqb_spec t' t) as [->|D]; [|apply I]. split; [exact Logic.I|]. rewrite P. cbn.
      destruct e; try discriminate X. reflexivity.
  - injection H as <-. destruct U as (U1 & U2 & U3). eexists. split; [reflexivity|]. intro t'. unfold user_ok, raised_by in *. cbn.
    destruct (Nat.eqb_spec t' t) as [->|D]; [split; [auto|exact P]|]. destruct (I t') as [V Q]. unfold user_ok in V.
    split; [|exact Q]. destruct (er_users s t'); try exact V; destruct V as (V1 & V2 & V3); elim D; now apply one.
  - destruct U as (U1 & U2 & U3). rewrite (not_busy s t busy I U2 B) in H. injection H as <-.
    eexists. split; [reflexivity|]. intro t'. unfold user_ok, raised_by in *. cbn.
    destruct (Nat.eqb_spec t' t) as [->|D]; [split; [auto|exact P]|apply I].
  - destruct U as (U1 & U2 & U3 & ->). rewrite (not_busy s t busy I U2 B), Nat.eqb_refl in H. injection H as <-.
    eexists. split; [reflexivity|]. intro t'. unfold user_ok. cbn.
    unfold raised_by. cbn. rewrite filter_app, map_app. cbn.
    rewrite (Nat.eqb_sym t t'). destruct (Nat.eqb_spec t' t) as [->|D]; cbn.
    + split; [exact Logic.I|]. rewrite P. unfold raised_by. cbn. now rewrite U3, app_nil_r.
    + rewrite app_nil_r. apply I.
Qed.

Lemma einv_run : forall l o, errors_run calls l o -> exists s, o = Ok s /\ einv s.
Proof.
  intros l o H. induction H as [|l s t busy o H IH B S].
  - exists errors_init. split; [reflexivity|apply einv_init].
  - destruct IH as (s1 & E & I). injection E as <-. eapply einv_step; eauto.
Qed.

Lemma own_errors : forall l o, errors_run calls l o ->
  exists s, o = Ok s /\ forall t, er_users s t = Idle ->
    raised_by t s = map told (filter failing (first_calls (calls t) (er_calls s t))).
Proof.
  intros l o H. destruct (einv_run l o H) as (s & -> & I). exists s. split; [reflexivity|].
  intros t E. destruct (I t) as [_ P]. rewrite E in P. cbn in P. rewrite app_nil_r in P. now rewrite P.
Qed.
End One.

(* a run can be computed *)
Definition busy_of (n : nat) (s : errors) (t : nat) : bool :=
  existsb (fun t' => negb (Nat.eqb t' t) && storing (er_users s t')) (seq 0 n).
Fixpoint errors_play (calls : nat -> nat -> option (string * call_end)) (n : nat) (s : errors) (l : list nat) : option (outcome errors) :=
  match l with
  | [] => Some (Ok s)
  | t :: r => match user_step calls s t (busy_of n s t) with
              | Some (Ok s') => errors_play calls n s' r
              | Some o => match r with [] => Some o | _ => None end
              | None => None
              end
  end.

Lemma step_others : forall calls s t b s', user_step calls s t b = Some (Ok s') -> forall t', t' <> t -> er_users s' t' = er_users s t'.
Proof.
  intros calls s t b s' H t' D. unfold user_step in H.
  assert (Nat.eqb t' t = false) as N by now apply Nat.eqb_neq.
  destruct (er_users s t).
  - destruct (calls t (er_calls s t)) as [[n e]|]; [|discriminate]. injection H as <-. cbn. now rewrite N.
  - destruct (stored_text e); [destruct b; [discriminate|]|]; injection H as <-; cbn; now rewrite N.
  - injection H as <-. cbn. now rewrite N.
  - destruct b; [discriminate|]. injection H as <-. cbn. now rewrite N.
  - destruct (b || _); [discriminate|]. injection H as <-. cbn. now rewrite N.
Qed.

Lemma play_run : forall calls n r l s o, (forall t, n <= t -> calls t 0 = None) ->
  errors_run calls l (Ok s) -> (forall t, n <= t -> er_users s t = Idle) -> (forall t, In t r -> t < n) ->
  errors_play calls n s r = Some o -> errors_run calls (l ++ r) o.
Proof.
  intros calls n r. induction r as [|t r IH]; intros l s o N R I L H.
  - cbn in H. injection H as <-. now rewrite app_nil_r.
  - cbn in H. destruct (user_step calls s t (busy_of n s t)) as [[s'|e|]|] eqn:S; try discriminate.
    + assert (errors_run calls (l ++ [t]) (Ok s')) as R'.
      { refine (R_step calls l s t (busy_of n s t) _ R _ S). unfold busy_of. rewrite existsb_exists. split.
        - intros (t' & _ & X). apply andb_prop in X as [X Y]. exists t'. split; [|exact Y]. intros ->. now rewrite Nat.eqb_refl in X.
        - intros (t' & D & X). exists t'. split.
          + apply in_seq. destruct (Nat.lt_ge_cases t' n); [lia|]. rewrite I in X by assumption. discriminate.
          + rewrite X, andb_true_r. now apply Nat.eqb_neq in D as ->. }
      replace (l ++ t :: r) with ((l ++ [t]) ++ r) by now rewrite <- app_assoc.
      apply (IH (l ++ [t]) s' o); auto.
      * intros t' G. assert (t < n) by (apply L; now left). rewrite (step_others _ _ _ _ _ S) by lia. now apply I.
      * intros t' G. apply L. now right.
    + exfalso. clear - S. unfold user_step in S. destruct (er_users s t); try discriminate.
      * now destruct (calls t (er_calls s t)) as [[]|].
      * destruct (stored_text e0); [destruct (busy_of n s t)|]; discriminate.
      * destruct (busy_of n s t); discriminate.
      * destruct (busy_of n s t || _); discriminate.
    + destruct r; [|discriminate]. injection H as <-.
      refine (R_step calls l s t (busy_of n s t) _ R _ S). unfold busy_of. rewrite existsb_exists. split.
      * intros (t' & _ & X). apply andb_prop in X as [X Y]. exists t'. split; [|exact Y]. intros ->. now rewrite Nat.eqb_refl in X.
      * intros (t' & D & X). exists t'. split.
        -- apply in_seq. destruct (Nat.lt_ge_cases t' n); [lia|]. rewrite I in X by assumption. discriminate.
        -- rewrite X, andb_true_r. now apply Nat.eqb_neq in D as ->.
Qed.

Lemma two_play : forall r o, (forall t, In t r -> t < 2) -> errors_play two_failures 2 errors_init r = Some o -> errors_run two_failures r o.
Proof.
  intros r o L H. apply (play_run two_failures 2 r [] errors_init o); auto.
  - intros [|[|t]] G; [lia|lia|reflexivity].
  - constructor.
Qed.

Ltac lt2 := intros t T; repeat (destruct T as [<-|T]; [lia|]); destruct T.

(* the other thread's text *)
Lemma others_text : exists l s, errors_run two_failures l (Ok s) /\
  er_raised s = [(0, Exception "file is missing", python_message "gribjump_extract" "no permission")]%string.
Proof.
  exists [0; 1; 0; 0; 1; 1; 0; 0]. eexists. split.
  - apply two_play; [lt2|vm_compute; reflexivity].
  - reflexivity.
Qed.
Lemma stores_race : exists l, errors_run two_failures l UB.
Proof. exists [0; 1; 0; 1]. apply two_play; [lt2|vm_compute; reflexivity]. Qed.
Lemma pointer_dangles : exists l s name e p, errors_run two_failures l (Ok s) /\ er_users s 0 = Asked name e p /\
  (forall t', storing (er_users s t') = false) /\ errors_run two_failures (l ++ [0]) UB.
Proof.
  exists [0; 1; 0; 0; 0; 1; 1]. do 4 eexists. split; [|split; [|split]].
  - apply two_play; [lt2|vm_compute; reflexivity].
  - reflexivity.
  - intro t'. cbn. destruct t' as [|[|t']]; reflexivity.
  - apply two_play; [lt2|vm_compute; reflexivity].
Qed.

(* the text is that of the last call that stored one *)
Lemma text_kept : forall calls s t b s', user_step calls s t b = Some (Ok s') ->
  (forall n e x, er_users s t <> Storing n e x) -> er_text s' = er_text s.
Proof.
  intros calls s t b s' H N. unfold user_step in H. destruct (er_users s t).
  - destruct (calls t (er_calls s t)) as [[n e]|]; [|discriminate]. now injection H as <-.
  - destruct (stored_text e); [destruct b; [discriminate|]|]; now injection H as <-.
  - now elim (N name e text).
  - destruct b; [discriminate|]. now injection H as <-.
  - destruct (b || _); [discriminate|]. now injection H as <-.
Qed.
