From Coq Require Import Lia.
From Verif Require Import Base BaseLemmas ModelLRU SpecLRU.
Local Open Scope nat_scope.

Section Proofs.
Context {K V : Type} (K_eq_dec : forall a b : K, {a = b} + {a <> b}).
Notation afind := (@afind K V K_eq_dec).
Notation aerase := (@aerase K V K_eq_dec).
Notation rm := (remove K_eq_dec).

Lemma afind_erase_same k m : afind k (aerase k m) = None.
Proof.
  induction m as [|[k' v] m IH]; simpl; auto.
  destruct (K_eq_dec k k'); simpl; auto. destruct (K_eq_dec k k'); congruence.
Qed.

Lemma afind_erase_other k k' m : k <> k' -> afind k (aerase k' m) = afind k m.
Proof.
  intros H. induction m as [|[k'' v] m IH]; simpl; auto.
  destruct (K_eq_dec k' k''); simpl; destruct (K_eq_dec k k''); auto; congruence.
Qed.

Lemma erase_length k m : length (aerase k m) <= length m.
Proof. unfold ModelLRU.aerase. induction m; simpl; auto. destruct (K_eq_dec k (fst a)); simpl; lia. Qed.

Lemma erase_length_found k m v : afind k m = Some v -> length (aerase k m) < length m.
Proof.
  induction m as [|[k' v'] m IH]; simpl; [discriminate|].
  destruct (K_eq_dec k k'); simpl.
  - intros _. pose proof (erase_length k m). unfold ModelLRU.aerase in *. lia.
  - intros H. apply IH in H. unfold ModelLRU.aerase in *. lia.
Qed.

Lemma rm_notin k l : ~ In k l -> rm k l = l.
Proof. intros. now apply notin_remove. Qed.

Lemma rm_NoDup k l : NoDup l -> NoDup (rm k l).
Proof.
  induction 1; simpl; [constructor|]. destruct (K_eq_dec k x); auto. constructor; auto.
  intros Hin. apply in_remove in Hin. tauto.
Qed.

(* keys used since the last clear, most recently used first *)
Fixpoint recency (log : list (@lru_event K V)) : list K :=
  match log with
  | [] => []
  | EvClear :: _ => []
  | e :: r => match used e with Some k => k :: rm k (recency r) | None => recency r end
  end.

Lemma recency_NoDup log : NoDup (recency log).
Proof.
  induction log as [|e r IH]; simpl; [constructor|].
  destruct e; simpl; auto; try constructor; auto using rm_NoDup; apply remove_In.
Qed.

Lemma rm_app k a b : rm k (a ++ b) = rm k a ++ rm k b.
Proof. apply remove_app. Qed.

Lemma used_since_recency log k :
  match used_since K_eq_dec log k with
  | None => ~ In k (recency log)
  | Some l => exists a b, recency log = a ++ k :: b /\ ~ In k a /\ (forall x, In x a <-> In x l)
  end.
Proof.
  induction log as [|e r IH]; simpl; [auto|].
  destruct e; simpl; auto.
  1,2: destruct (K_eq_dec k k0) as [<-|N];
    [ exists [], (rm k (recency r)); simpl; firstorder
    | destruct (used_since K_eq_dec r k) as [l|]; simpl;
      [ destruct IH as (a & b & E & Hk & Hx); exists (k0 :: rm k0 a), (rm k0 b); rewrite E, rm_app; simpl;
        destruct (K_eq_dec k0 k) as [->|_]; [congruence|]; split; [reflexivity|]; split;
        [ intros [->|Hin]; [congruence|]; apply in_remove in Hin; tauto
        | intros x; split;
          [ intros [->|Hin]; auto; apply in_remove in Hin; right; apply Hx; tauto
          | intros [->|Hin]; auto; destruct (K_eq_dec x k0) as [->|]; auto; right; apply in_in_remove; auto; apply Hx; auto ] ]
      | intros [->|Hin]; [congruence|]; apply in_remove in Hin; tauto ] ].
Qed.

Lemma in_firstn_app (k : K) a b n : NoDup (a ++ k :: b) -> (In k (firstn n (a ++ k :: b)) <-> length a < n).
Proof.
  intros ND. rewrite firstn_app. split.
  - intros H. destruct (Nat.lt_ge_cases (length a) n) as [|G]; auto. exfalso.
    replace (n - length a) with 0 in H by lia. simpl in H. rewrite app_nil_r in H.
    assert (In k a). { rewrite <- (firstn_skipn n a). apply in_or_app. auto. }
    apply NoDup_remove_2 in ND. apply ND. apply in_or_app. auto.
  - intros H. apply in_or_app. right. destruct (n - length a) eqn:E; [lia|]. simpl. auto.
Qed.

Lemma same_set_length (a l : list K) : NoDup a -> (forall x, In x a <-> In x l) -> length a = length (nodup K_eq_dec l).
Proof.
  intros ND H. apply Nat.le_antisymm; apply NoDup_incl_length; auto using NoDup_nodup.
  - intros x Hx. apply nodup_In, H, Hx.
  - intros x Hx. apply H. now apply nodup_In in Hx.
Qed.

Lemma live_iff log k n :
  In k (firstn n (recency log)) <->
  match used_since K_eq_dec log k with Some l => length (nodup K_eq_dec l) < n | None => False end.
Proof.
  pose proof (used_since_recency log k) as H. pose proof (recency_NoDup log) as ND.
  destruct (used_since K_eq_dec log k) as [l|].
  - destruct H as (a & b & E & Hk & Hx). rewrite E in *. rewrite in_firstn_app by auto.
    rewrite (same_set_length a l); [reflexivity| |auto].
    clear -ND. induction a; simpl in *; [constructor|]. inversion ND; subst. constructor; auto.
    intros Hin. apply H1. apply in_or_app. auto.
  - split; [|tauto]. intros Hin. apply H. rewrite <- (firstn_skipn n). apply in_or_app. auto.
Qed.

(* the invariant *)
Definition good (cap : nat) (c : @lru K V) (log : list (@lru_event K V)) : Prop :=
  l_capacity c = cap /\ l_list c = firstn cap (recency log) /\
  (forall k, In k (l_list c) -> exists v, afind k (l_map c) = Some v /\ last_put K_eq_dec log k = Some v) /\
  (forall k, ~ In k (l_list c) -> afind k (l_map c) = None) /\
  length (l_map c) <= length (l_list c).

Lemma firstn_NoDup {A} n (l : list A) : NoDup l -> NoDup (firstn n l).
Proof.
  intros H. rewrite <- (firstn_skipn n l) in H. revert H. generalize (skipn n l). generalize (firstn n l). clear.
  induction l; simpl; intros l0 H; [constructor|]. inversion H; subst. constructor; eauto.
  intros Hin. apply H2, in_or_app. auto.
Qed.

Lemma firstn_rm k n l : NoDup l -> In k (firstn n l) -> firstn (n - 1) (rm k l) = rm k (firstn n l).
Proof.
  revert n; induction l as [|x l IH]; intros n ND Hin; [destruct n; simpl in Hin; tauto|].
  destruct n; simpl in Hin; [tauto|]. inversion ND; subst. simpl. rewrite Nat.sub_0_r.
  destruct (K_eq_dec k x) as [->|N].
  - rewrite !rm_notin; auto. intros H. apply H1. rewrite <- (firstn_skipn n l). apply in_or_app; auto.
  - destruct Hin as [->|Hin]; [congruence|]. rewrite <- IH by auto.
    destruct n; [simpl in Hin; tauto|]. simpl. now rewrite Nat.sub_0_r.
Qed.

Lemma firstn_rm_notin k n l : ~ In k (firstn n l) -> firstn (n - 1) (rm k l) = firstn (n - 1) l.
Proof.
  revert n; induction l as [|x l IH]; intros n Hin; auto.
  destruct n; auto. simpl in *. rewrite Nat.sub_0_r in *. destruct (K_eq_dec k x) as [->|N]; [tauto|].
  destruct n; auto. simpl. f_equal. specialize (IH (S n)). simpl in IH. rewrite Nat.sub_0_r in IH. apply IH. tauto.
Qed.

Lemma removelast_firstn' {A} n (l : list A) : length (firstn n l) = n -> removelast (firstn n l) = firstn (n - 1) l.
Proof.
  rewrite firstn_length. intros H. destruct n; auto.
  rewrite removelast_firstn by lia. f_equal. lia.
Qed.

Lemma firstn_short {A} n m (l : list A) : length (firstn n l) < n -> n - 1 <= m -> firstn m l = firstn n l.
Proof.
  intros H Hm. rewrite firstn_length in H. rewrite !firstn_all2 by lia. reflexivity.
Qed.

Lemma rm_length_in k l : NoDup l -> In k l -> S (length (rm k l)) = length l.
Proof.
  induction 1; simpl; [tauto|]. intros [->|Hin].
  - destruct (K_eq_dec k k); [|congruence]. now rewrite rm_notin.
  - destruct (K_eq_dec k x) as [->|]; [tauto|]. simpl. now rewrite IHNoDup.
Qed.

Lemma rev_last {A} (l : list A) x r : rev l = x :: r -> l = removelast l ++ [x].
Proof.
  intros H. apply (f_equal (@rev A)) in H. rewrite rev_involutive in H. simpl in H. subst.
  now rewrite removelast_last.
Qed.

Lemma afind_in k (m : list (K * V)) v : afind k m = Some v -> m <> [].
Proof. destruct m; [discriminate|congruence]. Qed.

Lemma put_good cap c log k v : 1 <= cap -> good cap c log ->
  exists c', lru_put K_eq_dec c k v = Ok c' /\ good cap c' (EvPut k v :: log).
Proof.
  intros Hcap (Hc & Hl & Hin & Hout & Hlen). unfold lru_put.
  pose proof (recency_NoDup log) as ND.
  assert (NDl : NoDup (l_list c)) by (rewrite Hl; now apply firstn_NoDup).
  destruct (afind k (l_map c)) as [v0|] eqn:Ef.
  - assert (Hk : In k (l_list c)). { destruct (in_dec K_eq_dec k (l_list c)) as [|N]; auto. rewrite (Hout _ N) in Ef. discriminate. }
    cbn [obind]. eexists; split; [reflexivity|]. unfold good; cbn [l_capacity l_list l_map].
    split; [auto|]. split.
    { cbn [recency used]. rewrite Hl in Hk |- *. destruct cap; [lia|].
      rewrite <- (firstn_rm k (S cap)) by auto. replace (S cap - 1) with cap by lia. reflexivity. }
    split.
    { intros k' [->|Hk'].
      - exists v. unfold aset; simpl. destruct (K_eq_dec k' k'); [auto|congruence].
      - apply in_remove in Hk' as [Hk' N]. destruct (Hin _ Hk') as (v' & E1 & E2). exists v'. unfold aset; simpl.
        destruct (K_eq_dec k' k); [congruence|]. now rewrite afind_erase_other. }
    split.
    { intros k' N. unfold aset; simpl. destruct (K_eq_dec k' k) as [->|D]; [exfalso; apply N; now left|].
      rewrite afind_erase_other by auto. apply Hout. intros Hi. apply N. right. now apply in_in_remove. }
    { unfold aset; simpl. rewrite rm_length_in by auto. apply erase_length_found in Ef. lia. }
  - assert (Hk : ~ In k (l_list c)). { intros Hk. destruct (Hin _ Hk) as (v' & E & _). congruence. }
    assert (Hrec : firstn cap (recency (EvPut k v :: log)) = k :: firstn (cap - 1) (recency log)).
    { simpl recency. destruct cap; [lia|]. simpl firstn. f_equal. rewrite Hl in Hk. apply firstn_rm_notin in Hk.
      simpl in Hk. rewrite Nat.sub_0_r in *. exact Hk. }
    destruct (Nat.eqb_spec (length (l_list c)) (l_capacity c)) as [Hfull|Hfull].
    + destruct (rev (l_list c)) as [|last r] eqn:Er.
      { apply (f_equal (@length K)) in Er. rewrite rev_length in Er. simpl in Er. lia. }
      cbn [obind]. eexists; split; [reflexivity|]. unfold good; cbn [l_capacity l_list l_map].
      pose proof (rev_last _ _ _ Er) as Elast.
      assert (Hnl : ~ In last (removelast (l_list c))).
      { intros Hi. rewrite Elast in NDl. apply NoDup_remove_2 in NDl. apply NDl. apply in_or_app. now left. }
      assert (Hkl : k <> last). { intros ->. apply Hk. rewrite Elast. apply in_or_app. right. now left. }
      assert (Hrl : removelast (l_list c) = firstn (cap - 1) (recency log)).
      { rewrite Hl. apply removelast_firstn'. rewrite <- Hl. lia. }
      split; [auto|]. split; [now rewrite Hrec, Hrl|]. split.
      { intros k' [->|Hk'].
        - exists v. unfold aset; simpl. destruct (K_eq_dec k' k'); [auto|congruence].
        - assert (Hk2 : In k' (l_list c)) by (rewrite Elast; apply in_or_app; now left).
          destruct (Hin _ Hk2) as (v' & E1 & E2). exists v'. unfold aset; simpl.
          destruct (K_eq_dec k' k) as [->|]; [tauto|]. rewrite !afind_erase_other; auto. intros ->. tauto. }
      split.
      { intros k' N. unfold aset; simpl. destruct (K_eq_dec k' k) as [->|D]; [exfalso; apply N; now left|].
        rewrite afind_erase_other by auto.
        destruct (K_eq_dec k' last) as [->|D2]; [apply afind_erase_same|].
        rewrite afind_erase_other by auto. apply Hout. intros Hi. rewrite Elast in Hi.
        apply in_app_or in Hi as [Hi|[Hi|[]]]; [|congruence]. apply N. now right. }
      { unfold aset; simpl. pose proof (erase_length k (aerase last (l_map c))).
        destruct (Hin last) as (vl & El & _). { rewrite Elast. apply in_or_app. right. now left. }
        apply erase_length_found in El. rewrite Elast in Hlen. rewrite app_length in Hlen. simpl in Hlen. lia. }
    + cbn [obind]. eexists; split; [reflexivity|]. unfold good; cbn [l_capacity l_list l_map].
      assert (Hsh : length (firstn cap (recency log)) < cap).
      { rewrite <- Hl. assert (length (l_list c) <= cap) by (rewrite Hl; rewrite firstn_length; lia). lia. }
      split; [auto|]. split. { rewrite Hrec. f_equal. rewrite Hl. symmetry. apply firstn_short; auto. }
      split.
      { intros k' [->|Hk'].
        - exists v. unfold aset; simpl. destruct (K_eq_dec k' k'); [auto|congruence].
        - destruct (Hin _ Hk') as (v' & E1 & E2). exists v'. unfold aset; simpl.
          destruct (K_eq_dec k' k) as [->|]; [tauto|]. now rewrite afind_erase_other. }
      split.
      { intros k' N. unfold aset; simpl. destruct (K_eq_dec k' k) as [->|D]; [exfalso; apply N; now left|].
        rewrite afind_erase_other by auto. apply Hout. intros Hi. apply N. now right. }
      { unfold aset; simpl. pose proof (erase_length k (l_map c)). lia. }
Qed.

Lemma get_good cap c log k v c' : good cap c log -> lru_get K_eq_dec c k = Ok (v, c') -> good cap c' (EvGet k v :: log).
Proof.
  intros (Hc & Hl & Hin & Hout & Hlen). unfold lru_get.
  destruct (afind k (l_map c)) as [v0|] eqn:Ef; [|discriminate]. intros [= -> <-].
  pose proof (recency_NoDup log) as ND.
  assert (NDl : NoDup (l_list c)) by (rewrite Hl; now apply firstn_NoDup).
  assert (Hk : In k (l_list c)). { destruct (in_dec K_eq_dec k (l_list c)) as [|N]; auto. rewrite (Hout _ N) in Ef. discriminate. }
  unfold good; cbn [l_capacity l_list l_map]. split; [auto|]. split.
  { cbn [recency used]. rewrite Hl in Hk |- *. destruct cap; [simpl in Hk; tauto|].
    rewrite <- (firstn_rm k (S cap)) by auto. replace (S cap - 1) with cap by lia. reflexivity. }
  split.
  { intros k' [->|Hk']; apply Hin; auto. apply in_remove in Hk'. tauto. }
  split.
  { intros k' N. destruct (K_eq_dec k' k) as [->|D]; [exfalso; apply N; now left|].
    apply Hout. intros Hi. apply N. right. now apply in_in_remove. }
  { simpl. rewrite rm_length_in by auto. auto. }
Qed.

Lemma good_should cap c log k : good cap c log -> afind k (l_map c) = lru_should K_eq_dec cap log k.
Proof.
  intros (Hc & Hl & Hin & Hout & Hlen). unfold lru_should.
  pose proof (live_iff log k cap) as L. rewrite <- Hl in L.
  destruct (used_since K_eq_dec log k) as [l|].
  - destruct (Nat.ltb_spec (length (nodup K_eq_dec l)) cap) as [H|H].
    + apply L in H. destruct (Hin _ H) as (v & E1 & E2). congruence.
    + apply Hout. intros Hi. apply L in Hi. lia.
  - apply Hout. intros Hi. apply L in Hi. tauto.
Qed.

Lemma step_good cap c log o : 1 <= cap -> good cap c log ->
  exists c' e, lru_step K_eq_dec c o = Ok (c', e) /\ good cap c' (e :: log).
Proof.
  intros Hcap H. destruct o; simpl.
  - destruct (put_good cap c log k v Hcap H) as (c' & E & G). rewrite E. simpl. eauto.
  - destruct (lru_get K_eq_dec c k) as [[v c']|e|] eqn:E.
    + eexists _, _; split; [reflexivity|]. eapply get_good; eauto.
    + eexists _, _; split; [reflexivity|]. exact H.
    + exfalso. unfold lru_get in E. destruct (afind k (l_map c)); discriminate.
  - eexists _, _; split; [reflexivity|]. exact H.
  - eexists _, _; split; [reflexivity|]. destruct H as (Hc & _). unfold good, lru_clear; simpl.
    rewrite firstn_nil. repeat split; auto. intros k [].
Qed.

Lemma run_good cap : 1 <= cap -> forall ops c log, good cap c log ->
  exists c' log', lru_run K_eq_dec c log ops = Ok (c', log') /\ good cap c' log'.
Proof.
  intros Hcap. induction ops as [|o ops IH]; intros c log H; simpl; [eauto|].
  destruct (step_good cap c log o Hcap H) as (c' & e & E & G). rewrite E. simpl. now apply IH.
Qed.

Lemma new_good cap : good cap (lru_new cap) [].
Proof. unfold good, lru_new; simpl. rewrite firstn_nil. repeat split; auto. intros k []. Qed.

Lemma lru_ok cap (ops : list (@lru_op K V)) : 1 <= cap ->
  exists c log, lru_run K_eq_dec (lru_new cap) [] ops = Ok (c, log) /\
    length (l_map c) <= cap /\
    (forall k, lru_exists K_eq_dec c k = match lru_should K_eq_dec cap log k with Some _ => true | None => false end) /\
    (forall k, omap fst (lru_get K_eq_dec c k) =
               match lru_should K_eq_dec cap log k with Some v => Ok v | None => Throw EBadValue end).
Proof.
  intros Hcap. destruct (run_good cap Hcap ops _ _ (new_good cap)) as (c & log & E & G).
  exists c, log. split; auto. split.
  - destruct G as (_ & Hl & _ & _ & Hlen). rewrite Hl, firstn_length in Hlen. lia.
  - split; intros k; rewrite <- (good_should cap c log k G).
    + reflexivity.
    + unfold lru_get. destruct (afind k (l_map c)); reflexivity.
Qed.

(* the log records the calls made *)
Lemma log_calls (ops : list (@lru_op K V)) : forall c log c' log', lru_run K_eq_dec c log ops = Ok (c', log') ->
  map call_of (rev log') = map call_of (rev log) ++ ops.
Proof.
  induction ops as [|o ops IH]; simpl; intros c log c' log' H.
  - injection H as _ <-. now rewrite app_nil_r.
  - apply obind_ok_inv in H as ([c1 e] & E & H). apply IH in H. simpl in H. rewrite H, map_app, <- app_assoc. f_equal.
    simpl. f_equal. destruct o; simpl in E.
    + apply obind_ok_inv in E as (? & _ & E). now injection E as _ <-.
    + destruct (lru_get K_eq_dec c k) as [[v c2]|?|]; try discriminate; now injection E as _ <-.
    + now injection E as _ <-.
    + now injection E as _ <-.
Qed.

Lemma capacity_zero (k : K) (v : V) : lru_put K_eq_dec (lru_new 0) k v = UB.
Proof. reflexivity. Qed.
End Proofs.
