(* Proofs about the work queue, for C27-C30. *)
From Verif Require Import Base BaseLemmas ModelQueue ModelTask SpecQueue.
From Coq Require Import Permutation Lia.
Local Open Scope nat_scope.

Section Q.
Context {T : Type}.
Implicit Types (q : @wq T) (m : list (nat * list T)).

Lemma gfind_in g m l : gfind g m = Some l -> In (g, l) m.
Proof.
  induction m as [|[g' l'] m IH]; cbn; [discriminate|].
  destruct (Nat.eqb_spec g g') as [E|E]; intro H.
  - left. congruence.
  - right. auto.
Qed.

Lemma gfind_none g m : gfind g m = None <-> ~ In g (map fst m).
Proof.
  induction m as [|[g' l'] m IH]; cbn; [tauto|].
  destruct (Nat.eqb_spec g g') as [E|E].
  - split; [discriminate|]. intro H. exfalso. apply H. left. congruence.
  - rewrite IH. split; intros H; [intros [X|X]; [congruence|tauto]|tauto].
Qed.

Lemma gset_keys g l m : map fst (gset g l m) = map fst m.
Proof.
  induction m as [|[g' l'] m IH]; cbn; [reflexivity|].
  destruct (Nat.eqb g g'); cbn; [reflexivity|now rewrite IH].
Qed.

Lemma gfind_gset g g' l m :
  gfind g' (gset g l m) =
  if Nat.eqb g' g then match gfind g m with Some _ => Some l | None => None end else gfind g' m.
Proof.
  induction m as [|[k l'] m IH]; cbn.
  - now destruct (Nat.eqb g' g).
  - destruct (Nat.eqb_spec g k) as [E|E]; cbn.
    + subst k. destruct (Nat.eqb_spec g' g) as [E|E]; reflexivity.
    + rewrite IH. destruct (Nat.eqb_spec g' k) as [E1|E1].
      * subst k. destruct (Nat.eqb_spec g' g); [congruence|reflexivity].
      * reflexivity.
Qed.

Lemma gerase_in g k m : In k (map fst (gerase g m)) <-> In k (map fst m) /\ k <> g.
Proof.
  unfold gerase. rewrite !in_map_iff. split.
  - intros [e [<- H]]. apply filter_In in H as [H1 H2]. split; [exists e; tauto|].
    apply negb_true_iff, Nat.eqb_neq in H2. congruence.
  - intros [[e [<- H]] N]. exists e. split; [reflexivity|]. apply filter_In. split; [exact H|].
    apply negb_true_iff, Nat.eqb_neq. congruence.
Qed.

Lemma gerase_nodup g m : NoDup (map fst m) -> NoDup (map fst (gerase g m)).
Proof.
  intro H. unfold gerase. induction m as [|[k l] m IH]; cbn; [constructor|].
  inversion H; subst. destruct (Nat.eqb g k); cbn; [auto|].
  constructor; [|auto]. intro X. change (In k (map fst (gerase g m))) in X.
  apply gerase_in in X. tauto.
Qed.

Lemma gfind_gerase g g' m : gfind g' (gerase g m) = if Nat.eqb g' g then None else gfind g' m.
Proof.
  unfold gerase. induction m as [|[k l] m IH]; cbn; [now destruct (Nat.eqb g' g)|].
  destruct (Nat.eqb_spec g k) as [E|E]; cbn.
  - subst k. rewrite IH. destruct (Nat.eqb g' g); reflexivity.
  - rewrite IH. destruct (Nat.eqb_spec g' k) as [E1|E1]; [|reflexivity].
    subst k. destruct (Nat.eqb_spec g' g); [congruence|reflexivity].
Qed.

(* ---- the invariant ---- *)
Definition q_wf q : Prop :=
  NoDup (map fst (q_groups q)) /\ NoDup (q_order q) /\
  (forall g, In g (q_order q) <-> In g (map fst (q_groups q))) /\
  (forall g l, In (g, l) (q_groups q) -> l <> []).

Lemma new_wf : q_wf wq_new.
Proof. repeat split; cbn; try constructor; tauto. Qed.

Lemma close_wf q : q_wf q -> q_wf (wq_close q).
Proof. exact (fun H => H). Qed.

Lemma NoDup_snoc {A} (l : list A) a : NoDup l -> ~ In a l -> NoDup (l ++ [a]).
Proof.
  intros H N. apply Permutation_NoDup with (a :: l).
  - apply Permutation_cons_append.
  - now constructor.
Qed.

Lemma NoDup_app_l {A} (l l' : list A) : NoDup (l ++ l') -> NoDup l.
Proof.
  induction l as [|a l IH]; intro H; [constructor|]. inversion H; subst. constructor; [|auto].
  intro X. apply H2. apply in_or_app. now left.
Qed.

Lemma gset_in g l m k l' : In (k, l') (gset g l m) -> l' = l \/ In (k, l') m.
Proof.
  induction m as [|[j x] m IH]; cbn; [tauto|].
  destruct (Nat.eqb g j); cbn; intros [H|H].
  - injection H as <- <-. tauto.
  - tauto.
  - tauto.
  - destruct (IH H); tauto.
Qed.

Lemma push_wf q g t q' : q_wf q -> wq_push q g t = Ok q' -> q_wf q'.
Proof.
  intros (W1 & W2 & W3 & W4) H. unfold wq_push in H. destruct (q_closed q); [discriminate|].
  destruct (gfind g (q_groups q)) as [l|] eqn:F; injection H as <-; repeat split; cbn.
  - now rewrite gset_keys.
  - exact W2.
  - rewrite gset_keys. apply W3.
  - rewrite gset_keys. apply W3.
  - intros k l' H. apply gset_in in H as [->|H]; [|eapply W4; exact H]. now destruct l.
  - apply gfind_none in F. now constructor.
  - apply NoDup_snoc; [exact W2|]. rewrite W3. now apply gfind_none.
  - intro H. apply in_app_or in H as [H|[H|[]]]; [right; now apply W3|now left].
  - intros [H|H]; apply in_or_app; [right; left; exact H|left; now apply W3].
  - intros k l' [H|H]; [injection H as _ <-; discriminate|eapply W4; exact H].
Qed.

Lemma pop_cases q : q_wf q ->
  (q_order q = [] /\ q_groups q = [] /\ wq_pop q = Ok (if q_closed q then PStop else PBlocks)) \/
  (exists g order t rest, q_order q = g :: order /\ gfind g (q_groups q) = Some (t :: rest) /\
     wq_pop q = Ok (PTask g t (match rest with
                         | [] => mk_wq (q_closed q) (gerase g (q_groups q)) order
                         | _ => mk_wq (q_closed q) (gset g rest (q_groups q)) (order ++ [g])
                         end))).
Proof.
  intros (W1 & W2 & W3 & W4). unfold wq_pop. destruct (q_order q) as [|g order] eqn:O.
  - left. repeat split. destruct (q_groups q) as [|[k l] m]; [reflexivity|].
    exfalso. apply (proj2 (W3 k)). now left.
  - right. destruct (gfind g (q_groups q)) as [l|] eqn:F.
    + destruct l as [|t rest].
      * exfalso. apply gfind_in in F. now apply W4 in F.
      * exists g, order, t, rest. repeat split; auto.
    + exfalso. apply gfind_none in F. apply F, W3. now left.
Qed.

Lemma pop_wf q g t q' : q_wf q -> wq_pop q = Ok (PTask g t q') -> q_wf q'.
Proof.
  intros W H. pose proof W as (W1 & W2 & W3 & W4).
  destruct (pop_cases q W) as [(_ & _ & E)|(g0 & order & t0 & rest & O & F & E)]; rewrite E in H.
  - destruct (q_closed q); discriminate.
  - injection H as -> -> <-. rewrite O in W2, W3. inversion W2 as [|? ? N2 N3]; subst.
    destruct rest as [|r rest]; repeat split; cbn.
    + now apply gerase_nodup.
    + exact N3.
    + intro H. apply gerase_in. split; [apply W3; now right|]. intros ->. tauto.
    + intro H. apply gerase_in in H as [H N]. apply W3 in H as [H|H]; [congruence|exact H].
    + intros k l H. unfold gerase in H. apply filter_In in H as [H _]. eapply W4; exact H.
    + now rewrite gset_keys.
    + now apply NoDup_snoc.
    + intro H. rewrite gset_keys. apply W3. apply in_app_or in H as [H|[H|[]]]; [now right|now left].
    + intro H. rewrite gset_keys in H. apply W3 in H. apply in_or_app. destruct H; [right; now left|now left].
    + intros k l H. apply gset_in in H as [->|H]; [discriminate|eapply W4; exact H].
Qed.

(* ---- contents ---- *)
Lemma queue_of_push q g t q' g' : wq_push q g t = Ok q' ->
  queue_of q' g' = queue_of q g' ++ (if Nat.eqb g' g then [t] else []).
Proof.
  unfold wq_push, queue_of. destruct (q_closed q); [discriminate|].
  destruct (gfind g (q_groups q)) as [l|] eqn:F; intro H; injection H as <-; cbn [q_groups gfind].
  - rewrite gfind_gset, F. destruct (Nat.eqb_spec g' g) as [E|E].
    + subst g'. now rewrite F.
    + now rewrite app_nil_r.
  - destruct (Nat.eqb_spec g' g) as [E|E].
    + subst g'. now rewrite F.
    + now rewrite app_nil_r.
Qed.

Lemma queue_of_pop q g t q' g' : q_wf q -> wq_pop q = Ok (PTask g t q') ->
  queue_of q g' = (if Nat.eqb g' g then [t] else []) ++ queue_of q' g'.
Proof.
  intros W H. destruct (pop_cases q W) as [(_ & _ & E)|(g0 & order & t0 & rest & O & F & E)]; rewrite E in H.
  - destruct (q_closed q); discriminate.
  - injection H as -> -> <-. unfold queue_of.
    destruct rest as [|r rest]; cbn [q_groups].
    + rewrite gfind_gerase. destruct (Nat.eqb_spec g' g) as [X|X]; [subst g'; now rewrite F|reflexivity].
    + rewrite gfind_gset, F. destruct (Nat.eqb_spec g' g) as [X|X]; [subst g'; now rewrite F|reflexivity].
Qed.

Lemma pop_in_order q g t q' : wq_pop q = Ok (PTask g t q') -> hd_error (q_order q) = Some g.
Proof.
  unfold wq_pop. destruct (q_order q) as [|g0 o]; [destruct (q_closed q); discriminate|].
  destruct (gfind g0 (q_groups q)) as [[|x l]|]; try discriminate. intro H. injection H as -> _ _. reflexivity.
Qed.

Lemma of_group_app g (a b : list (nat * T)) : of_group g (a ++ b) = of_group g a ++ of_group g b.
Proof. unfold of_group. now rewrite filter_app, map_app. Qed.

Lemma of_group_one g k (t : T) : of_group g [(k, t)] = if Nat.eqb g k then [t] else [].
Proof. unfold of_group. cbn. now destruct (Nat.eqb g k). Qed.

(* ---- all queued tasks as a multiset ---- *)
Lemma queued_gset_perm g l l' m : NoDup (map fst m) -> gfind g m = Some l ->
  Permutation (map (pair g) l' ++ flat_map (fun e => map (pair (fst e)) (snd e)) m)
              (map (pair g) l ++ flat_map (fun e => map (pair (fst e)) (snd e)) (gset g l' m)).
Proof.
  induction m as [|[k x] m IH]; intros ND F; [discriminate|]. cbn [gfind gset flat_map fst snd] in *.
  destruct (Nat.eqb_spec g k) as [E|E].
  - subst k. injection F as ->. cbn [flat_map fst snd]. rewrite !app_assoc.
    apply Permutation_app_tail, Permutation_app_comm.
  - inversion ND; subst. cbn [flat_map fst snd]. specialize (IH H2 F).
    rewrite !app_assoc.
    rewrite (Permutation_app_comm (map (pair g) l') (map (pair k) x)).
    rewrite (Permutation_app_comm (map (pair g) l) (map (pair k) x)).
    rewrite <- !app_assoc. now apply Permutation_app_head.
Qed.

Lemma gerase_notin g m : ~ In g (map fst m) -> gerase g m = m.
Proof.
  intro H. unfold gerase. induction m as [|[k l] m IH]; cbn; [reflexivity|].
  destruct (Nat.eqb_spec g k) as [E|E].
  - exfalso. apply H. now left.
  - cbn. f_equal. apply IH. intro X. apply H. now right.
Qed.

Lemma queued_gerase_perm g l m : NoDup (map fst m) -> gfind g m = Some l ->
  Permutation (flat_map (fun e => map (pair (fst e)) (snd e)) m)
              (map (pair g) l ++ flat_map (fun e => map (pair (fst e)) (snd e)) (gerase g m)).
Proof.
  induction m as [|[k x] m IH]; intros ND F; [discriminate|]. inversion ND; subst.
  cbn [gfind] in F. unfold gerase. cbn [filter fst].
  destruct (Nat.eqb_spec g k) as [E|E]; cbn [negb].
  - subst k. injection F as ->. fold (gerase g m). rewrite gerase_notin by assumption. reflexivity.
  - fold (gerase g m). cbn [flat_map fst snd]. specialize (IH H2 F).
    rewrite !app_assoc, (Permutation_app_comm (map (pair g) l) (map (pair k) x)), <- !app_assoc.
    now apply Permutation_app_head.
Qed.

Lemma queued_push q g t q' : q_wf q -> wq_push q g t = Ok q' ->
  Permutation (queued q') ((g, t) :: queued q).
Proof.
  intros (W1 & _) H. unfold wq_push in H. destruct (q_closed q); [discriminate|].
  destruct (gfind g (q_groups q)) as [l|] eqn:F; injection H as <-; unfold queued; cbn [q_groups].
  - pose proof (queued_gset_perm g l (l ++ [t]) _ W1 F) as P.
    rewrite map_app in P. rewrite <- app_assoc in P. apply Permutation_app_inv_l in P.
    symmetry. exact P.
  - cbn. reflexivity.
Qed.

Lemma queued_pop q g t q' : q_wf q -> wq_pop q = Ok (PTask g t q') ->
  Permutation (queued q) ((g, t) :: queued q').
Proof.
  intros W H. pose proof W as (W1 & _).
  destruct (pop_cases q W) as [(_ & _ & E)|(g0 & order & t0 & rest & O & F & E)]; rewrite E in H.
  - destruct (q_closed q); discriminate.
  - injection H as -> -> <-. unfold queued. destruct rest as [|r rest]; cbn [q_groups].
    + now apply (queued_gerase_perm g [t]).
    + pose proof (queued_gset_perm g _ (r :: rest) _ W1 F) as P.
      change (map (pair g) (t :: r :: rest)) with ([(g, t)] ++ map (pair g) (r :: rest)) in P.
      rewrite (Permutation_app_comm [(g, t)]), <- app_assoc in P. apply Permutation_app_inv_l in P.
      exact P.
Qed.

Lemma in_queued q g t : q_wf q -> In (g, t) (queued q) <-> In t (queue_of q g).
Proof.
  intros (W1 & _). unfold queued, queue_of. induction (q_groups q) as [|[k l] m IH]; cbn; [tauto|].
  inversion W1; subst. rewrite in_app_iff, (IH H2). clear IH. rewrite in_map_iff.
  destruct (Nat.eqb_spec g k) as [E|E].
  - subst k. apply gfind_none in H1. rewrite H1. cbn. split.
    + intros [(x & X & Y)|[]]. now injection X as ->.
    + intro Y. left. now exists t.
  - split; [intros [(x & X & Y)|Y]; [congruence|exact Y]|tauto].
Qed.

(* ---- C27 ---- *)
Definition log_ok q (l : @qlog T) : Prop :=
  q_wf q /\ (forall g, of_group g (l_popped l) ++ queue_of q g = of_group g (l_pushed l)) /\
  Permutation (l_popped l ++ queued q) (l_pushed l).

Lemma step_log q l o q' l' : log_ok q l -> q_step (q, l) o = Ok (q', l') -> log_ok q' l'.
Proof.
  intros (W & G & P) H. destruct o as [g t| |]; cbn in H.
  - destruct (wq_push q g t) as [q1|e|] eqn:E; try discriminate; injection H as <- <-.
    + split; [eapply push_wf; eassumption|]. cbn [l_popped l_pushed]. split.
      * intro g'. rewrite of_group_app, of_group_one, <- G, (queue_of_push _ _ _ _ g' E). apply app_assoc.
      * rewrite (queued_push _ _ _ _ W E), <- P, <- app_assoc. apply Permutation_app_head.
        apply Permutation_cons_append.
    + repeat split; auto; apply W.
  - destruct (wq_pop q) as [p|e|] eqn:E; try discriminate. cbn in H.
    destruct p as [| |g t q1]; injection H as <- <-; try (repeat split; auto; apply W).
    split; [eapply pop_wf; eassumption|]. cbn [l_popped l_pushed]. split.
    + intro g'. rewrite of_group_app, of_group_one, <- G, (queue_of_pop _ _ _ _ g' W E). symmetry. apply app_assoc.
    + rewrite <- P, <- app_assoc. apply Permutation_app_head. symmetry. cbn. now apply queued_pop.
  - injection H as <- <-. repeat split; auto; apply W.
Qed.

Lemma step_total q l o : q_wf q -> exists q' l', q_step (q, l) o = Ok (q', l').
Proof.
  intro W. destruct o as [g t| |]; cbn.
  - unfold wq_push. destruct (q_closed q); [eauto|]. destruct (gfind g (q_groups q)); eauto.
  - destruct (pop_cases q W) as [(_ & _ & E)|(g0 & order & t0 & rest & O & F & E)]; rewrite E; cbn.
    + destruct (q_closed q); eauto.
    + eauto.
  - eauto.
Qed.

Lemma run_log ops : forall q l q' l', log_ok q l -> q_run (q, l) ops = Ok (q', l') -> log_ok q' l'.
Proof.
  induction ops as [|o ops IH]; intros q l q' l' L H; cbn [q_run] in H; [now injection H as <- <-|].
  destruct (q_step (q, l) o) as [[q1 l1]|e|] eqn:E; try discriminate. cbn in H.
  eapply IH; [eapply step_log; eassumption|exact H].
Qed.

Lemma run_total ops : forall q l, q_wf q -> exists q' l', q_run (q, l) ops = Ok (q', l').
Proof.
  induction ops as [|o ops IH]; intros q l W; cbn [q_run]; [eauto|].
  destruct (step_total q l o W) as (q1 & l1 & E). rewrite E. cbn. apply IH.
  clear IH. destruct o as [g t| |]; cbn in E.
  - destruct (wq_push q g t) eqn:P; try discriminate; injection E as <- _; [eapply push_wf; eassumption|exact W].
  - destruct (wq_pop q) as [p| |] eqn:P; try discriminate. cbn in E.
    destruct p; injection E as <- _; try exact W. eapply pop_wf; eassumption.
  - injection E as <- _. exact W.
Qed.

Lemma new_log : log_ok wq_new (mk_qlog [] []).
Proof. split; [apply new_wf|]. split; [intro g; reflexivity|constructor]. Qed.

Lemma reach_log q l : q_reachable q l -> log_ok q l.
Proof. intros [ops H]. eapply run_log; [apply new_log|exact H]. Qed.

Lemma queue_conserves ops : exists q l,
  q_run (wq_new, mk_qlog [] []) ops = Ok (q, l) /\
  (forall g, of_group g (l_popped l) ++ queue_of q g = of_group g (l_pushed l)) /\
  Permutation (l_popped l ++ queued q) (l_pushed l).
Proof.
  destruct (run_total ops wq_new (mk_qlog [] []) new_wf) as (q & l & E). exists q, l. split; [exact E|].
  destruct (run_log _ _ _ _ _ new_log E) as (_ & A & B). split; assumption.
Qed.

(* ---- C28 ---- *)
Lemma run_order ops : forall q l q' l', q_wf q -> q_run (q, l) ops = Ok (q', l') ->
  exists P, l_popped l' = l_popped l ++ P /\
    exists rest, q_order q ++ rest = map fst P ++ q_order q'.
Proof.
  induction ops as [|o ops IH]; intros q l q' l' W H; cbn [q_run] in H.
  - injection H as <- <-. exists []. split; [now rewrite app_nil_r|]. exists []. now rewrite app_nil_r.
  - destruct (q_step (q, l) o) as [[q1 l1]|e|] eqn:E; try discriminate. cbn in H.
    destruct o as [g t| |]; cbn in E.
    + destruct (wq_push q g t) as [q2| |] eqn:P; try discriminate; injection E as <- <-.
      * destruct (IH _ _ _ _ (push_wf _ _ _ _ W P) H) as (PP & A & rest & B).
        exists PP. split; [exact A|]. clear A. unfold wq_push in P. destruct (q_closed q); [discriminate|].
        destruct (gfind g (q_groups q)); injection P as <-; cbn [q_order] in B.
        -- eauto.
        -- exists ([g] ++ rest). now rewrite app_assoc.
      * apply (IH _ _ _ _ W H).
    + destruct (pop_cases q W) as [(_ & _ & P)|(g & order & t & r & O & F & P)]; rewrite P in E; cbn in E.
      * assert (X : (q, l) = (q1, l1)) by (destruct (q_closed q); now injection E as -> ->).
        injection X as <- <-. apply (IH _ _ _ _ W H).
      * pose proof (pop_wf _ _ _ _ W P) as W'.
        assert (exists t', q_order q1 = order ++ t') as [tl T1].
        { destruct r; injection E as <- _; cbn; [exists []; now rewrite app_nil_r|now exists [g]]. }
        assert (q_wf q1 /\ l_popped l1 = l_popped l ++ [(g, t)]) as [W1 L1] by (injection E as <- <-; auto).
        destruct (IH _ _ _ _ W1 H) as (PP & A & rest & B). exists ((g, t) :: PP). split.
        -- rewrite A, L1, <- app_assoc. reflexivity.
        -- exists (tl ++ rest). rewrite O. cbn. f_equal. rewrite app_assoc. rewrite <- T1. exact B.
    + injection E as <- <-. apply (IH _ _ _ _ (close_wf _ W) H).
Qed.

(* the next dispatches are the groups of the rotation, in order, one each *)
Lemma queue_fair q l ops q' l' : q_reachable q l -> q_run (q, l) ops = Ok (q', l') ->
  exists P, l_popped l' = l_popped l ++ P /\
    firstn (length (q_order q)) (map fst P) = firstn (length P) (q_order q).
Proof.
  intros R H. destruct (reach_log _ _ R) as (W & _).
  destruct (run_order _ _ _ _ _ W H) as (P & A & rest & B). exists P. split; [exact A|].
  assert (firstn (length P) (firstn (length (q_order q)) (q_order q ++ rest)) =
          firstn (length (q_order q)) (firstn (length P) (map fst P ++ q_order q'))) as X.
  { rewrite B. rewrite !firstn_firstn. f_equal. lia. }
  rewrite firstn_app, Nat.sub_diag, firstn_O, app_nil_r, (firstn_all (q_order q)) in X.
  rewrite <- (map_length fst P) in X at 2.
  rewrite (firstn_app (length (map fst P))), Nat.sub_diag, firstn_O, app_nil_r, firstn_all in X. symmetry. exact X.
Qed.

Lemma queue_bound q l g pre post ops q' l' : q_reachable q l -> q_order q = pre ++ g :: post ->
  q_run (q, l) ops = Ok (q', l') ->
  exists P, l_popped l' = l_popped l ++ P /\
    (length pre < length P -> map fst (firstn (S (length pre)) P) = pre ++ [g]) /\
    (length P <= length pre -> map fst P = firstn (length P) pre) /\ NoDup (pre ++ [g]).
Proof.
  intros R O H. destruct (queue_fair _ _ _ _ _ R H) as (P & A & B). exists P. split; [exact A|].
  destruct (reach_log _ _ R) as ((_ & ND & _) & _). rewrite O in *.
  rewrite app_length in B. cbn [length] in B. repeat split.
  - intro L. apply (f_equal (firstn (S (length pre)))) in B. rewrite !firstn_firstn in B.
    rewrite Nat.min_l in B by lia. rewrite Nat.min_l in B by lia. rewrite <- firstn_map.
    rewrite B. rewrite firstn_app. rewrite firstn_all2 by lia. f_equal.
    replace (S (length pre) - length pre) with 1 by lia. reflexivity.
  - intro L. rewrite firstn_all2 in B by (rewrite map_length; lia). rewrite B.
    rewrite firstn_app. replace (length P - length pre) with 0 by lia. now rewrite firstn_O, app_nil_r.
  - replace (pre ++ g :: post) with ((pre ++ [g]) ++ post) in ND by (now rewrite <- app_assoc).
    apply NoDup_app_l in ND. exact ND.
Qed.

(* ---- C30 ---- *)
Lemma queue_mentions q l : q_reachable q l ->
  NoDup (q_order q) /\ NoDup (map fst (q_groups q)) /\
  (forall g, In g (q_order q) <-> exists t, In (g, t) (queued q)) /\
  (forall g, In g (map fst (q_groups q)) <-> exists t, In (g, t) (queued q)).
Proof.
  intros R. destruct (reach_log _ _ R) as (W & _). pose proof W as (W1 & W2 & W3 & W4).
  assert (X : forall g, In g (map fst (q_groups q)) <-> exists t, In (g, t) (queued q)).
  { intro g. split.
    - intro H. apply in_map_iff in H as ([k l0] & <- & H). pose proof (W4 _ _ H) as NE. destruct l0 as [|t l0]; [congruence|].
      exists t. unfold queued. apply in_flat_map. exists (k, t :: l0). split; [exact H|]. now left.
    - intros (t & H). unfold queued in H. apply in_flat_map in H as ([k l0] & H1 & H2). cbn in H2.
      apply in_map_iff in H2 as (x & E & _). injection E as <- <-. apply in_map_iff. now exists (k, l0). }
  repeat split; auto.
  - intro H. apply X, W3, H.
  - intro H. apply W3, X, H.
  - apply X.
  - apply X.
Qed.

Lemma pop_last q l g t q' : q_reachable q l -> wq_pop q = Ok (PTask g t q') -> queue_of q g = [t] ->
  ~ mentions q' g.
Proof.
  intros R P L. destruct (reach_log _ _ R) as (W & _). pose proof (pop_wf _ _ _ _ W P) as W'.
  pose proof (queue_of_pop _ _ _ _ g W P) as E. rewrite Nat.eqb_refl, L in E. cbn in E.
  injection E as E. symmetry in E.
  assert (N : ~ In g (map fst (q_groups q'))).
  { apply gfind_none. destruct (gfind g (q_groups q')) as [x|] eqn:F; [|reflexivity].
    unfold queue_of in E. rewrite F in E. subst x. apply gfind_in in F. destruct W' as (_ & _ & _ & W4).
    now apply W4 in F. }
  intros [H|H]; [|tauto]. destruct W' as (_ & _ & W3 & _). apply W3 in H. tauto.
Qed.
End Q.
