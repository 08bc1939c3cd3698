(* C110. *)
From Verif Require Import Base BaseLemmas ModelLife SpecLife.
From Coq Require Import Lia Arith.
Local Open Scope nat_scope.

Lemma set_nth_get {A} (l : list A) n x m : nth_error (set_nth l n x) m =
  if Nat.eqb m n then (match nth_error l n with Some _ => Some x | None => None end) else nth_error l m.
Proof.
  revert n m. induction l as [|y l IH]; intros [|n] [|m]; cbn; try reflexivity.
  - now destruct (Nat.eqb m n).
  - now rewrite IH.
Qed.
Lemma set_nth_length {A} (l : list A) n (x : A) : length (set_nth l n x) = length l.
Proof. revert n. induction l as [|y l IH]; intros [|n]; cbn; auto. Qed.
Lemma at_end {A} (l : list A) (x : A) : nth_error (l ++ [x]) (length l) = Some x.
Proof. rewrite nth_error_app2, Nat.sub_diag by lia. reflexivity. Qed.
Lemma end_cases {A} (l : list A) (x y : A) n : nth_error (l ++ [x]) n = Some y -> nth_error l n = Some y \/ (n = length l /\ y = x).
Proof.
  intro H. destruct (Nat.lt_ge_cases n (length l)) as [L|L].
  - rewrite nth_error_app1 in H by exact L. now left.
  - rewrite nth_error_app2 in H by exact L. right. destruct (n - length l) as [|q] eqn:E; cbn in H; [|destruct q; discriminate].
    injection H as <-. split; [lia|reflexivity].
Qed.
Lemma keep_end {A} (l : list A) (x y : A) n : nth_error l n = Some y -> nth_error (l ++ [x]) n = Some y.
Proof. intro H. rewrite nth_error_app1; [exact H|]. apply nth_error_Some. congruence. Qed.

Lemma has_fun s x d d' : has s x d -> has s x d' -> d = d'.
Proof. intros [b H] [b' H']. rewrite H in H'. now injection H'. Qed.
Lemma ckind_refl k : ckind_eqb k k = true.
Proof. now destruct k. Qed.

(* ---- the invariant ---- *)
Definition left_at_most (s : pstate) (p i : nat) (sh : option nat) : Prop :=
  forall m o, sh = Some m -> nth_error (ps_c s) p = Some o -> i + co_left o <= m.
Definition wt (s : pstate) (d : pdata) (b : bool) : Prop :=
  match d with
  | Cdata k p => exists o, nth_error (ps_c s) p = Some o /\ co_kind o = k /\ co_live o = b
  | Obj k cd sh => exists p, has s cd (Cdata k p) /\ (k = CIterator -> left_at_most s p 0 sh)
  | Gen it i => exists cd sh p, has s it (Obj CIterator cd sh) /\ has s cd (Cdata CIterator p) /\ left_at_most s p i sh
  | PList _ => True
  | View cd => exists p, has s cd (Cdata CBuffer p)
  | Extracting h l _ _ _ _ => exists p, has s h (Cdata CHandle p)
  | ExtractingSingle h => exists p, has s h (Cdata CHandle p)
  | Axing h ax => (exists hc sh p, has s h (Obj CHandle hc sh) /\ has s hc (Cdata CHandle p)) /\
                  match ax with Some a => exists p, has s a (Cdata CAxes p) | None => True end
  end.
Definition waits (s : pstate) (l : nat) (k : ckind) (ps : list nat) : Prop :=
  exists xs, has s l (PList xs) /\ Forall2 (fun x p => exists cd sh, has s x (Obj k cd sh) /\ has s cd (Cdata k p)) xs ps.
Record Inv (s : pstate) : Prop := mk_inv {
  i_live : forall x, reach s x -> py_live s x;
  i_typed : forall x d b, nth_error (ps_py s) x = Some (mk_pnode d b) -> wt s d b;
  i_own : forall x y p, belongs s p x -> belongs s p y -> x = y;
  i_pend : forall f h l k ps n, In f (ps_roots s) -> has s f (Extracting h l k ps n false) -> waits s l k ps;
  i_leak : forall p o, nth_error (ps_c s) p = Some o -> exists x, has s x (Cdata (co_kind o) p)
}.

Definition fixed (d : pdata) : bool := match d with Cdata _ _ | Obj _ _ _ | View _ => true | _ => false end.
Definition keeps (s s' : pstate) : Prop :=
  (forall x d, has s x d -> fixed d = true -> has s' x d) /\
  (forall p o', p < length (ps_c s) -> nth_error (ps_c s') p = Some o' -> exists o, nth_error (ps_c s) p = Some o /\ co_left o' <= co_left o).

Lemma cdata_range s x k p : Inv s -> has s x (Cdata k p) -> p < length (ps_c s).
Proof. intros I [b H]. destruct (i_typed s I _ _ _ H) as (o & Ho & _). apply nth_error_Some. congruence. Qed.
Lemma left_mono s s' p i sh : keeps s s' -> p < length (ps_c s) -> left_at_most s p i sh -> left_at_most s' p i sh.
Proof. intros [_ K] L H m o' E Ho. destruct (K _ _ L Ho) as (o & Ho' & Le). specialize (H m o E Ho'). lia. Qed.
Lemma wt_mono s s' d b : Inv s -> keeps s s' -> (forall k p, d <> Cdata k p) -> wt s d b -> wt s' d b.
Proof.
  intros I K N. pose proof K as [K1 _]. destruct d as [k p|k cd sh|it i|l|cd|h l k ps n c|h|h ax]; cbn [wt].
  - now destruct (N k p).
  - intros (p & Hc & Hl). exists p. split; [now apply K1|]. intro E. apply (left_mono s); auto. exact (cdata_range s cd k p I Hc).
  - intros (cd & sh & p & Hi & Hc & Hl). exists cd, sh, p. split; [now apply K1|]. split; [now apply K1|]. apply (left_mono s); auto.
    exact (cdata_range s cd _ p I Hc).
  - auto.
  - intros (p & H). exists p. now apply K1.
  - intros (p & H). exists p. now apply K1.
  - intros (p & H). exists p. now apply K1.
  - intros [(hc & sh & p & H1 & H2) Ha]. split; [exists hc, sh, p; split; now apply K1|]. destruct ax as [a|]; [|exact I0 || auto].
    destruct Ha as [q Hq]. exists q. now apply K1.
Qed.
Lemma waits_mono s s' l k ps : keeps s s' -> (forall xs, has s l (PList xs) -> has s' l (PList xs)) -> waits s l k ps -> waits s' l k ps.
Proof.
  intros [K _] Hl (xs & H & F). exists xs. split; [now apply Hl|]. clear H. induction F as [|x p xs ps (cd & sh & A & B) F IH]; constructor; auto.
  exists cd, sh. split; now apply K.
Qed.

(* ---- reaching ---- *)
Lemma reach_heap s h x : reach (mk_pstate h (ps_py s) (ps_roots s)) x <-> reach s x.
Proof. split; induction 1 as [x H|y d x _ IH H1 H2]; try (now apply R_root); exact (R_ref _ y d x IH H1 H2). Qed.
Lemma reach_drop s f x : reach (drop s f) x -> reach s x.
Proof. induction 1 as [x H|y d x _ IH H1 H2]; [apply R_root; cbn in H; now apply in_remove in H|exact (R_ref _ y d x IH H1 H2)]. Qed.
Lemma reach_hold s r x : reach s r -> reach (mk_pstate (ps_c s) (ps_py s) (r :: ps_roots s)) x -> reach s x.
Proof. intros R. induction 1 as [x H|y d x _ IH H1 H2]; [cbn in H; destruct H as [<-|H]; [exact R|now apply R_root]|exact (R_ref _ y d x IH H1 H2)]. Qed.
Lemma reach_add s d x : (forall x, reach s x -> py_live s x) -> (forall r, In r (refs d) -> reach s r) ->
  reach (new_py s [d] (length (ps_py s))) x -> reach s x \/ x = length (ps_py s).
Proof.
  intros Lv Hr. induction 1 as [x H|y n x _ IH H1 H2].
  - cbn in H. destruct H as [<-|H]; [now right|left; now apply R_root].
  - cbn in H1. destruct IH as [IH| ->].
    + destruct (Lv _ IH) as [d' E]. rewrite (keep_end _ _ _ _ E) in H1. injection H1 as <-. left. exact (R_ref _ y _ x IH E H2).
    + rewrite at_end in H1. injection H1 as <-. left. now apply Hr.
Qed.
Lemma reach_set s y d x : (forall r, In r (refs d) -> reach s r) -> reach (set_data s y d) x -> reach s x.
Proof.
  intros Hr. induction 1 as [x H|z n x _ IH H1 H2]; [now apply R_root|]. cbn in H1. rewrite set_nth_get in H1.
  destruct (Nat.eqb_spec z y) as [->|N]; [destruct (nth_error (ps_py s) y); [|discriminate]; injection H1 as <-; now apply Hr|exact (R_ref _ z n x IH H1 H2)].
Qed.

(* ---- the pieces of steps ---- *)
Lemma inv_drop s f : Inv s -> Inv (drop s f).
Proof.
  intros [A B C D E]. constructor; auto.
  - intros x H. exact (A x (reach_drop s f x H)).
  - intros g h l k ps n H. cbn in H. apply in_remove in H as [H _]. exact (D g h l k ps n H).
Qed.
Lemma inv_hold s r d : Inv s -> reach s r -> has s r d -> is_frame d = false -> Inv (mk_pstate (ps_c s) (ps_py s) (r :: ps_roots s)).
Proof.
  intros [A B C D E] R Hd NF. constructor; auto.
  - intros x H. exact (A x (reach_hold s r x R H)).
  - intros f h l k ps n H Hf. cbn in H. destruct H as [->|H]; [|exact (D f h l k ps n H Hf)]. rewrite (has_fun _ _ _ _ Hd Hf) in NF. discriminate.
Qed.

Lemma has_end s d x e : has (new_py s [d] (length (ps_py s))) x e -> has s x e \/ (x = length (ps_py s) /\ e = d).
Proof. intros [b H]. cbn in H. apply end_cases in H as [H|[-> [= -> _]]]; [left; now exists b|now right]. Qed.
Lemma keeps_add s d r : keeps s (new_py s [d] r).
Proof. split; [|cbn; eauto]. intros x e [b H] _. exists b. cbn. now apply keep_end. Qed.
Lemma inv_add s d : Inv s -> (forall k p, d <> Cdata k p) -> (forall r, In r (refs d) -> reach s r) -> wt s d true ->
  (forall h l k ps n, d = Extracting h l k ps n false -> waits s l k ps) -> Inv (new_py s [d] (length (ps_py s))).
Proof.
  intros I N R W P. pose proof (keeps_add s d (length (ps_py s))) as K. pose proof I as [A B C D E]. constructor.
  - intros x H. apply reach_add in H as [H| ->]; auto.
    + destruct (A x H) as [e He]. exists e. cbn. now apply keep_end.
    + exists d. cbn. apply at_end.
  - intros x e b H. cbn in H. apply end_cases in H as [H|[-> [= -> ->]]].
    + destruct e; try (apply (wt_mono s); eauto; congruence). exact (B _ _ _ H).
    + apply (wt_mono s); auto.
  - intros x y p (k & b & H) (k' & b' & H'). cbn in H, H'.
    apply end_cases in H as [H|[_ [= H _]]]; [|now destruct (N k p)]. apply end_cases in H' as [H'|[_ [= H' _]]]; [|now destruct (N k' p)].
    apply (C x y p); [now exists k, b|now exists k', b'].
  - intros f h l k ps n H Hf. cbn in H. apply has_end in Hf as [Hf|[-> Hf]].
    + destruct H as [<-|H].
      * destruct Hf as [b Hf]. exfalso. assert (length (ps_py s) < length (ps_py s)) by (apply nth_error_Some; congruence). lia.
      * apply (waits_mono s); auto; [|exact (D _ _ _ _ _ _ H Hf)]. intros xs [b Hx]. exists b. cbn. now apply keep_end.
    + symmetry in Hf. apply (waits_mono s); auto; [|exact (P _ _ _ _ _ Hf)]. intros xs [b Hx]. exists b. cbn. now apply keep_end.
  - intros p o H. destruct (E p o H) as [x [b Hx]]. exists x, b. cbn. now apply keep_end.
Qed.

(* a C object with its owner *)
Definition add_cdata (s : pstate) (k : ckind) (left : nat) : pstate :=
  new_py (new_c s (mk_cobj k true left)) [Cdata k (length (ps_c s))] (length (ps_py s)).
Lemma inv_cdata s k left : Inv s -> Inv (add_cdata s k left).
Proof.
  intros I. pose proof I as [A B C D E].
  assert (K : keeps s (add_cdata s k left)).
  { split.
    - intros x e [b H] _. exists b. cbn. now apply keep_end.
    - intros p o' L H. cbn in H. rewrite nth_error_app1 in H by exact L. exists o'. split; [exact H|lia]. }
  constructor.
  - intros x H. apply (reach_add (new_c s (mk_cobj k true left)) (Cdata k (length (ps_c s)))) in H as [H| ->].
    + apply reach_heap in H. destruct (A x H) as [e He]. exists e. cbn. now apply keep_end.
    + exists (Cdata k (length (ps_c s))). cbn. apply at_end.
    + intros y Hy. apply reach_heap in Hy. exact (A y Hy).
    + intros r [].
  - intros x e b H. cbn in H. apply end_cases in H as [H|[-> [= -> ->]]].
    + destruct e; try (apply (wt_mono s); eauto; congruence). destruct (B _ _ _ H) as (o & Ho & Hk). exists o. split; [cbn; now apply keep_end|exact Hk].
    + exists (mk_cobj k true left). split; [cbn; apply at_end|split; reflexivity].
  - intros x y p (k1 & b & H) (k2 & b' & H'). cbn in H, H'.
    assert (Rg : forall z q k' c, nth_error (ps_py s) z = Some (mk_pnode (Cdata k' q) c) -> q < length (ps_c s)).
    { intros z q k' c Hz. exact (cdata_range s z k' q I (ex_intro _ c Hz)). }
    apply end_cases in H as [H|[-> [= -> -> ->]]]; apply end_cases in H' as [H'|[-> H']].
    + apply (C x y p); [now exists k1, b|now exists k2, b'].
    + injection H' as -> -> ->. apply Rg in H. lia.
    + apply Rg in H'. lia.
    + reflexivity.
  - intros f h l k' ps n H Hf. cbn in H. destruct Hf as [b Hf]. cbn in Hf. apply end_cases in Hf as [Hf|[-> [=]]].
    destruct H as [<-|H].
    + exfalso. assert (length (ps_py s) < length (ps_py s)) by (apply nth_error_Some; congruence). lia.
    + apply (waits_mono s); auto; [|exact (D f h l k' ps n H (ex_intro _ b Hf))]. intros xs [b' Hx]. exists b'. cbn. now apply keep_end.
  - intros p o H. cbn in H. apply end_cases in H as [H|[-> ->]].
    + destruct (E p o H) as [x [b Hx]]. exists x, b. cbn. now apply keep_end.
    + exists (length (ps_py s)), true. cbn. apply at_end.
Qed.

Lemma root_range s x : Inv s -> In x (ps_roots s) -> x < length (ps_py s).
Proof. intros I H. destruct (i_live s I x (R_root s x H)) as [d E]. apply nth_error_Some. congruence. Qed.
Lemma remove_out (l : list nat) x : ~ In x l -> remove Nat.eq_dec x l = l.
Proof. apply notin_remove. Qed.
(* the holder of the new owner *)
Lemma own_steps s k left w : Inv s -> 
  new_py (new_c s (mk_cobj k true left)) [Cdata k (length (ps_c s)); w] (S (length (ps_py s))) =
  drop (new_py (add_cdata s k left) [w] (length (ps_py (add_cdata s k left)))) (length (ps_py s)).
Proof.
  intro I. assert (N : ~ In (length (ps_py s)) (ps_roots s)) by (intro H; apply (root_range s _ I) in H; lia).
  unfold drop, add_cdata. unfold new_py, new_c. cbn [ps_c ps_py ps_roots map].
  rewrite app_length, <- app_assoc. cbn [length app]. rewrite Nat.add_1_r. cbn [remove].
  destruct (Nat.eq_dec (length (ps_py s)) (S (length (ps_py s)))) as [Q|_]; [lia|].
  destruct (Nat.eq_dec (length (ps_py s)) (length (ps_py s))) as [_|Q]; [|congruence].
  now rewrite remove_out by exact N.
Qed.
Lemma inv_held s k left w : Inv s -> (forall q r, w <> Cdata q r) -> refs w = [length (ps_py s)] -> wt (add_cdata s k left) w true ->
  is_frame w = false -> Inv (new_py (new_c s (mk_cobj k true left)) [Cdata k (length (ps_c s)); w] (S (length (ps_py s)))).
Proof.
  intros I N R W F. rewrite own_steps by exact I. apply inv_drop, inv_add; auto.
  - now apply inv_cdata.
  - rewrite R. intros r [<-|[]]. apply R_root. now left.
  - intros h l q ps n ->. discriminate.
Qed.
Lemma new_cdata s k left : has (add_cdata s k left) (length (ps_py s)) (Cdata k (length (ps_c s))).
Proof. exists true. cbn. apply at_end. Qed.
Lemma inv_own s k left sh : Inv s -> (k = CIterator -> forall m, sh = Some m -> left <= m) -> Inv (own s k left sh).
Proof.
  intros I L. apply inv_held; auto; try discriminate.
  cbn [wt]. exists (length (ps_c s)). split; [apply new_cdata|]. intros E m o Em Ho. cbn in Ho. rewrite at_end in Ho. injection Ho as <-.
  exact (L E m Em).
Qed.

(* another value for an object *)
Lemma inv_set s x d0 d : Inv s -> nth_error (ps_py s) x = Some (mk_pnode d0 true) -> fixed d0 = false -> fixed d = false ->
  (forall r, In r (refs d) -> reach s r) -> wt s d true ->
  (forall xs, d0 = PList xs -> ~ pending s x) ->
  (forall h l k ps n, d = Extracting h l k ps n false -> False) -> Inv (set_data s x d).
Proof.
  intros I H0 F0 Fd R W P Q. pose proof I as [A B C D E].
  assert (K : keeps s (set_data s x d)).
  { split; [|cbn; eauto]. intros y e [b H] Fe. exists b. cbn. rewrite set_nth_get. destruct (Nat.eqb_spec y x) as [->|]; [|exact H].
    rewrite H0 in H. injection H as <- <-. congruence. }
  constructor.
  - intros y H. apply reach_set in H; [|exact R]. destruct (A y H) as [e He]. unfold py_live. cbn. rewrite set_nth_get.
    destruct (Nat.eqb_spec y x) as [->|]; [rewrite H0; now exists d|now exists e].
  - intros y e b H. cbn in H. rewrite set_nth_get in H. destruct (Nat.eqb_spec y x) as [->|].
    + rewrite H0 in H. injection H as <- <-. apply (wt_mono s); auto. intros k p ->. discriminate.
    + destruct e; try (apply (wt_mono s); eauto; congruence). exact (B _ _ _ H).
  - assert (Z : forall y p, belongs (set_data s x d) p y -> belongs s p y).
    { intros y p (k & b & H). cbn in H. rewrite set_nth_get in H. destruct (Nat.eqb_spec y x) as [->|]; [|now exists k, b].
      rewrite H0 in H. injection H as -> _. discriminate. }
    intros y z p Hy Hz. apply (C y z p); now apply Z.
  - intros f h l k ps n H Hf. cbn in H. destruct Hf as [b Hf]. cbn in Hf. rewrite set_nth_get in Hf. destruct (Nat.eqb_spec f x) as [->|Nf].
    + rewrite H0 in Hf. injection Hf as -> _. now destruct (Q _ _ _ _ _ eq_refl).
    + apply (waits_mono s); auto; [|exact (D f h l k ps n H (ex_intro _ b Hf))].
      intros xs [b' Hx]. exists b'. cbn. rewrite set_nth_get. destruct (Nat.eqb_spec l x) as [->|]; [|exact Hx].
      exfalso. rewrite H0 in Hx. injection Hx as -> _. apply (P xs eq_refl). exists f, h, k, ps, n. split; [exact H|now exists b].
  - intros p o H. destruct (E p o H) as [y Hy]. exists y. now apply K.
Qed.

(* one result less in an iterator *)
Lemma inv_less s p o n : Inv s -> nth_error (ps_c s) p = Some o -> n <= co_left o ->
  Inv (mk_pstate (set_nth (ps_c s) p (mk_cobj (co_kind o) (co_live o) n)) (ps_py s) (ps_roots s)).
Proof.
  intros I Ho L. set (s' := mk_pstate _ _ _). pose proof I as [A B C D E].
  assert (K : keeps s s').
  { split; [intros x d H _; exact H|]. intros q o' _ H. cbn in H. rewrite set_nth_get in H. destruct (Nat.eqb_spec q p) as [->|]; [|eauto].
    rewrite Ho in H. injection H as <-. exists o. split; [exact Ho|exact L]. }
  constructor; auto.
  - intros x H. apply reach_heap in H. exact (A x H).
  - intros x d b H. destruct d as [k q| | | | | | | ]; try (apply (wt_mono s); eauto; congruence).
    destruct (B _ _ _ H) as (o1 & H1 & H2 & H3). cbn [wt]. cbn. rewrite set_nth_get. destruct (Nat.eqb_spec q p) as [->|]; [|now exists o1].
    rewrite Ho in *. injection H1 as <-. eexists. split; [reflexivity|]. split; [exact H2|exact H3].
  - intros q o' H. cbn in H. rewrite set_nth_get in H. destruct (Nat.eqb_spec q p) as [->|]; [|exact (E q o' H)].
    rewrite Ho in H. injection H as <-. exact (E p o Ho).
Qed.

(* the collector *)
Lemma inv_collect s x d h : Inv s -> nth_error (ps_py s) x = Some (mk_pnode d true) -> ~ reach s x ->
  (match owns d with
   | Some (k, p) => exists o, nth_error (ps_c s) p = Some o /\ h = set_nth (ps_c s) p (mk_cobj (co_kind o) false (co_left o))
   | None => h = ps_c s
   end) -> Inv (mk_pstate h (set_nth (ps_py s) x (mk_pnode d false)) (ps_roots s)).
Proof.
  intros I Hx NR Hh. set (s' := mk_pstate _ _ _). pose proof I as [A B C D E].
  assert (Hs : forall y e, has s y e -> has s' y e).
  { intros y e [b H]. unfold has. cbn. rewrite set_nth_get. destruct (Nat.eqb_spec y x) as [->|]; [|now exists b].
    rewrite Hx in *. injection H as <- <-. now exists false. }
  assert (Hb : forall y e, has s' y e -> has s y e).
  { intros y e [b H]. cbn in H. rewrite set_nth_get in H. destruct (Nat.eqb_spec y x) as [->|]; [|now exists b].
    rewrite Hx in H. injection H as <- <-. now exists true. }
  assert (Hc : forall p o', nth_error h p = Some o' -> exists o, nth_error (ps_c s) p = Some o /\ co_kind o' = co_kind o /\ co_left o' = co_left o).
  { intros p o' H. destruct (owns d) as [[k q]|]; [|subst h; eauto]. destruct Hh as (o & Ho & ->). rewrite set_nth_get in H.
    destruct (Nat.eqb_spec p q) as [->|]; [|eauto]. rewrite Ho in H. injection H as <-. eauto. }
  assert (K : keeps s s').
  { split; [auto|]. intros p o' _ H. destruct (Hc p o' H) as (o & Ho & _ & El). exists o. split; [exact Ho|lia]. }
  assert (Rs : forall y, reach s' y -> reach s y).
  { induction 1 as [y H|z n y _ IH H1 H2]; [now apply R_root|]. cbn in H1. rewrite set_nth_get in H1.
    destruct (Nat.eqb_spec z x) as [->|]; [now destruct (NR IH)|exact (R_ref _ z n y IH H1 H2)]. }
  constructor.
  - intros y H. apply Rs in H. destruct (A y H) as [e He]. exists e. cbn. rewrite set_nth_get. destruct (Nat.eqb_spec y x) as [->|]; [now destruct (NR H)|exact He].
  - intros y e b H. cbn in H. rewrite set_nth_get in H.
    assert (Hy : exists b0, nth_error (ps_py s) y = Some (mk_pnode e b0) /\ (y = x -> e = d /\ b = false) /\ (y <> x -> b0 = b)).
    { destruct (Nat.eqb_spec y x) as [->|Ne]; [rewrite Hx in H; injection H as <- <-; exists true; auto; split; [exact Hx|split; [auto|congruence]]|].
      exists b. split; [exact H|]. split; [congruence|auto]. }
    destruct Hy as (b0 & Hy & Y1 & Y2). pose proof (B _ _ _ Hy) as W.
    destruct e as [k p| | | | | | | ]; try (apply (wt_mono s s' _ b I K); [congruence|exact W]).
    destruct W as (o & Ho & Hk & Hl). cbn [wt]. cbn. destruct (Nat.eq_dec y x) as [->|Ne].
    + destruct (Y1 eq_refl) as [<- ->]. cbn [owns] in Hh. destruct Hh as (o' & Ho' & ->). rewrite Ho in Ho'. injection Ho' as <-.
      eexists. rewrite set_nth_get, Nat.eqb_refl, Ho. split; [reflexivity|]. split; [exact Hk|reflexivity].
    + rewrite (Y2 Ne) in *. destruct d as [k' q| | | | | | | ]; cbn [owns] in Hh; try (rewrite Hh; exists o; split; [exact Ho|split; [exact Hk|exact Hl]]).
      destruct Hh as (o' & Ho' & ->). rewrite set_nth_get. destruct (Nat.eqb_spec p q) as [->|]; [|exists o; auto].
      exfalso. apply Ne. apply (C y x q); [now exists k, b|now exists k', true].
  - intros y z p (k & b & Hy) (k' & b' & Hz).
    destruct (Hb y (Cdata k p) (ex_intro _ b Hy)) as [b1 Y]. destruct (Hb z (Cdata k' p) (ex_intro _ b' Hz)) as [b2 Z].
    apply (C y z p); [now exists k, b1|now exists k', b2].
  - intros f g l k ps n H Hf. apply (waits_mono s); auto. exact (D f g l k ps n H (Hb _ _ Hf)).
  - intros p o' H. destruct (Hc p o' H) as (o & Ho & -> & _). destruct (E p o Ho) as [y Hy]. exists y. now apply Hs.
Qed.

(* ---- uses ---- *)
Lemma touch_ok s x k p : Inv s -> reach s x -> has s x (Cdata k p) ->
  exists o, nth_error (ps_c s) p = Some o /\ co_kind o = k /\ co_live o = true /\ c_touch (ps_c s) k p = Ok o.
Proof.
  intros I R [b H]. destruct (i_live s I x R) as [d E]. rewrite H in E. injection E as _ ->.
  destruct (i_typed s I _ _ _ H) as (o & Ho & Hk & Hl). exists o. unfold c_touch. rewrite Ho, Hk, Hl, ckind_refl. auto.
Qed.
Lemma reach_has s y d x : reach s y -> has s y d -> In x (refs d) -> reach s x.
Proof. intros R [b H] X. exact (R_ref s y _ x R H X). Qed.
Lemma live_has s x d : Inv s -> reach s x -> has s x d -> nth_error (ps_py s) x = Some (mk_pnode d true).
Proof. intros I R [b H]. destruct (i_live s I x R) as [e E]. rewrite H in E. injection E as -> ->. exact H. Qed.

Theorem step_ok s op o : Inv s -> quiet s op -> pstep s op o -> exists s', o = Ok s' /\ Inv s'.
Proof.
  intros I Q H. destruct H.
  - (* create *) eexists. split; [reflexivity|]. apply inv_own; auto. intros ->. cbn in H. intuition discriminate.
  - (* list *) eexists. split; [reflexivity|]. apply inv_add; auto; try discriminate; exact Logic.I.
  - (* setlist *) eexists. split; [reflexivity|]. apply (inv_set s x (PList l)); auto; try discriminate.
    + now apply live_has.
    + exact Logic.I.
  - (* hold *) eexists. split; [reflexivity|]. eapply inv_hold; eauto.
  - (* drop *) eexists. split; [reflexivity|]. now apply inv_drop.
  - (* extract *) eexists. split; [reflexivity|].
    assert (Rh : reach s hc) by (apply (reach_has s h _ hc H H0); now left).
    destruct (i_typed s I h _ _ (live_has s h _ I H H0)) as (p & Hp & _).
    apply inv_add; auto; try discriminate.
    + intros r [<-|[<-|[]]]; auto.
    + now exists p.
    + intros h' l' k' ps' n' [= <- <- <- <- <-]. now exists xs.
  - (* copy *)
    pose proof (R_root s f H0) as Rf. destruct (i_pend s I _ _ _ _ _ _ H0 H) as (xs & Hl & F).
    assert (Rl : reach s l) by (apply (reach_has s f _ l Rf H); right; now left).
    assert (T : c_touch_all (ps_c s) k ps = Ok tt).
    { assert (Rx : forall x, In x xs -> reach s x) by (intros x Hx; exact (reach_has s l _ x Rl Hl Hx)). clear -F Rx I.
      induction F as [|x p xs ps (cd & sh & A & B) F IH]; [reflexivity|]. cbn [c_touch_all].
      assert (R : reach s cd) by (apply (reach_has s x _ cd (Rx x (or_introl eq_refl)) A); now left).
      destruct (touch_ok s cd k p I R B) as (o & _ & _ & _ & ->). cbn [obind]. apply IH. intros y Hy. apply Rx. now right. }
    rewrite T. eexists. split; [reflexivity|]. pose proof (live_has s f _ I Rf H) as Hf.
    apply (inv_set s f _ _ I Hf); auto; try discriminate.
    + intros r Hr. exact (reach_has s f _ r Rf H Hr).
    + exact (i_typed s I f _ _ Hf).
  - (* extracted *)
    pose proof (R_root s f H0) as Rf. assert (Rh : reach s h) by (apply (reach_has s f _ h Rf H); now left).
    destruct (touch_ok s h CHandle p I Rh H1) as (o & _ & _ & _ & ->). eexists. split; [reflexivity|].
    apply inv_own; [now apply inv_drop|]. intros _ m [= <-]. lia.
  - (* failed *)
    pose proof (R_root s f H0) as Rf. assert (Rh : reach s h) by (apply (reach_has s f _ h Rf H); now left).
    destruct (touch_ok s h CHandle p I Rh H1) as (o & _ & _ & _ & ->). eexists. split; [reflexivity|]. now apply inv_drop.
  - (* single *) eexists. split; [reflexivity|].
    assert (Rh : reach s hc) by (apply (reach_has s h _ hc H H0); now left).
    destruct (i_typed s I h _ _ (live_has s h _ I H H0)) as (p & Hp & _).
    apply inv_add; auto; try discriminate.
    + intros r [<-|[]]; auto.
    + now exists p.
  - (* single done *)
    pose proof (R_root s f H0) as Rf. assert (Rh : reach s h) by (apply (reach_has s f _ h Rf H); now left).
    destruct (touch_ok s h CHandle p I Rh H1) as (o & _ & _ & _ & ->). eexists. split; [reflexivity|].
    apply inv_own; [now apply inv_drop|]. discriminate.
  - (* single failed *)
    pose proof (R_root s f H0) as Rf. assert (Rh : reach s h) by (apply (reach_has s f _ h Rf H); now left).
    destruct (touch_ok s h CHandle p I Rh H1) as (o & _ & _ & _ & ->). eexists. split; [reflexivity|]. now apply inv_drop.
  - (* iter *) eexists. split; [reflexivity|]. destruct (i_typed s I it _ _ (live_has s it _ I H H0)) as (p & Hp & L).
    apply inv_add; auto; try discriminate.
    + intros r [<-|[]]; auto.
    + exists cd, sh, p. split; [exact H0|]. split; [exact Hp|exact (L eq_refl)].
  - (* next *)
    assert (Ri : reach s it) by (apply (reach_has s g _ it H H0); now left).
    assert (Rc : reach s cd) by (apply (reach_has s it _ cd Ri H1); now left).
    destruct (touch_ok s cd CIterator p I Rc H2) as (o & Ho & Hk & Hl & ->). cbn [obind].
    destruct (co_left o) as [|n] eqn:Lf; [now exists s|].
    pose proof (live_has s g _ I H H0) as Hg. destruct (i_typed s I g _ _ Hg) as (cd' & sh' & p' & G1 & G2 & G3).
    pose proof (has_fun _ _ _ _ H1 G1) as [= <- <-]. pose proof (has_fun _ _ _ _ H2 G2) as [= <-].
    assert (Lt : (match sh with Some m => Nat.ltb i m | None => true end) = true).
    { destruct sh as [m|]; [|reflexivity]. specialize (G3 m o eq_refl Ho). apply Nat.ltb_lt. lia. }
    rewrite Lt. eexists. split; [reflexivity|].
    assert (I1 : Inv (mk_pstate (set_nth (ps_c s) p (mk_cobj CIterator true n)) (ps_py s) (ps_roots s))).
    { pose proof (inv_less s p o n I Ho ltac:(lia)) as Q1. rewrite Hk, Hl in Q1. exact Q1. }
    apply inv_own; [|discriminate]. apply (inv_set _ g (Gen it i)); auto; try discriminate.
    + intros r [<-|[]]. now apply reach_heap.
    + exists cd, sh, p. split; [exact H1|]. split; [exact H2|]. intros m o' Em Ho'. cbn in Ho'. rewrite set_nth_get, Nat.eqb_refl, Ho in Ho'.
      injection Ho' as <-. cbn [co_left]. specialize (G3 m o Em Ho). lia.
  - (* read *)
    assert (Rc : reach s cd) by (apply (reach_has s r _ cd H H0); now left).
    destruct (touch_ok s cd CResult p I Rc H1) as (o & _ & _ & _ & ->). eexists. split; [reflexivity|].
    apply inv_held; auto; try discriminate. exists (length (ps_c s)). apply new_cdata.
  - (* look *)
    assert (Rc : reach s cd) by (apply (reach_has s v _ cd H H0); now left).
    destruct (touch_ok s cd CBuffer p I Rc H1) as (o & _ & _ & _ & ->). now exists s.
  - (* axes *) eexists. split; [reflexivity|]. destruct (i_typed s I h _ _ (live_has s h _ I H H0)) as (p & Hp & _).
    apply inv_add; auto; try discriminate.
    + intros r [<-|[]]; auto.
    + split; [|exact Logic.I]. now exists hc, sh, p.
  - (* axes new *)
    pose proof (R_root s f H0) as Rf. assert (Rh : reach s h) by (apply (reach_has s f _ h Rf H); now left).
    assert (Rc : reach s hc) by (apply (reach_has s h _ hc Rh H1); now left).
    destruct (touch_ok s hc CHandle p I Rc H2) as (o & _ & _ & _ & ->). eexists. split; [reflexivity|]. apply inv_drop.
    pose proof (live_has s f _ I Rf H) as Hf. pose proof (inv_cdata s CAxes 0 I) as I1.
    assert (Kp : forall x e, has s x e -> has (add_cdata s CAxes 0) x e).
    { intros x e [b Hx]. exists b. cbn. now apply keep_end. }
    apply (inv_set (add_cdata s CAxes 0) f (Axing h None)); auto; try discriminate.
    + cbn. now apply keep_end.
    + assert (Rf' : reach (add_cdata s CAxes 0) f) by (apply R_root; right; exact H0).
      intros r [<-|[<-|[]]].
      * apply (reach_has _ f _ h Rf' (Kp _ _ H)). now left.
      * apply R_root. now left.
    + split; [exists hc, sh, p; split; now apply Kp|]. exists (length (ps_c s)). apply new_cdata.
  - (* axes look *)
    pose proof (R_root s f H0) as Rf. assert (Ra : reach s a) by (apply (reach_has s f _ a Rf H); right; now left).
    destruct (touch_ok s a CAxes p I Ra H1) as (o & _ & _ & _ & ->). now exists s.
  - (* axes end *) eexists. split; [reflexivity|]. now apply inv_drop.
  - (* collect *)
    destruct (owns d) as [[k p]|] eqn:Od.
    + destruct d as [k' p'| | | | | | | ]; cbn in Od; try discriminate. injection Od as -> ->.
      destruct (i_typed s I _ _ _ H) as (o & Ho & Hk & Hl). unfold c_free, c_touch. rewrite Ho, Hk, Hl, ckind_refl. cbn [andb obind].
      eexists. split; [reflexivity|]. rewrite <- Hk. apply (inv_collect s x (Cdata (co_kind o) p)); auto; [now rewrite Hk|]. cbn [owns]. now exists o.
    + eexists. split; [reflexivity|]. apply (inv_collect s x d); auto. now rewrite Od.
Qed.

Lemma inv_start : Inv py_start.
Proof.
  assert (N : forall x, ~ reach py_start x).
  { intros x. induction 1 as [x H|y d x _ IH _ _]; [destruct H|exact IH]. }
  constructor.
  - intros x H. now destruct (N x).
  - intros [|x] d b H; discriminate.
  - intros [|x] y p (k & b & H); discriminate.
  - intros f h l k ps n [].
  - intros [|p] o H; discriminate.
Qed.
Lemma careful_inv s : careful s -> Inv s.
Proof.
  induction 1 as [|s op s' _ IH Q H]; [exact inv_start|]. destruct (step_ok s op _ IH Q H) as (s1 & [= <-] & I). exact I.
Qed.

Theorem life_safe s op o : careful s -> quiet s op -> pstep s op o -> exists s', o = Ok s'.
Proof. intros C Q H. destruct (step_ok s op o (careful_inv s C) Q H) as (s' & E & _). now exists s'. Qed.

(* what can be reached is there *)
Theorem life_kept s x k p : careful s -> reach s x -> has s x (Cdata k p) -> c_live s p.
Proof.
  intros C R H. destruct (touch_ok s x k p (careful_inv s C) R H) as (o & Ho & _ & Hl & _). now exists o.
Qed.
(* every C object has one owner, and lives as long as it *)
Theorem life_owned s p o : careful s -> nth_error (ps_c s) p = Some o ->
  exists x, (forall y, belongs s p y <-> y = x) /\ (co_live o = true <-> py_live s x).
Proof.
  intros C H. pose proof (careful_inv s C) as I. destruct (i_leak s I p o H) as [x [b Hx]]. exists x. split.
  - intro y. split; [intro Hy; apply (i_own s I y x p Hy); now exists (co_kind o), b|intros ->; now exists (co_kind o), b].
  - destruct (i_typed s I _ _ _ Hx) as (o' & Ho & _ & Hl). rewrite H in Ho. injection Ho as <-. unfold py_live. rewrite Hx. split.
    + intro L. rewrite L in Hl. subst b. eauto.
    + intros [d [= _ ->]]. exact Hl.
Qed.

(* a program that holds nothing leaves nothing behind *)
Fixpoint lives (l : list pnode) : nat := match l with [] => 0 | n :: r => (if pn_live n then 1 else 0) + lives r end.
Lemma lives_0 l : lives l = 0 -> forall x n, nth_error l x = Some n -> pn_live n = false.
Proof.
  induction l as [|a l IH]; cbn; intros E [|x] n H; try discriminate.
  - injection H as <-. destruct (pn_live a); [discriminate|reflexivity].
  - apply (IH ltac:(destruct (pn_live a); lia) x n H).
Qed.
Lemma lives_pos l m : lives l = S m -> exists x d, nth_error l x = Some (mk_pnode d true).
Proof.
  induction l as [|a l IH]; cbn; intro E; [discriminate|]. destruct a as [d [|]]; cbn in E.
  - now exists 0, d.
  - destruct (IH E) as (x & d' & H). now exists (S x), d'.
Qed.
Lemma lives_dead l x d : nth_error l x = Some (mk_pnode d true) -> lives l = S (lives (set_nth l x (mk_pnode d false))).
Proof.
  revert x. induction l as [|a l IH]; intros [|x] H; cbn in *; try discriminate.
  - injection H as ->. reflexivity.
  - rewrite (IH x H). lia.
Qed.
Theorem life_all_freed s : careful s -> ps_roots s = [] ->
  exists ops s', psteps s ops s' /\ only_collects ops /\ (forall x, ~ py_live s' x) /\ (forall p, ~ c_live s' p).
Proof.
  intros C. pose proof (careful_inv s C) as I. clear C. remember (lives (ps_py s)) as m eqn:Em. revert s I Em.
  induction m as [|m IH]; intros s I Em Hr.
  - exists [], s. split; [constructor|]. split; [intros op []|]. assert (N : forall x, ~ py_live s x).
    { intros x [d H]. pose proof (lives_0 _ (eq_sym Em) x _ H) as Q. discriminate. }
    split; [exact N|]. intros p (o & Ho & Hl). destruct (i_leak s I p o Ho) as [x [b Hx]].
    destruct (i_typed s I _ _ _ Hx) as (o' & Ho' & _ & Hb). rewrite Ho in Ho'. injection Ho' as <-. rewrite Hl in Hb. subst b. apply (N x). now exists (Cdata (co_kind o) p).
  - destruct (lives_pos _ _ (eq_sym Em)) as (x & d & Hx).
    assert (NR : ~ reach s x).
    { assert (N : forall y, ~ reach s y); [|apply N]. intros y. induction 1 as [y H|z e y _ Q _ _]; [rewrite Hr in H; destruct H|exact Q]. }
    pose proof (S_collect s x d Hx NR) as St. destruct (step_ok s (PCollect x) _ I Logic.I St) as (s1 & E1 & I1). rewrite E1 in St.
    assert (P1 : ps_py s1 = set_nth (ps_py s) x (mk_pnode d false) /\ ps_roots s1 = ps_roots s).
    { destruct (owns d) as [[k p]|]; [destruct (c_free (ps_c s) k p); cbn in E1; try discriminate|]; injection E1 as <-; split; reflexivity. }
    destruct P1 as [P1 P2].
    destruct (IH s1 I1) as (ops & s' & Hs & Ho & Hn); [rewrite P1; rewrite (lives_dead _ _ _ Hx) in Em; congruence|now rewrite P2|].
    exists (PCollect x :: ops), s'. split; [exact (PS_cons s _ s1 ops s' St Hs)|]. split; [|exact Hn].
    intros op [<-|H]; [now exists x|now apply Ho].
Qed.

(* ---- what is not reached, by a closed set ---- *)
Definition closed (s : pstate) (S : list nat) : bool :=
  forallb (fun r => existsb (Nat.eqb r) S) (ps_roots s) &&
  forallb (fun y => match nth_error (ps_py s) y with
                    | Some n => forallb (fun r => existsb (Nat.eqb r) S) (refs (pn_data n))
                    | None => true
                    end) S.
Lemma in_list (S : list nat) r : existsb (Nat.eqb r) S = true -> In r S.
Proof. intro H. apply existsb_exists in H as (x & Hx & E). apply Nat.eqb_eq in E. now subst. Qed.
Lemma reach_in s S x : closed s S = true -> reach s x -> In x S.
Proof.
  unfold closed. intros H R. apply andb_true_iff in H as [H1 H2]. rewrite forallb_forall in H1, H2.
  induction R as [x Hx|y d x _ IH Hy Hx]; [apply in_list, H1, Hx|].
  specialize (H2 y IH). rewrite Hy in H2. rewrite forallb_forall in H2. apply in_list, H2, Hx.
Qed.

Ltac held := first [apply R_root; cbn; tauto | eapply R_ref; [apply R_root; cbn; tauto|reflexivity|cbn; tauto]
  | eapply R_ref; [eapply R_ref; [apply R_root; cbn; tauto|reflexivity|cbn; tauto]|reflexivity|cbn; tauto]].
Ltac there := eexists; reflexivity.
Ltac unheld S := let H := fresh in intro H; apply (reach_in _ S) in H; [cbn in H; intuition discriminate|reflexivity].

Lemma go s op o s1 ops s2 : pstep s op o -> o = Ok s1 -> psteps s1 ops s2 -> psteps s (op :: ops) s2.
Proof. intros H -> Hs. exact (PS_cons s op s1 ops s2 H Hs). Qed.
Ltac done := vm_compute; reflexivity.

(* a request collected while gribjump_extract is about to copy it *)
Theorem life_refuted : exists s, psteps py_start life_program s /\ pstep s (PCopy 5) UB.
Proof.
  eexists. split.
  - unfold life_program.
    eapply go; [apply S_create; cbn; tauto|done|].
    eapply go; [apply S_create; cbn; tauto|done|].
    eapply go; [apply S_list; intros x [<-|[]]; held|done|].
    eapply go; [eapply S_drop; [there|reflexivity]|done|].
    eapply go; [eapply (S_extract _ 1 0 4 [3] CRequest [1]); [held|there|held|there|cbn; tauto|repeat constructor; eexists _, _; split; there]|done|].
    eapply go; [eapply (S_setlist _ 4 [3]); [held|there|intros y []]|done|].
    eapply go; [eapply (S_collect _ 3); [reflexivity|unheld [5; 0; 4; 1]]|done|].
    eapply go; [eapply (S_collect _ 2); [reflexivity|unheld [5; 0; 4; 1]]|done|].
    apply PS_nil.
  - match goal with |- pstep ?s _ _ => pose proof (S_copy s 5 0 4 CRequest [1] 1) as H end. vm_compute in H. apply H; [there|tauto].
Qed.

(* everything else is dropped as soon as it can be *)
Theorem life_example : exists s, psteps py_start life_good s /\ Forall (fun n => pn_live n = false) (firstn 10 (ps_py s)) /\
  ps_c s = [mk_cobj CHandle false 0; mk_cobj CRequest false 0; mk_cobj CIterator false 0; mk_cobj CResult false 0; mk_cobj CBuffer true 0].
Proof.
  eexists. split.
  - unfold life_good.
    eapply go; [apply S_create; cbn; tauto|done|].
    eapply go; [apply S_create; cbn; tauto|done|].
    eapply go; [apply S_list; intros x [<-|[]]; held|done|].
    eapply go; [eapply (S_extract _ 1 0 4 [3] CRequest [1]); [held|there|held|there|cbn; tauto|repeat constructor; eexists _, _; split; there]|done|].
    eapply go; [eapply S_drop; [there|reflexivity]|done|].
    eapply go; [eapply S_drop; [there|reflexivity]|done|].
    eapply go; [eapply S_drop; [there|reflexivity]|done|].
    eapply go; [eapply S_collect; [reflexivity|unheld [5; 0; 4; 3; 2]]|done|].
    eapply go; [eapply S_copy; [there|cbn; tauto]|done|].
    eapply go; [eapply S_extracted; [there|cbn; tauto|there]|done|].
    eapply go; [eapply S_collect; [reflexivity|unheld [7; 6]]|done|].
    eapply go; [eapply S_collect; [reflexivity|unheld [7; 6]]|done|].
    eapply go; [eapply S_collect; [reflexivity|unheld [7; 6]]|done|].
    eapply go; [eapply S_collect; [reflexivity|unheld [7; 6]]|done|].
    eapply go; [eapply S_collect; [reflexivity|unheld [7; 6]]|done|].
    eapply go; [eapply S_iter; [held|there]|done|].
    eapply go; [eapply S_drop; [there|reflexivity]|done|].
    eapply go; [eapply S_next; [held|there|there|there]|done|].
    eapply go; [eapply S_drop; [there|reflexivity]|done|].
    eapply go; [eapply S_collect; [reflexivity|unheld [10; 9]]|done|].
    eapply go; [eapply S_collect; [reflexivity|unheld [10; 9]]|done|].
    eapply go; [eapply S_collect; [reflexivity|unheld [10; 9]]|done|].
    eapply go; [eapply S_read; [held|there|there]|done|].
    eapply go; [eapply S_drop; [there|reflexivity]|done|].
    eapply go; [eapply S_collect; [reflexivity|unheld [12; 11]]|done|].
    eapply go; [eapply S_collect; [reflexivity|unheld [12; 11]]|done|].
    eapply go; [eapply S_look; [held|there|there]|done|].
    apply PS_nil.
  - vm_compute. split; [repeat constructor|reflexivity].
Qed.
