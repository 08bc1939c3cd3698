(* Lemmas about the vocabulary of Base.v *)
From Verif Require Import Base.
From Coq Require Export Lia ZifyBool ZifyNat ZifyN Permutation Sorted.
Ltac Zify.zify_post_hook ::= Z.div_mod_to_equations.

Lemma w64_small x : (x < two64)%N -> w64 x = x.
Proof. unfold w64, two64. intros. lia. Qed.

Lemma w64_lt x : (w64 x < two64)%N.
Proof. unfold w64, two64. lia. Qed.

Lemma w64_idem x : w64 (w64 x) = w64 x.
Proof. apply w64_small, w64_lt. Qed.

Lemma add64_small a b : (a + b < two64)%N -> add64 a b = (a + b)%N.
Proof. intros. unfold add64. now apply w64_small. Qed.

Lemma sub64_small a b : (b <= a)%N -> (a < two64)%N -> sub64 a b = (a - b)%N.
Proof. unfold sub64, w64, two64. intros. lia. Qed.

Lemma sub64_lt a b : (sub64 a b < two64)%N.
Proof. apply w64_lt. Qed.

Lemma mul64_small a b : (a * b < two64)%N -> mul64 a b = (a * b)%N.
Proof. intros. unfold mul64. now apply w64_small. Qed.

(* ---- slice ---- *)
Lemma slice_length {A} (l : list A) o n :
  o + n <= length l -> length (slice l o n) = n.
Proof. intros. unfold slice. rewrite firstn_length, skipn_length. lia. Qed.

Lemma skipn_skipn' {A} (l : list A) a b : skipn a (skipn b l) = skipn (b + a) l.
Proof.
  revert l; induction b; intros; simpl; auto.
  destruct l; simpl; auto. now rewrite skipn_nil.
Qed.

Lemma firstn_skipn_comm' {A} (l : list A) m n : firstn m (skipn n l) = skipn n (firstn (n + m) l).
Proof. apply firstn_skipn_comm. Qed.

Lemma slice_slice {A} (l : list A) o n a b :
  a + b <= n -> slice (slice l o n) a b = slice l (o + a) b.
Proof.
  intros. unfold slice.
  rewrite <- (skipn_skipn' l a o).
  remember (skipn o l) as k. clear Heqk.
  rewrite (firstn_skipn_comm b a (firstn n k)).
  rewrite firstn_firstn. replace (Nat.min (a + b) n) with (a + b) by lia.
  now rewrite <- firstn_skipn_comm.
Qed.

Lemma nth_error_firstn {A} (l : list A) n i :
  i < n -> nth_error (firstn n l) i = nth_error l i.
Proof.
  revert l i; induction n; intros; try lia.
  destruct l; simpl. { now destruct i. }
  destruct i; simpl; auto. apply IHn. lia.
Qed.

Lemma nth_error_skipn {A} (l : list A) n i :
  nth_error (skipn n l) i = nth_error l (n + i).
Proof.
  revert l; induction n; intros; simpl; auto.
  destruct l; simpl; auto. now destruct i.
Qed.

Lemma nth_error_slice {A} (l : list A) o n i :
  i < n -> nth_error (slice l o n) i = nth_error l (o + i).
Proof. intros. unfold slice. rewrite nth_error_firstn by auto. apply nth_error_skipn. Qed.

Lemma nth_error_ext' {A} (l1 l2 : list A) :
  length l1 = length l2 ->
  (forall i, i < length l1 -> nth_error l1 i = nth_error l2 i) -> l1 = l2.
Proof.
  revert l2; induction l1; destruct l2; simpl; intros; try lia; auto.
  f_equal. { specialize (H0 0). simpl in H0. assert (Some a = Some a0) by (apply H0; lia). congruence. }
  apply IHl1; [lia|]. intros i Hi. apply (H0 (S i)). lia.
Qed.

(* ---- mapM ---- *)
Lemma mapM_ok_ext {A B} (f : A -> outcome B) (g : A -> B) l :
  Forall (fun x => f x = Ok (g x)) l -> mapM f l = Ok (map g l).
Proof.
  induction 1; simpl; auto. rewrite H. simpl. rewrite IHForall. reflexivity.
Qed.

Lemma mapM_ok_inv {A B} (f : A -> outcome B) l r :
  mapM f l = Ok r -> Forall2 (fun x y => f x = Ok y) l r.
Proof.
  revert r; induction l; simpl; intros r H.
  - inversion H. constructor.
  - destruct (f a) eqn:E; simpl in H; try discriminate.
    destruct (mapM f l) eqn:E2; simpl in H; try discriminate.
    inversion H; subst. constructor; auto.
Qed.

Lemma mapM_app {A B} (f : A -> outcome B) l1 l2 :
  mapM f (l1 ++ l2) = (let* a := mapM f l1 in let* b := mapM f l2 in Ok (a ++ b)).
Proof.
  induction l1; simpl.
  - destruct (mapM f l2); reflexivity.
  - destruct (f a); simpl; auto. rewrite IHl1.
    destruct (mapM f l1); simpl; auto. destruct (mapM f l2); simpl; auto.
Qed.

Lemma obind_ok_inv {A B} (x : outcome A) (f : A -> outcome B) b :
  obind x f = Ok b -> exists a, x = Ok a /\ f a = Ok b.
Proof. destruct x; simpl; intros; try discriminate. eauto. Qed.

(* ---- Forall2 ---- *)
Lemma Forall2_impl {A B} (P Q : A -> B -> Prop) l1 l2 :
  (forall a b, P a b -> Q a b) -> Forall2 P l1 l2 -> Forall2 Q l1 l2.
Proof. intros H. induction 1; constructor; auto. Qed.

Lemma Forall2_length {A B} (P : A -> B -> Prop) l1 l2 : Forall2 P l1 l2 -> length l1 = length l2.
Proof. induction 1; simpl; auto. Qed.

Lemma Forall2_nth {A B} (P : A -> B -> Prop) l1 l2 : Forall2 P l1 l2 ->
  forall i a b, nth_error l1 i = Some a -> nth_error l2 i = Some b -> P a b.
Proof.
  induction 1; intros [|i] a b Ha Hb; simpl in *; try discriminate.
  - injection Ha as <-. injection Hb as <-. auto.
  - eauto.
Qed.

Lemma Forall2_map_r {A B C} (P : A -> B -> Prop) (f : C -> B) l1 l2 :
  Forall2 (fun a c => P a (f c)) l1 l2 -> Forall2 P l1 (map f l2).
Proof. induction 1; simpl; auto. Qed.

Lemma Forall2_same {A} (P : A -> A -> Prop) l : Forall (fun a => P a a) l -> Forall2 P l l.
Proof. induction 1; auto. Qed.

Lemma obind_ext {A B} (x : outcome A) (f g : A -> outcome B) : (forall a, f a = g a) -> obind x f = obind x g.
Proof. intros H. destruct x; simpl; auto. Qed.
