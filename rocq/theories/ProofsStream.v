From Coq Require Import Lia.
From Verif Require Import Base BaseLemmas ModelInfo ModelStream SpecStream.
Local Open Scope nat_scope.

Section Proofs.
Context {F : Type}.
Notation stream := (list (tok F)).

Lemma app_split {A} (a b c d : list A) : a ++ b = c ++ d -> length c < length a -> exists e, a = c ++ e /\ e <> [] /\ d = e ++ b.
Proof.
  revert c; induction a as [|x a IH]; intros c H L; simpl in L; [lia|].
  destruct c as [|y c]; simpl in *.
  - exists (x :: a). subst. repeat split; auto. discriminate.
  - injection H as <- H. apply IH in H as (e & -> & N & E); [|lia]. eauto.
Qed.

Lemma app_split_ge {A} (a b c d : list A) : a ++ b = c ++ d -> length a <= length c -> exists e, c = a ++ e /\ b = e ++ d.
Proof.
  revert c; induction a as [|x a IH]; intros c H L; simpl in *.
  - subst. eauto.
  - destruct c as [|y c]; simpl in *; [lia|]. injection H as <- H. apply IH in H as (e & -> & E); [|lia]. eauto.
Qed.

Lemma exact_bind {A B} (f : @reader F A) (g : A -> @reader F B) w w' a b :
  exact f w a -> exact (g a) w' b -> exact (fun s => let* (x, s) := f s in g x s) (w ++ w') b.
Proof.
  intros [F1 F2] [G1 G2]. split.
  - intros rest. rewrite <- app_assoc, F1. simpl. apply G1.
  - intros p q E N. destruct (Nat.lt_ge_cases (length p) (length w)) as [L|L].
    + destruct (app_split _ _ _ _ E L) as (e & E1 & N1 & _). destruct (F2 p e E1 N1) as [H1 H2].
      rewrite H1, H2. auto.
    + destruct (app_split_ge _ _ _ _ E L) as (e & -> & E2). destruct (G2 e q E2 N) as [H1 H2].
      rewrite <- app_assoc, !F1. simpl. auto.
Qed.

Lemma exact_ret {A} (v : A) : exact (fun s : stream => Ok (v, s)) [] v.
Proof. split; auto. intros p q E N. destruct p, q; try discriminate. congruence. Qed.

Lemma exact_ext {A} (f g : @reader F A) w v : (forall s, f s = g s) -> exact f w v -> exact g w v.
Proof. intros H [H1 H2]. split; intros; rewrite <- ?H; auto. eapply H2; eauto. Qed.

Lemma exact_one {A} (f : @reader F A) t v :
  (forall r, f (t :: r) = Ok (v, r)) -> f [] = Throw EStream -> f [KTorn] = Throw EStream -> exact f [t] v.
Proof.
  intros H1 H2 H3. split; [exact H1|]. intros p q E N. destruct p as [|x p]; simpl in *; auto.
  injection E as <- E. destruct p, q; try discriminate. congruence.
Qed.

Lemma exact_u8 n : exact (@r_u8 F) [KU8 n] n. Proof. now apply exact_one. Qed.
Lemma exact_u16 n : exact (@r_u16 F) [KU16 n] n. Proof. now apply exact_one. Qed.
Lemma exact_ulong n : exact (@r_ulong F) [KULong n] n. Proof. now apply exact_one. Qed.
Lemma exact_long n : exact (@r_long F) [KLong n] n. Proof. now apply exact_one. Qed.
Lemma exact_ll n : exact (@r_ll F) [KLL n] n. Proof. now apply exact_one. Qed.
Lemma exact_int n : exact (@r_int F) [KInt n] n. Proof. now apply exact_one. Qed.
Lemma exact_bool n : exact (@r_bool F) [KBool n] n. Proof. now apply exact_one. Qed.
Lemma exact_double n : exact (@r_double F) [KDouble n] n. Proof. now apply exact_one. Qed.
Lemma exact_str n : exact (@r_str F) [KStr n] n. Proof. now apply exact_one. Qed.
Lemma exact_words n : exact (@r_words F) [KWords n] n. Proof. now apply exact_one. Qed.
Lemma exact_doubles n : exact (@r_doubles F) [KDoubles n] n. Proof. now apply exact_one. Qed.
Lemma exact_end : exact (@s_end F) [KEnd] tt. Proof. now apply exact_one. Qed.

(* reading a sequence of elements, each at least one token long *)
Lemma exact_times {A B} (f : @reader F A) (w : B -> stream) (v : B -> A) l :
  Forall (fun x => exact f (w x) (v x)) l -> exact (r_times (length l) f) (concat (map w l)) (map v l).
Proof.
  induction 1 as [|x l Hx Hl IH]; simpl; [apply exact_ret|].
  apply (exact_bind f (fun x s => let* (l, s) := r_times (length l) f s in Ok (x :: l, s)) _ _ _ _ Hx).
  rewrite <- (app_nil_r (concat (map w l))).
  exact (exact_bind _ (fun l s => Ok (v x :: l, s)) _ _ _ _ IH (exact_ret _)).
Qed.

Lemma concat_min {B} (w : B -> stream) l : Forall (fun x => w x <> []) l -> length l <= length (concat (map w l)).
Proof.
  induction 1; simpl; auto. rewrite app_length. destruct (w x); [congruence|]. simpl. lia.
Qed.

Lemma times_less {A} (f : @reader F A) e n : forall m s, m <= n -> r_times n f s = Throw e ->
  r_times m f s = Throw e \/ exists v, r_times m f s = Ok v.
Proof.
  induction n as [|n IH]; intros m s L H; [discriminate|].
  destruct m as [|m]; [right; eexists; reflexivity|]. cbn [r_times] in *.
  destruct (f s) as [[x s1]| |]; cbn [obind] in *; try discriminate; auto.
  assert (L' : m <= n) by lia.
  destruct (r_times n f s1) as [[l s2]|e1|] eqn:E; cbn [obind] in *; try discriminate. injection H as ->.
  destruct (IH m s1 L' E) as [->|[[l s2] ->]]; cbn [obind]; eauto.
Qed.

Lemma exact_count {A B} (f : @reader F A) (w : B -> stream) (v : B -> A) l :
  Forall (fun x => w x <> []) l -> Forall (fun x => exact f (w x) (v x)) l ->
  exact (r_count (lenN l) f) (concat (map w l)) (map v l).
Proof.
  intros H1 H2. pose proof (exact_times f w v l H2) as [T1 T2]. pose proof (concat_min w l H1) as L.
  unfold r_count, lenN. rewrite Nat2N.id. split.
  - intros rest. destruct (N.leb_spec (N.of_nat (length l)) (N.of_nat (length (concat (map w l) ++ rest)))) as [|G]; auto.
    rewrite app_length in G. lia.
  - intros p q E N. destruct (T2 p q E N) as [P1 P2].
    assert (X : forall s, r_times (length l) f s = Throw EStream ->
      (if (N.of_nat (length l) <=? N.of_nat (length s))%N then r_times (length l) f s
       else let* _ := r_times (S (length s)) f s in Throw EStream) = Throw EStream).
    { intros s Hs. destruct (N.leb_spec (N.of_nat (length l)) (N.of_nat (length s))) as [G|G]; [exact Hs|].
      destruct (times_less f EStream (length l) (S (length s)) s ltac:(lia) Hs) as [->|[x ->]]; reflexivity. }
    auto.
Qed.

Lemma concat_singles {B} (t : B -> tok F) l : concat (map (fun x => [t x]) l) = map t l.
Proof. induction l; simpl; f_equal; auto. Qed.

Lemma exact_vec l : exact r_vec (@w_vec F l) l.
Proof.
  unfold w_vec, r_vec. change (KULong (lenN l) :: map KULong l) with ([KULong (lenN l)] ++ map (@KULong F) l).
  apply (exact_bind r_ulong (fun n => r_count n r_ulong) _ _ (lenN l)); [apply exact_ulong|].
  rewrite <- concat_singles. rewrite <- (map_id l) at 3.
  apply exact_count; apply Forall_forall; intros; [discriminate|apply exact_ulong].
Qed.

Lemma exact_offsets l : exact r_offsets (@w_offsets F l) l.
Proof.
  unfold w_offsets, r_offsets. change (KULong (lenN l) :: map KLL l) with ([KULong (lenN l)] ++ map (@KLL F) l).
  apply (exact_bind r_ulong (fun n => r_count n r_ll) _ _ (lenN l)); [apply exact_ulong|].
  rewrite <- concat_singles. rewrite <- (map_id l) at 3.
  apply exact_count; apply Forall_forall; intros; [discriminate|apply exact_ll].
Qed.

Lemma exact_base (i : info F) c : exact (r_base c) (w_base i) (with_class i c).
Proof.
  unfold w_base, r_base.
  apply (exact_bind r_u8 (fun v s => _) [_] _ _ _ (exact_u8 _)).
  apply (exact_bind r_double (fun v s => _) [_] _ _ _ (exact_double _)).
  apply (exact_bind r_long (fun v s => _) [_] _ _ _ (exact_long _)).
  apply (exact_bind r_long (fun v s => _) [_] _ _ _ (exact_long _)).
  apply (exact_bind r_ulong (fun v s => _) [_] _ _ _ (exact_ulong _)).
  apply (exact_bind r_ulong (fun v s => _) [_] _ _ _ (exact_ulong _)).
  apply (exact_bind r_ll (fun v s => _) [_] _ _ _ (exact_ll _)).
  apply (exact_bind r_ll (fun v s => _) [_] _ _ _ (exact_ll _)).
  apply (exact_bind r_ll (fun v s => _) [_] _ _ _ (exact_ll _)).
  apply (exact_bind r_ulong (fun v s => _) [_] _ _ _ (exact_ulong _)).
  apply (exact_bind r_ulong (fun v s => _) [_] _ _ _ (exact_ulong _)).
  apply (exact_bind r_ll (fun v s => _) [_] _ _ _ (exact_ll _)).
  apply (exact_bind r_long (fun v s => _) [_] _ _ _ (exact_long _)).
  apply (exact_bind r_str (fun v s => _) [_] _ _ _ (exact_str _)).
  apply (exact_bind r_str (fun v s => _) [_] [] _ _ (exact_str _)).
  apply exact_ret.
Qed.

Lemma with_own_class (i : info F) : with_class i (i_class i) = i.
Proof. destruct i; reflexivity. Qed.

Lemma exact_body (i : info F) : exact (r_body (class_name (i_class i))) (w_base i ++ w_class (i_class i)) i.
Proof.
  destruct (i_class i) as [|f b r o|] eqn:E; cbn [class_name w_class].
  - rewrite app_nil_r. change (@r_body F "SimpleInfo") with (@r_base F SimpleInfo).
    pose proof (exact_base i SimpleInfo) as H. rewrite <- E, with_own_class in H. rewrite <- E. exact H.
  - change (@r_body F "CcsdsInfo") with (fun s : stream =>
      let* (i, s) := r_base SimpleInfo s in
      let* (f, s) := r_ulong s in
      let* (b, s) := r_ulong s in
      let* (r, s) := r_ulong s in
      let* (o, s) := r_vec s in
      Ok (with_class i (CcsdsInfo f b r o), s)).
    apply (exact_bind (r_base SimpleInfo) (fun v s => _) _ _ _ _ (exact_base i SimpleInfo)).
    apply (exact_bind r_ulong (fun v s => _) [_] _ _ _ (exact_ulong _)).
    apply (exact_bind r_ulong (fun v s => _) [_] _ _ _ (exact_ulong _)).
    apply (exact_bind r_ulong (fun v s => _) [_] _ _ _ (exact_ulong _)).
    cbn [app]. rewrite <- (app_nil_r (w_vec o)).
    apply (exact_bind r_vec (fun v s => _) _ [] _ _ (exact_vec o)).
    replace (with_class (with_class i SimpleInfo) (CcsdsInfo f b r o)) with i; [apply exact_ret|].
    rewrite <- E. destruct i; reflexivity.
  - rewrite app_nil_r. change (@r_body F "UnsupportedInfo") with (@r_base F UnsupportedInfo).
    pose proof (exact_base i UnsupportedInfo) as H. rewrite <- E, with_own_class in H. rewrite <- E. exact H.
Qed.

(* what follows the start tag *)
Definition w_info_tail (i : info F) : stream :=
  [KStr (class_name (i_class i))] ++ (w_base i ++ w_class (i_class i)) ++ [KEnd].

Lemma w_info_eq (i : info F) : w_info i = KStart :: w_info_tail i.
Proof. unfold w_info, w_info_tail. rewrite <- (app_assoc (w_base i)). reflexivity. Qed.

Definition r_info_tail : @reader F (option (info F)) := fun s =>
  let* (name, s) := r_str s in
  let* (i, s) := r_body name s in
  let* (_, s) := s_end s in
  Ok (Some i, s).

Lemma exact_info_tail (i : info F) : exact r_info_tail (w_info_tail i) (Some i).
Proof.
  unfold w_info_tail, r_info_tail.
  apply (exact_bind r_str (fun v s => _) [_] _ _ _ (exact_str _)).
  apply (exact_bind (r_body _) (fun v s => _) _ _ _ _ (exact_body i)).
  apply (exact_bind s_end (fun v s => _) [_] [] _ _ exact_end).
  apply exact_ret.
Qed.

Lemma r_info_start s : r_info (KStart :: s) = r_info_tail s.
Proof. reflexivity. Qed.

Lemma info_roundtrip (i : info F) rest : r_info (w_info i ++ rest) = Ok (Some i, rest).
Proof. rewrite w_info_eq. cbn [app]. rewrite r_info_start. apply exact_info_tail. Qed.

(* several descriptions one after another *)
Lemma infos_roundtrip (l : list (info F)) rest :
  r_times (length l) r_info (concat (map w_info l) ++ rest) = Ok (map Some l, rest).
Proof.
  revert rest; induction l; cbn [length r_times map concat]; intros; auto.
  rewrite <- app_assoc, info_roundtrip. cbn [obind]. rewrite IHl. reflexivity.
Qed.

Lemma info_cut (i : info F) p q : w_info i = p ++ q -> p <> [] -> q <> [] ->
  r_info p = Throw EStream /\ r_info (p ++ [KTorn]) = Throw EStream.
Proof.
  rewrite w_info_eq. intros E Np Nq. destruct p as [|t p]; [congruence|]. simpl in E. injection E as <- E.
  cbn [app]. rewrite !r_info_start. now apply (exact_info_tail i) with (q := q).
Qed.
End Proofs.
