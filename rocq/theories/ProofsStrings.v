(* Lemmas about the string and map operations of ModelStrings.v *)
From Coq Require Import Lia Permutation Sorted.
From Verif Require Import Base BaseLemmas ModelStrings SpecEngine.

(* ---- order on strings ---- *)

Lemma ascii_compare_N : forall a b, Ascii.compare a b = N.compare (N_of_ascii a) (N_of_ascii b).
Proof. reflexivity. Qed.

Lemma compare_refl : forall s, String.compare s s = Eq.
Proof.
  induction s as [|a s IH]; [reflexivity|]. cbn. rewrite ascii_compare_N, N.compare_refl. exact IH.
Qed.

Lemma leb_refl : forall s, String.leb s s = true.
Proof. intro s. unfold String.leb. rewrite compare_refl. reflexivity. Qed.

Lemma leb_trans : forall a b c, String.leb a b = true -> String.leb b c = true -> String.leb a c = true.
Proof.
  unfold String.leb.
  induction a as [|x a IH]; intros [|y b] [|z c] H1 H2; cbn in *; try reflexivity; try discriminate.
  rewrite ascii_compare_N in *.
  destruct (N.compare_spec (N_of_ascii x) (N_of_ascii y)) as [E1|L1|G1]; try discriminate;
  destruct (N.compare_spec (N_of_ascii y) (N_of_ascii z)) as [E2|L2|G2]; try discriminate.
  - rewrite E1, E2, N.compare_refl. exact (IH b c H1 H2).
  - rewrite E1. rewrite (proj2 (N.compare_lt_iff _ _) L2). reflexivity.
  - rewrite <- E2. rewrite (proj2 (N.compare_lt_iff _ _) L1). reflexivity.
  - assert (L : (N_of_ascii x < N_of_ascii z)%N) by lia.
    rewrite (proj2 (N.compare_lt_iff _ _) L). reflexivity.
Qed.

Lemma leb_false : forall a b, String.leb a b = false -> String.leb b a = true.
Proof. intros a b H. destruct (String.leb_total a b) as [E|E]; [congruence|exact E]. Qed.

(* ---- sorting ---- *)

Section Sort.
  Context {A : Type}.
  Variable key : A -> string.
  Notation le := (fun x y => String.leb (key x) (key y) = true).

  Lemma sinsert_perm : forall x l, Permutation (x :: l) (sinsert key x l).
  Proof.
    intros x l. induction l as [|y r IH]; [reflexivity|]. cbn.
    destruct (String.leb (key x) (key y)); [reflexivity|].
    etransitivity; [apply perm_swap|]. constructor. exact IH.
  Qed.
  Lemma ssort_perm : forall l, Permutation l (ssort key l).
  Proof.
    induction l as [|x r IH]; [reflexivity|]. cbn.
    etransitivity; [|apply sinsert_perm]. constructor. exact IH.
  Qed.
  Lemma sinsert_sorted : forall x l, StronglySorted le l -> StronglySorted le (sinsert key x l).
  Proof.
    intros x l S. induction S as [|y r S IH Hy]; cbn.
    - repeat constructor.
    - destruct (String.leb (key x) (key y)) eqn:E.
      + constructor; [constructor; assumption|]. constructor; [exact E|].
        eapply Forall_impl; [|exact Hy]. intros z Hz. exact (leb_trans _ _ _ E Hz).
      + constructor; [exact IH|]. apply Forall_forall. intros z Hz.
        apply (Permutation_in _ (Permutation_sym (sinsert_perm x r))) in Hz.
        destruct Hz as [<-|Hz]; [exact (leb_false _ _ E)|].
        exact (proj1 (Forall_forall _ _) Hy z Hz).
  Qed.
  Lemma ssort_sorted : forall l, StronglySorted le (ssort key l).
  Proof. induction l as [|x r IH]; cbn; [constructor|]. apply sinsert_sorted, IH. Qed.

  (* a sorted list is determined by its elements when the keys tell them apart *)
  Lemma sorted_unique : forall l l',
    StronglySorted le l -> StronglySorted le l' -> Permutation l l' ->
    (forall x y, In x l -> In y l -> key x = key y -> x = y) -> l = l'.
  Proof.
    induction l as [|x r IH]; intros l' S S' P D.
    - symmetry. apply Permutation_nil. exact P.
    - destruct l' as [|y r']; [exfalso; symmetry in P; exact (Permutation_nil_cons P)|].
      inversion S as [|? ? Sr Hx]; subst. inversion S' as [|? ? Sr' Hy]; subst.
      assert (E : x = y).
      { assert (Iy : In y (x :: r)) by (eapply Permutation_in; [symmetry; exact P|left; reflexivity]).
        assert (Ix : In x (y :: r')) by (eapply Permutation_in; [exact P|left; reflexivity]).
        destruct Iy as [E|Iy]; [exact E|]. destruct Ix as [E|Ix]; [symmetry; exact E|].
        apply D; [left; reflexivity|right; exact Iy|].
        apply String.leb_antisym.
        - exact (proj1 (Forall_forall _ _) Hx y Iy).
        - exact (proj1 (Forall_forall _ _) Hy x Ix). }
      subst y. f_equal. apply IH; auto.
      + eapply Permutation_cons_inv; exact P.
      + intros a b Ia Ib. apply D; right; assumption.
  Qed.

  Lemma ssort_unique : forall l l', Permutation l l' ->
    (forall x y, In x l -> In y l -> key x = key y -> x = y) -> ssort key l = ssort key l'.
  Proof.
    intros l l' P D. apply sorted_unique; try apply ssort_sorted.
    - etransitivity; [symmetry; apply ssort_perm|]. etransitivity; [exact P|apply ssort_perm].
    - intros x y Ix Iy. apply D; eapply Permutation_in; try eassumption; symmetry; apply ssort_perm.
  Qed.

  Lemma ssort_fix : forall l, StronglySorted le l ->
    (forall x y, In x l -> In y l -> key x = key y -> x = y) -> ssort key l = l.
  Proof.
    intros l S D. symmetry. apply sorted_unique; auto using ssort_sorted, ssort_perm.
  Qed.
End Sort.

Lemma ssort_id_perm : forall l l' : list string, Permutation l l' ->
  ssort (fun x => x) l = ssort (fun x => x) l'.
Proof. intros l l' P. apply ssort_unique; auto. Qed.

(* ---- maps ---- *)

Section SMap.
  Context {V : Type}.
  Implicit Types m : list (string * V).

  Lemma sfind_in : forall k m v, sfind k m = Some v -> In (k, v) m.
  Proof.
    intros k m v. induction m as [|[k' v'] r IH]; cbn; [discriminate|].
    destruct (String.eqb_spec k k') as [->|N].
    - intros [= ->]. left. reflexivity.
    - intro H. right. auto.
  Qed.
  Lemma sfind_key : forall k m v, sfind k m = Some v -> In k (map fst m).
  Proof. intros k m v H. apply sfind_in in H. apply (in_map fst) in H. exact H. Qed.
  Lemma sfind_none : forall k m, sfind k m = None <-> ~ In k (map fst m).
  Proof.
    intros k m. induction m as [|[k' v'] r IH]; cbn; [tauto|].
    destruct (String.eqb_spec k k') as [->|N].
    - split; [discriminate|]. intro H. exfalso. apply H. left. reflexivity.
    - rewrite IH. split; [intros H [E|E]; [congruence|tauto]|intros H E; apply H; right; exact E].
  Qed.
  Lemma sfind_some : forall k m, In k (map fst m) -> exists v, sfind k m = Some v.
  Proof.
    intros k m H. destruct (sfind k m) eqn:E; [eauto|]. apply sfind_none in E. contradiction.
  Qed.
  Lemma in_sfind : forall k v m, NoDup (map fst m) -> In (k, v) m -> sfind k m = Some v.
  Proof.
    intros k v m. induction m as [|[k' v'] r IH]; cbn; [tauto|].
    intros ND H. inversion ND as [|? ? Nk NDr]; subst. destruct H as [[= -> ->]|H].
    - rewrite String.eqb_refl. reflexivity.
    - destruct (String.eqb_spec k k') as [->|N]; [|auto].
      exfalso. apply Nk. apply (in_map fst) in H. exact H.
  Qed.
  Lemma sfind_perm : forall k m m', NoDup (map fst m) -> Permutation m m' -> sfind k m = sfind k m'.
  Proof.
    intros k m m' ND P.
    assert (ND' : NoDup (map fst m')) by (eapply Permutation_NoDup; [apply Permutation_map, P|exact ND]).
    destruct (sfind k m) eqn:E.
    - symmetry. apply in_sfind; [exact ND'|]. eapply Permutation_in; [exact P|]. apply sfind_in, E.
    - symmetry. apply sfind_none. apply sfind_none in E. intro H. apply E.
      eapply Permutation_in; [apply Permutation_map, Permutation_sym, P|exact H].
  Qed.

  Lemma sfind_app : forall k m m',
    sfind k (m ++ m') = match sfind k m with Some v => Some v | None => sfind k m' end.
  Proof.
    intros k m m'. induction m as [|[k' v'] r IH]; cbn; [reflexivity|].
    destruct (String.eqb k k'); auto.
  Qed.

  Lemma supdate_keys : forall k f m, map fst (supdate k f m) = map fst m.
  Proof.
    intros k f m. induction m as [|[k' v'] r IH]; cbn; [reflexivity|].
    destruct (String.eqb k k'); cbn; congruence.
  Qed.
  Lemma supdate_length : forall k f m, length (supdate k f m) = length m.
  Proof.
    intros k f m. induction m as [|[k' v'] r IH]; cbn; [reflexivity|].
    destruct (String.eqb k k'); cbn; congruence.
  Qed.
  Lemma sfind_supdate : forall k k' f m,
    sfind k (supdate k' f m) =
    if String.eqb k k' then match sfind k m with Some v => Some (f v) | None => None end else sfind k m.
  Proof.
    intros k k' f m. induction m as [|[k2 v2] r IH]; cbn.
    - destruct (String.eqb k k'); reflexivity.
    - destruct (String.eqb_spec k' k2) as [->|N]; cbn.
      + destruct (String.eqb_spec k k2) as [->|N2]; [reflexivity|reflexivity].
      + destruct (String.eqb_spec k k2) as [->|N2].
        * destruct (String.eqb_spec k2 k') as [->|N3]; [congruence|reflexivity].
        * exact IH.
  Qed.
  Lemma sfind_supdate_same : forall k f m v, sfind k m = Some v -> sfind k (supdate k f m) = Some (f v).
  Proof. intros k f m v H. rewrite sfind_supdate, String.eqb_refl, H. reflexivity. Qed.
  Lemma sfind_supdate_other : forall k k' f m, k <> k' -> sfind k (supdate k' f m) = sfind k m.
  Proof.
    intros k k' f m N. rewrite sfind_supdate. destruct (String.eqb_spec k k'); [contradiction|reflexivity].
  Qed.

  Lemma semplace_new : forall k v m, sfind k m = None -> semplace k v m = m ++ [(k, v)].
  Proof. intros k v m H. unfold semplace. rewrite H. reflexivity. Qed.
  Lemma semplace_old : forall k v v' m, sfind k m = Some v' -> semplace k v m = m.
  Proof. intros k v v' m H. unfold semplace. rewrite H. reflexivity. Qed.

  Lemma keys_snoc : forall k v m, NoDup (map fst m) -> sfind k m = None -> NoDup (map fst (m ++ [(k, v)])).
  Proof.
    intros k v m ND H. rewrite map_app. cbn [map fst].
    apply (Permutation_NoDup (l := k :: map fst m)); [apply Permutation_cons_append|].
    constructor; [apply sfind_none, H|exact ND].
  Qed.

  Lemma in_key_order_perm : forall m, Permutation m (in_key_order m).
  Proof. intro m. apply ssort_perm. Qed.

  (* sset over an empty map, key by key *)
  Lemma sset_new : forall k v m, sfind k m = None -> sset k v m = m ++ [(k, v)].
  Proof. intros k v m H. unfold sset. rewrite H. reflexivity. Qed.
End SMap.

(* ---- pushing into groups ---- *)
Section Groups.
  Context {V : Type}.
  Implicit Types m : list (string * list V).

  Lemma supdate_push_perm : forall k (v : V) m l, sfind k m = Some l ->
    Permutation (v :: concat (map snd m)) (concat (map snd (supdate k (fun l => l ++ [v]) m))).
  Proof.
    intros k v m. induction m as [|[k' l'] r IH]; cbn; intros l H; [discriminate|].
    destruct (String.eqb k k'); cbn.
    - rewrite <- app_assoc. apply Permutation_middle.
    - etransitivity; [apply Permutation_middle|]. apply Permutation_app_head. eapply IH, H.
  Qed.
  Lemma spush_perm : forall k (v : V) m,
    Permutation (v :: concat (map snd m)) (concat (map snd (spush k v m))).
  Proof.
    intros k v m. unfold spush. destruct (sfind k m) as [l|] eqn:E.
    - eapply supdate_push_perm, E.
    - rewrite map_app, concat_app. cbn. apply Permutation_cons_append.
  Qed.
  Lemma spush_keys_nodup : forall k (v : V) m, NoDup (map fst m) -> NoDup (map fst (spush k v m)).
  Proof.
    intros k v m ND. unfold spush. destruct (sfind k m) as [l|] eqn:E.
    - rewrite supdate_keys. exact ND.
    - apply keys_snoc; assumption.
  Qed.
  Lemma sfind_spush : forall k k' (v : V) m,
    sfind k (spush k' v m) =
    if String.eqb k k' then Some (match sfind k m with Some l => l ++ [v] | None => [v] end)
    else sfind k m.
  Proof.
    intros k k' v m. unfold spush. destruct (sfind k' m) as [l|] eqn:E.
    - rewrite sfind_supdate. destruct (String.eqb_spec k k') as [->|N]; [|reflexivity].
      rewrite E. reflexivity.
    - rewrite sfind_app. cbn. destruct (String.eqb_spec k k') as [->|N].
      + rewrite E. reflexivity.
      + destruct (sfind k m); reflexivity.
  Qed.
End Groups.

(* ---- characters of strings ---- *)

Lemma has_char_app : forall c s t, has_char c (s ++ t) = has_char c s || has_char c t.
Proof. intros c s t. induction s as [|a s IH]; cbn; [reflexivity|]. rewrite IH, orb_assoc. reflexivity. Qed.

Lemma sapp_nil_r : forall s, (s ++ "")%string = s.
Proof. induction s as [|a s IH]; cbn; congruence. Qed.
Lemma sapp_assoc : forall a b c, ((a ++ b) ++ c)%string = (a ++ (b ++ c))%string.
Proof. induction a as [|x a IH]; cbn; congruence. Qed.

(* ---- split ---- *)

(* the tokens of a list of separator-free pieces glued with the separator *)
Lemma split_piece : forall c p rest cur, has_char c p = false ->
  split_ c (p ++ rest)%string cur = split_ c rest (cur ++ p)%string.
Proof.
  induction p as [|a p IH]; cbn; intros rest cur H.
  - rewrite sapp_nil_r. reflexivity.
  - apply orb_false_elim in H. destruct H as [Ha H]. rewrite Ha, IH by exact H.
    rewrite sapp_assoc. reflexivity.
Qed.

Definition nonempty (s : string) : bool := negb (String.eqb s "").

Lemma split_concat : forall c l, Forall (fun p => has_char c p = false) l ->
  split c (String.concat (String c "") l) = filter nonempty l.
Proof.
  intros c l H. unfold split. induction H as [|p l Hp Hl IH]; [reflexivity|].
  destruct l as [|q l].
  - cbn [String.concat]. rewrite <- (sapp_nil_r p) at 1. rewrite split_piece by exact Hp.
    cbn [String.append split_ filter]. unfold nonempty. destruct (String.eqb p ""); reflexivity.
  - change (String.concat (String c "") (p :: q :: l))
      with (p ++ String c "" ++ String.concat (String c "") (q :: l))%string.
    rewrite split_piece by exact Hp. cbn [String.append split_]. rewrite Ascii.eqb_refl.
    rewrite IH. change (filter nonempty (p :: q :: l))
      with (if nonempty p then p :: filter nonempty (q :: l) else filter nonempty (q :: l)).
    unfold nonempty at 3. destruct (String.eqb p ""); reflexivity.
Qed.

Lemma split_tokens : forall c s cur, has_char c cur = false ->
  Forall (fun p => has_char c p = false /\ p <> ""%string) (split_ c s cur).
Proof.
  induction s as [|a s IH]; cbn; intros cur H.
  - destruct (String.eqb_spec cur ""); repeat constructor; auto.
  - destruct (Ascii.eqb a c) eqn:E.
    + destruct (String.eqb_spec cur ""); [apply IH; reflexivity|].
      constructor; [auto|apply IH; reflexivity].
    + apply IH. rewrite has_char_app, H. cbn. rewrite E. reflexivity.
Qed.
Lemma split_free : forall c s t, In t (split c s) -> has_char c t = false /\ t <> ""%string.
Proof.
  intros c s t H. exact (proj1 (Forall_forall _ _) (split_tokens c s "" eq_refl) t H).
Qed.

(* ---- contains ---- *)

Lemma prefix_app : forall p s, prefix p s = true <-> exists r, s = (p ++ r)%string.
Proof.
  induction p as [|a p IH]; cbn; intro s.
  - destruct s; split; eauto.
  - destruct s as [|b s].
    + split; [discriminate|]. intros [r [=]].
    + cbn [prefix]. destruct (ascii_dec a b) as [->|N].
      * rewrite IH. split; intros [r E]; exists r; congruence.
      * split; [discriminate|]. intros [r [= E _]]. congruence.
Qed.

Lemma contains_app : forall p s, contains p s = true <-> exists a b, s = (a ++ p ++ b)%string.
Proof.
  intros p s. induction s as [|c s IH]; cbn [contains].
  - rewrite orb_false_r, prefix_app. split.
    + intros [r E]. exists ""%string, r. exact E.
    + intros (a & b & E). exists b. destruct a; [exact E|discriminate].
  - rewrite orb_true_iff, prefix_app, IH. split.
    + intros [[r E]|(a & b & E)].
      * exists ""%string, r. exact E.
      * exists (String c a), b. cbn. congruence.
    + intros ([|x a] & b & E).
      * left. exists b. exact E.
      * right. exists a, b. cbn in E. congruence.
Qed.

Lemma app_eq_cases : forall (a b c d : string), (a ++ b)%string = (c ++ d)%string ->
  (exists t, a = (c ++ t)%string /\ d = (t ++ b)%string) \/
  (exists t, c = (a ++ t)%string /\ b = (t ++ d)%string).
Proof.
  induction a as [|x a IH]; cbn; intros b c d E.
  - right. exists c. auto.
  - destruct c as [|y c]; cbn in E.
    + left. exists (String x a). auto.
    + injection E as -> E. destruct (IH b c d E) as [(t & -> & ->)|(t & -> & ->)].
      * left. exists t. auto.
      * right. exists t. auto.
Qed.

(* an occurrence of a comma-free word lies inside one piece *)
Lemma contains_glue : forall c w x y, has_char c w = false -> w <> ""%string ->
  contains w (x ++ String c y) = contains w x || contains w y.
Proof.
  intros c w x y Hw Nw. apply eq_true_iff_eq. rewrite orb_true_iff, !contains_app. split.
  - intros (a & b & E). apply app_eq_cases in E.
    destruct E as [(t & -> & E)|(t & -> & E)].
    + (* x = a ++ t, w ++ b = t ++ c y *)
      apply app_eq_cases in E. destruct E as [(u & -> & E)|(u & -> & E)].
      * (* w = t ++ u; c y = u ++ b *)
        destruct u as [|z u].
        { left. exists a, ""%string. rewrite !sapp_nil_r. reflexivity. }
        { cbn in E. injection E as -> _. rewrite has_char_app in Hw. cbn in Hw.
          rewrite Ascii.eqb_refl in Hw. cbn in Hw. rewrite orb_true_r in Hw. discriminate. }
      * left. exists a, u. reflexivity.
    + (* a = x ++ t, c y = t ++ w ++ b *)
      destruct t as [|z t].
      * cbn in E. destruct w as [|z w]; [congruence|]. cbn in E. injection E as -> _.
        cbn in Hw. rewrite Ascii.eqb_refl in Hw. discriminate.
      * cbn in E. injection E as -> E. right. exists t, b. exact E.
  - intros [(a & b & ->)|(a & b & ->)].
    + exists a, (b ++ String c y)%string. rewrite !sapp_assoc. reflexivity.
    + exists (x ++ String c a)%string, b. rewrite sapp_assoc. reflexivity.
Qed.

Lemma contains_concat : forall c w l, has_char c w = false -> w <> ""%string ->
  contains w (String.concat (String c "") l) = existsb (contains w) l.
Proof.
  intros c w l Hw Nw. induction l as [|p l IH].
  - cbn. rewrite orb_false_r. destruct w; [congruence|reflexivity].
  - destruct l as [|q l].
    + cbn. rewrite orb_false_r. reflexivity.
    + change (String.concat (String c "") (p :: q :: l))
        with (p ++ String c (String.concat (String c "") (q :: l)))%string.
      rewrite contains_glue by assumption. rewrite IH. reflexivity.
Qed.

(* a string is its tokens, as far as comma-free words are concerned *)
Lemma contains_split_ : forall c w s cur, has_char c w = false -> w <> ""%string ->
  has_char c cur = false ->
  contains w (cur ++ s) = existsb (contains w) (split_ c s cur).
Proof.
  intros c w s. induction s as [|a s IH]; intros cur Hw Nw Hc; cbn [split_].
  - rewrite sapp_nil_r. destruct (String.eqb_spec cur "") as [->|N].
    + cbn. rewrite orb_false_r. destruct w; [congruence|reflexivity].
    + cbn. rewrite orb_false_r. reflexivity.
  - destruct (Ascii.eqb_spec a c) as [->|N].
    + rewrite contains_glue by assumption. specialize (IH ""%string Hw Nw eq_refl). cbn in IH.
      rewrite IH. destruct (String.eqb_spec cur "") as [->|N].
      * replace (contains w "") with false by (destruct w; [congruence|reflexivity]). reflexivity.
      * reflexivity.
    + rewrite <- IH; auto.
      * rewrite sapp_assoc. reflexivity.
      * rewrite has_char_app, Hc. cbn. rewrite (proj2 (Ascii.eqb_neq a c) N). reflexivity.
Qed.
Lemma contains_split : forall c w s, has_char c w = false -> w <> ""%string ->
  contains w s = existsb (contains w) (split c s).
Proof. intros c w s Hw Nw. exact (contains_split_ c w s "" Hw Nw eq_refl). Qed.
