From Coq Require Import Lia Sorted DecimalString DecimalFacts DecimalZ.
From Verif Require Import Base BaseLemmas ModelInfo ModelStream ModelIndex SpecIndex ProofsIndex ModelLRU ModelCache SpecCache.
Local Open Scope nat_scope.

(* ---- lists ---- *)
Lemma sorted_NoDup {V} (m : list (Z * V)) : sorted_keys m -> NoDup (map fst m).
Proof.
  induction m as [|[k v] m IH]; intros H; simpl; [constructor|]. apply sorted_inv in H as [H1 H2]. constructor; auto.
  intros Hin. apply in_map_iff in Hin as ([k' v'] & E & Hin). simpl in E. subst k'.
  rewrite Forall_forall in H2. apply H2 in Hin. simpl in Hin. lia.
Qed.

Lemma mfind_keys {V} k (m : list (Z * V)) : In k (map fst m) <-> exists v, mfind k m = Some v.
Proof.
  induction m as [|[k' v'] m IH]; simpl.
  - split; [tauto|]. intros [v H]; discriminate.
  - destruct (Z.eqb_spec k k') as [E|E].
    + subst. split; eauto.
    + rewrite <- IH. split; auto. intros [H|H]; auto. congruence.
Qed.

Lemma map_size_full {V} (m : list (Z * V)) (l : list Z) : sorted_keys m ->
  (forall k v, mfind k m = Some v -> In k l) ->
  (length m = length l <-> NoDup l /\ forall k, In k l -> exists v, mfind k m = Some v).
Proof.
  intros Hs Hin.
  assert (I : incl (map fst m) l). { intros k Hk. apply mfind_keys in Hk as [v Hv]. eauto. }
  pose proof (sorted_NoDup m Hs) as ND. rewrite <- (map_length fst m). split.
  - intros E. split.
    + eapply NoDup_incl_NoDup; [exact ND|lia|exact I].
    + intros k Hk. apply mfind_keys. revert k Hk. apply NoDup_length_incl; auto. lia.
  - intros [NDl H]. apply Nat.le_antisymm; apply NoDup_incl_length; auto.
    intros k Hk. apply mfind_keys. auto.
Qed.

Lemma lenN_eqb {A B} (a : list A) (b : list B) : (lenN a =? lenN b)%N = (length a =? length b).
Proof.
  unfold lenN. destruct (Nat.eqb_spec (length a) (length b)) as [->|N]; [apply N.eqb_refl|]. apply N.eqb_neq. lia.
Qed.

Lemma append_assoc_s (a b c : string) : (a ++ b ++ c)%string = ((a ++ b) ++ c)%string.
Proof. induction a; simpl; congruence. Qed.

Lemma lift_minsert {F} k (i : info F) l : lift (minsert k i l) = minsert k (Some i) (lift l).
Proof.
  induction l as [|[k' v] l IH]; [reflexivity|]. cbn [minsert lift map fst snd]. fold (lift l).
  destruct (k <? k')%Z; [reflexivity|]. destruct (k =? k')%Z; [reflexivity|]. rewrite <- IH. reflexivity.
Qed.

Lemma lift_ins_all {F} (es : list (Z * info F)) : forall l, lift (ins_all l es) = ins_all (lift l) (lift es).
Proof.
  induction es as [|[k i] es IH]; intros l; [reflexivity|].
  change (ins_all l ((k, i) :: es)) with (ins_all (minsert k i l) es). rewrite IH, lift_minsert. reflexivity.
Qed.

Lemma Forall_ins_all {V} (Q : Z * V -> Prop) es : forall l, Forall Q l -> Forall Q es -> Forall Q (ins_all l es).
Proof.
  induction es as [|[k v] es IH]; intros l Hl He; [exact Hl|]. inversion He; subst. apply IH; auto. apply Forall_minsert; auto.
Qed.

Lemma NoDup_dec_Z (l : list Z) : {NoDup l} + {~ NoDup l}.
Proof.
  induction l as [|a l [H|H]].
  - left. constructor.
  - destruct (in_dec Z.eq_dec a l) as [I|I].
    + right. intros N. inversion N. contradiction.
    + left. now constructor.
  - right. intros N. inversion N. contradiction.
Qed.

(* ---- loading an index never runs into undefined behaviour ---- *)
Section Safe.
Context {F : Type}.
Definition safe {A} (f : @reader F A) : Prop := forall s, f s <> UB.

Lemma obind_safe {A B} (x : outcome A) (f : A -> outcome B) : x <> UB -> (forall a, f a <> UB) -> obind x f <> UB.
Proof. intros Hx Hf. destruct x; simpl; auto; congruence. Qed.

Lemma safe_prim : safe r_u8 /\ safe r_ulong /\ safe r_long /\ safe r_ll /\ safe r_double /\ safe r_str.
Proof. repeat split; intros [|[] ?]; discriminate. Qed.

Lemma safe_times {A} n (f : @reader F A) : safe f -> safe (r_times n f).
Proof.
  intros H. induction n as [|n IH]; intros s; cbn [r_times]; [discriminate|].
  apply obind_safe; [apply H|]. intros [a s1]. apply obind_safe; [apply IH|]. intros [l s2]. discriminate.
Qed.

Lemma safe_vec : safe r_vec.
Proof.
  destruct safe_prim as (_ & U & _). intros s. unfold r_vec. apply obind_safe; [apply U|]. intros [n s1].
  unfold r_count. destruct (n <=? lenN s1)%N; [now apply safe_times|].
  apply obind_safe; [now apply safe_times|discriminate].
Qed.

Lemma safe_next : safe (@s_next F).
Proof. intros s. induction s as [|[] s IH]; simpl; try discriminate; auto. Qed.

Lemma safe_base c : safe (r_base c).
Proof.
  destruct safe_prim as (H1 & H2 & H3 & H4 & H5 & H6). intros s. unfold r_base.
  repeat (apply obind_safe; [first [apply H1|apply H2|apply H3|apply H4|apply H5|apply H6]|intros [? ?]]). discriminate.
Qed.

Lemma safe_info : safe r_info.
Proof.
  destruct safe_prim as (H1 & H2 & H3 & H4 & H5 & H6). intros s. unfold r_info.
  apply obind_safe; [apply safe_next|]. intros [[|] s1]; [|discriminate].
  apply obind_safe; [apply H6|]. intros [name s2]. apply obind_safe.
  - unfold r_body. repeat (match goal with |- context [String.eqb name ?x] => destruct (String.eqb name x) end; [try apply safe_base|]).
    + apply obind_safe; [apply safe_base|]. intros [i s3]. do 3 (apply obind_safe; [apply H2|intros [? ?]]).
      apply obind_safe; [apply safe_vec|]. intros [? ?]. discriminate.
    + discriminate.
  - intros [i s3]. apply obind_safe; [|intros [? ?]; discriminate]. destruct s3 as [|[] ?]; discriminate.
Qed.

Lemma safe_entries fuel : forall m s, @r_entries F fuel m s <> UB.
Proof.
  destruct safe_prim as (H1 & H2 & H3 & H4 & H5 & H6). induction fuel as [|fuel IH]; intros m s; cbn [r_entries]; [discriminate|].
  apply obind_safe; [apply safe_next|]. intros [[|] s1]; [|discriminate].
  apply obind_safe; [apply H4|]. intros [off s2]. apply obind_safe; [apply safe_info|]. intros [p s3]. apply IH.
Qed.

Lemma load_safe (d : @disk F) x : x_load d x <> UB.
Proof.
  destruct safe_prim as (H1 & _). unfold x_load. destruct (x_loaded x); [discriminate|]. destruct (d (x_path x)) as [s|]; [|discriminate].
  apply obind_safe; [|discriminate]. unfold r_index. apply obind_safe; [apply H1|]. intros [v s1].
  apply obind_safe; [unfold assert_; destruct (v =? index_version)%N; discriminate|]. intros _. apply safe_entries.
Qed.
End Safe.

Section Cache.
Context {F : Type}.
Notation records := (list (Z * info F)).
Notation afind := (@afind string (info F) string_dec).
Variables (uniq : string -> string) (data : string -> Z -> outcome (info F))
          (data_offsets : string -> outcome (list Z)) (g : config).
Notation cfp := (cache_file_path g).

(* ---- get_cached ---- *)
Lemma get_cached_ok path offs : forall c (res : records), sorted_keys res ->
  exists res' c', get_cached path offs c res = Ok (res', c') /\ sorted_keys res' /\
    l_map c' = l_map c /\ l_capacity c' = l_capacity c /\
    (forall o, mfind o res' = if in_dec Z.eq_dec o offs
                              then match afind (cachekey path o) (l_map c) with Some v => Some v | None => mfind o res end
                              else mfind o res).
Proof.
  induction offs as [|o offs IH]; intros c res Hs; cbn [get_cached].
  - exists res, c. repeat split; auto.
  - unfold lru_exists. destruct (afind (cachekey path o) (l_map c)) as [v|] eqn:E.
    + unfold lru_get. rewrite E. cbn [obind].
      edestruct (IH (mk_lru (l_capacity c) (cachekey path o :: remove string_dec (cachekey path o) (l_list c)) (l_map c))
                 (mset o v res) (mset_sorted o v res Hs)) as (res' & c' & E' & Hs' & Hm & Hc & Hf).
      exists res', c'. split; [exact E'|]. split; auto. split; auto. split; auto.
      intros x. rewrite Hf. cbn [l_map]. rewrite mfind_mset by auto.
      destruct (in_dec Z.eq_dec x offs) as [I|I]; destruct (in_dec Z.eq_dec x (o :: offs)) as [I'|I']; simpl in *.
      * destruct (afind (cachekey path x) (l_map c)) eqn:Ex; auto. destruct (Z.eqb_spec x o) as [->|]; auto. congruence.
      * tauto.
      * assert (x = o) by (destruct I'; [congruence|tauto]). subst x. rewrite Z.eqb_refl, E. reflexivity.
      * destruct (Z.eqb_spec x o) as [->|]; auto. tauto.
    + destruct (IH c res Hs) as (res' & c' & E' & Hs' & Hm & Hc & Hf). exists res', c'. repeat split; auto.
      intros x. rewrite Hf.
      destruct (in_dec Z.eq_dec x offs) as [I|I]; destruct (in_dec Z.eq_dec x (o :: offs)) as [I'|I']; simpl in *; auto.
      * tauto.
      * assert (x = o) by (destruct I'; [congruence|tauto]). subst x. rewrite E. reflexivity.
Qed.

(* ---- put_cache ---- *)
Lemma put_step (c : @lru string (info F)) k v : 1 <= l_capacity c ->
  exists c', lru_put string_dec c k v = Ok c' /\ l_capacity c' = l_capacity c /\
    (forall k' w, afind k' (l_map c') = Some w -> (k' = k /\ w = v) \/ afind k' (l_map c) = Some w).
Proof.
  intros Hc. unfold lru_put.
  assert (A : forall k' w m, afind k' (aset string_dec k v m) = Some w -> (k' = k /\ w = v) \/ afind k' m = Some w).
  { intros k' w m. unfold aset. simpl. destruct (string_dec k' k) as [->|N]; [intros [= ->]; auto|].
    intros H. right. revert H. induction m as [|[k0 v0] m IH]; simpl; auto.
    destruct (string_dec k k0) as [->|]; simpl; destruct (string_dec k' k0); auto; congruence. }
  assert (B : forall k' w last m, afind k' (aerase string_dec last m) = Some w -> afind k' m = Some w).
  { intros k' w last m. induction m as [|[k0 v0] m IH]; simpl; auto.
    destruct (string_dec last k0) as [->|]; simpl; destruct (string_dec k' k0) as [->|]; auto.
    intros H. exfalso. clear -H. induction m as [|[k1 v1] m IH]; simpl in H; [discriminate|].
    destruct (string_dec k0 k1) as [->|]; simpl in H; auto. destruct (string_dec k0 k1); [congruence|auto]. }
  destruct (afind k (l_map c)) eqn:E; cbn [obind].
  - eexists; split; [reflexivity|]. cbn [l_capacity l_map]. split; auto.
  - destruct (Nat.eqb_spec (length (l_list c)) (l_capacity c)) as [H|H]; cbn [obind].
    + destruct (rev (l_list c)) as [|last r] eqn:Er.
      { apply (f_equal (@length string)) in Er. rewrite rev_length in Er. simpl in Er. lia. }
      cbn [obind]. eexists; split; [reflexivity|]. cbn [l_capacity l_map]. split; auto.
      intros k' w H'. apply A in H' as [H'|H']; auto. apply B in H'. auto.
    + eexists; split; [reflexivity|]. cbn [l_capacity l_map]. split; auto.
Qed.

Lemma put_cache_ok path l : forall c, 1 <= l_capacity c ->
  exists c', put_cache path l c = Ok c' /\ l_capacity c' = l_capacity c /\
    (forall k' w, afind k' (l_map c') = Some w ->
       (exists o, In (o, w) l /\ k' = cachekey path o) \/ afind k' (l_map c) = Some w).
Proof.
  induction l as [|[o v] l IH]; intros c Hc; cbn [put_cache].
  - exists c. repeat split; auto.
  - destruct (put_step c (cachekey path o) v Hc) as (c1 & E1 & Hc1 & H1). rewrite E1. cbn [obind].
    destruct (IH c1) as (c2 & E2 & Hc2 & H2); [lia|]. exists c2. split; auto. split; [congruence|].
    intros k' w H. apply H2 in H as [(o' & Ho & ->)|H].
    + left. exists o'. split; auto. now right.
    + apply H1 in H as [[-> ->]|H]; auto. left. exists o. split; auto. now left.
Qed.

(* ---- index lookups ---- *)
Lemma x_get_ok d path offs : forall (m : list (Z * option (info F))), load_index d (cfp path) = Ok m ->
  exists r, x_get d (get_index_file g path) offs = Ok r /\ sorted_keys r /\
    (forall o, mfind o r = if in_dec Z.eq_dec o offs
                           then match mfind o m with Some (Some i) => Some (Some i) | _ => None end else None).
Proof.
  intros m H. unfold load_index in H. unfold x_get, get_index_file.
  destruct (x_load d (new_index (cfp path))) as [x|e|]; [|discriminate|discriminate].
  simpl in H. injection H as <-. cbn [obind]. eexists; split; [reflexivity|].
  assert (G : forall offs r0, sorted_keys r0 ->
    sorted_keys (fold_left (fun m o => match x_find x o with Some i => minsert o (Some i) m | None => m end) offs r0) /\
    forall o, mfind o (fold_left (fun m o => match x_find x o with Some i => minsert o (Some i) m | None => m end) offs r0) =
      match mfind o r0 with Some v => Some v | None =>
        if in_dec Z.eq_dec o offs then match mfind o (x_map x) with Some (Some i) => Some (Some i) | _ => None end else None end).
  { clear offs. induction offs as [|a offs IH]; intros r0 Hs; cbn [fold_left].
    - split; auto. intros o. simpl. now destruct (mfind o r0).
    - destruct (x_find x a) as [i|] eqn:Ex; unfold x_find in Ex.
      + assert (Ea : mfind a (x_map x) = Some (Some i)). { destruct (mfind a (x_map x)); congruence. }
        destruct (IH _ (minsert_sorted a (Some i) r0 Hs)) as [I1 I2]. split; auto. intros o. rewrite I2, mfind_minsert by auto.
        destruct (mfind o r0); auto. destruct (Z.eqb_spec o a) as [E|E].
        * subst o. destruct (in_dec Z.eq_dec a (a :: offs)) as [_|N]; [now rewrite Ea|]. exfalso; apply N; now left.
        * destruct (in_dec Z.eq_dec o offs), (in_dec Z.eq_dec o (a :: offs)); simpl in *; auto; exfalso; firstorder congruence.
      + destruct (IH r0 Hs) as [I1 I2]. split; auto. intros o. rewrite I2. destruct (mfind o r0); auto.
        destruct (in_dec Z.eq_dec o offs), (in_dec Z.eq_dec o (a :: offs)); simpl in *; auto.
        * exfalso; tauto.
        * assert (o = a) by firstorder congruence. subst. destruct (mfind a (x_map x)) as [[|]|]; auto; discriminate. }
  destruct (G offs [] ltac:(constructor)) as [G1 G2]. split; auto.
Qed.

Lemma filter_absent {A} (m : list (Z * A)) offs o : In o (filter (absent m) offs) <-> In o offs /\ mfind o m = None.
Proof.
  rewrite filter_In. unfold absent. destruct (mfind o m); split; intros [H1 H2]; split; auto; discriminate.
Qed.

Lemma fold_mset_sorted (l : records) : forall m, sorted_keys m -> sorted_keys (fold_left (fun m e => mset (fst e) (snd e) m) l m).
Proof. induction l; simpl; auto using mset_sorted. Qed.

Lemma fold_mset_find (l : records) : forall m, sorted_keys m -> forall o v,
  mfind o (fold_left (fun m e => mset (fst e) (snd e) m) l m) = Some v -> In (o, v) l \/ mfind o m = Some v.
Proof.
  induction l as [|[k w] l IH]; simpl; auto. intros m Hs o v H. apply IH in H; [|now apply mset_sorted].
  destruct H as [H|H]; auto. rewrite mfind_mset in H by auto. destruct (Z.eqb_spec o k) as [E|E]; auto.
  subst. injection H as <-. auto.
Qed.

Lemma fold_mset_has (l : records) : forall m, sorted_keys m -> forall o,
  (In o (map fst l) \/ exists v, mfind o m = Some v) -> exists v, mfind o (fold_left (fun m e => mset (fst e) (snd e) m) l m) = Some v.
Proof.
  induction l as [|[k w] l IH]; simpl; intros m Hs o H.
  - destruct H as [[]|H]; auto.
  - apply IH; [now apply mset_sorted|]. rewrite mfind_mset by auto. destruct (Z.eqb_spec o k) as [E|E]; eauto.
    destruct H as [[H|H]|H]; auto. congruence.
Qed.

(* what get_rest delivers *)
Definition src (d : @disk F) (path : string) (res : records) (o : Z) (i : info F) : Prop :=
  mfind o res = Some i \/
  (exists m, load_index d (cfp path) = Ok m /\ mfind o m = Some (Some i)) \/
  (g_lazy g = true /\ data path o = Ok i).

Definition step2 (fileinfos : list (Z * option (info F))) :=
  (fun (m : records) o => match mfind o fileinfos with Some (Some i) => mset o i m | _ => m end).

Lemma step2_sorted fi offs : forall m, sorted_keys m -> sorted_keys (fold_left (step2 fi) offs m).
Proof.
  induction offs; simpl; auto. intros m H. apply IHoffs. unfold step2. destruct (mfind a fi) as [[|]|]; auto using mset_sorted.
Qed.

Lemma step2_find fi offs : forall m, sorted_keys m -> forall o,
  mfind o (fold_left (step2 fi) offs m) =
  if in_dec Z.eq_dec o offs then match mfind o fi with Some (Some i) => Some i | _ => mfind o m end else mfind o m.
Proof.
  induction offs as [|a offs IH]; intros m H o; [reflexivity|]. cbn [fold_left].
  assert (Hs : sorted_keys (step2 fi m a)). { unfold step2. destruct (mfind a fi) as [[|]|]; auto using mset_sorted. }
  rewrite IH by auto.
  assert (E : mfind o (step2 fi m a) = if (o =? a)%Z then match mfind o fi with Some (Some i) => Some i | _ => mfind o m end else mfind o m).
  { unfold step2. destruct (Z.eqb_spec o a) as [Eo|Eo].
    - subst. destruct (mfind a fi) as [[|]|]; auto. rewrite mfind_mset, Z.eqb_refl by auto. reflexivity.
    - destruct (mfind a fi) as [[|]|]; auto. rewrite mfind_mset by auto. apply Z.eqb_neq in Eo. now rewrite Eo. }
  rewrite E. destruct (Z.eqb_spec o a) as [Eo|Eo].
  - subst. destruct (in_dec Z.eq_dec a (a :: offs)) as [_|N]; [|exfalso; apply N; now left].
    destruct (in_dec Z.eq_dec a offs); destruct (mfind a fi) as [[|]|]; auto.
  - destruct (in_dec Z.eq_dec o offs), (in_dec Z.eq_dec o (a :: offs)); simpl in *; auto; exfalso; firstorder congruence.
Qed.

Lemma get_rest_inv d path offs res res' : sorted_keys res -> (forall o v, mfind o res = Some v -> In o offs) ->
  get_rest data g d path offs res = Ok res' ->
  sorted_keys res' /\ (forall o i, mfind o res' = Some i -> In o offs /\ src d path res o i).
Proof.
  intros Hs Hk. unfold get_rest. rewrite lenN_eqb. destruct (Nat.eqb_spec (length res) (length offs)) as [El|El].
  - intros [= <-]. split; auto. intros o i H. split; eauto. now left.
  - intros H. apply obind_ok_inv in H as (fi & Ex & H).
    assert (Hl : exists m, load_index d (cfp path) = Ok m).
    { unfold x_get, get_index_file in Ex. unfold load_index. destruct (x_load d (new_index (cfp path))); simpl in *; eauto; discriminate. }
    destruct Hl as [m Hl]. destruct (x_get_ok d path (filter (absent res) offs) m Hl) as (r & Er & Hrs & Hrf).
    rewrite Ex in Er. injection Er as <-.
    set (res2 := fold_left _ _ res) in H. fold (step2 fi) in res2.
    assert (S2 : sorted_keys res2) by (now apply step2_sorted).
    assert (F2 : forall o i, mfind o res2 = Some i -> In o offs /\ src d path res o i).
    { intros o i. unfold res2. rewrite step2_find by auto.
      destruct (in_dec Z.eq_dec o (filter (absent res) offs)) as [I|I].
      - apply filter_absent in I as [I1 I2]. destruct (mfind o fi) as [[j|]|] eqn:Ef.
        + intros [= <-]. split; auto. right. left. exists m. split; auto. rewrite Hrf in Ef.
          destruct (in_dec Z.eq_dec o _); [|discriminate]. destruct (mfind o m) as [[|]|]; congruence.
        + intros Hr. split; eauto. now left.
        + intros Hr. split; eauto. now left.
      - intros Hr. split; eauto. now left. }
    destruct (filter (absent fi) (filter (absent res) offs)) as [|o1 miss] eqn:Em.
    { injection H as <-. split; auto. }
    rewrite <- Em in H. destruct (g_lazy g) eqn:Eg; [|discriminate].
    apply obind_ok_inv in H as (ui & Eu & H). injection H as <-.
    apply mapM_ok_inv in Eu. split; [now apply fold_mset_sorted|].
    intros o i Hf. apply fold_mset_find in Hf; auto. destruct Hf as [Hf|Hf]; auto.
    assert (In o (filter (absent fi) (filter (absent res) offs)) /\ data path o = Ok i).
    { clear -Eu Hf. induction Eu; simpl in *; [tauto|]. destruct Hf as [[= -> ->]|Hf]; auto. destruct (IHEu Hf). auto. }
    destruct H as [H1 H2]. apply filter_absent in H1 as [H1 _]. apply filter_absent in H1 as [H1 _]. split; auto.
    right. right. auto.
Qed.

Lemma mapM_pick (m : records) offs vec : mapM (pick m) offs = Ok vec -> Forall2 (fun o i => mfind o m = Some i) offs vec.
Proof.
  intros H. apply mapM_ok_inv in H. eapply Forall2_impl; [|exact H]. intros o i. unfold pick.
  destruct (mfind o m); congruence.
Qed.

Lemma mapM_pick_ok (m : records) offs : (forall o, In o offs -> exists v, mfind o m = Some v) -> exists vec, mapM (pick m) offs = Ok vec.
Proof.
  induction offs as [|o offs IH]; intros H; cbn [mapM]; eauto.
  destruct (H o) as [v Hv]; [now left|]. unfold pick at 1. rewrite Hv. cbn [obind].
  destruct IH as [vec Ev]. { intros; apply H; now right. } rewrite Ev. cbn [obind]. eauto.
Qed.

Lemma Forall2_combine_in {A B} (R : A -> B -> Prop) l1 l2 a b : Forall2 R l1 l2 -> In (a, b) (combine l1 l2) -> R a b.
Proof. induction 1; simpl; [tauto|]. intros [[= -> ->]|H1]; auto. Qed.

(* where a lookup took its answers from *)
Definition src_all (c : @cache F) (path : string) (o : Z) (i : info F) : Prop :=
  afind (cachekey path o) (l_map (c_lru c)) = Some i \/
  (exists m, load_index (c_disk c) (cfp path) = Ok m /\ mfind o m = Some (Some i)) \/
  (g_lazy g = true /\ data path o = Ok i).


Definition get_spec (c : @cache F) path offs (c' : @cache F) r : Prop :=
  r <> UB /\ c_disk c' = c_disk c /\ c_staged c' = c_staged c /\ l_capacity (c_lru c') = l_capacity (c_lru c) /\
  (forall vec, r = Ok vec -> Forall2 (src_all c path) offs vec /\ NoDup offs) /\
  (forall k w, afind k (l_map (c_lru c')) = Some w ->
     afind k (l_map (c_lru c)) = Some w \/ (exists o, k = cachekey path o /\ In o offs /\ src_all c path o w)).

Hypothesis data_safe : forall p o, data p o <> UB.

Lemma mapM_safe {A B} (f : A -> outcome B) l : (forall a, f a <> UB) -> mapM f l <> UB.
Proof.
  intros H. induction l as [|a l IH]; cbn [mapM]; [discriminate|].
  specialize (H a). destruct (f a); cbn [obind]; try congruence. destruct (mapM f l); cbn [obind]; congruence.
Qed.

Lemma get_rest_safe d path offs res : get_rest data g d path offs res <> UB.
Proof.
  unfold get_rest. destruct (lenN res =? lenN offs)%N; [discriminate|]. unfold x_get, get_index_file.
  pose proof (load_safe d (new_index (cfp path))) as L.
  destruct (x_load d (new_index (cfp path))) as [x|e|]; cbn [obind]; [|discriminate|congruence].
  destruct (filter _ _); [discriminate|]. destruct (g_lazy g); [|discriminate].
  match goal with |- context [mapM (data path) ?l] => pose proof (mapM_safe (data path) l (data_safe path)) as M;
    destruct (mapM (data path) l) end; cbn [obind]; congruence.
Qed.

Lemma c_get_inv c path offs c' r : 1 <= l_capacity (c_lru c) -> c_get data g c path offs = (c', r) ->
  get_spec c path offs c' r.
Proof.
  intros Hcap. unfold c_get.
  destruct (get_cached_ok path offs (c_lru c) [] ltac:(constructor)) as (res & l1 & E & Hs & Hm & Hc & Hf).
  rewrite E.
  assert (Hk : forall o v, mfind o res = Some v -> In o offs /\ afind (cachekey path o) (l_map (c_lru c)) = Some v).
  { intros o v. rewrite Hf. destruct (in_dec Z.eq_dec o offs) as [I|]; [|discriminate].
    destruct (afind (cachekey path o) (l_map (c_lru c))); [|discriminate]. auto. }
  assert (Bad : forall e, (mk_cache (c_disk c) l1 (c_staged c), @Throw (list (info F)) e) = (c', r) -> get_spec c path offs c' r).
  { intros e [= <- <-]. unfold get_spec. cbn [c_disk c_staged c_lru]. rewrite Hm. split; [discriminate|]. repeat split; auto; discriminate. }
  pose proof (get_rest_safe (c_disk c) path offs res) as Sf.
  destruct (get_rest data g (c_disk c) path offs res) as [res'|e|] eqn:Er; cbn [obind]; [|apply Bad|congruence].
  destruct (get_rest_inv _ _ _ _ _ Hs (fun o v H => proj1 (Hk o v H)) Er) as [Hs' Hf'].
  rewrite lenN_eqb. destruct (Nat.eqb_spec (length res') (length offs)) as [El|El]; cbn [assert_ obind]; [|apply Bad].
  apply map_size_full in El; [|exact Hs'|intros k v Hkv; exact (proj1 (Hf' k v Hkv))].
  destruct El as [ND Hall]. destruct (mapM_pick_ok res' offs Hall) as [vec Ev]. rewrite Ev. cbn [obind].
  destruct (put_cache_ok path (combine offs vec) l1) as (l2 & E2 & Hc2 & H2); [lia|]. rewrite E2. cbn [obind].
  intros [= <- <-]. apply mapM_pick in Ev.
  assert (Fs : Forall2 (src_all c path) offs vec).
  { eapply Forall2_impl; [|exact Ev]. intros o i Hoi. destruct (Hf' o i Hoi) as [_ [S|[S|S]]].
    - left. exact (proj2 (Hk o i S)).
    - right. left. exact S.
    - right. right. exact S. }
  unfold get_spec. cbn [c_disk c_staged c_lru]. split; [discriminate|]. split; auto. split; auto. split; [congruence|]. split.
  - intros v [= <-]. split; auto.
  - intros k w Hkw. apply H2 in Hkw as [(o & Ho & ->)|Hkw].
    + right. exists o. split; auto. split; [eapply in_combine_l; exact Ho|].
      exact (Forall2_combine_in _ _ _ _ _ Fs Ho).
    + left. rewrite <- Hm. exact Hkw.
Qed.

(* ---- when a lookup succeeds ---- *)
Definition avail (m : list (Z * option (info F))) (path : string) (o : Z) : Prop :=
  (exists i, mfind o m = Some (Some i)) \/ (g_lazy g = true /\ exists i, data path o = Ok i).

Lemma mapM_all_ok {A B} (f : A -> outcome B) l : (forall a, In a l -> exists b, f a = Ok b) -> exists bs, mapM f l = Ok bs.
Proof.
  induction l as [|a l IH]; intros H; cbn [mapM]; eauto.
  destruct (H a) as [b Hb]; [now left|]. rewrite Hb. cbn [obind].
  destruct IH as [bs Hbs]; [intros; apply H; now right|]. rewrite Hbs. cbn [obind]. eauto.
Qed.

Lemma get_rest_ok d path offs res m : sorted_keys res -> (forall o v, mfind o res = Some v -> In o offs) ->
  load_index d (cfp path) = Ok m ->
  (forall o, In o offs -> (exists v, mfind o res = Some v) \/ avail m path o) ->
  exists res', get_rest data g d path offs res = Ok res' /\
    (NoDup offs -> forall o, In o offs -> exists v, mfind o res' = Some v).
Proof.
  intros Hs Hk Hl Ha. unfold get_rest. rewrite lenN_eqb. destruct (Nat.eqb_spec (length res) (length offs)) as [El|El].
  - exists res. split; auto. intros _. apply map_size_full in El; auto. apply El.
  - destruct (x_get_ok d path (filter (absent res) offs) m Hl) as (fi & Ex & Hrs & Hrf). rewrite Ex. cbn [obind].
    set (res2 := fold_left _ _ res). fold (step2 fi) in res2.
    assert (S2 : sorted_keys res2) by (now apply step2_sorted).
    assert (G : forall o, In o offs -> (exists v, mfind o res2 = Some v) \/ In o (filter (absent fi) (filter (absent res) offs))).
    { intros o Ho. unfold res2. rewrite step2_find by auto.
      destruct (mfind o res) as [v|] eqn:Eo.
      - left. destruct (in_dec Z.eq_dec o _); eauto. destruct (mfind o fi) as [[|]|]; eauto.
      - assert (I : In o (filter (absent res) offs)) by (apply filter_absent; auto).
        destruct (in_dec Z.eq_dec o (filter (absent res) offs)) as [_|N]; [|contradiction].
        destruct (mfind o fi) as [[i|]|] eqn:Ef; eauto.
        + rewrite Hrf in Ef. destruct (in_dec Z.eq_dec o _); [|discriminate]. destruct (mfind o m) as [[|]|]; discriminate.
        + right. apply filter_absent. auto. }
    destruct (filter (absent fi) (filter (absent res) offs)) as [|o1 miss] eqn:Em.
    + exists res2. split; auto. intros _ o Ho. destruct (G o Ho) as [|[]]; auto.
    + assert (Hm : forall o, In o (o1 :: miss) -> g_lazy g = true /\ exists i, data path o = Ok i).
      { intros o Ho. rewrite <- Em in Ho. apply filter_absent in Ho as [Ho Hf]. apply filter_absent in Ho as [Ho1 Ho2].
        destruct (Ha o Ho1) as [[v Hv]|[[i Hi]|A]]; [congruence| |exact A].
        rewrite Hrf, Hi in Hf. destruct (in_dec Z.eq_dec o _) as [|N]; [discriminate|].
        exfalso. apply N. apply filter_absent. auto. }
      destruct (Hm o1) as [Lz _]; [now left|]. rewrite Lz.
      destruct (mapM_all_ok (data path) (o1 :: miss)) as [ui Eu]; [intros o Ho; apply Hm; auto|].
      rewrite Eu. cbn [obind]. eexists; split; [reflexivity|]. intros _ o Ho.
      apply fold_mset_has; auto. destruct (G o Ho) as [|Ho']; auto. left.
      apply mapM_ok_inv in Eu. clear -Eu Ho'. induction Eu as [|a b l1 l2 H H1 IH]; simpl in *; [tauto|]. destruct Ho'; auto.
Qed.

Lemma c_get_complete c path offs m : 1 <= l_capacity (c_lru c) -> load_index (c_disk c) (cfp path) = Ok m -> NoDup offs ->
  (forall o, In o offs -> lru_exists string_dec (c_lru c) (cachekey path o) = true \/ avail m path o) ->
  exists c' vec, c_get data g c path offs = (c', Ok vec).
Proof.
  intros Hcap Hl ND Ha. unfold c_get.
  destruct (get_cached_ok path offs (c_lru c) [] ltac:(constructor)) as (res & l1 & E & Hs & Hm & Hc & Hf).
  rewrite E.
  assert (Hk : forall o v, mfind o res = Some v -> In o offs).
  { intros o v. rewrite Hf. destruct (in_dec Z.eq_dec o offs) as [I|]; [|discriminate]. auto. }
  destruct (get_rest_ok (c_disk c) path offs res m Hs Hk Hl) as (res' & Er & Hall).
  { intros o Ho. destruct (Ha o Ho) as [L|A]; auto. left. rewrite Hf. destruct (in_dec Z.eq_dec o offs) as [_|]; [|contradiction].
    unfold lru_exists in L. destruct (afind (cachekey path o) (l_map (c_lru c))); eauto. discriminate. }
  rewrite Er. cbn [obind]. destruct (get_rest_inv _ _ _ _ _ Hs Hk Er) as [Hs' Hf'].
  specialize (Hall ND).
  assert (El : length res' = length offs).
  { apply map_size_full; auto. intros k v Hkv. exact (proj1 (Hf' k v Hkv)). }
  rewrite lenN_eqb, El, Nat.eqb_refl. cbn [assert_ obind].
  destruct (mapM_pick_ok res' offs Hall) as [vec Ev]. rewrite Ev. cbn [obind].
  destruct (put_cache_ok path (combine offs vec) l1) as (l2 & E2 & Hc2 & H2); [lia|]. rewrite E2. cbn [obind]. eauto.
Qed.

(* C19 *)
Lemma c_get_fails_iff c path offs m c' r : g_lazy g = false ->
  1 <= l_capacity (c_lru c) -> load_index (c_disk c) (cfp path) = Ok m -> c_get data g c path offs = (c', r) ->
  (exists e, r = Throw e) <-> (~ NoDup offs \/ exists o, In o offs /\ nowhere c path m o).
Proof.
  intros Lz Hcap Hl E. pose proof (c_get_inv _ _ _ _ _ Hcap E) as (Hu & _ & _ & _ & Hok & _). split.
  - intros [e ->]. destruct (NoDup_dec_Z offs) as [ND|]; auto. right.
    destruct (Exists_dec (nowhere c path m) offs) as [X|X].
    + intros o. unfold nowhere. destruct (lru_exists string_dec (c_lru c) (cachekey path o)).
      * right. intros [H _]; discriminate.
      * destruct (mfind o m) as [[i|]|]; [right|left|left]; auto. intros [_ [H|H]]; discriminate.
    + apply Exists_exists in X. exact X.
    + exfalso. destruct (c_get_complete c path offs m Hcap Hl ND) as (c1 & vec & E1); [|congruence].
      intros o Ho. destruct (lru_exists string_dec (c_lru c) (cachekey path o)) eqn:Ex; auto. right. left.
      destruct (mfind o m) as [[i|]|] eqn:Em; eauto; exfalso; apply X, Exists_exists; exists o; unfold nowhere; auto.
  - intros H. destruct r as [vec|e|]; eauto; [|congruence]. exfalso. destruct (Hok vec eq_refl) as [Hs ND].
    destruct H as [H|(o & Ho & N1 & N2)]; [contradiction|].
    destruct (In_nth_error _ _ Ho) as [k Hk].
    assert (S : exists i, src_all c path o i).
    { clear -Hs Ho. induction Hs; simpl in *; [tauto|]. destruct Ho as [->|Ho]; eauto. }
    destruct S as [i [S|[(m' & Hl' & S)|[S _]]]]; [|rewrite Hl in Hl'; injection Hl' as <-; destruct N2; congruence|congruence].
    unfold lru_exists in N1. rewrite S in N1. discriminate.
Qed.

Lemma c_get_shape c path offs c' r : 1 <= l_capacity (c_lru c) -> c_get data g c path offs = (c', r) ->
  r <> UB /\ forall vec, r = Ok vec -> length vec = length offs.
Proof.
  intros Hcap E. destruct (c_get_inv _ _ _ _ _ Hcap E) as (Hu & _ & _ & _ & Hok & _). split; auto.
  intros vec H. destruct (Hok vec H) as [H1 _]. symmetry. eapply Forall2_length; eauto.
Qed.

(* ---- truthfulness over a history ---- *)
Variable P : string -> Prop.
Hypothesis apart : names_apart g P.
Hypothesis fresh : fresh_names uniq g P.

Definition true_rec (p : string) (e : Z * info F) : Prop := data p (fst e) = Ok (snd e).

Definition true_lru (l : @lru string (info F)) : Prop :=
  forall k w, afind k (l_map l) = Some w -> exists p o, P p /\ k = cachekey p o /\ data p o = Ok w.

Definition true_staged (e : string * @index F) : Prop :=
  exists p l, P p /\ fst e = cfp p /\ snd e = mk_index (cfp p) false (lift l) /\ Forall (true_rec p) l.

Record inv (c : @cache F) : Prop := {
  inv_cap : 1 <= l_capacity (c_lru c);
  inv_lru : true_lru (c_lru c);
  inv_disk : true_disk data g P (c_disk c);
  inv_staged : Forall true_staged (c_staged c) }.

Lemma cfp_index p : index_path (cfp p).
Proof.
  unfold cache_file_path, index_path. destruct (g_shadow g); [eauto|].
  exists (g_dir g ++ "/" ++ base_name p)%string. now rewrite !append_assoc_s.
Qed.

Lemma complete_load (d : @disk F) p (l : records) : complete_file d p l -> load_index d p = Ok (lift (ins_all [] l)).
Proof.
  intros H. rewrite lift_ins_all. apply complete_iff in H as [H|[H ->]].
  - rewrite (load_some _ _ _ H). apply r_index_ok.
  - now rewrite (load_none _ _ H).
Qed.

Lemma true_load d p : P p -> true_disk data g P d -> exists l, load_index d (cfp p) = Ok (lift l) /\ sorted_keys l /\ Forall (true_rec p) l.
Proof.
  intros Hp Hd. destruct (Hd p Hp) as (l & Hc & Ht). exists (ins_all [] l). split; [now apply complete_load|].
  split; [apply ins_all_sorted; constructor|]. apply Forall_ins_all; auto.
Qed.

Lemma true_src c p o i : inv c -> P p -> src_all c p o i -> data p o = Ok i.
Proof.
  intros [_ Hl Hd _] Hp [S|[(m & Hm & S)|[_ S]]]; auto.
  - destruct (Hl _ _ S) as (p' & o' & Hp' & E & D). destruct (apart p p' Hp Hp') as [_ A].
    destruct (A _ _ E) as [-> ->]. exact D.
  - destruct (true_load _ _ Hp Hd) as (l & E & _ & Ht). rewrite Hm in E. injection E as ->.
    rewrite mfind_lift in S. destruct (mfind o l) as [j|] eqn:Ej; [|discriminate]. simpl in S. injection S as ->.
    apply mfind_in in Ej. rewrite Forall_forall in Ht. exact (Ht _ Ej).
Qed.

Lemma true_disk_upd (d d' : @disk F) p l : P p -> true_disk data g P d ->
  d' (cfp p) = Some (file_of l) -> Forall (true_rec p) l ->
  (forall q, P q -> cfp q <> cfp p -> d' (cfp q) = d (cfp q)) -> true_disk data g P d'.
Proof.
  intros Hp Hd E Ht Ho q Hq. destruct (string_dec (cfp q) (cfp p)) as [Eq|N].
  - assert (q = p) by (apply (apart q p); auto). subst q. exists l. split; auto. apply complete_iff. auto.
  - destruct (Hd q Hq) as (l' & Hc & Ht'). exists l'. split; auto. apply complete_iff. rewrite Ho by auto. now apply complete_iff.
Qed.

Lemma true_append d p l : P p -> true_disk data g P d -> Forall (true_rec p) l ->
  exists ops, append_to_file d (lift l) (cfp p) = Ok ops /\ true_disk data g P (apply_ops d ops).
Proof.
  intros Hp Hd Ht. destruct (Hd p Hp) as (l0 & Hc & Ht0). apply complete_iff in Hc.
  destruct (append_file d l0 l (cfp p) (cfp_index p) Hc) as (ops & E & H1 & H2). exists ops. split; auto.
  apply (true_disk_upd d _ p (l0 ++ l)); auto. now apply Forall_app.
Qed.

Lemma true_write d p l b : P p -> true_disk data g P d -> Forall (true_rec p) l ->
  exists ops, x_write uniq (mk_index (cfp p) b (lift l)) = Ok ops /\ true_disk data g P (apply_ops d ops).
Proof.
  intros Hp Hd Ht. destruct (write_file uniq d (cfp p) l b (cfp_index p) (fresh p p Hp Hp)) as (ops & E & H1 & H2 & _).
  exists ops. split; auto. apply (true_disk_upd d _ p l); auto. intros q Hq N. apply H2; auto.
  intros E'. symmetry in E'. exact (fresh p q Hp Hq E').
Qed.

Lemma true_flush append st : forall d, Forall true_staged st -> true_disk data g P d ->
  exists d', flush_all uniq append st d = Ok d' /\ true_disk data g P d'.
Proof.
  induction st as [|[q x] st IH]; intros d Hs Hd; cbn [flush_all]; eauto.
  inversion Hs as [|? ? (p & l & Hp & _ & Ex & Ht) Hs']; subst. simpl in Ex. subst x.
  unfold x_flush. cbn [x_map x_path].
  assert (exists ops, (if append then append_to_file d (lift l) (cfp p) else x_write uniq (mk_index (cfp p) false (lift l))) = Ok ops
                      /\ true_disk data g P (apply_ops d ops)) as (ops & E & Hd').
  { destruct append; [now apply true_append|now apply true_write]. }
  rewrite E. cbn [obind]. apply IH; auto.
Qed.

Lemma staged_find_in p (st : list (string * @index F)) x : staged_find p st = Some x -> In (p, x) st.
Proof.
  induction st as [|[q y] st IH]; simpl; [discriminate|]. destruct (String.eqb_spec p q) as [->|]; auto. intros [= ->]. auto.
Qed.

Lemma staged_set_forall (Q : string * @index F -> Prop) p x st : Q (p, x) -> Forall Q st -> Forall Q (staged_set p x st).
Proof.
  intros Hq. induction 1 as [|[q y] st H Hst IH]; simpl; auto. destruct (String.eqb_spec p q) as [->|]; auto.
Qed.

Lemma insert_all_eq p b (l es : records) : insert_all (mk_index p b (lift l)) es = mk_index p b (lift (ins_all l es)).
Proof.
  revert l. unfold insert_all. induction es as [|e es IH]; intros l; [reflexivity|]. cbn [fold_left].
  unfold x_insert at 2. cbn [x_path x_loaded x_map]. rewrite <- lift_minsert, IH. reflexivity.
Qed.

Lemma load_inv (d : @disk F) p m : load_index d (cfp p) = Ok m -> x_load d (get_index_file g p) = Ok (mk_index (cfp p) true m).
Proof.
  unfold load_index, get_index_file. unfold x_load, new_index. cbn [x_loaded x_path x_map].
  destruct (d (cfp p)) as [s|]; cbn [obind omap x_map].
  - destruct (r_index [] s); cbn [obind omap x_map]; congruence.
  - intros [= <-]. reflexivity.
Qed.

Lemma combine_true p offs infos : Forall2 (fun o i => data p o = Ok i) offs infos -> Forall (true_rec p) (combine offs infos).
Proof. induction 1; simpl; constructor; auto. Qed.

Lemma scan_true d p offs : P p -> true_disk data g P d ->
  match scan_offsets uniq data g d p offs with
  | Ok (ops, _) => true_disk data g P (apply_ops d ops) | Throw _ => True | UB => False end.
Proof.
  intros Hp Hd. destruct (true_load d p Hp Hd) as (l & El & Hs & Ht). unfold scan_offsets.
  rewrite (load_inv _ _ _ El). cbn [obind]. destruct (filter _ offs) as [|a r]; [exact Hd|].
  pose proof (mapM_safe (data p) (zsort (a :: r)) (data_safe p)) as Ms.
  destruct (mapM (data p) (zsort (a :: r))) as [infos|e|] eqn:Em; cbn [obind]; [|exact I|congruence].
  rewrite insert_all_eq.
  destruct (true_write d p (ins_all l (combine (zsort (a :: r)) infos)) true Hp Hd) as (ops & E & H).
  { apply Forall_ins_all; auto. apply combine_true. now apply mapM_ok_inv. }
  rewrite E. cbn [obind]. exact H.
Qed.

Hypothesis offsets_safe : forall p, data_offsets p <> UB.

Lemma scan_file_true d p merge : P p -> true_disk data g P d ->
  match scan_file uniq data data_offsets g d p merge with
  | Ok (ops, _) => true_disk data g P (apply_ops d ops) | Throw _ => True | UB => False end.
Proof.
  intros Hp Hd. unfold scan_file. pose proof (offsets_safe p) as So. destruct merge.
  - destruct (data_offsets p) as [offs|e|]; cbn [obind]; [|exact I|congruence]. now apply scan_true.
  - destruct (true_load d p Hp Hd) as (l & El & Hs & Ht). unfold x_reload, x_clear, get_index_file. cbn [x_path new_index].
    pose proof (load_inv _ _ _ El) as EL. unfold get_index_file, new_index in EL. rewrite EL. cbn [obind].
    destruct (data_offsets p) as [offs|e|]; cbn [obind]; [|exact I|congruence].
    pose proof (mapM_safe (data p) offs (data_safe p)) as Ms.
    destruct (mapM (data p) offs) as [infos|e|] eqn:Em; cbn [obind]; [|exact I|congruence].
    rewrite insert_all_eq.
    destruct (true_write d p (ins_all l (combine offs infos)) true Hp Hd) as (ops & E & H).
    { apply Forall_ins_all; auto. apply combine_true. now apply mapM_ok_inv. }
    rewrite E. cbn [obind]. exact H.
Qed.

Lemma inv_step c q c' a : inv c -> true_call data P q -> c_call uniq data data_offsets g c q = (c', a) ->
  inv c' /\ a <> UB /\
  (forall p offs, q = CGet p offs ->
     (forall ans, a = Ok ans -> exists infos, ans = AInfos infos /\ Forall2 (fun o i => data p o = Ok i) offs infos) /\
     (g_lazy g = true -> NoDup offs -> (forall o, In o offs -> exists i, data p o = Ok i) -> exists infos, a = Ok (AInfos infos))).
Proof.
  intros Hi Hq. pose proof Hi as [H1 H2 H3 H4]. destruct q as [p offs|p o i|ap|p offs|p m|]; cbn [c_call true_call] in *.
  - destruct (c_get data g c p offs) as [c1 r] eqn:E. intros [= <- <-].
    destruct (c_get_inv _ _ _ _ _ H1 E) as (Hu & Ed & Es & Ec & Hok & Hl). split; [|split].
    + constructor; rewrite ?Ec, ?Ed, ?Es; auto.
      * intros k w Hk. destruct (Hl _ _ Hk) as [Hk'|(o & -> & Ho & S)]; auto. exists p, o. split; auto. split; auto.
        eapply true_src; eauto.
    + destruct r; discriminate || congruence.
    + intros p' offs' [= <- <-]. split.
      * intros ans Ha. destruct r as [vec|e|]; try discriminate. injection Ha as <-. exists vec. split; auto.
        destruct (Hok vec eq_refl) as [Hs _]. eapply Forall2_impl; [|exact Hs]. intros o i S. eapply true_src; eauto.
      * intros Lz ND Hd. destruct (true_load _ _ Hq H3) as (l & El & _).
        destruct (c_get_complete c p offs _ H1 El ND) as (c2 & vec & E2).
        { intros o Ho. right. right. auto. }
        rewrite E in E2. injection E2 as -> ->. exists vec. reflexivity.
  - intros [= <- <-]. destruct Hq as [Hp Hd]. split; [|split; [discriminate|discriminate]]. unfold c_insert.
    constructor; cbn [c_lru c_disk c_staged]; auto. apply staged_set_forall; auto.
    assert (exists l, match staged_find (cfp p) (c_staged c) with Some x => x | None => get_index_file g p end
                      = mk_index (cfp p) false (lift l) /\ Forall (true_rec p) l) as (l & -> & Ht).
    { destruct (staged_find (cfp p) (c_staged c)) as [x|] eqn:Ef.
      - apply staged_find_in in Ef. rewrite Forall_forall in H4. destruct (H4 _ Ef) as (p' & l & Hp' & E1 & E2 & Ht).
        simpl in E1, E2. assert (p = p') by (apply (apart p p'); auto). subst p'. eauto.
      - exists []. split; auto. }
    exists p, (minsert o i l). split; auto. split; auto. split.
    + unfold x_insert. cbn [snd x_path x_loaded x_map]. now rewrite <- lift_minsert.
    + apply Forall_minsert; auto.
  - unfold c_flush. destruct (true_flush ap (c_staged c) (c_disk c) H4 H3) as (d' & E & Hd). rewrite E. intros [= <- <-].
    split; [|split; [discriminate|discriminate]]. constructor; cbn [c_lru c_disk c_staged]; auto.
  - pose proof (scan_true (c_disk c) p offs Hq H3) as S. unfold c_scan.
    destruct (scan_offsets uniq data g (c_disk c) p offs) as [[ops n]|e|]; [| |contradiction]; intros [= <- <-];
      (split; [|split; [discriminate|discriminate]]); auto. constructor; auto.
  - pose proof (scan_file_true (c_disk c) p m Hq H3) as S. unfold c_scan.
    destruct (scan_file uniq data data_offsets g (c_disk c) p m) as [[ops n]|e|]; [| |contradiction]; intros [= <- <-];
      (split; [|split; [discriminate|discriminate]]); auto. constructor; auto.
  - intros [= <- <-]. split; [|split; [discriminate|discriminate]]. constructor; cbn [c_clear c_lru c_disk c_staged lru_clear l_capacity l_map]; auto.
    intros k w; discriminate.
Qed.

Lemma inv_new d cap : 1 <= cap -> true_disk data g P d -> inv (cache_new d cap).
Proof. intros H1 H2. constructor; cbn; auto. intros k w; discriminate. Qed.

(* C18 *)
Lemma history_true calls : forall c c' log, inv c -> Forall (true_call data P) calls ->
  c_calls uniq data data_offsets g c calls = (c', log) ->
  inv c' /\ map fst log = calls /\
  Forall (fun e => snd e <> UB /\
    forall p offs, fst e = CGet p offs ->
     (forall ans, snd e = Ok ans -> exists infos, ans = AInfos infos /\ Forall2 (fun o i => data p o = Ok i) offs infos) /\
     (g_lazy g = true -> NoDup offs -> (forall o, In o offs -> exists i, data p o = Ok i) -> exists infos, snd e = Ok (AInfos infos))) log.
Proof.
  induction calls as [|q calls IH]; intros c c' log Hi Hq; cbn [c_calls].
  - intros [= <- <-]. auto.
  - inversion Hq as [|? ? Hq1 Hq2]; subst.
    destruct (c_call uniq data data_offsets g c q) as [c1 a] eqn:E1.
    destruct (c_calls uniq data data_offsets g c1 calls) as [c2 rest] eqn:E2. intros [= <- <-].
    destruct (inv_step _ _ _ _ Hi Hq1 E1) as (Hi1 & Hu & Hg). destruct (IH _ _ _ Hi1 Hq2 E2) as (Hi2 & Em & Hf).
    split; auto. split; [simpl; congruence|]. constructor; auto.
Qed.
End Cache.
