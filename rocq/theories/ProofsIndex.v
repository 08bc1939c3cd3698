From Coq Require Import Lia Sorted.
From Verif Require Import Base BaseLemmas ModelInfo ModelStream SpecStream ProofsStream ModelIndex SpecIndex.
Local Open Scope nat_scope.

(* ---- sorted association lists ---- *)
Section Maps.
Context {V : Type}.
Implicit Types m : list (Z * V).

Lemma sorted_inv m k v : sorted_keys ((k, v) :: m) -> sorted_keys m /\ Forall (fun e => (k < fst e)%Z) m.
Proof. intros H. inversion H; subst. auto. Qed.

Lemma mfind_lower k m : Forall (fun e => (k < fst e)%Z) m -> mfind k m = None.
Proof.
  induction 1 as [|[k' v] m H _ IH]; simpl in *; auto. destruct (Z.eqb_spec k k'); [lia|auto].
Qed.

Lemma Forall_minsert (P : Z * V -> Prop) k v m : P (k, v) -> Forall P m -> Forall P (minsert k v m).
Proof.
  intros Hk H. induction H as [|[k' v'] m H Hm IH]; simpl; auto.
  destruct (k <? k')%Z; auto. destruct (k =? k')%Z; auto.
Qed.

Lemma Forall_mset (P : Z * V -> Prop) k v m : P (k, v) -> Forall P m -> Forall P (mset k v m).
Proof.
  intros Hk H. induction H as [|[k' v'] m H Hm IH]; simpl; auto.
  destruct (k <? k')%Z; auto. destruct (k =? k')%Z; auto.
Qed.

Lemma minsert_sorted k v m : sorted_keys m -> sorted_keys (minsert k v m).
Proof.
  induction m as [|[k' v'] m IH]; intros H; simpl.
  - constructor; constructor.
  - apply sorted_inv in H as [H1 H2]. destruct (Z.ltb_spec k k').
    + constructor; [constructor; auto|]. constructor; simpl; auto.
      eapply Forall_impl; [|exact H2]. simpl. intros; lia.
    + destruct (Z.eqb_spec k k'); [constructor; auto|]. constructor; [exact (IH H1)|]. apply Forall_minsert; auto. simpl. lia.
Qed.

Lemma mset_sorted k v m : sorted_keys m -> sorted_keys (mset k v m).
Proof.
  induction m as [|[k' v'] m IH]; intros H; simpl.
  - constructor; constructor.
  - apply sorted_inv in H as [H1 H2]. destruct (Z.ltb_spec k k').
    + constructor; [constructor; auto|]. constructor; simpl; auto.
      eapply Forall_impl; [|exact H2]. simpl. intros; lia.
    + destruct (Z.eqb_spec k k') as [->|]; [constructor; auto|]. constructor; [exact (IH H1)|]. apply Forall_mset; auto. simpl. lia.
Qed.

Lemma mfind_minsert k v m k' : sorted_keys m ->
  mfind k' (minsert k v m) = match mfind k' m with Some x => Some x | None => if (k' =? k)%Z then Some v else None end.
Proof.
  induction m as [|[k0 v0] m IH]; intros H; simpl.
  - destruct (k' =? k)%Z; auto.
  - apply sorted_inv in H as [H1 H2]. destruct (Z.ltb_spec k k0); simpl.
    + destruct (Z.eqb_spec k' k) as [E|E].
      * subst k'. destruct (Z.eqb_spec k k0); [lia|]. rewrite mfind_lower; auto. eapply Forall_impl; [|exact H2]. simpl; lia.
      * destruct (k' =? k0)%Z; auto. now destruct (mfind k' m).
    + destruct (Z.eqb_spec k k0) as [->|]; simpl.
      * destruct (k' =? k0)%Z; auto. now destruct (mfind k' m).
      * rewrite IH by auto. destruct (k' =? k0)%Z; auto.
Qed.

Lemma mfind_mset k v m k' : sorted_keys m ->
  mfind k' (mset k v m) = if (k' =? k)%Z then Some v else mfind k' m.
Proof.
  induction m as [|[k0 v0] m IH]; intros H; simpl.
  - destruct (k' =? k)%Z; auto.
  - apply sorted_inv in H as [H1 H2]. destruct (Z.ltb_spec k k0); simpl.
    + destruct (Z.eqb_spec k' k) as [E|E]; auto.
    + destruct (Z.eqb_spec k k0) as [->|]; simpl.
      * destruct (Z.eqb_spec k' k0); auto.
      * rewrite IH by auto. destruct (Z.eqb_spec k' k0) as [->|]; auto. destruct (Z.eqb_spec k0 k); [lia|auto].
Qed.

Lemma mset_length k v m : sorted_keys m ->
  length (mset k v m) = match mfind k m with Some _ => length m | None => S (length m) end.
Proof.
  induction m as [|[k0 v0] m IH]; intros H; simpl; auto.
  apply sorted_inv in H as [H1 H2]. destruct (Z.ltb_spec k k0).
  - destruct (Z.eqb_spec k k0); [lia|]. rewrite mfind_lower; auto. eapply Forall_impl; [|exact H2]. simpl; lia.
  - destruct (Z.eqb_spec k k0) as [->|]; simpl; auto. rewrite IH by auto. now destruct (mfind k m).
Qed.

Lemma mfind_in k v m : mfind k m = Some v -> In (k, v) m.
Proof.
  induction m as [|[k0 v0] m IH]; simpl; [discriminate|]. destruct (Z.eqb_spec k k0) as [->|]; auto. intros [= ->]. auto.
Qed.

Lemma in_mfind k v m : sorted_keys m -> In (k, v) m -> mfind k m = Some v.
Proof.
  induction m as [|[k0 v0] m IH]; simpl; intros H; [tauto|]. apply sorted_inv in H as [H1 H2].
  intros [[= -> ->]|Hin]; [now rewrite Z.eqb_refl|].
  rewrite Forall_forall in H2. pose proof (H2 _ Hin). simpl in *. destruct (Z.eqb_spec k k0); [lia|auto].
Qed.

Lemma sorted_ext m1 m2 : sorted_keys m1 -> sorted_keys m2 -> (forall k, mfind k m1 = mfind k m2) -> m1 = m2.
Proof.
  revert m2; induction m1 as [|[k v] m1 IH]; intros [|[k' v'] m2] H1 H2 E; auto.
  - specialize (E k'). simpl in E. rewrite Z.eqb_refl in E. discriminate.
  - specialize (E k). simpl in E. rewrite Z.eqb_refl in E. discriminate.
  - apply sorted_inv in H1 as [H1 L1]. apply sorted_inv in H2 as [H2 L2].
    assert (k = k').
    { pose proof (E k) as Ek. pose proof (E k') as Ek'. simpl in Ek, Ek'. rewrite Z.eqb_refl in *.
      destruct (Z.eqb_spec k k') as [|N]; auto. destruct (Z.eqb_spec k' k); [lia|].
      destruct (Z.lt_ge_cases k k').
      - rewrite mfind_lower in Ek; [discriminate|]. eapply Forall_impl; [|exact L2]. simpl; lia.
      - rewrite mfind_lower in Ek'; [discriminate|]. eapply Forall_impl; [|exact L1]. simpl; lia. }
    subst k'. pose proof (E k) as Ek. simpl in Ek. rewrite Z.eqb_refl in Ek. injection Ek as <-.
    f_equal. apply IH; auto. intros x. pose proof (E x) as Ex. simpl in Ex.
    destruct (Z.eqb_spec x k) as [Exk|Exk]; auto. subst x. rewrite !mfind_lower; auto.
Qed.

Definition ins_all m (es : list (Z * V)) : list (Z * V) := fold_left (fun m e => minsert (fst e) (snd e) m) es m.

Lemma ins_all_sorted es : forall m, sorted_keys m -> sorted_keys (ins_all m es).
Proof. induction es; simpl; auto using minsert_sorted. Qed.

Lemma mfind_ins_all es k : forall m, sorted_keys m ->
  mfind k (ins_all m es) = match mfind k m with Some x => Some x | None => mfind k es end.
Proof.
  induction es as [|[k0 v0] es IH]; intros m H; simpl.
  - now destruct (mfind k m).
  - unfold ins_all in *. rewrite IH by now apply minsert_sorted. rewrite mfind_minsert by auto.
    destruct (mfind k m); auto. now destruct (k =? k0)%Z.
Qed.

Lemma ins_all_app m a b : ins_all m (a ++ b) = ins_all (ins_all m a) b.
Proof. unfold ins_all. apply fold_left_app. Qed.

Lemma mfind_app k (a b : list (Z * V)) : mfind k (a ++ b) = match mfind k a with Some x => Some x | None => mfind k b end.
Proof. induction a as [|[k0 v0] a IH]; simpl; auto. destruct (k =? k0)%Z; auto. Qed.

Lemma ins_all_nil es : sorted_keys es -> ins_all [] es = es.
Proof.
  intros H. apply sorted_ext; auto. { apply ins_all_sorted. constructor. }
  intros k. rewrite mfind_ins_all by constructor. reflexivity.
Qed.
End Maps.

(* ---- paths ---- *)
Lemma extension_ok q : extension (q ++ file_ext)%string = file_ext.
Proof.
  unfold extension.
  assert (H : forall acc, extension_ (q ++ file_ext)%string acc = Some file_ext).
  { induction q as [|c q IH]; intros acc; [reflexivity|]. cbn [String.append extension_].
    destruct (Ascii.eqb c "/"); [apply IH|]. destruct (Ascii.eqb c "."); apply IH. }
  now rewrite H.
Qed.

Section Index.
Context {F : Type}.
Notation records := (list (Z * info F)).
Notation stream := (list (tok F)).
Implicit Types d : @disk F.

Lemma upd_same d p c : upd d p c p = c.
Proof. unfold upd. now rewrite String.eqb_refl. Qed.

Lemma upd_other d p c q : q <> p -> upd d p c q = d q.
Proof. intros H. unfold upd. apply String.eqb_neq in H. now rewrite H. Qed.

Definition entry (e : Z * info F) : stream := [KStart; KLL (fst e)] ++ w_info (snd e) ++ [KEnd].
Definition entries (l : records) : stream := concat (map entry l).

Lemma w_entries_lift l : w_entries (lift l) = Ok (entries l).
Proof.
  unfold w_entries, lift, entries.
  replace (mapM w_entry (map (fun e => (fst e, Some (snd e))) l)) with (Ok (map entry l)); [reflexivity|].
  induction l as [|e l IH]; cbn [map mapM]; auto. rewrite <- IH. reflexivity.
Qed.

Lemma entries_app a b : entries (a ++ b) = entries a ++ entries b.
Proof. unfold entries. rewrite map_app, concat_app. reflexivity. Qed.

Lemma w_index_lift l : w_index (lift l) = Ok (KU8 index_version :: entries l).
Proof. unfold w_index. now rewrite w_entries_lift. Qed.

Lemma r_entries_end fuel m (s : stream) : r_entries (S fuel) m (KEnd :: s) = r_entries (S fuel) m s.
Proof. reflexivity. Qed.

Lemma r_entries_cons fuel m e (s : stream) :
  r_entries (S fuel) m (entry e ++ s) = r_entries fuel (minsert (fst e) (Some (snd e)) m) (KEnd :: s).
Proof.
  unfold entry. rewrite <- !app_assoc. cbn [app r_entries s_next obind r_ll].
  rewrite info_roundtrip. reflexivity.
Qed.

Lemma r_entries_ok l : forall fuel m (s : stream),
  r_entries (length l + S fuel) m (entries l ++ s) = r_entries (S fuel) (ins_all m (lift l)) s.
Proof.
  induction l as [|e l IH]; intros fuel m s; [reflexivity|].
  cbn [length Nat.add entries map concat]. fold (entries l). rewrite <- app_assoc, r_entries_cons.
  replace (length l + S fuel) with (S (length l + fuel)) by lia. rewrite r_entries_end.
  replace (S (length l + fuel)) with (length l + S fuel) by lia. rewrite IH. reflexivity.
Qed.

Lemma entries_length l : length l <= length (entries l).
Proof.
  unfold entries. induction l; cbn [map concat length]; auto. rewrite app_length.
  unfold entry at 1. cbn [app length]. lia.
Qed.

Lemma r_index_ok m l : r_index m (KU8 index_version :: entries l) = Ok (ins_all m (lift l)).
Proof.
  unfold r_index. cbn [r_u8 obind assert_]. rewrite N.eqb_refl. cbn [assert_ obind].
  pose proof (entries_length l) as L.
  replace (S (length (entries l))) with (length l + S (length (entries l) - length l)) by lia.
  pose proof (r_entries_ok l (length (entries l) - length l) m []) as R. rewrite app_nil_r in R. rewrite R. reflexivity.
Qed.

Lemma lift_app (a b : records) : lift (a ++ b) = lift a ++ lift b.
Proof. apply map_app. Qed.

Lemma mfind_lift k (l : records) : mfind k (lift l) = option_map Some (mfind k l).
Proof. induction l as [|[k0 v0] l IH]; simpl; auto. destruct (k =? k0)%Z; auto. Qed.

Lemma lift_sorted (l : records) : sorted_keys l -> sorted_keys (lift l).
Proof.
  induction l as [|[k v] l IH]; intros H; [constructor|]. apply sorted_inv in H as [H1 H2].
  simpl. constructor; [exact (IH H1)|]. unfold lift. apply Forall_map. exact H2.
Qed.

Lemma load_some d p s : d p = Some s -> load_index d p = r_index [] s.
Proof.
  intros H. unfold load_index, x_load, new_index; cbn [x_loaded x_path x_map]. rewrite H.
  destruct (r_index [] s); reflexivity.
Qed.

Lemma load_none d p : d p = None -> load_index d p = Ok [].
Proof. intros H. unfold load_index, x_load, new_index; cbn [x_loaded x_path x_map]. now rewrite H. Qed.

(* a file made of complete batches *)
Definition file_of (l : records) : stream := KU8 index_version :: entries l.

Lemma holds_file d p l : d p = Some (file_of l) -> index_holds d p l.
Proof.
  intros H. exists (ins_all [] (lift l)). split; [rewrite (load_some _ _ _ H); apply r_index_ok|].
  split. { apply ins_all_sorted. constructor. }
  intros off. rewrite mfind_ins_all by constructor. simpl. apply mfind_lift.
Qed.

Lemma holds_none d p : d p = None -> index_holds d p [].
Proof. intros H. exists []. rewrite load_none by auto. repeat split; auto. constructor. Qed.

Lemma to_new_ops l p : index_path p ->
  to_new_file (lift l) p = Ok [OpTrunc p; OpAppend p (file_of l)].
Proof.
  intros [q ->]. unfold to_new_file. rewrite extension_ok, String.eqb_refl. cbn [assert_ obind].
  rewrite w_index_lift. reflexivity.
Qed.

Lemma append_ops d l p : index_path p ->
  append_to_file d (lift l) p =
  Ok (match d p with None => [OpTrunc p; OpAppend p (file_of l)] | Some _ => [OpAppend p (entries l)] end).
Proof.
  intros Hp. pose proof (to_new_ops l p Hp) as T. destruct Hp as [q ->]. unfold append_to_file.
  rewrite extension_ok, String.eqb_refl. cbn [assert_ obind].
  destruct (d (q ++ file_ext)%string); auto. rewrite w_entries_lift. reflexivity.
Qed.

Lemma new_file_loads d l p : index_path p -> sorted_keys l ->
  exists ops, to_new_file (lift l) p = Ok ops /\ load_index (apply_ops d ops) p = Ok (lift l) /\
              forall q, q <> p -> apply_ops d ops q = d q.
Proof.
  intros Hp Hs. rewrite (to_new_ops l p Hp). eexists; split; [reflexivity|]. split.
  - rewrite (load_some _ _ (file_of l)).
    + unfold file_of. rewrite r_index_ok. f_equal. apply ins_all_nil. now apply lift_sorted.
    + unfold apply_ops. cbn [fold_left apply_op]. rewrite upd_same, upd_same. reflexivity.
  - intros q Hq. unfold apply_ops. cbn [fold_left apply_op]. now rewrite !upd_other.
Qed.

Lemma append_file d l0 l p : index_path p ->
  (d p = Some (file_of l0) \/ d p = None /\ l0 = []) ->
  exists ops, append_to_file d (lift l) p = Ok ops /\ apply_ops d ops p = Some (file_of (l0 ++ l)) /\
              forall q, q <> p -> apply_ops d ops q = d q.
Proof.
  intros Hp Hd. rewrite (append_ops d l p Hp). eexists; split; [reflexivity|].
  destruct Hd as [E|[E ->]]; rewrite E; unfold apply_ops; cbn [fold_left apply_op]; split.
  - rewrite upd_same, E. unfold file_of. rewrite entries_app. reflexivity.
  - intros q Hq. now rewrite upd_other.
  - now rewrite !upd_same.
  - intros q Hq. now rewrite !upd_other.
Qed.

Lemma batches_file bs : forall d l0 p, index_path p ->
  (d p = Some (file_of l0) \/ d p = None /\ l0 = []) ->
  exists d', append_batches d p bs = Ok d' /\
    (d' p = Some (file_of (l0 ++ concat bs)) \/ d' p = None /\ l0 ++ concat bs = []).
Proof.
  induction bs as [|b bs IH]; intros d l0 p Hp Hd; simpl.
  - exists d. rewrite app_nil_r. split; auto.
  - destruct (append_file d l0 b p Hp Hd) as (ops & E & E' & _). rewrite E. simpl.
    rewrite app_assoc. apply IH; auto.
Qed.

Lemma batches_hold d p bs : index_path p -> d p = None ->
  exists d', append_batches d p bs = Ok d' /\ index_holds d' p (concat bs).
Proof.
  intros Hp Hd. destruct (batches_file bs d [] p Hp) as (d' & E & H); [now right|].
  exists d'. split; auto. simpl in H. destruct H as [H|[H ->]]; [now apply holds_file|now apply holds_none].
Qed.

(* ---- rewriting ---- *)
Lemma write_ops uniq p l b : index_path p ->
  x_write uniq (mk_index p b (lift l)) =
  Ok [OpTrunc (uniq p ++ file_ext); OpAppend (uniq p ++ file_ext) (file_of l); OpRename (uniq p ++ file_ext) p].
Proof.
  intros [q ->]. unfold x_write. cbn [x_path x_map].
  rewrite to_new_ops by (eexists; reflexivity). cbn [obind]. rewrite extension_ok, String.eqb_refl. reflexivity.
Qed.

Lemma write_file uniq d p l b : index_path p -> (uniq p ++ file_ext)%string <> p ->
  exists ops, x_write uniq (mk_index p b (lift l)) = Ok ops /\ apply_ops d ops p = Some (file_of l) /\
    (forall q, q <> p -> q <> (uniq p ++ file_ext)%string -> apply_ops d ops q = d q) /\
    apply_ops d ops (uniq p ++ file_ext)%string = None.
Proof.
  intros Hp Hu. rewrite write_ops by auto. eexists; split; [reflexivity|].
  unfold apply_ops; cbn [fold_left apply_op]. repeat split.
  - rewrite upd_other by auto. rewrite upd_same. rewrite !upd_same. reflexivity.
  - intros q N1 N2. now rewrite !upd_other.
  - now rewrite upd_same.
Qed.

Lemma prefix3 {A} (a b c : A) done rest : [a; b; c] = done ++ rest ->
  done = [] \/ done = [a] \/ done = [a; b] \/ done = [a; b; c].
Proof.
  intros H. destruct done as [|x done]; auto. injection H as <- H. right.
  destruct done as [|x done]; auto. injection H as <- H. right.
  destruct done as [|x done]; auto. injection H as <- H. right.
  destruct done as [|x done]; auto. discriminate.
Qed.

Lemma write_crash uniq d p l b ops d' : index_path p -> (uniq p ++ file_ext)%string <> p ->
  x_write uniq (mk_index p b (lift l)) = Ok ops -> crashed d ops d' ->
  d' p = d p \/ d' p = Some (file_of l).
Proof.
  intros Hp Hu. rewrite write_ops by auto. intros [= <-] (done & rest & E & H).
  pose proof (prefix3 _ _ _ _ _ E) as C.
  assert (N : p <> (uniq p ++ file_ext)%string) by congruence.
  destruct H as [->|(q & s & cut & r & -> & Hcut & ->)].
  - destruct C as [->|[->|[->| ->]]]; unfold apply_ops; cbn [fold_left apply_op]; rewrite ?upd_other by auto; auto.
    right. rewrite upd_same, !upd_same. reflexivity.
  - left. destruct C as [->|[->|[->| ->]]]; simpl in E; try discriminate.
    injection E as E _ _. subst. unfold apply_ops; cbn [fold_left apply_op]. now rewrite !upd_other.
Qed.

(* ---- appending and dying ---- *)
Lemma entries_cut l : forall p q, entries l = p ++ q ->
  p = entries l \/
  exists l1 e l2 pre suf, l = l1 ++ e :: l2 /\ p = entries l1 ++ pre /\ entry e = pre ++ suf /\ suf <> [] /\
                          q = suf ++ entries l2.
Proof.
  induction l as [|e l IH]; intros p q E.
  - left. destruct p; [reflexivity|discriminate].
  - change (entries (e :: l)) with (entry e ++ entries l) in *.
    destruct (Nat.lt_ge_cases (length p) (length (entry e))) as [L|L].
    + destruct (app_split _ _ _ _ E L) as (suf & E1 & N & E2). right.
      exists [], e, l, p, suf. auto.
    + destruct (app_split_ge _ _ _ _ E L) as (p' & -> & E2). destruct (IH _ _ E2) as [->|H]; auto.
      right. destruct H as (l1 & e1 & l2 & pre & suf & -> & -> & H). exists (e :: l1), e1, l2, pre, suf.
      split; auto. split; auto. change (entries (e :: l1)) with (entry e ++ entries l1). now rewrite app_assoc.
Qed.

(* reading a record that was cut *)
Lemma r_cut e pre suf fuel m : entry e = pre ++ suf -> suf <> [] ->
  (r_entries (S (S fuel)) m pre = Throw EStream \/ r_entries (S (S fuel)) m pre = Ok m \/
   r_entries (S (S fuel)) m pre = Ok (minsert (fst e) None m) \/
   r_entries (S (S fuel)) m pre = Ok (minsert (fst e) (Some (snd e)) m)) /\
  ((exists t r, suf = t :: r /\ t <> KStart /\ t <> KEnd) -> r_entries (S (S fuel)) m (pre ++ [KTorn]) = Throw EStream).
Proof.
  unfold entry. remember (w_info (snd e)) as w eqn:Ew. intros E N. destruct pre as [|t pre]; cbn [app] in *.
  { split; [auto|]. intros (t & r & -> & H1 & H2). injection E as <- E. congruence. }
  injection E as <- E. destruct pre as [|t pre]; cbn [app] in *.
  { split; auto. }
  injection E as <- E. cbn [r_entries s_next obind r_ll].
  destruct pre as [|t pre]; [split; [auto|reflexivity]|]. remember (t :: pre) as p' eqn:Ep.
  assert (Np : p' <> []) by (subst; discriminate). clear Ep t pre.
  destruct (Nat.lt_ge_cases (length p') (length w)) as [L|L].
  - destruct (app_split _ _ _ _ E L) as (s1 & E1 & N1 & _).
    rewrite Ew in E1. destruct (info_cut (snd e) p' s1 E1 Np N1) as [H1 H2]. rewrite H1. split; auto. intros _.
    cbn [r_entries s_next obind r_ll app]. now rewrite H2.
  - destruct (app_split_ge _ _ _ _ E L) as (s1 & -> & E2).
    destruct s1; [|destruct s1, suf; simpl in E2; try discriminate; congruence]. simpl in E2. subst suf.
    rewrite app_nil_r. split.
    + right. right. right. rewrite Ew, <- (app_nil_r (w_info (snd e))), info_roundtrip. reflexivity.
    + intros (t & r & [= <- <-] & _ & H). congruence.
Qed.

Lemma crash_result_prefix (l0 l1 l2 : records) : crash_result l0 (l1 ++ l2) (Ok (ins_all [] (lift (l0 ++ l1)))).
Proof.
  split; intros off i; rewrite mfind_ins_all by constructor; simpl; rewrite mfind_lift, !mfind_app.
  - intros H. destruct (mfind off l0), (mfind off l1); simpl in H; congruence.
  - intros ->. reflexivity.
Qed.

Lemma load_cut (l0 b : records) cut : torn_of (entries b) cut -> crash_result l0 b (r_index [] (file_of l0 ++ cut)).
Proof.
  intros (p & q & E & H).
  destruct (entries_cut b p q E) as [->|(l1 & e & l2 & pre & suf & -> & -> & E1 & N & ->)].
  - (* everything was written *)
    assert (q = []). { apply (f_equal (@length (tok F))) in E. rewrite app_length in E. destruct q; auto. simpl in E. lia. }
    subst q. destruct H as [->|[(t & r & H & _) _]]; [|discriminate].
    unfold file_of. cbn [app]. rewrite <- entries_app, r_index_ok.
    pose proof (crash_result_prefix l0 b []) as C. rewrite app_nil_r in C. exact C.
  - assert (R : forall tl, r_index [] (file_of l0 ++ entries l1 ++ tl) =
       r_entries (S (S (length (entries (l0 ++ l1) ++ tl) - length (l0 ++ l1) - 1))) (ins_all [] (lift (l0 ++ l1))) tl \/
       tl = []).
    { intros tl. destruct tl as [|t tl]; [now right|]. left. unfold file_of, r_index. cbn [app r_u8 obind assert_].
      rewrite N.eqb_refl. cbn [assert_ obind]. rewrite app_assoc, <- entries_app.
      pose proof (entries_length (l0 ++ l1)) as L. rewrite <- r_entries_ok. f_equal. rewrite (app_length (entries _)). cbn [length]. clear - L. lia. }
    destruct H as [->|[Ht ->]].
    + rewrite <- app_assoc || idtac. destruct (R pre) as [R'| ->].
      * rewrite R'. destruct (r_cut e pre suf (length (entries (l0 ++ l1) ++ pre) - length (l0 ++ l1) - 1)
            (ins_all [] (lift (l0 ++ l1))) E1 N) as [[C|[C|[C|C]]] _]; rewrite C; cbn [crash_result]; auto.
        -- exact (crash_result_prefix l0 l1 (e :: l2)).
        -- destruct (crash_result_prefix l0 l1 (e :: l2)) as [P1 P2].
           split; intros off i; rewrite mfind_minsert by (apply ins_all_sorted; constructor); intros H.
           ++ apply P1. destruct (mfind off _); auto. destruct (off =? _)%Z; congruence.
           ++ now rewrite (P2 _ _ H).
        -- replace (minsert (fst e) (Some (snd e)) (ins_all [] (lift (l0 ++ l1))))
             with (ins_all [] (lift (l0 ++ l1 ++ [e]))).
           2:{ rewrite app_assoc, lift_app, ins_all_app. reflexivity. }
           pose proof (crash_result_prefix l0 (l1 ++ [e]) l2) as C2. rewrite <- app_assoc in C2. exact C2.
      * rewrite app_nil_r. unfold file_of. cbn [app]. rewrite <- entries_app, r_index_ok.
        exact (crash_result_prefix l0 l1 (e :: l2)).
    + rewrite <- app_assoc. destruct (R (pre ++ [KTorn])) as [R'|R'].
      * rewrite R'. destruct (r_cut e pre suf (length (entries (l0 ++ l1) ++ pre ++ [KTorn]) - length (l0 ++ l1) - 1)
            (ins_all [] (lift (l0 ++ l1))) E1 N) as [_ C]. rewrite C; [reflexivity|].
        destruct Ht as (t & r & E2 & H1 & H2). destruct suf as [|t' suf]; [congruence|]. injection E2 as -> _. eauto.
      * destruct pre; discriminate.
Qed.

Lemma prefix1 {A} (a : A) done rest : [a] = done ++ rest -> done = [] /\ rest = [a] \/ done = [a] /\ rest = [].
Proof.
  intros H. destruct done as [|x done]; simpl in H; auto. injection H as <- H. right. destruct done, rest; try discriminate. auto.
Qed.

Lemma prefix2 {A} (a b : A) done rest : [a; b] = done ++ rest ->
  done = [] /\ rest = [a; b] \/ done = [a] /\ rest = [b] \/ done = [a; b] /\ rest = [].
Proof.
  intros H. destruct done as [|x done]; simpl in H; auto. injection H as <- H. right.
  destruct (prefix1 _ _ _ H) as [[-> ->]|[-> ->]]; auto.
Qed.

Lemma append_crash d p l0 b ops d' : index_path p ->
  (d p = Some (file_of l0) \/ d p = None /\ l0 = []) ->
  append_to_file d (lift b) p = Ok ops -> crashed d ops d' ->
  crash_result l0 b (load_index d' p).
Proof.
  intros Hp Hd. rewrite (append_ops d b p Hp). intros [= <-] (done & rest & E & H).
  destruct Hd as [Ed|[Ed ->]]; rewrite Ed in E.
  - apply prefix1 in E as [[-> ->]|[-> ->]].
    + destruct H as [->|(q & s & cut & r & E & Hc & ->)].
      * unfold apply_ops. cbn [fold_left]. rewrite (load_some _ _ _ Ed). unfold file_of. rewrite r_index_ok.
        pose proof (crash_result_prefix l0 [] b) as C. rewrite app_nil_r in C. exact C.
      * injection E as <- <- <-. unfold apply_ops; cbn [fold_left apply_op].
        rewrite (load_some _ _ (file_of l0 ++ cut)) by (rewrite upd_same, Ed; reflexivity). now apply load_cut.
    + destruct H as [->|(q & s & cut & r & E & _)]; [|discriminate]. unfold apply_ops; cbn [fold_left apply_op].
      rewrite (load_some _ _ (file_of l0 ++ entries b)) by (rewrite upd_same, Ed; reflexivity). apply load_cut.
      exists (entries b), []. rewrite app_nil_r. auto.
  - apply prefix2 in E as [[-> ->]|[[-> ->]|[-> ->]]].
    + destruct H as [->|(q & s & cut & r & E & _)]; [|discriminate]. unfold apply_ops; cbn [fold_left].
      rewrite load_none by auto. split; intros off i; simpl; discriminate.
    + destruct H as [->|(q & s & cut & r & E & Hc & ->)]; unfold apply_ops; cbn [fold_left apply_op].
      * rewrite (load_some _ _ []) by (rewrite upd_same; reflexivity). reflexivity.
      * injection E as <- <- <-. rewrite (load_some _ _ cut) by (rewrite !upd_same; reflexivity).
        destruct Hc as (p1 & p2 & E & Hc). destruct p1 as [|t p1].
        -- destruct Hc as [->|[_ ->]]; reflexivity.
        -- unfold file_of in E. cbn [app] in E. injection E as <- E.
           assert (T : exists cut', cut = file_of [] ++ cut' /\ torn_of (entries b) cut').
           { destruct Hc as [->|[Ht ->]]; [exists p1|exists (p1 ++ [KTorn])]; (split; [reflexivity|]); exists p1, p2; auto. }
           destruct T as (cut' & -> & T). now apply load_cut.
    + destruct H as [->|(q & s & cut & r & E & _)]; [|discriminate]. unfold apply_ops; cbn [fold_left apply_op].
      rewrite (load_some _ _ (file_of [] ++ entries b)) by (rewrite !upd_same; reflexivity). apply load_cut.
      exists (entries b), []. rewrite app_nil_r. auto.
Qed.

(* for every old content and every batch there is a point of death that makes the file unreadable,
   and it stays so when later batches are appended *)
Lemma append_crash_bad d p l0 e b : index_path p -> d p = Some (file_of l0) ->
  exists ops d', append_to_file d (lift (e :: b)) p = Ok ops /\ crashed d ops d'
    /\ load_index d' p = Throw EStream /\
    forall e2 b2 ops2, append_to_file d' (lift (e2 :: b2)) p = Ok ops2 ->
      load_index (apply_ops d' ops2) p = Throw EStream.
Proof.
  intros Hp Hd. rewrite (append_ops d (e :: b) p Hp), Hd. eexists.
  exists (apply_op d (OpAppend p [KStart])). split; [reflexivity|]. split; [|split].
  - exists [], [OpAppend p (entries (e :: b))]. split; [reflexivity|]. right.
    exists p, (entries (e :: b)), [KStart], []. split; [reflexivity|]. split; [|reflexivity].
    eexists [KStart], _. split; [|left; reflexivity]. reflexivity.
  - rewrite (load_some _ _ (file_of l0 ++ [KStart])).
    2:{ cbn [apply_op]. now rewrite upd_same, Hd. }
    unfold r_index, file_of. cbn [app r_u8 obind assert_]. rewrite N.eqb_refl. cbn [assert_ obind].
    pose proof (entries_length l0).
    replace (S (length (entries l0 ++ [KStart]))) with (length l0 + S (length (entries l0) + 1 - length l0)).
    2:{ rewrite app_length. simpl. lia. }
    rewrite r_entries_ok. reflexivity.
  - intros e2 b2 ops2. rewrite append_ops by auto. cbn [apply_op]. rewrite upd_same, Hd. intros [= <-].
    rewrite (load_some _ _ (file_of l0 ++ [KStart] ++ entries (e2 :: b2))).
    2:{ unfold apply_ops; cbn [fold_left apply_op]. rewrite !upd_same. now rewrite <- app_assoc. }
    unfold r_index, file_of. cbn [app r_u8 obind assert_]. rewrite N.eqb_refl. cbn [assert_ obind].
    pose proof (entries_length l0).
    match goal with |- r_entries (S ?n) _ _ = _ => replace (S n) with (length l0 + S (n - length l0)) end.
    2:{ rewrite app_length. cbn [length]. lia. }
    rewrite r_entries_ok. reflexivity.
Qed.
Lemma complete_iff (d : @disk F) p l : complete_file d p l <-> (d p = Some (file_of l) \/ d p = None /\ l = []).
Proof.
  unfold complete_file. split.
  - intros [H|(s & E & H)]; auto. left. rewrite w_index_lift in E. injection E as <-. exact H.
  - intros [H|H]; auto. right. eexists; split; [apply w_index_lift|exact H].
Qed.


(* ---- the same in terms of complete files ---- *)
Lemma save_load d l p b uniq : index_path p -> (uniq p ++ file_ext)%string <> p -> sorted_keys l ->
  exists ops, x_write uniq (mk_index p b (lift l)) = Ok ops /\ load_index (apply_ops d ops) p = Ok (lift l) /\
    (forall q, q <> p -> q <> (uniq p ++ file_ext)%string -> apply_ops d ops q = d q).
Proof.
  intros Hp Hu Hs. destruct (write_file uniq d p l b Hp Hu) as (ops & E & H1 & H2 & _). exists ops.
  split; auto. split; auto. rewrite (load_some _ _ _ H1), <- (ins_all_nil (lift l)) by (now apply lift_sorted).
  unfold file_of. rewrite r_index_ok. now rewrite (ins_all_nil (lift l)) by (now apply lift_sorted).
Qed.

Lemma write_crash_load uniq d p l b ops d' : index_path p -> (uniq p ++ file_ext)%string <> p -> sorted_keys l ->
  x_write uniq (mk_index p b (lift l)) = Ok ops -> crashed d ops d' ->
  load_index d' p = load_index d p \/ load_index d' p = Ok (lift l).
Proof.
  intros Hp Hu Hs E Hc. destruct (write_crash uniq d p l b ops d' Hp Hu E Hc) as [H|H].
  - left. unfold load_index, x_load, new_index. cbn [x_loaded x_path]. now rewrite H.
  - right. rewrite (load_some _ _ _ H). unfold file_of. rewrite r_index_ok. now rewrite ins_all_nil by (now apply lift_sorted).
Qed.

Lemma append_crash_load d p l0 b ops d' : index_path p -> complete_file d p l0 ->
  append_to_file d (lift b) p = Ok ops -> crashed d ops d' -> crash_result l0 b (load_index d' p).
Proof. intros Hp Hc. apply complete_iff in Hc. now apply append_crash. Qed.

Lemma append_crash_unreadable d p l0 e b : index_path p -> d p <> None -> complete_file d p l0 ->
  exists ops d', append_to_file d (lift (e :: b)) p = Ok ops /\ crashed d ops d'
    /\ load_index d' p = Throw EStream /\
    forall e2 b2 ops2, append_to_file d' (lift (e2 :: b2)) p = Ok ops2 ->
      load_index (apply_ops d' ops2) p = Throw EStream.
Proof.
  intros Hp Hn Hc. apply complete_iff in Hc as [Hc|[Hc _]]; [|congruence]. now apply (append_crash_bad d p l0).
Qed.

(* cut between an offset and its description: a null description *)
Lemma append_crash_null d p l0 e b : index_path p -> d p <> None -> complete_file d p l0 ->
  exists ops d', append_to_file d (lift (e :: b)) p = Ok ops /\ crashed d ops d' /\
    load_index d' p = Ok (minsert (fst e) None (ins_all [] (lift l0))).
Proof.
  intros Hp Hn Hc. apply complete_iff in Hc as [Hd|[Hd _]]; [|congruence].
  rewrite (append_ops d (e :: b) p Hp), Hd. eexists.
  exists (apply_op d (OpAppend p [KStart; KLL (fst e)])). split; [reflexivity|]. split.
  - exists [], [OpAppend p (entries (e :: b))]. split; [reflexivity|]. right.
    exists p, (entries (e :: b)), [KStart; KLL (fst e)], []. split; [reflexivity|]. split; [|reflexivity].
    eexists [KStart; KLL (fst e)], _. split; [|left; reflexivity]. reflexivity.
  - rewrite (load_some _ _ (file_of l0 ++ [KStart; KLL (fst e)])).
    2:{ cbn [apply_op]. now rewrite upd_same, Hd. }
    unfold r_index, file_of. cbn [app r_u8 obind assert_]. rewrite N.eqb_refl. cbn [assert_ obind].
    pose proof (entries_length l0) as L.
    replace (S (length (entries l0 ++ [KStart; KLL (fst e)]))) with (length l0 + S (S (length (entries l0) + 1 - length l0))).
    2:{ rewrite app_length. simpl. lia. }
    rewrite r_entries_ok. reflexivity.
Qed.
End Index.
