From Coq Require Import Lia Sorted Permutation DecimalString DecimalFacts DecimalZ.
From Verif Require Import Base BaseLemmas ModelInfo ModelStream ModelIndex SpecIndex ProofsIndex ModelLRU ModelCache SpecCache ProofsCache.
Local Open Scope nat_scope.

(* ---- names ---- *)
Fixpoint numeric (s : string) : bool :=
  match s with
  | EmptyString => true
  | String c r => let n := nat_of_ascii c in ((Nat.leb 48 n && Nat.leb n 57) || Nat.eqb n 45) && numeric r
  end.

Lemma numeric_uint (d : Decimal.uint) : numeric (NilEmpty.string_of_uint d) = true.
Proof. induction d; simpl; auto. Qed.

Lemma decimal_numeric z : numeric (decimal z) = true.
Proof.
  unfold decimal, NilZero.string_of_int. destruct (Z.to_int z) as [d|d]; unfold NilZero.string_of_uint.
  - destruct d; try apply numeric_uint. reflexivity.
  - cbn [numeric nat_of_ascii]. destruct d; try apply numeric_uint. reflexivity.
Qed.

Lemma decimal_inj a b : decimal a = decimal b -> a = b.
Proof.
  unfold decimal. intros H. apply (f_equal NilZero.int_of_string) in H.
  rewrite !NilZero.isi in H by (destruct a, b; simpl; try discriminate; intros E; injection E; apply DecimalPos.Unsigned.to_uint_nonnil).
  injection H as H. apply (f_equal Z.of_int) in H. now rewrite !DecimalZ.of_to in H.
Qed.

Lemma ends_plain_app_false a c r : ends_plain a = true -> numeric (a ++ String c r) = false.
Proof.
  induction a as [|x a IH]; [discriminate|]. cbn [String.append numeric]. destruct a as [|y a].
  - cbn [ends_plain]. intros H. apply negb_true_iff in H. cbv zeta. rewrite H. reflexivity.
  - intros H. rewrite IH by exact H. now rewrite andb_false_r.
Qed.

Lemma numeric_app_l a b : numeric (a ++ b) = true -> numeric a = true.
Proof.
  induction a as [|c a IH]; [reflexivity|]. cbn [String.append numeric]. intros H. apply andb_prop in H as [H1 H2].
  cbv zeta in *. now rewrite H1, IH.
Qed.

Lemma plain_not_numeric a : ends_plain a = true -> numeric a = false.
Proof.
  induction a as [|x a IH]; [discriminate|]. cbn [numeric]. destruct a as [|y a].
  - cbn [ends_plain]. intros H. apply negb_true_iff in H. cbv zeta. rewrite H. reflexivity.
  - intros H. rewrite IH by exact H. now rewrite andb_false_r.
Qed.

Lemma ends_plain_tail c a : a <> EmptyString -> ends_plain (String c a) = ends_plain a.
Proof. destruct a; [congruence|reflexivity]. Qed.

Lemma split_unique a : forall b x y, (a ++ x = b ++ y)%string -> ends_plain a = true -> ends_plain b = true ->
  numeric x = true -> numeric y = true -> a = b /\ x = y.
Proof.
  induction a as [|c a IH]; intros b x y E Ha Hb Hx Hy; [discriminate|].
  destruct b as [|c' b]; [discriminate|]. cbn [String.append] in E. injection E as <- E.
  destruct a as [|c1 a1].
  - destruct b as [|c2 b1].
    + auto.
    + exfalso. cbn [String.append] in E. change (String c2 b1 ++ y)%string with ((String c2 b1) ++ y)%string in E.
      rewrite E in Hx. change (String c2 (b1 ++ y)) with ((String c2 b1) ++ y)%string in Hx. apply numeric_app_l in Hx. rewrite ends_plain_tail in Hb by discriminate.
      apply plain_not_numeric in Hb. congruence.
  - destruct b as [|c2 b1].
    + exfalso. cbn [String.append] in E. rewrite <- E in Hy. change (String c1 (a1 ++ x)) with ((String c1 a1) ++ x)%string in Hy.
      apply numeric_app_l in Hy. rewrite ends_plain_tail in Ha by discriminate. apply plain_not_numeric in Ha. congruence.
    + rewrite ends_plain_tail in Ha, Hb by discriminate. destruct (IH _ _ _ E Ha Hb Hx Hy) as [-> ->]. auto.
Qed.

Lemma append_inj_l (a b c : string) : (a ++ b = a ++ c)%string -> b = c.
Proof. induction a; simpl; auto. intros H. injection H. auto. Qed.

Lemma append_length a b : String.length (a ++ b) = String.length a + String.length b.
Proof. induction a; simpl; auto. Qed.

Lemma append_inj_r (a b c : string) : (a ++ c = b ++ c)%string -> a = b.
Proof.
  revert b; induction a as [|x a IH]; intros b E.
  - destruct b as [|y b]; auto. apply (f_equal String.length) in E. rewrite !append_length in E. simpl in E. lia.
  - destruct b as [|y b].
    + apply (f_equal String.length) in E. rewrite !append_length in E. simpl in E. lia.
    + cbn [String.append] in E. injection E as <- E. now rewrite (IH _ E).
Qed.

Lemma plain_names_apart g (P : string -> Prop) :
  (forall p, P p -> ends_plain (base_name p) = true) ->
  (forall p q, P p -> P q -> base_name p = base_name q -> p = q) -> names_apart g P.
Proof.
  intros H1 H2 p q Hp Hq. split.
  - unfold cache_file_path. destruct (g_shadow g).
    + apply append_inj_r.
    + intros E. apply append_inj_l in E. apply append_inj_l in E. apply append_inj_r in E. auto.
  - intros o o' E. unfold cachekey in E.
    destruct (split_unique _ _ _ _ E (H1 p Hp) (H1 q Hq) (decimal_numeric o) (decimal_numeric o')) as [E1 E2].
    split; auto. now apply decimal_inj.
Qed.

(* ---- scans ---- *)
Section Scan.
Context {F : Type}.
Notation records := (list (Z * info F)).
Variables (uniq : string -> string) (data : string -> Z -> outcome (info F)) (g : config).
Notation cfp := (cache_file_path g).

Lemma zinsert_perm z l : Permutation (zinsert z l) (z :: l).
Proof.
  induction l as [|x l IH]; simpl; auto. destruct (z <=? x)%Z; auto.
  rewrite IH. constructor.
Qed.

Lemma zsort_perm l : Permutation (zsort l) l.
Proof. induction l as [|x l IH]; simpl; auto. rewrite zinsert_perm. now constructor. Qed.

Lemma mfind_combine p offs infos : Forall2 (fun o i => data p o = Ok i) offs infos -> forall o,
  (In o offs -> exists i, data p o = Ok i /\ mfind o (combine offs infos) = Some i) /\
  (~ In o offs -> mfind o (combine offs infos) = None).
Proof.
  induction 1 as [|a i offs infos H Hf IH]; intros o; simpl.
  - split; [tauto|auto].
  - destruct (IH o) as [I1 I2]. destruct (Z.eqb_spec o a) as [E|E].
    + subst. split; [eauto|tauto].
    + split; intros H1; [apply I1|apply I2]; [destruct H1; congruence|tauto].
Qed.

(* what a scan writes *)
Definition wanted (l0 : records) (offs : list Z) : list Z :=
  filter (fun o => match mfind o l0 with Some _ => false | None => true end) offs.

Lemma wanted_in l0 offs o : In o (wanted l0 offs) <-> In o offs /\ mfind o l0 = None.
Proof. unfold wanted. rewrite filter_In. destruct (mfind o l0); split; intros [A B]; split; auto; discriminate. Qed.

Lemma scan_eq d p l0 offs : complete_file d (cfp p) l0 ->
  scan_offsets uniq data g d p offs =
  match wanted l0 offs with
  | [] => Ok ([], 0%N)
  | _ => let* infos := mapM (data p) (zsort (wanted l0 offs)) in
         let* ops := x_write uniq (mk_index (cfp p) true (lift (ins_all [] (l0 ++ combine (zsort (wanted l0 offs)) infos)))) in
         Ok (ops, lenN infos)
  end.
Proof.
  intros Hc. unfold scan_offsets. rewrite (load_inv g d p _ (complete_load d _ l0 Hc)). cbn [obind].
  assert (E : filter (fun o => match x_find (mk_index (cfp p) true (lift (ins_all [] l0))) o with Some _ => false | None => true end) offs
              = wanted l0 offs).
  { apply filter_ext. intros o. unfold x_find. cbn [x_map]. rewrite mfind_lift, mfind_ins_all by constructor. simpl.
    destruct (mfind o l0); reflexivity. }
  rewrite E. destruct (wanted l0 offs) as [|a r] eqn:Ew; [reflexivity|]. rewrite <- Ew.
  destruct (mapM (data p) (zsort (wanted l0 offs))) as [infos|e|]; cbn [obind]; auto.
  rewrite insert_all_eq, ins_all_app. reflexivity.
Qed.

Lemma ins_all_lookup (l : records) o : mfind o (ins_all [] l) = mfind o l.
Proof. now rewrite mfind_ins_all by constructor. Qed.

Lemma complete_holds d p (l : records) : complete_file d p l -> index_holds d p l.
Proof. intros H. apply complete_iff in H as [H|[H ->]]; [now apply holds_file|now apply holds_none]. Qed.


Lemma minsert_length {V} k (v : V) m : sorted_keys m ->
  length (minsert k v m) = match mfind k m with Some _ => length m | None => S (length m) end.
Proof.
  induction m as [|[k0 v0] m IH]; intros H; simpl; auto.
  apply sorted_inv in H as [H1 H2]. destruct (Z.ltb_spec k k0).
  - destruct (Z.eqb_spec k k0); [lia|]. rewrite mfind_lower; auto. eapply Forall_impl; [|exact H2]. simpl; intros; lia.
  - destruct (Z.eqb_spec k k0); auto. simpl. rewrite IH by auto. now destruct (mfind k m).
Qed.

Lemma ins_all_length {V} (es : list (Z * V)) : forall m, sorted_keys m -> NoDup (map fst es) ->
  (forall k, In k (map fst es) -> mfind k m = None) -> length (ins_all m es) = length m + length es.
Proof.
  induction es as [|[k v] es IH]; intros m Hs ND Hn; [simpl; lia|].
  change (ins_all m ((k, v) :: es)) with (ins_all (minsert k v m) es). simpl in ND. inversion ND; subst.
  rewrite IH; auto using minsert_sorted.
  - rewrite minsert_length by auto. rewrite Hn by (now left). simpl. lia.
  - intros k' Hk'. rewrite mfind_minsert by auto. rewrite Hn by (now right). destruct (Z.eqb_spec k' k); auto. congruence.
Qed.

Lemma combine_keys {A B} (a : list A) (b : list B) : length a = length b -> map fst (combine a b) = a.
Proof. revert b; induction a as [|x a IH]; intros [|y b] H; simpl in *; try discriminate; auto. now rewrite IH by lia. Qed.

Lemma ins_all_le {V} (es : list (Z * V)) : forall m, sorted_keys m -> length (ins_all m es) <= length m + length es.
Proof.
  induction es as [|[k v] es IH]; intros m Hs; [simpl; lia|].
  change (ins_all m ((k, v) :: es)) with (ins_all (minsert k v m) es). etransitivity; [apply IH; now apply minsert_sorted|].
  rewrite minsert_length by auto. simpl. destruct (mfind k m); lia.
Qed.

Hypothesis fresh : forall p, (uniq (cfp p) ++ file_ext)%string <> cfp p.

Lemma lift_length (l : records) : length (lift l) = length l.
Proof. apply map_length. Qed.

(* C23 *)
Lemma scan_ok d p offs l0 ops n : complete_file d (cfp p) l0 ->
  scan_offsets uniq data g d p offs = Ok (ops, n) ->
  exists m m', load_index d (cfp p) = Ok m /\ load_index (apply_ops d ops) (cfp p) = Ok m' /\
    completes data p offs m m' /\
    (lenN m' <= lenN m + n)%N /\ (NoDup offs -> lenN m' = lenN m + n)%N /\
    scan_offsets uniq data g (apply_ops d ops) p offs = Ok ([], 0%N) /\
    (exists l, complete_file (apply_ops d ops) (cfp p) l) /\
    (forall q, q <> cfp p -> q <> (uniq (cfp p) ++ file_ext)%string -> apply_ops d ops q = d q).
Proof.
  intros Hc E. pose proof (scan_eq d p l0 offs Hc) as Q. rewrite E in Q.
  exists (lift (ins_all [] l0)).
  destruct (wanted l0 offs) as [|a r] eqn:Ew.
  - injection Q as -> ->. cbn [apply_ops fold_left]. exists (lift (ins_all [] l0)).
    split; [now apply complete_load|]. split; [now apply complete_load|].
    assert (A : forall o, In o offs -> exists v, mfind o l0 = Some v).
    { intros o Ho. destruct (mfind o l0) eqn:Eo; eauto. exfalso.
      assert (I : In o (wanted l0 offs)) by (apply wanted_in; auto). rewrite Ew in I. destruct I. }
    split; [|split; [lia|split; [intros _; lia|split; [exact E|split; [eauto|auto]]]]].
    split; [auto|]. split; [congruence|].
    intros o Ho. destruct (A o Ho) as [v Hv]. exists (Some v). rewrite mfind_lift, ins_all_lookup, Hv. reflexivity.
  - rewrite <- Ew in Q. symmetry in Q. apply obind_ok_inv in Q as (infos & Em & Q).
    set (new := combine (zsort (wanted l0 offs)) infos) in *.
    destruct (write_file uniq d (cfp p) (ins_all [] (l0 ++ new)) true (cfp_index g p) (fresh p)) as (ops' & E' & H1 & H2 & _).
    rewrite E' in Q. cbn [obind] in Q. injection Q as -> <-.
    apply mapM_ok_inv in Em. pose proof (mfind_combine p _ _ Em) as MC. fold new in MC.
    assert (W : forall o, In o (zsort (wanted l0 offs)) <-> In o offs /\ mfind o l0 = None).
    { intros o. rewrite <- wanted_in. split; apply Permutation_in; [|symmetry]; apply zsort_perm. }
    assert (C' : complete_file (apply_ops d ops) (cfp p) (ins_all [] (l0 ++ new))) by (apply complete_iff; auto).
    exists (lift (ins_all [] (l0 ++ new))).
    split; [now apply complete_load|].
    split. { rewrite (complete_load _ _ _ C'), ins_all_nil; [reflexivity|]. apply ins_all_sorted. constructor. }
    assert (L : forall o, mfind o (lift (ins_all [] (l0 ++ new))) =
                option_map Some (match mfind o l0 with Some v => Some v | None => mfind o new end)).
    { intros o. now rewrite mfind_lift, ins_all_lookup, mfind_app. }
    assert (L0 : forall o, mfind o (lift (ins_all [] l0)) = option_map Some (mfind o l0)).
    { intros o. now rewrite mfind_lift, ins_all_lookup. }
    assert (El : length infos = length (zsort (wanted l0 offs))) by (symmetry; eapply Forall2_length; eauto).
    assert (Al : forall o, In o offs -> exists v, (match mfind o l0 with Some v => Some v | None => mfind o new end) = Some v).
    { intros o Ho. destruct (mfind o l0) as [v|] eqn:Eo; eauto.
      destruct (proj1 (MC o)) as (i & _ & Hi); [now apply W|]. eauto. }
    split; [|split; [|split; [|split; [|split; [eauto|auto]]]]].
    + split; [|split].
      * intros o v. rewrite L0, L. destruct (mfind o l0); [auto|discriminate].
      * intros o v. rewrite L0, L. destruct (mfind o l0) eqn:Eo; [discriminate|]. intros Hv _.
        destruct (in_dec Z.eq_dec o (zsort (wanted l0 offs))) as [I|I].
        -- destruct (proj1 (MC o) I) as (i & Hd & Hi). rewrite Hi in Hv. simpl in Hv. injection Hv as <-.
           split; [now apply W in I as [I _]|]. eauto.
        -- rewrite (proj2 (MC o) I) in Hv. discriminate.
      * intros o Ho. rewrite L. destruct (Al o Ho) as [v ->]. simpl. eauto.
    + unfold lenN. rewrite !lift_length, ins_all_app.
      pose proof (ins_all_le new (ins_all [] l0) (ins_all_sorted _ [] ltac:(constructor))) as Le.
      assert (length new <= length infos). { unfold new. rewrite combine_length. lia. }
      lia.
    + intros ND. unfold lenN. rewrite !lift_length, ins_all_app.
      rewrite ins_all_length.
      * assert (length new = length infos). { unfold new. rewrite combine_length. lia. } lia.
      * apply ins_all_sorted. constructor.
      * unfold new. rewrite combine_keys by auto. eapply Permutation_NoDup; [symmetry; apply zsort_perm|]. now apply NoDup_filter.
      * intros k. unfold new. rewrite combine_keys by auto. intros Hk. apply W in Hk as [_ Hk]. rewrite ins_all_lookup. exact Hk.
    + rewrite (scan_eq _ p _ offs C').
      destruct (wanted (ins_all [] (l0 ++ new)) offs) as [|b s] eqn:Ew'; [reflexivity|].
      exfalso. assert (I : In b (wanted (ins_all [] (l0 ++ new)) offs)) by (rewrite Ew'; now left).
      apply wanted_in in I as [I1 I2]. destruct (Al b I1) as [v Hv].
      rewrite ins_all_lookup, mfind_app in I2. congruence.
Qed.

Lemma scan_succeeds d p offs l0 : complete_file d (cfp p) l0 ->
  (forall o, In o offs -> mfind o l0 = None -> exists i, data p o = Ok i) ->
  exists ops n, scan_offsets uniq data g d p offs = Ok (ops, n).
Proof.
  intros Hc H. rewrite (scan_eq d p l0 offs Hc). destruct (wanted l0 offs) as [|a r] eqn:Ew; eauto. rewrite <- Ew.
  destruct (mapM_all_ok (data p) (zsort (wanted l0 offs))) as [infos Em].
  { intros o Ho. apply (Permutation_in _ (zsort_perm _)) in Ho. apply wanted_in in Ho as [Ho1 Ho2]. auto. }
  rewrite Em. cbn [obind].
  destruct (write_file uniq d (cfp p) (ins_all [] (l0 ++ combine (zsort (wanted l0 offs)) infos)) true (cfp_index g p) (fresh p)) as (ops' & E' & _).
  rewrite E'. cbn [obind]. eauto.
Qed.

(* a scan whose offsets are listed k times counts k messages *)
Lemma scan_overcounts d p o i k : complete_file d (cfp p) [] -> data p o = Ok i -> 1 <= k ->
  exists ops m', scan_offsets uniq data g d p (repeat o k) = Ok (ops, N.of_nat k) /\
    load_index (apply_ops d ops) (cfp p) = Ok m' /\ length m' = 1.
Proof.
  intros Hc Hd Hk. destruct (scan_succeeds d p (repeat o k) [] Hc) as (ops & n & E).
  { intros o' Ho _. apply repeat_spec in Ho. subst. eauto. }
  destruct (scan_ok _ _ _ _ _ _ Hc E) as (m & m' & Hm & Hm' & (C1 & C2 & C3) & _).
  exists ops, m'. split; [|split; [exact Hm'|]].
  - rewrite E. do 2 f_equal. pose proof (scan_eq d p [] (repeat o k) Hc) as Q. rewrite E in Q.
    assert (Ew : wanted [] (repeat o k) = repeat o k). { clear. unfold wanted. induction k as [|k IHk]; simpl; auto. simpl in IHk. now rewrite IHk. }
    rewrite Ew in Q. destruct k as [|k]; [lia|]. cbn [repeat] in Q. change (o :: repeat o k) with (repeat o (S k)) in Q. symmetry in Q.
    apply obind_ok_inv in Q as (infos & Em & Q). apply obind_ok_inv in Q as (ops1 & _ & Q). injection Q as _ <-.
    apply mapM_ok_inv in Em. apply Forall2_length in Em. unfold lenN. rewrite <- Em.
    rewrite (Permutation_length (zsort_perm _)), repeat_length. reflexivity.
  - rewrite (complete_load _ _ _ Hc) in Hm. injection Hm as <-.
    destruct (C3 o) as [v Hv]. { destruct k; [lia|]. now left. }
    assert (S : sorted_keys m').
    { destruct (scan_ok _ _ _ _ _ _ Hc E) as (m1 & m2 & _ & Hm2 & _ & _ & _ & _ & (l & Hl) & _).
      rewrite (complete_load _ _ _ Hl) in Hm'. injection Hm' as <-. apply lift_sorted, ins_all_sorted. constructor. }
    assert (A : length m' <= 1).
    { rewrite <- (map_length fst m'). change 1 with (length [o]). apply NoDup_incl_length; [now apply sorted_NoDup|].
      intros x Hx. apply mfind_keys in Hx as [w Hw]. destruct (C2 x w Hw eq_refl) as [Hin _]. apply repeat_spec in Hin. subst. now left. }
    destruct m'; [discriminate|]. simpl in *. lia.
Qed.

(* ---- C24: a scan of a whole file without merging ---- *)
Lemma scan_file_ok data_offsets d p l0 offs infos : complete_file d (cfp p) l0 -> data_offsets p = Ok offs ->
  Forall2 (fun o i => data p o = Ok i) offs infos ->
  exists ops, scan_file uniq data data_offsets g d p false = Ok (ops, lenN infos) /\
    index_holds (apply_ops d ops) (cfp p) (l0 ++ combine offs infos) /\
    (forall q, q <> cfp p -> q <> (uniq (cfp p) ++ file_ext)%string -> apply_ops d ops q = d q).
Proof.
  intros Hc Ho Hf. unfold scan_file, x_reload, x_clear, get_index_file. cbn [x_path new_index].
  pose proof (load_inv g d p _ (complete_load d _ l0 Hc)) as EL. unfold get_index_file, new_index in EL. rewrite EL. cbn [obind].
  rewrite Ho. cbn [obind].
  assert (Em : mapM (data p) offs = Ok infos). { clear -Hf. induction Hf as [|o i offs infos H1 H2 IH]; cbn [mapM]; auto. rewrite H1. cbn [obind]. rewrite IH. reflexivity. }
  rewrite Em. cbn [obind]. rewrite insert_all_eq, <- ins_all_app.
  destruct (write_file uniq d (cfp p) (ins_all [] (l0 ++ combine offs infos)) true (cfp_index g p) (fresh p)) as (ops & E & H1 & H2 & _).
  rewrite E. cbn [obind]. exists ops. split; auto. split; auto.
  destruct (holds_file _ _ _ H1) as (m & Hm & Hs & Hl). exists m. split; auto. split; auto.
  intros off. rewrite Hl, ins_all_lookup. reflexivity.
Qed.
End Scan.

(* ---- a null entry in the index ---- *)
Section Null.
Context {F : Type}.
Variables (uniq : string -> string) (data : string -> Z -> outcome (info F)) (g : config).
Notation cfp := (cache_file_path g).

Lemma w_entries_null (m : list (Z * option (info F))) k : In (k, None) m -> w_entries m = UB.
Proof.
  intros H. unfold w_entries. assert (E : mapM w_entry m = UB); [|now rewrite E].
  induction m as [|[k' [i|]] m IH]; simpl in H; [tauto| |reflexivity].
  cbn [mapM]. cbn [w_entry snd obind]. rewrite IH; [reflexivity|]. destruct H as [H|H]; [discriminate|exact H].
Qed.

Lemma minsert_keeps {V} k (v : V) m e : In e m -> In e (minsert k v m).
Proof.
  induction m as [|[k' v'] m IH]; [intros []|]. intros H. cbn [minsert]. destruct (k <? k')%Z; [right; exact H|].
  destruct (k =? k')%Z; [exact H|]. destruct H as [H|H]; [now left|right; auto].
Qed.

Lemma scan_null d p offs m k : load_index d (cfp p) = Ok m -> sorted_keys m -> In (k, None) m ->
  In k offs -> (forall o, In o offs -> exists i, data p o = Ok i) ->
  scan_offsets uniq data g d p offs = UB.
Proof.
  intros El Hs Hn Hk Hd. unfold scan_offsets. rewrite (load_inv g d p _ El). cbn [obind].
  set (nw := filter _ offs).
  assert (I : In k nw). { unfold nw. apply filter_In. split; auto. unfold x_find. cbn [x_map]. now rewrite (in_mfind k None m Hs Hn). }
  destruct nw as [|a r] eqn:En; [destruct I|]. rewrite <- En.
  destruct (mapM_all_ok (data p) (zsort nw)) as [infos Em].
  { intros o Ho. apply Hd. apply (Permutation_in _ (zsort_perm _)) in Ho. unfold nw in Ho. apply filter_In in Ho. tauto. }
  rewrite En in *. rewrite Em. cbn [obind].
  assert (E : forall es b (m0 : list (Z * option (info F))), In (k, None) m0 -> x_write uniq (insert_all (mk_index (cfp p) b m0) es) = UB).
  { induction es as [|e es IH]; intros b m0 H.
    - unfold insert_all. cbn [fold_left]. unfold x_write, to_new_file. cbn [x_map x_path].
      rewrite extension_ok, String.eqb_refl. cbn [assert_ obind]. unfold w_index. rewrite (w_entries_null m0 k H). reflexivity.
    - change (insert_all (mk_index (cfp p) b m0) (e :: es)) with (insert_all (mk_index (cfp p) b (minsert (fst e) (Some (snd e)) m0)) es).
      apply IH. now apply minsert_keeps. }
  rewrite E by exact Hn. reflexivity.
Qed.

(* the process dies while it appends; the next scan of the same message dereferences null *)
Lemma crash_then_scan d p l0 e b : d (cfp p) <> None -> complete_file d (cfp p) l0 -> mfind (fst e) l0 = None ->
  data p (fst e) = Ok (snd e) ->
  exists ops d', append_to_file d (lift (e :: b)) (cfp p) = Ok ops /\ crashed d ops d' /\
    scan_offsets uniq data g d' p [fst e] = UB.
Proof.
  intros Hn Hc Hf Hd. destruct (append_crash_null d (cfp p) l0 e b (cfp_index g p) Hn Hc) as (ops & d' & E & Hcr & El).
  exists ops, d'. split; auto. split; auto. apply (scan_null d' p [fst e] _ (fst e) El).
  - apply minsert_sorted, ins_all_sorted. constructor.
  - apply mfind_in. rewrite mfind_minsert by (apply ins_all_sorted; constructor).
    rewrite mfind_ins_all by constructor. cbn [mfind]. rewrite mfind_lift, Hf. cbn [option_map]. now rewrite Z.eqb_refl.
  - now left.
  - intros o [<-|[]]. eauto.
Qed.
End Null.

(* ---- C25: insert and flush ---- *)
Section Flush.
Context {F : Type}.
Notation records := (list (Z * info F)).
Variables (uniq : string -> string) (data : string -> Z -> outcome (info F))
          (data_offsets : string -> outcome (list Z)) (g : config).
Notation cfp := (cache_file_path g).

Definition staged_ok (l : list (string * Z * info F)) (st : list (string * @index F)) : Prop :=
  NoDup (map fst st) /\
  (forall fp x, In (fp, x) st -> index_path fp /\ x = mk_index fp false (lift (ins_all [] (inserted_for g fp l)))) /\
  (forall fp, inserted_for g fp l <> [] -> In fp (map fst st)).

Lemma staged_find_none p (st : list (string * @index F)) : staged_find p st = None -> ~ In p (map fst st).
Proof.
  induction st as [|[q x] st IH]; simpl; auto. destruct (String.eqb_spec p q) as [->|N]; [discriminate|].
  intros H [E|E]; [congruence|]. now apply IH.
Qed.

Lemma staged_set_keys p x (st : list (string * @index F)) :
  map fst (staged_set p x st) = if in_dec string_dec p (map fst st) then map fst st else map fst st ++ [p].
Proof.
  induction st as [|[q y] st IH]; simpl; auto. destruct (String.eqb_spec p q) as [->|N]; simpl.
  - destruct (string_dec q q); [reflexivity|congruence].
  - rewrite IH. destruct (string_dec q p); [congruence|]. destruct (in_dec string_dec p (map fst st)); reflexivity.
Qed.

Lemma staged_set_in p x (st : list (string * @index F)) fp y : NoDup (map fst st) ->
  In (fp, y) (staged_set p x st) -> (fp = p /\ y = x) \/ (fp <> p /\ In (fp, y) st).
Proof.
  induction st as [|[q z] st IH]; simpl; intros ND.
  - intros [[= -> ->]|[]]. auto.
  - inversion ND; subst. destruct (String.eqb_spec p q) as [->|N]; simpl.
    + intros [[= -> ->]|H]; auto. right. split; auto. intros ->. apply H1. change q with (fst (q, y)). now apply in_map.
    + intros [[= -> ->]|H]; auto. destruct (IH H2 H) as [?|[? ?]]; auto.
Qed.

Lemma inserted_snoc fp (l : list (string * Z * info F)) p o i :
  inserted_for g fp (l ++ [(p, o, i)]) = inserted_for g fp l ++ (if String.eqb fp (cfp p) then [(o, i)] else []).
Proof.
  unfold inserted_for. rewrite filter_app, map_app. cbn [filter fst snd]. destruct (String.eqb fp (cfp p)); reflexivity.
Qed.

Lemma ins_all_snoc {V} (m es : list (Z * V)) k v : ins_all m (es ++ [(k, v)]) = minsert k v (ins_all m es).
Proof. unfold ins_all. rewrite fold_left_app. reflexivity. Qed.

Lemma insert_step l c p o i : staged_ok l (c_staged c) -> staged_ok (l ++ [(p, o, i)]) (c_staged (c_insert g c p o i)).
Proof.
  intros (ND & H1 & H2). unfold c_insert. cbn [c_staged].
  set (x := match staged_find (cfp p) (c_staged c) with Some x => x | None => get_index_file g p end).
  assert (Ex : x = mk_index (cfp p) false (lift (ins_all [] (inserted_for g (cfp p) l)))).
  { unfold x. destruct (staged_find (cfp p) (c_staged c)) as [y|] eqn:Ef.
    - apply staged_find_in in Ef. now apply H1 in Ef as [_ ->].
    - apply staged_find_none in Ef. destruct (inserted_for g (cfp p) l) as [|e r] eqn:Ei.
      + reflexivity.
      + exfalso. apply Ef, H2. rewrite Ei. discriminate. }
  split; [|split].
  - rewrite staged_set_keys. destruct (in_dec string_dec (cfp p) (map fst (c_staged c))) as [I|I]; auto.
    eapply Permutation_NoDup; [apply Permutation_cons_append|]. now constructor.
  - intros fp y Hy. apply staged_set_in in Hy; auto. destruct Hy as [[-> ->]|[N Hy]].
    + split; [apply cfp_index|]. rewrite inserted_snoc, String.eqb_refl, ins_all_snoc, lift_minsert, Ex. reflexivity.
    + destruct (H1 _ _ Hy) as [Hp ->]. split; auto. rewrite inserted_snoc.
      destruct (String.eqb_spec fp (cfp p)); [contradiction|]. now rewrite app_nil_r.
  - intros fp. rewrite inserted_snoc, staged_set_keys. destruct (String.eqb_spec fp (cfp p)) as [->|N].
    + intros _. destruct (in_dec string_dec (cfp p) (map fst (c_staged c))); auto. apply in_or_app. right. now left.
    + rewrite app_nil_r. intros H. apply H2 in H. destruct (in_dec string_dec (cfp p) (map fst (c_staged c))); auto. apply in_or_app. auto.
Qed.

Lemma inserts_staged l : forall c l0, staged_ok l0 (c_staged c) ->
  let c' := fst (c_calls uniq data data_offsets g c (insert_calls l)) in
  staged_ok (l0 ++ l) (c_staged c') /\ c_disk c' = c_disk c.
Proof.
  induction l as [|[[p o] i] l IH]; intros c l0 H; cbn [insert_calls map c_calls].
  - simpl. rewrite app_nil_r. auto.
  - cbn [c_call fst snd].
    destruct (c_calls uniq data data_offsets g (c_insert g c p o i) (map (fun e => CInsert (fst (fst e)) (snd (fst e)) (snd e)) l)) as [c2 rest] eqn:E.
    cbn [fst]. pose proof (IH (c_insert g c p o i) (l0 ++ [(p, o, i)]) (insert_step _ _ _ _ _ H)) as G.
    unfold insert_calls in G. rewrite E in G. cbn [fst] in G. rewrite <- app_assoc in G. exact G.
Qed.

Lemma flush_append st : forall (d : @disk F),
  NoDup (map fst st) ->
  (forall fp x, In (fp, x) st -> exists l, index_path fp /\ x = mk_index fp false (lift l)) ->
  exists d', flush_all uniq true st d = Ok d' /\
    (forall fp, ~ In fp (map fst st) -> d' fp = d fp) /\
    (forall fp l l0, In (fp, mk_index fp false (lift l)) st -> complete_file d fp l0 -> complete_file d' fp (l0 ++ l)).
Proof.
  induction st as [|[q x] st IH]; intros d ND Hx; cbn [flush_all].
  - exists d. split; auto. split; auto. intros fp l l0 [].
  - simpl in ND. inversion ND as [|? ? Nq ND']; subst. destruct (Hx q x (or_introl eq_refl)) as (l & Hq & ->).
    unfold x_flush. cbn [x_map x_path]. rewrite (append_ops d l q Hq). cbn [obind].
    set (ops := match d q with None => _ | Some _ => _ end).
    assert (Ot : forall q', q' <> q -> apply_ops d ops q' = d q').
    { intros q' N. unfold ops. destruct (d q); cbn [apply_ops fold_left apply_op]; repeat rewrite upd_other by auto; auto. }
    destruct (IH (apply_ops d ops) ND') as (d' & E & H1 & H2).
    { intros fp y Hy. apply Hx. now right. }
    exists d'. split; auto. split.
    + simpl. intros fp N. rewrite H1 by tauto. apply Ot. intros ->. tauto.
    + intros fp l1 l0 [Hin|Hin] Hc.
      * injection Hin as <- _ Hl.
        assert (El : entries l = entries l1 /\ file_of l = file_of l1).
        { apply (f_equal w_index) in Hl. rewrite !w_index_lift in Hl. injection Hl as Hl. unfold file_of. now rewrite Hl. }
        apply complete_iff in Hc. destruct (append_file d l0 l q Hq Hc) as (ops' & E' & Hd' & _).
        rewrite (append_ops d l q Hq) in E'. injection E' as <-. fold ops in Hd'.
        apply complete_iff. left. rewrite H1 by auto. rewrite Hd'. unfold file_of. rewrite !entries_app. destruct El as [-> _]. reflexivity.
      * assert (fp <> q). { intros ->. apply Nq. change q with (fst (q, mk_index q false (lift l1))). now apply in_map. }
        apply H2; auto. apply complete_iff. rewrite Ot by auto. now apply complete_iff.
Qed.

(* the process inserts, flushes and ends *)
Lemma insert_flush d cap l : forall c' log,
  c_calls uniq data data_offsets g (cache_new d cap) (insert_calls l ++ [CFlush true]) = (c', log) ->
  Forall (fun e => snd e = Ok AUnit) log /\
  forall p l0, complete_file d (cfp p) l0 -> index_holds (c_disk c') (cfp p) (l0 ++ inserted_for g (cfp p) l).
Proof.
  intros c' log E.
  destruct (inserts_staged l (cache_new d cap) []) as [Hst Hd]; cbn [cache_new c_staged].
  { split; [constructor|]. split; [intros ? ? []|]. intros fp H; exfalso; apply H; reflexivity. }
  cbn [app] in Hst.
  assert (App : forall calls c, c_calls uniq data data_offsets g c (calls ++ [CFlush true]) =
     (let (c1, l1) := c_calls uniq data data_offsets g c calls in
      let (c2, r) := c_flush uniq c1 true in (c2, l1 ++ [(CFlush true, omap (fun _ => AUnit) r)]))).
  { clear. induction calls as [|q calls IH]; intros c; cbn [app c_calls].
    - cbn [c_call]. destruct (c_flush uniq c true); reflexivity.
    - destruct (c_call uniq data data_offsets g c q) as [c1 a]. rewrite IH.
      destruct (c_calls uniq data data_offsets g c1 calls) as [c2 l2]. destruct (c_flush uniq c2 true); reflexivity. }
  rewrite App in E. clear App.
  assert (Lg : forall l c, Forall (fun e => snd e = Ok AUnit) (snd (c_calls uniq data data_offsets g c (insert_calls l)))).
  { clear. induction l as [|[[p o] i] l IH]; intros c; cbn [insert_calls map c_calls c_call fst snd]; [constructor|].
    specialize (IH (c_insert g c p o i)). unfold insert_calls in IH.
    destruct (c_calls _ _ _ _ (c_insert g c p o i) _) as [c2 l2]. cbn [snd] in *. constructor; auto. }
  specialize (Lg l (cache_new d cap)).
  destruct (c_calls uniq data data_offsets g (cache_new d cap) (insert_calls l)) as [c1 l1]. cbn [fst snd] in *.
  destruct Hst as (ND & H1 & H2).
  destruct (flush_append (c_staged c1) (c_disk c1) ND) as (d' & Ef & G1 & G2).
  { intros fp x Hx. destruct (H1 _ _ Hx). eauto. }
  unfold c_flush in E. rewrite Ef in E. injection E as <- <-. split.
  - apply Forall_app. split; auto.
  - cbn [c_disk]. intros p l0 Hc. rewrite <- (eq_refl : c_disk (cache_new d cap) = d), <- Hd in Hc.
    destruct (in_dec string_dec (cfp p) (map fst (c_staged c1))) as [I|I].
    + apply in_map_iff in I as ([fp x] & Ef' & Hin). simpl in Ef'. subst fp. destruct (H1 _ _ Hin) as [_ ->].
      pose proof (complete_holds _ _ _ (G2 _ _ _ Hin Hc)) as (m & Em & Hs & Hl). exists m. split; auto. split; auto.
      intros off. rewrite Hl, !mfind_app, ins_all_lookup. reflexivity.
    + assert (inserted_for g (cfp p) l = []) as ->.
      { destruct (inserted_for g (cfp p) l) eqn:Ei; auto. exfalso. apply I, H2. rewrite Ei. discriminate. }
      rewrite app_nil_r. apply complete_holds, complete_iff. rewrite G1 by auto. now apply complete_iff.
Qed.

Hypothesis data_safe : forall p o, data p o <> UB.

Lemma holds_get d cap p l offs : 1 <= cap -> index_holds d (cfp p) l -> NoDup offs -> (forall o, In o offs -> exists i, mfind o l = Some i) ->
  exists c' vec, c_get data g (cache_new d cap) p offs = (c', Ok vec) /\ Forall2 (fun o i => mfind o l = Some i) offs vec.
Proof.
  intros Hcap (m & Em & Hs & Hl) ND Ho.
  (* a lookup that finds everything in the index does not extract lazily *)
  set (g' := mk_config (g_shadow g) (g_dir g) false).
  destruct (c_get_complete uniq data data_offsets g data_safe (cache_new d cap) p offs m Hcap Em ND) as (c' & vec & E).
  { intros o Hin. right. left. destruct (Ho o Hin) as [i Hi]. exists i. now rewrite Hl, Hi. }
  exists c', vec. split; auto.
  (* the answers come from the index *)
  unfold c_get in E. destruct (get_cached_ok uniq data data_offsets p offs (c_lru (cache_new d cap)) [] ltac:(constructor)) as (res & l1 & E1 & Hs1 & Hm1 & Hc1 & Hf1).
  rewrite E1 in E. 
  assert (Rn : forall o, mfind o res = None).
  { intros o. rewrite Hf1. cbn. destruct (in_dec Z.eq_dec o offs); reflexivity. }
  destruct (get_rest data g (c_disk (cache_new d cap)) p offs res) as [res'|e|] eqn:Er; cbn [obind] in E; [|discriminate|discriminate].
  destruct (lenN res' =? lenN offs)%N; cbn [assert_ obind] in E; [|discriminate].
  destruct (mapM (pick res') offs) as [vec'|e|] eqn:Ev; cbn [obind] in E; [|discriminate|discriminate].
  destruct (put_cache p (combine offs vec') l1); cbn [obind] in E; [|discriminate|discriminate]. injection E as _ <-.
  apply mapM_pick in Ev.
  assert (K : forall o i, In o offs -> mfind o res' = Some i -> mfind o l = Some i).
  { unfold get_rest in Er. cbn [cache_new c_disk] in Er. destruct (lenN res =? lenN offs)%N.
    - injection Er as <-. intros o i _. rewrite Rn. discriminate.
    - apply obind_ok_inv in Er as (fi & Ex & Er).
      destruct (x_get_ok uniq data data_offsets g d p (filter (absent res) offs) m Em) as (r & Er' & Hrs & Hrf). rewrite Ex in Er'. injection Er' as <-.
      assert (Ab : filter (absent res) offs = offs).
      { clear -Rn. induction offs as [|a r IH]; simpl; auto. unfold absent at 1. now rewrite Rn, IH. }
      assert (Fi : forall o, In o offs -> exists i, mfind o l = Some i /\ mfind o fi = Some (Some i)).
      { intros o Hin. destruct (Ho o Hin) as [i Hi]. exists i. split; auto. rewrite Hrf, Ab.
        destruct (in_dec Z.eq_dec o offs); [|contradiction]. now rewrite Hl, Hi. }
      assert (Mi : filter (absent fi) (filter (absent res) offs) = []).
      { rewrite Ab. destruct (filter (absent fi) offs) as [|b0 s0] eqn:Ea; auto. exfalso.
        assert (I : In b0 (filter (absent fi) offs)) by (rewrite Ea; now left). apply filter_absent in I as [I1 I2].
        destruct (Fi b0 I1) as (i & _ & H). congruence. }
      rewrite Mi in Er. injection Er as <-. fold (@step2 F fi). intros o i Hin. rewrite step2_find by auto. rewrite Ab.
      destruct (in_dec Z.eq_dec o offs); [|contradiction]. destruct (Fi o Hin) as (j & Hj & Hfj). rewrite Hfj. congruence. }
  clear -Ev K. assert (G : forall os, (forall o, In o os -> In o offs) -> forall v, Forall2 (fun o i => mfind o res' = Some i) os v -> Forall2 (fun o i => mfind o l = Some i) os v).
  { induction os as [|o os IH]; intros Hi v Hv; inversion Hv; subst; constructor; [apply K; auto; apply Hi; now left|].
    apply IH; auto. intros; apply Hi; now right. }
  apply G; auto.
Qed.

(* flush(false) replaces the file by what this process inserted *)
Lemma insert_rewrite d cap p l0 o i : (uniq (cfp p) ++ file_ext)%string <> cfp p -> complete_file d (cfp p) l0 ->
  exists c' log, c_calls uniq data data_offsets g (cache_new d cap) [CInsert p o i; CFlush false] = (c', log) /\
    index_holds (c_disk c') (cfp p) [(o, i)].
Proof.
  intros Hu Hc.
  destruct (write_file uniq d (cfp p) [(o, i)] false (cfp_index g p) Hu) as (ops & E & H1 & _).
  assert (Fl : flush_all uniq false (c_staged (c_insert g (cache_new d cap) p o i)) (c_disk (c_insert g (cache_new d cap) p o i))
               = Ok (apply_ops d ops)).
  { change (c_staged (c_insert g (cache_new d cap) p o i)) with [(cfp p, mk_index (cfp p) false (lift [(o, i)]))].
    change (c_disk (c_insert g (cache_new d cap) p o i)) with d. cbn [flush_all]. unfold x_flush. rewrite E. reflexivity. }
  cbn [c_calls c_call]. unfold c_flush. rewrite Fl. do 2 eexists. split; [reflexivity|]. cbn [c_disk]. now apply holds_file.
Qed.
End Flush.

(* ---- a fresh process and a history ---- *)
Section History.
Context {F : Type}.
Variables (uniq : string -> string) (data : string -> Z -> outcome (info F))
          (data_offsets : string -> outcome (list Z)) (g : config).
Notation cfp := (cache_file_path g).

Lemma history_from_start (P : string -> Prop) d cap calls c' log :
  (forall p o, data p o <> UB) -> (forall p, data_offsets p <> UB) ->
  names_apart g P -> fresh_names uniq g P -> 1 <= cap -> true_disk data g P d ->
  Forall (true_call data P) calls ->
  c_calls uniq data data_offsets g (cache_new d cap) calls = (c', log) ->
  map fst log = calls /\ Forall (good_answer data g) log /\ true_disk data g P (c_disk c').
Proof.
  intros H1 H2 H3 H4 H5 H6 H7 E.
  destruct (history_true uniq data data_offsets g H1 P H3 H4 H2 calls _ _ _ (inv_new data g P d cap H5 H6) H7 E) as (Hi & Hm & Hf).
  split; auto. split; auto. apply (inv_disk data g P _ Hi).
Qed.

(* two messages whose keys coincide: the second lookup returns the first description *)
Lemma key_collision (d : @disk F) cap p o q o' i : 1 <= cap -> cachekey p o = cachekey q o' -> d (cfp p) = None ->
  g_lazy g = true -> data p o = Ok i ->
  exists c' log, c_calls uniq data data_offsets g (cache_new d cap) [CGet p [o]; CGet q [o']] = (c', log) /\
    log = [(CGet p [o], Ok (AInfos [i])); (CGet q [o'], Ok (AInfos [i]))].
Proof.
  intros Hc Ek Hd Lz Hi.
  assert (G1 : c_get data g (cache_new d cap) p [o] = (mk_cache d (mk_lru cap [cachekey p o] [(cachekey p o, i)]) [], Ok [i])).
  { unfold c_get, cache_new. cbn [c_lru c_disk c_staged get_cached lru_exists lru_new l_map ModelLRU.afind].
    unfold get_rest, x_get, x_load, get_index_file, new_index. cbn [x_loaded x_path x_map].
    rewrite Hd. cbn [lenN length N.of_nat N.eqb filter absent mfind obind fold_left x_find x_map].
    unfold x_find. cbn [x_map mfind]. unfold absent. cbn [mfind filter]. rewrite Lz. cbn [mapM]. rewrite Hi.
    cbn [obind combine fold_left mset fst snd]. unfold lenN. cbn [length N.of_nat]. cbn [N.eqb]. rewrite Pos.eqb_refl. cbn [assert_ obind mapM].
    unfold pick. cbn [mfind]. rewrite Z.eqb_refl. cbn [obind combine put_cache]. unfold lru_put.
    cbn [l_map lru_new ModelLRU.afind l_list length l_capacity]. destruct (Nat.eqb_spec 0 cap); [lia|]. reflexivity. }
  assert (G2 : exists c', c_get data g (mk_cache d (mk_lru cap [cachekey p o] [(cachekey p o, i)]) []) q [o'] = (c', Ok [i])).
  { unfold c_get. cbn [c_lru c_disk c_staged get_cached]. unfold lru_exists, lru_get. cbn [l_map ModelLRU.afind l_list l_capacity].
    rewrite Ek. destruct (string_dec (cachekey q o') (cachekey q o')) as [_|]; [|congruence].
    cbn [obind mset]. unfold get_rest, lenN. cbn [length N.of_nat N.eqb]. rewrite Pos.eqb_refl. cbn [obind assert_].
    cbn [mapM]. unfold pick. cbn [mfind]. rewrite Z.eqb_refl. cbn [obind combine put_cache]. unfold lru_put. cbn [l_map ModelLRU.afind].
    destruct (string_dec (cachekey q o') (cachekey q o')) as [_|]; [|congruence]. cbn [obind]. eexists; reflexivity. }
  destruct G2 as [c' G2]. cbn [c_calls c_call]. rewrite G1, G2. cbn [omap obind]. eauto.
Qed.

Hypothesis data_safe : forall p o, data p o <> UB.

Lemma insert_flush_lookup d cap l c' log :
  c_calls uniq data data_offsets g (cache_new d cap) (insert_calls l ++ [CFlush true]) = (c', log) ->
  Forall (fun e => snd e = Ok AUnit) log /\
  forall p l0 offs cap2, complete_file d (cfp p) l0 -> NoDup offs -> 1 <= cap2 ->
    (forall o, In o offs -> exists i, mfind o (l0 ++ inserted_for g (cfp p) l) = Some i) ->
    exists c2 vec, c_get data g (cache_new (c_disk c') cap2) p offs = (c2, Ok vec) /\
      Forall2 (fun o i => mfind o (l0 ++ inserted_for g (cfp p) l) = Some i) offs vec.
Proof.
  intros E. destruct (insert_flush uniq data data_offsets g d cap l c' log E) as [H1 H2]. split; auto.
  intros p l0 offs cap2 Hc ND Hcap Ho.
  apply (holds_get uniq data data_offsets g data_safe (c_disk c') cap2 p _ offs Hcap (H2 p l0 Hc) ND Ho).
Qed.
End History.
