From Coq Require Import Permutation Sorted QArith.
From Verif Require Import Base BaseLemmas ModelInfo ModelSimple ModelCcsds ModelJumper ModelScan ModelStream ModelIndex SpecIndex ModelLRU ModelCache
     ModelBuild ModelEngine SpecCache SpecJumper SpecScan SpecBuild SpecEngine SpecSystem SpecServe ProofsIndex ProofsScan ProofsCache ProofsCache2
     ProofsEngine ProofsEngine2 ProofsEngine3 ProofsEngine4 ProofsBuild ProofsBuild2 ProofsBuild3 ProofsSystem ModelFloat.
Open Scope nat_scope.

Lemma load_same {F} (d d' : @disk F) p : d p = d' p -> load_index d p = load_index d' p.
Proof. intros E. unfold load_index, x_load, new_index; cbn [x_loaded x_path x_map]. now rewrite E. Qed.

Section Records.
Context {F : Type}.
Notation records := (list (Z * info F)).
Variables (uniq : string -> string) (data : string -> Z -> outcome (info F))
          (data_offsets : string -> outcome (list Z)) (g : ModelCache.config) (P : string -> Prop).
Notation cfp := (cache_file_path g).
Hypothesis data_safe : forall p o, data p o <> UB.
Hypothesis offsets_safe : forall p, data_offsets p <> UB.
Hypothesis apart : names_apart g P.
Hypothesis fresh : fresh_names uniq g P.
Notation rec := (@recorded F g).

Lemma recorded_same (d d' : @disk F) p o : d (cfp p) = d' (cfp p) -> rec d p o -> rec d' p o.
Proof. intros E (m & i & L & H). exists m, i. split; [|exact H]. rewrite <- L. symmetry. now apply load_same. Qed.

Lemma recorded_holds (d : @disk F) p l o : d (cfp p) = Some (file_of l) -> (rec d p o <-> exists i, mfind o l = Some i).
Proof.
  intros E. destruct (holds_file _ _ _ E) as (m & L & _ & H). split.
  - intros (m' & i & L' & Hi). rewrite L in L'. injection L' as <-. rewrite H in Hi.
    destruct (mfind o l); [eauto|discriminate].
  - intros (i & Hi). exists m, i. split; [exact L|]. now rewrite H, Hi.
Qed.

Lemma recorded_complete (d : @disk F) p l o : complete_file d (cfp p) l -> (rec d p o <-> exists i, mfind o l = Some i).
Proof.
  intros C. apply complete_iff in C as [E|[E ->]]; [now apply recorded_holds|]. split.
  - intros (m & i & L & H). rewrite load_none in L by auto. injection L as <-. discriminate.
  - intros (i & H). discriminate.
Qed.

(* the file of p now holds the records es besides what it had *)
Lemma keep_replaced (d d' : @disk F) p l l' : P p -> complete_file d (cfp p) l -> d' (cfp p) = Some (file_of l') ->
  (forall o i, mfind o l = Some i -> exists i', mfind o l' = Some i') ->
  (forall q, P q -> cfp q <> cfp p -> d' (cfp q) = d (cfp q)) ->
  forall q o, P q -> rec d q o -> rec d' q o.
Proof.
  intros Hp Hc E Hk Ho q o Hq R. destruct (string_dec (cfp q) (cfp p)) as [Eq|N].
  - assert (q = p) by (apply (apart q p); auto). subst q. apply (recorded_complete _ _ _ _ Hc) in R as (i & Hi).
    apply (recorded_holds _ _ _ _ E). eauto.
  - eapply recorded_same; [|exact R]. symmetry. auto.
Qed.

Lemma sorted_complete d p : P p -> true_disk data g P d ->
  exists l, complete_file d (cfp p) l /\ load_index d (cfp p) = Ok (lift (ins_all [] l)) /\ sorted_keys (ins_all [] l).
Proof.
  intros Hp Hd. destruct (Hd p Hp) as (l & Hc & _). exists l. split; [exact Hc|]. split; [now apply complete_load|].
  apply ins_all_sorted. constructor.
Qed.

Lemma write_keeps d p l es b : P p -> complete_file d (cfp p) l ->
  forall ops, x_write uniq (mk_index (cfp p) b (lift (ins_all (ins_all [] l) es))) = Ok ops ->
  (forall q o, P q -> rec d q o -> rec (apply_ops d ops) q o) /\
  (forall o i, mfind o es = Some i -> rec (apply_ops d ops) p o).
Proof.
  intros Hp Hc ops E. set (l' := ins_all (ins_all [] l) es) in *.
  assert (Hs : sorted_keys (ins_all [] l)) by (apply ins_all_sorted; constructor).
  destruct (write_file uniq d (cfp p) l' b (cfp_index g p) (fresh p p Hp Hp)) as (ops' & E' & H1 & H2 & _).
  rewrite E in E'. injection E' as <-. split.
  - eapply keep_replaced; eauto.
    + intros o i Hi. unfold l'. rewrite mfind_ins_all by auto. rewrite ins_all_lookup, Hi. eauto.
    + intros q Hq N. apply H2; auto. intros E'. symmetry in E'. exact (fresh p q Hp Hq E').
  - intros o i Hi. apply (recorded_holds _ _ _ _ H1). unfold l'. rewrite mfind_ins_all by auto. rewrite Hi.
    destruct (mfind o (ins_all [] l)); eauto.
Qed.

Lemma combine_covers offs (infos : list (info F)) o : length offs = length infos -> In o offs ->
  exists i, mfind o (combine offs infos) = Some i.
Proof.
  intros L. revert infos L. induction offs as [|a offs IH]; intros [|i infos] L I; cbn in *; try tauto; try discriminate.
  destruct (Z.eqb_spec o a) as [->|N]; eauto. destruct I as [->|I]; [congruence|]. apply IH; auto.
Qed.

Lemma scan_records d p offs ops n : P p -> true_disk data g P d -> scan_offsets uniq data g d p offs = Ok (ops, n) ->
  (forall q o, P q -> rec d q o -> rec (apply_ops d ops) q o) /\ (forall o, In o offs -> rec (apply_ops d ops) p o).
Proof.
  intros Hp Hd E. destruct (sorted_complete d p Hp Hd) as (l & Hc & El & Hs). unfold scan_offsets in E.
  rewrite (load_inv _ _ _ _ El) in E. cbn [obind x_find x_map] in E.
  assert (Hf : forall o, In o offs -> rec d p o \/ In o (filter (fun o => match x_find (mk_index (cfp p) true (lift (ins_all [] l))) o with
                Some _ => false | None => true end) offs)).
  { intros o Ho. destruct (mfind o l) as [i|] eqn:Ei.
    - left. apply (recorded_complete _ _ _ _ Hc). eauto.
    - right. apply filter_In. split; [exact Ho|]. unfold x_find. cbn [x_map]. now rewrite mfind_lift, ins_all_lookup, Ei. }
  cbn [x_find x_map] in Hf. destruct (filter _ offs) as [|a r].
  - injection E as <- <-. cbn [apply_ops fold_left]. split; [auto|]. intros o Ho. destruct (Hf o Ho) as [H|[]]; exact H.
  - destruct (mapM (data p) (zsort (a :: r))) as [infos|e|] eqn:Em; cbn [obind] in E; try discriminate.
    rewrite insert_all_eq in E.
    destruct (x_write uniq _) as [ops'|e|] eqn:Ew; cbn [obind] in E; try discriminate. injection E as -> <-.
    destruct (write_keeps d p l _ true Hp Hc ops Ew) as [K1 K2]. split; [exact K1|].
    intros o Ho. destruct (Hf o Ho) as [H|H]; [auto|].
    destruct (combine_covers (zsort (a :: r)) infos o) as (i & Hi).
    + apply mapM_ok_inv in Em. eapply Forall2_length; eauto.
    + eapply Permutation_in; [symmetry; apply zsort_perm|exact H].
    + eapply K2. exact Hi.
Qed.

Lemma scan_file_records d p merge ops n : P p -> true_disk data g P d -> scan_file uniq data data_offsets g d p merge = Ok (ops, n) ->
  (forall q o, P q -> rec d q o -> rec (apply_ops d ops) q o) /\
  (exists offs, data_offsets p = Ok offs /\ forall o, In o offs -> rec (apply_ops d ops) p o).
Proof.
  intros Hp Hd E. unfold scan_file in E. destruct merge.
  - destruct (data_offsets p) as [offs|e|]; cbn [obind] in E; try discriminate.
    destruct (scan_records d p offs ops n Hp Hd E) as [K1 K2]. split; eauto.
  - destruct (sorted_complete d p Hp Hd) as (l & Hc & El & Hs). unfold x_reload, x_clear, get_index_file in E. cbn [x_path new_index] in E.
    pose proof (load_inv _ _ _ _ El) as EL. unfold get_index_file, new_index in EL. rewrite EL in E. cbn [obind] in E.
    destruct (data_offsets p) as [offs|e|]; cbn [obind] in E; try discriminate.
    destruct (mapM (data p) offs) as [infos|e|] eqn:Em; cbn [obind] in E; try discriminate.
    rewrite insert_all_eq in E.
    destruct (x_write uniq _) as [ops'|e|] eqn:Ew; cbn [obind] in E; try discriminate. injection E as -> <-.
    destruct (write_keeps d p l _ true Hp Hc ops Ew) as [K1 K2]. split; [exact K1|].
    exists offs. split; [reflexivity|]. intros o Ho.
    destruct (combine_covers offs infos o) as (i & Hi); [|exact Ho|eauto].
    apply mapM_ok_inv in Em. eapply Forall2_length; eauto.
Qed.

Lemma flush_keeps st : forall d d', Forall (true_staged data g P) st -> true_disk data g P d ->
  flush_all uniq true st d = Ok d' -> forall q o, P q -> rec d q o -> rec d' q o.
Proof.
  induction st as [|[q x] st IH]; intros d d' Hs Hd; cbn [flush_all]; [intros [= <-]; auto|].
  inversion Hs as [|? ? (p & l & Hp & _ & Ex & Ht) Hs']; subst. simpl in Ex. subst x. unfold x_flush. cbn [x_map x_path].
  destruct (true_append data g P apart d p l Hp Hd Ht) as (ops & E & Hd'). rewrite E. cbn [obind]. intros E2 q' o Hq' R.
  eapply IH; eauto. destruct (Hd p Hp) as (l0 & Hc & _). pose proof Hc as Hc'. apply complete_iff in Hc.
  destruct (append_file d l0 l (cfp p) (cfp_index g p) Hc) as (ops' & E' & H1 & H2). rewrite E in E'. injection E' as <-.
  apply (keep_replaced d _ p l0 (l0 ++ l)); auto. intros o' i Hi. rewrite mfind_app, Hi. eauto.
Qed.

Lemma step_keeps c q c' a : inv data g P c -> true_call data P q -> keeps_records q ->
  c_call uniq data data_offsets g c q = (c', a) ->
  (forall p o, P p -> rec (c_disk c) p o -> rec (c_disk c') p o) /\
  (forall p offs n, q = CScan p offs -> a = Ok n -> forall o, In o offs -> rec (c_disk c') p o) /\
  (forall p m n, q = CScanFile p m -> a = Ok n ->
     exists offs, data_offsets p = Ok offs /\ forall o, In o offs -> rec (c_disk c') p o).
Proof.
  intros [Hcap Hl Hd Hst] Ht Hk. destruct q as [p offs|p o i|ap|p offs|p m|]; cbn [c_call true_call keeps_records] in *.
  - destruct (c_get data g c p offs) as [c1 r] eqn:E. intros [= <- <-].
    destruct (c_get_inv uniq data data_offsets g data_safe _ _ _ _ _ Hcap E) as (_ & Ed & _). rewrite Ed.
    split; [auto|]. split; discriminate.
  - intros [= <- <-]. unfold c_insert. cbn [c_disk]. split; [auto|]. split; discriminate.
  - destruct ap; [|contradiction]. unfold c_flush.
    destruct (flush_all uniq true (c_staged c) (c_disk c)) as [d'|e|] eqn:E; intros [= <- <-]; cbn [c_disk];
      (split; [|split; discriminate]); auto.
    intros p o Hp R. eapply flush_keeps; eauto.
  - unfold c_scan. destruct (scan_offsets uniq data g (c_disk c) p offs) as [[ops n]|e|] eqn:E; intros [= <- <-]; cbn [c_disk];
      (split; [|split; [|discriminate]]); auto; try discriminate.
    + exact (proj1 (scan_records _ _ _ _ _ Ht Hd E)).
    + intros p' offs' n' [= <- <-] _. exact (proj2 (scan_records _ _ _ _ _ Ht Hd E)).
  - unfold c_scan. destruct (scan_file uniq data data_offsets g (c_disk c) p m) as [[ops n]|e|] eqn:E; intros [= <- <-]; cbn [c_disk];
      (split; [|split; [discriminate|]]); auto; try discriminate.
    + exact (proj1 (scan_file_records _ _ _ _ _ Ht Hd E)).
    + intros p' m' n' [= <- <-] _. exact (proj2 (scan_file_records _ _ _ _ _ Ht Hd E)).
  - intros [= <- <-]. cbn [c_clear c_disk]. split; [auto|]. split; discriminate.
Qed.

Lemma calls_keep calls : forall c c' log, inv data g P c -> Forall (true_call data P) calls -> Forall keeps_records calls ->
  c_calls uniq data data_offsets g c calls = (c', log) ->
  inv data g P c' /\
  (forall p o, P p -> rec (c_disk c) p o -> rec (c_disk c') p o) /\
  (forall p offs n, In (CScan p offs, Ok n) log -> forall o, In o offs -> rec (c_disk c') p o) /\
  (forall p m n, In (CScanFile p m, Ok n) log ->
     exists offs, data_offsets p = Ok offs /\ forall o, In o offs -> rec (c_disk c') p o).
Proof.
  induction calls as [|q calls IH]; intros c c' log Hi Ht Hk; cbn [c_calls].
  - intros [= <- <-]. split; [exact Hi|]. split; [auto|]. split; intros ? ? ? [].
  - destruct (c_call uniq data data_offsets g c q) as [c1 a] eqn:E1.
    destruct (c_calls uniq data data_offsets g c1 calls) as [c2 rest] eqn:E2. intros [= <- <-].
    inversion Ht as [|? ? Ht1 Ht2]; subst. inversion Hk as [|? ? Hk1 Hk2]; subst.
    destruct (inv_step uniq data data_offsets g data_safe P apart fresh offsets_safe c q c1 a Hi Ht1 E1) as (Hi1 & _).
    destruct (step_keeps c q c1 a Hi Ht1 Hk1 E1) as (S1 & S2 & S3).
    destruct (IH c1 c2 rest Hi1 Ht2 Hk2 E2) as (I0 & I1 & I2 & I3). split; [exact I0|]. split; [auto|].
    assert (HP : forall p offs, q = CScan p offs -> P p) by (intros p offs ->; exact Ht1).
    assert (HP' : forall p m, q = CScanFile p m -> P p) by (intros p m ->; exact Ht1).
    split.
    + intros p offs n [[= -> ->]|In1] o Ho; [|eauto]. apply I1; [eauto|]. eapply S2; eauto.
    + intros p m n [[= -> ->]|In1]; [|eauto]. destruct (S3 p m n eq_refl eq_refl) as (offs & Ho & H).
      exists offs. split; [exact Ho|]. intros o Io. apply I1; eauto.
Qed.
End Records.
