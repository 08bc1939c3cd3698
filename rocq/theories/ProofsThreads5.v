(* Several threads scan different files while others look up: every scan that has returned is in
   the index files. *)
From Coq Require Import Sorted.
From Verif Require Import Base BaseLemmas ModelInfo ModelStream ProofsStream ModelIndex SpecIndex ProofsIndex ModelLRU ModelCache SpecCache
  ProofsCache ProofsCache2 ModelThreads SpecThreads ProofsThreads ProofsThreads2 ProofsThreads3 ProofsThreads4.

Local Open Scope nat_scope.

Lemma minsert_key {V} k (v : V) m : In k (map fst (minsert k v m)).
Proof.
  induction m as [|[k' v'] m IH]; cbn [minsert]; [now left|].
  destruct (Z.ltb_spec k k'); [now left|]. destruct (Z.eqb_spec k k') as [->|N]; [now left|]. right. exact IH.
Qed.

Lemma minsert_keeps {V} k (v : V) m o : In o (map fst m) -> In o (map fst (minsert k v m)).
Proof.
  induction m as [|[k' v'] m IH]; cbn [minsert]; [intros []|].
  destruct (k <? k')%Z; [now right|]. destruct (k =? k')%Z; auto. intros [H|H]; [now left|right; auto].
Qed.

Section Scans.
Context {F : Type}.
Notation stream := (list (tok F)).
Notation records := (list (Z * info F)).
Notation thread := (@thread F).
Notation shared := (@shared F).
Variable uniq : nat -> string -> string.
Variable data : string -> Z -> outcome (info F).
Variable data_offsets : string -> outcome (list Z).
Variable g : config.
Notation cfp := (cache_file_path g).
Hypothesis data_safe : forall p o, data p o <> UB.
Hypothesis offsets_safe : forall p, data_offsets p <> UB.
Variable P : string -> Prop.
Hypothesis apart : names_apart g P.
Hypothesis fresh : forall n, fresh_names (uniq n) g P.
Hypothesis fresh_once : forall n m p q, (uniq n p ++ file_ext)%string = (uniq m q ++ file_ext)%string -> n = m.
Variable writer : string -> nat.
Variable scanner : string -> nat.
Notation Inv := (Inv uniq data g P writer true false).
Notation scanned := (@scanned F data_offsets).
(* offsets that were in the index file of p at the start *)
Variable base : string -> Z -> Prop.

Definition holds (c : option stream) (o : Z) : Prop := exists l, c = Some (file_of l) /\ In o (map fst l).
Definition fhas (s : shared) (p : string) (o : Z) : Prop := holds (disk_of s (cfp p)) o.

Lemma insert_all_keys es : forall x o, In o (map fst (x_map x)) \/ In o (map fst es) -> In o (map fst (x_map (@insert_all F x es))).
Proof.
  unfold insert_all. induction es as [|e es IH]; intros x o H; cbn [fold_left map]; [destruct H as [H|[]]; auto|].
  apply IH. unfold x_insert. cbn [x_map]. destruct H as [H|[H|H]]; auto.
  - left. now apply minsert_keeps.
  - left. rewrite <- H. apply minsert_key.
Qed.

Lemma combine_keys {A B} (l : list A) (m : list B) : length l = length m -> map fst (combine l m) = l.
Proof. revert m. induction l as [|a l IH]; intros [|b m] E; try discriminate; auto. cbn. f_equal. auto. Qed.

Lemma write_keys x u ops : x_write u x = Ok ops -> exists l, x_map x = lift l /\
    ops = [OpTrunc (u (x_path x) ++ file_ext)%string; OpAppend (u (x_path x) ++ file_ext)%string (@file_of F l);
           OpRename (u (x_path x) ++ file_ext)%string (x_path x)].
Proof.
  intros H. unfold x_write, to_new_file in H.
  apply obind_ok_inv in H as (o1 & H1 & H). apply obind_ok_inv in H1 as (? & _ & H1).
  apply obind_ok_inv in H1 as (st & H1 & [= <-]). apply obind_ok_inv in H as (? & _ & [= <-]).
  destruct (w_index_some _ _ H1) as (l & E & ->). exists l. split; auto.
Qed.

Lemma file_of_inj (l l' : records) : file_of l = file_of l' -> l = l'.
Proof.
  intros E. destruct (file_prefix l l' []) as [l2 ->]; [now rewrite app_nil_r|].
  destruct (file_prefix (l ++ l2) l []) as [l3 E3]; [now rewrite app_nil_r|].
  rewrite <- app_assoc in E3. rewrite <- (app_nil_r l) in E3 at 1. apply app_inv_head in E3. symmetry in E3.
  apply app_eq_nil in E3 as [-> _]. now rewrite app_nil_r.
Qed.

(* the content a scan loads *)
Definition whole (c : option stream) : Prop := match c with None => True | Some s => exists l, s = @file_of F l end.

Lemma load_keys c p x : whole c -> x_load (fun _ => c) (get_index_file g p) = Ok x ->
  x_path x = cfp p /\ forall o, (In o (map fst (x_map x)) <-> holds c o) /\ (x_find x o <> None -> holds c o).
Proof.
  intros Wc E.
  assert (Ep : x_path x = cfp p).
  { unfold x_load, get_index_file, new_index in E. cbn [x_loaded x_path x_map] in E. destruct c as [s|].
    - apply obind_ok_inv in E as (m & _ & [= <-]). reflexivity.
    - injection E as <-. reflexivity. }
  split; auto.
  assert (L : load_index (fun _ => c) (cfp p) = Ok (x_map x)).
  { unfold load_index. change (new_index (cfp p)) with (@get_index_file F g p). now rewrite E. }
  assert (K : forall o, In o (map fst (x_map x)) <-> holds c o).
  { intros o. destruct c as [s|].
    - destruct Wc as [l ->]. destruct (holds_file (fun _ => Some (file_of l)) (cfp p) l eq_refl) as (m & M1 & M2 & M3).
      assert (m = x_map x) by congruence. subst m. rewrite mfind_keys. split.
      + intros [v Hv]. exists l. split; auto. apply mfind_keys. rewrite M3 in Hv. destruct (mfind o l); [eauto|discriminate].
      + intros (l' & El & Hl). assert (l' = l) by (symmetry; apply file_of_inj; congruence).
        subst l'. apply mfind_keys in Hl as [v Hv]. exists (Some v). rewrite M3, Hv. reflexivity.
    - rewrite load_none in L by reflexivity. injection L as <-. split; [intros []|]. intros (l & E1 & _). discriminate. }
  intros o. split; auto. intros H. apply K. apply mfind_keys. unfold x_find in H. destruct (mfind o (x_map x)); [eauto|congruence].
Qed.

Lemma zsort_in l o : In o (zsort l) <-> In o l.
Proof.
  split; intros H; (eapply Permutation.Permutation_in; [|exact H]); [apply zsort_perm|apply Permutation.Permutation_sym, zsort_perm].
Qed.

Lemma scan_offsets_keys n c p offs ops m : whole c -> scan_offsets (uniq n) data g (fun _ => c) p offs = Ok (ops, m) ->
  (ops = [] /\ forall o, In o offs -> holds c o) \/
  exists l, ops = [OpTrunc (uniq n (cfp p) ++ file_ext)%string; OpAppend (uniq n (cfp p) ++ file_ext)%string (file_of l);
                   OpRename (uniq n (cfp p) ++ file_ext)%string (cfp p)] /\
    (forall o, holds c o -> In o (map fst l)) /\ (forall o, In o offs -> In o (map fst l)).
Proof.
  intros Wc H. unfold scan_offsets in H. apply obind_ok_inv in H as (x & Ex & H).
  destruct (load_keys c p x Wc Ex) as [Ep K].
  set (nw := filter _ offs) in H.
  assert (N : forall o, In o offs -> In o nw \/ holds c o).
  { intros o Ho. destruct (x_find x o) as [v|] eqn:Ef; [right; apply (K o); congruence|left].
    apply filter_In. split; auto. now rewrite Ef. }
  destruct nw as [|a r].
  - left. split; [congruence|]. intros o Ho. destruct (N o Ho) as [[]|]; auto.
  - right. apply obind_ok_inv in H as (infos & Ei & H). apply obind_ok_inv in H as (o2 & Eo & [= <- _]).
    assert (El : length (zsort (a :: r)) = length infos).
    { apply mapM_ok_inv in Ei. exact (Forall2_length _ _ _ Ei). }
    destruct (write_keys _ _ _ Eo) as (l & Em & ->).
    assert (Ep2 : x_path (insert_all x (combine (zsort (a :: r)) infos)) = cfp p).
    { rewrite <- Ep. clear. unfold insert_all. revert x. induction (combine (zsort (a :: r)) infos) as [|e es IH]; intros x; cbn [fold_left]; auto.
      now rewrite IH. }
    rewrite Ep2. exists l. split; auto.
    assert (Kl : forall o, In o (map fst (x_map x)) \/ In o (a :: r) -> In o (map fst l)).
    { intros o Ho. rewrite <- (map_fst_lift l), <- Em. apply insert_all_keys. rewrite (combine_keys _ _ El), zsort_in. exact Ho. }
    split; [intros o Ho; apply Kl; left; now apply K|]. intros o Ho. apply Kl. destruct (N o Ho); [now right|left; now apply K].
Qed.

Lemma scan_ops_keys n c p w ops m : whole c -> scan_ops uniq data data_offsets g n c p w = Ok (ops, m) ->
  (ops = [] /\ forall o, scanned (call_of p w) p o -> holds c o) \/
  exists l, ops = [OpTrunc (uniq n (cfp p) ++ file_ext)%string; OpAppend (uniq n (cfp p) ++ file_ext)%string (file_of l);
                   OpRename (uniq n (cfp p) ++ file_ext)%string (cfp p)] /\
    (forall o, holds c o -> In o (map fst l)) /\ (forall o, scanned (call_of p w) p o -> In o (map fst l)).
Proof.
  intros Wc. destruct w as [offs res|offs|merge]; cbn [scan_ops call_of SpecThreads.scanned]; [discriminate| |].
  - intros H. destruct (scan_offsets_keys _ _ _ _ _ _ Wc H) as [[-> A]|(l & -> & A & B)]; [left|right].
    + split; auto. intros o [_ Ho]. auto.
    + exists l. split; auto. split; auto. intros o [_ Ho]. auto.
  - unfold scan_file. destruct merge; intros H.
    + apply obind_ok_inv in H as (offs & Ef & H). destruct (scan_offsets_keys _ _ _ _ _ _ Wc H) as [[-> A]|(l & -> & A & B)]; [left|right].
      * split; auto. intros o (_ & offs' & E & Ho). apply A. congruence.
      * exists l. split; auto. split; auto. intros o (_ & offs' & E & Ho). apply B. congruence.
    + right. apply obind_ok_inv in H as (x & Ex & H). apply obind_ok_inv in H as (offs & Ef & H).
      apply obind_ok_inv in H as (infos & Ei & H). apply obind_ok_inv in H as (o2 & Eo & [= <- _]).
      destruct (load_keys c p x Wc Ex) as [Ep K].
      assert (El : length offs = length infos) by (apply mapM_ok_inv in Ei; exact (Forall2_length _ _ _ Ei)).
      destruct (write_keys _ _ _ Eo) as (l & Em & ->).
      assert (Ep2 : x_path (insert_all x (combine offs infos)) = cfp p).
      { rewrite <- Ep. clear. unfold insert_all. revert x. induction (combine offs infos) as [|e es IH]; intros x; cbn [fold_left]; auto.
        now rewrite IH. }
      rewrite Ep2. exists l. split; auto.
      assert (Kl : forall o, In o (map fst (x_map x)) \/ In o offs -> In o (map fst l)).
      { intros o Ho. rewrite <- (map_fst_lift l), <- Em. apply insert_all_keys. now rewrite (combine_keys _ _ El). }
      split; [intros o Ho; apply Kl; left; now apply K|]. intros o (_ & offs' & E & Ho). apply Kl. right. congruence.
Qed.

(* ---- the invariant ---- *)
Definition is_get (w : @purpose F) : bool := match w with ForGet _ _ => true | _ => false end.

Definition work_full (s : shared) (t : thread) : Prop :=
  match t_work t with
  | WRead p w i _ => is_get w = false -> h_names s (cfp p) = Some i
  | WHave p w c => is_get w = false -> c = disk_of s (cfp p)
  | WWrite ops i _ => forall q rq p, t_todo t = q :: rq -> scan_path q = Some p ->
      (ops = [] /\ forall o, scanned q p o -> fhas s p o) \/
      exists l r tmp, h_data s i ++ r = file_of l /\
        (ops = [OpAppend tmp r; OpRename tmp (cfp p)] \/ (r = [] /\ ops = [OpRename tmp (cfp p)])) /\
        (forall o, fhas s p o -> In o (map fst l)) /\ (forall o, scanned q p o -> In o (map fst l))
  | _ => True
  end.

Record SK (s : shared) (ts : list thread) : Prop := {
  S_todo : forall k t q p, nth_error ts k = Some t -> In q (t_todo t) -> scan_path q = Some p -> scanner p = k;
  S_log : forall t q a p o, In t ts -> In (q, Ok a) (t_log t) -> scanned q p o -> P p /\ fhas s p o;
  S_base : forall p o, P p -> base p o -> fhas s p o;
  S_work : forall t, In t ts -> work_full s t
}.

Lemma disk_same s s' x : h_names s' x = h_names s x -> (forall i, h_names s x = Some i -> h_data s' i = h_data s i) ->
  @disk_of F s' x = disk_of s x.
Proof. intros H1 H2. unfold disk_of. rewrite H1. destruct (h_names s x) as [i|]; cbn [option_map]; auto. now rewrite H2. Qed.

Lemma sk_update own pub s ts k t s' t' : Inv own pub s ts -> SK s ts -> nth_error ts k = Some t ->
  (forall p, P p -> scanner p <> k -> h_names s' (cfp p) = h_names s (cfp p)) ->
  (forall i, known s i -> cur t <> Some i -> h_data s' i = h_data s i) ->
  (forall p i, P p -> h_names s (cfp p) = Some i -> h_data s' i = h_data s i) ->
  (forall p o, P p -> fhas s p o -> fhas s' p o) ->
  (forall q, In q (t_todo t') -> In q (t_todo t)) ->
  (t_log t' = t_log t \/ exists q a, t_log t' = t_log t ++ [(q, a)] /\ (forall p o y, a = Ok y -> scanned q p o -> P p /\ fhas s' p o)) ->
  work_full s' t' -> SK s' (set_nth k t' ts).
Proof.
  intros I K Hk Hn Hd Hpub Hm Htodo Hlog Hw.
  assert (Kl : k < length ts) by (apply nth_error_Some; congruence).
  assert (At : forall u, In u (set_nth k t' ts) -> u = t' \/ (exists j, j <> k /\ nth_error ts j = Some u)).
  { intros u Hu. apply In_nth_error in Hu as [j Hu]. destruct (Nat.eq_dec j k) as [->|N]; [rewrite nth_set_same in Hu by auto; left; congruence|].
    rewrite nth_set_other in Hu by auto. eauto. }
  pose proof (nth_error_In _ _ Hk) as Ht.
  constructor.
  - intros j u q p Hj Hq Sp. destruct (Nat.eq_dec j k) as [->|N].
    + rewrite nth_set_same in Hj by auto. injection Hj as <-. apply (S_todo _ _ K k t q p); auto.
    + rewrite nth_set_other in Hj by auto. apply (S_todo _ _ K j u q p); auto.
  - intros u q a p o Hu Hin Hs. destruct (At u Hu) as [->|(j & N & Hj)].
    + assert (H' : In (q, Ok a) (t_log t) \/ (P p /\ fhas s' p o)).
      { destruct Hlog as [Hlog|(q' & a' & Hlog & Hi)]; rewrite Hlog in Hin; auto. apply in_app_or in Hin as [Hin|[Hin|[]]]; auto.
        injection Hin as -> ->. right. eauto. }
      destruct H' as [H'|H']; auto. destruct (S_log _ _ K t q a p o Ht H' Hs). auto.
    + destruct (S_log _ _ K u q a p o (nth_error_In _ _ Hj) Hin Hs). auto.
  - intros p o Pp B. apply Hm; auto. now apply (S_base _ _ K).
  - intros u Hu. destruct (At u Hu) as [->|(j & N & Hj)]; auto.
    pose proof (nth_error_In _ _ Hj) as Hu'. pose proof (S_work _ _ K u Hu') as W.
    destruct (I_threads _ _ _ _ _ _ _ _ _ _ _ I u Hu') as (Td & _ & Wok).
    assert (Nk : forall q p, In q (t_todo u) -> scan_path q = Some p -> scanner p <> k).
    { intros q p Hq Sp E. apply N. rewrite <- E. symmetry. now apply (S_todo _ _ K j u q p). }
    assert (Hd2 : forall p, P p -> scanner p <> k -> disk_of s' (cfp p) = disk_of s (cfp p)).
    { intros p Pp Np. apply disk_same; [now apply Hn|]. intros i Hi. eauto. }
    unfold work_full in *. destruct (t_work u) as [|p w|p w|p w i acc|p w c|p offs vec|ops i n|a rest|a ops rest|a ops i rest] eqn:Ew; auto; cbn [work_ok] in Wok.
    + intros Hg. destruct Wok as ([r Eq] & (Pp & _) & _). rewrite Hn; auto. apply (Nk (call_of p w)); [rewrite Eq; now left|now destruct w].
    + intros Hg. destruct Wok as ([r Eq] & (Pp & _) & _). rewrite Hd2; auto. apply (Nk (call_of p w)); [rewrite Eq; now left|now destruct w].
    + intros q rq p Eq Sp.
      assert (Np : scanner p <> k) by (apply (Nk q); auto; rewrite Eq; now left).
      assert (Pp : P p).
      { rewrite Eq in Td. inversion Td as [|? ? ((Tq & _) & _) _]; subst. destruct q; try discriminate; injection Sp as <-; exact Tq. }
      assert (Ef : forall o, fhas s' p o <-> fhas s p o) by (intros o; unfold fhas; rewrite Hd2; tauto).
      destruct (W q rq p Eq Sp) as [[-> A]|(l & r & tmp & E1 & E2 & E3 & E4)]; [left|right].
      * split; auto.
      * exists l, r, tmp. assert (Cu : cur u = Some i).
        { unfold cur. rewrite Ew. destruct E2 as [->|[_ ->]]; reflexivity. }
        rewrite Hd.
        -- split; auto. split; auto. split; auto. intros o Ho. apply E3. now apply Ef.
        -- destruct (cur_own uniq data g P writer true false own pub s ts u i I Hu' Cu) as (x & _ & O).
           exact (I_own _ _ _ _ _ _ _ _ _ _ _ I _ _ O).
        -- intros Ct. apply N. eapply (I_cur _ _ _ _ _ _ _ _ _ _ _ I); eauto.
Qed.

Lemma pub_whole own pub s ts p : Inv own pub s ts -> P p -> whole (disk_of s (cfp p)).
Proof.
  intros I Pp. unfold disk_of. destruct (h_names s (cfp p)) as [i|] eqn:En; cbn [option_map whole]; auto.
  destruct (I_names _ _ _ _ _ _ _ _ _ _ _ I p i Pp En) as [O Pi].
  destruct (I_data _ _ _ _ _ _ _ _ _ _ _ I i p Pp O) as (l & _ & E); [|eauto].
  intros u Hu Cu. destruct (cur_rest uniq data g P writer true false own pub s ts u i p I Hu Cu O) as (_ & _ & _ & _ & H & _).
  specialize (H Pi). discriminate.
Qed.

Lemma sk_step own pub s ts k t b s' t' : Inv own pub s ts -> SK s ts -> nth_error ts k = Some t ->
  step_thread uniq data data_offsets g (fun i => existsb (fun u => mid_write u i) ts) b s t = Some (s', t') ->
  SK s' (set_nth k t' ts).
Proof.
  intros I K Hk H. pose proof (nth_error_In _ _ Hk) as Ht.
  destruct (I_threads _ _ _ _ _ _ _ _ _ _ _ I t Ht) as (Td & _ & W).
  pose proof (S_work _ _ K t Ht) as Wf. unfold work_full in Wf.
  unfold step_thread in H. destruct (t_todo t) as [|q rq] eqn:Eq; [discriminate|].
  inversion Td as [|? ? Cq _]; subst. destruct Cq as ((Tq & Wq) & Nq & _). specialize (Nq eq_refl).
  assert (Pq : forall p, scan_path q = Some p -> P p).
  { intros p Sp. destruct q; try discriminate; injection Sp as <-; exact Tq. }
  assert (Sq : forall p o, scanned q p o -> scan_path q = Some p).
  { intros p o Hs. destruct q; try contradiction Hs; destruct Hs as [-> _]; reflexivity. }
  (* no file changes *)
  assert (Quiet : forall s1 t1, h_names s1 = h_names s -> h_data s1 = h_data s ->
    (forall x, In x (t_todo t1) -> In x (t_todo t)) ->
    (t_log t1 = t_log t \/ exists q a, t_log t1 = t_log t ++ [(q, a)] /\ (forall p o y, a = Ok y -> scanned q p o -> P p /\ fhas s1 p o)) ->
    work_full s1 t1 -> SK s1 (set_nth k t1 ts)).
  { intros s1 t1 H1 H2 H3 HL H4. apply (sk_update own pub s ts k t s1 t1); auto.
    - intros. now rewrite H1.
    - intros. now rewrite H2.
    - intros. now rewrite H2.
    - intros p o _. unfold fhas. rewrite (disk_same s s1); auto; intros; now rewrite ?H1, ?H2. }
  assert (Fin : forall s1 a, h_names s1 = h_names s -> h_data s1 = h_data s ->
    (forall p o y, a = Ok y -> scanned q p o -> fhas s p o) -> SK s1 (set_nth k (finish t a) ts)).
  { intros s1 a H1 H2 H3. rewrite (finish_parts t a q rq Eq). apply Quiet; cbn [t_work t_todo t_log]; auto.
    - rewrite Eq. intros x Hx. now right.
    - right. exists q, a. split; auto. intros p o y Ey Hs. split; [eauto|].
      unfold fhas. rewrite (disk_same s s1); [exact (H3 p o y Ey Hs)| |]; intros; now rewrite ?H1, ?H2.
    - exact Logic.I. }
  assert (Go : forall s1 w, h_names s1 = h_names s -> h_data s1 = h_data s -> work_full s1 (go t w) -> SK s1 (set_nth k (go t w) ts)).
  { intros s1 w H1 H2 H4. apply Quiet; auto. }
  destruct (t_work t) as [|p w|p w|p w i acc|p w c|p offs vec|ops i n|a rest|a ops rest|a ops i rest] eqn:Ew; cbn [work_ok] in W.
  - unfold start in H. destruct q as [p offs|p o i|a|p offs|p m|]; try discriminate.
    + destruct (get_cached _ _ _ _) as [[res l]|e|]; injection H as <- <-.
      * apply Go; auto. unfold work_full. cbn [go t_work]. destruct (lenN res =? lenN offs)%N; cbn [is_get]; auto; discriminate.
      * apply Fin; auto. discriminate.
      * apply Fin; auto. discriminate.
    + destruct (p_lock (h_proc s (t_proc t))); [discriminate|]. injection H as <- <-. apply Fin; auto. intros ? ? ? _ [].
    + injection H as <- <-. apply Go; auto.
    + injection H as <- <-. apply Go; auto.
    + injection H as <- <-. apply Fin; auto. intros ? ? ? _ [].
  - destruct (h_names s (cfp p)) as [i|] eqn:En; injection H as <- <-; apply Go; auto; unfold work_full; cbn [go t_work]; auto.
    intros _. unfold disk_of. now rewrite En.
  - destruct (h_names s (cfp p)) as [i|] eqn:En; injection H as <- <-; [apply Go; auto|apply Fin; auto; discriminate].
    unfold work_full. cbn [go t_work]. auto.
  - destruct W as (W1 & W2 & W3 & W4 & more & W5).
    destruct (nth_error (h_data s i) (length acc)) as [x|] eqn:En; injection H as <- <-; apply Go; auto; unfold work_full; cbn [go t_work]; auto.
    intros Hg. specialize (Wf Hg). unfold disk_of. rewrite Wf. cbn [option_map]. f_equal.
    apply nth_error_None in En. rewrite W5, app_length in En. destruct more; [|cbn [length] in En; lia]. rewrite app_nil_r in W5.
    destruct (b && existsb (fun u => mid_write u i) ts) eqn:Eb; [|now symmetry].
    apply andb_true_iff in Eb as [_ Eb]. apply existsb_exists in Eb as (u & Hu & Mu).
    assert (Cu : cur u = Some i).
    { unfold mid_write in Mu. unfold cur. destruct (t_work u) as [| | | | | |[|[|q0 [|tk r']|] ops] j n| | |a [|[|q0 [|tk r']|] ops] j r]; try discriminate;
        destruct (inode_eqb_spec i j); try discriminate; congruence. }
    destruct (cur_rest uniq data g P writer true false own pub s ts u i p I Hu Cu W3) as (_ & _ & _ & _ & X & _). specialize (X W4). discriminate.
  - destruct W as (W1 & W2 & W3). destruct W1 as [r0 W1]. injection W1 as -> <-.
    assert (Sc : is_get w = false ->
      match scan_ops uniq data data_offsets g (h_next s) c p w with
      | Ok (OpTrunc tmp :: ops, n) => let (s, i) := open_new s tmp in Some (s, go t (WWrite ops i n))
      | Ok (_, n) => Some (s, finish t (Ok (ACount n)))
      | Throw e => Some (s, finish t (Throw e))
      | UB => Some (s, finish t UB)
      end = Some (s', t') -> SK s' (set_nth k t' ts)).
    { clear H. intros Hw Hst. specialize (Wf Hw). destruct W2 as [Pp _]. pose proof (pub_whole own pub s ts p I Pp) as Wc. rewrite <- Wf in Wc.
      assert (Sp : scan_path (call_of p w) = Some p) by now destruct w.
      destruct (scan_ops uniq data data_offsets g (h_next s) c p w) as [[ops n]|e|] eqn:Es.
      2:{ injection Hst as <- <-. apply Fin; auto. discriminate. }
      2:{ injection Hst as <- <-. apply Fin; auto. discriminate. }
      destruct (scan_ops_keys _ _ _ _ _ _ Wc Es) as [[-> A]|(l & -> & A & B)].
      - injection Hst as <- <-. apply Fin; auto. intros p' o y _ Hs. assert (p' = p) by (apply Sq in Hs; congruence). subst p'.
        unfold fhas. rewrite <- Wf. auto.
      - set (tmp := (uniq (h_next s) (cfp p) ++ file_ext)%string) in *.
        assert (Hn : h_names s tmp = None) by (apply (I_tmp _ _ _ _ _ _ _ _ _ _ _ I); auto).
        assert (Htmp : forall x, P x -> tmp <> cfp x) by (intros x Px; apply (fresh (h_next s) p x); auto).
        assert (Eo : open_new s tmp = (fst (open_new s tmp), New (h_next s))) by (unfold open_new; now rewrite Hn).
        assert (E1 : forall x, P x -> h_names (fst (open_new s tmp)) (cfp x) = h_names s (cfp x)).
        { intros x Px. unfold open_new. rewrite Hn. cbn [fst h_names]. apply set_name_other. intros E. apply (Htmp x Px). now symmetry. }
        assert (E2 : forall j, known s j -> h_data (fst (open_new s tmp)) j = h_data s j).
        { intros j Kj. unfold open_new. rewrite Hn. cbn [fst h_data]. apply set_data_other. intros ->. cbn in Kj. lia. }
        assert (E3 : forall x j, P x -> h_names s (cfp x) = Some j -> h_data (fst (open_new s tmp)) j = h_data s j).
        { intros x j Px Hj. apply E2. destruct (I_names _ _ _ _ _ _ _ _ _ _ _ I x j Px Hj) as [O _]. exact (I_own _ _ _ _ _ _ _ _ _ _ _ I _ _ O). }
        assert (E4 : forall x, P x -> disk_of (fst (open_new s tmp)) (cfp x) = disk_of s (cfp x)).
        { intros x Px. apply disk_same; eauto. }
        rewrite Eo in Hst. injection Hst as <- <-. apply (sk_update own pub s ts k t); auto.
        + intros x o Px. unfold fhas. now rewrite E4.
        + unfold work_full. cbn [go t_work t_todo]. intros q1 r1 p1 Eq1 Sp1. rewrite Eq in Eq1. injection Eq1 as <- <-.
          assert (p1 = p) by congruence. subst p1. right. exists l, (file_of l), tmp. split.
          { unfold open_new. rewrite Hn. cbn [fst h_data]. now rewrite set_data_same. }
          split; auto. split; auto. intros o. unfold fhas. rewrite E4, <- Wf by auto. auto. }
    destruct w as [offs res|offs|m]; [|now apply Sc|now apply Sc]. clear Sc.
    destruct (get_vec _ _ _ _ _ _) as [vec|e|]; injection H as <- <-; [apply Go|apply Fin|apply Fin]; auto; discriminate || exact Logic.I.
  - destruct W as ([r0 W1] & _). injection W1 as -> <-.
    destruct (put_cache _ _ _); injection H as <- <-; apply Fin; auto; try discriminate; intros ? ? ? _ [].
  - (* scan writes *)
    destruct W as ((q0 & [r0 W1] & W2) & W3). injection W1 as <- <-.
    assert (Sp : exists p, scan_path q = Some p) by (destruct q; try discriminate; eexists; reflexivity).
    destruct Sp as [p Sp]. specialize (Pq p Sp).
    destruct (Wf q rq p eq_refl Sp) as [[-> A]|(l & r & tmp & E1 & E2 & E3 & E4)].
    + injection H as <- <-. apply Fin; auto. intros p' o y _ Hs. assert (p' = p) by (apply Sq in Hs; congruence). subst p'. auto.
    + destruct W3 as [->|(p' & r' & l' & Pp' & Oi & Tl & El & [(Np & tmp' & Htmp & Hops & _)|(Hf & _)])]; [destruct E2 as [E2|[_ E2]]; discriminate| |discriminate].
      assert (Ep : cfp p' = cfp p /\ tmp' = tmp).
      { destruct E2 as [->|[_ ->]], Hops as [Hops|[_ Hops]]; try discriminate; injection Hops; auto. }
      destruct Ep as [Ep ->]. assert (p' = p) by now apply (apart p' p). subst p'.
      assert (Ct : cur t = Some i) by (unfold cur; rewrite Ew; destruct E2 as [->|[_ ->]]; reflexivity).
      assert (Npub : forall x j, P x -> h_names s (cfp x) = Some j -> j <> i).
      { intros x j Px Hj ->. destruct (I_names _ _ _ _ _ _ _ _ _ _ _ I x i Px Hj). auto. }
      destruct E2 as [->|[-> ->]].
      * destruct r as [|tk r]; cbn [write_step] in H; injection H as <- <-.
        -- apply Go; auto. unfold work_full. cbn [go t_work t_todo]. intros q1 r1 p1 Eq1 Sp1. rewrite Eq in Eq1. injection Eq1 as <- <-.
           assert (p1 = p) by congruence. subst p1. right. exists l, [], tmp. auto.
        -- assert (D : forall x, P x -> disk_of (append_tok s i tk) (cfp x) = disk_of s (cfp x)).
           { intros x Px. apply disk_same; auto. intros j Hj. cbn [append_tok h_data]. apply set_data_other. eapply Npub; eauto. }
           apply (sk_update own pub s ts k t); auto.
           ++ intros j _ N. cbn [append_tok h_data]. apply set_data_other. congruence.
           ++ intros x j Px Hj. cbn [append_tok h_data]. apply set_data_other. eapply Npub; eauto.
           ++ intros x o Px. unfold fhas. now rewrite D.
           ++ unfold work_full. cbn [go t_work t_todo]. intros q1 r1 p1 Eq1 Sp1. rewrite Eq in Eq1. injection Eq1 as <- <-.
              assert (p1 = p) by congruence. subst p1. right. exists l, r, tmp. split.
              { cbn [append_tok h_data]. rewrite set_data_same, <- app_assoc. exact E1. }
              split; auto. split; auto. intros o. unfold fhas. rewrite D by auto. auto.
      * (* rename *) cbn [write_step] in H. injection H as <- <-. rewrite app_nil_r in E1.
        assert (Nn : forall x, P x -> x <> p -> h_names (rename_to s i tmp (cfp p)) (cfp x) = h_names s (cfp x)).
        { intros x Px N. cbn [rename_to h_names]. destruct (String.eqb_spec (cfp x) tmp) as [E|_]; [exfalso; apply (Htmp x Px); auto|].
          apply set_name_other. intros E. apply N. now apply (apart x p). }
        assert (Np' : h_names (rename_to s i tmp (cfp p)) (cfp p) = Some i).
        { cbn [rename_to h_names]. destruct (String.eqb_spec (cfp p) tmp) as [E|_]; [exfalso; apply (Htmp p Pq); auto|].
          apply set_name_same. }
        assert (Sk : scanner p = k) by (apply (S_todo _ _ K k t q p); auto; rewrite Eq; now left).
        assert (Fp : forall o, In o (map fst l) -> fhas (rename_to s i tmp (cfp p)) p o).
        { intros o Ho. unfold fhas, holds, disk_of. rewrite Np'. cbn [option_map rename_to h_data]. rewrite E1. eauto. }
        apply (sk_update own pub s ts k t); auto.
        -- intros x Px Nx. apply Nn; auto. intros ->. auto.
        -- intros x o Px Hf. destruct (string_dec x p) as [->|N]; [now apply Fp, E3|].
           unfold fhas in *. rewrite (disk_same s); auto.
        -- unfold work_full. cbn [go t_work t_todo]. intros q1 r1 p1 Eq1 Sp1. rewrite Eq in Eq1. injection Eq1 as <- <-.
           assert (p1 = p) by congruence. subst p1. left. split; auto.
  - destruct W as ([r0 W1] & _). injection W1 as -> <-. discriminate.
  - destruct W as ([r0 W1] & _). injection W1 as -> <-. discriminate.
  - destruct W as ([r0 W1] & _). injection W1 as -> <-. discriminate.
Qed.
End Scans.

Section Final.
Context {F : Type}.
Variable uniq : nat -> string -> string.
Variable data : string -> Z -> outcome (info F).
Variable data_offsets : string -> outcome (list Z).
Variable g : config.
Notation cfp := (cache_file_path g).
Hypothesis data_safe : forall p o, data p o <> UB.
Hypothesis offsets_safe : forall p, data_offsets p <> UB.
Variable P : string -> Prop.
Hypothesis apart : names_apart g P.
Variable writer : string -> nat.
Variable d : @disk F.
Hypothesis unique : unique_names uniq g P d.
Hypothesis disk_true : true_disk data g P d.
Variable cap : nat.
Hypothesis cap_pos : 1 <= cap.
Variable ps : list (nat * list (@call F)).
Hypothesis sound : sound_programs data P writer ps.
Variable scanner : string -> nat.
Hypothesis apart_scans : one_scanner scanner ps.

Definition base0 (p : string) (o : Z) : Prop := exists i, indexed g d p o i.
Notation SK := (SK data_offsets g P scanner base0).

Lemma sk_start : SK (fst (start_pool d cap ps)) (snd (start_pool d cap ps)).
Proof.
  cbn [start_pool fst snd]. constructor.
  - intros k t q p Hk Hq Sp. apply nth_error_In in Hk as Hin.
    rewrite nth_error_map in Hk. destruct (nth_error ps k) as [e|] eqn:Ee; [|discriminate]. cbn in Hk. injection Hk as <-. cbn [t_todo] in Hq.
    exact (apart_scans k e q p Ee Hq Sp).
  - intros t q a p o Ht Hin. apply in_map_iff in Ht as (e & <- & _). destruct Hin.
  - intros p o Pp (i & m & E & M). unfold fhas, holds, disk_of. cbn [h_names h_data].
    destruct (disk_true p Pp) as (l & C & _). apply complete_iff in C as [C|[C ->]].
    2:{ destruct (holds_none d (cfp p) C) as (m' & M1 & _ & M3). rewrite M1 in E. injection E as <-. rewrite M3 in M. discriminate. }
    rewrite C. cbn [option_map]. rewrite C. exists l. split; auto.
    destruct (holds_file d (cfp p) l C) as (m' & M1 & M2 & M3). rewrite M1 in E. injection E as <-.
    rewrite M3 in M. destruct (mfind o l) as [v|] eqn:Ev; [|discriminate]. apply mfind_in in Ev.
    now apply (in_map fst) in Ev.
  - intros t Ht. apply in_map_iff in Ht as (e & <- & _). exact Logic.I.
Qed.

Lemma sk_run sched : forall own pub s s', Inv uniq data g P writer true false own pub (fst s) (snd s) -> SK (fst s) (snd s) ->
  run uniq data data_offsets g sched s = Some s' ->
  exists own' pub', Inv uniq data g P writer true false own' pub' (fst s') (snd s') /\ SK (fst s') (snd s').
Proof.
  induction sched as [|[k b] sched IH]; intros own pub s s' I K; cbn [run].
  - intros [= <-]. eauto.
  - destruct (step_pool uniq data data_offsets g k b s) as [s1|] eqn:E; [|discriminate]. intros H.
    unfold step_pool in E. destruct (nth_error (snd s) k) as [t|] eqn:Ek; [|discriminate].
    destruct (step_thread _ _ _ _ _ _ _ _) as [[h t']|] eqn:Es; [|discriminate]. injection E as <-.
    destruct unique as (U1 & U2 & _).
    destruct (step_inv uniq data data_offsets g data_safe offsets_safe P apart U1 U2 writer true false own pub (fst s) (snd s) k t b h t' I Ek Es (or_intror (or_intror eq_refl)))
      as (own1 & pub1 & I1 & L1).
    assert (K1 : SK h (set_nth k t' (snd s))) by (eapply sk_step; eauto).
    exact (IH own1 pub1 (h, set_nth k t' (snd s)) s' I1 K1 H).
Qed.

Lemma filed_scan own pub s ts p o : Inv uniq data g P writer true false own pub s ts -> P p -> fhas g s p o ->
  exists i, data p o = Ok i /\ filed g s p o i.
Proof.
  intros I Pp (l0 & H1 & H2). unfold disk_of in H1. destruct (h_names s (cfp p)) as [j|] eqn:En; [|discriminate]. cbn [option_map] in H1.
  destruct (I_names _ _ _ _ _ _ _ _ _ _ _ I p j Pp En) as [Oj Pj].
  destruct (I_data _ _ _ _ _ _ _ _ _ _ _ I j p Pp Oj) as (l & T & E).
  { intros u Hu Cu. destruct (cur_rest uniq data g P writer true false own pub s ts u j p I Hu Cu Oj) as (_ & _ & _ & _ & H & _).
    specialize (H Pj). discriminate. }
  assert (l0 = l) by (apply file_of_inj; congruence). subst l0.
  destruct (holds_file (disk_of s) (cfp p) l) as (m & M1 & M2 & M3).
  { unfold disk_of. rewrite En. cbn [option_map]. congruence. }
  apply mfind_keys in H2 as [v Hv]. exists v. split.
  - apply mfind_in in Hv. rewrite Forall_forall in T. apply T in Hv. exact Hv.
  - exists m. split; auto. now rewrite M3, Hv.
Qed.

Lemma threads_scanned s : no_call is_flush ps -> reached uniq data data_offsets g d cap ps s ->
  (forall t q a p o, In t (snd s) -> In (q, Ok a) (t_log t) -> scanned data_offsets q p o -> exists i, data p o = Ok i /\ filed g (fst s) p o i) /\
  (forall p o i, P p -> indexed g d p o i -> filed g (fst s) p o i).
Proof.
  intros N [sched R].
  destruct (sk_run sched _ _ _ _ (inv_start uniq data g P apart writer d unique disk_true cap cap_pos ps sound true false (fun _ => N) ltac:(discriminate)) sk_start R)
    as (own & pub & I & K).
  split.
  - intros t q a p o Ht Hin Hs. destruct (S_log _ _ _ _ _ _ _ K t q a p o Ht Hin Hs) as [Pp H]. eapply filed_scan; eauto.
  - intros p o i Pp Hi. destruct (filed_scan own pub _ _ p o I Pp (S_base _ _ _ _ _ _ _ K p o Pp (ex_intro _ i Hi))) as (v & Dv & Fv).
    assert (v = i); [|congruence].
    destruct Hi as (m & E & M). destruct (disk_true p Pp) as (l & C & T). apply complete_iff in C as [C|[C ->]].
    2:{ destruct (holds_none d (cfp p) C) as (m' & M1 & _ & M3). rewrite M1 in E. injection E as <-. rewrite M3 in M. discriminate. }
    destruct (holds_file d (cfp p) l C) as (m' & M1 & M2 & M3). rewrite M1 in E. injection E as <-.
    rewrite M3 in M. destruct (mfind o l) as [w|] eqn:Ev; [|discriminate]. apply mfind_in in Ev. rewrite Forall_forall in T. apply T in Ev.
    cbn [option_map] in M. unfold true_rec in Ev. cbn [fst snd] in Ev. congruence.
Qed.
End Final.

Lemma concurrent_scans : forall (F : Type) uniq data data_offsets g P writer d cap ps, @sound_world F uniq data data_offsets g P writer d cap ps ->
  no_call is_flush ps -> forall scanner, one_scanner scanner ps ->
  forall s, reached uniq data data_offsets g d cap ps s ->
    (forall t q a p o, In t (snd s) -> In (q, Ok a) (t_log t) -> scanned data_offsets q p o -> exists i, data p o = Ok i /\ filed g (fst s) p o i) /\
    (forall p o i, P p -> indexed g d p o i -> filed g (fst s) p o i).
Proof.
  intros F uniq data data_offsets g P writer d cap ps (H1 & H2 & H3 & H4 & H5 & H6 & H7) N scanner A s R.
  exact (threads_scanned uniq data data_offsets g H1 H2 P H3 writer d H4 H5 cap H6 ps H7 scanner A s N R).
Qed.

Lemma two_files_world :
  sound_world ex_tickets ex_data ex_offsets ex_cfg ex_paths ex_writer ex_empty 4 ex_two_files /\ no_call is_flush ex_two_files /\
  one_scanner (fun p => if String.eqb p "/a/x.data" then 0 else 1) ex_two_files.
Proof.
  split; [apply ex_world; unfold sound_programs, ex_two_files; repeat (constructor; cbn [fst snd]); cbn; auto; now right|]. split; [unfold no_call, ex_two_files; sound_now|].
  intros k e q p. destruct k as [|[|[|k]]]; [| | |destruct k; discriminate]; intros [= <-] H Sp; cbn [snd In] in H;
    repeat (destruct H as [<-|H]; [cbn in Sp; try discriminate; injection Sp as <-; reflexivity|]); destruct H.
Qed.
