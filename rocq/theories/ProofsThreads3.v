From Coq Require Import Sorted.
From Verif Require Import Base BaseLemmas ModelInfo ModelStream ProofsStream ModelIndex SpecIndex ProofsIndex ModelLRU ModelCache SpecCache
  ProofsCache ModelThreads SpecThreads ProofsThreads ProofsThreads2.

Local Open Scope nat_scope.

Section Kept.
Context {F : Type}.
Notation stream := (list (tok F)).
Notation records := (list (Z * info F)).
Notation thread := (@thread F).
Notation shared := (@shared F).
Variable uniq : nat -> string -> string.
Variable data : string -> Z -> outcome (info F).
Variable data_offsets : string -> outcome (list Z).
Variable g : config.
Notation cfp := (cache_file_path g).
Hypothesis data_safe : forall p o, data p o <> UB.
Hypothesis offsets_safe : forall p, data_offsets p <> UB.
Variable P : string -> Prop.
Hypothesis apart : names_apart g P.
Hypothesis fresh : forall n, fresh_names (uniq n) g P.
Hypothesis fresh_once : forall n m p q, (uniq n p ++ file_ext)%string = (uniq m q ++ file_ext)%string -> n = m.
Variable writer : string -> nat.
Notation Inv := (Inv uniq data g P writer false true).

(* ---- a file that begins with a sequence of records has these records ---- *)
Lemma entries_prefix (l : records) : forall l' x, entries l ++ x = entries l' -> exists l2, l' = l ++ l2.
Proof.
  induction l as [|[o i] l IH]; intros l' x E; [now exists l'|].
  destruct l' as [|[o' i'] l']; [discriminate|].
  change (entries ((o, i) :: l)) with (entry (o, i) ++ entries l) in E.
  change (entries ((o', i') :: l')) with (entry (o', i') ++ entries l') in E.
  unfold entry in E. cbn [fst snd] in E. rewrite <- !app_assoc in E. cbn [app] in E.
  assert (Eo : o = o') by congruence. subst o'. apply (f_equal (fun l => tl (tl l))) in E. cbn [tl] in E.
  pose proof (f_equal r_info E) as R. rewrite !info_roundtrip in R. injection R as <- R. cbn [app] in R. try injection R as R.
  destruct (IH _ _ R) as [l2 ->]. now exists l2.
Qed.

Lemma file_prefix (l : records) l' x : file_of l ++ x = file_of l' -> exists l2, l' = l ++ l2.
Proof. unfold file_of. intros E. injection E as E. now apply entries_prefix in E. Qed.

Definition staged_has (s : shared) (p : string) (o : Z) : Prop :=
  exists x, staged_find (cfp p) (p_staged (h_proc s (writer p))) = Some x /\ mfind o (x_map x) <> None.

Definition file_has (s : shared) (p : string) (o : Z) : Prop :=
  exists i l x, h_names s (cfp p) = Some i /\ h_data s i = file_of l ++ x /\ In o (map fst l).

Definition in_rest (rest : list (string * @index F)) (p : string) (o : Z) : Prop :=
  exists x, In (cfp p, x) rest /\ mfind o (x_map x) <> None.

(* what a flush is still to write *)
Definition pending (s : shared) (w : @work F) (p : string) (o : Z) : Prop :=
  match w with
  | WFlush _ rest => in_rest rest p o
  | WFlushOpen _ ops rest => in_rest rest p o \/ exists l, In o (map fst l) /\
      (ops = [OpTrunc (cfp p); OpAppend (cfp p) (file_of l)] \/ ops = [OpAppend (cfp p) (entries l)])
  | WFlushWrite _ ops i rest => in_rest rest p o \/ exists r l, In o (map fst l) /\
      ops = [OpAppend (cfp p) r] /\ h_names s (cfp p) = Some i /\ h_data s i ++ r = file_of l
  | _ => False
  end.

Definition shape (w : @work F) : Prop :=
  match w with WFlushWrite _ ops _ _ => ops = [] \/ exists x r, ops = [OpAppend x r] | _ => True end.

Record Kept (s : shared) (ts : list thread) : Prop := {
  K_shape : forall t, In t ts -> shape (t_work t);
  K_app : forall t, In t ts -> ~ In (CFlush false) (t_todo t);
  K_log : forall t p o i a, In t ts -> In (CInsert p o i, a) (t_log t) ->
    P p /\ data p o = Ok i /\ writer p = t_proc t /\ (staged_has s p o \/ file_has s p o);
  K_done : forall t l1 l2 y p o i a, In t ts -> t_log t = l1 ++ (CFlush true, Ok y) :: l2 -> In (CInsert p o i, a) l1 -> file_has s p o;
  K_flush : forall t p o, In t ts -> flushing t = true -> P p -> writer p = t_proc t -> staged_has s p o ->
    pending s (t_work t) p o \/ file_has s p o
}.

Definition plain_call (q : @call F) : Prop := match q with CInsert _ _ _ | CFlush _ => False | _ => True end.

(* effects of a step on the file system *)
Record effect (s : shared) (t : thread) (s' : shared) : Prop := {
  E_names : forall p i, P p -> h_names s (cfp p) = Some i -> h_names s' (cfp p) = Some i;
  E_data : forall i, known s i -> cur t <> Some i -> h_data s' i = h_data s i;
  E_ext : forall i, known s i -> exists x, h_data s' i = h_data s i ++ x
}.

Lemma effect_same s t s' : h_names s' = h_names s -> h_data s' = h_data s -> effect s t s'.
Proof. intros H1 H2. constructor; intros; rewrite ?H1, ?H2; auto. exists []. now rewrite app_nil_r. Qed.

Lemma effect_open s t x : h_names s x = None -> effect s t (fst (@open_new F s x)).
Proof.
  intros H. unfold open_new. rewrite H. cbn [fst]. constructor; cbn [h_names h_data].
  - intros p i _ Hp. rewrite set_name_other; auto. congruence.
  - intros i K _. apply set_data_other. intros ->. cbn in K. lia.
  - intros i K. exists []. rewrite set_data_other, app_nil_r; auto. intros ->. cbn in K. lia.
Qed.

Lemma effect_append s t i tk : cur t = Some i -> effect s t (append_tok s i tk).
Proof.
  intros C. constructor; cbn [append_tok h_names h_data]; auto.
  - intros j _ N. apply set_data_other. congruence.
  - intros j _. destruct (inode_eqb_spec j i) as [->|N].
    + exists [tk]. now rewrite set_data_same.
    + exists []. now rewrite set_data_other, app_nil_r.
Qed.

Lemma file_has_mono own pub s ts t s' p o : Inv own pub s ts -> effect s t s' -> P p -> file_has s p o -> file_has s' p o.
Proof.
  intros I E Pp (i & l & x & H1 & H2 & H3). destruct (I_names _ _ _ _ _ _ _ _ _ _ _ I p i Pp H1) as [O _].
  destruct (E_ext _ _ _ E i (I_own _ _ _ _ _ _ _ _ _ _ _ I _ _ O)) as [y Hy].
  exists i, l, (x ++ y). split; [now apply (E_names _ _ _ E)|]. split; auto. now rewrite Hy, H2, app_assoc.
Qed.

Lemma pending_other own pub s ts t u s' p o k j : Inv own pub s ts -> effect s t s' -> nth_error ts k = Some t -> nth_error ts j = Some u -> j <> k ->
  P p -> pending s (t_work u) p o -> pending s' (t_work u) p o.
Proof.
  intros I E Hk Hj N Pp H.
  destruct (t_work u) as [| | | | | | |a rest|a ops rest|a ops i rest] eqn:Ew; auto. cbn [pending] in *.
  destruct H as [H|(r & l & H1 & H2 & H3 & H4)]; [now left|right]. exists r, l. split; auto. split; auto.
  split; [now apply (E_names _ _ _ E)|].
  destruct (I_names _ _ _ _ _ _ _ _ _ _ _ I p i Pp H3) as [O _].
  rewrite (E_data _ _ _ E); auto; [exact (I_own _ _ _ _ _ _ _ _ _ _ _ I _ _ O)|].
  intros C. apply N. eapply (I_cur _ _ _ _ _ _ _ _ _ _ _ I); eauto. unfold cur. rewrite Ew, H2. reflexivity.
Qed.

Lemma nil_or_last {A} (l : list A) : l = [] \/ exists r e, l = r ++ [e].
Proof. destruct l using rev_ind; eauto. Qed.

Lemma kept_update own pub s ts k t s' t' : Inv own pub s ts -> Kept s ts -> nth_error ts k = Some t -> effect s t s' ->
  (forall p o, P p -> staged_has s p o -> staged_has s' p o \/ file_has s' p o) ->
  (forall j u p o, j <> k -> nth_error ts j = Some u -> flushing u = true -> P p -> writer p = t_proc u -> staged_has s' p o -> staged_has s p o) ->
  shape (t_work t') ->
  (forall q, In q (t_todo t') -> In q (t_todo t)) ->
  t_proc t' = t_proc t ->
  (t_log t' = t_log t \/ exists q a, t_log t' = t_log t ++ [(q, a)] /\
     (forall p o i, q = CInsert p o i -> P p /\ data p o = Ok i /\ writer p = t_proc t /\ staged_has s' p o) /\
     (q = CFlush true -> forall p o, P p -> writer p = t_proc t -> staged_has s p o \/ file_has s p o -> file_has s' p o)) ->
  (forall p o, flushing t' = true -> P p -> writer p = t_proc t' -> staged_has s' p o -> pending s' (t_work t') p o \/ file_has s' p o) ->
  Kept s' (set_nth k t' ts).
Proof.
  intros I K Hk E Hst Hst' Hsh Htodo Hproc Hlog Hfl.
  assert (Kl : k < length ts) by (apply nth_error_Some; congruence).
  assert (At : forall u, In u (set_nth k t' ts) -> u = t' \/ (exists j, j <> k /\ nth_error ts j = Some u)).
  { intros u Hu. apply In_nth_error in Hu as [j Hu]. destruct (Nat.eq_dec j k) as [->|N]; [rewrite nth_set_same in Hu by auto; left; congruence|].
    rewrite nth_set_other in Hu by auto. eauto. }
  pose proof (nth_error_In _ _ Hk) as Ht.
  assert (Mono : forall p o, P p -> staged_has s p o \/ file_has s p o -> staged_has s' p o \/ file_has s' p o).
  { intros p o Pp [H|H]; [auto|right]. eapply file_has_mono; eauto. }
  constructor.
  - intros u Hu. destruct (At u Hu) as [->|(j & N & Hj)]; auto. apply (K_shape _ _ K). exact (nth_error_In _ _ Hj).
  - intros u Hu H. destruct (At u Hu) as [->|(j & N & Hj)]; [apply (K_app _ _ K t Ht); auto|].
    apply (K_app _ _ K u (nth_error_In _ _ Hj)); auto.
  - intros u p o i a Hu H. destruct (At u Hu) as [->|(j & N & Hj)].
    + assert (H' : In (CInsert p o i, a) (t_log t) \/ (P p /\ data p o = Ok i /\ writer p = t_proc t /\ staged_has s' p o)).
      { destruct Hlog as [Hlog|(q & a' & Hlog & Hi & _)]; rewrite Hlog in H; auto. apply in_app_or in H as [H|[H|[]]]; auto.
        injection H as H _. right. now apply (Hi _ _ _ H). }
      rewrite Hproc. destruct H' as [H'|(Pp & D & Wp & S)]; auto. destruct (K_log _ _ K t p o i a Ht H') as (Pp & D & Wp & S). auto.
    + destruct (K_log _ _ K u p o i a (nth_error_In _ _ Hj) H) as (Pp & D & Wp & S). auto.
  - assert (Old : forall u l1 l2 y p o i a, In u ts -> t_log u = l1 ++ (CFlush true, Ok y) :: l2 -> In (CInsert p o i, a) l1 -> file_has s' p o).
    { intros u l1 l2 y p o i a Hu El Hin. destruct (K_log _ _ K u p o i a Hu) as (Pp & _).
      { rewrite El. apply in_or_app. now left. }
      eapply file_has_mono; eauto. apply (K_done _ _ K u l1 l2 y p o i a); auto. }
    intros u l1 l2 y p o i a Hu El Hin. destruct (At u Hu) as [->|(j & N & Hj)]; [|exact (Old u l1 l2 y p o i a (nth_error_In _ _ Hj) El Hin)].
    destruct Hlog as [Hlog|(q & a' & Hlog & _ & Hd)]; rewrite Hlog in El; [exact (Old t l1 l2 y p o i a Ht El Hin)|].
    destruct (@nil_or_last (@call F * outcome (@answer F)) l2) as [->|(l3 & e & ->)].
    + apply app_inj_tail in El as [El Ee]. injection Ee as -> _. subst l1.
      destruct (K_log _ _ K t p o i a Ht Hin) as (Pp & _ & Wp & S). auto.
    + rewrite app_comm_cons, app_assoc in El. apply app_inj_tail in El as [El _]. exact (Old t l1 l3 y p o i a Ht El Hin).
  - intros u p o Hu Fu Pp Wp S. destruct (At u Hu) as [->|(j & N & Hj)]; auto.
    destruct (K_flush _ _ K u p o (nth_error_In _ _ Hj) Fu Pp Wp (Hst' _ _ _ _ N Hj Fu Pp Wp S)) as [H|H].
    + left. eapply pending_other; eauto.
    + right. eapply file_has_mono; eauto.
Qed.

Lemma staged_has_same s s' p o : p_staged (h_proc s' (writer p)) = p_staged (h_proc s (writer p)) -> staged_has s' p o <-> staged_has s p o.
Proof. unfold staged_has. now intros ->. Qed.

Lemma staged_find_set y x st z : staged_find z (@staged_set F y x st) = if String.eqb z y then Some x else staged_find z st.
Proof.
  induction st as [|[w v] st IH]; cbn [staged_set staged_find]; [reflexivity|].
  destruct (String.eqb_spec y w) as [->|N]; cbn [staged_find].
  - now destruct (String.eqb z w).
  - destruct (String.eqb_spec z w) as [->|N2]; [|exact IH]. destruct (String.eqb_spec w y); congruence.
Qed.

Lemma staged_prop k st : Forall (staged_ok data g P writer k) st -> forall p x, P p -> staged_find (cfp p) st = Some x ->
  exists l, x = mk_index (cfp p) false (lift l) /\ Forall (fun e => data p (fst e) = Ok (snd e)) l.
Proof.
  intros H p x Pp E. apply staged_find_in in E. rewrite Forall_forall in H. destruct (H _ E) as (q & l & Pq & _ & E1 & E2 & T).
  cbn [fst snd] in *. assert (p = q) by now apply (apart p q). subst q. eauto.
Qed.

Lemma finish_parts t a q r : t_todo t = q :: r -> @finish F t a = mk_thread (t_proc t) WIdle r (t_log t ++ [(q, a)]).
Proof. intros E. unfold finish. now rewrite E. Qed.

Lemma map_fst_lift (l : records) : map fst (lift l) = map fst l.
Proof. unfold lift. rewrite map_map. now apply map_ext. Qed.

Lemma mfind_some_in {V} o (m : list (Z * V)) : mfind o m <> None -> In o (map fst m).
Proof.
  induction m as [|[k v] m IH]; cbn [mfind]; [congruence|]. destruct (Z.eqb_spec o k) as [->|N]; [now left|]. intros H. right. auto.
Qed.

Lemma kept_step own pub s ts k t b s' t' : Inv own pub s ts -> Kept s ts -> nth_error ts k = Some t ->
  step_thread uniq data data_offsets g (fun i => existsb (fun u => mid_write u i) ts) b s t = Some (s', t') ->
  Kept s' (set_nth k t' ts).
Proof.
  intros I K Hk H. pose proof (nth_error_In _ _ Hk) as Ht.
  destruct (I_threads _ _ _ _ _ _ _ _ _ _ _ I t Ht) as (Td & _ & W).
  pose proof (K_shape _ _ K t Ht) as Sh. pose proof (K_app _ _ K t Ht) as Ap.
  unfold step_thread in H. destruct (t_todo t) as [|q rq] eqn:Eq; [discriminate|].
  inversion Td as [|? ? Cq _]; subst. destruct Cq as ((Tq & Wq) & _ & Nq). specialize (Nq eq_refl).
  (* the usual case: nothing staged changes *)
  assert (Quiet : forall s1 t1, effect s t s1 -> (forall j, p_staged (h_proc s1 j) = p_staged (h_proc s j)) -> shape (t_work t1) ->
    (forall x, In x (t_todo t1) -> In x (t_todo t)) ->
    t_proc t1 = t_proc t -> (t_log t1 = t_log t \/ exists q a, t_log t1 = t_log t ++ [(q, a)] /\ plain_call q) ->
    (forall p o, flushing t1 = true -> P p -> writer p = t_proc t1 -> staged_has s p o -> pending s1 (t_work t1) p o \/ file_has s1 p o) ->
    Kept s1 (set_nth k t1 ts)).
  { intros s1 t1 E Hs H1 H2 H3 HL H4. apply (kept_update own pub s ts k t s1 t1); auto.
    - intros p o _ S. left. apply (staged_has_same s s1); auto.
    - intros j u p o _ _ _ _ _ S. apply (staged_has_same s s1); auto.
    - destruct HL as [HL|(q1 & a1 & HL & HP)]; [now left|right]. exists q1, a1. split; auto. split; [intros p o i ->|intros ->]; contradiction HP.
    - intros p o F1 Pp Wp S. apply H4; auto. apply (staged_has_same s s1); auto. }
  assert (Fin : forall s1 a, h_names s1 = h_names s -> h_data s1 = h_data s -> (forall j, p_staged (h_proc s1 j) = p_staged (h_proc s j)) ->
    plain_call q -> Kept s1 (set_nth k (finish t a) ts)).
  { intros s1 a H1 H2 H3 Nins. rewrite (finish_parts t a q rq Eq). apply Quiet; cbn [t_work t_todo t_log t_proc shape flushing]; auto.
    - now apply effect_same.
    - rewrite Eq. intros x Hx. now right.
    - right. eauto.
    - discriminate. }
  assert (Go : forall s1 w, effect s t s1 -> (forall j, p_staged (h_proc s1 j) = p_staged (h_proc s j)) -> shape w ->
    flushing (go t w) = false -> Kept s1 (set_nth k (go t w) ts)).
  { intros s1 w E H3 H4 H5. apply Quiet; auto. congruence. }
  assert (NotScan : forall p w c, t_work t = WHave p w c -> match w with ForGet _ _ => True | _ => False end).
  { intros p w c Ew. rewrite Ew in W. cbn [work_ok] in W. destruct W as ([r W1] & _). injection W1 as W1 _.
    destruct w; auto; rewrite W1 in Nq; discriminate. }
  destruct (t_work t) as [|p w|p w|p w i acc|p w c|p offs vec|ops i n|a rest|a ops rest|a ops i rest] eqn:Ew; cbn [work_ok] in W.
  - unfold start in H. destruct q as [p offs|p o i|a|p offs|p m|]; try discriminate.
    + destruct (get_cached _ _ _ _) as [[res l]|e|]; injection H as <- <-.
      * apply Go; [now apply effect_same| |now destruct (lenN res =? lenN offs)%N|now destruct (lenN res =? lenN offs)%N].
        intros j. cbn [set_lru set_proc h_proc]. destruct (Nat.eqb_spec j (t_proc t)); [now subst|auto].
      * apply Fin; auto; exact Logic.I.
      * apply Fin; auto; exact Logic.I.
    + destruct (p_lock (h_proc s (t_proc t))) eqn:Lk; [discriminate|]. injection H as <- <-.
      rewrite (finish_parts t _ _ rq Eq). destruct Tq as [Pp Dp].
      assert (Same : forall p' o', P p' -> writer p' <> t_proc t ->
        staged_has (set_staged s (t_proc t) (staged_set (cfp p) (x_insert match staged_find (cfp p) (p_staged (h_proc s (t_proc t))) with Some x => x | None => get_index_file g p end o (Some i)) (p_staged (h_proc s (t_proc t))))) p' o' <-> staged_has s p' o').
      { intros p' o' _ N. apply staged_has_same. cbn [set_staged set_proc h_proc]. destruct (Nat.eqb_spec (writer p') (t_proc t)); [congruence|auto]. }
      assert (New : forall p' o', P p' -> staged_has s p' o' \/ (p' = p /\ o' = o) ->
        staged_has (set_staged s (t_proc t) (staged_set (cfp p) (x_insert match staged_find (cfp p) (p_staged (h_proc s (t_proc t))) with Some x => x | None => get_index_file g p end o (Some i)) (p_staged (h_proc s (t_proc t))))) p' o').
      { intros p' o' Pp' S. destruct (Nat.eq_dec (writer p') (t_proc t)) as [Ewr|N].
        2:{ destruct S as [S|[-> _]]; [now apply Same|congruence]. }
        unfold staged_has. cbn [set_staged set_proc h_proc]. rewrite Ewr, Nat.eqb_refl. cbn [p_staged]. rewrite staged_find_set.
        destruct (I_proc _ _ _ _ _ _ _ _ _ _ _ I (t_proc t)) as (_ & _ & St).
        destruct (String.eqb_spec (cfp p') (cfp p)) as [Ec|Nc].
        - assert (p' = p) by now apply (apart p' p). subst p'.
          eexists. split; [reflexivity|]. cbn [x_insert x_map].
          destruct (staged_find (cfp p) (p_staged (h_proc s (t_proc t)))) as [x|] eqn:Ef.
          + destruct S as [(x' & S1 & S2)|[_ ->]].
            * rewrite Ewr in S1. rewrite Ef in S1. injection S1 as <-. clear -S2. 
              revert S2. generalize (x_map x). induction l as [|[z v] l IH]; cbn [minsert mfind]; [congruence|].
              destruct (Z.ltb_spec o z); [|destruct (Z.eqb_spec o z)]; cbn [mfind].
              -- intros S2. destruct (Z.eqb_spec o' o); [discriminate|exact S2].
              -- auto.
              -- destruct (Z.eqb_spec o' z); auto.
            * clear. generalize (x_map x). induction l as [|[z v] l IH]; cbn [minsert mfind]; [now rewrite Z.eqb_refl|].
              destruct (Z.ltb_spec o z); [|destruct (Z.eqb_spec o z)]; cbn [mfind].
              -- now rewrite Z.eqb_refl.
              -- subst. now rewrite Z.eqb_refl.
              -- destruct (Z.eqb_spec o z); [congruence|auto].
          + destruct S as [(x' & S1 & S2)|[_ ->]]; [rewrite Ewr in S1; congruence|].
            cbn [get_index_file new_index x_map minsert mfind]. now rewrite Z.eqb_refl.
        - destruct S as [(x' & S1 & S2)|[-> _]]; [|congruence]. exists x'. split; auto. now rewrite <- Ewr. }
      apply (kept_update own pub s ts k t); cbn [t_work t_todo t_log t_proc shape flushing]; auto.
      * now apply effect_same.
      * intros j u p' o' Nj Hu Fu Pp' Wp' S. apply Same in S; auto.
        intros Ewr. pose proof (I_lock _ _ _ _ _ _ _ _ _ _ _ I u (nth_error_In _ _ Hu) Fu) as Lu.
        assert (t_proc u = t_proc t) as Eu by congruence. rewrite Eu in Lu. congruence.
      * rewrite Eq. intros x Hx. now right.
      * right. eexists. eexists. split; [reflexivity|]. split; [|discriminate]. intros p' o' i' L. injection L as E1 E2 E3. subst p' o' i'. split; auto. split; auto.
      * discriminate.
    + destruct (p_lock (h_proc s (t_proc t))) eqn:Lk; [discriminate|]. injection H as <- <-. apply Quiet; auto.
      * now apply effect_same.
      * intros j. cbn [set_lock set_proc h_proc]. destruct (Nat.eqb_spec j (t_proc t)); [now subst|auto].
      * intros p o _ Pp Wp (x & S1 & S2). left. cbn [go t_work pending t_proc] in *. exists x. rewrite <- Wp. split; auto. now apply staged_find_in.
    + injection H as <- <-. apply Fin; auto; try exact Logic.I.
      intros j. cbn [set_lru set_proc h_proc]. destruct (Nat.eqb_spec j (t_proc t)); [now subst|auto].
  - destruct (h_names s _); injection H as <- <-; apply Go; cbn [shape]; auto; now apply effect_same.
  - assert (Nins : plain_call q).
    { destruct W as ([r W1] & _). injection W1 as -> _. destruct w; exact Logic.I. }
    destruct (h_names s _); injection H as <- <-; [apply Go; cbn [shape]; auto; now apply effect_same|now apply Fin].
  - destruct (nth_error (h_data s i) (length acc)); injection H as <- <-; apply Go; cbn [shape]; auto; now apply effect_same.
  - specialize (NotScan _ _ _ eq_refl). destruct w as [offs res| |]; try contradiction.
    assert (Nins : plain_call q) by (destruct W as ([r W1] & _); injection W1 as -> _; exact Logic.I).
    destruct (get_vec _ _ _ _ _ _); injection H as <- <-; auto. apply Go; cbn [shape]; auto; now apply effect_same.
  - assert (Nins : plain_call q) by (destruct W as ([r W1] & _); injection W1 as -> _; exact Logic.I).
    destruct (put_cache _ _ _); injection H as <- <-; auto. apply Fin; auto.
    intros j. cbn [set_lru set_proc h_proc]. destruct (Nat.eqb_spec j (t_proc t)); [now subst|auto].
  - destruct W as ((q0 & [r0 W1] & W2) & _). injection W1 as <- _. congruence.
  - (* flush: next file *)
    assert (F1 : flushing t = true) by (unfold flushing; now rewrite Ew).
    destruct W as ([r0 W1] & W2). injection W1 as -> <-.
    assert (a = true) by (destruct a; auto; exfalso; apply Ap; now left). subst a.
    destruct rest as [|[x ix] rest].
    + injection H as <- <-. rewrite (finish_parts t _ _ rq Eq).
      apply (kept_update own pub s ts k t); cbn [t_work t_todo t_log t_proc shape flushing]; auto.
      * now apply effect_same.
      * intros p o Pp S. destruct (Nat.eq_dec (writer p) (t_proc t)) as [Ewr|N].
        -- right. destruct (K_flush _ _ K t p o Ht F1 Pp Ewr S) as [D|D]; [|exact D]. rewrite Ew in D. destruct D as (x & [] & _).
        -- left. eapply staged_has_same; [|exact S]. cbn [set_lock set_staged set_proc h_proc].
           destruct (Nat.eqb_spec (writer p) (t_proc t)); [congruence|auto].
      * intros j u p o Nj Hu Fu Pp Wp S. eapply staged_has_same; [|exact S]. cbn [set_lock set_staged set_proc h_proc].
        destruct (Nat.eqb_spec (writer p) (t_proc t)); auto. exfalso. apply Nj. eapply (I_flush _ _ _ _ _ _ _ _ _ _ _ I); eauto. congruence.
      * rewrite Eq. intros z Hz. now right.
      * right. eexists. eexists. split; [reflexivity|]. split; [discriminate|]. intros _ p o Pp Wp [S|S]; [|exact S].
        destruct (K_flush _ _ K t p o Ht F1 Pp Wp S) as [D|D]; [|exact D]. rewrite Ew in D. destruct D as (x & [] & _).
      * discriminate.
    + inversion W2 as [|? ? (p & l & Pp & Wp & E1 & E2 & Tr) W2']; subst. cbn [fst snd] in E1, E2. subst x ix.
      unfold x_flush in H. cbn [x_map x_path] in H.
      set (d := fun q => option_map (h_data s) (h_names s q)) in *.
      rewrite (append_ops d l (cfp p) (cfp_index g p)) in H.
      assert (X : forall ops, (ops = [OpTrunc (cfp p); OpAppend (cfp p) (file_of l)] \/ ops = [OpAppend (cfp p) (entries l)]) ->
        Kept s (set_nth k (go t (WFlushOpen true ops rest)) ts)).
      { intros ops Ho. apply Quiet; auto; [now apply effect_same|]. intros p' o _ Pp' Wp' S.
        cbn [go t_work pending t_proc] in *. destruct (K_flush _ _ K t p' o Ht F1 Pp' Wp' S) as [D|D]; [|now right].
        rewrite Ew in D. cbn [pending] in D. destruct D as (x & [Hx|Hx] & D); left.
        - right. injection Hx as Ec <-. assert (p = p') by now apply (apart p p'). subst p'. exists l. split; auto.
          apply mfind_some_in in D. cbn [x_map] in D. now rewrite map_fst_lift in D.
        - left. exists x. auto. }
      destruct (d (cfp p)); injection H as <- <-; apply X; auto.
  - (* flush: open *)
    assert (F1 : flushing t = true) by (unfold flushing; now rewrite Ew).
    destruct W as ([r0 W1] & W2 & p & l & Pp & Wp & Tr & W3). injection W1 as -> <-.
    destruct W3 as [[-> Hn]|[-> Hn]].
    + specialize (Hn eq_refl).
      pose proof (effect_open s t (cfp p) Hn) as Eff. 
      assert (Eo : open_new s (cfp p) = (fst (open_new s (cfp p)), New (h_next s))) by (unfold open_new; now rewrite Hn).
      rewrite Eo in H. injection H as <- <-. apply Quiet; auto.
      * intros j. now rewrite open_new_lock.
      * cbn [go t_work shape]. right. eauto.
      * intros p' o _ Pp' Wp' S. cbn [go t_work pending t_proc] in *.
        destruct (K_flush _ _ K t p' o Ht F1 Pp' Wp' S) as [D|D]; [|right; eapply file_has_mono; eauto].
        rewrite Ew in D. cbn [pending] in D. destruct D as [D|(l' & Hl & [D|D])]; left; [now left| |discriminate]. right.
        injection D as Ec _ Ee. assert (p = p') by now apply (apart p p'). subst p'.
        exists (file_of l), l'. split; auto. split; auto. split.
        { unfold open_new. rewrite Hn. cbn [fst h_names]. apply set_name_same. }
        unfold open_new. rewrite Hn. cbn [fst h_data]. rewrite set_data_same. cbn [app]. unfold file_of. now rewrite Ee.
    + unfold open_append in H. destruct (h_names s (cfp p)) as [i|] eqn:En; [|congruence]. injection H as <- <-.
      destruct (I_names _ _ _ _ _ _ _ _ _ _ _ I p i Pp En) as [Oi Pi].
      assert (Alone : forall j u, j <> k -> nth_error ts j = Some u -> cur u <> Some i).
      { intros j u Nj Hu Cu. destruct (I_threads _ _ _ _ _ _ _ _ _ _ _ I u (nth_error_In _ _ Hu)) as (_ & _ & Wu).
        unfold cur in Cu. destruct (t_work u) as [| | | | | |[|o ops] x n| | |b0 [|o ops] x r] eqn:Ewu; try discriminate; injection Cu as ->; cbn [work_ok] in Wu.
        - destruct Wu as (_ & [Wu|(p' & r & l' & _ & O & _ & _ & [[Np _]|[Hf _]])]); [discriminate|contradiction|discriminate].
        - destruct Wu as (_ & _ & [Wu|(p' & r' & l' & _ & O & _ & _ & [[Np _]|(_ & Wp' & _)])]); [discriminate|contradiction|].
          rewrite (I_fun _ _ _ _ _ _ _ _ _ _ _ I _ _ _ O Oi) in Wp'. apply Nj. eapply (I_flush _ _ _ _ _ _ _ _ _ _ _ I); eauto; [unfold flushing; now rewrite Ewu|congruence]. }
      destruct (I_data _ _ _ _ _ _ _ _ _ _ _ I i p Pp Oi) as (l0 & Tl0 & El0).
      { intros u Hu Cu. apply In_nth_error in Hu as [j Hu]. destruct (Nat.eq_dec j k) as [->|N]; [|eapply Alone; eauto].
        rewrite Hk in Hu. injection Hu as <-. unfold cur in Cu. rewrite Ew in Cu. discriminate. }
      apply Quiet; auto.
      * now apply effect_same.
      * cbn [go t_work shape]. right. eauto.
      * intros p' o _ Pp' Wp' S. cbn [go t_work pending t_proc] in *.
        destruct (K_flush _ _ K t p' o Ht F1 Pp' Wp' S) as [D|D]; [|now right].
        rewrite Ew in D. cbn [pending] in D. destruct D as [D|(l' & Hl & [D|D])]; left; [now left|discriminate|]. right.
        injection D as Ec Ee. assert (p = p') by now apply (apart p p'). subst p'.
        exists (entries l), (l0 ++ l'). split; [rewrite map_app; apply in_or_app; now right|]. split; auto. split; auto.
        rewrite El0. unfold file_of. now rewrite Ee, entries_app.
  - (* flush writes *)
    assert (F1 : flushing t = true) by (unfold flushing; now rewrite Ew).
    destruct W as ([r0 W1] & W2 & W3). injection W1 as -> <-. cbn [shape] in Sh.
    destruct Sh as [->|(x & r & ->)].
    + injection H as <- <-. apply Quiet; auto; [now apply effect_same|]. intros p o _ Pp Wp S. cbn [go t_work pending t_proc] in *.
      destruct (K_flush _ _ K t p o Ht F1 Pp Wp S) as [D|D]; [|now right]. rewrite Ew in D. cbn [pending] in D.
      destruct D as [D|(r & l & _ & D & _)]; [now left|discriminate].
    + destruct r as [|tk r]; cbn [write_step] in H; injection H as <- <-.
      * apply Quiet; auto; [now apply effect_same|now left|]. intros p o _ Pp Wp S. cbn [go t_work pending t_proc] in *.
        destruct (K_flush _ _ K t p o Ht F1 Pp Wp S) as [D|D]; [|now right]. rewrite Ew in D. cbn [pending] in D.
        destruct D as [D|(r & l & D1 & D2 & D3 & D4)]; [left; now left|right]. injection D2 as -> <-.
        exists i, l, []. rewrite app_nil_r in D4 |- *. auto.
      * assert (C1 : cur t = Some i) by (unfold cur; now rewrite Ew).
        pose proof (effect_append s t i tk C1) as Eff. apply Quiet; auto.
        { cbn [go t_work shape]. right. eauto. }
        intros p o _ Pp Wp S. cbn [go t_work pending t_proc] in *.
        destruct (K_flush _ _ K t p o Ht F1 Pp Wp S) as [D|D]; [|right; eapply file_has_mono; eauto]. rewrite Ew in D. cbn [pending] in D.
        destruct D as [D|(r1 & l & D1 & D2 & D3 & D4)]; left; [now left|right]. injection D2 as -> <-.
        exists r, l. split; auto. split; auto. split; auto. cbn [append_tok h_data]. rewrite set_data_same, <- app_assoc. exact D4.
Qed.
End Kept.

Section Final.
Context {F : Type}.
Variable uniq : nat -> string -> string.
Variable data : string -> Z -> outcome (info F).
Variable data_offsets : string -> outcome (list Z).
Variable g : config.
Notation cfp := (cache_file_path g).
Hypothesis data_safe : forall p o, data p o <> UB.
Hypothesis offsets_safe : forall p, data_offsets p <> UB.
Variable P : string -> Prop.
Hypothesis apart : names_apart g P.
Variable writer : string -> nat.
Variable d : @disk F.
Hypothesis unique : unique_names uniq g P d.
Hypothesis disk_true : true_disk data g P d.
Variable cap : nat.
Hypothesis cap_pos : 1 <= cap.
Variable ps : list (nat * list (@call F)).
Hypothesis sound : sound_programs data P writer ps.
Hypothesis arch : archiving ps.

Lemma kept_start : Kept data g P writer (fst (start_pool d cap ps)) (snd (start_pool d cap ps)).
Proof.
  cbn [start_pool fst snd].
  assert (A : forall t, In t (map (fun l => mk_thread (fst l) WIdle (snd l) []) ps) -> t_work t = @WIdle F /\ t_log t = [] /\ ~ In (CFlush false) (t_todo t)).
  { intros t Ht. apply in_map_iff in Ht as (l & <- & Hl). split; auto. split; auto. cbn [t_todo]. intros H.
    destruct arch as [_ B]. unfold no_call in B. rewrite Forall_forall in B. specialize (B l Hl). rewrite Forall_forall in B.
    specialize (B _ H). discriminate. }
  constructor.
  - intros t Ht. destruct (A t Ht) as (-> & _). exact Logic.I.
  - intros t Ht. apply (A t Ht).
  - intros t p o i a Ht H. destruct (A t Ht) as (_ & E & _). rewrite E in H. destruct H.
  - intros t l1 l2 y p o i a Ht H. destruct (A t Ht) as (_ & E & _). rewrite E in H. destruct l1; discriminate.
  - intros t p o Ht H. destruct (A t Ht) as (E & _). unfold flushing in H. rewrite E in H. discriminate.
Qed.

Lemma kept_run sched : forall own pub s s', Inv uniq data g P writer false true own pub (fst s) (snd s) -> Kept data g P writer (fst s) (snd s) ->
  run uniq data data_offsets g sched s = Some s' ->
  exists own' pub', Inv uniq data g P writer false true own' pub' (fst s') (snd s') /\ Kept data g P writer (fst s') (snd s').
Proof.
  induction sched as [|[k b] sched IH]; intros own pub s s' I K; cbn [run].
  - intros [= <-]. eauto.
  - destruct (step_pool uniq data data_offsets g k b s) as [s1|] eqn:E; [|discriminate]. intros H.
    unfold step_pool in E. destruct (nth_error (snd s) k) as [t|] eqn:Ek; [|discriminate].
    destruct (step_thread _ _ _ _ _ _ _ _) as [[h t']|] eqn:Es; [|discriminate]. injection E as <-.
    destruct unique as (U1 & U2 & _).
    destruct (step_inv uniq data data_offsets g data_safe offsets_safe P apart U1 U2 writer false true own pub (fst s) (snd s) k t b h t' I Ek Es (or_intror (or_introl eq_refl)))
      as (own1 & pub1 & I1 & L1).
    pose proof (kept_step uniq data data_offsets g data_safe offsets_safe P apart U1 U2 writer own pub (fst s) (snd s) k t b h t' I K Ek Es) as K1.
    exact (IH own1 pub1 (h, set_nth k t' (snd s)) s' I1 K1 H).
Qed.

Lemma filed_of own pub s ts p o i : Inv uniq data g P writer false true own pub s ts -> P p -> data p o = Ok i ->
  p_lock (h_proc s (writer p)) = false -> file_has g s p o -> filed g s p o i.
Proof.
  intros I Pp D Lk (j & l & x & H1 & H2 & H3). destruct (I_names _ _ _ _ _ _ _ _ _ _ _ I p j Pp H1) as [Oj Pj].
  destruct (I_data _ _ _ _ _ _ _ _ _ _ _ I j p Pp Oj) as (l' & T & E).
  { intros u Hu Cu. destruct (I_threads _ _ _ _ _ _ _ _ _ _ _ I u Hu) as (Td & _ & Wu).
    unfold cur in Cu. destruct (t_work u) as [| | | | | |[|o' ops] z n| | |b0 [|o' ops] z r] eqn:Ewu; try discriminate; injection Cu as ->; cbn [work_ok] in Wu.
    - destruct Wu as (_ & [Wu|(p' & r & l' & _ & O & _ & _ & [[Np _]|[Hf _]])]); [discriminate|contradiction|discriminate].
    - destruct Wu as (_ & _ & [Wu|(p' & r' & l' & _ & O & _ & _ & [[Np _]|(_ & Wp' & _)])]); [discriminate|contradiction|].
      rewrite (I_fun _ _ _ _ _ _ _ _ _ _ _ I _ _ _ O Oj) in Wp'.
      assert (Fu : flushing u = true) by (unfold flushing; now rewrite Ewu).
      pose proof (I_lock _ _ _ _ _ _ _ _ _ _ _ I u Hu Fu) as Lu. congruence. }
  rewrite E in H2. destruct (file_prefix l l' x (eq_sym H2)) as [l2 ->].
  destruct (holds_file (disk_of s) (cfp p) (l ++ l2)) as (m & M1 & M2 & M3).
  { unfold disk_of. rewrite H1. cbn [option_map]. congruence. }
  exists m. split; auto. rewrite M3.
  assert (Hin : exists v, mfind o (l ++ l2) = Some v).
  { apply mfind_keys. rewrite map_app. apply in_or_app. now left. }
  destruct Hin as [v Hv]. rewrite Hv. cbn [option_map]. do 2 f_equal.
  apply mfind_in in Hv. rewrite Forall_forall in T. apply T in Hv. unfold true_rec in Hv. cbn [fst snd] in Hv. congruence.
Qed.

Lemma threads_kept s t p o i a : reached uniq data data_offsets g d cap ps s -> In t (snd s) ->
  p_lock (h_proc (fst s) (writer p)) = false -> In (CInsert p o i, a) (t_log t) ->
  staged_by g (fst s) (writer p) p o i \/ filed g (fst s) p o i.
Proof.
  intros [sched R] Ht Lk Hin. destruct arch as [A1 _].
  destruct (kept_run sched _ _ _ _ (inv_start uniq data g P apart writer d unique disk_true cap cap_pos ps sound false true ltac:(discriminate) (fun _ => A1)) kept_start R)
    as (own & pub & I & K).
  destruct (K_log _ _ _ _ _ _ K t p o i a Ht Hin) as (Pp & D & Wp & [S|S]).
  - left. destruct S as (x & S1 & S2). exists x. split; auto.
    destruct (I_proc _ _ _ _ _ _ _ _ _ _ _ I (writer p)) as (_ & _ & St).
    destruct (staged_prop data g P apart writer (writer p) _ St p x Pp S1) as (l & -> & T). cbn [x_map] in *.
    rewrite mfind_lift in *. destruct (mfind o l) as [v|] eqn:Ev; cbn [option_map] in *; [|congruence].
    apply mfind_in in Ev. rewrite Forall_forall in T. apply T in Ev. cbn [fst snd] in Ev. congruence.
  - right. eapply filed_of; eauto.
Qed.

Lemma threads_flushed s t p o i a l1 y l2 : reached uniq data data_offsets g d cap ps s -> In t (snd s) ->
  p_lock (h_proc (fst s) (writer p)) = false -> t_log t = l1 ++ (CFlush true, Ok y) :: l2 -> In (CInsert p o i, a) l1 ->
  filed g (fst s) p o i.
Proof.
  intros [sched R] Ht Lk El Hin. destruct arch as [A1 _].
  destruct (kept_run sched _ _ _ _ (inv_start uniq data g P apart writer d unique disk_true cap cap_pos ps sound false true ltac:(discriminate) (fun _ => A1)) kept_start R)
    as (own & pub & I & K).
  destruct (K_log _ _ _ _ _ _ K t p o i a Ht) as (Pp & D & _).
  { rewrite El. apply in_or_app. now left. }
  eapply filed_of; eauto. eapply (K_done _ _ _ _ _ _ K); eauto.
Qed.
End Final.
