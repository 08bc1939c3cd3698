From Coq Require Import Sorted.
From Verif Require Import Base BaseLemmas ModelInfo ModelStream ModelIndex SpecIndex ProofsIndex ModelLRU ModelCache SpecCache
  ProofsCache ModelThreads SpecThreads.

Local Open Scope nat_scope.

(* ---- lists ---- *)
Lemma nth_set_same {A} k (a : A) l b : nth_error l k = Some b -> nth_error (set_nth k a l) k = Some a.
Proof. revert k. induction l as [|x l IH]; intros [|k]; simpl; try discriminate; auto. Qed.

Lemma nth_set_other {A} k (a : A) l j : j <> k -> nth_error (set_nth k a l) j = nth_error l j.
Proof. revert k j. induction l as [|x l IH]; intros [|k] [|j] H; simpl; auto; congruence. Qed.

Lemma in_set_nth {A} k (a : A) l x : In x (set_nth k a l) -> x = a \/ exists j, j <> k /\ nth_error l j = Some x.
Proof.
  intros H. apply In_nth_error in H as [j Hj]. destruct (Nat.eq_dec j k) as [->|N].
  - left. destruct (nth_error l k) eqn:E; [rewrite (nth_set_same _ _ _ _ E) in Hj; congruence|].
    exfalso. clear -E Hj. revert l E Hj. induction k as [|k IH]; intros [|y l]; simpl; try discriminate. apply IH.
  - right. exists j. rewrite nth_set_other in Hj by auto. auto.
Qed.

Lemma inode_eqb_spec a b : reflect (a = b) (inode_eqb a b).
Proof.
  destruct a as [p|n], b as [q|m]; cbn [inode_eqb]; try (constructor; congruence).
  - destruct (String.eqb_spec p q); constructor; congruence.
  - destruct (Nat.eqb_spec n m); constructor; congruence.
Qed.

Section Threads.
Context {F : Type}.
Notation stream := (list (tok F)).
Notation records := (list (Z * info F)).
Notation thread := (@thread F).
Notation shared := (@shared F).
Variable uniq : nat -> string -> string.
Variable data : string -> Z -> outcome (info F).
Variable data_offsets : string -> outcome (list Z).
Variable g : config.
Hypothesis data_safe : forall p o, data p o <> UB.
Hypothesis offsets_safe : forall p, data_offsets p <> UB.
Variable P : string -> Prop.
Hypothesis apart : names_apart g P.
Hypothesis fresh : forall n, fresh_names (uniq n) g P.
Hypothesis fresh_once : forall n m p q, (uniq n p ++ file_ext)%string = (uniq m q ++ file_ext)%string -> n = m.
Variable writer : string -> nat.
(* no flush in any program; no scan in any program *)
Variables nf ns : bool.

Notation cfp := (cache_file_path g).
Notation tru := (true_rec data).
Notation afind := (ModelLRU.afind string_dec).

Definition upset (b : bool) (X : Prop) : Prop := b = true -> X.

Definition call_ok (k : nat) (q : @call F) : Prop :=
  (true_call data P q /\ match q with CInsert p _ _ => writer p = k | _ => True end) /\
  upset nf (is_flush q = false) /\ upset ns (is_scan q = false).

Definition entry_ok (e : @call F * outcome (@answer F)) : Prop :=
  lookup_right data g e /\ upset nf (good_answer data g e).

Definition head (l : list (@call F)) (q : @call F) : Prop := exists r, l = q :: r.

Definition call_of (p : string) (w : @purpose F) : @call F :=
  match w with ForGet offs _ => CGet p offs | ForScan offs => CScan p offs | ForScanFile m => CScanFile p m end.

Definition purp (p : string) (w : @purpose F) : Prop :=
  P p /\ match w with
         | ForGet offs res => sorted_keys res /\ forall o v, mfind o res = Some v -> In o offs /\ data p o = Ok v
         | _ => True
         end.

(* what has been read from the index file of p *)
Definition view (p : string) (c : option stream) : Prop :=
  match c with
  | None => True
  | Some s => exists l, Forall (tru p) l /\ torn_of (file_of l) s /\ upset nf (s = file_of l)
  end.

Definition staged_ok (k : nat) (e : string * @index F) : Prop :=
  exists p l, P p /\ writer p = k /\ fst e = cfp p /\ snd e = mk_index (cfp p) false (lift l) /\ Forall (tru p) l.

Definition known (s : shared) (i : inode) : Prop := match i with New n => n < h_next s | Old _ => True end.

Section Ghost.
(* own i p: the file i holds records of the data file p; pub i: it has been an index file *)
Variable own : inode -> string -> Prop.
Variable pub : inode -> Prop.

Definition wops (s : shared) (k : nat) (fl : bool) (ops : list (@file_op F)) (i : inode) : Prop :=
  ops = [] \/
  exists p r l, P p /\ own i p /\ Forall (tru p) l /\ h_data s i ++ r = file_of l /\
    ((~ pub i /\ exists tmp, (forall q, P q -> tmp <> cfp q) /\
        (ops = [OpAppend tmp r; OpRename tmp (cfp p)] \/ (r = [] /\ ops = [OpRename tmp (cfp p)])) /\
        (fl = true -> writer p = k))
     \/ (fl = true /\ writer p = k /\ pub i /\ ops = [OpAppend (cfp p) r])).

Definition fops (s : shared) (k : nat) (ops : list (@file_op F)) : Prop :=
  exists p l, P p /\ writer p = k /\ Forall (tru p) l /\
    ((ops = [OpTrunc (cfp p); OpAppend (cfp p) (file_of l)] /\ upset ns (h_names s (cfp p) = None)) \/
     (ops = [OpAppend (cfp p) (entries l)] /\ h_names s (cfp p) <> None)).

Definition work_ok (s : shared) (k : nat) (todo : list (@call F)) (w : @work F) : Prop :=
  match w with
  | WIdle => True
  | WExists p w => head todo (call_of p w) /\ purp p w
  | WOpen p w => head todo (call_of p w) /\ purp p w /\ h_names s (cfp p) <> None
  | WRead p w i acc => head todo (call_of p w) /\ purp p w /\ own i p /\ pub i /\ exists more, h_data s i = acc ++ more
  | WHave p w c => head todo (call_of p w) /\ purp p w /\ view p c
  | WPut p offs vec => head todo (CGet p offs) /\ P p /\ Forall2 (fun o i => data p o = Ok i) offs vec
  | WWrite ops i n => (exists q, head todo q /\ is_scan q = true) /\ wops s k false ops i
  | WFlush a rest => head todo (CFlush a) /\ Forall (staged_ok k) rest
  | WFlushOpen a ops rest => head todo (CFlush a) /\ Forall (staged_ok k) rest /\ fops s k ops
  | WFlushWrite a ops i rest => head todo (CFlush a) /\ Forall (staged_ok k) rest /\ wops s k true ops i
  end.

Definition thread_ok (s : shared) (t : thread) : Prop :=
  Forall (call_ok (t_proc t)) (t_todo t) /\ Forall entry_ok (t_log t) /\ work_ok s (t_proc t) (t_todo t) (t_work t).

Definition cur (t : thread) : option inode :=
  match t_work t with
  | WWrite (_ :: _) i _ | WFlushWrite _ (_ :: _) i _ => Some i
  | _ => None
  end.

Definition flushing (t : thread) : bool :=
  match t_work t with WFlush _ _ | WFlushOpen _ _ _ | WFlushWrite _ _ _ _ => true | _ => false end.

Definition proc_ok (k : nat) (c : @proc F) : Prop :=
  1 <= l_capacity (p_lru c) /\ true_lru data P (p_lru c) /\ Forall (staged_ok k) (p_staged c).

Record Inv (s : shared) (ts : list thread) : Prop := {
  I_names : forall p i, P p -> h_names s (cfp p) = Some i -> own i p /\ pub i;
  I_own : forall i p, own i p -> known s i;
  I_fun : forall i p q, own i p -> own i q -> p = q;
  I_pub : forall i, pub i -> known s i;
  I_data : forall i p, P p -> own i p -> (forall t, In t ts -> cur t <> Some i) ->
             exists l, Forall (tru p) l /\ h_data s i = file_of l;
  I_cur : forall j k t u i, nth_error ts j = Some t -> nth_error ts k = Some u ->
             cur t = Some i -> cur u = Some i -> j = k;
  I_flush : forall j k t u, nth_error ts j = Some t -> nth_error ts k = Some u ->
             flushing t = true -> flushing u = true -> t_proc t = t_proc u -> j = k;
  I_lock : forall t, In t ts -> flushing t = true -> p_lock (h_proc s (t_proc t)) = true;
  I_held : forall k, p_lock (h_proc s k) = true -> exists t, In t ts /\ flushing t = true /\ t_proc t = k;
  I_proc : forall k, proc_ok k (h_proc s k);
  I_tmp : forall m q, P q -> h_next s <= m -> h_names s (uniq m (cfp q) ++ file_ext)%string = None;
  I_threads : forall t, In t ts -> thread_ok s t
}.
End Ghost.

(* ---- what is read ---- *)
Lemma r_entries_sorted fuel : forall m (s : stream) m', sorted_keys m -> r_entries fuel m s = Ok m' -> sorted_keys m'.
Proof.
  induction fuel as [|fuel IH]; intros m s m' Hs; cbn [r_entries]; [discriminate|].
  destruct (s_next s) as [[[|] s1]|e|]; cbn [obind]; try discriminate; [|intros [= <-]; exact Hs].
  destruct (r_ll s1) as [[off s2]|e|]; cbn [obind]; try discriminate.
  destruct (r_info s2) as [[q s3]|e|]; cbn [obind]; try discriminate. apply IH. now apply minsert_sorted.
Qed.

Lemma view_load p c : view p c ->
  match load_index (fun _ => c) (cfp p) with
  | Ok m => sorted_keys m /\ (forall o i, mfind o m = Some (Some i) -> data p o = Ok i)
  | Throw e => e = EStream /\ nf = false
  | UB => False
  end /\ upset nf (exists l, Forall (tru p) l /\ load_index (fun _ => c) (cfp p) = Ok (lift l)).
Proof.
  destruct c as [s|]; cbn [view].
  - intros (l & Tl & (pre & rest & E & C) & Full). rewrite (load_some _ _ s) by reflexivity.
    assert (Hfull : upset nf (exists l, Forall (tru p) l /\ r_index [] s = Ok (lift l))).
    { intros E2. rewrite (Full E2). exists (ins_all [] l). split; [apply Forall_ins_all; auto|].
      unfold file_of. rewrite r_index_ok, lift_ins_all. reflexivity. }
    split; auto.
    assert (Hnf : forall e, r_index [] s = Throw e -> nf = false).
    { intros e Ee. destruct nf eqn:E2; auto. destruct (Hfull eq_refl) as (l' & _ & El). congruence. }
    assert (Hs : forall m, r_index [] s = Ok m -> sorted_keys m).
    { intros m. unfold r_index. destruct (r_u8 s) as [[v s1]|e|]; cbn [obind]; try discriminate.
      destruct (assert_ _); cbn [obind]; try discriminate. apply r_entries_sorted. constructor. }
    assert (C0 : crash_result [] l (r_index [] s)).
    { destruct pre as [|k pre].
      - cbn [app] in *. destruct C as [->|[_ ->]]; reflexivity.
      - unfold file_of in E. cbn [app] in E. injection E as <- E.
        assert (T : exists cut, s = file_of [] ++ cut /\ torn_of (entries l) cut).
        { destruct C as [->|[(k & r & -> & K) ->]].
          - exists pre. split; [reflexivity|]. exists pre, rest. auto.
          - exists (pre ++ [KTorn]). split; [reflexivity|]. exists pre, (k :: r). split; auto. right. eauto. }
        destruct T as (cut & -> & T). now apply load_cut. }
    unfold crash_result in C0. specialize (Hs). destruct (r_index [] s) as [m|e|]; auto.
    + split; auto. intros o i Hm. apply C0 in Hm. cbn [app] in Hm. apply mfind_in in Hm. rewrite Forall_forall in Tl. exact (Tl _ Hm).
    + split; eauto.
  - intros _. rewrite load_none by reflexivity. split; [split; [constructor|discriminate]|].
    intros _. exists []. auto.
Qed.

(* ---- a lookup with what was read ---- *)
Lemma get_vec_ok p offs res c : purp p (ForGet offs res) -> view p c ->
  match get_vec data g c p offs res with
  | Ok vec => Forall2 (fun o i => data p o = Ok i) offs vec
  | Throw e => g_lazy g = true -> NoDup offs -> (forall o, In o offs -> exists i, data p o = Ok i) -> e = EStream /\ nf = false
  | UB => False
  end.
Proof.
  intros (Pp & Hs & Hr) V. destruct (view_load p c V) as [L _]. unfold get_vec.
  set (d := fun _ : string => c) in *.
  pose proof (get_rest_safe data g data_safe d p offs res) as Sf.
  assert (Hk : forall o v, mfind o res = Some v -> In o offs) by (intros o v H; apply (Hr o v H)).
  destruct (get_rest data g d p offs res) as [res'|e|] eqn:Er; cbn [obind]; [| |congruence].
  - destruct (get_rest_inv (uniq 0) data data_offsets g d p offs res res' Hs Hk Er) as [Hs' Hf'].
    assert (Tr : forall o i, mfind o res' = Some i -> data p o = Ok i).
    { intros o i H. destruct (Hf' o i H) as [_ [S|[(m & Em & S)|[_ S]]]]; auto.
      - apply (Hr o i S).
      - rewrite Em in L. apply L. exact S. }
    rewrite lenN_eqb. destruct (Nat.eqb_spec (length res') (length offs)) as [El|El]; cbn [assert_ obind].
    + destruct (map_size_full res' offs Hs' (fun o i H => proj1 (Hf' o i H))) as [M1 _].
      destruct (M1 El) as [ND Hall].
      destruct (mapM_pick_ok res' offs Hall) as [vec Ev]. rewrite Ev. apply mapM_pick in Ev.
      eapply Forall2_impl; [|exact Ev]. auto.
    + intros Lz ND De. exfalso. apply El. apply map_size_full; auto. { intros o i H; apply (Hf' o i H). }
      split; auto. destruct (load_index d (cfp p)) as [m|e'|] eqn:Em; [| |contradiction].
      * destruct (get_rest_ok (uniq 0) data data_offsets g d p offs res m Hs Hk Em) as (res2 & E & Hall).
        { intros o Ho. right. right. auto. }
        assert (res2 = res') by congruence. subst res2. auto.
      * unfold get_rest in Er. rewrite lenN_eqb in Er. destruct (Nat.eqb_spec (length res) (length offs)) as [E2|E2].
        -- injection Er as <-. exfalso. auto.
        -- exfalso. unfold x_get, load_index, get_index_file in *. destruct (x_load d (new_index (cfp p))); cbn in *; discriminate.
  - intros Lz ND De. destruct (load_index d (cfp p)) as [m|e'|] eqn:El; [| |contradiction].
    + exfalso. destruct (get_rest_ok (uniq 0) data data_offsets g d p offs res m Hs Hk El) as (res' & E & _); [|congruence].
      intros o Ho. right. right. auto.
    + unfold get_rest in Er. destruct (lenN res =? lenN offs)%N; [discriminate|].
      unfold x_get, load_index, get_index_file in *. destruct (x_load d (new_index (cfp p))); cbn in *; congruence.
Qed.

(* ---- a scan with what was read ---- *)
Lemma w_index_some (m : list (Z * option (info F))) s : w_index m = Ok s -> exists l, m = lift l /\ s = file_of l.
Proof.
  unfold w_index, w_entries. intros H. apply obind_ok_inv in H as (x & H & [= <-]).
  apply obind_ok_inv in H as (y & H & [= <-]).
  enough (exists l, m = lift l /\ concat y = entries l) as (l & -> & ->) by (exists l; auto).
  revert y H. induction m as [|[o [i|]] m IH]; cbn [mapM w_entry snd]; intros y H.
  - injection H as <-. exists []. auto.
  - apply obind_ok_inv in H as (z & H1 & H). apply obind_ok_inv in H as (y' & H2 & [= <-]). injection H1 as <-.
    destruct (IH _ H2) as (l & -> & E). exists ((o, i) :: l). split; auto. cbn [concat]. rewrite E. reflexivity.
  - discriminate.
Qed.

Lemma minsert_in {V} k (v : V) m x : In x (minsert k v m) -> x = (k, v) \/ In x m.
Proof.
  induction m as [|[k' v'] m IH]; cbn [minsert]; [intros [<-|[]]; auto|].
  destruct (k <? k')%Z; [intros [<-|H]; auto|]. destruct (k =? k')%Z; auto. intros [<-|H]; [right; now left|].
  destruct (IH H); auto. right. now right.
Qed.

Definition true_ptr (p : string) (e : Z * option (info F)) : Prop := forall i, snd e = Some i -> data p (fst e) = Ok i.

Lemma insert_all_true p x es : Forall (true_ptr p) (x_map x) -> Forall (tru p) es -> Forall (true_ptr p) (x_map (insert_all x es)) /\
  x_path (insert_all x es) = x_path x.
Proof.
  intros Hx He. revert x Hx. unfold insert_all. induction He as [|e es H He IH]; intros x Hx; cbn [fold_left]; auto.
  destruct (IH (x_insert x (fst e) (Some (snd e)))) as [I1 I2].
  - unfold x_insert. cbn [x_map]. apply Forall_forall. intros y Hy. apply minsert_in in Hy as [->|Hy].
    + intros i [= <-]. exact H.
    + rewrite Forall_forall in Hx. auto.
  - split; auto.
Qed.

Lemma write_true p x u ops : x_path x = cfp p -> Forall (true_ptr p) (x_map x) -> x_write u x = Ok ops ->
  exists l, Forall (tru p) l /\
    ops = [OpTrunc (u (cfp p) ++ file_ext)%string; OpAppend (u (cfp p) ++ file_ext)%string (file_of l);
           OpRename (u (cfp p) ++ file_ext)%string (cfp p)].
Proof.
  intros Ep Ht H. unfold x_write, to_new_file in H. rewrite Ep in H.
  apply obind_ok_inv in H as (o1 & H1 & H). apply obind_ok_inv in H1 as (? & _ & H1).
  apply obind_ok_inv in H1 as (st & H1 & [= <-]). apply obind_ok_inv in H as (? & _ & [= <-]).
  destruct (w_index_some _ _ H1) as (l & E & ->). exists l. split; auto.
  rewrite E in Ht. unfold lift in Ht. rewrite Forall_map in Ht. eapply Forall_impl; [|exact Ht].
  intros e He. apply (He (snd e)). reflexivity.
Qed.

Lemma view_index p c x : view p c -> x_load (fun _ => c) (get_index_file g p) = Ok x ->
  x_path x = cfp p /\ Forall (true_ptr p) (x_map x).
Proof.
  intros V E. destruct (view_load p c V) as [L _]. unfold load_index in L.
  change (new_index (cfp p)) with (@get_index_file F g p) in L. rewrite E in L. cbn [omap] in L.
  split.
  - unfold x_load, get_index_file, new_index in E. cbn [x_loaded x_path x_map] in E. destruct c as [s|].
    + apply obind_ok_inv in E as (m & _ & [= <-]). reflexivity.
    + injection E as <-. reflexivity.
  - destruct L as [S L]. apply Forall_forall. intros [o v] Hin i Ev. cbn in Ev. subst v. apply L. apply in_mfind; auto.
Qed.

Lemma scan_offsets_true n p offs c ops m : view p c -> scan_offsets (uniq n) data g (fun _ => c) p offs = Ok (ops, m) ->
  ops = [] \/ exists l, Forall (tru p) l /\
    ops = [OpTrunc (uniq n (cfp p) ++ file_ext)%string; OpAppend (uniq n (cfp p) ++ file_ext)%string (file_of l);
           OpRename (uniq n (cfp p) ++ file_ext)%string (cfp p)].
Proof.
  intros V H. unfold scan_offsets in H. apply obind_ok_inv in H as (x & Ex & H).
  destruct (view_index p c x V Ex) as [Ep Tx]. destruct (filter _ offs) as [|a r]; [left; congruence|right].
  apply obind_ok_inv in H as (infos & Ei & H). apply obind_ok_inv in H as (o2 & Eo & [= <- _]).
  apply mapM_ok_inv in Ei. destruct (insert_all_true p x _ Tx (combine_true data p _ _ Ei)) as [T E].
  exact (write_true p _ _ _ (eq_trans E Ep) T Eo).
Qed.

Lemma scan_ops_true n c p w ops m : view p c -> scan_ops uniq data data_offsets g n c p w = Ok (ops, m) ->
  ops = [] \/ exists l, Forall (tru p) l /\
    ops = [OpTrunc (uniq n (cfp p) ++ file_ext)%string; OpAppend (uniq n (cfp p) ++ file_ext)%string (file_of l);
           OpRename (uniq n (cfp p) ++ file_ext)%string (cfp p)].
Proof.
  intros V. destruct w as [offs res|offs|merge]; cbn [scan_ops]; [discriminate|apply scan_offsets_true; auto|].
  unfold scan_file. destruct merge.
  - intros H. apply obind_ok_inv in H as (offs & _ & H). eapply scan_offsets_true; eauto.
  - intros H. apply obind_ok_inv in H as (x & Ex & H). apply obind_ok_inv in H as (offs & _ & H).
    apply obind_ok_inv in H as (infos & Ei & H). apply obind_ok_inv in H as (o2 & Eo & [= <- _]).
    destruct (view_index p c x V Ex) as [Ep Tx]. apply mapM_ok_inv in Ei.
    destruct (insert_all_true p x _ Tx (combine_true data p _ _ Ei)) as [T E]. right. exact (write_true p _ _ _ (eq_trans E Ep) T Eo).
Qed.

Lemma scan_ops_safe n c p w l : load_index (fun _ => c) (cfp p) = Ok (lift l) -> scan_ops uniq data data_offsets g n c p w <> UB.
Proof.
  intros El. pose proof (load_inv g _ _ _ El) as EL.
  assert (Sc : forall offs, scan_offsets (uniq n) data g (fun _ => c) p offs <> UB).
  { intros offs. unfold scan_offsets. rewrite EL. cbn [obind]. destruct (filter _ offs) as [|a r]; [discriminate|].
    pose proof (mapM_safe (data p) (zsort (a :: r)) (data_safe p)) as Ms.
    destruct (mapM (data p) (zsort (a :: r))) as [infos|e|] eqn:Em; cbn [obind]; [|discriminate|congruence].
    rewrite insert_all_eq, write_ops by apply cfp_index. discriminate. }
  destruct w as [offs res|offs|m]; cbn [scan_ops]; [discriminate|apply Sc|]. unfold scan_file.
  pose proof (offsets_safe p) as So. destruct m.
  - destruct (data_offsets p) as [offs|e|]; cbn [obind]; [apply Sc|discriminate|congruence].
  - unfold x_reload, x_clear, get_index_file. cbn [x_path new_index]. unfold get_index_file, new_index in EL. rewrite EL. cbn [obind].
    destruct (data_offsets p) as [offs|e|]; cbn [obind]; [|discriminate|congruence].
    pose proof (mapM_safe (data p) offs (data_safe p)) as Ms.
    destruct (mapM (data p) offs) as [infos|e|] eqn:Em; cbn [obind]; [|discriminate|congruence].
    rewrite insert_all_eq, write_ops by apply cfp_index. discriminate.
Qed.

(* ---- what a step of one thread does to the others ---- *)
Record stable (own own' : inode -> string -> Prop) (pub pub' : inode -> Prop) (s s' : shared)
    (me : option inode) (touch : string -> Prop) : Prop := {
  st_known : forall i, known s i -> known s' i;
  st_own : forall i p, own i p -> own' i p;
  st_pub : forall i, pub i -> pub' i;
  st_pub_new : forall i, pub' i -> pub i \/ me = Some i;
  st_data : forall i, known s i -> exists more, h_data s' i = h_data s i ++ more;
  st_same : forall i, known s i -> me <> Some i -> h_data s' i = h_data s i;
  st_stay : forall p, P p -> h_names s (cfp p) <> None -> h_names s' (cfp p) <> None;
  st_touch : forall p, P p -> h_names s' (cfp p) <> h_names s (cfp p) -> touch p
}.

Lemma work_stable (own own' : inode -> string -> Prop) (pub pub' : inode -> Prop) s s' me touch k todo w :
  (forall i p, own i p -> known s i) ->
  stable own own' pub pub' s s' me touch ->
  (forall i, me = Some i -> match w with WWrite (_ :: _) j _ | WFlushWrite _ (_ :: _) j _ => i <> j | _ => True end) ->
  (upset ns (forall p, P p -> touch p -> writer p = k ->
     match w with WFlush _ _ | WFlushOpen _ _ _ | WFlushWrite _ _ _ _ => False | _ => True end)) ->
  work_ok own pub s k todo w -> work_ok own' pub' s' k todo w.
Proof.
  intros Ho St Hm Ht. pose proof St as [S1 S2 S3 S4 S5 S6 S7 S8].
  assert (W : forall fl ops i, (ops = [] \/ me <> Some i) -> wops own pub s k fl ops i -> wops own' pub' s' k fl ops i).
  { intros fl ops i Hi [->|(p & r & l & H1 & H2 & H3 & H4 & H5)]; [now left|].
    destruct Hi as [->|Hi]; [now left|]. right. exists p, r, l. split; auto. split; auto. split; auto.
    rewrite S6 by eauto. split; auto. destruct H5 as [[H5 H6]|(H5 & H6 & H7 & H8)].
    - left. split; auto. intros H. destruct (S4 i H); auto.
    - right. auto. }
  destruct w as [|p w|p w|p w i acc|p w c|p offs vec|ops i n|a rest|a ops rest|a ops i rest]; cbn [work_ok]; auto.
  - intros (H1 & H2 & H3). split; auto. split; auto. apply S7; auto. apply H2.
  - intros (H1 & H2 & H3 & H4 & m & H5). split; auto. split; auto. split; auto. split; auto.
    destruct (S5 i (Ho _ _ H3)) as [m2 E]. exists (m ++ m2). now rewrite E, H5, app_assoc.
  - intros [H1 H2]. split; auto. apply W; auto. destruct ops; [now left|right]. intros Hi. exact (Hm i Hi eq_refl).
  - intros (H1 & H2 & p & l & H3 & H4 & H5 & H6). split; auto. split; auto. exists p, l. split; auto. split; auto. split; auto.
    destruct H6 as [[E N]|[E N]]; [left|right]; split; auto. intros E2. specialize (N E2).
    destruct (h_names s' (cfp p)) eqn:Ed; [|reflexivity]. exfalso. apply (Ht E2 p H3); auto. apply S8; auto. congruence.
  - intros (H1 & H2 & H3). split; auto. split; auto. apply W; auto. destruct ops; [now left|right]. intros Hi. exact (Hm i Hi eq_refl).
Qed.

Definition lock_after (t t' : thread) (before : bool) : bool :=
  if flushing t' then true else if flushing t then false else before.

Lemma inv_update (own own' : inode -> string -> Prop) (pub pub' : inode -> Prop) s s' ts k t t' me touch :
  Inv own pub s ts -> nth_error ts k = Some t -> t_proc t' = t_proc t ->
  stable own own' pub pub' s s' me touch ->
  (forall i, me = Some i -> forall j u, j <> k -> nth_error ts j = Some u -> cur u <> Some i) ->
  upset ns (forall p, P p -> touch p -> flushing t = true /\ writer p = t_proc t) ->
  thread_ok own' pub' s' t' ->
  (forall p i, P p -> h_names s' (cfp p) = Some i -> own' i p /\ pub' i) ->
  (forall i p, own' i p -> known s' i) ->
  (forall i p q, own' i p -> own' i q -> p = q) ->
  (forall i, pub' i -> known s' i) ->
  (forall i p, own' i p -> own i p \/ me = Some i) ->
  (forall i p, P p -> own' i p -> me = Some i \/ cur t = Some i -> cur t' <> Some i ->
     exists l, Forall (tru p) l /\ h_data s' i = file_of l) ->
  (forall i, cur t' = Some i -> forall j u, j <> k -> nth_error ts j = Some u -> cur u <> Some i) ->
  p_lock (h_proc s' (t_proc t)) = lock_after t t' (p_lock (h_proc s (t_proc t))) ->
  (flushing t' = true -> flushing t = true \/ p_lock (h_proc s (t_proc t)) = false) ->
  (forall j, j <> t_proc t -> h_proc s' j = h_proc s j) ->
  proc_ok (t_proc t) (h_proc s' (t_proc t)) ->
  (forall m q, P q -> h_next s' <= m -> h_names s' (uniq m (cfp q) ++ file_ext)%string = None) ->
  Inv own' pub' s' (set_nth k t' ts).
Proof.
  intros I Hk Hp St Hme Ht Hok Hn Ho Hf Hpb Hon Hd Hc Hl Hl2 Hj Hpr Htmp.
  pose proof (nth_error_In _ _ Hk) as Hin. constructor; auto.
  - (* data *) intros i p Pp Oi Nc.
    assert (Nc' : cur t' <> Some i).
    { apply Nc. apply (nth_error_In _ k). eapply nth_set_same; eauto. }
    assert (Nj : forall j u, j <> k -> nth_error ts j = Some u -> cur u <> Some i).
    { intros j u Hj' Hu. apply Nc. apply (nth_error_In _ j). rewrite nth_set_other by auto. exact Hu. }
    destruct (Hon i p Oi) as [Oi'|M]; [|apply (Hd i p Pp Oi); auto].
    assert (Dc : {cur t = Some i} + {cur t <> Some i}).
    { destruct (cur t) as [x|]; [|right; discriminate]. destruct (inode_eqb_spec x i); [left|right]; congruence. }
    destruct Dc as [E|E]; [apply (Hd i p Pp Oi); auto|].
    destruct (I_data _ _ _ _ I i p Pp Oi') as (l & Tl & El).
    { intros u Hu. apply In_nth_error in Hu as [j Hu]. destruct (Nat.eq_dec j k) as [->|N]; [|eauto].
      assert (u = t) by congruence. now subst u. }
    assert (Dm : {me = Some i} + {me <> Some i}).
    { destruct me as [x|]; [|right; discriminate]. destruct (inode_eqb_spec x i); [left|right]; congruence. }
    destruct Dm as [M|M]; [apply (Hd i p Pp Oi); auto|].
    exists l. split; auto. rewrite (st_same _ _ _ _ _ _ _ _ St i (I_own _ _ _ _ I _ _ Oi') M). exact El.
  - (* cur *) intros j1 j2 u1 u2 i H1 H2 C1 C2.
    destruct (Nat.eq_dec j1 k) as [->|N1], (Nat.eq_dec j2 k) as [->|N2]; auto.
    + rewrite (nth_set_same _ _ _ _ Hk) in H1. rewrite nth_set_other in H2 by auto. injection H1 as <-. exfalso. eapply Hc; eauto.
    + rewrite (nth_set_same _ _ _ _ Hk) in H2. rewrite nth_set_other in H1 by auto. injection H2 as <-. exfalso. eapply Hc; eauto.
    + rewrite nth_set_other in H1, H2 by auto. eapply (I_cur _ _ _ _ I); eauto.
  - (* flush *) intros j1 j2 u1 u2 H1 H2 C1 C2 Ep.
    assert (X : forall j u, j <> k -> nth_error ts j = Some u -> flushing u = true -> flushing t' = true -> t_proc u = t_proc t -> False).
    { intros j u Nj Hu Fu Ft' Epu. destruct (Hl2 Ft') as [Ft|Lf].
      - apply Nj. eapply (I_flush _ _ _ _ I); eauto.
      - pose proof (I_lock _ _ _ _ I u (nth_error_In _ _ Hu) Fu) as Lu. rewrite Epu in Lu. congruence. }
    destruct (Nat.eq_dec j1 k) as [->|N1], (Nat.eq_dec j2 k) as [->|N2]; auto.
    + rewrite (nth_set_same _ _ _ _ Hk) in H1. rewrite nth_set_other in H2 by auto. injection H1 as <-.
      exfalso. apply (X j2 u2); auto. congruence.
    + rewrite (nth_set_same _ _ _ _ Hk) in H2. rewrite nth_set_other in H1 by auto. injection H2 as <-.
      exfalso. apply (X j1 u1); auto. congruence.
    + rewrite nth_set_other in H1, H2 by auto. eapply (I_flush _ _ _ _ I); eauto.
  - (* lock *) intros u Hu Fu. destruct (in_set_nth _ _ _ _ Hu) as [->|(j & Nj & Hj')].
    + rewrite Hp, Hl. unfold lock_after. now rewrite Fu.
    + pose proof (I_lock _ _ _ _ I u (nth_error_In _ _ Hj') Fu) as Lu.
      destruct (Nat.eq_dec (t_proc u) (t_proc t)) as [E|E]; [|now rewrite Hj].
      rewrite E, Hl. unfold lock_after. destruct (flushing t') eqn:F'; auto. destruct (flushing t) eqn:F0; [|congruence].
      exfalso. apply Nj. eapply (I_flush _ _ _ _ I); eauto.
  - (* held *) intros k0 Lk. destruct (Nat.eq_dec k0 (t_proc t)) as [->|E].
    + rewrite Hl in Lk. unfold lock_after in Lk. destruct (flushing t') eqn:F'.
      { exists t'. split; [|auto]. apply (nth_error_In _ k). eapply nth_set_same; eauto. }
      destruct (flushing t) eqn:F0; [discriminate|].
      destruct (I_held _ _ _ _ I _ Lk) as (u & Hu & Fu & Eu). exists u. split; auto.
      apply In_nth_error in Hu as [j Hu]. apply (nth_error_In _ j). rewrite nth_set_other; auto. intros ->. congruence.
    + rewrite Hj in Lk by auto. destruct (I_held _ _ _ _ I _ Lk) as (u & Hu & Fu & Eu). exists u. split; auto.
      apply In_nth_error in Hu as [j Hu]. apply (nth_error_In _ j). rewrite nth_set_other; auto. intros ->. congruence.
  - (* proc *) intros j. destruct (Nat.eq_dec j (t_proc t)) as [->|N]; auto. rewrite Hj by auto. apply (I_proc _ _ _ _ I).
  - (* threads *) intros u Hu. destruct (in_set_nth _ _ _ _ Hu) as [->|(j & Nj & Hj')]; auto.
    destruct (I_threads _ _ _ _ I u (nth_error_In _ _ Hj')) as (T1 & T2 & T3). split; auto. split; auto.
    apply (work_stable own own' pub pub' s s' me touch); auto.
    + apply (I_own _ _ _ _ I).
    + intros i Mi. specialize (Hme i Mi j u Nj Hj'). unfold cur in Hme.
      destruct (t_work u) as [| | | | | |[|] ? ?| | |? [|] ? ?]; auto; congruence.
    + intros E2 p Pp Tp Wp. destruct (Ht E2 p Pp Tp) as [Ft Ew].
      assert (flushing u = true -> False).
      { intros Fu. apply Nj. eapply (I_flush _ _ _ _ I); eauto. congruence. }
      unfold flushing in H. destruct (t_work u); auto.
Qed.

(* ---- the kinds of steps ---- *)
Definition same_files (s s' : shared) : Prop :=
  h_names s' = h_names s /\ h_data s' = h_data s /\ h_next s' = h_next s.

Lemma stable_same own pub s s' : same_files s s' -> stable own own pub pub s s' None (fun _ => False).
Proof.
  intros (En & Ed & Ex). constructor; rewrite ?En, ?Ed; auto.
  - intros [p|n]; cbn [known]; [auto|]. now rewrite Ex.
  - intros i _. exists []. now rewrite app_nil_r.
Qed.

Lemma known_same s s' i : same_files s s' -> known s i -> known s' i.
Proof. intros (_ & _ & Ex). destruct i; cbn [known]; auto. now rewrite Ex. Qed.

Lemma inv_quiet own pub s s' ts k t t' :
  Inv own pub s ts -> nth_error ts k = Some t -> t_proc t' = t_proc t -> same_files s s' ->
  (cur t = None \/ cur t' = cur t \/
     forall i p, cur t = Some i -> P p -> own i p -> exists l, Forall (tru p) l /\ h_data s i = file_of l) ->
  (cur t' = None \/ cur t' = cur t) ->
  thread_ok own pub s' t' ->
  p_lock (h_proc s' (t_proc t)) = lock_after t t' (p_lock (h_proc s (t_proc t))) ->
  (flushing t' = true -> flushing t = true \/ p_lock (h_proc s (t_proc t)) = false) ->
  (forall j, j <> t_proc t -> h_proc s' j = h_proc s j) ->
  proc_ok (t_proc t) (h_proc s' (t_proc t)) ->
  Inv own pub s' (set_nth k t' ts).
Proof.
  intros I Hk Hp Sf C1 C2 Hok L1 L2 Hj Hpr. pose proof Sf as (En & Ed & Ex).
  eapply (inv_update own own pub pub s s' ts k t t' None (fun _ => False)); eauto.
  - now apply stable_same.
  - discriminate.
  - intros _ p _ [].
  - rewrite En. apply (I_names _ _ _ _ I).
  - intros i p H. eapply known_same; eauto. eapply (I_own _ _ _ _ I); eauto.
  - apply (I_fun _ _ _ _ I).
  - intros i H. eapply known_same; eauto. eapply (I_pub _ _ _ _ I); eauto.
  - intros i p Pp Oi [M|C] C'; [discriminate|]. rewrite Ed. destruct C1 as [C1|[C1|C1]]; [congruence|congruence|eauto].
  - intros i Ci j u Nj Hu Cu. destruct C2 as [C2|C2]; [congruence|]. apply Nj. rewrite C2 in Ci.
    eapply (I_cur _ _ _ _ I); eauto.
  - rewrite En, Ex. apply (I_tmp _ _ _ _ I).
Qed.

Lemma set_data_same (d : inode -> stream) i s : set_data d i s i = s.
Proof. unfold set_data. destruct (inode_eqb_spec i i); congruence. Qed.
Lemma set_data_other (d : inode -> stream) i s j : j <> i -> set_data d i s j = d j.
Proof. unfold set_data. intros H. destruct (inode_eqb_spec j i); congruence. Qed.
Lemma set_name_same n p i : set_name n p i p = Some i.
Proof. unfold set_name. now rewrite String.eqb_refl. Qed.
Lemma set_name_other n p i q : q <> p -> set_name n p i q = n q.
Proof. unfold set_name. intros H. destruct (String.eqb_spec q p); congruence. Qed.

(* a new file is opened *)
Lemma inv_create (own : inode -> string -> Prop) (pub : inode -> Prop) s ts k t t' p x (public : bool) :
  Inv own pub s ts -> nth_error ts k = Some t -> t_proc t' = t_proc t ->
  h_names s x = None -> P p ->
  let i := New (h_next s) in
  let s' := fst (open_new s x) in
  let own' := fun j q => own j q \/ (j = i /\ q = p) in
  let pub' := fun j => pub j \/ (public = true /\ j = i) in
  (if public then x = cfp p /\ upset ns (flushing t = true /\ writer p = t_proc t) else exists u, x = (uniq (h_next s) u ++ file_ext)%string /\ forall q, P q -> x <> cfp q) ->
  cur t = None -> cur t' = Some i -> flushing t' = flushing t ->
  thread_ok own' pub' s' t' ->
  Inv own' pub' s' (set_nth k t' ts).
Proof.
  intros I Hk Hp Hx Pp i s' own' pub' Hmode Ct Ct' Fl Hok.
  assert (Es : s' = mk_shared (set_name (h_names s) x i) (set_data (h_data s) i []) (S (h_next s)) (h_proc s) (h_lost s)).
  { unfold s', open_new. rewrite Hx. reflexivity. }
  assert (Kn : forall j, known s j -> known s' j). { intros [q|n]; cbn [known]; auto. rewrite Es. cbn [h_next]. lia. }
  assert (Ki : ~ known s i) by (cbn; lia).
  assert (Ki' : known s' i) by (rewrite Es; cbn; lia).
  assert (Nk : forall j, known s j -> j <> i) by (intros j Hj ->; contradiction).
  assert (Ndat : forall j, known s j -> h_data s' j = h_data s j).
  { intros j Hj. rewrite Es. cbn [h_data]. apply set_data_other. auto. }
  assert (Nn : forall q, P q -> q <> p \/ public = false -> h_names s' (cfp q) = h_names s (cfp q)).
  { intros q Pq Hq. rewrite Es. cbn [h_names]. apply set_name_other. destruct public.
    - destruct Hmode as [-> _]. destruct Hq as [Hq|]; [|discriminate]. intros E. apply Hq. now apply (apart q p).
    - destruct Hmode as (u & _ & Hm). intros E. apply (Hm q); auto. }
  apply (inv_update own own' pub pub' s s' ts k t t' (Some i) (fun q => public = true /\ q = p)); auto.
  - constructor; auto.
    + intros j q H. now left.
    + intros j H. now left.
    + intros j [H|[_ ->]]; auto.
    + intros j Hj. exists []. rewrite Ndat by auto. now rewrite app_nil_r.
    + intros q Pq N. rewrite Es. cbn [h_names]. unfold set_name. destruct (String.eqb_spec (cfp q) x); [discriminate|auto].
    + intros q Pq N. destruct (string_dec q p) as [->|Nq].
      * destruct public; auto. exfalso. apply N. apply Nn; auto.
      * exfalso. apply N. apply Nn; auto.
  - intros j [= <-] j' u Nj Hu Cu.
    destruct (I_threads _ _ _ _ I u (nth_error_In _ _ Hu)) as (_ & _ & W). apply Ki. clear -I W Cu.
    unfold cur in Cu. destruct (t_work u) as [| | | | | |[|o ops] j n| | |a [|o ops] j r]; try discriminate; injection Cu as ->; cbn [work_ok] in W.
    + destruct W as (_ & [W|(p & r & l & _ & O & _)]); [discriminate|]. exact (I_own _ _ _ _ I _ _ O).
    + destruct W as (_ & _ & [W|(p & r' & l & _ & O & _)]); [discriminate|]. exact (I_own _ _ _ _ I _ _ O).
  - intros E q Pq [-> ->]. now apply Hmode.
  - intros q j Pq Hn. destruct (string_dec q p) as [->|Nq].
    + destruct public.
      * destruct Hmode as [-> _]. rewrite Es in Hn. cbn [h_names] in Hn. rewrite set_name_same in Hn. injection Hn as <-.
        split; [right|right]; auto.
      * rewrite Nn in Hn by auto. destruct (I_names _ _ _ _ I p j Pp Hn). split; left; auto.
    + rewrite Nn in Hn by auto. destruct (I_names _ _ _ _ I q j Pq Hn). split; left; auto.
  - intros j q [H|[-> _]]; auto. apply Kn. eapply (I_own _ _ _ _ I); eauto.
  - intros j q r [H|[-> ->]] [H'|[H' ->]]; auto.
    + eapply (I_fun _ _ _ _ I); eauto.
    + subst j. exfalso. apply Ki. eapply (I_own _ _ _ _ I); eauto.
    + exfalso. apply Ki. eapply (I_own _ _ _ _ I); eauto.
  - intros j [H|[_ ->]]; auto. apply Kn. eapply (I_pub _ _ _ _ I); eauto.
  - intros j q [H|[-> _]]; auto.
  - intros j q Pq O [[= <-]|C] N; congruence.
  - intros j Cj j' u Nj Hu Cu. rewrite Ct' in Cj. injection Cj as <-.
    destruct (I_threads _ _ _ _ I u (nth_error_In _ _ Hu)) as (_ & _ & W). apply Ki. clear -I W Cu.
    unfold cur in Cu. destruct (t_work u) as [| | | | | |[|o ops] j n| | |a [|o ops] j r]; try discriminate; injection Cu as ->; cbn [work_ok] in W.
    + destruct W as (_ & [W|(p & r & l & _ & O & _)]); [discriminate|]. exact (I_own _ _ _ _ I _ _ O).
    + destruct W as (_ & _ & [W|(p & r' & l & _ & O & _)]); [discriminate|]. exact (I_own _ _ _ _ I _ _ O).
  - rewrite Es. cbn [h_proc]. unfold lock_after. rewrite Fl. destruct (flushing t) eqn:E; auto.
    apply (I_lock _ _ _ _ I); auto. eapply nth_error_In; eauto.
  - intros H. left. congruence.
  - intros j Nj. now rewrite Es.
  - rewrite Es. apply (I_proc _ _ _ _ I).
  - intros m y Py Hm. rewrite Es in Hm |- *. cbn [h_next h_names] in *. rewrite set_name_other; [apply (I_tmp _ _ _ _ I); auto; lia|].
    intros E. destruct public.
    + destruct Hmode as [-> _]. exact (fresh m y p Py Pp E).
    + destruct Hmode as (u & -> & _). apply fresh_once in E. lia.
Qed.

Lemma cur_own own pub s ts t i : Inv own pub s ts -> In t ts -> cur t = Some i -> exists p, P p /\ own i p.
Proof.
  intros I Hu Cu. destruct (I_threads _ _ _ _ I t Hu) as (_ & _ & W).
  unfold cur in Cu. destruct (t_work t) as [| | | | | |[|o ops] j n| | |a [|o ops] j r]; try discriminate; injection Cu as ->; cbn [work_ok] in W.
  - destruct W as (_ & [W|(p & r & l & Pp & O & _)]); [discriminate|eauto].
  - destruct W as (_ & _ & [W|(p & r' & l & Pp & O & _)]); [discriminate|eauto].
Qed.

(* a primitive is written, a file is closed, a file is renamed *)
Lemma inv_write own pub s ts k t fl ops i s' ops' t' :
  Inv own pub s ts -> nth_error ts k = Some t -> t_proc t' = t_proc t ->
  wops own pub s (t_proc t) fl ops i -> ops <> [] -> cur t = Some i ->
  (fl = true -> flushing t = true) -> (fl = false -> ns = true -> False) ->
  write_step s ops i = (s', ops') ->
  cur t' = (match ops' with [] => None | _ => Some i end) -> flushing t' = flushing t ->
  (forall (own' : inode -> string -> Prop) (pub' : inode -> Prop), wops own' pub' s' (t_proc t) fl ops' i -> thread_ok own' pub' s' t') ->
  exists pub', Inv own pub' s' (set_nth k t' ts).
Proof.
  intros I Hk Hp W Ne Ct Hfl Hns Hw Ct' Fl Hok.
  pose proof (nth_error_In _ _ Hk) as Hin.
  destruct W as [->|(p & r & l & Pp & Oi & Tl & El & W)]; [congruence|].
  assert (Kn : known s i) by (eapply (I_own _ _ _ _ I); eauto).
  assert (Lk : h_proc s' = h_proc s -> p_lock (h_proc s' (t_proc t)) = lock_after t t' (p_lock (h_proc s (t_proc t)))).
  { intros ->. unfold lock_after. rewrite Fl. destruct (flushing t) eqn:E; auto. apply (I_lock _ _ _ _ I); auto. }
  assert (Lk2 : flushing t' = true -> flushing t = true \/ p_lock (h_proc s (t_proc t)) = false) by (left; congruence).
  assert (Own1 : forall j u, j <> k -> nth_error ts j = Some u -> cur u <> Some i).
  { intros j u Nj Hu Cu. apply Nj. eapply (I_cur _ _ _ _ I); eauto. }
  (* appending a token *)
  assert (App : forall tk r', r = tk :: r' -> s' = append_tok s i tk -> (exists q rest, ops' = OpAppend q r' :: rest) ->
     wops own pub s' (t_proc t) fl ops' i -> Inv own pub s' (set_nth k t' ts)).
  { intros tk r' -> -> (q & rest & ->) W'.
    assert (Kn' : forall j, known s j -> known (append_tok s i tk) j) by (intros [x|n]; auto).
    apply (inv_update own own pub pub s (append_tok s i tk) ts k t t' (Some i) (fun _ => False)); auto.
    - constructor; auto.
      + intros j _. cbn [append_tok h_data]. destruct (inode_eqb_spec j i) as [->|N].
        * exists [tk]. now rewrite set_data_same.
        * exists []. now rewrite set_data_other, app_nil_r.
      + intros j _ N. cbn [append_tok h_data]. apply set_data_other. congruence.
    - intros j [= <-]. exact Own1.
    - intros _ x _ [].
    - apply (I_names _ _ _ _ I).
    - intros j x O. apply Kn'. eapply (I_own _ _ _ _ I); eauto.
    - apply (I_fun _ _ _ _ I).
    - intros j O. apply Kn'. eapply (I_pub _ _ _ _ I); eauto.
    - intros j x Px Ox Hj N. exfalso. apply N. rewrite Ct'. destruct Hj; congruence.
    - intros j Cj j' u Nj Hu. rewrite Ct' in Cj. injection Cj as <-. eauto.
    - apply (I_proc _ _ _ _ I).
    - apply (I_tmp _ _ _ _ I). }
  assert (Quiet : s' = s -> r = [] -> wops own pub s' (t_proc t) fl ops' i -> Inv own pub s' (set_nth k t' ts)).
  { intros -> -> W'. eapply (inv_quiet own pub s s ts k t t'); eauto.
    - split; auto.
    - right. right. intros j x Cj Px Ox. assert (j = i) by congruence. subst j. exists l.
      rewrite (I_fun _ _ _ _ I _ _ _ Ox Oi). split; auto. now rewrite app_nil_r in El.
    - rewrite Ct', Ct. destruct ops'; auto.
    - apply (I_proc _ _ _ _ I). }
  destruct W as [(Np & tmp & Htmp & Hops & Hwr)|(-> & Hwr & Hpub & ->)].
  - destruct Hops as [->|[-> ->]].
    + destruct r as [|tk r']; cbn [write_step] in Hw; injection Hw as <- <-.
      * exists pub. apply Quiet; auto. right. exists p, [], l. repeat (split; auto). left. split; auto. exists tmp. auto.
      * exists pub. apply (App tk r'); eauto. right. exists p, r', l. split; auto. split; auto. split; auto. split.
        { cbn [append_tok h_data]. rewrite set_data_same, <- app_assoc. exact El. }
        left. split; auto. exists tmp. auto.
    + (* rename *) cbn [write_step] in Hw. injection Hw as <- <-. set (pub' := fun j => pub j \/ j = i).
      exists pub'. rewrite app_nil_r in El.
      assert (Nn : forall q, P q -> q <> p -> h_names (rename_to s i tmp (cfp p)) (cfp q) = h_names s (cfp q)).
      { intros q Pq N. cbn [rename_to h_names]. destruct (String.eqb_spec (cfp q) tmp) as [E|_]; [exfalso; apply (Htmp q Pq); auto|].
        apply set_name_other. intros E. apply N. now apply (apart q p). }
      assert (Np' : h_names (rename_to s i tmp (cfp p)) (cfp p) = Some i).
      { cbn [rename_to h_names]. destruct (String.eqb_spec (cfp p) tmp) as [E|_]; [exfalso; apply (Htmp p Pp); auto|].
        apply set_name_same. }
      assert (Kn' : forall j, known s j -> known (rename_to s i tmp (cfp p)) j) by (intros [x|n]; auto).
      apply (inv_update own own pub pub' s (rename_to s i tmp (cfp p)) ts k t t' (Some i) (fun q => q = p)); auto.
      * constructor; auto.
        -- intros j H. now left.
        -- intros j [H| ->]; auto.
        -- intros j _. exists []. now rewrite app_nil_r.
        -- intros q Pq N. destruct (string_dec q p) as [->|Nq]; [rewrite Np'; discriminate|now rewrite Nn].
        -- intros q Pq N. destruct (string_dec q p) as [->|Nq]; auto. exfalso. apply N. now apply Nn.
      * intros j [= <-]. exact Own1.
      * intros E q Pq ->. destruct fl; [split; auto|exfalso; auto].
      * apply Hok. now left.
      * intros q j Pq Hn. destruct (string_dec q p) as [->|Nq].
        -- rewrite Np' in Hn. injection Hn as <-. split; auto. now right.
        -- rewrite Nn in Hn by auto. destruct (I_names _ _ _ _ I q j Pq Hn). split; auto. now left.
      * intros j x O. apply Kn'. eapply (I_own _ _ _ _ I); eauto.
      * apply (I_fun _ _ _ _ I).
      * intros j [H| ->]; auto. apply Kn'. eapply (I_pub _ _ _ _ I); eauto.
      * intros j x Px Ox Hj _. assert (j = i) by (destruct Hj; congruence). subst j.
        rewrite (I_fun _ _ _ _ I _ _ _ Ox Oi). exists l. auto.
      * intros j Cj. rewrite Ct' in Cj. discriminate.
      * apply (I_proc _ _ _ _ I).
      * intros m q Pq Hm. cbn [rename_to h_names h_next] in *. destruct (String.eqb_spec (uniq m (cfp q) ++ file_ext) tmp); auto.
        rewrite set_name_other; [now apply (I_tmp _ _ _ _ I)|]. apply (fresh m q p); auto.
  - exists pub. destruct r as [|tk r']; cbn [write_step] in Hw; injection Hw as <- <-.
    + apply Quiet; auto. now left.
    + apply (App tk r'); eauto. right. exists p, r', l. split; auto. split; auto. split; auto. split.
      { cbn [append_tok h_data]. rewrite set_data_same, <- app_assoc. exact El. }
      right. auto.
Qed.

(* ---- reading a file that may be being written ---- *)
Lemma cur_dec ts i : {exists u, In u ts /\ @cur u = Some i} + {forall u, In u ts -> @cur u <> Some i}.
Proof.
  induction ts as [|u ts [IH|IH]].
  - right. intros u [].
  - left. destruct IH as (v & H1 & H2). exists v. split; auto. now right.
  - assert (D : {cur u = Some i} + {cur u <> Some i}).
    { destruct (cur u) as [x|]; [|right; discriminate]. destruct (inode_eqb_spec x i); [left|right]; congruence. }
    destruct D as [D|D]; [left; exists u; split; [now left|auto]|right]. intros v [<-|Hv]; auto.
Qed.

Lemma cur_rest own pub s ts u i p : Inv own pub s ts -> In u ts -> cur u = Some i -> own i p ->
  exists r l, Forall (tru p) l /\ h_data s i ++ r = file_of l /\ (pub i -> nf = false) /\
    (mid_write u i = true -> exists tk r', r = tk :: r' /\ tk <> KStart /\ tk <> KEnd).
Proof.
  intros I Hu Cu Oi. destruct (I_threads _ _ _ _ I u Hu) as (Td & _ & W).
  assert (X : forall k fl ops, wops own pub s k fl ops i -> ops <> [] -> (fl = true -> nf = false) ->
    exists r l, Forall (tru p) l /\ h_data s i ++ r = file_of l /\ (pub i -> nf = false) /\
      forall q tk r' rest, ops = OpAppend q (tk :: r') :: rest -> r = tk :: r').
  { intros k fl ops [->|(p' & r & l & Pp & O & Tl & El & M)] N Hfl; [congruence|].
    rewrite (I_fun _ _ _ _ I _ _ _ Oi O). exists r, l. split; auto. split; auto.
    destruct M as [(Np & tmp & _ & Ho & _)|(-> & _ & _ & ->)].
    - split; [tauto|]. intros q tk r' rest E. destruct Ho as [->|[-> ->]]; congruence.
    - split; auto. intros q tk r' rest E. congruence. }
  unfold cur in Cu. unfold mid_write.
  destruct (t_work u) as [| | | | | |[|o ops] j n| | |a [|o ops] j r]; try discriminate; injection Cu as ->; cbn [work_ok] in W.
  - destruct W as (_ & W). destruct (X _ _ _ W ltac:(discriminate) ltac:(discriminate)) as (r & l & H1 & H2 & H3 & H4).
    exists r, l. split; auto. split; auto. split; auto. destruct o as [| q [|tk r'] |]; try discriminate.
    intros H. exists tk, r'. split; [eauto|]. destruct (inode_eqb i i); [|discriminate]. destruct tk; cbn in H; (discriminate || (split; discriminate)).
  - destruct W as ((q0 & E0) & _ & W).
    assert (Nf : true = true -> nf = false).
    { intros _. rewrite E0 in Td. inversion Td as [|? ? (_ & Hf & _) _]; subst. destruct nf; auto. }
    destruct (X _ _ _ W ltac:(discriminate) Nf) as (r0 & l & H1 & H2 & H3 & H4).
    exists r0, l. split; auto. split; auto. split; auto. destruct o as [| q [|tk r'] |]; try discriminate.
    intros H. exists tk, r'. split; [eauto|]. destruct (inode_eqb i i); [|discriminate]. destruct tk; cbn in H; (discriminate || (split; discriminate)).
Qed.

Lemma read_view own pub s ts p i acc more torn : Inv own pub s ts -> P p -> own i p -> pub i -> h_data s i = acc ++ more ->
  nth_error (h_data s i) (length acc) = None ->
  view p (Some (if torn && existsb (fun u => mid_write u i) ts then acc ++ [KTorn] else acc)).
Proof.
  intros I Pp Oi Pi Ed En. apply nth_error_None in En. rewrite Ed, app_length in En.
  destruct more; [|simpl in En; lia]. rewrite app_nil_r in Ed. cbn [view].
  destruct (torn && existsb (fun u => mid_write u i) ts) eqn:Et.
  - apply andb_true_iff in Et as [_ Et]. apply existsb_exists in Et as (u & Hu & Mu).
    assert (Cu : cur u = Some i).
    { unfold mid_write in Mu. unfold cur. destruct (t_work u) as [| | | | | |[|[|q [|tk r']|] ops] j n| | |a [|[|q [|tk r']|] ops] j r]; try discriminate;
        destruct (inode_eqb_spec i j); try discriminate; congruence. }
    destruct (cur_rest _ _ _ _ _ _ _ I Hu Cu Oi) as (r & l & H1 & H2 & H3 & H4). exists l. split; auto.
    destruct (H4 Mu) as (tk & r' & -> & K). split.
    + exists acc, (tk :: r'). split; [congruence|]. right. split; [exists tk, r'; auto|reflexivity].
    + intros E. specialize (H3 Pi). congruence.
  - destruct (cur_dec ts i) as [(u & Hu & Cu)|N].
    + destruct (cur_rest _ _ _ _ _ _ _ I Hu Cu Oi) as (r & l & H1 & H2 & H3 & _). exists l. split; auto. split.
      * exists acc, r. split; [congruence|]. now left.
      * intros E. specialize (H3 Pi). congruence.
    + destruct (I_data _ _ _ _ I i p Pp Oi N) as (l & Tl & El). exists l. split; auto. split; [|congruence].
      exists acc, []. rewrite app_nil_r. split; [congruence|]. now left.
Qed.

(* ---- entries of the log ---- *)
Lemma entry_other q a : (forall p offs, q <> CGet p offs) -> (nf = true -> a <> UB) -> entry_ok (q, a).
Proof.
  intros H U. split.
  - intros p offs E. exfalso. exact (H p offs E).
  - intros E. split; cbn [snd fst]; auto. intros p offs E'. exfalso. exact (H p offs E').
Qed.

Lemma entry_get_ok p offs vec : Forall2 (fun o i => data p o = Ok i) offs vec -> entry_ok (CGet p offs, Ok (AInfos vec)).
Proof.
  intros H. split.
  - intros p' offs' [= <- <-]. cbn [snd]. split; [discriminate|]. split; eauto. intros ans [= <-]. eauto.
  - intros E. split; [discriminate|]. intros p' offs' [= <- <-]. cbn [snd]. split; eauto. intros ans [= <-]. eauto.
Qed.

Lemma entry_get_throw p offs e :
  (g_lazy g = true -> NoDup offs -> (forall o, In o offs -> exists i, data p o = Ok i) -> e = EStream /\ nf = false) ->
  entry_ok (CGet p offs, Throw e).
Proof.
  intros H. split.
  - intros p' offs' [= <- <-]. cbn [snd]. split; [discriminate|]. split; [discriminate|]. intros A B C.
    destruct (H A B C) as [-> _]. now right.
  - intros E. split; [discriminate|]. intros p' offs' [= <- <-]. cbn [snd]. split; [discriminate|]. intros A B C.
    destruct (H A B C) as [_ N]. congruence.
Qed.

(* ---- one step of a thread ---- *)
Lemma staged_insert_ok k p o i st : P p -> writer p = k -> data p o = Ok i -> Forall (staged_ok k) st ->
  Forall (staged_ok k) (staged_set (cfp p) (x_insert (match staged_find (cfp p) st with Some x => x | None => get_index_file g p end) o (Some i)) st).
Proof.
  intros Pp Wp Dp Hs. apply staged_set_forall; auto.
  assert (exists l, match staged_find (cfp p) st with Some x => x | None => get_index_file g p end
                    = mk_index (cfp p) false (lift l) /\ Forall (tru p) l) as (l & -> & Ht).
  { destruct (staged_find (cfp p) st) as [x|] eqn:Ef.
    - apply staged_find_in in Ef. rewrite Forall_forall in Hs. destruct (Hs _ Ef) as (p' & l & Hp' & _ & E1 & E2 & Ht).
      simpl in E1, E2. assert (p = p') by (apply (apart p p'); auto). subst p'. eauto.
    - exists []. split; auto. }
  exists p, (minsert o i l). split; auto. split; auto. split; auto. split.
  - unfold x_insert. cbn [snd x_path x_loaded x_map]. now rewrite <- lift_minsert.
  - apply Forall_minsert; auto.
Qed.

Definition may (s' : shared) : Prop := h_lost s' = false \/ ns = true \/ nf = true.

Lemma thread_finish own pub s t q r a : thread_ok own pub s t -> t_todo t = q :: r -> entry_ok (q, a) ->
  forall s', thread_ok own pub s' (finish t a) /\ cur (finish t a) = None /\ flushing (finish t a) = false /\ t_proc (finish t a) = t_proc t.
Proof.
  intros (T1 & T2 & _) E Ea s'. unfold finish. rewrite E. repeat split; cbn; auto.
  - rewrite E in T1. now inversion T1.
  - apply Forall_app. auto.
Qed.

Lemma step_inv own pub s ts k t torn s' t' : Inv own pub s ts -> nth_error ts k = Some t ->
  step_thread uniq data data_offsets g (fun i => existsb (fun u => mid_write u i) ts) torn s t = Some (s', t') -> may s' ->
  exists own' pub', Inv own' pub' s' (set_nth k t' ts) /\ h_lost s' = h_lost s.
Proof.
  intros I Hk Hst Hmay. pose proof (nth_error_In _ _ Hk) as Hin. pose proof (I_threads _ _ _ _ I t Hin) as Tok.
  pose proof Tok as (Td & Tl & W). pose proof (I_proc _ _ _ _ I (t_proc t)) as Pok.
  unfold step_thread in Hst. destruct (t_todo t) as [|q rq] eqn:Eq; [discriminate|].
  assert (Cq : call_ok (t_proc t) q) by now inversion Td.
  (* a step that changes no file, before and after which no file is open *)
  assert (Q : forall s2 t2, cur t = None -> cur t2 = None -> t_proc t2 = t_proc t -> same_files s s2 -> h_lost s2 = h_lost s ->
     thread_ok own pub s2 t2 ->
     p_lock (h_proc s2 (t_proc t)) = lock_after t t2 (p_lock (h_proc s (t_proc t))) ->
     (flushing t2 = true -> flushing t = true \/ p_lock (h_proc s (t_proc t)) = false) ->
     (forall j, j <> t_proc t -> h_proc s2 j = h_proc s j) -> proc_ok (t_proc t) (h_proc s2 (t_proc t)) ->
     s2 = s' -> t2 = t' -> exists own' pub', Inv own' pub' s' (set_nth k t' ts) /\ h_lost s' = h_lost s).
  { intros s2 t2 C1 C2 Ep Sf Lo Ok2 L1 L2 Hj Hp <- <-. exists own, pub. split; auto. eapply inv_quiet; eauto. }
  (* the same with an unchanged state and no lock involved *)
  assert (Q0 : forall t2, cur t = None -> cur t2 = None -> t_proc t2 = t_proc t -> flushing t2 = flushing t ->
     thread_ok own pub s t2 -> s = s' -> t2 = t' -> exists own' pub', Inv own' pub' s' (set_nth k t' ts) /\ h_lost s' = h_lost s).
  { intros t2 C1 C2 Ep Fl Ok2 E1 E2.
    refine (Q s t2 C1 C2 Ep (conj eq_refl (conj eq_refl eq_refl)) eq_refl Ok2 _ _ (fun _ _ => eq_refl) Pok E1 E2); [|left; congruence].
    unfold lock_after. rewrite Fl. destruct (flushing t) eqn:E; auto. now apply (I_lock _ _ _ _ I). }
  assert (Qgo : forall w2, cur t = None -> cur (go t w2) = None -> flushing (go t w2) = flushing t ->
     work_ok own pub s (t_proc t) (q :: rq) w2 -> Some (s, go t w2) = Some (s', t') ->
     exists own' pub', Inv own' pub' s' (set_nth k t' ts) /\ h_lost s' = h_lost s).
  { intros w2 C1 C2 Fl Wok [= E1 E2]. apply (Q0 (go t w2)); auto. split; [|split]; cbn [go t_proc t_todo t_log t_work]; auto; now rewrite Eq. }
  assert (Qfin : forall a, cur t = None -> flushing t = false -> entry_ok (q, a) -> Some (s, finish t a) = Some (s', t') ->
     exists own' pub', Inv own' pub' s' (set_nth k t' ts) /\ h_lost s' = h_lost s).
  { intros a C1 Fl Ea [= E1 E2]. destruct (thread_finish own pub s t q rq a Tok Eq Ea s) as (A & B & C & D).
    apply (Q0 (finish t a)); auto. congruence. }
  destruct (t_work t) as [|p w|p w|p w i acc|p w c|p offs vec|ops i n|a rest|a ops rest|a ops i rest] eqn:Ew; cbn [work_ok] in W.
  - (* start *)
    assert (C1 : cur t = None) by (unfold cur; now rewrite Ew).
    assert (F1 : flushing t = false) by (unfold flushing; now rewrite Ew).
    unfold start in Hst. destruct q as [p offs|p o i|a|p offs|p m|].
    + destruct Pok as (Cap & Tlru & Tst). destruct Cq as ((Pp & _) & _).
      destruct (get_cached_ok (uniq 0) data data_offsets p offs (p_lru (h_proc s (t_proc t))) [] ltac:(constructor))
        as (res & l1 & E & Hs & Hm & Hc & Hf).
      rewrite E in Hst. injection Hst as Es Et.
      assert (Pu : purp p (ForGet offs res)).
      { split; auto. split; auto. intros o v. rewrite Hf. destruct (in_dec Z.eq_dec o offs) as [Io|]; [|discriminate].
        destruct (afind (cachekey p o) (l_map (p_lru (h_proc s (t_proc t))))) as [v'|] eqn:Ea; [|discriminate].
        intros [= ->]. split; auto. destruct (Tlru _ _ Ea) as (p' & o' & Pp' & Ek & D).
        destruct (apart p p' Pp Pp') as [_ A]. destruct (A _ _ Ek) as [-> ->]. exact D. }
      eapply (Q _ _ C1); [| | | | | | | | |exact Es|exact Et].
      * destruct (lenN res =? lenN offs)%N; reflexivity.
      * reflexivity.
      * split; auto.
      * reflexivity.
      * split; [|split]; cbn [go t_proc t_todo t_log t_work]; auto; [now rewrite Eq|].
        rewrite Eq. destruct (lenN res =? lenN offs)%N; cbn [work_ok view]; (split; [now exists rq|]); auto.
      * cbn [set_lru set_proc h_proc]. rewrite Nat.eqb_refl. unfold lock_after. rewrite F1.
        destruct (lenN res =? lenN offs)%N; reflexivity.
      * destruct (lenN res =? lenN offs)%N; discriminate.
      * intros j Nj. cbn [set_lru set_proc h_proc]. destruct (Nat.eqb_spec j (t_proc t)); congruence.
      * cbn [set_lru set_proc h_proc]. rewrite Nat.eqb_refl. split; cbn [p_lru p_staged]; [congruence|]. split; auto.
        intros k0 w0. rewrite Hm. apply Tlru.
    + destruct (p_lock (h_proc s (t_proc t))) eqn:El; [discriminate|]. injection Hst as Es Et.
      destruct Pok as (Cap & Tlru & Tst). destruct Cq as (((Pp & Dp) & Wp) & _).
      destruct (thread_finish own pub s t _ rq (Ok AUnit) Tok Eq ltac:(apply entry_other; [discriminate|discriminate]) s') as (A & B & C & D).
      eapply (Q _ _ C1 B D); [| | | | | | |exact Es|exact Et].
      * split; auto.
      * reflexivity.
      * rewrite Es. exact A.
      * cbn [set_staged set_proc h_proc]. rewrite Nat.eqb_refl. cbn [p_lock]. unfold lock_after. now rewrite F1, C, El.
      * congruence.
      * intros j Nj. cbn [set_staged set_proc h_proc]. destruct (Nat.eqb_spec j (t_proc t)); congruence.
      * cbn [set_staged set_proc h_proc]. rewrite Nat.eqb_refl. split; auto. split; auto. cbn [p_staged].
        apply staged_insert_ok; auto.
    + destruct (p_lock (h_proc s (t_proc t))) eqn:El; [discriminate|]. injection Hst as Es Et.
      destruct Pok as (Cap & Tlru & Tst).
      eapply (Q _ _ C1); [| | | | | | | | |exact Es|exact Et]; try reflexivity.
      * split; auto.
      * split; [|split]; cbn [go t_proc t_todo t_log t_work work_ok]; auto; rewrite Eq; auto. split; auto. now exists rq.
      * cbn [set_lock set_proc h_proc]. rewrite Nat.eqb_refl. reflexivity.
      * auto.
      * intros j Nj. cbn [set_lock set_proc h_proc]. destruct (Nat.eqb_spec j (t_proc t)); congruence.
      * cbn [set_lock set_proc h_proc]. rewrite Nat.eqb_refl. split; auto.
    + apply (Qgo _ C1) in Hst; auto. cbn [work_ok call_of]. split; [now exists rq|]. split; auto. apply Cq.
    + apply (Qgo _ C1) in Hst; auto. cbn [work_ok call_of]. split; [now exists rq|]. split; auto. apply Cq.
    + injection Hst as Es Et. destruct Pok as (Cap & Tlru & Tst).
      destruct (thread_finish own pub s t _ rq (Ok AUnit) Tok Eq ltac:(apply entry_other; [discriminate|discriminate]) s') as (A & B & C & D).
      eapply (Q _ _ C1 B D); [| | | | | | |exact Es|exact Et].
      * split; auto.
      * reflexivity.
      * rewrite Es. exact A.
      * cbn [set_lru set_proc h_proc]. rewrite Nat.eqb_refl. cbn [p_lock]. unfold lock_after. now rewrite F1, C.
      * congruence.
      * intros j Nj. cbn [set_lru set_proc h_proc]. destruct (Nat.eqb_spec j (t_proc t)); congruence.
      * cbn [set_lru set_proc h_proc]. rewrite Nat.eqb_refl. split; auto. split; auto. intros k0 w0; discriminate.
  - (* exists *)
    assert (C1 : cur t = None) by (unfold cur; now rewrite Ew).
    assert (F1 : flushing t = false) by (unfold flushing; now rewrite Ew).
    destruct W as [W1 W2]. destruct (h_names s (cfp p)) as [i|] eqn:En.
    + apply (Qgo _ C1) in Hst; auto. cbn [work_ok]. split; auto. split; auto. congruence.
    + apply (Qgo _ C1) in Hst; auto. cbn [work_ok view]. auto.
  - (* open *)
    assert (C1 : cur t = None) by (unfold cur; now rewrite Ew).
    assert (F1 : flushing t = false) by (unfold flushing; now rewrite Ew).
    destruct W as (W1 & W2 & W3). destruct (h_names s (cfp p)) as [i|] eqn:En; [|congruence].
    apply (Qgo _ C1) in Hst; auto. cbn [work_ok]. split; auto. split; auto.
    destruct (I_names _ _ _ _ I p i (proj1 W2) En) as [O Pb]. split; auto. split; auto. now exists (h_data s i).
  - (* read *)
    assert (C1 : cur t = None) by (unfold cur; now rewrite Ew).
    assert (F1 : flushing t = false) by (unfold flushing; now rewrite Ew).
    destruct W as (W1 & W2 & W3 & W4 & more & W5). destruct (nth_error (h_data s i) (length acc)) as [x|] eqn:En.
    + apply (Qgo _ C1) in Hst; auto. cbn [work_ok]. split; auto. split; auto. split; auto. split; auto.
      rewrite W5, nth_error_app2, Nat.sub_diag in En by auto. destruct more as [|y more]; [discriminate|]. injection En as ->.
      exists more. now rewrite W5, <- app_assoc.
    + apply (Qgo _ C1) in Hst; auto. cbn [work_ok]. split; auto. split; auto. eapply read_view; eauto. apply W2.
  - (* loaded *)
    assert (C1 : cur t = None) by (unfold cur; now rewrite Ew).
    assert (F1 : flushing t = false) by (unfold flushing; now rewrite Ew).
    destruct W as (W1 & W2 & W3).
    assert (Sc : match w with ForGet _ _ => False | _ => True end ->
      match scan_ops uniq data data_offsets g (h_next s) c p w with
      | Ok (OpTrunc tmp :: ops, n) => let (s, i) := open_new s tmp in Some (s, go t (WWrite ops i n))
      | Ok (_, n) => Some (s, finish t (Ok (ACount n)))
      | Throw e => Some (s, finish t (Throw e))
      | UB => Some (s, finish t UB)
      end = Some (s', t') -> exists own' pub', Inv own' pub' s' (set_nth k t' ts) /\ h_lost s' = h_lost s).
    { clear Hst. intros Hw Hst.
      assert (Hq : forall p offs, q <> CGet p offs).
      { intros p0 o0 ->. destruct W1 as [r0 E0]. injection E0 as E0 _. destruct w; try discriminate. contradiction. }
      destruct (scan_ops uniq data data_offsets g (h_next s) c p w) as [[ops n]|e|] eqn:Es.
      - destruct (scan_ops_true _ _ _ _ _ _ W3 Es) as [->|(l & Tr & ->)].
        + apply (Qfin _ C1 F1) in Hst; auto. apply entry_other; auto. discriminate.
        + set (tmp := (uniq (h_next s) (cfp p) ++ file_ext)%string) in *.
          assert (Ht : h_names s tmp = None) by (apply (I_tmp _ _ _ _ I); [apply W2|auto]).
          assert (Eo : open_new s tmp = (fst (open_new s tmp), New (h_next s))) by (unfold open_new; now rewrite Ht).
          rewrite Eo in Hst. injection Hst as Es' Et'.
          eexists. eexists. rewrite <- Es', <- Et'. split.
          2:{ unfold open_new. now rewrite Ht. }
          eapply (inv_create own pub s ts k t _ p tmp false I Hk); auto; cbn [go t_proc].
          * apply W2.
          * exists (cfp p). split; auto. intros q0 Pq0. apply (fresh (h_next s) p q0); auto. apply W2.
          * split; [|split]; cbn [go t_proc t_todo t_log t_work]; auto; rewrite ?Eq; auto. cbn [work_ok]. split.
            { exists q. split; [now exists rq|]. destruct W1 as [r0 E0]. injection E0 as -> _. now destruct w. }
            right. exists p, (file_of l), l. split; [apply W2|]. split; [right; auto|]. split; auto. split.
            { unfold open_new. rewrite Ht. cbn [fst h_data]. now rewrite set_data_same. }
            left. split; [intros [H|[H _]]; [|discriminate]; apply (I_pub _ _ _ _ I) in H; cbn in H; lia|].
            exists tmp. split; [|split; [auto|discriminate]]. intros q0 Pq0. apply (fresh (h_next s) p q0); auto. apply W2.
      - apply (Qfin _ C1 F1) in Hst; auto. apply entry_other; auto. discriminate.
      - apply (Qfin _ C1 F1) in Hst; auto. apply entry_other; auto. intros E _. destruct (view_load p c W3) as [_ V].
        destruct (V E) as (l & Tr & El).
        exact (scan_ops_safe _ _ _ _ _ El Es). }
    destruct w as [offs res|offs|m]; [|now apply Sc|now apply Sc]. clear Sc.
    pose proof (get_vec_ok p offs res c W2 W3) as G. destruct W1 as [r0 W1]. cbn [call_of] in W1. injection W1 as -> <-.
    destruct (get_vec data g c p offs res) as [vec|e|]; [| |contradiction].
    + apply (Qgo _ C1) in Hst; auto. cbn [work_ok]. split; [now exists rq|]. split; [apply W2|auto].
    + apply (Qfin _ C1 F1) in Hst; auto. now apply entry_get_throw.
  - (* putCache *)
    assert (C1 : cur t = None) by (unfold cur; now rewrite Ew).
    assert (F1 : flushing t = false) by (unfold flushing; now rewrite Ew).
    destruct W as ([r0 W1] & Pp & Tr). injection W1 as -> <-. destruct Pok as (Cap & Tlru & Tst).
    destruct (put_cache_ok (uniq 0) data data_offsets p (combine offs vec) _ Cap) as (l2 & E2 & Hc2 & H2).
    rewrite E2 in Hst. injection Hst as Es Et.
    destruct (thread_finish own pub s t _ rq (Ok (AInfos vec)) Tok Eq (entry_get_ok _ _ _ Tr) s') as (A & B & C & D).
    eapply (Q _ _ C1 B D); [| | | | | | |exact Es|exact Et].
    + split; auto.
    + reflexivity.
    + rewrite Es. exact A.
    + cbn [set_lru set_proc h_proc]. rewrite Nat.eqb_refl. cbn [p_lock]. unfold lock_after. now rewrite F1, C.
    + congruence.
    + intros j Nj. cbn [set_lru set_proc h_proc]. destruct (Nat.eqb_spec j (t_proc t)); congruence.
    + cbn [set_lru set_proc h_proc]. rewrite Nat.eqb_refl. split; cbn [p_lru]; [congruence|]. split; auto.
      intros k0 w0 Hk0. apply H2 in Hk0 as [(o & Ho & ->)|Hk0]; [|now apply Tlru]. exists p, o. split; auto. split; auto.
      exact (Forall2_combine_in _ _ _ _ _ Tr Ho).
  - (* scan writes *)
    assert (F1 : flushing t = false) by (unfold flushing; now rewrite Ew).
    destruct W as ((q0 & [r0 W1] & W2) & W3). injection W1 as <- <-.
    destruct ops as [|o ops].
    + apply Qfin in Hst; auto; [unfold cur; now rewrite Ew|]. apply entry_other; [intros p offs ->; discriminate|discriminate].
    + destruct (write_step s (o :: ops) i) as [s2 ops2] eqn:Ews. injection Hst as Es Et. subst s2.
      destruct (inv_write own pub s ts k t false (o :: ops) i s' ops2 t' I Hk) as [pub' I']; auto; try discriminate.
      * now rewrite <- Et.
      * unfold cur. now rewrite Ew.
      * intros _ E. destruct Cq as (_ & _ & Cq). specialize (Cq E). congruence.
      * rewrite <- Et. unfold cur. cbn [go t_work]. now destruct ops2.
      * rewrite <- Et, F1. reflexivity.
      * intros own' pub' Wo. rewrite <- Et. split; [|split]; cbn [go t_proc t_todo t_log t_work]; rewrite ?Eq; auto.
        cbn [work_ok]. split; auto. exists q. split; auto. now exists rq.
      * exists own, pub'. split; auto. clear -Ews. destruct o as [x|x [|tk r]|x y]; cbn [write_step] in Ews; injection Ews as <- _; reflexivity.
  - (* flush: next file *)
    assert (C1 : cur t = None) by (unfold cur; now rewrite Ew).
    assert (F1 : flushing t = true) by (unfold flushing; now rewrite Ew).
    destruct W as ([r0 W1] & W2). injection W1 as -> <-.
    destruct rest as [|[x ix] rest].
    + injection Hst as Es Et. destruct Pok as (Cap & Tlru & Tst).
      destruct (thread_finish own pub s t _ rq (Ok AUnit) Tok Eq ltac:(apply entry_other; [discriminate|discriminate]) s') as (A & B & C & D).
      eapply (Q _ _ C1 B D); [| | | | | | |exact Es|exact Et].
      * split; auto.
      * reflexivity.
      * rewrite Es. exact A.
      * cbn [set_lock set_staged set_proc h_proc]. rewrite Nat.eqb_refl. cbn [p_lock]. unfold lock_after. now rewrite F1, C.
      * congruence.
      * intros j Nj. cbn [set_lock set_staged set_proc h_proc]. destruct (Nat.eqb_spec j (t_proc t)); congruence.
      * cbn [set_lock set_staged set_proc h_proc]. rewrite !Nat.eqb_refl. cbn [p_lru p_staged]. split; auto.
    + inversion W2 as [|? ? (p & l & Pp & Wp & _ & Ex & Tr) W2']; subst. cbn [snd] in Ex. subst ix.
      unfold x_flush in Hst. cbn [x_map x_path] in Hst. destruct a.
      * set (d := fun q => option_map (h_data s) (h_names s q)) in *.
        rewrite (append_ops d l (cfp p) (cfp_index g p)) in Hst. unfold d in Hst. clear d.
        destruct (h_names s (cfp p)) as [i|] eqn:En; cbn [option_map] in Hst.
        -- apply (Qgo _ C1) in Hst; auto. cbn [work_ok]. split; [now exists rq|]. split; auto.
           exists p, l. split; auto. split; auto. split; auto. right. split; auto. congruence.
        -- apply (Qgo _ C1) in Hst; auto. cbn [work_ok]. split; [now exists rq|]. split; auto.
           exists p, l. split; auto. split; auto. split; auto. left. split; auto. intros _. exact En.
      * rewrite write_ops in Hst by apply cfp_index.
        set (tmp := (uniq (h_next s) (cfp p) ++ file_ext)%string) in *.
        assert (Ht : h_names s tmp = None) by (apply (I_tmp _ _ _ _ I); auto).
        assert (Eo : open_new s tmp = (fst (open_new s tmp), New (h_next s))) by (unfold open_new; now rewrite Ht).
        assert (Htmp : forall q0, P q0 -> tmp <> cfp q0) by (intros q0 Pq0; apply (fresh (h_next s) p q0); auto).
        rewrite Eo in Hst. injection Hst as Es' Et'.
        eexists. eexists. rewrite <- Es', <- Et'. split.
        2:{ unfold open_new. now rewrite Ht. }
        eapply (inv_create own pub s ts k t _ p tmp false I Hk); auto; cbn [go t_proc].
        -- exists (cfp p). auto.
        -- split; [|split]; cbn [go t_proc t_todo t_log t_work]; auto; rewrite ?Eq; auto. cbn [work_ok].
           split; [now exists rq|]. split; auto.
           right. exists p, (file_of l), l. split; auto. split; [right; auto|]. split; auto. split.
           { unfold open_new. rewrite Ht. cbn [fst h_data]. now rewrite set_data_same. }
           left. split; [intros [H|[H _]]; [|discriminate]; apply (I_pub _ _ _ _ I) in H; cbn in H; lia|].
           exists tmp. auto.
  - (* flush: open *)
    assert (C1 : cur t = None) by (unfold cur; now rewrite Ew).
    assert (F1 : flushing t = true) by (unfold flushing; now rewrite Ew).
    destruct W as ([r0 W1] & W2 & p & l & Pp & Wp & Tr & W3). injection W1 as -> <-.
    destruct W3 as [[-> Hn]|[-> Hn]].
    + destruct (h_names s (cfp p)) as [i|] eqn:En.
      { exfalso. assert (Hl : h_lost s' = true). { unfold open_new in Hst. rewrite En in Hst. injection Hst as <- _. reflexivity. }
        destruct Hmay as [H|[H|H]]; [congruence|specialize (Hn H); congruence|].
        destruct Cq as (_ & Cq & _). specialize (Cq H). discriminate. }
      assert (Eo : open_new s (cfp p) = (fst (open_new s (cfp p)), New (h_next s))) by (unfold open_new; now rewrite En).
      rewrite Eo in Hst. injection Hst as Es' Et'.
      eexists. eexists. rewrite <- Es', <- Et'. split.
      2:{ unfold open_new. now rewrite En. }
      eapply (inv_create own pub s ts k t _ p (cfp p) true I Hk); auto; cbn [go t_proc].
      * split; auto. intros _. auto.
      * split; [|split]; cbn [go t_proc t_todo t_log t_work]; auto; rewrite ?Eq; auto. cbn [work_ok].
        split; [now exists rq|]. split; auto.
        right. exists p, (file_of l), l. split; auto. split; [right; auto|]. split; auto. split.
        { unfold open_new. rewrite En. cbn [fst h_data]. now rewrite set_data_same. }
        right. repeat (split; auto).
    + unfold open_append in Hst. destruct (h_names s (cfp p)) as [i|] eqn:En; [|congruence]. injection Hst as Es Et. subst s'.
      destruct (I_names _ _ _ _ I p i Pp En) as [Oi Pi].
      assert (Alone : forall j u, j <> k -> nth_error ts j = Some u -> cur u <> Some i).
      { intros j u Nj Hu Cu. destruct (I_threads _ _ _ _ I u (nth_error_In _ _ Hu)) as (_ & _ & Wu).
        unfold cur in Cu. destruct (t_work u) as [| | | | | |[|o ops] x n| | |b [|o ops] x r] eqn:Ewu; try discriminate; injection Cu as ->; cbn [work_ok] in Wu.
        - destruct Wu as (_ & [Wu|(p' & r & l' & _ & O & _ & _ & [[Np _]|[Hf _]])]); [discriminate|contradiction|discriminate].
        - destruct Wu as (_ & _ & [Wu|(p' & r' & l' & _ & O & _ & _ & [[Np _]|(_ & Wp' & _)])]); [discriminate|contradiction|].
          rewrite (I_fun _ _ _ _ I _ _ _ O Oi) in Wp'. apply Nj. eapply (I_flush _ _ _ _ I); eauto; [unfold flushing; now rewrite Ewu|congruence]. }
      destruct (I_data _ _ _ _ I i p Pp Oi) as (l0 & Tl0 & El0).
      { intros u Hu Cu. apply In_nth_error in Hu as [j Hu]. destruct (Nat.eq_dec j k) as [->|N]; [congruence|eapply Alone; eauto]. }
      exists own, pub. split; auto. rewrite <- Et.
      eapply (inv_update own own pub pub s s ts k t _ None (fun _ => False)); auto.
      * apply stable_same. split; auto.
      * discriminate.
      * intros _ x _ [].
      * split; [|split]; cbn [go t_proc t_todo t_log t_work]; auto; rewrite ?Eq; auto. cbn [work_ok].
        split; [now exists rq|]. split; auto.
        right. exists p, (entries l), (l0 ++ l). split; auto. split; auto. split; [now apply Forall_app|]. split.
        { rewrite El0. unfold file_of. now rewrite entries_app. }
        right. auto.
      * apply (I_names _ _ _ _ I).
      * apply (I_own _ _ _ _ I).
      * apply (I_fun _ _ _ _ I).
      * apply (I_pub _ _ _ _ I).
      * intros j x _ _ [M|M]; congruence.
      * intros j Cj. cbn in Cj. injection Cj as <-. exact Alone.
      * unfold lock_after. cbn. now apply (I_lock _ _ _ _ I).
      * apply (I_tmp _ _ _ _ I).
  - (* flush writes *)
    assert (F1 : flushing t = true) by (unfold flushing; now rewrite Ew).
    destruct W as ([r0 W1] & W2 & W3). injection W1 as -> <-.
    destruct ops as [|o ops].
    + apply Qgo in Hst; auto; [unfold cur; now rewrite Ew|]. cbn [work_ok]. split; auto. now exists rq.
    + destruct (write_step s (o :: ops) i) as [s2 ops2] eqn:Ews. injection Hst as Es Et. subst s2.
      destruct (inv_write own pub s ts k t true (o :: ops) i s' ops2 t' I Hk) as [pub' I']; auto; try discriminate.
      * now rewrite <- Et.
      * unfold cur. now rewrite Ew.
      * rewrite <- Et. unfold cur. cbn [go t_work]. now destruct ops2.
      * rewrite <- Et, F1. reflexivity.
      * intros own' pub' Wo. rewrite <- Et. split; [|split]; cbn [go t_proc t_todo t_log t_work]; rewrite ?Eq; auto.
        cbn [work_ok]. split; auto. now exists rq.
      * exists own, pub'. split; auto. clear -Ews. destruct o as [x|x [|tk r]|x y]; cbn [write_step] in Ews; injection Ews as <- _; reflexivity.
Qed.
End Threads.
