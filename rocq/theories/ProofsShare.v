(* Proofs about threads sharing a Rust handle. *)
From Coq Require Import Lia.
From Verif Require Import Base ModelStrings ModelJumper ModelEngine ModelApi ModelRust ModelShare SpecShare ProofsApi.
Local Open Scope nat_scope.

(* ---- lists ---- *)
Lemma nth_put {A} (l : list A) n x : forall m,
  nth_error (put l n x) m = if m =? n then (if n <? length l then Some x else None) else nth_error l m.
Proof.
  revert n. induction l as [|y l IH]; intros n m.
  - cbn [put]. destruct (m =? n); [cbn [length]; destruct n, m; reflexivity|reflexivity].
  - destruct n as [|n]; cbn [put].
    + destruct m as [|m]; reflexivity.
    + destruct m as [|m]; [reflexivity|]. cbn [nth_error]. rewrite IH. reflexivity.
Qed.
Lemma put_length {A} (l : list A) n x : length (put l n x) = length l.
Proof. revert n. induction l as [|y l IH]; intros [|n]; cbn; congruence. Qed.
Lemma nth_put_same {A} (l : list A) n x y : nth_error l n = Some y -> nth_error (put l n x) n = Some x.
Proof.
  intros E. rewrite nth_put, Nat.eqb_refl. assert (n < length l) by (apply nth_error_Some; congruence).
  destruct (Nat.ltb_spec n (length l)); [reflexivity|lia].
Qed.
Lemma nth_put_other {A} (l : list A) n x m : m <> n -> nth_error (put l n x) m = nth_error l m.
Proof. intros H. rewrite nth_put. destruct (Nat.eqb_spec m n); [contradiction|reflexivity]. Qed.
Lemma nth_snoc {A} (l : list A) x m : nth_error (l ++ [x]) m = if m =? length l then Some x else nth_error l m.
Proof.
  destruct (Nat.eqb_spec m (length l)) as [->|H].
  - rewrite nth_error_app2, Nat.sub_diag by lia. reflexivity.
  - destruct (Nat.lt_ge_cases m (length l)); [apply nth_error_app1; assumption|].
    rewrite nth_error_app2 by lia. replace (m - length l) with (S (m - length l - 1)) by lia.
    rewrite (proj2 (nth_error_None l m)) by lia. destruct (m - length l - 1); reflexivity.
Qed.
Lemma count_put {A} (f : A -> bool) (l : list A) n x y : nth_error l n = Some y ->
  length (filter f (put l n x)) + Nat.b2n (f y) = length (filter f l) + Nat.b2n (f x).
Proof.
  revert n. induction l as [|z l IH]; intros [|n] E; cbn in E; try discriminate.
  - injection E as ->. cbn [put filter]. destruct (f x), (f y); cbn [length Nat.b2n]; lia.
  - specialize (IH n E). cbn [put filter]. destruct (f z); cbn [length]; lia.
Qed.
Lemma count_pos {A} (f : A -> bool) (l : list A) n y : nth_error l n = Some y -> f y = true -> 0 < length (filter f l).
Proof.
  intros E H. assert (In y (filter f l)) by (apply filter_In; split; [eapply nth_error_In; eassumption|assumption]).
  destruct (filter f l); [contradiction|cbn; lia].
Qed.
Lemma count_snoc {A} (f : A -> bool) (l : list A) x : length (filter f (l ++ [x])) = length (filter f l) + Nat.b2n (f x).
Proof. rewrite filter_app, app_length. cbn. destruct (f x); reflexivity. Qed.

Lemma mine_snoc {A} t u (l : list (nat * A)) a : mine t (l ++ [(u, a)]) = mine t l ++ (if u =? t then [a] else []).
Proof. unfold mine. rewrite filter_app, map_app. cbn. destruct (u =? t); reflexivity. Qed.
Lemma mine_in {A} t (l : list (nat * A)) a : In a (mine t l) <-> In (t, a) l.
Proof.
  unfold mine. rewrite in_map_iff. split.
  - intros ((u, b) & E & H). apply filter_In in H as (H & E'). cbn in *. apply Nat.eqb_eq in E'. subst. exact H.
  - intros H. exists (t, a). split; [reflexivity|]. apply filter_In. split; [exact H|]. apply Nat.eqb_refl.
Qed.

Section Share.
Context {F W : Type}.
Variable flatten : string -> list string.
Variable im : impl F W.
Variable may : rcall -> Prop.
Variable w0 : W.
Notation slots_t := (list (option (nat * rvalue F))).
Notation hist_t := (list (nat * rcall * outcome (ranswer F))).
Notation phase_t := (nat -> rphase F).

Definition sl (l : slots_t) (j : nat) : option (nat * rvalue F) :=
  match nth_error l j with Some v => v | None => None end.
Lemma slot_sl (s : rstate F W) j : slot s j = sl (r_slots s) j.
Proof. reflexivity. Qed.
Lemma sl_nth l j x : sl l j = Some x -> nth_error l j = Some (Some x).
Proof. unfold sl. destruct (nth_error l j); [intros ->; reflexivity|discriminate]. Qed.
Lemma sl_put l j v x : sl l j = Some x -> forall m, sl (put l j v) m = if m =? j then v else sl l m.
Proof.
  intros E m. apply sl_nth in E. unfold sl. destruct (Nat.eqb_spec m j) as [->|H].
  - rewrite (nth_put_same _ _ _ _ E). reflexivity.
  - rewrite nth_put_other by assumption. reflexivity.
Qed.
Lemma sl_snoc l v m : sl (l ++ [v]) m = if m =? length l then v else sl l m.
Proof. unfold sl. rewrite nth_snoc. destruct (m =? length l); reflexivity. Qed.
Lemma sl_lt l j x : sl l j = Some x -> j < length l.
Proof. intros E. apply sl_nth in E. apply nth_error_Some. congruence. Qed.

(* ---- the library calls in order ---- *)
Definition seqI (hist : hist_t) (w : W) : Prop :=
  one_by_one flatten im (map (fun e => snd (fst e)) hist) w0 = (map snd hist, w).
Lemma one_by_one_snoc l c : forall w, one_by_one flatten im (l ++ [c]) w =
  let (a, w1) := one_by_one flatten im l w in let (r, w2) := rust_call flatten im c w1 in (a ++ [r], w2).
Proof.
  induction l as [|d l IH]; intros w; cbn [one_by_one app].
  - destruct (rust_call flatten im c w). reflexivity.
  - destruct (rust_call flatten im d w) as (a, w1). rewrite IH. destruct (one_by_one flatten im l w1) as (b, w2).
    destruct (rust_call flatten im c w2). reflexivity.
Qed.
Lemma seq_snoc hist w t c r w1 : seqI hist w -> rust_call flatten im c w = (r, w1) -> seqI (hist ++ [(t, c, r)]) w1.
Proof.
  unfold seqI. intros H E. rewrite !map_app. cbn [map fst snd]. rewrite one_by_one_snoc, H, E. reflexivity.
Qed.

(* ---- what each thread asked and got ---- *)
Definition h_calls (hist : hist_t) := map (fun e => (fst (fst e), snd (fst e))) hist.
Definition h_answers (hist : hist_t) := map (fun e => (fst (fst e), snd e)) hist.
Definition logI (hist : hist_t) asked got (phase : phase_t) : Prop :=
  forall t, mine t asked = mine t (h_calls hist) ++ not_made (phase t) /\
            mine t (h_answers hist) = mine t got ++ not_returned (phase t).

(* ---- the handles ---- *)
Definition objI (objs : list shared) (slots : slots_t) : Prop :=
  (forall h o, nth_error objs h = Some o -> o_refs o = length (filter (holds h) slots) /\ o_alive o = (0 <? o_refs o)) /\
  (forall j u h, sl slots j = Some (u, VHandle h) -> h < length objs).

Definition where_ (p : rphase F) : option (nat * nat) :=
  match p with Idle => None | Locking j h _ | Locked j h _ | Called j h _ _ => Some (j, h) end.
Definition has_lock (p : rphase F) (h : nat) : Prop :=
  match p with Locked _ h' _ | Called _ h' _ _ => h' = h | _ => False end.
Definition lockI (objs : list shared) (slots : slots_t) (phase : phase_t) : Prop :=
  (forall t j h, where_ (phase t) = Some (j, h) -> exists u, sl slots j = Some (u, VHandle h)) /\
  (forall h o, nth_error objs h = Some o -> forall t, o_owner o = Some t <-> has_lock (phase t) h).

(* ---- iterators and results ---- *)
Definition res (hist : hist_t) (k : nat) (rs : list (result F)) : Prop :=
  exists t c, nth_error hist k = Some (t, c, Ok (AIter (source_new (map Some rs)))).
Definition freshI (hist : hist_t) : Prop :=
  forall k t c src, nth_error hist k = Some (t, c, Ok (AIter src)) ->
    exists rs, src = source_new (map Some rs) /\ (lenN rs < two64)%N.
Definition cache_ok (x : handle F) : Prop :=
  if h_converted x then h_cache x = snd (h_result x) else h_cache x = [].
Definition callI (slots : slots_t) (hist : hist_t) (phase : phase_t) (taken : list (nat * nat)) : Prop :=
  forall t j h k r, phase t = Called j h k r ->
    (exists c, nth_error hist k = Some (t, c, r)) /\ mine k taken = [] /\ r <> UB /\
    (forall j' u src, sl slots j' <> Some (u, VIter k src)).
Definition iterI (slots : slots_t) (hist : hist_t) (taken : list (nat * nat)) : Prop :=
  (forall j t k src, sl slots j = Some (t, VIter k src) ->
     exists rs q, res hist k rs /\ q <= length rs /\ src = after rs q /\ mine k taken = seq 0 q) /\
  (forall j1 t1 s1 j2 t2 s2 k, sl slots j1 = Some (t1, VIter k s1) -> sl slots j2 = Some (t2, VIter k s2) -> j1 = j2).
Definition resI (slots : slots_t) (hist : hist_t) (taken : list (nat * nat)) : Prop :=
  (forall j t k p x, sl slots j = Some (t, VRes k p x) ->
     exists rs, res hist k rs /\ nth_error rs p = Some (h_result x) /\ In (k, p) taken /\ cache_ok x) /\
  (forall j1 t1 x1 j2 t2 x2 k p, sl slots j1 = Some (t1, VRes k p x1) -> sl slots j2 = Some (t2, VRes k p x2) -> j1 = j2) /\
  (forall k p, In (k, p) taken -> exists rs, res hist k rs /\ p < length rs) /\
  (forall k, exists q, mine k taken = seq 0 q).
Definition viewI (slots : slots_t) (views : list (nat * N)) : Prop :=
  forall j n, In (j, n) views -> exists t k p x, sl slots j = Some (t, VRes k p x) /\ h_converted x = true /\
    (n < num_ranges x)%N.

Definition mayI (hist : hist_t) (phase : phase_t) : Prop :=
  Forall may (map (fun e => snd (fst e)) hist) /\ forall t c, In c (not_made (phase t)) -> may c.

Record inv (s : rstate F W) : Prop := mk_inv {
  i_may : mayI (r_hist s) (r_phase s);
  i_seq : seqI (r_hist s) (r_world s);
  i_log : logI (r_hist s) (r_asked s) (r_got s) (r_phase s);
  i_obj : objI (r_objs s) (r_slots s);
  i_lock : lockI (r_objs s) (r_slots s) (r_phase s);
  i_fresh : freshI (r_hist s);
  i_call : callI (r_slots s) (r_hist s) (r_phase s) (r_taken s);
  i_iter : iterI (r_slots s) (r_hist s) (r_taken s);
  i_res : resI (r_slots s) (r_hist s) (r_taken s);
  i_view : viewI (r_slots s) (r_views s)
}.

Lemma start_inv : inv (start w0).
Proof.
  constructor; cbn.
  - split; [constructor|]. intros t c [].
  - reflexivity.
  - intros t. split; reflexivity.
  - split; [intros h o E; destruct h; discriminate|]. intros j u h E. unfold sl in E. destruct j; discriminate.
  - split; [intros t j h E; discriminate|]. intros h o E. destruct h; discriminate.
  - intros k t c src E. destruct k; discriminate.
  - intros t j h k r E. discriminate.
  - split; unfold sl; intros j; intros; destruct j; discriminate.
  - repeat split; unfold sl; try (intros j; intros; destruct j; discriminate).
    + intros k p [].
    + intros k. exists 0. reflexivity.
  - intros j n [].
Qed.

(* ---- parts of the invariant under changes of the slots ---- *)
Definition same_kind (v v' : rvalue F) : Prop :=
  match v, v' with
  | VHandle h, VHandle h' => h = h'
  | VIter k _, VIter k' _ => k = k'
  | VRes k p _, VRes k' p' _ => k = k' /\ p = p'
  | _, _ => False
  end.

(* a slot gets another value of the same kind, or another owner *)
Lemma obj_same objs slots j t v t' v' : objI objs slots -> sl slots j = Some (t, v) -> same_kind v v' ->
  objI objs (put slots j (Some (t', v'))).
Proof.
  intros (A & B) E K. split.
  - intros h o Eo. destruct (A h o Eo) as (R & L). split; [|exact L].
    pose proof (count_put (holds h) slots j (Some (t', v')) _ (sl_nth _ _ _ E)) as C.
    assert (X : holds h (Some (t', v')) = holds h (Some (t, v))).
    { destruct v, v'; cbn in K |- *; try contradiction; try reflexivity. subst. reflexivity. }
    rewrite X in C. lia.
  - intros m u h. rewrite (sl_put _ _ _ _ E). destruct (Nat.eqb_spec m j) as [->|].
    + intros [= -> ->]. destruct v; cbn in K; try contradiction. subst. exact (B _ _ _ E).
    + apply B.
Qed.
Lemma lock_same objs slots phase j t v t' v' : lockI objs slots phase -> sl slots j = Some (t, v) -> same_kind v v' ->
  lockI objs (put slots j (Some (t', v'))) phase.
Proof.
  intros (A & B) E K. split; [|exact B]. intros u m h Ew. destruct (A u m h Ew) as (x & Ex). rewrite (sl_put _ _ _ _ E).
  destruct (Nat.eqb_spec m j) as [->|]; [|exists x; exact Ex].
  rewrite E in Ex. injection Ex as <- ->. destruct v'; cbn in K; try contradiction. subst. exists t'. reflexivity.
Qed.
Lemma call_same slots hist phase taken j t v t' v' : callI slots hist phase taken -> sl slots j = Some (t, v) -> same_kind v v' ->
  callI (put slots j (Some (t', v'))) hist phase taken.
Proof.
  intros A E K u m h k r Ep. destruct (A u m h k r Ep) as (H1 & H2 & H3 & H4). repeat split; try assumption.
  intros j' u' src. rewrite (sl_put _ _ _ _ E). destruct (Nat.eqb_spec j' j) as [->|]; [|apply H4].
  intros [= -> ->]. destruct v; cbn in K; try contradiction. subst. exact (H4 _ _ _ E).
Qed.
Lemma iter_same slots hist taken j t v t' v' : iterI slots hist taken -> sl slots j = Some (t, v) -> same_kind v v' ->
  (forall k src, v' = VIter k src -> v = VIter k src) -> iterI (put slots j (Some (t', v'))) hist taken.
Proof.
  intros (A & B) E K S. split.
  - intros m u k src. rewrite (sl_put _ _ _ _ E). destruct (Nat.eqb_spec m j) as [->|]; [|apply A].
    intros [= -> ->]. rewrite (S k src eq_refl) in E. exact (A _ _ _ _ E).
  - assert (X : forall m u k src, sl (put slots j (Some (t', v'))) m = Some (u, VIter k src) ->
      exists u', sl slots m = Some (u', VIter k src)).
    { intros m u k src. rewrite (sl_put _ _ _ _ E). destruct (Nat.eqb_spec m j) as [->|]; [|eauto].
      intros [= -> ->]. rewrite (S k src eq_refl) in E. eauto. }
    intros j1 t1 s1 j2 t2 s2 k E1 E2. apply X in E1 as (u1 & E1). apply X in E2 as (u2 & E2). eapply B; eassumption.
Qed.
Lemma res_same slots hist taken j t v t' v' : resI slots hist taken -> sl slots j = Some (t, v) -> same_kind v v' ->
  (forall k p x, v' = VRes k p x -> cache_ok x /\ exists x0, v = VRes k p x0 /\ h_result x0 = h_result x) ->
  resI (put slots j (Some (t', v'))) hist taken.
Proof.
  intros (A & B & C & D) E K S. repeat split; try assumption.
  - intros m u k p x. rewrite (sl_put _ _ _ _ E). destruct (Nat.eqb_spec m j) as [->|]; [|apply A].
    intros [= -> ->]. destruct (S k p x eq_refl) as (O & x0 & -> & Ex).
    destruct (A _ _ _ _ _ E) as (rs & R1 & R2 & R3 & _). exists rs. rewrite <- Ex. auto.
  - assert (X : forall m u k p x, sl (put slots j (Some (t', v'))) m = Some (u, VRes k p x) ->
      exists u' x', sl slots m = Some (u', VRes k p x')).
    { intros m u k p x. rewrite (sl_put _ _ _ _ E). destruct (Nat.eqb_spec m j) as [->|]; [|eauto].
      intros [= -> ->]. destruct (S k p x eq_refl) as (_ & x0 & -> & _). eauto. }
    intros j1 t1 x1 j2 t2 x2 k p E1 E2. apply X in E1 as (u1 & y1 & E1). apply X in E2 as (u2 & y2 & E2). eapply B; eassumption.
Qed.
Lemma view_same slots views j t v t' v' : viewI slots views -> sl slots j = Some (t, v) -> same_kind v v' ->
  (forall k p x0 x, v = VRes k p x0 -> v' = VRes k p x -> h_converted x0 = true -> h_converted x = true /\ num_ranges x = num_ranges x0) ->
  viewI (put slots j (Some (t', v'))) views.
Proof.
  intros A E K S m n I. destruct (A m n I) as (u & k & p & x & Ex & Hc & Hn). rewrite (sl_put _ _ _ _ E).
  destruct (Nat.eqb_spec m j) as [->|]; [|exists u, k, p, x; auto].
  rewrite E in Ex. injection Ex as <- ->. destruct v' as [h|k' s'|k' p' x']; cbn in K; try contradiction. destruct K as (<- & <-).
  destruct (S k p x x' eq_refl eq_refl Hc) as (C1 & C2). exists t', k, p, x'. rewrite C2. auto.
Qed.

(* a new slot *)
Lemma obj_new_value objs slots t v : objI objs slots -> (forall h, v <> VHandle h) -> objI objs (slots ++ [Some (t, v)]).
Proof.
  intros (A & B) N. split.
  - intros h o E. destruct (A h o E) as (R & L). split; [|exact L]. rewrite count_snoc. 
    assert (X : holds h (Some (t, v)) = false) by (destruct v; cbn; [exfalso; exact (N _ eq_refl)|reflexivity..]). rewrite X. cbn. lia.
  - intros m u h. rewrite sl_snoc. destruct (m =? length slots); [intros [= _ E]; exfalso; exact (N _ E)|apply B].
Qed.
Lemma lock_snoc objs slots phase v : lockI objs slots phase -> lockI objs (slots ++ [v]) phase.
Proof.
  intros (A & B). split; [|exact B]. intros t j h E. destruct (A t j h E) as (u & Eu). exists u. rewrite sl_snoc.
  pose proof (sl_lt _ _ _ Eu). destruct (Nat.eqb_spec j (length slots)); [lia|exact Eu].
Qed.
Lemma call_snoc slots hist phase taken t v : callI slots hist phase taken ->
  (forall k src, v = VIter k src -> forall u j h r, phase u <> Called j h k r) -> callI (slots ++ [Some (t, v)]) hist phase taken.
Proof.
  intros A N u m h k r Ep. destruct (A u m h k r Ep) as (H1 & H2 & H3 & H4). repeat split; try assumption.
  intros j' u' src. rewrite sl_snoc. destruct (j' =? length slots); [|apply H4].
  intros [= _ E]. exact (N _ _ E _ _ _ _ Ep).
Qed.
Lemma iter_snoc slots hist taken t v : iterI slots hist taken -> (forall k src, v <> VIter k src) -> iterI (slots ++ [Some (t, v)]) hist taken.
Proof.
  intros (A & B) N.
  assert (X : forall m u k src, sl (slots ++ [Some (t, v)]) m = Some (u, VIter k src) -> sl slots m = Some (u, VIter k src)).
  { intros m u k src. rewrite sl_snoc. destruct (m =? length slots); [intros [= _ E]; exfalso; exact (N _ _ E)|auto]. }
  split; [intros m u k src E; apply A with m u, X, E|].
  intros j1 t1 s1 j2 t2 s2 k E1 E2. eapply B; apply X; eassumption.
Qed.
Lemma res_snoc slots hist taken t v : resI slots hist taken -> (forall k p x, v <> VRes k p x) -> resI (slots ++ [Some (t, v)]) hist taken.
Proof.
  intros (A & B & C & D) N.
  assert (X : forall m u k p x, sl (slots ++ [Some (t, v)]) m = Some (u, VRes k p x) -> sl slots m = Some (u, VRes k p x)).
  { intros m u k p x. rewrite sl_snoc. destruct (m =? length slots); [intros [= _ E]; exfalso; exact (N _ _ _ E)|auto]. }
  repeat split; try assumption.
  - intros m u k p x E. apply A with m u, X, E.
  - intros j1 t1 s1 j2 t2 s2 k p E1 E2. eapply B; apply X; eassumption.
Qed.
Lemma view_snoc slots views v : viewI slots views -> viewI (slots ++ [v]) views.
Proof.
  intros A j n I. destruct (A j n I) as (u & k & p & x & Ex & H). exists u, k, p, x. split; [|exact H]. rewrite sl_snoc.
  pose proof (sl_lt _ _ _ Ex). destruct (Nat.eqb_spec j (length slots)); [lia|exact Ex].
Qed.

(* a slot becomes empty *)
Lemma call_none slots hist phase taken j x : callI slots hist phase taken -> sl slots j = Some x -> callI (put slots j None) hist phase taken.
Proof.
  intros A E u m h k r Ep. destruct (A u m h k r Ep) as (H1 & H2 & H3 & H4). repeat split; try assumption.
  intros j' u' src. rewrite (sl_put _ _ _ _ E). destruct (j' =? j); [discriminate|apply H4].
Qed.
Lemma iter_none slots hist taken j x : iterI slots hist taken -> sl slots j = Some x -> iterI (put slots j None) hist taken.
Proof.
  intros (A & B) E.
  assert (X : forall m y, sl (put slots j None) m = Some y -> sl slots m = Some y).
  { intros m y. rewrite (sl_put _ _ _ _ E). destruct (m =? j); [discriminate|auto]. }
  split; [intros m u k src Em; apply A with m u, X, Em|].
  intros j1 t1 s1 j2 t2 s2 k E1 E2. eapply B; apply X; eassumption.
Qed.
Lemma res_none slots hist taken j x : resI slots hist taken -> sl slots j = Some x -> resI (put slots j None) hist taken.
Proof.
  intros (A & B & C & D) E.
  assert (X : forall m y, sl (put slots j None) m = Some y -> sl slots m = Some y).
  { intros m y. rewrite (sl_put _ _ _ _ E). destruct (m =? j); [discriminate|auto]. }
  repeat split; try assumption.
  - intros m u k p y Em. apply A with m u, X, Em.
  - intros j1 t1 s1 j2 t2 s2 k p E1 E2. eapply B; apply X; eassumption.
Qed.
Lemma view_none slots views j x : viewI slots views -> sl slots j = Some x -> existsb (fun v => fst v =? j) views = false ->
  viewI (put slots j None) views.
Proof.
  intros A E V m n I. destruct (A m n I) as (u & k & p & y & Ey & H). exists u, k, p, y. split; [|exact H].
  rewrite (sl_put _ _ _ _ E). destruct (Nat.eqb_spec m j) as [->|]; [|exact Ey].
  exfalso. assert (true = false); [|discriminate]. rewrite <- V. symmetry. apply existsb_exists. exists (j, n). split; [exact I|].
  apply Nat.eqb_refl.
Qed.
Lemma where_uses (p : rphase F) j h : where_ p = Some (j, h) -> uses p j.
Proof. destruct p; cbn; congruence. Qed.
Lemma lock_none objs slots phase j x : lockI objs slots phase -> sl slots j = Some x -> (forall t, ~ uses (phase t) j) ->
  lockI objs (put slots j None) phase.
Proof.
  intros (A & B) E U. split; [|exact B]. intros t m h Ew. destruct (A t m h Ew) as (u & Eu). exists u. rewrite (sl_put _ _ _ _ E).
  destruct (Nat.eqb_spec m j) as [->|]; [|exact Eu]. exfalso. exact (U t (where_uses _ _ _ Ew)).
Qed.
Lemma obj_none objs slots j t v : objI objs slots -> sl slots j = Some (t, v) -> (forall h, v <> VHandle h) -> objI objs (put slots j None).
Proof.
  intros (A & B) E N. split.
  - intros h o Eo. destruct (A h o Eo) as (R & L). split; [|exact L].
    pose proof (count_put (holds h) slots j None _ (sl_nth _ _ _ E)) as C.
    assert (X : holds h (Some (t, v)) = false) by (destruct v; cbn; [exfalso; exact (N _ eq_refl)|reflexivity..]).
    rewrite X in C. cbn in C. lia.
  - intros m u h. rewrite (sl_put _ _ _ _ E). destruct (m =? j); [discriminate|apply B].
Qed.

Lemma live_ok s h j u : inv s -> slot s j = Some (u, VHandle h) ->
  exists o, nth_error (r_objs s) h = Some o /\ live s h = Ok o /\ o_refs o = holders s h /\ 0 < o_refs o /\ o_alive o = true.
Proof.
  intros I E. rewrite slot_sl in E. destruct (i_obj s I) as (A & B). pose proof (B _ _ _ E) as L.
  destruct (nth_error (r_objs s) h) as [o|] eqn:Eo; [|apply nth_error_None in Eo; lia].
  destruct (A h o Eo) as (R & Al). pose proof (count_pos (holds h) _ _ _ (sl_nth _ _ _ E)) as P.
  cbn [holds] in P. rewrite Nat.eqb_refl in P. specialize (P eq_refl).
  assert (X : o_alive o = true) by (rewrite Al; apply Nat.ltb_lt; lia).
  exists o. unfold live. rewrite Eo, X. repeat split; try assumption; lia.
Qed.

Lemma lock_obj objs slots phase h o o' : lockI objs slots phase -> nth_error objs h = Some o -> o_owner o' = o_owner o ->
  lockI (put objs h o') slots phase.
Proof.
  intros (A & B) E O. split; [exact A|]. intros m p. rewrite nth_put. destruct (Nat.eqb_spec m h) as [->|]; [|apply B].
  destruct (h <? length objs); [|discriminate]. intros [= <-] t. rewrite O. apply B. exact E.
Qed.

(* ---- the steps that are never undefined and keep the invariant ---- *)
Definition good (o : outcome (rstate F W)) : Prop := exists s, o = Ok s /\ inv s.

Lemma new_good t s : inv s -> inv (do_new t s).
Proof.
  intros [I0 I1 I2 I3 I4 I5 I6 I7 I8 I9]. unfold do_new, new_slot, new_obj. constructor; cbn; try assumption.
  - destruct I3 as (A & B). split.
    + intros h o. rewrite nth_snoc, count_snoc. cbn [holds].
      destruct (Nat.eqb_spec h (length (r_objs s))) as [->|N].
      * intros [= <-]. cbn [o_refs o_alive]. rewrite Nat.eqb_refl. cbn [Nat.b2n].
        assert (Z : length (filter (holds (length (r_objs s))) (r_slots s)) = 0); [|rewrite Z; split; reflexivity].
        destruct (filter (holds (length (r_objs s))) (r_slots s)) as [|v l] eqn:Ef; [reflexivity|exfalso].
        assert (Iv : In v (v :: l)) by (left; reflexivity). rewrite <- Ef in Iv. apply filter_In in Iv as (Iv & H).
        destruct v as [(u, [h|k q|k q x])|]; cbn in H; try discriminate. apply Nat.eqb_eq in H. subst h.
        apply In_nth_error in Iv as (m & Em). assert (Es : sl (r_slots s) m = Some (u, VHandle (length (r_objs s)))) by (unfold sl; rewrite Em; reflexivity).
        pose proof (B _ _ _ Es). lia.
      * intros E. destruct (A h o E) as (R & L). split; [|exact L].
        destruct (Nat.eqb_spec (length (r_objs s)) h); [lia|]. cbn. lia.
    + intros j u h. rewrite sl_snoc, app_length. cbn [length]. destruct (j =? length (r_slots s)).
      * intros [= _ <-]. lia.
      * intros E. pose proof (B _ _ _ E). lia.
  - apply lock_snoc. destruct I4 as (A & B). split; [exact A|]. intros h o. rewrite nth_snoc.
    destruct (Nat.eqb_spec h (length (r_objs s))) as [->|N]; [|apply B].
    intros [= <-] u. cbn [o_owner]. split; [discriminate|]. intros H. exfalso.
    assert (X : exists j, where_ (r_phase s u) = Some (j, length (r_objs s))).
    { destruct (r_phase s u); cbn in H |- *; try contradiction; subst; eauto. }
    destruct X as (j & X). destruct (A _ _ _ X) as (v & Ev). destruct I3 as (_ & B3). pose proof (B3 _ _ _ Ev). lia.
  - apply call_snoc; [assumption|discriminate].
  - apply iter_snoc; [assumption|discriminate].
  - apply res_snoc; [assumption|discriminate].
  - apply view_snoc; assumption.
Qed.

Lemma clone_good t u j h s : inv s -> slot s j = Some (u, VHandle h) -> good (do_clone t h s).
Proof.
  intros I E. destruct (live_ok s h j u I E) as (o & Eo & L & R & P & Al).
  unfold do_clone. rewrite L. cbn [obind]. eexists. split; [reflexivity|].
  destruct I as [I0 I1 I2 I3 I4 I5 I6 I7 I8 I9]. unfold new_slot, set_obj. constructor; cbn; try assumption.
  - destruct I3 as (A & B). split.
    + intros m p. rewrite nth_put, count_snoc. cbn [holds]. destruct (Nat.eqb_spec m h) as [->|N].
      * destruct (h <? length (r_objs s)); [|discriminate]. intros [= <-]. cbn [o_refs o_alive]. rewrite Nat.eqb_refl. cbn [Nat.b2n].
        destruct (A h o Eo) as (R' & _). split; [lia|]. rewrite Al. reflexivity.
      * intros Ep. destruct (A m p Ep) as (R' & L'). split; [|exact L']. destruct (Nat.eqb_spec h m); [lia|]. cbn. lia.
    + intros m v k. rewrite sl_snoc, put_length. destruct (m =? length (r_slots s)); [|apply B].
      intros [= _ <-]. exact (B _ _ _ E).
  - apply lock_snoc. apply lock_obj with o; [assumption|exact Eo|reflexivity].
  - apply call_snoc; [assumption|discriminate].
  - apply iter_snoc; [assumption|discriminate].
  - apply res_snoc; [assumption|discriminate].
  - apply view_snoc; assumption.
Qed.

Lemma drop_good t j v s : inv s -> slot s j = Some (t, v) -> unborrowed s j -> good (do_drop j v s).
Proof.
  intros I E (V & U).
  assert (Plain : (forall h, v <> VHandle h) -> inv (set_slot s j None)).
  { intros N. rewrite slot_sl in E. destruct I as [I0 I1 I2 I3 I4 I5 I6 I7 I8 I9]. unfold set_slot. constructor; cbn; try assumption.
    - eapply obj_none; eassumption.
    - eapply lock_none; eassumption.
    - eapply call_none; eassumption.
    - eapply iter_none; eassumption.
    - eapply res_none; eassumption.
    - eapply view_none; eassumption. }
  destruct v as [h|k src|k p x]; cbn [do_drop]; [|eexists; split; [reflexivity|apply Plain; discriminate]..].
  clear Plain. destruct (live_ok s h j t I E) as (o & Eo & L & R & P & Al). rewrite L. cbn [obind]. rewrite slot_sl in E.
  pose proof (count_put (holds h) (r_slots s) j None _ (sl_nth _ _ _ E)) as C. cbn [holds] in C. rewrite Nat.eqb_refl in C. cbn [Nat.b2n] in C.
  unfold holders in R.
  assert (K : forall refs alive, refs = length (filter (holds h) (put (r_slots s) j None)) -> alive = (0 <? refs) ->
    inv (set_slot (set_obj s h (mk_shared refs (o_owner o) alive)) j None)).
  { intros refs alive Er Ea. destruct I as [I0 I1 I2 I3 I4 I5 I6 I7 I8 I9]. unfold set_slot, set_obj. constructor; cbn; try assumption.
    - destruct I3 as (A & B). split.
      + intros m p. rewrite nth_put. destruct (Nat.eqb_spec m h) as [->|N].
        * destruct (h <? length (r_objs s)); [|discriminate]. intros [= <-]. cbn [o_refs o_alive]. split; assumption.
        * intros Ep. destruct (A m p Ep) as (R' & L'). split; [|exact L'].
          pose proof (count_put (holds m) (r_slots s) j None _ (sl_nth _ _ _ E)) as C'. cbn [holds] in C'.
          destruct (Nat.eqb_spec h m); [lia|]. cbn [Nat.b2n] in C'. lia.
      + intros m y k. rewrite (sl_put _ _ _ _ E), put_length. destruct (m =? j); [discriminate|apply B].
    - eapply lock_none; [|eassumption|exact U]. apply lock_obj with o; [assumption|exact Eo|reflexivity].
    - eapply call_none; eassumption.
    - eapply iter_none; eassumption.
    - eapply res_none; eassumption.
    - eapply view_none; eassumption. }
  destruct (Nat.eqb_spec (o_refs o) 1) as [E1|N1].
  - destruct (o_owner o) as [u|] eqn:Ow.
    + exfalso. destruct (i_lock s I) as (A & B). pose proof (proj1 (B h o Eo u) Ow) as H.
      assert (X : exists m, where_ (r_phase s u) = Some (m, h)).
      { destruct (r_phase s u); cbn in H |- *; try contradiction; subst; eauto. }
      destruct X as (m & X). destruct (A _ _ _ X) as (y & Ey).
      assert (Nm : m <> j) by (intros ->; exact (U u (where_uses _ _ _ X))).
      assert (Q : nth_error (put (r_slots s) j None) m = Some (Some (y, VHandle h))) by (rewrite nth_put_other by assumption; apply sl_nth; exact Ey).
      pose proof (count_pos (holds h) _ _ _ Q) as P2. cbn [holds] in P2. rewrite Nat.eqb_refl in P2. specialize (P2 eq_refl). lia.
    + eexists. split; [reflexivity|]. apply K; [lia|reflexivity].
  - eexists. split; [reflexivity|]. apply K; [lia|]. rewrite Al. symmetry. apply Nat.ltb_lt. lia.
Qed.

Lemma move_good t u j v s : inv s -> slot s j = Some (t, v) -> unborrowed s j -> inv (set_slot s j (Some (u, v))).
Proof.
  intros I E (V & U). rewrite slot_sl in E.
  assert (K : same_kind v v) by (destruct v; cbn; auto).
  assert (CO : forall k p x, v = VRes k p x -> cache_ok x).
  { intros k p x ->. destruct (proj1 (i_res s I) _ _ _ _ _ E) as (rs & _ & _ & _ & O). exact O. }
  destruct I as [I0 I1 I2 I3 I4 I5 I6 I7 I8 I9]. unfold set_slot. constructor; cbn; try assumption.
  - eapply obj_same; eassumption.
  - eapply lock_same; eassumption.
  - eapply call_same; eassumption.
  - eapply iter_same; [eassumption..|]. auto.
  - eapply res_same; [eassumption..|]. intros k p x ->. split; [eauto|]. exists x. auto.
  - eapply view_same; [eassumption..|]. intros k p x0 x -> [= <-] H. auto.
Qed.

Lemma phase_at (ph : phase_t) t p u : (if u =? t then p else ph u) = if Nat.eq_dec u t then p else ph u.
Proof. destruct (Nat.eqb_spec u t), (Nat.eq_dec u t); congruence. Qed.

Lemma call_good t u j h c s : inv s -> slot s j = Some (u, VHandle h) -> r_phase s t = Idle -> may c ->
  inv (log_asked (set_phase s t (Locking j h c)) (t, c)).
Proof.
  intros I E Ep M. rewrite slot_sl in E. destruct I as [I0 I1 I2 I3 I4 I5 I6 I7 I8 I9]. unfold log_asked, set_phase. constructor; cbn; try assumption.
  - destruct I0 as (A & B). split; [exact A|]. intros v d. destruct (Nat.eqb_spec v t); [|apply B]. intros [<-|[]]. exact M.
  - intros v. destruct (I2 v) as (A & B). rewrite mine_snoc. destruct (Nat.eqb_spec v t) as [->|N].
    + rewrite Nat.eqb_refl. rewrite Ep in A, B. cbn [not_made not_returned] in A, B |- *. rewrite app_nil_r in A. rewrite A. split; [reflexivity|exact B].
    + destruct (Nat.eqb_spec t v); [lia|]. rewrite app_nil_r. split; assumption.
  - destruct I4 as (A & B). split.
    + intros v m k. destruct (Nat.eqb_spec v t) as [->|N]; [|apply A]. cbn. intros [= <- <-]. exists u. exact E.
    + intros k o Eo v. rewrite (B k o Eo v). destruct (Nat.eqb_spec v t) as [->|N]; [|reflexivity].
      rewrite Ep. cbn. reflexivity.
  - intros v m k q r. destruct (Nat.eqb_spec v t); [discriminate|apply I6].
Qed.

Lemma locking_live s t j h : inv s -> where_ (r_phase s t) = Some (j, h) ->
  exists o, nth_error (r_objs s) h = Some o /\ live s h = Ok o /\ o_alive o = true.
Proof.
  intros I E. destruct (proj1 (i_lock s I) _ _ _ E) as (u & Eu). rewrite <- slot_sl in Eu.
  destruct (live_ok s h j u I Eu) as (o & Eo & L & _ & _ & Al). eauto.
Qed.

Lemma obj_owner objs slots h o w' : objI objs slots -> nth_error objs h = Some o ->
  objI (put objs h (mk_shared (o_refs o) w' (o_alive o))) slots.
Proof.
  intros (A & B) E. split; [|intros j u k Ej; rewrite put_length; exact (B _ _ _ Ej)].
  intros m p. rewrite nth_put. destruct (Nat.eqb_spec m h) as [->|]; [|apply A].
  destruct (h <? length objs); [|discriminate]. intros [= <-]. cbn. exact (A h o E).
Qed.

Lemma lock_good t j h c s o : inv s -> r_phase s t = Locking j h c -> do_lock t j h c s = Some o -> good o.
Proof.
  intros I Ep. destruct (locking_live s t j h I) as (ob & Eo & L & Al); [rewrite Ep; reflexivity|].
  unfold do_lock. rewrite L. destruct (o_owner ob) as [u|] eqn:Ow; [discriminate|]. intros [= <-]. eexists. split; [reflexivity|].
  destruct I as [I0 I1 I2 I3 I4 I5 I6 I7 I8 I9]. unfold set_phase, set_obj. constructor; cbn; try assumption.
  - destruct I0 as (A & B). split; [exact A|]. intros v d. destruct (Nat.eqb_spec v t); [|apply B]. cbn. intros Id. apply (B t). rewrite Ep. exact Id.
  - intros v. destruct (I2 v) as (A & B). destruct (Nat.eqb_spec v t) as [->|N]; [|split; assumption].
    rewrite Ep in A, B. split; assumption.
  - apply obj_owner; assumption.
  - destruct I4 as (A & B). split.
    + intros v m k. destruct (Nat.eqb_spec v t) as [->|N]; [|apply A]. cbn. intros [= <- <-]. apply A with t. rewrite Ep. reflexivity.
    + intros k p. rewrite nth_put. destruct (Nat.eqb_spec k h) as [->|N].
      * destruct (h <? length (r_objs s)); [|discriminate]. intros [= <-] v. cbn [o_owner].
        destruct (Nat.eqb_spec v t) as [->|N']; cbn; [tauto|]. split; [congruence|].
        intros H. pose proof (proj2 (B h ob Eo v) H). congruence.
      * intros Ek v. rewrite (B k p Ek v). destruct (Nat.eqb_spec v t) as [->|N']; [|reflexivity].
        rewrite Ep. cbn. split; [intros []|lia].
  - intros v m k q r. destruct (Nat.eqb_spec v t); [discriminate|apply I6].
Qed.

Lemma h_calls_snoc hist t c r : h_calls (hist ++ [(t, c, r)]) = h_calls hist ++ [(t, c)].
Proof. unfold h_calls. rewrite map_app. reflexivity. Qed.
Lemma h_answers_snoc hist t c r : h_answers (hist ++ [(t, c, r)]) = h_answers hist ++ [(t, r)].
Proof. unfold h_answers. rewrite map_app. reflexivity. Qed.
Lemma res_more hist e k rs : res hist k rs -> res (hist ++ [e]) k rs.
Proof.
  intros (t & c & E). exists t, c. rewrite nth_error_app1; [exact E|]. apply nth_error_Some. congruence.
Qed.

Lemma fresh_call c w src w1 : rust_call flatten im c w = (Ok (AIter src), w1) -> exists rs, src = source_new (map Some rs).
Proof.
  assert (P : forall (m : @action W (list (result F))) w w1 src, amap AIter (as_iterator m) w = (Ok (AIter src), w1) -> exists rs, src = source_new (map Some rs)).
  { intros m v v1 s0. unfold amap, as_iterator, amap. cbn [fst snd]. destruct (fst (m v)) as [rs| |]; cbn; try discriminate.
    intros [= <- _]. eauto. }
  assert (T : forall e (w w1 : W) src, amap (@AIter F) (throw e) w = (Ok (AIter src), w1) -> exists rs, src = source_new (map Some rs)).
  { intros e v v1 s0. discriminate. }
  destruct c; cbn [rust_call].
  - unfold rs_extract, gj_extract. destruct reqs; [apply T|apply P].
  - unfold rs_extract_from_paths, gj_extract_paths. destruct (map cpp_path_request reqs); [apply T|apply P].
  - unfold gj_extract_mars, gj_extract. destruct (map _ (flatten req)); [apply T|apply P].
  - unfold bridge_extract_from_file. destruct (from_cxx (to_cxx path messages)) as [((p, offs), rgs)|e|]; [|apply T|discriminate].
    unfold gj_extract_direct. destruct (String.eqb p ""); [apply T|]. destruct (lenN offs =? 0)%N; [apply T|].
    destruct (negb (lenN offs =? lenN rgs)%N); [apply T|apply P].
  - unfold amap. destruct (fst (gj_axes im req level w)); discriminate.
  - unfold amap. destruct (fst (gj_scan_paths im paths w)); discriminate.
  - unfold amap. destruct (fst (gj_scan_requests im reqs by_files w)); discriminate.
Qed.

Hypothesis defined : defined_calls flatten im may w0.
Hypothesis fits : in_memory flatten im may w0.

Lemma lib_good t j h c s : inv s -> r_phase s t = Locked j h c -> good (do_call flatten im t j h c s).
Proof.
  intros I Ep. destruct (locking_live s t j h I) as (o & Eo & L & Al); [rewrite Ep; reflexivity|].
  unfold do_call. rewrite L. cbn [obind].
  assert (Ow : o_owner o = Some t) by (apply (proj2 (i_lock s I) h o Eo t); rewrite Ep; reflexivity).
  rewrite Ow, Nat.eqb_refl. destruct (rust_call flatten im c (r_world s)) as (r, w1) eqn:Ec.
  pose proof (seq_snoc _ _ t c r w1 (i_seq s I) Ec) as Q.
  assert (Mc : forall r, Forall may (map (fun e : nat * rcall * outcome (ranswer F) => snd (fst e)) (r_hist s ++ [(t, c, r)]))).
  { intros r0. rewrite map_app. apply Forall_app. split; [exact (proj1 (i_may s I))|]. constructor; [|constructor].
    apply (proj2 (i_may s I) t). rewrite Ep. left. reflexivity. }
  assert (Nr : r <> UB).
  { intros ->. apply (defined (map (fun e => snd (fst e)) (r_hist s ++ [(t, c, UB)])) (Mc UB)). rewrite Q. cbn [fst].
    rewrite map_app. apply in_or_app. right. left. reflexivity. }
  assert (G : inv (log_hist (set_phase (set_world s w1) t (Called j h (length (r_hist s)) r)) (t, c, r))).
  { destruct I as [I0 I1 I2 I3 I4 I5 I6 I7 I8 I9]. unfold log_hist, set_phase, set_world. constructor; cbn; try assumption.
    - split; [apply Mc|]. intros v d. destruct (Nat.eqb_spec v t); [intros []|apply (proj2 I0)].
    - intros v. destruct (I2 v) as (A & B). rewrite h_calls_snoc, h_answers_snoc, !mine_snoc.
      destruct (Nat.eqb_spec v t) as [->|N].
      + rewrite Nat.eqb_refl. rewrite Ep in A, B. cbn [not_made not_returned] in A, B |- *. rewrite !app_nil_r. rewrite app_nil_r in B. rewrite A, B. split; reflexivity.
      + destruct (Nat.eqb_spec t v); [lia|]. rewrite !app_nil_r. split; assumption.
    - destruct I4 as (A & B). split.
      + intros v m k. destruct (Nat.eqb_spec v t) as [->|N]; [|apply A]. cbn. intros [= <- <-]. apply A with t. rewrite Ep. reflexivity.
      + intros k p Ek v. rewrite (B k p Ek v). destruct (Nat.eqb_spec v t) as [->|N']; [|reflexivity].
        rewrite Ep. cbn. reflexivity.
    - intros k u d src. rewrite nth_snoc. destruct (k =? length (r_hist s)); [|apply I5].
      intros [= <- <- ->]. destruct (fresh_call _ _ _ _ Ec) as (rs & ->). exists rs. split; [reflexivity|].
      apply (fits (map (fun e => snd (fst e)) (r_hist s ++ [(t, c, Ok (AIter (source_new (map Some rs))))])) rs (Mc _)). rewrite Q. cbn [fst].
      rewrite map_app. apply in_or_app. right. left. reflexivity.
    - intros v m k q r'. destruct (Nat.eqb_spec v t) as [->|N].
      + intros [= _ _ <- <-]. rewrite nth_snoc, Nat.eqb_refl. repeat split; [exists c; reflexivity| |exact Nr|].
        * destruct (mine (length (r_hist s)) (r_taken s)) as [|p l] eqn:Em; [reflexivity|exfalso].
          assert (Ip : In p (mine (length (r_hist s)) (r_taken s))) by (rewrite Em; left; reflexivity).
          apply mine_in in Ip. destruct I8 as (_ & _ & C & _). destruct (C _ _ Ip) as (rs & (u & d & En) & _).
          assert (length (r_hist s) < length (r_hist s)) by (apply nth_error_Some; congruence). lia.
        * intros j' u src Es. destruct (proj1 I7 _ _ _ _ Es) as (rs & _ & (u' & d & En) & _).
          assert (length (r_hist s) < length (r_hist s)) by (apply nth_error_Some; congruence). lia.
      + intros Ev. destruct (I6 v m k q r' Ev) as ((d & En) & R). split; [|exact R]. exists d.
        rewrite nth_error_app1; [exact En|]. apply nth_error_Some. congruence.
    - destruct I7 as (A & B). split; [|exact B]. intros m u k src Em. destruct (A _ _ _ _ Em) as (rs & q & R & H).
      exists rs, q. split; [apply res_more; exact R|exact H].
    - destruct I8 as (A & B & C & D). split; [|split; [exact B|split; [|exact D]]].
      + intros m u k p x Em. destruct (A _ _ _ _ _ Em) as (rs & R & H). exists rs. split; [apply res_more; exact R|exact H].
      + intros k p Ik. destruct (C k p Ik) as (rs & R & H). exists rs. split; [apply res_more; exact R|exact H]. }
  destruct r; [|..|congruence]; eexists; (split; [reflexivity|exact G]).
Qed.

Lemma return_good t j h k r s : inv s -> r_phase s t = Called j h k r -> good (do_return t h k r s).
Proof.
  intros I Ep. destruct (locking_live s t j h I) as (o & Eo & L & Al); [rewrite Ep; reflexivity|].
  unfold do_return. rewrite L. cbn [obind].
  assert (Hc : exists c, nth_error (r_hist s) k = Some (t, c, r)) by (destruct (i_call s I t j h k r Ep) as (X & _); exact X).
  assert (Fr : forall src, r = Ok (AIter src) -> exists rs, src = source_new (map Some rs)).
  { intros src ->. destruct Hc as (c & Ec). destruct (i_fresh s I _ _ _ _ Ec) as (rs & -> & _). eauto. }
  assert (G : inv (log_got (set_phase (unlocked s h o) t Idle) (t, r)) /\
    forall src, r = Ok (AIter src) -> inv (new_slot (log_got (set_phase (unlocked s h o) t Idle) (t, r)) t (VIter k src))).
  { assert (Ow : o_owner o = Some t) by (apply (proj2 (i_lock s I) h o Eo t); rewrite Ep; reflexivity).
    destruct (i_call s I t j h k r Ep) as (_ & Tk & _ & Nk).
    assert (Un : forall u j' h' r', u <> t -> r_phase s u <> Called j' h' k r').
    { intros u j' h' r' N Eu. destruct (i_call s I u j' h' k r' Eu) as ((c' & E') & _). destruct Hc as (c & E). congruence. }
    assert (G1 : inv (log_got (set_phase (unlocked s h o) t Idle) (t, r))).
    { destruct I as [I0 I1 I2 I3 I4 I5 I6 I7 I8 I9]. unfold log_got, set_phase, unlocked, set_obj. constructor; cbn; try assumption.
      - split; [exact (proj1 I0)|]. intros v d. destruct (Nat.eqb_spec v t); [intros []|apply (proj2 I0)].
      - intros v. destruct (I2 v) as (A & B). rewrite mine_snoc. destruct (Nat.eqb_spec v t) as [->|N].
        + rewrite Nat.eqb_refl. rewrite Ep in A, B. cbn [not_made not_returned] in A, B |- *. rewrite !app_nil_r. rewrite app_nil_r in A. split; assumption.
        + destruct (Nat.eqb_spec t v); [lia|]. rewrite app_nil_r. split; assumption.
      - apply obj_owner; assumption.
      - destruct I4 as (A & B). split.
        + intros v m q. destruct (Nat.eqb_spec v t) as [->|N]; [discriminate|apply A].
        + intros q p. rewrite nth_put. destruct (Nat.eqb_spec q h) as [->|N].
          * destruct (h <? length (r_objs s)); [|discriminate]. intros [= <-] v. cbn [o_owner]. split; [discriminate|].
            destruct (Nat.eqb_spec v t) as [->|N']; [cbn; tauto|]. intros H. pose proof (proj2 (B h o Eo v) H). congruence.
          * intros Ek v. rewrite (B q p Ek v). destruct (Nat.eqb_spec v t) as [->|N']; [|reflexivity].
            rewrite Ep. cbn. split; [intros ->; contradiction|intros []].
      - intros v m q q' r'. destruct (Nat.eqb_spec v t); [discriminate|apply I6]. }
    split; [exact G1|]. intros src Er. destruct (Fr src Er) as (rs & ->).
    destruct G1 as [I0 I1 I2 I3 I4 I5 I6 I7 I8 I9]. unfold new_slot. constructor; cbn in *; try assumption.
    - apply obj_new_value; [assumption|discriminate].
    - apply lock_snoc. assumption.
    - apply call_snoc; [assumption|]. intros k' src [= <- _] u m q r'. destruct (Nat.eqb_spec u t); [discriminate|]. apply Un. assumption.
    - destruct I7 as (A & B). split.
      + intros m u k' src. rewrite sl_snoc. destruct (m =? length (r_slots s)); [|apply A].
        intros [= _ <- <-]. exists rs, 0. repeat split; [|lia|exact Tk]. destruct Hc as (c & Ec). exists t, c. rewrite Ec, Er. reflexivity.
      + intros j1 t1 s1 j2 t2 s2 k'. rewrite !sl_snoc.
        destruct (Nat.eqb_spec j1 (length (r_slots s))) as [->|]; destruct (Nat.eqb_spec j2 (length (r_slots s))) as [->|]; [reflexivity|..|apply B].
        * intros [= _ <- _] E2. exfalso. exact (Nk _ _ _ E2).
        * intros E1 [= _ <- _]. exfalso. exact (Nk _ _ _ E1).
    - apply res_snoc; [assumption|discriminate].
    - apply view_snoc. assumption. }
  destruct G as (G1 & G2).
  destruct r as [[src| |]| |]; eexists; (split; [reflexivity|]); first [exact G1|apply G2; reflexivity].
Qed.

Lemma rust_next_after (rs : list (result F)) q : (lenN rs < two64)%N -> rust_next (after rs q) = Ok (nth_error rs q, after rs (S q)).
Proof.
  intros Fi. unfold rust_next, bridge_next. rewrite (has_next_after rs Fi). pose proof (next_after rs Fi q) as Hn.
  destruct (Nat.ltb_spec q (length rs)) as [L|L]; cbn [negb].
  - rewrite Hn. cbn [obind]. destruct (nth_error rs q) eqn:E; [reflexivity|]. apply nth_error_None in E; lia.
  - unfold next in Hn. rewrite (has_next_after rs Fi) in Hn. destruct (Nat.ltb_spec q (length rs)); [lia|]. exact Hn.
Qed.
Lemma after_end (rs : list (result F)) q : length rs <= q -> after rs (S q) = after rs q.
Proof. intros H. unfold after. rewrite !skipn_all2 by lia. rewrite !Nat.min_r by lia. reflexivity. Qed.
Lemma res_small hist k rs : freshI hist -> res hist k rs -> (lenN rs < two64)%N.
Proof.
  intros Fr (t & c & E). destruct (Fr _ _ _ _ E) as (rs' & Eq & L). injection Eq as Eq.
  assert (length rs = length rs') by (apply (f_equal (@length _)) in Eq; rewrite !map_length in Eq; exact Eq).
  unfold lenN in *. lia.
Qed.

Lemma next_good t j k src s : inv s -> slot s j = Some (t, VIter k src) -> good (do_next t j k src s).
Proof.
  intros I E. rewrite slot_sl in E. destruct (proj1 (i_iter s I) _ _ _ _ E) as (rs & q & R & Lq & -> & Tk).
  pose proof (res_small _ _ _ (i_fresh s I) R) as Fi. unfold do_next. rewrite (rust_next_after rs q Fi).
  destruct (nth_error rs q) as [x|] eqn:Eq.
  - assert (Lt : q < length rs) by (apply nth_error_Some; congruence).
    eexists. split; [reflexivity|].
    assert (Ei : N.to_nat (s_index (after rs q)) = q) by (cbn; lia). rewrite Ei. clear Ei.
    destruct I as [I0 I1 I2 I3 I4 I5 I6 I7 I8 I9]. unfold log_taken, new_slot, set_slot. constructor; cbn; try assumption.
    + apply obj_new_value; [|discriminate]. eapply obj_same; [eassumption..|reflexivity].
    + apply lock_snoc. eapply lock_same; [eassumption..|reflexivity].
    + apply call_snoc; [|discriminate]. eapply call_same; [|eassumption|reflexivity].
      intros u m h k' r Eu. destruct (I6 u m h k' r Eu) as (A & B & C & D). repeat split; try assumption.
      rewrite mine_snoc, B. destruct (Nat.eqb_spec k k') as [<-|]; [|reflexivity]. exfalso. exact (D _ _ _ E).
    + apply iter_snoc; [|discriminate]. destruct I7 as (A & B). split.
      * intros m u k' src. rewrite (sl_put _ _ _ _ E). destruct (Nat.eqb_spec m j) as [->|N].
        -- intros [= <- <- <-]. exists rs, (S q). rewrite mine_snoc, Nat.eqb_refl, Tk, seq_S. cbn [Nat.add]. repeat split; [exact R|lia].
        -- intros Em. destruct (A _ _ _ _ Em) as (rs' & q' & H1 & H2 & H3 & H4). exists rs', q'. repeat split; try assumption.
           rewrite mine_snoc. destruct (Nat.eqb_spec k k') as [<-|]; [|rewrite app_nil_r; exact H4].
           exfalso. exact (N (B _ _ _ _ _ _ _ Em E)).
      * assert (X : forall m u k' src, sl (put (r_slots s) j (Some (t, VIter k (after rs (S q))))) m = Some (u, VIter k' src) ->
          exists u' src', sl (r_slots s) m = Some (u', VIter k' src')).
        { intros m u k' src. rewrite (sl_put _ _ _ _ E). destruct (Nat.eqb_spec m j) as [->|]; [|eauto].
          intros [= <- <- <-]. eauto. }
        intros j1 t1 s1 j2 t2 s2 k' E1 E2. apply X in E1 as (? & ? & E1). apply X in E2 as (? & ? & E2). eapply B; eassumption.
    + destruct I8 as (A & B & C & D).
      assert (X : forall m u k' p y, sl (put (r_slots s) j (Some (t, VIter k (after rs (S q))))) m = Some (u, VRes k' p y) ->
        sl (r_slots s) m = Some (u, VRes k' p y)).
      { intros m u k' p y. rewrite (sl_put _ _ _ _ E). destruct (m =? j); [discriminate|auto]. }
      assert (Y : forall m u y, sl (r_slots s) m <> Some (u, VRes k q y)).
      { intros m u y Em. destruct (A _ _ _ _ _ Em) as (_ & _ & _ & In' & _). apply mine_in in In'. rewrite Tk in In'. apply in_seq in In'. lia. }
      split; [|split; [|split]].
      * intros m u k' p y. rewrite sl_snoc, put_length. destruct (m =? length (r_slots s)).
        -- intros [= _ <- <- <-]. exists rs. cbn [h_result handle_new]. repeat split; [exact R|exact Eq|apply in_or_app; right; left; reflexivity].
        -- intros Em. apply X in Em. destruct (A _ _ _ _ _ Em) as (rs' & H1 & H2 & H3 & H4). exists rs'. repeat split; try assumption.
           apply in_or_app. left. exact H3.
      * intros j1 t1 x1 j2 t2 x2 k' p. rewrite !sl_snoc, !put_length.
        destruct (Nat.eqb_spec j1 (length (r_slots s))) as [->|]; destruct (Nat.eqb_spec j2 (length (r_slots s))) as [->|]; [reflexivity|..].
        -- intros [= _ <- <- _] E2. exfalso. exact (Y _ _ _ (X _ _ _ _ _ E2)).
        -- intros E1 [= _ <- <- _]. exfalso. exact (Y _ _ _ (X _ _ _ _ _ E1)).
        -- intros E1 E2. apply X in E1, E2. eapply B; eassumption.
      * intros k' p Ik. apply in_app_or in Ik as [Ik|[[= <- <-]|[]]]; [exact (C _ _ Ik)|]. exists rs. split; [exact R|exact Lt].
      * intros k'. rewrite mine_snoc. destruct (Nat.eqb_spec k k') as [<-|]; [|rewrite app_nil_r; apply D].
        exists (S q). rewrite Tk, seq_S. reflexivity.
    + apply view_snoc. eapply view_same; [eassumption|eassumption|reflexivity|discriminate].
  - assert (Ge : length rs <= q) by (apply nth_error_None; exact Eq). rewrite (after_end rs q Ge).
    eexists. split; [reflexivity|].
    destruct I as [I0 I1 I2 I3 I4 I5 I6 I7 I8 I9]. unfold set_slot. constructor; cbn; try assumption.
    + eapply obj_same; [eassumption..|reflexivity].
    + eapply lock_same; [eassumption..|reflexivity].
    + eapply call_same; [eassumption..|reflexivity].
    + eapply iter_same; [eassumption..|reflexivity|auto].
    + eapply res_same; [eassumption..|reflexivity|discriminate].
    + eapply view_same; [eassumption..|reflexivity|discriminate].
Qed.

Lemma viewed_in views j : existsb (fun v : nat * N => fst v =? j) views = true -> exists n, In (j, n) views.
Proof. intros H. apply existsb_exists in H as ((m, n) & I & E). cbn in E. apply Nat.eqb_eq in E. subst. eauto. Qed.

Lemma range_good t j k p x n s : inv s -> slot s j = Some (t, VRes k p x) -> good (do_range t j k p x n s).
Proof.
  intros I E. rewrite slot_sl in E. unfold do_range.
  assert (Nw : writes_cache x n && viewed s j = false).
  { destruct (viewed s j) eqn:V; [|apply andb_false_r]. apply viewed_in in V as (m & Im).
    destruct (i_view s I j m Im) as (u & k' & p' & y & Ey & C & _). rewrite E in Ey. injection Ey as _ _ _ <-.
    unfold writes_cache. rewrite C. cbn. rewrite andb_false_r. reflexivity. }
  rewrite Nw. destruct (proj1 (i_res s I) _ _ _ _ _ E) as (rs & R & Er & Tk & CO).
  assert (G : forall x1, cache_ok x1 -> h_result x1 = h_result x -> (h_converted x = true -> h_converted x1 = true) ->
    inv (set_slot s j (Some (t, VRes k p x1)))).
  { intros x1 C1 E1 H1. destruct I as [I0 I1 I2 I3 I4 I5 I6 I7 I8 I9]. unfold set_slot. constructor; cbn; try assumption.
    - eapply obj_same; [eassumption..|split; reflexivity].
    - eapply lock_same; [eassumption..|split; reflexivity].
    - eapply call_same; [eassumption..|split; reflexivity].
    - eapply iter_same; [eassumption..|split; reflexivity|discriminate].
    - eapply res_same; [eassumption..|split; reflexivity|]. intros k' p' y [= <- <- <-]. split; [exact C1|]. exists x. auto.
    - eapply view_same; [eassumption..|split; reflexivity|]. intros k' p' x0 y [= <- <- <-] [= <-] H. split; [auto|].
      unfold num_ranges. rewrite E1. reflexivity. }
  unfold rs_range. destruct (num_ranges x <=? n)%N eqn:Hn.
  - eexists. split; [reflexivity|]. apply G; auto.
  - apply N.leb_gt in Hn. unfold masks_at. eexists. split; [reflexivity|].
    assert (Cv : h_converted (convert_masks x) = true) by (unfold convert_masks; destruct (h_converted x) eqn:Hc; [exact Hc|reflexivity]).
    assert (Rs : h_result (convert_masks x) = h_result x) by (unfold convert_masks; destruct (h_converted x); reflexivity).
    assert (Gx : inv (set_slot s j (Some (t, VRes k p (convert_masks x))))).
    { apply G; [|exact Rs|auto]. unfold cache_ok in CO |- *. rewrite Cv, Rs. unfold convert_masks.
      destruct (h_converted x); [exact CO|]. cbn [h_cache]. rewrite CO. reflexivity. }
    destruct Gx as [I0 I1 I2 I3 I4 I5 I6 I7 I8 I9]. unfold set_views. constructor; cbn in *; try assumption.
    intros m q Im. apply in_app_or in Im as [Im|[[= <- <-]|[]]]; [exact (I9 m q Im)|].
    exists t, k, p, (convert_masks x). rewrite (sl_put _ _ _ _ E), Nat.eqb_refl. repeat split; [exact Cv|].
    unfold num_ranges in Hn |- *. rewrite Rs. exact Hn.
Qed.

Lemma unview_good l1 v l2 s : inv s -> r_views s = l1 ++ v :: l2 -> inv (set_views s (l1 ++ l2)).
Proof.
  intros [I0 I1 I2 I3 I4 I5 I6 I7 I8 I9] E. unfold set_views. constructor; cbn; try assumption.
  intros j n H. apply I9. rewrite E. apply in_app_or in H as [H|H]; apply in_or_app; [left; exact H|right; right; exact H].
Qed.

Lemma step_good s o : inv s -> rstep flatten im may s o -> good o.
Proof.
  intros I H. destruct H.
  - eexists. split; [reflexivity|]. apply new_good. exact I.
  - eapply clone_good; eassumption.
  - eapply drop_good; eassumption.
  - eexists. split; [reflexivity|]. eapply move_good; eassumption.
  - eexists. split; [reflexivity|]. eapply call_good; eassumption.
  - eapply lock_good; eassumption.
  - apply lib_good; assumption.
  - eapply return_good; eassumption.
  - apply next_good; assumption.
  - apply range_good; assumption.
  - eexists. split; [reflexivity|]. eapply unview_good; eassumption.
Qed.
Lemma steps_good s o : inv s -> rsteps flatten im may s o -> good o.
Proof.
  intros I H. induction H as [s|s s1 o H1 H2 IH|s H1].
  - exists s. auto.
  - destruct (step_good _ _ I H1) as (s' & [= <-] & I'). apply IH. exact I'.
  - destruct (step_good _ _ I H1) as (s' & E & _). discriminate.
Qed.
Lemma reached_inv s : reached flatten im may w0 s -> inv s.
Proof. intros H. destruct (steps_good _ _ start_inv H) as (s' & [= <-] & I). exact I. Qed.

(* ---- the statements ---- *)
Lemma share_safe : ~ rsteps flatten im may (start w0) UB.
Proof. intros H. destruct (steps_good _ _ start_inv H) as (s & E & _). discriminate. Qed.

Lemma share_order s : reached flatten im may w0 s ->
  one_by_one flatten im (calls_of s) w0 = (answers_of s, r_world s) /\
  forall t, mine t (r_asked s) = my_calls t s ++ not_made (r_phase s t) /\
            my_answers t s = mine t (r_got s) ++ not_returned (r_phase s t).
Proof. intros H. apply reached_inv in H. split; [exact (i_seq s H)|exact (i_log s H)]. Qed.

Lemma has_lock_inside (s : rstate F W) t h : has_lock (r_phase s t) h <-> inside s t h.
Proof.
  unfold inside. destruct (r_phase s t) as [|j g c|j g c|j g k r]; cbn; split.
  - intros [].
  - intros (j & [(c & E)|(k & r & E)]); discriminate.
  - intros [].
  - intros (j' & [(c' & E)|(k & r & E)]); discriminate.
  - intros ->. exists j. left. eauto.
  - intros (j' & [(c' & E)|(k & r & E)]); congruence.
  - intros ->. exists j. right. eauto.
  - intros (j' & [(c' & E)|(k' & r' & E)]); congruence.
Qed.
Lemma in_call_where (s : rstate F W) t h : in_call s t h <-> exists j, where_ (r_phase s t) = Some (j, h).
Proof.
  unfold in_call, inside. destruct (r_phase s t) as [|j g c|j g c|j g k r]; cbn; split; intros H.
  - destruct H as [(j & [(c & E)|(k & r & E)])|(j & c & E)]; discriminate.
  - destruct H as (j & E). discriminate.
  - destruct H as [(j' & [(c' & E)|(k & r & E)])|(j' & c' & E)]; try discriminate. injection E as -> -> ->. eauto.
  - destruct H as (j' & [= -> ->]). right. eauto.
  - destruct H as [(j' & [(c' & E)|(k & r & E)])|(j' & c' & E)]; try discriminate. injection E as -> -> ->. eauto.
  - destruct H as (j' & [= -> ->]). left. exists j'. left. eauto.
  - destruct H as [(j' & [(c' & E)|(k' & r' & E)])|(j' & c' & E)]; try discriminate. injection E as -> -> -> ->. eauto.
  - destruct H as (j' & [= -> ->]). left. exists j'. right. eauto.
Qed.

Lemma share_handles s h o : reached flatten im may w0 s -> nth_error (r_objs s) h = Some o ->
  o_refs o = holders s h /\
  (o_alive o = true <-> exists j u, slot s j = Some (u, VHandle h)) /\
  (forall t, in_call s t h -> o_alive o = true) /\
  (forall t u, inside s t h -> inside s u h -> t = u).
Proof.
  intros H E. apply reached_inv in H. destruct (proj1 (i_obj s H) h o E) as (R & A).
  assert (Q : forall j u, slot s j = Some (u, VHandle h) -> o_alive o = true).
  { intros j u Ej. destruct (live_ok s h j u H Ej) as (o' & Eo & _ & _ & _ & Al). congruence. }
  split; [exact R|]. split; [|split].
  - split; [|intros (j & u & Ej); exact (Q j u Ej)].
    rewrite A. intros L. apply Nat.ltb_lt in L. rewrite R in L.
    destruct (filter (holds h) (r_slots s)) as [|v l] eqn:Ef; [cbn in L; lia|].
    assert (Iv : In v (v :: l)) by (left; reflexivity). rewrite <- Ef in Iv. apply filter_In in Iv as (Iv & Hv).
    destruct v as [(u, [h'|k q|k q x])|]; cbn in Hv; try discriminate. apply Nat.eqb_eq in Hv. subst h'.
    apply In_nth_error in Iv as (m & Em). exists m, u. unfold slot. rewrite Em. reflexivity.
  - intros t C. apply in_call_where in C as (j & Ej). destruct (proj1 (i_lock s H) _ _ _ Ej) as (u & Eu). exact (Q j u Eu).
  - intros t u It Iu. apply has_lock_inside, (proj2 (i_lock s H) h o E) in It. apply has_lock_inside, (proj2 (i_lock s H) h o E) in Iu. congruence.
Qed.

Lemma share_results s : reached flatten im may w0 s ->
  (forall k, exists q, taken s k = seq 0 q /\ forall rs, results_of s k rs -> q <= length rs) /\
  (forall j t k p x, slot s j = Some (t, VRes k p x) ->
     exists rs, results_of s k rs /\ nth_error rs p = Some (h_result x) /\ In p (taken s k)) /\
  (forall j1 t1 x1 j2 t2 x2 k p, slot s j1 = Some (t1, VRes k p x1) -> slot s j2 = Some (t2, VRes k p x2) -> j1 = j2).
Proof.
  intros H. apply reached_inv in H. destruct (i_res s H) as (A & B & C & D). split; [|split].
  - intros k. destruct (D k) as (q & Eq). exists q. split; [exact Eq|]. intros rs (t & c & Er).
    destruct q as [|q]; [lia|]. assert (Iq : In (k, q) (r_taken s)).
    { apply mine_in. rewrite Eq. apply in_seq. lia. }
    destruct (C k q Iq) as (rs' & (t' & c' & Er') & L). rewrite Er in Er'. injection Er' as _ _ Em.
    apply (f_equal (@length _)) in Em. rewrite !map_length in Em. lia.
  - intros j t k p x E. destruct (A _ _ _ _ _ E) as (rs & R1 & R2 & R3 & _). exists rs. repeat split; try assumption. apply mine_in. exact R3.
  - exact B.
Qed.

Lemma share_iterators s j t k src : reached flatten im may w0 s -> slot s j = Some (t, VIter k src) ->
  exists rs, results_of s k rs /\
    forall s1, do_next t j k src s = Ok s1 ->
      let q := length (taken s k) in
      match nth_error rs q with
      | Some x => exists m, slot s1 m = Some (t, VRes k q (handle_new x)) /\ taken s1 k = taken s k ++ [q] /\ slot s m = None
      | None => s1 = s
      end.
Proof.
  intros H E. apply reached_inv in H. pose proof E as E'. rewrite slot_sl in E. destruct (proj1 (i_iter s H) _ _ _ _ E) as (rs & q & R & Lq & -> & Tk).
  pose proof (res_small _ _ _ (i_fresh s H) R) as Fi. exists rs. split; [exact R|]. intros s1. unfold do_next. rewrite (rust_next_after rs q Fi).
  unfold taken. rewrite Tk, seq_length. cbv zeta. assert (Ei : N.to_nat (s_index (after rs q)) = q) by (cbn; lia). rewrite Ei.
  destruct (nth_error rs q) as [x|] eqn:Eq; intros [= <-].
  - exists (length (r_slots s)). split; [|split].
    + unfold slot, log_taken, new_slot, set_slot. cbn [r_slots]. rewrite nth_snoc, put_length, Nat.eqb_refl. reflexivity.
    + cbn [r_taken log_taken new_slot set_slot]. rewrite mine_snoc, Nat.eqb_refl, Tk. reflexivity.
    + unfold slot. rewrite (proj2 (nth_error_None _ _)) by lia. reflexivity.
  - apply nth_error_None in Eq. rewrite (after_end rs q Eq). apply sl_nth in E.
    destruct s as [a b c d e f g h i']. cbn [r_slots set_slot r_world r_objs r_phase r_views r_hist r_asked r_got r_taken] in *.
    unfold set_slot. cbn. f_equal. clear -E. revert j E. induction c as [|v l IH]; intros [|j] E; cbn in *; try discriminate.
    + injection E as ->. reflexivity.
    + f_equal. apply IH. exact E.
Qed.

Lemma share_views s j n : reached flatten im may w0 s -> In (j, n) (r_views s) ->
  exists t k p x rs r, slot s j = Some (t, VRes k p x) /\ results_of s k rs /\ nth_error rs p = Some r /\
    (n < lenN (fst r))%N /\ read_view s (j, n) = Ok (nth_range r n).
Proof.
  intros H I. apply reached_inv in H. destruct (i_view s H j n I) as (t & k & p & x & Ex & C & Hn).
  destruct (proj1 (i_res s H) _ _ _ _ _ Ex) as (rs & R & Er & _ & CO). exists t, k, p, x, rs, (h_result x).
  split; [exact Ex|]. split; [exact R|]. split; [exact Er|]. split; [exact Hn|].
  unfold read_view. rewrite slot_sl. cbn [fst snd]. rewrite Ex. unfold nth_range. apply f_equal.
  unfold cache_ok in CO. rewrite C in CO. rewrite CO. unfold values_at.
  assert (Q : forall A (l : list (list A)) m, or_empty (nth_error l m) = nth m l []).
  { intros A l. induction l as [|y l IH]; intros [|m]; cbn; try reflexivity. apply IH. }
  rewrite !Q. reflexivity.
Qed.

(* ---- a call can always be finished ---- *)
Lemma finish_called t j h k r s : inv s -> r_phase s t = Called j h k r ->
  exists s1, do_return t h k r s = Ok s1 /\ inv s1 /\ r_phase s1 t = Idle /\ forall u, u <> t -> r_phase s1 u = r_phase s u.
Proof.
  intros I Ep. destruct (return_good t j h k r s I Ep) as (s1 & E & I1). exists s1. split; [exact E|]. split; [exact I1|].
  destruct (locking_live s t j h I) as (o & Eo & L & Al); [rewrite Ep; reflexivity|].
  unfold do_return in E. rewrite L in E. cbn [obind] in E.
  assert (P : r_phase s1 = fun u => if u =? t then Idle else r_phase s u) by (destruct r as [[src| |]| |]; injection E as <-; reflexivity).
  rewrite P. rewrite Nat.eqb_refl. split; [reflexivity|]. intros u N. destruct (Nat.eqb_spec u t); [contradiction|reflexivity].
Qed.
Lemma finish_locked t j h c s : inv s -> r_phase s t = Locked j h c ->
  exists s1 k r, do_call flatten im t j h c s = Ok s1 /\ inv s1 /\ r_phase s1 t = Called j h k r /\ forall u, u <> t -> r_phase s1 u = r_phase s u.
Proof.
  intros I Ep. destruct (lib_good t j h c s I Ep) as (s1 & E & I1).
  destruct (locking_live s t j h I) as (o & Eo & L & Al); [rewrite Ep; reflexivity|].
  pose proof E as E'. unfold do_call in E. rewrite L in E. cbn [obind] in E. destruct (o_owner o) as [u|]; [|discriminate]. destruct (u =? t); [|discriminate].
  destruct (rust_call flatten im c (r_world s)) as (r, w1).
  assert (P : r_phase s1 = fun u => if u =? t then Called j h (length (r_hist s)) r else r_phase s u) by (destruct r; [injection E as <-; reflexivity..|discriminate]).
  exists s1, (length (r_hist s)), r. split; [exact E'|]. split; [exact I1|]. rewrite P, Nat.eqb_refl. split; [reflexivity|].
  intros v N. destruct (Nat.eqb_spec v t); [contradiction|reflexivity].
Qed.
Lemma finish_inside t h s : inv s -> has_lock (r_phase s t) h ->
  exists n s1, n <= 2 /\ (forall m s2, call_steps flatten im m s1 s2 -> call_steps flatten im (n + m) s s2) /\ inv s1 /\ r_phase s1 t = Idle /\
    forall u, u <> t -> r_phase s1 u = r_phase s u.
Proof.
  intros I H. destruct (r_phase s t) as [|j g c|j g c|j g k r] eqn:Ep; cbn in H; try contradiction; subst g.
  - destruct (finish_locked t j h c s I Ep) as (s1 & k & r & E1 & I1 & P1 & U1).
    destruct (finish_called t j h k r s1 I1 P1) as (s2 & E2 & I2 & P2 & U2).
    exists 2, s2. split; [lia|]. split; [|split; [exact I2|split; [exact P2|]]].
    + intros m s3 C. cbn [Nat.add]. eapply CS_lib; [exact Ep|exact E1|]. eapply CS_return; [exact P1|exact E2|exact C].
    + intros u N. rewrite (U2 u N). apply U1. exact N.
  - destruct (finish_called t j h k r s I Ep) as (s1 & E1 & I1 & P1 & U1).
    exists 1, s1. split; [lia|]. split; [|split; [exact I1|split; [exact P1|exact U1]]].
    intros m s3 C. cbn [Nat.add]. eapply CS_return; [exact Ep|exact E1|exact C].
Qed.
Lemma finish_free t j h c s : inv s -> r_phase s t = Locking j h c -> (forall u, ~ has_lock (r_phase s u) h) ->
  exists s1, do_lock t j h c s = Some (Ok s1) /\ inv s1 /\ r_phase s1 t = Locked j h c.
Proof.
  intros I Ep N. destruct (locking_live s t j h I) as (o & Eo & L & Al); [rewrite Ep; reflexivity|].
  assert (Ow : o_owner o = None).
  { destruct (o_owner o) as [u|] eqn:Ou; [|reflexivity]. exfalso. apply (N u). apply (proj2 (i_lock s I) h o Eo u). exact Ou. }
  assert (E : do_lock t j h c s = Some (Ok (set_phase (set_obj s h (mk_shared (o_refs o) (Some t) (o_alive o))) t (Locked j h c)))).
  { unfold do_lock. rewrite L, Ow. reflexivity. }
  eexists. split; [exact E|]. destruct (lock_good t j h c s _ I Ep E) as (s1 & [= <-] & I1). split; [exact I1|].
  cbn. rewrite Nat.eqb_refl. reflexivity.
Qed.

Lemma share_progress s t h : reached flatten im may w0 s -> in_call s t h ->
  exists n s2, n <= 5 /\ call_steps flatten im n s s2 /\ r_phase s2 t = Idle.
Proof.
  intros H C. apply reached_inv in H.
  assert (Own : forall s, inv s -> has_lock (r_phase s t) h -> exists n s2, n <= 2 /\ call_steps flatten im n s s2 /\ r_phase s2 t = Idle).
  { intros s0 I0 L. destruct (finish_inside t h s0 I0 L) as (n & s1 & Ln & K & _ & P & _). exists n, s1. split; [exact Ln|]. split; [|exact P].
    specialize (K 0 s1 (CS_end _ _ s1)). rewrite Nat.add_0_r in K. exact K. }
  assert (Free : forall s j c, inv s -> r_phase s t = Locking j h c -> (forall u, ~ has_lock (r_phase s u) h) ->
    exists n s2, n <= 3 /\ call_steps flatten im n s s2 /\ r_phase s2 t = Idle).
  { intros s0 j c I0 Ep N. destruct (finish_free t j h c s0 I0 Ep N) as (s1 & E1 & I1 & P1).
    destruct (Own s1 I1) as (n & s2 & Ln & K & P2); [rewrite P1; reflexivity|]. exists (S n), s2. split; [lia|]. split; [|exact P2].
    eapply CS_lock; eassumption. }
  apply in_call_where in C as (j & Ew). destruct (r_phase s t) as [|j' g c|j' g c|j' g k r] eqn:Ep; cbn in Ew; try discriminate; injection Ew as -> ->.
  - destruct (locking_live s t j h H) as (o & Eo & L & Al); [rewrite Ep; reflexivity|].
    destruct (o_owner o) as [u|] eqn:Ou.
    + pose proof (proj1 (proj2 (i_lock s H) h o Eo u) Ou) as Lu.
      destruct (finish_inside u h s H Lu) as (n & s1 & Ln & K & I1 & P & U).
      assert (Nt : t <> u) by (intros <-; rewrite Ep in Lu; exact Lu).
      destruct (Free s1 j c I1) as (m & s2 & Lm & Km & P2).
      * rewrite (U t Nt). exact Ep.
      * intros v Lv. destruct (Nat.eq_dec v u) as [->|Nv]; [rewrite P in Lv; exact Lv|]. rewrite (U v Nv) in Lv.
        pose proof (proj2 (proj2 (i_lock s H) h o Eo v) Lv). congruence.
      * exists (n + m), s2. split; [lia|]. split; [apply K; exact Km|exact P2].
    + destruct (Free s j c H Ep) as (n & s2 & Ln & K & P2); [|exists n, s2; split; [lia|auto]].
      intros v Lv. pose proof (proj2 (proj2 (i_lock s H) h o Eo v) Lv). congruence.
  - destruct (Own s H) as (n & s2 & Ln & K & P2); [rewrite Ep; reflexivity|]. exists n, s2. split; [lia|auto].
  - destruct (Own s H) as (n & s2 & Ln & K & P2); [rewrite Ep; reflexivity|]. exists n, s2. split; [lia|auto].
Qed.
(* between calls no thread has a lock *)
Lemma share_released s h o : reached flatten im may w0 s -> nth_error (r_objs s) h = Some o -> (forall t, ~ in_call s t h) -> o_owner o = None.
Proof.
  intros H E N. apply reached_inv in H. destruct (o_owner o) as [u|] eqn:Ou; [|reflexivity].
  exfalso. apply (N u). left. apply has_lock_inside. apply (proj2 (i_lock s H) h o E u). exact Ou.
Qed.
End Share.

(* ---- an example ---- *)
Lemma go {F W} flatten (im : impl F W) may s o s1 r : rstep flatten im may s o -> o = Ok s1 -> rsteps flatten im may s1 r -> rsteps flatten im may s r.
Proof. intros H ->. apply R_step. exact H. Qed.
Ltac by_nobody := split; [reflexivity|]; intros [|[|[|u]]]; cbn; first [lia|intros []].
Lemma share_example : exists s, reached (fun x => [x]) counting made_calls 0 s /\
  r_objs s = [mk_shared 0 None false] /\ r_slots s = shared_slots /\
  mine 0 (r_got s) = [Ok (AIter (source_new [Some ([[1; 7]], [[3%N]])]))] /\
  mine 1 (r_got s) = [Ok (AIter (source_new [Some ([[2; 7]], [[3%N]])])); Throw EUser] /\
  r_views s = [(4, 0%N)] /\ read_view s (4, 0%N) = Ok (mk_view [1; 7] [3%N]).
Proof.
  eexists. split.
  - unfold reached.
    eapply go; [apply (S_new _ _ _ 0)|reflexivity|].
    eapply go; [eapply (S_clone _ _ _ 1 0 0 0); reflexivity|cbv; reflexivity|].
    eapply go; [eapply (S_call _ _ _ 0 0 0 0 (ask_one 1)); [reflexivity..|cbv; tauto]|reflexivity|].
    eapply go; [eapply (S_call _ _ _ 1 1 1 0 (ask_one 2)); [reflexivity..|cbv; tauto]|reflexivity|].
    eapply go; [eapply (S_lock _ _ _ 0); [reflexivity|cbv; reflexivity]|reflexivity|].
    eapply go; [eapply (S_lib _ _ _ 0); reflexivity|cbv; reflexivity|].
    eapply go; [eapply (S_return _ _ _ 0); reflexivity|cbv; reflexivity|].
    eapply go; [eapply (S_drop _ _ _ 0 0); [reflexivity|by_nobody]|cbv; reflexivity|].
    eapply go; [eapply (S_lock _ _ _ 1); [reflexivity|cbv; reflexivity]|reflexivity|].
    eapply go; [eapply (S_lib _ _ _ 1); reflexivity|cbv; reflexivity|].
    eapply go; [eapply (S_return _ _ _ 1); reflexivity|cbv; reflexivity|].
    eapply go; [eapply (S_call _ _ _ 1 1 1 0 (RExtract [])); [reflexivity..|cbv; tauto]|reflexivity|].
    eapply go; [eapply (S_lock _ _ _ 1); [reflexivity|cbv; reflexivity]|reflexivity|].
    eapply go; [eapply (S_lib _ _ _ 1); reflexivity|cbv; reflexivity|].
    eapply go; [eapply (S_return _ _ _ 1); reflexivity|cbv; reflexivity|].
    eapply go; [eapply (S_drop _ _ _ 1 1); [reflexivity|by_nobody]|cbv; reflexivity|].
    eapply go; [eapply (S_next _ _ _ 0 2); reflexivity|cbv; reflexivity|].
    eapply go; [eapply (S_range _ _ _ 0 4 0 0 _ 0%N); reflexivity|cbv; reflexivity|].
    eapply go; [eapply (S_move _ _ _ 0 5 2); [reflexivity|by_nobody]|cbv; reflexivity|].
    apply R_end.
  - repeat split.
Qed.
Lemma share_example_calls : defined_calls (fun x => [x]) counting made_calls 0 /\ in_memory (fun x => [x]) counting made_calls 0.
Proof.
  assert (A : forall calls w a, Forall made_calls calls -> In a (fst (one_by_one (fun x => [x]) counting calls w)) ->
    a = Throw EUser \/ exists r, a = Ok (AIter (source_new [Some r]))).
  { induction calls as [|c l IH]; intros w a H; [intros []|]. inversion H as [|? ? Hc Hl]; subst. cbn [one_by_one].
    destruct (rust_call (fun x => [x]) counting c w) as (b, w1) eqn:E. specialize (IH w1 a Hl).
    destruct (one_by_one (fun x => [x]) counting l w1) as (l', w2). cbn [fst] in IH |- *. intros [<-|Ia]; [|exact (IH Ia)].
    destruct Hc as [<-|[<-|[<-|[]]]]; cbn in E; injection E as <- _; eauto. }
  split.
  - intros calls H Iu. destruct (A calls 0 UB H Iu) as [E|(r & E)]; discriminate.
  - intros calls rs H Iu. destruct (A calls 0 _ H Iu) as [E|(r & E)]; [discriminate|]. injection E as E.
    apply (f_equal (@length _)) in E. rewrite map_length in E. cbn in E. unfold lenN. rewrite E. reflexivity.
Qed.
