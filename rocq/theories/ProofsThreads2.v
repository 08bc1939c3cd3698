From Coq Require Import Sorted.
From Verif Require Import Base BaseLemmas ModelInfo ModelStream ModelIndex SpecIndex ProofsIndex ModelLRU ModelCache SpecCache
  ProofsCache ModelThreads SpecThreads ProofsThreads.

Local Open Scope nat_scope.

Section Threads.
Context {F : Type}.
Notation stream := (list (tok F)).
Notation records := (list (Z * info F)).
Notation thread := (@thread F).
Notation shared := (@shared F).
Variable uniq : nat -> string -> string.
Variable data : string -> Z -> outcome (info F).
Variable data_offsets : string -> outcome (list Z).
Variable g : config.
Notation cfp := (cache_file_path g).

Lemma run_app a b (s : @pool F) : run uniq data data_offsets g (a ++ b) s =
  match run uniq data data_offsets g a s with Some s => run uniq data data_offsets g b s | None => None end.
Proof.
  revert s. induction a as [|[k x] a IH]; intros s; cbn [run app]; auto.
  destruct (step_pool uniq data data_offsets g k x s); auto.
Qed.

(* ---- the files are lost once and for all ---- *)
Lemma open_lost s x : h_lost s = true -> h_lost (fst (@open_new F s x)) = true.
Proof. unfold open_new. destruct (h_names s x); auto. Qed.

Lemma write_lost s ops i : h_lost (fst (@write_step F s ops i)) = h_lost s.
Proof. destruct ops as [|[x|x [|k r]|x y] ops]; reflexivity. Qed.

Lemma step_lost half torn s t s' t' : step_thread uniq data data_offsets g half torn s t = Some (s', t') ->
  h_lost s = true -> h_lost s' = true.
Proof.
  intros H L. unfold step_thread in H. destruct (t_todo t) as [|q rq]; [discriminate|].
  destruct (t_work t) as [|p w|p w|p w i acc|p w c|p offs vec|ops i n|a rest|a ops rest|a ops i rest].
  - unfold start in H. destruct q as [p offs|p o i|a|p offs|p m|].
    + destruct (get_cached _ _ _ _) as [[res l]|e|]; injection H as <- _; auto.
    + destruct (p_lock _); [discriminate|]. injection H as <- _; auto.
    + destruct (p_lock _); [discriminate|]. injection H as <- _; auto.
    + injection H as <- _; auto.
    + injection H as <- _; auto.
    + injection H as <- _; auto.
  - destruct (h_names s _); injection H as <- _; auto.
  - destruct (h_names s _); injection H as <- _; auto.
  - destruct (nth_error _ _); injection H as <- _; auto.
  - assert (X : match scan_ops uniq data data_offsets g (h_next s) c p w with
      | Ok (OpTrunc tmp :: ops, n) => let (s, i) := open_new s tmp in Some (s, go t (WWrite ops i n))
      | Ok (_, n) => Some (s, finish t (Ok (ACount n)))
      | Throw e => Some (s, finish t (Throw e))
      | UB => Some (s, finish t UB)
      end = Some (s', t') -> h_lost s' = true).
    { clear H. intros H. destruct (scan_ops _ _ _ _ _ _ _ _) as [[[|[x|x y|x y] ops] n]|e|]; try (injection H as <- _; auto; fail).
      pose proof (open_lost s x L) as O. destruct (open_new s x). injection H as <- _. exact O. }
    destruct w; auto. destruct (get_vec _ _ _ _ _ _); injection H as <- _; auto.
  - destruct (put_cache _ _ _); injection H as <- _; auto.
  - destruct ops as [|o ops]; [injection H as <- _; auto|].
    pose proof (write_lost s (o :: ops) i) as O. destruct (write_step s (o :: ops) i). injection H as <- _. cbn [fst] in O. congruence.
  - destruct rest as [|[x ix] rest]; [injection H as <- _; auto|].
    destruct (x_flush _ _ _ _) as [[|[y|y z|y z] ops]|e|]; try (injection H as <- _; auto; fail).
    destruct a; [injection H as <- _; auto|].
    pose proof (open_lost s y L) as O. destruct (open_new s y). injection H as <- _. exact O.
  - destruct ops as [|[y|y z|y z] ops]; try (injection H as <- _; auto; fail).
    + pose proof (open_lost s y L) as O. destruct (open_new s y). injection H as <- _. exact O.
    + unfold open_append in H. pose proof (open_lost s y L) as O. destruct (h_names s y); [injection H as <- _; auto|].
      destruct (open_new s y). injection H as <- _. exact O.
  - destruct ops as [|o ops]; [injection H as <- _; auto|].
    pose proof (write_lost s (o :: ops) i) as O. destruct (write_step s (o :: ops) i). injection H as <- _. cbn [fst] in O. congruence.
Qed.

Lemma run_lost sched : forall s s', run uniq data data_offsets g sched s = Some s' -> h_lost (fst s) = true -> h_lost (fst s') = true.
Proof.
  induction sched as [|[k b] sched IH]; intros s s'; cbn [run]; [intros [= <-]; auto|].
  unfold step_pool. destruct (nth_error (snd s) k); [|discriminate].
  destruct (step_thread _ _ _ _ _ _ _ _) as [[h t']|] eqn:E; [|discriminate].
  intros H L. apply (IH _ _ H). cbn [fst]. eapply step_lost; eauto.
Qed.

(* ---- all executions ---- *)
Hypothesis data_safe : forall p o, data p o <> UB.
Hypothesis offsets_safe : forall p, data_offsets p <> UB.
Variable P : string -> Prop.
Hypothesis apart : names_apart g P.
Variable writer : string -> nat.
Variable d : @disk F.
Hypothesis unique : unique_names uniq g P d.
Hypothesis disk_true : true_disk data g P d.
Variable cap : nat.
Hypothesis cap_pos : 1 <= cap.
Variable ps : list (nat * list (@call F)).
Hypothesis sound : sound_programs data P writer ps.

Definition own0 (i : inode) (p : string) : Prop := P p /\ i = Old (cfp p) /\ d (cfp p) <> None.
Definition pub0 (i : inode) : Prop := exists q, i = Old q.

Lemma inv_start nf ns : (nf = true -> no_call is_flush ps) -> (ns = true -> no_call is_scan ps) ->
  Inv uniq data g P writer nf ns own0 pub0 (fst (start_pool d cap ps)) (snd (start_pool d cap ps)).
Proof.
  intros Hnf Hns. cbn [start_pool fst snd].
  assert (Idle : forall t, In t (map (fun l => mk_thread (fst l) WIdle (snd l) []) ps) -> t_work t = @WIdle F).
  { intros t Ht. apply in_map_iff in Ht as (l & <- & _). reflexivity. }
  assert (Nc : forall t, In t (map (fun l => mk_thread (fst l) WIdle (snd l) []) ps) -> @cur F t = None /\ flushing t = false).
  { intros t Ht. unfold cur, flushing. rewrite (Idle t Ht). auto. }
  constructor; cbn [h_names h_data h_next h_proc].
  - intros p i Pp. destruct (d (cfp p)) eqn:E; [|discriminate]. intros [= <-]. split; [|now exists (cfp p)].
    split; auto. split; auto. congruence.
  - intros i p (_ & -> & _). exact I.
  - intros i p q (Pp & -> & _) (Pq & [= E] & _). now apply (apart p q).
  - intros i [q ->]. exact I.
  - intros i p Pp (_ & -> & N) _. destruct (disk_true p Pp) as (l & C & T). exists l. split; auto.
    apply complete_iff in C as [C|[C _]]; [|congruence]. now rewrite C.
  - intros j k t u i Ht _ C. apply nth_error_In in Ht. destruct (Nc t Ht). congruence.
  - intros j k t u Ht _ C. apply nth_error_In in Ht. destruct (Nc t Ht). congruence.
  - intros t Ht C. destruct (Nc t Ht). congruence.
  - discriminate.
  - intros k. split; cbn [p_lru lru_new l_capacity]; auto. split; [intros k0 w; discriminate|constructor].
  - intros m q Pq _. destruct unique as (_ & _ & U). now rewrite U.
  - intros t Ht. pose proof (Idle t Ht) as Iw. apply in_map_iff in Ht as (l & <- & Hl). split; [|split]; cbn [t_proc t_todo t_log t_work work_ok]; auto.
    unfold sound_programs in sound. rewrite Forall_forall in sound. specialize (sound l Hl). rewrite Forall_forall in sound |- *.
    intros q Hq. split; auto. unfold no_call in Hnf, Hns. split; intros E.
    + specialize (Hnf E). rewrite Forall_forall in Hnf. specialize (Hnf l Hl). rewrite Forall_forall in Hnf. auto.
    + specialize (Hns E). rewrite Forall_forall in Hns. specialize (Hns l Hl). rewrite Forall_forall in Hns. auto.
Qed.

Lemma inv_run nf ns sched : forall own pub s s', Inv uniq data g P writer nf ns own pub (fst s) (snd s) ->
  run uniq data data_offsets g sched s = Some s' -> h_lost (fst s') = false \/ ns = true \/ nf = true ->
  exists own' pub', Inv uniq data g P writer nf ns own' pub' (fst s') (snd s') /\ h_lost (fst s') = h_lost (fst s).
Proof.
  induction sched as [|[k b] sched IH]; intros own pub s s' I; cbn [run].
  - intros [= <-] _. exists own, pub. auto.
  - destruct (step_pool uniq data data_offsets g k b s) as [s1|] eqn:E; [|discriminate]. intros H M.
    pose proof E as E0. unfold step_pool in E. destruct (nth_error (snd s) k) as [t|] eqn:Ek; [|discriminate].
    destruct (step_thread _ _ _ _ _ _ _ _) as [[h t']|] eqn:Es; [|discriminate]. injection E as <-.
    assert (M1 : may nf ns h).
    { destruct M as [M|M]; [left|right; exact M]. destruct (h_lost h) eqn:El; auto.
      pose proof (run_lost _ _ _ H El). congruence. }
    destruct unique as (U1 & U2 & _).
    destruct (step_inv uniq data data_offsets g data_safe offsets_safe P apart U1 U2 writer nf ns own pub (fst s) (snd s) k t b h t' I Ek Es M1)
      as (own1 & pub1 & I1 & L1).
    destruct (IH own1 pub1 (h, set_nth k t' (snd s)) s' I1 H M) as (own2 & pub2 & I2 & L2). exists own2, pub2. split; auto. cbn [fst] in L2. congruence.
Qed.

Lemma threads_lookup s t : reached uniq data data_offsets g d cap ps s -> h_lost (fst s) = false -> In t (snd s) ->
  Forall (lookup_right data g) (t_log t).
Proof.
  intros [sched R] L Ht.
  destruct (inv_run false false sched _ _ _ _ (inv_start false false ltac:(discriminate) ltac:(discriminate)) R (or_introl L)) as (own & pub & I & _).
  destruct (I_threads _ _ _ _ _ _ _ _ _ _ _ I t Ht) as (_ & T & _). eapply Forall_impl; [|exact T]. intros e He. apply He.
Qed.

Lemma threads_no_scan s : no_call is_scan ps -> reached uniq data data_offsets g d cap ps s -> h_lost (fst s) = false.
Proof.
  intros N [sched R].
  destruct (inv_run false true sched _ _ _ _ (inv_start false true ltac:(discriminate) (fun _ => N)) R (or_intror (or_introl eq_refl))) as (own & pub & _ & L).
  exact L.
Qed.

Lemma threads_no_flush s t : no_call is_flush ps -> reached uniq data data_offsets g d cap ps s -> 
  h_lost (fst s) = false /\ (In t (snd s) -> Forall (good_answer data g) (t_log t)).
Proof.
  intros N [sched R].
  destruct (inv_run true false sched _ _ _ _ (inv_start true false (fun _ => N) ltac:(discriminate)) R (or_intror (or_intror eq_refl))) as (own & pub & I & L).
  split; [exact L|]. intros Ht.
  destruct (I_threads _ _ _ _ _ _ _ _ _ _ _ I t Ht) as (_ & T & _). eapply Forall_impl; [|exact T]. intros e He. now apply He.
Qed.
End Threads.

(* ---- some thread can always step ---- *)
Section Progress.
Context {F : Type}.
Notation thread := (@thread F).
Notation shared := (@shared F).
Variable uniq : nat -> string -> string.
Variable data : string -> Z -> outcome (info F).
Variable data_offsets : string -> outcome (list Z).
Variable g : config.

Record LInv (s : shared) (ts : list thread) : Prop := {
  L_held : forall k, p_lock (h_proc s k) = true -> exists t, In t ts /\ t_proc t = k /\ flushing t = true;
  L_lock : forall t, In t ts -> flushing t = true -> p_lock (h_proc s (t_proc t)) = true;
  L_one : forall i j t u, nth_error ts i = Some t -> nth_error ts j = Some u -> flushing t = true -> flushing u = true ->
    t_proc t = t_proc u -> i = j;
  L_idle : forall t, In t ts -> t_todo t = [] -> t_work t = WIdle
}.

Lemma set_lock_proc s k b j : p_lock (h_proc (@set_lock F s k b) j) = if Nat.eqb j k then b else p_lock (h_proc s j).
Proof. unfold set_lock, set_proc. cbn [h_proc]. now destruct (Nat.eqb j k). Qed.

Lemma set_lru_lock s k l j : p_lock (h_proc (@set_lru F s k l) j) = p_lock (h_proc s j).
Proof. unfold set_lru, set_proc. cbn [h_proc]. destruct (Nat.eqb j k) eqn:E; auto. apply Nat.eqb_eq in E. now subst. Qed.

Lemma set_staged_lock s k l j : p_lock (h_proc (@set_staged F s k l) j) = p_lock (h_proc s j).
Proof. unfold set_staged, set_proc. cbn [h_proc]. destruct (Nat.eqb j k) eqn:E; auto. apply Nat.eqb_eq in E. now subst. Qed.

Lemma open_new_lock s x j : h_proc (fst (@open_new F s x)) j = h_proc s j.
Proof. unfold open_new. now destruct (h_names s x). Qed.

Lemma open_append_lock s x j : h_proc (fst (@open_append F s x)) j = h_proc s j.
Proof. unfold open_append. destruct (h_names s x); auto. apply open_new_lock. Qed.

Lemma write_lock s ops i j : h_proc (fst (@write_step F s ops i)) j = h_proc s j.
Proof. destruct ops as [|[x|x [|k r]|x y] ops]; reflexivity. Qed.

(* what one step does to the lock *)
Definition locks (s : shared) (t : thread) (s' : shared) (t' : thread) : Prop :=
  t_proc t' = t_proc t /\
  (forall k, k <> t_proc t -> p_lock (h_proc s' k) = p_lock (h_proc s k)) /\
  (t_todo t' = [] -> t_work t' = WIdle) /\
  (flushing t = false -> flushing t' = true -> p_lock (h_proc s (t_proc t)) = false) /\
  p_lock (h_proc s' (t_proc t)) =
    if flushing t then (if flushing t' then p_lock (h_proc s (t_proc t)) else false)
    else (if flushing t' then true else p_lock (h_proc s (t_proc t))).

Lemma locks_same s t s' t' : (forall k, p_lock (h_proc s' k) = p_lock (h_proc s k)) -> t_proc t' = t_proc t ->
  (t_todo t' = [] -> t_work t' = WIdle) -> flushing t' = flushing t -> locks s t s' t'.
Proof.
  intros H1 H2 H3 H4. unfold locks. rewrite H4. repeat split; auto; [congruence|]. rewrite H1. now destruct (flushing t).
Qed.

Lemma finish_work t a : (exists q r, t_todo t = q :: r) -> t_proc (@finish F t a) = t_proc t /\ t_work (finish t a) = WIdle /\ flushing (finish t a) = false.
Proof. intros (q & r & E). unfold finish, flushing. rewrite E. auto. Qed.

Lemma step_locks half torn s t s' t' : step_thread uniq data data_offsets g half torn s t = Some (s', t') -> locks s t s' t'.
Proof.
  intros H. unfold step_thread in H. destruct (t_todo t) as [|q rq] eqn:Et; [discriminate|].
  assert (Fin : forall a, t_proc (finish t a) = t_proc t /\ t_work (finish t a) = WIdle /\ flushing (finish t a) = false).
  { intros a. apply finish_work. eauto. }
  assert (SameF : forall s1 a, flushing t = false -> (forall k, p_lock (h_proc s1 k) = p_lock (h_proc s k)) -> locks s t s1 (finish t a)).
  { intros s1 a Hf Hl. destruct (Fin a) as (F1 & F2 & F3). apply locks_same; auto. congruence. }
  assert (SameG : forall s1 w, flushing t = false -> flushing (go t w) = false -> (forall k, p_lock (h_proc s1 k) = p_lock (h_proc s k)) -> locks s t s1 (go t w)).
  { intros s1 w Hf Hw Hl. apply locks_same; auto; [cbn [go t_todo]; congruence|congruence]. }
  assert (FlushG : forall s1 w, flushing t = true -> flushing (go t w) = true -> (forall k, p_lock (h_proc s1 k) = p_lock (h_proc s k)) -> locks s t s1 (go t w)).
  { intros s1 w Hf Hw Hl. apply locks_same; auto; [cbn [go t_todo]; congruence|congruence]. }
  assert (FlushF : forall s1 a, flushing t = true -> (forall k, p_lock (h_proc s1 k) = p_lock (h_proc s k)) -> locks s t (set_lock s1 (t_proc t) false) (finish t a)).
  { intros s1 a Hf Hl. destruct (Fin a) as (F1 & F2 & F3). unfold locks. rewrite F3, Hf. repeat split; auto.
    - intros k Nk. rewrite set_lock_proc. apply Nat.eqb_neq in Nk. now rewrite Nk.
    - discriminate.
    - rewrite set_lock_proc. now rewrite Nat.eqb_refl. }
  destruct (t_work t) as [|p w|p w|p w i acc|p w c|p offs vec|ops i n|a rest|a ops rest|a ops i rest] eqn:Ew.
  - assert (Hf : flushing t = false) by (unfold flushing; now rewrite Ew).
    unfold start in H. destruct q as [p offs|p o i|a|p offs|p m|].
    + destruct (get_cached _ _ _ _) as [[res l]|e|]; injection H as <- <-; auto.
      apply SameG; auto; [destruct (lenN res =? lenN offs)%N; reflexivity|]. intros k. apply set_lru_lock.
    + destruct (p_lock _); [discriminate|]. injection H as <- <-; auto. apply SameF; auto. intros k. apply set_staged_lock.
    + destruct (p_lock _) eqn:El; [discriminate|]. injection H as <- <-. unfold locks. rewrite Hf. cbn [go t_proc t_todo flushing t_work]. repeat split.
      * intros k Nk. rewrite set_lock_proc. apply Nat.eqb_neq in Nk. now rewrite Nk.
      * congruence.
      * auto.
      * rewrite set_lock_proc. now rewrite Nat.eqb_refl.
    + injection H as <- <-; auto.
    + injection H as <- <-; auto.
    + injection H as <- <-. apply SameF; auto. intros k. apply set_lru_lock.
  - assert (Hf : flushing t = false) by (unfold flushing; now rewrite Ew).
    destruct (h_names s _); injection H as <- <-; auto.
  - assert (Hf : flushing t = false) by (unfold flushing; now rewrite Ew).
    destruct (h_names s _); injection H as <- <-; auto.
  - assert (Hf : flushing t = false) by (unfold flushing; now rewrite Ew).
    destruct (nth_error _ _); injection H as <- <-; auto.
  - assert (Hf : flushing t = false) by (unfold flushing; now rewrite Ew).
    assert (X : match scan_ops uniq data data_offsets g (h_next s) c p w with
      | Ok (OpTrunc tmp :: ops, n) => let (s, i) := open_new s tmp in Some (s, go t (WWrite ops i n))
      | Ok (_, n) => Some (s, finish t (Ok (ACount n)))
      | Throw e => Some (s, finish t (Throw e))
      | UB => Some (s, finish t UB)
      end = Some (s', t') -> locks s t s' t').
    { clear H. intros H. destruct (scan_ops _ _ _ _ _ _ _ _) as [[[|[x|x y|x y] ops] n]|e|]; try (injection H as <- <-; auto; fail).
      pose proof (open_new_lock s x) as O. destruct (open_new s x). injection H as <- <-. apply SameG; auto. intros k. now rewrite <- O. }
    destruct w; auto. destruct (get_vec _ _ _ _ _ _); injection H as <- <-; auto.
  - assert (Hf : flushing t = false) by (unfold flushing; now rewrite Ew).
    destruct (put_cache _ _ _); injection H as <- <-; auto. apply SameF; auto. intros k. apply set_lru_lock.
  - assert (Hf : flushing t = false) by (unfold flushing; now rewrite Ew).
    destruct ops as [|o ops]; [injection H as <- <-; auto|].
    pose proof (write_lock s (o :: ops) i) as O. destruct (write_step s (o :: ops) i). injection H as <- <-. cbn [fst] in O.
    apply SameG; auto. intros k. now rewrite O.
  - assert (Hf : flushing t = true) by (unfold flushing; now rewrite Ew).
    destruct rest as [|[x ix] rest].
    { injection H as <- <-. apply FlushF; auto. intros k. apply set_staged_lock. }
    destruct (x_flush _ _ _ _) as [[|[y|y z|y z] ops]|e|]; try (injection H as <- <-; auto; fail).
    destruct a; [injection H as <- <-; auto|].
    pose proof (open_new_lock s y) as O. destruct (open_new s y). injection H as <- <-. apply FlushG; auto. intros k. now rewrite <- O.
  - assert (Hf : flushing t = true) by (unfold flushing; now rewrite Ew).
    destruct ops as [|[y|y z|y z] ops]; try (injection H as <- <-; auto; fail).
    + pose proof (open_new_lock s y) as O. destruct (open_new s y). injection H as <- <-. apply FlushG; auto. intros k. now rewrite <- O.
    + pose proof (open_append_lock s y) as O. destruct (open_append s y). injection H as <- <-. apply FlushG; auto. intros k. now rewrite <- O.
  - assert (Hf : flushing t = true) by (unfold flushing; now rewrite Ew).
    destruct ops as [|o ops]; [injection H as <- <-; auto|].
    pose proof (write_lock s (o :: ops) i) as O. destruct (write_step s (o :: ops) i). injection H as <- <-. cbn [fst] in O.
    apply FlushG; auto. intros k. now rewrite O.
Qed.

Lemma nth_set_same {A} n (a : A) l : n < length l -> nth_error (set_nth n a l) n = Some a.
Proof. revert n. induction l as [|x l IH]; intros n H; cbn in *; [lia|]. destruct n; auto. apply IH. lia. Qed.

Lemma nth_set_other {A} n m (a : A) l : n <> m -> nth_error (set_nth n a l) m = nth_error l m.
Proof. revert n m. induction l as [|x l IH]; intros [|n] [|m] H; cbn; auto; try congruence. Qed.

Lemma nth_set_len {A} n (a : A) l : length (set_nth n a l) = length l.
Proof. revert n. induction l as [|x l IH]; intros [|n]; cbn; auto. Qed.

Lemma step_linv half torn s ts k t s' t' : LInv s ts -> nth_error ts k = Some t ->
  step_thread uniq data data_offsets g half torn s t = Some (s', t') -> LInv s' (set_nth k t' ts).
Proof.
  intros I Hk H. destruct (step_locks _ _ _ _ _ _ H) as (Hp & Ho & Hi & Hn & Hl). clear H.
  assert (Kl : k < length ts) by (apply nth_error_Some; congruence).
  assert (At : forall j u, nth_error (set_nth k t' ts) j = Some u -> (j = k /\ u = t') \/ (j <> k /\ nth_error ts j = Some u)).
  { intros j u Hu. destruct (Nat.eq_dec j k) as [->|N]; [rewrite nth_set_same in Hu by auto; left; split; congruence|].
    rewrite nth_set_other in Hu by auto. auto. }
  pose proof (nth_error_In _ _ Hk) as Ht. constructor.
  - intros x Hx. destruct (Nat.eq_dec x (t_proc t)) as [->|Nx].
    + rewrite Hl in Hx. destruct (flushing t') eqn:F'.
      * exists t'. split; [apply (nth_error_In _ k); now apply nth_set_same|]. auto.
      * destruct (flushing t) eqn:Ft; [discriminate|]. destruct (L_held _ _ I _ Hx) as (u & Hu & Up & Uf).
        apply In_nth_error in Hu as (j & Hj). exists u. split; auto. apply (nth_error_In _ j). rewrite nth_set_other; auto. intros ->. congruence.
    + rewrite (Ho x Nx) in Hx. destruct (L_held _ _ I _ Hx) as (u & Hu & Up & Uf).
      apply In_nth_error in Hu as (j & Hj). exists u. split; auto. apply (nth_error_In _ j). rewrite nth_set_other; auto. intros ->. congruence.
  - intros u Hu Uf. apply In_nth_error in Hu as (j & Hj). destruct (At _ _ Hj) as [[-> ->]|[Nj Hj']].
    + rewrite Hp, Hl, Uf. destruct (flushing t) eqn:Ft; auto. apply (L_lock _ _ I t Ht Ft).
    + pose proof (L_lock _ _ I u (nth_error_In _ _ Hj') Uf) as Lu. destruct (Nat.eq_dec (t_proc u) (t_proc t)) as [E|N].
      * rewrite E in *. rewrite Hl. destruct (flushing t) eqn:Ft.
        { exfalso. apply Nj. apply (L_one _ _ I j k u t); auto. }
        destruct (flushing t') eqn:F'; auto.
      * rewrite (Ho _ N). exact Lu.
  - assert (W : forall j u, j <> k -> nth_error ts j = Some u -> flushing t' = true -> flushing u = true -> t_proc u <> t_proc t').
    { intros j u Nj Hu F' Uf E. rewrite Hp in E. destruct (flushing t) eqn:Ft.
      - apply Nj. apply (L_one _ _ I j k u t); auto.
      - specialize (Hn eq_refl F'). pose proof (L_lock _ _ I u (nth_error_In _ _ Hu) Uf) as Lu. rewrite E in Lu. congruence. }
    intros i j u v Hu Hv Fu Fv E. destruct (At _ _ Hu) as [[-> ->]|[Ni Hu']]; destruct (At _ _ Hv) as [[-> ->]|[Nj Hv']]; auto.
    + exfalso. apply (W j v Nj Hv' Fu Fv). auto.
    + exfalso. apply (W i u Ni Hu' Fv Fu). auto.
    + apply (L_one _ _ I i j u v); auto.
  - intros u Hu Eu. apply In_nth_error in Hu as (j & Hj). destruct (At _ _ Hj) as [[-> ->]|[Nj Hj']]; auto.
    apply (L_idle _ _ I u); auto. apply (nth_error_In _ _ Hj').
Qed.

Lemma linv_run sched : forall s s', LInv (fst s) (snd s) -> run uniq data data_offsets g sched s = Some s' -> LInv (fst s') (snd s').
Proof.
  induction sched as [|[k b] sched IH]; intros s s' I; cbn [run]; [now intros [= <-]|].
  unfold step_pool. destruct (nth_error (snd s) k) as [t|] eqn:Ek; [|discriminate].
  destruct (step_thread _ _ _ _ _ _ _ _) as [[h t']|] eqn:Es; [|discriminate].
  apply IH. cbn [fst snd]. eapply step_linv; eauto.
Qed.

(* a thread that is not about to start a call can step; so can one that starts a call that does
   not wait for the lock *)
Lemma can_step half b s t : t_todo t <> [] -> t_work t <> WIdle \/ p_lock (h_proc s (t_proc t)) = false ->
  exists r, step_thread uniq data data_offsets g half b s t = Some r.
Proof.
  intros Ht H. unfold step_thread. destruct (t_todo t) as [|q rq]; [congruence|]. clear Ht.
  destruct (t_work t) as [|p w|p w|p w i acc|p w c|p offs vec|ops i n|a rest|a ops rest|a ops i rest].
  - destruct H as [H|H]; [congruence|]. unfold start. rewrite H. destruct q; eauto. destruct (get_cached _ _ _ _) as [[? ?]|?|]; eauto.
  - destruct (h_names s _); eauto.
  - destruct (h_names s _); eauto.
  - destruct (nth_error _ _); eauto.
  - assert (X : exists r, match scan_ops uniq data data_offsets g (h_next s) c p w with
      | Ok (OpTrunc tmp :: ops, n) => let (s, i) := open_new s tmp in Some (s, go t (WWrite ops i n))
      | Ok (_, n) => Some (s, finish t (Ok (ACount n)))
      | Throw e => Some (s, finish t (Throw e))
      | UB => Some (s, finish t UB)
      end = Some r).
    { destruct (scan_ops _ _ _ _ _ _ _ _) as [[[|[x|x y|x y] ops] n]|e|]; eauto. destruct (open_new s x). eauto. }
    destruct w; auto. destruct (get_vec _ _ _ _ _ _); eauto.
  - destruct (put_cache _ _ _); eauto.
  - destruct ops; eauto. destruct (write_step _ _ _). eauto.
  - destruct rest as [|[x ix] rest]; eauto.
    destruct (x_flush _ _ _ _) as [[|[y|y z|y z] ops]|e|]; eauto. destruct a; eauto. destruct (open_new s y). eauto.
  - destruct ops as [|[y|y z|y z] ops]; eauto; [destruct (open_new s y)|destruct (open_append s y)]; eauto.
  - destruct ops; eauto. destruct (write_step _ _ _). eauto.
Qed.

Lemma linv_start d cap ps : LInv (fst (@start_pool F d cap ps)) (snd (start_pool d cap ps)).
Proof.
  cbn [start_pool fst snd]. constructor; cbn [h_proc p_lock]; try discriminate.
  - intros t Ht. apply in_map_iff in Ht as (l & <- & _). discriminate.
  - intros i j t u Ht _ Ft. apply nth_error_In in Ht. apply in_map_iff in Ht as (l & <- & _). discriminate.
  - intros t Ht _. apply in_map_iff in Ht as (l & <- & _). reflexivity.
Qed.

Lemma threads_progress d cap ps s : reached uniq data data_offsets g d cap ps s -> (exists t, In t (snd s) /\ t_todo t <> []) ->
  exists k, forall b, exists s', step_pool uniq data data_offsets g k b s = Some s'.
Proof.
  intros [sched R] (t & Ht & Nt). pose proof (linv_run _ _ _ (linv_start d cap ps) R) as I.
  assert (Go : forall u, In u (snd s) -> t_todo u <> [] -> t_work u <> WIdle \/ p_lock (h_proc (fst s) (t_proc u)) = false ->
    exists k, forall b, exists s', step_pool uniq data data_offsets g k b s = Some s').
  { intros u Hu Nu W. apply In_nth_error in Hu as (k & Hk). exists k. intros b. unfold step_pool. rewrite Hk.
    destruct (can_step (fun i => existsb (fun u => mid_write u i) (snd s)) b (fst s) u Nu W) as ([h t'] & ->). eauto. }
  destruct (p_lock (h_proc (fst s) (t_proc t))) eqn:L; [|apply (Go t); auto].
  destruct (L_held _ _ I _ L) as (u & Hu & Up & Uf).
  assert (Uw : t_work u <> WIdle) by (intros E; unfold flushing in Uf; rewrite E in Uf; discriminate).
  apply (Go u Hu); auto. intros E. apply Uw. now apply (L_idle _ _ I u).
Qed.
End Progress.
