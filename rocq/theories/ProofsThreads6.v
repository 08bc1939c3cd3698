(* Every call on the info cache returns, under every schedule, for C72. *)
From Coq Require Import Lia Wellfounded Relation_Operators Lexicographic_Product.
From Verif Require Import Base BaseLemmas ModelInfo ModelStream ModelIndex ModelLRU ModelCache ModelThreads SpecThreads ProofsThreads2.
Local Open Scope nat_scope.

Section Terminates.
Context {F : Type}.
Variable uniq : nat -> string -> string.
Variable data : string -> Z -> outcome (info F).
Variable data_offsets : string -> outcome (list Z).
Variable g : config.
Notation step_pool := (step_pool uniq data data_offsets g).
Notation step_thread := (step_thread uniq data data_offsets g).
Notation shared := (@shared F).
Notation thread := (@thread F).

(* calls and stages of a call; files still to flush; what is still to write; what is still to read *)
Definition stage (w : @work F) : nat :=
  match w with
  | WIdle => 6 | WExists _ _ => 5 | WOpen _ _ => 4 | WRead _ _ _ _ => 3 | WHave _ _ _ => 2 | _ => 1
  end.
Definition calls_left (t : thread) : nat := 6 * length (t_todo t) + stage (t_work t).
Definition files_left (t : thread) : nat :=
  match t_work t with WFlush _ r | WFlushOpen _ _ r | WFlushWrite _ _ _ r => length r | _ => 0 end.
Definition op_size (o : @file_op F) : nat := match o with OpAppend _ l => S (length l) | _ => 1 end.
Definition ops_size (l : list (@file_op F)) : nat := list_sum (map op_size l).
Definition writes_left (t : thread) : nat :=
  match t_work t with
  | WWrite ops _ _ => ops_size ops
  | WFlushWrite _ ops _ _ => 1 + ops_size ops
  | WFlushOpen _ ops _ => 2 + ops_size ops
  | _ => 0
  end.
Definition reads_left (s : shared) (t : thread) : nat :=
  match t_work t with WRead _ _ i acc => length (h_data s i) - length acc | _ => 0 end.

Definition total (f : thread -> nat) (l : list thread) : nat := list_sum (map f l).
Lemma total_set f : forall l k t t', nth_error l k = Some t -> total f (set_nth k t' l) + f t = total f l + f t'.
Proof.
  unfold total, list_sum. induction l as [|a l IH]; intros [|k] t t' E; cbn in *; try discriminate.
  - injection E as ->. lia.
  - specialize (IH k t t' E). lia.
Qed.

Definition down (a b c d a' b' c' d' : nat) : Prop :=
  a' < a \/ (a' = a /\ (b' < b \/ (b' = b /\ (c' < c \/ (c' = c /\ d' < d))))).

Lemma write_step_size (s : shared) o ops i : ops_size (snd (write_step s (o :: ops) i)) < ops_size (o :: ops).
Proof. unfold ops_size, list_sum. destruct o as [p|p [|t r]|p q]; cbn; lia. Qed.

Lemma finish_left t q r a : t_todo t = q :: r -> calls_left (finish t a) < calls_left t.
Proof.
  intros E. unfold finish, calls_left. rewrite E. cbn [t_todo t_work stage length].
  assert (1 <= stage (t_work t)) by (destruct (t_work t); cbn; lia). lia.
Qed.

Definition descends (s : shared) (t : thread) (s' : shared) (t' : thread) : Prop :=
  calls_left t' < calls_left t \/
  (calls_left t' = calls_left t /\
   (files_left t' < files_left t \/
    (files_left t' = files_left t /\
     (writes_left t' < writes_left t \/ (writes_left t' = writes_left t /\ s' = s /\ reads_left s t' < reads_left s t))))).

Ltac done := match goal with
  | E : t_todo ?t = ?q :: _ |- descends _ ?t _ (finish ?t _) => left; eapply finish_left; exact E
  end.
Ltac later Ew := left; unfold calls_left, go; cbn [t_todo t_work]; rewrite Ew; cbn [stage]; lia.

Lemma step_descends half torn s t s' t' : step_thread half torn s t = Some (s', t') -> descends s t s' t'.
Proof.
  unfold ModelThreads.step_thread. destruct (t_todo t) as [|q r] eqn:Eq; [discriminate|].
  destruct (t_work t) as [|p w|p w|p w i acc|p w c|p offs vec|ops i n|a rest|a ops rest|a ops i rest] eqn:Ew.
  - unfold start. destruct q as [p offs|p o i|a|p offs|p m|]; intros H.
    + destruct (get_cached p offs (p_lru (h_proc s (t_proc t))) []) as [[res l]|e|]; injection H as <- <-; try done.
      destruct (lenN res =? lenN offs)%N; later Ew.
    + destruct (p_lock _); [discriminate|]. injection H as <- <-. done.
    + destruct (p_lock _); [discriminate|]. injection H as <- <-. later Ew.
    + injection H as <- <-. later Ew.
    + injection H as <- <-. later Ew.
    + injection H as <- <-. done.
  - destruct (h_names s (cache_file_path g p)); intros H; injection H as <- <-; later Ew.
  - destruct (h_names s (cache_file_path g p)); intros H; injection H as <- <-; [later Ew|done].
  - destruct (nth_error (h_data s i) (length acc)) eqn:En; intros H; injection H as <- <-.
    + right. unfold calls_left, files_left, writes_left, reads_left, go. cbn [t_todo t_work]. rewrite Ew. cbn [stage].
      assert (length acc < length (h_data s i)) by (apply nth_error_Some; congruence).
      rewrite app_length. cbn [length]. repeat (split; [reflexivity|right]). repeat split; lia.
    + later Ew.
  - intros H. assert (forall X, X = Some (s', t') -> X = Some (s', t')) as I by auto.
    destruct w as [offs res|offs|m].
    + destruct (get_vec data g c p offs res); injection H as <- <-; try done. later Ew.
    + destruct (scan_ops uniq data data_offsets g (h_next s) c p (ForScan offs)) as [[[|[tmp|? ?|? ?] ops] n]|e|];
        try (injection H as <- <-; done). destruct (open_new s tmp). injection H as <- <-. later Ew.
    + destruct (scan_ops uniq data data_offsets g (h_next s) c p (ForScanFile m)) as [[[|[tmp|? ?|? ?] ops] n]|e|];
        try (injection H as <- <-; done). destruct (open_new s tmp). injection H as <- <-. later Ew.
  - destruct (put_cache p (combine offs vec) (p_lru (h_proc s (t_proc t)))); intros H; injection H as <- <-; done.
  - destruct ops as [|o ops]; intros H; [injection H as <- <-; done|].
    pose proof (write_step_size s o ops i) as L. destruct (write_step s (o :: ops) i) as [s1 ops1]. injection H as <- <-.
    right. unfold calls_left, files_left, writes_left, go. cbn [t_todo t_work]. rewrite Ew. cbn [stage snd] in *. lia.
  - destruct rest as [|[k x] rest]; intros H; [injection H as <- <-; done|].
    destruct (x_flush _ _ x a) as [ops|e|].
    + assert (forall s1 w1, (s', t') = (s1, go t w1) -> stage w1 = 1 ->
                match w1 with WFlushOpen _ _ r1 | WFlushWrite _ _ _ r1 => r1 = rest | _ => False end -> descends s t s' t') as K.
      { intros s1 w1 E S1 R. injection E as -> ->. right. unfold calls_left, files_left, go. cbn [t_todo t_work]. rewrite Ew, S1.
        split; [reflexivity|]. left. destruct w1; try contradiction; subst; cbn; lia. }
      destruct ops as [|[tmp|? ?|? ?] ops]; try (eapply K; [injection H as <- <-; reflexivity|reflexivity|reflexivity]).
      destruct a.
      * eapply K; [injection H as <- <-; reflexivity|reflexivity|reflexivity].
      * destruct (open_new s tmp). eapply K; [injection H as <- <-; reflexivity|reflexivity|reflexivity].
    + injection H as <- <-; done.
    + injection H as <- <-; done.
  - intros H. assert (forall s1 w1, (s', t') = (s1, go t w1) ->
                match w1 with WFlushWrite _ o1 _ r1 => r1 = rest /\ ops_size o1 <= ops_size ops | WFlush _ r1 => r1 = rest | _ => False end ->
                descends s t s' t') as K.
    { intros s1 w1 E R. injection E as -> ->. right. unfold calls_left, files_left, writes_left, go. cbn [t_todo t_work]. rewrite Ew.
      destruct w1; try contradiction; [|destruct R as [R R']]; subst; cbn; lia. }
    destruct ops as [|[tmp|p l|? ?] ops]; try (eapply K; [injection H as <- <-; reflexivity|reflexivity]).
    + destruct (open_new s tmp). eapply K; [injection H as <- <-; reflexivity|]. split; [reflexivity|]. unfold ops_size, list_sum. cbn. lia.
    + destruct (open_append s p). eapply K; [injection H as <- <-; reflexivity|]. split; reflexivity.
  - destruct ops as [|o ops]; intros H.
    + injection H as <- <-. right. unfold calls_left, files_left, writes_left, go. cbn [t_todo t_work]. rewrite Ew. cbn. lia.
    + pose proof (write_step_size s o ops i) as L. destruct (write_step s (o :: ops) i) as [s1 ops1]. injection H as <- <-.
      right. unfold calls_left, files_left, writes_left, go. cbn [t_todo t_work]. rewrite Ew. cbn [stage snd] in *. lia.
Qed.

Definition key := (nat * (nat * (nat * nat)))%type.
Definition below : key -> key -> Prop := slexprod _ _ lt (slexprod _ _ lt (slexprod _ _ lt lt)).
Definition key_of (s : @pool F) : key :=
  (total calls_left (snd s), (total files_left (snd s), (total writes_left (snd s), total (reads_left (fst s)) (snd s)))).

Lemma step_below k b s s' : step_pool k b s = Some s' -> below (key_of s') (key_of s).
Proof.
  unfold ModelThreads.step_pool. destruct (nth_error (snd s) k) as [t|] eqn:En; [|discriminate].
  destruct (step_thread _ b (fst s) t) as [[h t']|] eqn:Es; [|discriminate]. intros H. injection H as <-.
  apply step_descends in Es. unfold key_of. cbn [fst snd].
  pose proof (total_set calls_left (snd s) k t t' En) as T1. pose proof (total_set files_left (snd s) k t t' En) as T2.
  pose proof (total_set writes_left (snd s) k t t' En) as T3.
  destruct Es as [D|[E1 D]]; [apply left_slex; lia|].
  replace (total calls_left (set_nth k t' (snd s))) with (total calls_left (snd s)) by lia. apply right_slex.
  destruct D as [D|[E2 D]]; [apply left_slex; lia|].
  replace (total files_left (set_nth k t' (snd s))) with (total files_left (snd s)) by lia. apply right_slex.
  destruct D as [D|[E3 [-> D]]]; [apply left_slex; lia|].
  replace (total writes_left (set_nth k t' (snd s))) with (total writes_left (snd s)) by lia. apply right_slex.
  pose proof (total_set (reads_left (fst s)) (snd s) k t t' En) as T4. lia.
Qed.

Definition steps_to (s' s : @pool F) : Prop := exists k b, step_pool k b s = Some s'.
Theorem steps_end : well_founded steps_to.
Proof.
  apply (wf_incl _ _ (fun s' s => below (key_of s') (key_of s))).
  - intros s' s (k & b & H). exact (step_below k b s s' H).
  - apply (wf_inverse_image _ _ below key_of). unfold below. repeat apply wf_slexprod; apply Wf_nat.lt_wf.
Qed.

(* no schedule runs for ever *)
Theorem no_endless_run (f : nat -> @pool F) : ~ forall n, exists k b, step_pool k b (f n) = Some (f (S n)).
Proof.
  intros H. assert (forall s, Acc steps_to s -> forall n, f n = s -> False) as A.
  { induction 1 as [s _ IH]. intros n E. apply (IH (f (S n))) with (n := S n); [|reflexivity].
    destruct (H n) as (k & b & S1). exists k, b. now rewrite <- E. }
  exact (A (f 0) (steps_end (f 0)) 0 eq_refl).
Qed.

(* what a thread has done and has to do *)
Definition whole (t : thread) : list (@call F) := map fst (t_log t) ++ t_todo t.
Lemma whole_finish t a : whole (finish t a) = whole t.
Proof. unfold whole, finish. destruct (t_todo t) as [|q r] eqn:E; [now rewrite E|]. cbn. rewrite map_app, <- app_assoc. reflexivity. Qed.
Lemma step_whole half torn s t s' t' : step_thread half torn s t = Some (s', t') -> whole t' = whole t.
Proof.
  intros H. assert ((exists w, t' = go t w) \/ exists a, t' = finish t a) as [[w ->]|[a ->]]; [|reflexivity|apply whole_finish].
  revert H. unfold ModelThreads.step_thread, start.
  repeat match goal with
  | |- None = Some _ -> _ => discriminate
  | |- Some (?x, ?y) = Some _ -> _ => let H := fresh in intros H; injection H as <- <-; eauto
  | |- context [match ?x with _ => _ end] => destruct x
  end.
Qed.
Lemma run_whole sched : forall s s', run uniq data data_offsets g sched s = Some s' -> map whole (snd s') = map whole (snd s).
Proof.
  induction sched as [|[k b] l IH]; intros s s' H; cbn [run] in H; [now injection H as <-|].
  destruct (step_pool k b s) as [s1|] eqn:E; [|discriminate]. rewrite (IH _ _ H). clear -E. revert E. unfold ModelThreads.step_pool.
  destruct (nth_error (snd s) k) as [t|] eqn:En; [|discriminate].
  destruct (step_thread _ b (fst s) t) as [[h t']|] eqn:Es; [|discriminate]. intros H. injection H as <-. cbn [snd].
  apply step_whole in Es. revert k En. induction (snd s) as [|a r IH]; intros [|k] En; cbn in *; try discriminate.
  - injection En as ->. now rewrite Es.
  - now rewrite (IH k En).
Qed.

Theorem all_calls_return d cap ps s : reached uniq data data_offsets g d cap ps s ->
  comes_about uniq data data_offsets g (all_returned ps) s.
Proof.
  induction s as [s IH] using (well_founded_induction steps_end). intros R.
  assert (forall t : thread, {t_todo t = []} + {t_todo t <> []}) as Dec by (intros t; destruct (t_todo t); [left|right]; congruence).
  destruct (Forall_Exists_dec (fun t : thread => t_todo t = []) Dec (snd s)) as [D|D]; clear Dec.
  - apply comes_now. destruct R as [sched R]. apply run_whole in R. unfold all_returned. cbn in R. rewrite map_map in R.
    unfold whole at 2 in R. cbn in R. clear IH. revert R D. generalize (snd s). clear.
    induction ps as [|e ps IH]; intros [|t l] R D; cbn in R; try discriminate; [constructor|].
    injection R as R1 R2. inversion D as [|? ? D1 D2]; subst. constructor; [|now apply IH].
    split; [exact D1|]. unfold whole in R1. now rewrite D1, app_nil_r in R1.
  - apply comes_later.
    + apply Exists_exists in D as (t & I & N). destruct (threads_progress uniq data data_offsets g d cap ps s R) as (k & K); [eauto|].
      destruct (K false) as (s' & E). now exists k, false, s'.
    + intros k b s' E. apply IH; [now exists k, b|]. destruct R as [sched R]. exists (sched ++ [(k, b)]).
      revert R. generalize (start_pool d cap ps). clear -E. induction sched as [|[k1 b1] l IH]; intros p R; cbn in *.
      * injection R as ->. now rewrite E.
      * destruct (step_pool k1 b1 p); [auto|discriminate].
Qed.
End Terminates.
