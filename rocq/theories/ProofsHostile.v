From Coq Require Import Lia Permutation Sorted.
From Verif Require Import Base BaseLemmas ModelRange ModelInfo ModelSimple ModelStream SpecStream ModelJumper ModelStrings ModelBuild ModelEngine
  ModelProtocol ModelRemote ModelForward SpecEngine SpecSystem SpecRemote SpecForward SpecSafety SpecDeploy SpecHostile
  ProofsStrings ProofsProtocol ProofsRemote ProofsEngine2 ProofsForward ProofsForward3 ProofsSafety2 ProofsDeploy.
Open Scope nat_scope.

(* ---- readers that are undefined only on streams of a kind ---- *)
Section Readers.
Context {F : Type}.
Notation stream := (list (tok F)).
Variable Q : stream -> Prop.
Hypothesis Q_later : forall pre t, Q t -> Q (pre ++ t).

Definition tame {A} (f : @reader F A) : Prop :=
  forall s, (f s = UB -> Q s) /\ (forall a r, f s = Ok (a, r) -> exists pre, s = pre ++ r).

Lemma tame_ret {A} (a : A) : tame (fun s => Ok (a, s)).
Proof. intros s. split; [discriminate|]. intros a' r [= <- <-]. now exists []. Qed.
Lemma tame_bind {A B} (f : @reader F A) (g : A -> @reader F B) : tame f -> (forall a, tame (g a)) ->
  tame (fun s => let* (a, s) := f s in g a s).
Proof.
  intros Tf Tg s. destruct (Tf s) as [T1 T2]. destruct (f s) as [[a s1]|e|]; cbn [obind].
  - destruct (T2 a s1 eq_refl) as (pre & ->). destruct (Tg a s1) as [U1 U2]. split.
    + intros H. apply Q_later. auto.
    + intros b r H. destruct (U2 b r H) as (pre' & ->). exists (pre ++ pre'). now rewrite app_assoc.
  - split; discriminate.
  - split; [auto|discriminate].
Qed.
Lemma tame_check {A} (x : outcome unit) (f : @reader F A) : x <> UB -> tame f -> tame (fun s => let* _ := x in f s).
Proof. intros N T s. destruct x; cbn [obind]; [apply T|split; discriminate|contradiction]. Qed.
Lemma tame_times {A} n (f : @reader F A) : tame f -> tame (r_times n f).
Proof.
  intros T. induction n as [|n IH]; [apply tame_ret|]. intros s. cbn [r_times].
  apply (tame_bind f (fun x s => let* (l, s) := r_times n f s in Ok (x :: l, s))); [exact T|].
  intros a. apply (tame_bind (r_times n f) (fun l s => Ok (a :: l, s))); [exact IH|]. intros l. apply tame_ret.
Qed.
Lemma tame_count {A} n (f : @reader F A) : tame f -> tame (r_count n f).
Proof.
  intros T s. unfold r_count. destruct (n <=? lenN s)%N; [now apply tame_times|].
  destruct (tame_times (S (length s)) f T s) as [H _]. destruct (r_times _ f s); cbn [obind]; split; try discriminate. intros _. auto.
Qed.
Lemma tame_ext {A} (f g : @reader F A) : (forall s, f s = g s) -> tame f -> tame g.
Proof. intros E T s. rewrite <- E. apply T. Qed.

Ltac prim := intros s; split; [destruct s as [|[] s]; discriminate|];
  intros a r; destruct s as [|[] s]; cbn; try discriminate; intros [= <- <-]; eexists [_]; reflexivity.
Lemma tame_u16 : tame r_u16. Proof. prim. Qed.
Lemma tame_ulong : tame r_ulong. Proof. prim. Qed.
Lemma tame_ll : tame r_ll. Proof. prim. Qed.
Lemma tame_int : tame r_int. Proof. prim. Qed.
Lemma tame_bool : tame r_bool. Proof. prim. Qed.
Lemma tame_str : tame r_str. Proof. prim. Qed.

Lemma tame_header : tame r_header.
Proof.
  intros s. unfold r_header. apply (tame_bind r_u16 (fun version s =>
    if negb (version =? remote_protocol_version)%N then Throw ESeriousBug else let* (_, s) := r_str s in r_u16 s)); [apply tame_u16|].
  intros v. destruct (negb _); [intros t; split; discriminate|].
  apply (tame_bind r_str (fun _ => r_u16)); [apply tame_str|]. intros _. apply tame_u16.
Qed.
Lemma tame_errors title : tame (r_errors title).
Proof.
  intros s. unfold r_errors. apply (tame_bind r_ulong (fun n s => if (n =? 0)%N then Ok (tt, s) else let* (es, s) := r_count n r_str s in Throw (EMsg (error_text title es))));
    [apply tame_ulong|].
  intros n. destruct (n =? 0)%N; [apply tame_ret|].
  apply (tame_bind (r_count n r_str) (fun es s => Throw (EMsg (error_text title es)))); [apply tame_count, tame_str|].
  intros es t. split; discriminate.
Qed.
Lemma tame_axes_request : tame r_axes_request.
Proof.
  intros s. unfold r_axes_request. apply (tame_bind r_str (fun r s => let* (l, s) := r_int s in Ok ((r, l), s))); [apply tame_str|].
  intros r. apply (tame_bind r_int (fun l s => Ok ((r, l), s))); [apply tame_int|]. intros l. apply tame_ret.
Qed.
Lemma tame_scan_request {M} (r_mars : @reader F M) : tame r_mars -> tame (r_scan_request r_mars).
Proof.
  intros T s. unfold r_scan_request.
  apply (tame_bind r_bool (fun b s => let* (n, s) := r_ulong s in let* (l, s) := r_count n r_mars s in Ok ((l, b), s))); [apply tame_bool|].
  intros b. apply (tame_bind r_ulong (fun n s => let* (l, s) := r_count n r_mars s in Ok ((l, b), s))); [apply tame_ulong|].
  intros n. apply (tame_bind (r_count n r_mars) (fun l s => Ok ((l, b), s))); [now apply tame_count|]. intros l. apply tame_ret.
Qed.
Lemma tame_forward_scan_request : tame r_forward_scan_request.
Proof.
  assert (T : tame r_scan_file).
  { intros s. unfold r_scan_file. apply (tame_bind r_str (fun name s => let* (l, s) := r_offsets s in Ok ((name, l), s))); [apply tame_str|].
    intros name. apply (tame_bind r_offsets (fun l s => Ok ((name, l), s))); [|intros l; apply tame_ret].
    intros t. unfold r_offsets. apply (tame_bind r_ulong (fun n => r_count n r_ll)); [apply tame_ulong|]. intros n. apply tame_count, tame_ll. }
  intros s. unfold r_forward_scan_request.
  apply (tame_bind r_ulong (fun n s => let* (l, s) := r_count n r_scan_file s in Ok (fold_left (fun m f => sset (fst f) (snd f) m) l [], s))); [apply tame_ulong|].
  intros n. apply (tame_bind (r_count n r_scan_file) (fun l s => Ok (fold_left (fun m f => sset (fst f) (snd f) m) l [], s))); [now apply tame_count|].
  intros l. apply tame_ret.
Qed.
Lemma tame_axes_reply : tame r_axes_reply.
Proof.
  assert (T : tame r_axis).
  { intros s. unfold r_axis. apply (tame_bind r_str (fun name s => let* (n, s) := r_ulong s in let* (vs, s) := r_count n r_str s in Ok ((name, fold_left set_insert vs []), s))); [apply tame_str|].
    intros name. apply (tame_bind r_ulong (fun n s => let* (vs, s) := r_count n r_str s in Ok ((name, fold_left set_insert vs []), s))); [apply tame_ulong|].
    intros n. apply (tame_bind (r_count n r_str) (fun vs s => Ok ((name, fold_left set_insert vs []), s))); [apply tame_count, tame_str|]. intros l. apply tame_ret. }
  intros s. unfold r_axes_reply.
  apply (tame_bind r_ulong (fun n s => let* (l, s) := r_count n r_axis s in Ok (fold_left (fun m a => sset (fst a) (snd a) m) l [], s))); [apply tame_ulong|].
  intros n. apply (tame_bind (r_count n r_axis) (fun l s => Ok (fold_left (fun m a => sset (fst a) (snd a) m) l [], s))); [now apply tame_count|].
  intros l. apply tame_ret.
Qed.
End Readers.

Lemma nothing_later {F} (pre t : list (tok F)) : False -> False. Proof. auto. Qed.

(* ---- requests ---- *)
Section Requests.
Context {F : Type}.
Notation stream := (list (tok F)).

Lemma lying_ranges_later (pre t : stream) : lying_ranges t -> lying_ranges (pre ++ t).
Proof. intros (p & n & l & q & -> & H). exists (pre ++ p), n, l, q. now rewrite <- app_assoc. Qed.

Lemma tame_ranges : tame (@lying_ranges F) r_ranges_.
Proof.
  intros s. unfold r_ranges_, r_ulong, r_words, from_buffer. destruct s as [|[] s]; cbn [obind refuse]; try (split; discriminate).
  destruct s as [|[] s]; cbn [obind refuse]; try (split; discriminate).
  destruct (N.ltb_spec (lenN l) (2 * n)%N) as [H|H]; cbn [obind].
  - split; [|discriminate]. intros _. exists [], n, l, s. auto.
  - split; [discriminate|]. intros a r [= <- <-]. now exists [KULong n; KWords l].
Qed.
Lemma tame_request : tame (@lying_ranges F) r_request.
Proof.
  intros s. unfold r_request.
  apply (tame_bind _ lying_ranges_later r_str (fun str s => let* (hash, s) := r_str s in let* (l, s) := r_ranges_ s in Ok (mk_request str l hash, s))); [apply tame_str|].
  intros str. apply (tame_bind _ lying_ranges_later r_str (fun hash s => let* (l, s) := r_ranges_ s in Ok (mk_request str l hash, s))); [apply tame_str|].
  intros hash. apply (tame_bind _ lying_ranges_later r_ranges_ (fun l s => Ok (mk_request str l hash, s))); [apply tame_ranges|]. intros l. apply tame_ret.
Qed.
Lemma tame_extract_request : tame (@lying_ranges F) r_extract_request.
Proof.
  intros s. unfold r_extract_request. apply (tame_bind _ lying_ranges_later r_ulong (fun n => r_count n r_request)); [apply tame_ulong|].
  intros n. apply (tame_count _ lying_ranges_later), tame_request.
Qed.
Lemma tame_forward_extract_request (r_uri : @reader F uri) : tame (@lying_ranges F) r_uri ->
  tame (@lying_ranges F) (r_forward_extract_request r_uri).
Proof.
  intros T.
  assert (T1 : tame (@lying_ranges F) (r_forward_item r_uri)).
  { intros s. unfold r_forward_item. apply (tame_bind _ lying_ranges_later r_request (fun r s => let* (u, s) := r_uri s in Ok ((r, as_file u), s))); [apply tame_request|].
    intros r. apply (tame_bind _ lying_ranges_later r_uri (fun u s => Ok ((r, as_file u), s))); [exact T|]. intros u. apply tame_ret. }
  assert (T2 : tame (@lying_ranges F) (r_forward_file r_uri)).
  { intros s. unfold r_forward_file. apply (tame_bind _ lying_ranges_later r_str (fun name s => let* (n, s) := r_ulong s in let* (l, s) := r_count n (r_forward_item r_uri) s in Ok ((name, l), s))); [apply tame_str|].
    intros name. apply (tame_bind _ lying_ranges_later r_ulong (fun n s => let* (l, s) := r_count n (r_forward_item r_uri) s in Ok ((name, l), s))); [apply tame_ulong|].
    intros n. apply (tame_bind _ lying_ranges_later (r_count n (r_forward_item r_uri)) (fun l s => Ok ((name, l), s))); [now apply (tame_count _ lying_ranges_later)|]. intros l. apply tame_ret. }
  intros s. unfold r_forward_extract_request.
  apply (tame_bind _ lying_ranges_later r_ulong (fun n s => let* (l, s) := r_count n (r_forward_file r_uri) s in Ok (fold_left (fun m f => sset (fst f) (snd f) m) l [], s))); [apply tame_ulong|].
  intros n. apply (tame_bind _ lying_ranges_later (r_count n (r_forward_file r_uri)) (fun l s => Ok (fold_left (fun m f => sset (fst f) (snd f) m) l [], s))); [now apply (tame_count _ lying_ranges_later)|].
  intros l. apply tame_ret.
Qed.
End Requests.

(* ---- replies ---- *)
Section Replies.
Context {F : Type}.
Notation stream := (list (tok F)).

Lemma lying_reply_later (pre t : stream) : lying_reply t -> lying_reply (pre ++ t).
Proof. intros (p & q & -> & H). exists (pre ++ p), q. now rewrite <- app_assoc. Qed.

Lemma split_by_dies {A} sizes : forall flat : list A, split_by sizes flat = UB -> (lenN flat < total_size sizes)%N.
Proof.
  induction sizes as [|n sizes IH]; intros flat; cbn [split_by]; [discriminate|].
  change (total_size (n :: sizes)) with (n + total_size sizes)%N.
  destruct (N.ltb_spec (lenN flat) n) as [H|H]; [intros _; lia|].
  intros E. assert (split_by sizes (skipn (N.to_nat n) flat) = UB) as E' by (destruct (split_by sizes _); [discriminate|discriminate|reflexivity]).
  specialize (IH _ E'). unfold lenN in *. rewrite skipn_length in IH. lia.
Qed.

Lemma tame_values : tame (@lying_reply F) r_values.
Proof.
  intros s. unfold r_values, r_words_vector, r_doubles_vector, r_ulong, r_words, r_doubles, from_buffer.
  destruct s as [|[] s]; cbn [obind refuse]; try (split; discriminate).
  destruct s as [|[] s]; cbn [obind refuse]; try (split; discriminate).
  destruct (N.ltb_spec (lenN l) n) as [H|H]; cbn [obind].
  { split; [|discriminate]. intros _. exists [], (KULong n :: KWords l :: s). split; [reflexivity|]. now constructor. }
  destruct s as [|[] s]; cbn [obind refuse]; try (split; discriminate).
  destruct s as [|[] s]; cbn [obind refuse]; try (split; discriminate).
  destruct (N.ltb_spec (lenN l0) n0) as [H0|H0]; cbn [obind].
  { split; [|discriminate]. intros _. exists [KULong n; KWords l], (KULong n0 :: KDoubles l0 :: s). split; [reflexivity|]. now constructor. }
  destruct (split_by _ _) as [vv|e|] eqn:E; cbn [obind].
  - split; [discriminate|]. intros a r [= <- <-]. exists [KULong n; KWords l; KULong n0; KDoubles l0]. reflexivity.
  - split; discriminate.
  - split; [|discriminate]. intros _. exists [], (KULong n :: KWords l :: KULong n0 :: KDoubles l0 :: s). split; [reflexivity|].
    apply lies_values. apply split_by_dies in E. revert E. unfold lenN. rewrite firstn_length. unfold lenN in H0. lia.
Qed.
Lemma tame_mask : tame (@lying_reply F) r_mask.
Proof.
  intros s. unfold r_mask, r_words_vector, r_ulong, r_words, from_buffer.
  destruct s as [|[] s]; cbn [obind refuse]; try (split; discriminate).
  destruct s as [|[] s]; cbn [obind refuse]; try (split; discriminate).
  destruct (N.ltb_spec (lenN l) n) as [H|H]; cbn [obind].
  { split; [|discriminate]. intros _. exists [], (KULong n :: KWords l :: s). split; [reflexivity|]. now constructor. }
  destruct s as [|[] s]; cbn [obind refuse]; try (split; discriminate).
  destruct s as [|[] s]; cbn [obind refuse]; try (split; discriminate).
  destruct (N.ltb_spec (lenN l0) n0) as [H0|H0]; cbn [obind].
  { split; [|discriminate]. intros _. exists [KULong n; KWords l], (KULong n0 :: KWords l0 :: s). split; [reflexivity|]. now constructor. }
  destruct (split_by _ _) as [vv|e|] eqn:E; cbn [obind].
  - split; [discriminate|]. intros a r [= <- <-]. exists [KULong n; KWords l; KULong n0; KWords l0]. reflexivity.
  - split; discriminate.
  - split; [|discriminate]. intros _. exists [], (KULong n :: KWords l :: KULong n0 :: KWords l0 :: s). split; [reflexivity|].
    apply lies_mask. apply split_by_dies in E. revert E. unfold lenN. rewrite firstn_length. unfold lenN in H0. lia.
Qed.
Lemma tame_result : tame (@lying_reply F) r_result.
Proof.
  intros s. unfold r_result. apply (tame_bind _ lying_reply_later r_values (fun v s => let* (m, s) := r_mask s in Ok ((v, m), s))); [apply tame_values|].
  intros v. apply (tame_bind _ lying_reply_later r_mask (fun m s => Ok ((v, m), s))); [apply tame_mask|]. intros m. apply tame_ret.
Qed.
Lemma assert_defined b : assert_ b <> UB. Proof. destruct b; discriminate. Qed.
Lemma tame_extract_reply n : tame (@lying_reply F) (r_extract_reply n).
Proof.
  apply (tame_count _ lying_reply_later). intros s. unfold r_field.
  apply (tame_bind _ lying_reply_later r_ulong (fun n s => let* _ := assert_ (n =? 1)%N in r_result s)); [apply tame_ulong|].
  intros m. apply tame_check; [apply assert_defined|apply tame_result].
Qed.
Lemma tame_forward_extract_reply sizes : tame (@lying_reply F) (r_forward_extract_reply sizes).
Proof.
  apply (tame_count _ lying_reply_later). intros s. unfold r_forward_results.
  apply (tame_bind _ lying_reply_later r_str (fun name s => let* (n, s) := r_ulong s in
    let* _ := assert_ (n =? match sfind name sizes with Some k => k | None => 0 end)%N in let* (l, s) := r_count n r_result s in Ok ((name, l), s))); [apply tame_str|].
  intros name. apply (tame_bind _ lying_reply_later r_ulong (fun n s =>
    let* _ := assert_ (n =? match sfind name sizes with Some k => k | None => 0 end)%N in let* (l, s) := r_count n r_result s in Ok ((name, l), s))); [apply tame_ulong|].
  intros n. apply tame_check; [apply assert_defined|].
  apply (tame_bind _ lying_reply_later (r_count n r_result) (fun l s => Ok ((name, l), s))); [apply (tame_count _ lying_reply_later), tame_result|]. intros l. apply tame_ret.
Qed.

Lemma call_dies {A} (Q : stream -> Prop) (later : forall pre t, Q t -> Q (pre ++ t)) title srv request (reply : @reader F A) : tame Q reply ->
  call title srv request reply = UB -> srv request = UB \/ exists t, srv request = Ok t /\ Q t.
Proof.
  intros T H. unfold call in H. destruct (srv request) as [t|e|]; cbn [obind] in H; [|discriminate|now left]. right. exists t. split; [reflexivity|].
  exact (proj1 (tame_bind Q later (r_errors title) (fun _ => reply) (tame_errors Q later title) (fun _ => T) t) H).
Qed.
End Replies.
