(* Every message of the protocol is read back exactly (ModelProtocol.v). *)
From Coq Require Import Lia Permutation.
From Verif Require Import Base BaseLemmas ModelRange ModelInfo ModelStream SpecStream ModelJumper ModelStrings
  ModelEngine ModelProtocol ModelRemote SpecRemote ProofsStream ProofsStrings.
Local Open Scope nat_scope.

Lemma from_buffer_all {A} (l : list A) : from_buffer (lenN l) l = Ok l.
Proof.
  unfold from_buffer, lenN. rewrite N.ltb_irrefl, Nat2N.id, firstn_all. reflexivity.
Qed.

Lemma split_by_concat {A} (vv : list (list A)) : split_by (map lenN vv) (concat vv) = Ok vv.
Proof.
  induction vv as [|v vv IH]; [reflexivity|]. cbn [map concat split_by].
  destruct (N.ltb_spec (lenN (v ++ concat vv)) (lenN v)) as [L|L].
  - unfold lenN in L. rewrite app_length in L. lia.
  - unfold lenN at 2 3. rewrite Nat2N.id, skipn_app, skipn_all, Nat.sub_diag. cbn [skipn app].
    rewrite IH, firstn_app, firstn_all, Nat.sub_diag. cbn [firstn obind]. now rewrite app_nil_r.
Qed.

Lemma flatten_length (l : list interval) : lenN (flatten_ranges l) = (2 * lenN l)%N.
Proof.
  unfold flatten_ranges. induction l as [|r l IH]; [reflexivity|]. cbn [map concat]. unfold lenN in *.
  rewrite app_length. cbn [length]. lia.
Qed.
Lemma pair_up_flatten (l : list interval) : pair_up (flatten_ranges l) = l.
Proof. unfold flatten_ranges. induction l as [|[a b] l IH]; cbn; [reflexivity|]. now rewrite IH. Qed.

Section Proofs.
Context {F : Type}.
Notation stream := (list (tok F)).

Lemma exact_post {A B} (f : @reader F A) w a (g : A -> outcome B) b :
  exact f w a -> g a = Ok b -> exact (fun s => let* (x, s) := f s in let* y := g x in Ok (y, s)) w b.
Proof.
  intros H E. rewrite <- (app_nil_r w).
  apply (exact_bind f (fun x s => let* y := g x in Ok (y, s)) w [] a b H).
  apply (exact_ext (fun s => Ok (b, s))); [intros s; rewrite E; reflexivity|apply exact_ret].
Qed.
(* the reader of the next value depends on a check of the previous one *)
Lemma exact_check {A B} (g : outcome B) (f : @reader F A) b w a :
  g = Ok b -> exact f w a -> exact (fun s => let* _ := g in f s) w a.
Proof. intros ->. exact (fun H => H). Qed.
Lemma exact_map {A B} (f : @reader F A) w a (g : A -> B) :
  exact f w a -> exact (fun s => let* (x, s) := f s in Ok (g x, s)) w (g a).
Proof. intros H. exact (exact_post f w a (fun x => Ok (g x)) (g a) H eq_refl). Qed.

Lemma exact_words_vector l : exact (@r_words_vector F) (w_words_vector l) l.
Proof.
  unfold r_words_vector, w_words_vector.
  apply (exact_bind r_ulong (fun n s => _) [_] [_] _ _ (exact_ulong _)).
  apply (exact_post r_words _ l (from_buffer (lenN l)) l (exact_words l)), from_buffer_all.
Qed.
Lemma exact_doubles_vector l : exact (@r_doubles_vector F) (w_doubles_vector l) l.
Proof.
  unfold r_doubles_vector, w_doubles_vector.
  apply (exact_bind r_ulong (fun n s => _) [_] [_] _ _ (exact_ulong _)).
  apply (exact_post r_doubles _ l (from_buffer (lenN l)) l (exact_doubles l)), from_buffer_all.
Qed.

Lemma exact_values vv : exact (@r_values F) (w_values vv) vv.
Proof.
  unfold r_values, w_values.
  apply (exact_bind r_words_vector (fun n s => _) _ _ _ _ (exact_words_vector _)).
  apply (exact_post r_doubles_vector _ (concat vv) (split_by (map lenN vv)) vv (exact_doubles_vector _)).
  apply split_by_concat.
Qed.
Lemma exact_mask m : exact (@r_mask F) (w_mask m) m.
Proof.
  unfold r_mask, w_mask.
  apply (exact_bind r_words_vector (fun n s => _) _ _ _ _ (exact_words_vector _)).
  apply (exact_post r_words_vector _ (concat m) (split_by (map lenN m)) m (exact_words_vector _)).
  apply split_by_concat.
Qed.
Lemma exact_ranges l : exact (@r_ranges_ F) (w_ranges l) l.
Proof.
  unfold r_ranges_, w_ranges.
  apply (exact_bind r_ulong (fun n s => _) [_] [_] _ _ (exact_ulong _)).
  apply (exact_ext (fun s => let* (l0, s0) := r_words s in
    let* y := (let* v := from_buffer (2 * lenN l) l0 in Ok (pair_up v)) in Ok (y, s0))).
  { intros s. destruct (r_words s) as [[x s']| |]; cbn [obind]; [|reflexivity..].
    destruct (from_buffer _ x); reflexivity. }
  apply (exact_post r_words _ (flatten_ranges l)
    (fun l0 => let* v := from_buffer (2 * lenN l) l0 in Ok (pair_up v)) l (exact_words _)).
  rewrite <- flatten_length, from_buffer_all. cbn [obind]. now rewrite pair_up_flatten.
Qed.

Lemma exact_result r : exact (@r_result F) (w_result r) r.
Proof.
  unfold r_result, w_result. destruct r as [v m]. cbn [fst snd].
  apply (exact_bind r_values (fun n s => _) _ _ _ _ (exact_values _)).
  apply (exact_map r_mask _ m (fun m => (v, m)) (exact_mask m)).
Qed.
Lemma exact_request r : exact (@r_request F) (w_request r) r.
Proof.
  unfold r_request, w_request. destruct r as [str l hash]. cbn [r_string r_hash r_ranges app].
  apply (exact_bind r_str (fun n s => _) [_] _ _ _ (exact_str _)).
  apply (exact_bind r_str (fun n s => _) [_] _ _ _ (exact_str _)).
  apply (exact_map r_ranges_ _ l (fun l => mk_request str l hash) (exact_ranges l)).
Qed.

Lemma exact_list {A B} (f : @reader F A) (w : B -> stream) (v : B -> A) l :
  Forall (fun x => w x <> []) l -> Forall (fun x => exact f (w x) (v x)) l ->
  exact (fun s => let* (n, s) := r_ulong s in r_count n f s) (KULong (lenN l) :: concat (map w l)) (map v l).
Proof.
  intros H1 H2. apply (exact_bind r_ulong (fun n s => _) [_] _ _ _ (exact_ulong _)).
  now apply exact_count.
Qed.
Lemma exact_list_id {A} (f : @reader F A) (w : A -> stream) l :
  Forall (fun x => w x <> []) l -> Forall (fun x => exact f (w x) x) l ->
  exact (fun s => let* (n, s) := r_ulong s in r_count n f s) (KULong (lenN l) :: concat (map w l)) l.
Proof. intros H1 H2. rewrite <- (map_id l) at 3. now apply exact_list. Qed.

(* EXTRACT *)
Lemma exact_extract_request l : exact (@r_extract_request F) (w_extract_request l) l.
Proof.
  apply exact_list_id; apply Forall_forall; intros r _; [discriminate|apply exact_request].
Qed.
Lemma exact_field r : exact (@r_field F) (w_field r) r.
Proof.
  unfold r_field, w_field. apply (exact_bind r_ulong (fun n s => _) [_] _ _ _ (exact_ulong _)).
  exact (exact_check (assert_ (1 =? 1)%N) r_result tt _ _ eq_refl (exact_result r)).
Qed.
Lemma exact_extract_reply l : exact (@r_extract_reply F (lenN l)) (w_extract_reply l) l.
Proof.
  unfold r_extract_reply, w_extract_reply. rewrite <- (map_id l) at 3.
  apply exact_count; apply Forall_forall; intros r _; [discriminate|apply exact_field].
Qed.

(* errors *)
Section Errors.
Variable title : N -> string.
Lemma errors_none (s : stream) : r_errors title (w_errors [] ++ s) = Ok (tt, s).
Proof. reflexivity. Qed.
Lemma errors_some es (s : stream) : es <> [] ->
  r_errors title (w_errors es ++ s) = Throw (EMsg (error_text title es)).
Proof.
  intros N. unfold r_errors, w_errors.
  change ((KULong (lenN es) :: map KStr es) ++ s) with (KULong (lenN es) :: (map KStr es ++ s)).
  cbn [r_ulong obind]. destruct (N.eqb_spec (lenN es) 0) as [Z|Z].
  - destruct es; [congruence|]. unfold lenN in Z. cbn [length] in Z. lia.
  - assert (X : exact (r_count (lenN es) (@r_str F)) (map KStr es) es).
    { rewrite <- concat_singles. rewrite <- (map_id es) at 3.
      apply exact_count; apply Forall_forall; intros x _; [discriminate|apply exact_str]. }
    destruct X as [X _]. rewrite X. reflexivity.
Qed.
Lemma errors_torn es p q : w_errors es = p ++ q -> q <> [] ->
  r_errors title p = Throw EStream /\ r_errors title (p ++ [@KTorn F]) = Throw EStream.
Proof.
  intros E N. destruct p as [|t p]; [split; reflexivity|]. cbn [app] in E. injection E as <- E.
  unfold r_errors. cbn [app r_ulong obind].
  destruct (N.eqb_spec (lenN es) 0) as [Z|Z].
  - destruct es; [|unfold lenN in Z; cbn [length] in Z; lia]. cbn in E. destruct p, q; try discriminate. congruence.
  - assert (X : exact (r_count (lenN es) (@r_str F)) (map KStr es) es).
    { rewrite <- concat_singles. rewrite <- (map_id es) at 3.
      apply exact_count; apply Forall_forall; intros x _; [discriminate|apply exact_str]. }
    destruct X as [_ X]. destruct (X p q E N) as [X1 X2]. rewrite X1, X2. auto.
Qed.
Lemma error_text_mentions es : mentions_in_order es (error_text title es).
Proof.
  unfold error_text.
  assert (X : forall p, mentions_in_order es (p ++ fold_right (fun e t => e ++ newline ++ t) "" es)%string).
  { induction es as [|e es IH]; intros p; cbn [mentions_in_order fold_right]; [exact I|].
    exists p. eexists. split; [reflexivity|]. apply IH. }
  specialize (X (title (lenN es) ++ newline)%string). now rewrite sapp_assoc in X.
Qed.
End Errors.

(* SCAN, AXES *)
Lemma exact_scan_request {M} (w_mars : M -> stream) r_mars l b :
  reads_back r_mars w_mars -> exact (r_scan_request r_mars) (w_scan_request w_mars l b) (l, b).
Proof.
  intros H. unfold r_scan_request, w_scan_request. cbn [app].
  apply (exact_bind r_bool (fun n s => _) [_] _ _ _ (exact_bool _)).
  apply (exact_ext (fun s => let* (l0, s0) := (let* (n, s1) := r_ulong s in r_count n r_mars s1) in Ok ((l0, b), s0))).
  { intros s. destruct (r_ulong s) as [[n s1]| |]; reflexivity. }
  apply (exact_map _ _ l (fun l => (l, b))).
  apply exact_list_id; apply Forall_forall; intros m _; apply H.
Qed.
Lemma exact_axes_request r z : exact (@r_axes_request F) (w_axes_request r z) (r, z).
Proof.
  unfold r_axes_request, w_axes_request.
  apply (exact_bind r_str (fun n s => _) [_] [_] _ _ (exact_str _)).
  apply (exact_map r_int _ z (fun z => (r, z)) (exact_int z)).
Qed.

Lemma set_insert_nodup vs : forall acc, NoDup (acc ++ vs) -> fold_left set_insert vs acc = acc ++ vs.
Proof.
  induction vs as [|v vs IH]; intros acc N; cbn [fold_left]; [now rewrite app_nil_r|].
  unfold set_insert at 2. replace (existsb (String.eqb v) acc) with false.
  - rewrite IH; rewrite <- app_assoc; [reflexivity|exact N].
  - symmetry. apply not_true_is_false. intros E. apply existsb_exists in E. destruct E as [x [I E]].
    apply String.eqb_eq in E. subst x. apply NoDup_remove in N. apply (proj2 N), in_or_app. auto.
Qed.
Lemma exact_axis a : NoDup (snd a) -> exact (@r_axis F) (w_axis a) a.
Proof.
  destruct a as [name vs]. cbn [snd]. intros N. unfold r_axis, w_axis. cbn [fst snd app].
  apply (exact_bind r_str (fun n s => _) [_] _ _ _ (exact_str _)).
  apply (exact_ext (fun s => let* (l0, s0) := (let* (n, s1) := r_ulong s in r_count n r_str s1) in
    Ok ((name, fold_left set_insert l0 []), s0))).
  { intros s. destruct (r_ulong s) as [[n s1]| |]; reflexivity. }
  replace vs with (fold_left set_insert vs []) at 3 by (apply (set_insert_nodup vs []); exact N).
  apply (exact_map _ _ vs (fun l => (name, fold_left set_insert l []))).
  rewrite <- concat_singles.
  apply exact_list_id; apply Forall_forall; intros x _; [discriminate|apply exact_str].
Qed.

Lemma sset_fold {V} (l : list (string * V)) : forall acc, NoDup (map fst (acc ++ l)) ->
  fold_left (fun m a => sset (fst a) (snd a) m) l acc = acc ++ l.
Proof.
  induction l as [|[k v] l IH]; intros acc N; cbn [fold_left]; [now rewrite app_nil_r|].
  cbn [fst snd]. unfold sset at 2. rewrite (proj2 (sfind_none k acc)).
  - rewrite IH; rewrite <- app_assoc; [reflexivity|exact N].
  - rewrite map_app in N. cbn [map fst] in N. apply NoDup_remove in N. intros I.
    apply (proj2 N), in_or_app. auto.
Qed.

(* a map sent in key order arrives in key order *)
Lemma exact_map_of {V} (f : @reader F (string * V)) (w : string * V -> stream) (l : list (string * V)) :
  (forall x, In x l -> w x <> [] /\ exact f (w x) x) -> NoDup (map fst l) ->
  exact (fun s => let* (n, s) := r_ulong s in
                  let* (l, s) := r_count n f s in
                  Ok (fold_left (fun m a => sset (fst a) (snd a) m) l [], s))
        (KULong (lenN l) :: concat (map w l)) l.
Proof.
  intros H N.
  apply (exact_ext (fun s => let* (l0, s0) := (let* (n, s1) := r_ulong s in r_count n f s1) in
    Ok (fold_left (fun m a => sset (fst a) (snd a) m) l0 [], s0))).
  { intros s. destruct (r_ulong s) as [[n s1]| |]; reflexivity. }
  replace l with (fold_left (fun m a => sset (fst a) (snd a) m) l []) at 3 by (apply (sset_fold l []); exact N).
  apply (exact_map _ _ l (fun l => fold_left (fun m a => sset (fst a) (snd a) m) l [])).
  apply exact_list_id; apply Forall_forall; intros x I; apply (H x I).
Qed.

Lemma ordered_keys {V} (m : list (string * V)) : NoDup (map fst m) -> NoDup (map fst (in_key_order m)).
Proof. apply Permutation_NoDup, Permutation_map, ssort_perm. Qed.
Lemma ordered_length {V} (m : list (string * V)) : lenN (in_key_order m) = lenN m.
Proof. unfold lenN. f_equal. symmetry. apply Permutation_length, ssort_perm. Qed.
Lemma ordered_in {V} (m : list (string * V)) x : In x (in_key_order m) -> In x m.
Proof. apply Permutation_in. symmetry. apply ssort_perm. Qed.

Lemma exact_axes_reply m : NoDup (map fst m) -> (forall a, In a m -> NoDup (snd a)) ->
  exact (@r_axes_reply F) (w_axes_reply m) (in_key_order m).
Proof.
  intros N D. unfold r_axes_reply, w_axes_reply. rewrite <- ordered_length.
  apply exact_map_of; [|now apply ordered_keys].
  intros a I. split; [discriminate|]. apply exact_axis, D. now apply ordered_in.
Qed.

(* FORWARD_SCAN *)
Lemma exact_scan_file f : exact (@r_scan_file F) (w_scan_file f) f.
Proof.
  destruct f as [name l]. unfold r_scan_file, w_scan_file. cbn [fst snd].
  apply (exact_bind r_str (fun n s => _) [_] _ _ _ (exact_str _)).
  apply (exact_map r_offsets _ l (fun l => (name, l)) (exact_offsets l)).
Qed.
Lemma exact_forward_scan_request m : NoDup (map fst m) ->
  exact (@r_forward_scan_request F) (w_forward_scan_request m) (in_key_order m).
Proof.
  intros N. unfold r_forward_scan_request, w_forward_scan_request. rewrite <- ordered_length.
  apply exact_map_of; [|now apply ordered_keys].
  intros a I. split; [discriminate|]. apply exact_scan_file.
Qed.

(* FORWARD_EXTRACT *)
Section Uri.
Variable w_uri : uri -> stream.
Variable r_uri : @reader F uri.
Hypothesis uri_reads_back : reads_back r_uri w_uri.


Lemma exact_forward_item i : exact (r_forward_item r_uri) (w_forward_item w_uri i) (received i).
Proof.
  destruct i as [r u]. unfold r_forward_item, w_forward_item, received. cbn [fst snd].
  apply (exact_bind r_request (fun n s => _) _ _ _ _ (exact_request _)).
  apply (exact_map r_uri _ u (fun u => (mk_request "" (r_ranges r) (r_hash r), as_file u))).
  apply uri_reads_back.
Qed.

Lemma exact_forward_file f : exact (r_forward_file r_uri) (w_forward_file w_uri f) (received_file f).
Proof.
  destruct f as [name l]. unfold r_forward_file, w_forward_file, received_file. cbn [fst snd app].
  apply (exact_bind r_str (fun n s => _) [_] _ _ _ (exact_str _)).
  apply (exact_ext (fun s => let* (l0, s0) := (let* (n, s1) := r_ulong s in r_count n (r_forward_item r_uri) s1) in
    Ok ((name, l0), s0))).
  { intros s. destruct (r_ulong s) as [[n s1]| |]; reflexivity. }
  apply (exact_map _ _ (map received l) (fun l => (name, l))).
  apply exact_list; apply Forall_forall; intros i _; [discriminate|apply exact_forward_item].
Qed.

Lemma exact_forward_extract_request m : NoDup (map fst m) ->
  exact (r_forward_extract_request r_uri) (w_forward_extract_request w_uri m) (map received_file m).
Proof.
  intros N. unfold r_forward_extract_request, w_forward_extract_request.
  assert (N' : NoDup (map fst (map received_file m))) by now rewrite map_map.
  apply (exact_ext (fun s => let* (l0, s0) := (let* (n, s1) := r_ulong s in r_count n (r_forward_file r_uri) s1) in
    Ok (fold_left (fun m a => sset (fst a) (snd a) m) l0 [], s0))).
  { intros s. destruct (r_ulong s) as [[n s1]| |]; reflexivity. }
  replace (map received_file m)
    with (fold_left (fun m a => sset (fst a) (snd a) m) (map received_file m) [])
    by (apply (sset_fold (map received_file m) []); exact N').
  apply (exact_map _ _ (map received_file m) (fun l => fold_left (fun m a => sset (fst a) (snd a) m) l [])).
  apply exact_list; apply Forall_forall; intros f _; [discriminate|apply exact_forward_file].
Qed.
End Uri.

Lemma w_result_some (r : result F) : w_result r <> [].
Proof. discriminate. Qed.

Lemma exact_forward_results sizes f : sfind (fst f) sizes = Some (lenN (snd f)) ->
  exact (@r_forward_results F sizes) (w_forward_results f) f.
Proof.
  destruct f as [name l]. cbn [fst snd]. intros E. unfold r_forward_results, w_forward_results. cbn [fst snd app].
  apply (exact_bind r_str (fun n s => _) [_] _ _ _ (exact_str _)).
  apply (exact_bind r_ulong (fun n s => _) [_] _ _ _ (exact_ulong _)).
  rewrite E. apply (exact_check (assert_ (lenN l =? lenN l)%N) _ tt); [now rewrite N.eqb_refl|].
  apply (exact_map (r_count (lenN l) r_result) _ l (fun l => (name, l))).
  rewrite <- (map_id l) at 3.
  apply exact_count; apply Forall_forall; intros r _; [apply w_result_some|apply exact_result].
Qed.
Lemma exact_forward_extract_reply sizes m : length sizes = length m ->
  (forall f, In f m -> sfind (fst f) sizes = Some (lenN (snd f))) ->
  exact (@r_forward_extract_reply F sizes) (w_forward_extract_reply m) m.
Proof.
  intros L H. unfold r_forward_extract_reply, w_forward_extract_reply.
  replace (lenN sizes) with (lenN m) by (unfold lenN; now rewrite L).
  rewrite <- (map_id m) at 3.
  apply exact_count; apply Forall_forall; intros f I; [discriminate|]. apply exact_forward_results, H, I.
Qed.

Lemma header_read type context (s : stream) : r_header (w_header type context ++ s) = Ok (type, s).
Proof. reflexivity. Qed.
Lemma exact_header type context : exact (@r_header F) (w_header type context) type.
Proof.
  unfold r_header, w_header. apply (exact_bind r_u16 (fun n s => _) [_] [_; _] _ _ (exact_u16 _)).
  cbn [negb N.eqb]. apply (exact_bind r_str (fun n s => _) [_] [_] _ _ (exact_str _)). apply exact_u16.
Qed.
End Proofs.
