From Verif Require Import Base BaseLemmas ModelStrings ModelInfo ModelSimple ModelCcsds ModelJumper ModelEngine ModelApi ModelRust SpecJumper SpecRust
  SpecApi SpecPython ProofsStrings ProofsJumper ProofsJumper3.
From Coq Require Import Lia.
Open Scope nat_scope.

(* ---- views ---- *)
Definition fresh_or_done {F} (h : handle F) (r : result F) : Prop :=
  h_result h = r /\ ((h_converted h = false /\ h_cache h = []) \/ (h_converted h = true /\ h_cache h = snd r)).

Lemma handle_new_good {F} (r : result F) : fresh_or_done (handle_new r) r.
Proof. split; [reflexivity|left; auto]. Qed.

Definition shown {F} (r : result F) (i : N) : option (view F) :=
  match nth_error (fst r) (N.to_nat i) with
  | Some v => Some (mk_view v (nth (N.to_nat i) (snd r) []))
  | None => None
  end.

Lemma or_empty_nth {A} (l : list (list A)) n : or_empty (nth_error l n) = nth n l [].
Proof. unfold or_empty. destruct (nth_error l n) eqn:E; [symmetry; now apply nth_error_nth|symmetry; apply nth_overflow; now apply nth_error_None]. Qed.

Lemma rs_range_shown {F} (h : handle F) r i :
  fresh_or_done h r -> fst (rs_range h i) = shown r i /\ fresh_or_done (snd (rs_range h i)) r.
Proof.
  intros [Hr Hc]. unfold rs_range, num_ranges, shown, values_at, masks_at. rewrite Hr.
  destruct (N.leb_spec (lenN (fst r)) i) as [Hi|Hi].
  - replace (nth_error (fst r) (N.to_nat i)) with (@None (list F))
      by (symmetry; apply nth_error_None; unfold lenN in Hi; lia).
    cbn [fst snd]. split; [reflexivity|split; auto].
  - destruct (nth_error (fst r) (N.to_nat i)) as [v|] eqn:E.
    2:{ apply nth_error_None in E. unfold lenN in Hi. lia. }
    cbn [fst snd or_empty]. unfold convert_masks. destruct Hc as [[Hf Hn]|[Ht Hn]].
    + rewrite Hf, Hn, Hr. cbn [h_cache app]. split; [now rewrite or_empty_nth|].
      split; [reflexivity|right; cbn; auto].
    + rewrite Ht, Hn. split; [now rewrite or_empty_nth|]. split; [exact Hr|right; auto].
Qed.

Theorem ranges_shown {F} (r : result F) (is : list N) :
  fst (rs_ranges (handle_new r) is) = map (shown r) is.
Proof.
  assert (H : forall h, fresh_or_done h r -> fst (rs_ranges h is) = map (shown r) is).
  { induction is as [|i is IH]; intros h Hh; [reflexivity|]. cbn [rs_ranges].
    destruct (rs_range h i) as [v h1] eqn:E. destruct (rs_range_shown h r i Hh) as [Hv H1].
    rewrite E in Hv, H1. cbn [fst snd] in Hv, H1.
    destruct (rs_ranges h1 is) as [vs h2] eqn:E2. cbn [fst]. specialize (IH h1 H1). rewrite E2 in IH.
    cbn [fst] in IH. cbn [map]. now rewrite Hv, IH. }
  apply H, handle_new_good.
Qed.

Lemma rs_ranges_state {F} (h : handle F) r is : fresh_or_done h r -> fresh_or_done (snd (rs_ranges h is)) r.
Proof.
  revert h. induction is as [|i is IH]; intros h Hh; [exact Hh|]. cbn [rs_ranges].
  destruct (rs_range h i) as [v h1] eqn:E. destruct (rs_range_shown h r i Hh) as [_ H1]. rewrite E in H1.
  destruct (rs_ranges h1 is) as [vs h2] eqn:E2. cbn [snd] in *. specialize (IH h1 H1). now rewrite E2 in IH.
Qed.

Lemma map_shown {F} (vals : list (list F)) (masks : list (list N)) :
  length masks = length vals ->
  map (fun n => shown (vals, masks) (N.of_nat n)) (seq 0 (length vals))
    = map (fun p => Some (mk_view (fst p) (snd p))) (combine vals masks).
Proof.
  intros H. apply nth_ext with (d := None) (d' := None).
  - rewrite !map_length, seq_length, combine_length. lia.
  - rewrite map_length, seq_length. intros n Hn.
    rewrite (nth_indep (map _ (seq 0 _)) None (shown (vals, masks) (N.of_nat 0)))
      by (rewrite map_length, seq_length; exact Hn).
    rewrite (map_nth (fun n => shown (vals, masks) (N.of_nat n)) (seq 0 (length vals)) 0 n), seq_nth by exact Hn.
    rewrite (nth_indep (map _ (combine vals masks)) None (Some (mk_view (fst (@nil F, @nil N)) (snd (@nil F, @nil N)))))
      by (rewrite map_length, combine_length; lia).
    rewrite (map_nth (fun p => Some (mk_view (fst p) (snd p)))), combine_nth by lia.
    unfold shown. cbn [fst snd plus]. rewrite Nnat.Nat2N.id.
    rewrite (nth_error_nth' vals [] Hn). reflexivity.
Qed.

Theorem iter_shown {F} (vals : list (list F)) (masks : list (list N)) :
  length masks = length vals ->
  fst (rs_iter (handle_new (vals, masks))) = map (fun p => mk_view (fst p) (snd p)) (combine vals masks).
Proof.
  intros H. unfold rs_iter.
  destruct (rs_ranges (handle_new (vals, masks)) (indices (handle_new (vals, masks)))) as [vs h1] eqn:E.
  cbn [fst]. pose proof (ranges_shown (vals, masks) (indices (handle_new (vals, masks)))) as R. rewrite E in R. cbn [fst] in R.
  rewrite R. unfold indices, num_ranges. cbn [h_result handle_new fst]. unfold lenN. rewrite Nnat.Nat2N.id, map_map.
  rewrite map_shown by exact H. induction (combine vals masks) as [|p l IH]; [reflexivity|].
  cbn [map flat_map]. now rewrite IH.
Qed.

Theorem total_shown {F} (r : result F) :
  (N.of_nat (count_values r) < two64)%N -> total_values (handle_new r) = N.of_nat (count_values r).
Proof.
  intros H. unfold total_values, indices, num_ranges, values_len, values_at. cbn [h_result handle_new].
  unfold lenN at 2. rewrite Nnat.Nat2N.id. destruct r as [vals masks]. unfold count_values in *. cbn [fst] in *.
  assert (G : forall pre l s, vals = pre ++ l ->
    (s + N.of_nat (sum_len l) < two64)%N ->
    fold_left (fun s i => add64 s (match nth_error vals (N.to_nat i) with Some v => lenN v | None => 0%N end))
      (map N.of_nat (seq (length pre) (length l))) s
    = (s + N.of_nat (sum_len l))%N).
  { intros pre l. revert pre. induction l as [|v l IH]; intros pre s E B; cbn [length seq map fold_left sum_len fold_right].
    - lia.
    - rewrite Nnat.Nat2N.id. assert (En : nth_error vals (length pre) = Some v) by (rewrite E, nth_error_app2, Nat.sub_diag by lia; reflexivity).
      rewrite En.
      cbn [sum_len fold_right] in B. fold (sum_len l) in *. unfold add64, w64, lenN.
      rewrite N.mod_small by (clear -B; lia).
      replace (S (length pre)) with (length (pre ++ [v])) by (rewrite app_length; cbn; lia).
      rewrite IH by (try (rewrite <- app_assoc; exact E); clear -B; lia). clear. lia. }
  apply (G [] vals 0%N eq_refl). exact H.
Qed.

(* ---- validity ---- *)
Lemma land_bit w b : (b < 64)%N -> negb (N.land w (w64 (N.shiftl 1 b)) =? 0)%N = N.testbit w b.
Proof.
  intros Hb. rewrite N.shiftl_1_l. unfold w64.
  assert (Hp : (2 ^ b < two64)%N) by (change two64 with (2 ^ 64)%N; apply N.pow_lt_mono_r; lia).
  rewrite N.mod_small by exact Hp. destruct (N.testbit w b) eqn:E.
  - destruct (N.eqb_spec (N.land w (2 ^ b)) 0) as [Z|Z]; [|reflexivity]. exfalso.
    assert (T : N.testbit (N.land w (2 ^ b)) b = true) by (rewrite N.land_spec, E, N.pow2_bits_true; reflexivity).
    rewrite Z in T. now rewrite N.bits_0 in T.
  - replace (N.land w (2 ^ b)) with 0%N; [reflexivity|]. symmetry. apply N.bits_inj. intros n. rewrite N.land_spec, N.bits_0.
    destruct (N.eqb_spec b n) as [->|D]; [now rewrite E|]. rewrite N.pow2_bits_false by exact D. apply andb_false_r.
Qed.

Theorem valid_is_present present words i :
  is_mask present words -> i < length present -> is_valid words (N.of_nat i) = nth i present false.
Proof.
  intros [Hl Hw] Hi. unfold is_valid.
  assert (Hd : i / 64 < length words).
  { rewrite Hl. apply Nat.div_lt_upper_bound; [lia|].
    pose proof (Nat.div_mod_eq (length present + 63) 64) as D.
    pose proof (Nat.mod_upper_bound (length present + 63) 64 ltac:(lia)) as M.
    clear -D M Hi. lia. }
  destruct words as [|w0 ws] eqn:W; [cbn in Hd; lia|]. rewrite <- W in *. clear W w0 ws.
  replace (N.of_nat i / 64)%N with (N.of_nat (i / 64)) by (rewrite Nnat.Nat2N.inj_div; reflexivity).
  replace (N.of_nat i mod 64)%N with (N.of_nat (i mod 64)) by (rewrite Nnat.Nat2N.inj_mod; reflexivity).
  destruct (N.leb_spec (lenN words) (N.of_nat (i / 64))) as [B|_]; [unfold lenN in B; lia|].
  rewrite Nnat.Nat2N.id. destruct (nth_error words (i / 64)) as [w|] eqn:E.
  2:{ apply nth_error_None in E. lia. }
  assert (M : i mod 64 < 64) by (apply Nat.mod_upper_bound; lia).
  rewrite land_bit by lia. destruct (Hw _ _ E) as [_ Hb]. rewrite Hb by exact M.
  f_equal. rewrite (Nat.div_mod_eq i 64) at 3. lia.
Qed.

(* beyond the ranges' points *)
Theorem valid_beyond present words i :
  is_mask present words -> length present <= i ->
  is_valid words (N.of_nat i) = negb (i / 64 <? (length present + 63) / 64).
Proof.
  intros [Hl Hw] Hi. unfold is_valid. destruct (Nat.ltb_spec (i / 64) ((length present + 63) / 64)) as [B|B].
  - rewrite <- Hl in B. destruct words as [|w0 ws] eqn:W; [cbn in B; lia|]. rewrite <- W in *. clear W w0 ws.
    replace (N.of_nat i / 64)%N with (N.of_nat (i / 64)) by (rewrite Nnat.Nat2N.inj_div; reflexivity).
    replace (N.of_nat i mod 64)%N with (N.of_nat (i mod 64)) by (rewrite Nnat.Nat2N.inj_mod; reflexivity).
    destruct (N.leb_spec (lenN words) (N.of_nat (i / 64))) as [C|_]; [unfold lenN in C; lia|].
    rewrite Nnat.Nat2N.id. destruct (nth_error words (i / 64)) as [w|] eqn:E.
    2:{ apply nth_error_None in E. lia. }
    assert (M : i mod 64 < 64) by (apply Nat.mod_upper_bound; lia).
    rewrite land_bit by lia. destruct (Hw _ _ E) as [_ Hb]. rewrite Hb by exact M.
    cbn [negb]. apply nth_overflow. rewrite <- (Nat.mul_comm 64), <- Nat.div_mod_eq. exact Hi.
  - rewrite <- Hl in B. destruct words as [|w0 ws] eqn:W; [reflexivity|]. rewrite <- W in *. clear W w0 ws.
    replace (N.of_nat i / 64)%N with (N.of_nat (i / 64)) by (rewrite Nnat.Nat2N.inj_div; reflexivity).
    destruct (N.leb_spec (lenN words) (N.of_nat (i / 64))) as [_|C]; [reflexivity|unfold lenN in C; lia].
Qed.

Lemma enumerate_from {F} (valid : N -> bool) (vs : list F) (present : list bool) k :
  length vs = length present ->
  (forall i, i < length present -> valid (N.of_nat (k + i)) = nth i present false) ->
  map (fun p => (snd p, valid (fst p))) (combine (map N.of_nat (seq k (length vs))) vs) = combine vs present /\
  map snd (filter (fun p => valid (fst p)) (combine (map N.of_nat (seq k (length vs))) vs)) = present_values vs present.
Proof.
  revert present k. induction vs as [|v vs IH]; intros [|b present] k Hl Hv; try discriminate Hl; [split; reflexivity|].
  cbn [length seq map combine filter fst snd present_values].
  pose proof (Hv 0 ltac:(cbn; lia)) as H0. rewrite Nat.add_0_r in H0. cbn [nth] in H0.
  destruct (IH present (S k)) as [A B].
  - now injection Hl.
  - intros i Hi. replace (S k + i) with (k + S i) by lia. rewrite Hv by (cbn; lia). reflexivity.
  - rewrite H0, A. split; [reflexivity|]. destruct b; cbn [map snd]; now rewrite B.
Qed.

Theorem validity_shown {F} (vs : list F) (present : list bool) (words : list N) :
  is_mask present words -> length vs = length present ->
  iter_with_validity (mk_view vs words) = combine vs present /\
  valid_values (mk_view vs words) = present_values vs present.
Proof.
  intros Hm Hl. unfold iter_with_validity, valid_values, enumerate. cbn [v_values v_masks].
  apply enumerate_from; [exact Hl|]. intros i Hi. rewrite Nat.add_0_l. now apply valid_is_present.
Qed.

Theorem no_masks_all_valid {F} (vs : list F) i :
  is_valid [] i = true /\ valid_values (mk_view vs []) = vs.
Proof.
  split; [reflexivity|]. unfold valid_values, enumerate. cbn [v_values v_masks].
  generalize 0. induction vs as [|v vs IH]; intros k; [reflexivity|]. cbn [length seq map combine filter is_valid snd].
  now rewrite IH.
Qed.

(* every field: the views are the cuts of the field, the validity its presence *)
Theorem rust_views_of_field {F} (A : farith F) aec file offset inf field present (l : list (N * N)) :
  field_of_message A aec file offset inf field present -> i_spherical inf = 0%Z -> good_request (lenN field) l ->
  exists res, extract A aec file offset inf l = Ok res /\
    map v_values (fst (rs_iter (handle_new res))) = map (cut field) l /\
    map iter_with_validity (fst (rs_iter (handle_new res)))
      = map (fun i => combine (cut field i) (cut present i)) l /\
    map valid_values (fst (rs_iter (handle_new res)))
      = map (fun i => present_values (cut field i) (cut present i)) l.
Proof.
  intros Hf Hs Hg.
  assert (Hlp : length field = length present).
  { destruct Hf; [rewrite !repeat_length; reflexivity|rewrite repeat_length; reflexivity|].
    unfold masked_field. rewrite map_length, seq_length. reflexivity. }
  eexists. split; [apply (extract_field A aec file offset inf field present l Hf Hs Hg)|].
  rewrite iter_shown by (rewrite !map_length; reflexivity).
  assert (Hc : forall i : N * N, length (cut field i) = length (cut present i)).
  { intros i. unfold cut, slice. rewrite !firstn_length, !skipn_length. lia. }
  clear -Hc. induction l as [|i l IH]; [repeat split|]. destruct IH as [I1 [I2 I3]].
  cbn [map combine fst snd]. rewrite I1, I2, I3.
  destruct (validity_shown (cut field i) (cut present i) (to_bitset (cut present i)) (to_bitset_mask _) (Hc i)) as [V1 V2].
  cbn [v_values]. rewrite V1, V2. repeat split.
Qed.

(* ---- errors ---- *)
Lemma strip_app p s : strip_prefix p (p ++ s)%string = Some s.
Proof. induction p as [|c p IH]; [reflexivity|]. cbn. now rewrite Ascii.eqb_refl. Qed.
Lemma strip_some p s r : strip_prefix p s = Some r -> s = (p ++ r)%string.
Proof.
  revert s. induction p as [|c p IH]; intros s H; [now injection H as <-|]. destruct s as [|b s]; [discriminate|].
  cbn in H. destruct (Ascii.eqb_spec c b) as [->|]; [|discriminate]. cbn. f_equal. now apply IH.
Qed.

Theorem eckit_variant is_a k what : of_kind is_a k -> rs_error_of (TEckit is_a what) = Eckit_ k what.
Proof.
  intros [He [Hk Hu]]. unfold rs_error_of, trycatch, clauses.
  assert (Hn : forall k', k' <> k -> k' <> KException -> is_a k' = false).
  { intros k' A B. destruct (is_a k') eqn:E; [|reflexivity]. destruct (Hu k' E); contradiction. }
  destruct k; cbn [caught]; rewrite ?Hk, ?He, ?(Hn KSeriousBug), ?(Hn KUserError), ?(Hn KBadParameter),
    ?(Hn KNotImplemented), ?(Hn KOutOfRange), ?(Hn KFileError), ?(Hn KAssertionFailed) by discriminate; reflexivity.
Qed.

Lemma instance_of_kind k : of_kind (instance_of k) k.
Proof. unfold instance_of. destruct k; repeat split; intros k' H; destruct k'; auto; discriminate H. Qed.

Theorem eckit_never_gribjump is_a what text :
  is_a KException = true -> rs_error_of (TEckit is_a what) <> Gribjump_ text.
Proof.
  intros He. unfold rs_error_of, trycatch, clauses. cbn [caught]. rewrite He.
  repeat match goal with |- context [if ?c then _ else _] => destruct c end; discriminate.
Qed.

Theorem std_variant what : rs_error_of (TStd what) = Gribjump_ what <-> ~ looks_prefixed what.
Proof.
  unfold rs_error_of, trycatch, rs_from, looks_prefixed.
  assert (G : forall l, classify l what = Gribjump_ what <-> ~ exists p k rest, In (p, k) l /\ what = (p ++ rest)%string).
  { induction l as [|[p k] l IH].
    - cbn. split; [intros _ [p [k [r [[] _]]]]|reflexivity].
    - cbn [classify]. destruct (strip_prefix p what) as [r|] eqn:E.
      + split; [discriminate|]. intros H. exfalso. apply H. exists p, k, r. split; [now left|now apply strip_some].
      + rewrite IH. split; intros H N; apply H.
        * destruct N as [p' [k' [r [[Hi|Hi] Hw]]]]; [|now exists p', k', r].
          injection Hi as <- <-. subst what. now rewrite strip_app in E.
        * destruct N as [p' [k' [r [Hi Hw]]]]. exists p', k', r. split; [now right|exact Hw]. }
  apply G.
Qed.

(* ---- requests ---- *)
(* a request built by new() and the setters has what was set last *)
Theorem built_request filename ranges hash s o h p :
  q_filename (rs_path_new filename ranges hash) = filename /\ q_ranges (rs_path_new filename ranges hash) = ranges /\
  q_hash (rs_path_new filename ranges hash) = hash /\ q_scheme (rs_path_new filename ranges hash) = "file"%string /\
  q_offset (rs_path_new filename ranges hash) = 0%N /\ q_host (rs_path_new filename ranges hash) = None /\
  q_port (rs_path_new filename ranges hash) = 0%Z /\
  forall r, with_scheme r s = mk_rs_path_request (q_filename r) s (q_offset r) (q_host r) (q_port r) (q_ranges r) (q_hash r) /\
            with_offset r o = mk_rs_path_request (q_filename r) (q_scheme r) o (q_host r) (q_port r) (q_ranges r) (q_hash r) /\
            with_host r h = mk_rs_path_request (q_filename r) (q_scheme r) (q_offset r) (Some h) (q_port r) (q_ranges r) (q_hash r) /\
            with_port r p = mk_rs_path_request (q_filename r) (q_scheme r) (q_offset r) (q_host r) p (q_ranges r) (q_hash r).
Proof. repeat split. Qed.

Theorem paths_handed_on {F W} (i : impl F W) r reqs :
  rs_extract_from_paths i (r :: reqs) = as_iterator (m_extract_paths i (map cpp_path_request (r :: reqs))).
Proof. reflexivity. Qed.
Theorem requests_handed_on {F W} (i : impl F W) r reqs : rs_extract i (r :: reqs) = as_iterator (m_extract i (r :: reqs)).
Proof. reflexivity. Qed.

Theorem path_request_kept r :
  p_path (cpp_path_request r) = q_filename r /\ p_scheme (cpp_path_request r) = q_scheme r /\
  p_offset (cpp_path_request r) = q_offset r /\ p_port (cpp_path_request r) = q_port r /\
  p_ranges (cpp_path_request r) = q_ranges r /\ p_hash (cpp_path_request r) = q_hash r /\
  (forall h, q_host r = Some h -> p_host (cpp_path_request r) = h) /\
  (q_host r = None -> p_host (cpp_path_request r) = ""%string).
Proof. repeat split; cbn; intros; [now rewrite H|now rewrite H]. Qed.

Theorem scan_ignores_text {W} (scan : list mars -> bool -> @action W N) :
  by_keys scan -> forall (r r' : list string) b, length r = length r' ->
  forall w, rs_scan_requests scan r b w = rs_scan_requests scan r' b w.
Proof.
  intros Hs r r' b Hl w. destruct r as [|x r], r' as [|x' r']; try discriminate Hl; [reflexivity|].
  unfold rs_scan_requests. apply Hs. rewrite !map_map. cbn [of_verb mr_keys].
  change (map (fun _ : string => @nil (string * list string)) (x :: r)
          = map (fun _ : string => @nil (string * list string)) (x' :: r')).
  clear -Hl. revert Hl. generalize (x :: r) (x' :: r'). intros l. induction l as [|y l IH]; intros [|y' l'] H; try discriminate H; [reflexivity|].
  cbn [map]. f_equal. apply IH. now injection H.
Qed.
