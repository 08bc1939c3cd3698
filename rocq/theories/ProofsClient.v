(* From the requests of Rust and C users to what they see, for C104. *)
From Coq Require Import Lia.
From Verif Require Import Base BaseLemmas ModelInfo ModelSimple ModelJumper ModelStrings ModelEngine ModelApi ModelRust ModelPython ModelUser ModelClient
     SpecEngine SpecJumper SpecBuild SpecApi SpecRust SpecPython SpecSystem ModelRemote ModelForward SpecRemote SpecForward SpecDeploy SpecPaths SpecUser SpecClient
     ProofsStrings ProofsEngine ProofsApi ProofsRust ProofsPython ProofsPython2 ProofsSystem ProofsPaths ProofsUser.

(* ---- loops over results ---- *)
Section Loops.
Context {R : Type}.
Variable rs : list R.
Hypothesis fits : (lenN rs < two64)%N.
Notation after := (after rs).

Lemma rust_next_after k : rust_next (after k) = Ok (nth_error rs k, after (S k)).
Proof.
  unfold rust_next, bridge_next. rewrite has_next_after by exact fits. pose proof (next_after rs fits k) as Hn.
  destruct (Nat.ltb_spec k (length rs)) as [L|L]; cbn [negb].
  - rewrite Hn. cbn [obind]. destruct (nth_error rs k) eqn:E; [reflexivity|]. apply nth_error_None in E; lia.
  - unfold next in Hn. rewrite has_next_after in Hn by exact fits. destruct (Nat.ltb_spec k (length rs)); [lia|]. exact Hn.
Qed.
Lemma skip_nth k (r : R) : nth_error rs k = Some r -> skipn k rs = r :: skipn (S k) rs.
Proof. intros E. rewrite <- skipn_tl. rewrite <- skipn_hd in E. destruct (skipn k rs); cbn in *; [discriminate|]. congruence. Qed.
Lemma rust_for_after f : forall k, length rs <= k + f -> rust_for f (after k) = Ok (skipn k rs).
Proof.
  induction f as [|f IH]; intros k H; cbn [rust_for]; rewrite rust_next_after; cbn [obind];
    (destruct (nth_error rs k) as [r|] eqn:E; [|apply nth_error_None in E; now rewrite skipn_all2 by lia]).
  - assert (k < length rs) by (apply nth_error_Some; congruence). lia.
  - rewrite IH by lia. cbn. now rewrite (skip_nth k r E).
Qed.
Lemma c_for_after f : forall k, length rs <= k + f -> c_for f (Some (after k)) = Ok (skipn k rs).
Proof.
  induction f as [|f IH]; intros k H; cbn [c_for c_next]; rewrite next_after by exact fits; cbn [obind];
    (destruct (nth_error rs k) as [r|] eqn:E; cbn [obind]; [|apply nth_error_None in E; now rewrite skipn_all2 by lia]).
  - assert (k < length rs) by (apply nth_error_Some; congruence). lia.
  - rewrite IH by lia. cbn. now rewrite (skip_nth k r E).
Qed.
Theorem rust_loop : rust_for (length rs) (source_new (map Some rs)) = Ok rs.
Proof. rewrite <- after_0. now rewrite rust_for_after by lia. Qed.
Theorem c_loop : c_for (length rs) (Some (source_new (map Some rs))) = Ok rs.
Proof. rewrite <- after_0. now rewrite c_for_after by lia. Qed.
End Loops.

(* ---- what is seen of a right result ---- *)
Section Shown.
Context {F : Type}.
Variable A : farith F.
Variable m : grib F.
Variables S bytes : list N.
Variable off : Z.
Notation value := (point_value A m S bytes off).
Notation present := (point_present A m S bytes off).

Lemma presence p : is_some (m_point m bytes off (fun X => X) S p) = present p.
Proof. unfold point_present, m_point. now destruct (nth p _ false). Qed.
Lemma stored_values l x : stored_result m bytes off S A l x ->
  fst x = map (fun i => map value (points i)) l /\ Forall2 (fun i w => is_mask (map present (points i)) w) l (snd x).
Proof.
  intros [V M]. split.
  - clear M. induction V as [|i v l vs E _ IH]; [reflexivity|]. cbn [map]. now rewrite E, IH.
  - unfold right_masks in M. eapply F2_imp; [|exact M]. cbn. intros i w H.
    erewrite map_ext; [exact H|]. intros p. symmetry. apply presence.
Qed.
Lemma asked_length l : length (asked_points l) = sum_len (map (fun i => map value (points i)) l).
Proof.
  unfold asked_points, sum_len. induction l as [|i l IH]; cbn [flat_map map fold_right]; [reflexivity|].
  rewrite app_length, map_length, IH. reflexivity.
Qed.
Lemma asked_small l : supported m bytes off -> good_request (Z.to_N (m_points m)) l -> (N.of_nat (length (asked_points l)) < two64)%N.
Proof.
  intros Hsup (Hne & Hb & Hs).
  assert (Forall2 (fun i v => length v = size_of i) l (map (fun i => map value (points i)) l)) as LV.
  { clear. induction l; cbn; constructor; [|assumption]. now rewrite map_length, points_length. }
  pose proof (sizes_fit l 0%N _ Hb Hs ltac:(apply Forall_forall; lia) ltac:(lia)) as Q.
  rewrite <- (total_sizes l _ LV) in Q.
  assert (length (asked_points l) = total (map (fun i => map value (points i)) l)) as E.
  { rewrite asked_length. unfold total, sum_len. clear. induction (map _ l) as [|v vs IH]; cbn; [reflexivity|]. now rewrite app_length, IH. }
  rewrite E. destruct Hsup as (_ & _ & _ & _ & _ & Hp & _). unfold two64. clear - Q Hp. lia.
Qed.
Lemma present_only ps : present_values (map value ps) (map present ps) = flat_map (present_value A m S bytes off) ps.
Proof.
  induction ps as [|p ps IH]; cbn [map present_values flat_map]; [reflexivity|]. rewrite IH.
  unfold point_present, present_value, point_value. now destruct (m_point m bytes off (code_value m A) S p).
Qed.
Lemma rust_of_stored l x : supported m bytes off -> good_request (Z.to_N (m_points m)) l ->
  stored_result m bytes off S A l x -> rust_shows A m S bytes off l (handle_new x).
Proof.
  intros Hs Hg H. apply stored_values in H as [V M]. destruct x as [vals masks]. cbn [fst snd] in *. subst vals.
  pose proof (asked_small l Hs Hg) as Hn.
  assert (length masks = length l) as LM by (apply Forall2_length in M; auto).
  repeat split.
  - unfold num_ranges, lenN. cbn. now rewrite map_length.
  - unfold point_count. rewrite total_shown; unfold count_values; cbn [fst]; rewrite <- asked_length; auto.
  - rewrite iter_shown by (rewrite map_length; exact LM). clear - M. induction M as [|i w l ws Hw _ IH]; cbn [map combine]; [reflexivity|].
    rewrite IH. cbn [fst snd]. destruct (validity_shown (map value (points i)) (map present (points i)) w Hw) as [-> _]; [now rewrite !map_length|].
    f_equal. clear. induction (points i); cbn; congruence.
  - rewrite iter_shown by (rewrite map_length; exact LM). clear - M. induction M as [|i w l ws Hw _ IH]; cbn [map combine]; [reflexivity|].
    rewrite IH. cbn [fst snd]. destruct (validity_shown (map value (points i)) (map present (points i)) w Hw) as [_ ->]; [now rewrite !map_length|].
    now rewrite present_only.
Qed.
Lemma mask_total l masks : Forall2 (fun i w => is_mask (map present (points i)) w) l masks -> total masks = word_count l.
Proof.
  unfold total. induction 1 as [|i w l ws [H _] _ IH]; cbn; [reflexivity|]. now rewrite app_length, IH, H, map_length.
Qed.
Lemma words_small l : word_count l <= length (asked_points l).
Proof.
  unfold asked_points. induction l as [|i l IH]; cbn [word_count fold_right flat_map length]; [lia|].
  rewrite app_length. fold (points i). fold (word_count l). pose proof (Nat.div_le_upper_bound (length (points i) + 63) 64 (length (points i))) as D.
  destruct (length (points i)) as [|n] eqn:E; [cbn; unfold points in E; lia|]. specialize (D ltac:(lia) ltac:(lia)). unfold points in *. lia.
Qed.
Lemma c_of_stored zero l x : supported m bytes off -> good_request (Z.to_N (m_points m)) l ->
  stored_result m bytes off S A l x -> c_shows A m S bytes off zero l x.
Proof.
  intros Hs Hg H. apply stored_values in H as [V M]. destruct x as [vals masks]. cbn [fst snd] in *. subst vals.
  pose proof (asked_small l Hs Hg) as Hn. exists masks. split; [exact M|]. unfold c_read. cbn [fst snd].
  assert (concat (map (fun i => map value (points i)) l) = map value (asked_points l)) as E.
  { unfold asked_points. clear. induction l as [|i l IH]; cbn [map concat flat_map]; [reflexivity|]. now rewrite IH, map_app. }
  assert (total (map (fun i => map value (points i)) l) = point_count l) as T.
  { unfold total, point_count. now rewrite E, map_length. }
  rewrite result_values_exact, T.
  2: now rewrite T. 2: exact Hn. 2: now unfold lenN; rewrite repeat_length.
  rewrite N.eqb_refl. cbn [checked obind].
  assert (N.of_nat (word_count l) < two64)%N as Hw.
  { pose proof (words_small l). unfold point_count in *. clear - H Hn. lia. }
  rewrite result_mask_large, (mask_total l masks M).
  2: exact Hw. 2: now unfold lenN; rewrite repeat_length. 2: now rewrite (mask_total l masks M).
  rewrite N.eqb_refl. cbn [checked obind]. rewrite E, skipn_all2 by (rewrite repeat_length; lia). now rewrite app_nil_r.
Qed.
End Shown.

(* ---- put together ---- *)
Section User.
Context {F W : Type}.
Variable o : outside F.
Variable P : string -> Prop.
Variable cfg : ModelEngine.config.

Lemma spelled_canonical drop text d : spells text d -> canonical drop text = canonical drop (request_string d).
Proof. intros [->| ->]; [reflexivity|apply canonical_verb]. Qed.

Lemma answers listing qs reqs res : Forall (fine_wanted cfg) qs ->
  plain_listing (c_ignore_ym cfg) listing -> duplicate_free (c_ignore_ym cfg) listing ->
  Forall2 request_for qs reqs -> right_results o P cfg reqs listing res -> Forall2 (cpp_sees o P cfg listing) qs res.
Proof.
  intros HA PL DF R RR. unfold right_results in RR.
  pose proof (canon_position (c_ignore_ym cfg) reqs false ltac:(discriminate)) as CP.
  revert res RR. revert HA CP. generalize (canon_requests (c_ignore_ym cfg) false reqs) as cs.
  induction R as [|q r qs reqs (T & Ra & Ha) R IH]; intros cs HA CP res RR.
  - inversion CP; subst. inversion RR; subst. constructor.
  - inversion CP as [|? c ? cs' C1 C2]; subst. inversion RR as [|? x ? res' X1 X2]; subst.
    inversion HA as [|? ? PF A2]; subst.
    constructor; [|eapply IH; eauto]. clear IH A2 C2 X2 R RR CP HA.
    destruct C1 as (C1 & C2 & d & D & C3). rewrite (spelled_canonical _ _ _ T) in C3. rewrite C3 in X1.
    destruct (named_entry _ d _ _ PF PL DF D) as [E1 E2]. rewrite C1, C2, Ra, Ha in X1.
    split.
    + intros e I N m S bytes off M. rewrite (E1 e I N) in X1. exact (X1 m S bytes off M).
    + intros N. rewrite (E2 N) in X1. exact X1.
Qed.
Lemma field_imp {X Y} (s : grib F -> list N -> list N -> Z -> list (N * N) -> X -> Prop) (n : X -> Prop)
    (s' : grib F -> list N -> list N -> Z -> list (N * N) -> Y -> Prop) (n' : Y -> Prop) listing q x y :
  (forall m S bytes off, supported m bytes off -> good_request (Z.to_N (m_points m)) (wt_ranges q) -> s m S bytes off (wt_ranges q) x -> s' m S bytes off (wt_ranges q) y) ->
  (n x -> n' y) -> of_its_field o P cfg s n listing q x -> of_its_field o P cfg s' n' listing q y.
Proof.
  intros H1 H2 [A B]. split.
  - intros e I N m S bytes off M. destruct (A e I N m S bytes off M) as [G V]. split; [exact G|]. intros Gd. apply H1; auto.
    destruct M as (_ & _ & _ & (_ & Su & _)). exact Su.
  - intros N. destruct (B N) as [C D]. auto.
Qed.
Lemma rust_of_cpp listing q x : cpp_sees o P cfg listing q x -> rust_sees o P cfg listing q (handle_new x).
Proof.
  apply field_imp; [|intros ->; split; reflexivity]. intros m S bytes off Su Gd H. now apply rust_of_stored.
Qed.
Lemma c_of_cpp zero listing q x : cpp_sees o P cfg listing q x -> c_sees o P cfg zero listing q x.
Proof.
  apply field_imp.
  - intros m S bytes off Su Gd H. now apply c_of_stored.
  - intros -> n words [L U]. unfold c_read. cbn [fst snd]. rewrite result_values_exact.
    2: reflexivity. 2: exact U. 2: now unfold lenN; rewrite repeat_length.
    cbn [total concat length]. destruct (N.eqb_spec (N.of_nat 0) (N.of_nat n)) as [E|_]; [lia|]. reflexivity.
Qed.
Lemma F2_map_r {X Y Z} (f : Y -> Z) (R : X -> Z -> Prop) l m : Forall2 (fun x y => R x (f y)) l m -> Forall2 R l (map f m).
Proof. induction 1; cbn; constructor; auto. Qed.

(* a call, whatever comes out of it *)
Theorem rust_call (a : @action W (list (result F))) w :
  (forall res, fst (a w) = Ok res -> (lenN res < two64)%N) ->
  rs_fetch (as_iterator a) w = (omap (map handle_new) (fst (a w)), snd (a w)).
Proof.
  intros H. unfold rs_fetch, as_iterator, amap. destruct (a w) as [[res|e|] w']; cbn [fst snd omap obind] in *; try reflexivity.
  cbn [source_new s_data]. rewrite map_length, rust_loop by auto. reflexivity.
Qed.
Theorem cpp_call (a : @action W (list (result F))) w res :
  fst (a w) = Ok res -> (lenN res < two64)%N ->
  exists s s', fst (as_iterator a w) = Ok s /\ dump_vector s = Ok (map Some res, s').
Proof.
  intros E L. unfold as_iterator, amap. rewrite E. cbn. destruct (iterate_all res L 0) as (s & H & _ & s' & D).
  exists (source_new (map Some res)), s'. split; [reflexivity|]. cbn in H. injection H as <-. exact D.
Qed.

Lemma right_length listing reqs res : (lenN reqs < two64)%N -> right_results o P cfg reqs listing res -> (lenN res < two64)%N.
Proof. intros L R. unfold lenN in *. now rewrite (results_length o P cfg _ _ _ R). Qed.

Lemma requests_seen (i : impl F W) qs reqs w res w' : Forall (fine_wanted cfg) qs -> Forall2 request_for qs reqs ->
  plain_catalogue o cfg -> right_answers o P cfg i w -> m_extract i reqs w = (Ok res, w') ->
  exists u listing, o_list o u = Ok listing /\ Forall2 (cpp_sees o P cfg listing) qs res /\ length res = length reqs.
Proof.
  intros HQ HR HC HI E. destruct (HI _ _ _ E) as (u & listing & L1 & L2). exists u, listing. split; [exact L1|].
  destruct (HC u listing L1) as [PL DF]. split; [eapply answers; eauto|]. exact (results_length o P cfg _ _ _ L2).
Qed.

Theorem rust_user (i : impl F W) qs reqs w out w' : (lenN reqs < two64)%N -> Forall (fine_wanted cfg) qs -> Forall2 request_for qs reqs ->
  plain_catalogue o cfg -> right_answers o P cfg i w -> rs_fetch (rs_extract i reqs) w = (Ok out, w') ->
  exists u listing, o_list o u = Ok listing /\ Forall2 (rust_sees o P cfg listing) qs out.
Proof.
  intros L HQ HR HC HI H. unfold rs_extract, gj_extract in H. destruct reqs as [|r0 rest]; [discriminate H|].
  set (reqs := r0 :: rest) in *. rewrite rust_call in H.
  2: { intros res E. destruct (m_extract i reqs w) as [y w1] eqn:Em. cbn in E. subst y.
       destruct (HI _ _ _ Em) as (u & listing & _ & R). eapply right_length; eauto. }
  destruct (m_extract i reqs w) as [[res|e|] w1] eqn:Em; cbn [fst snd omap obind] in H; try discriminate H. injection H as <- <-.
  destruct (requests_seen i qs reqs w res w1 HQ HR HC HI Em) as (u & listing & L1 & L2 & _). exists u, listing. split; [exact L1|].
  apply F2_map_r. eapply F2_imp; [|exact L2]. cbn. intros q x. apply rust_of_cpp.
Qed.

(* one region of every field a request names *)
Theorem rust_mars_user (i : impl F W) parse flatten text s ds ranges hash w out w' :
  parse text = Ok s -> Forall2 spells (flatten s) ds -> (lenN ds < two64)%N -> Forall (plain_field (c_ignore_ym cfg)) ds ->
  plain_catalogue o cfg -> right_answers o P cfg i w -> rs_fetch (rs_extract_mars parse flatten i text ranges hash) w = (Ok out, w') ->
  exists u listing, o_list o u = Ok listing /\ Forall2 (fun d => rust_sees o P cfg listing (mk_wanted d ranges hash)) ds out.
Proof.
  intros Hp Hs L Hd HC HI H.
  assert (rs_fetch (rs_extract i (map (fun r => mk_request r ranges hash) (flatten s))) w = (Ok out, w')) as H'.
  { unfold rs_fetch, rs_extract_mars in *. rewrite Hp in H. exact H. }
  clear H. destruct (rust_user i (map (fun d => mk_wanted d ranges hash) ds) (map (fun r => mk_request r ranges hash) (flatten s)) w out w') with (6 := H') as (u & listing & L1 & L2); auto.
  - unfold lenN in *. rewrite map_length. apply Forall2_length in Hs. now rewrite Hs.
  - clear - Hd. induction Hd; cbn; constructor; auto.
  - clear - Hs. induction Hs; cbn; constructor; auto. repeat split; auto.
  - exists u, listing. split; [exact L1|]. apply F2_map_l in L2. exact L2.
Qed.

Lemma c_requests parsing parse qs asks : Forall2 (asks_c parsing parse) qs asks -> exists reqs,
  mapM (fun a : c_ask => let '(text, arr, hash) := a in
          checked (c_new_request parsing parse true (Some text) (Some arr) (lenN arr) (Some hash))) asks = Ok reqs /\
  Forall2 request_for qs reqs.
Proof.
  induction 1 as [|q [[text arr] hash] qs asks (T & -> & L & ->) _ (reqs & M & R)]; [exists []; auto|].
  assert (exists t, (if parsing then parse text else Ok text) = Ok t /\ spells t (wt_field q)) as (t & Ht & Sp) by (destruct parsing; eauto).
  cbn [mapM]. unfold c_new_request at 1. cbn [assert_ not_null obind]. rewrite ranges_of_array by exact L. cbn [obind].
  rewrite Ht. cbn [obind try_catch checked]. rewrite M. cbn [obind]. eexists. split; [reflexivity|]. constructor; [|exact R].
  split; [exact Sp|]. split; reflexivity.
Qed.
Theorem c_user zero (i : impl F W) parsing parse qs asks w out w' : (lenN asks < two64)%N -> Forall (fine_wanted cfg) qs ->
  Forall2 (asks_c parsing parse) qs asks ->
  plain_catalogue o cfg -> right_answers o P cfg i w -> c_fetch parsing parse i asks w = (Ok out, w') ->
  exists u listing, o_list o u = Ok listing /\ Forall2 (c_sees o P cfg zero listing) qs out.
Proof.
  intros L HQ HA HC HI H. destruct (c_requests parsing parse qs asks HA) as (reqs & M & R). unfold c_fetch in H. rewrite M in H.
  assert (length reqs = length asks) as Lr by (apply Forall2_length in HA; apply Forall2_length in R; congruence).
  unfold c_extract in H. replace (N.to_nat (lenN reqs)) with (length reqs) in H by (unfold lenN; lia). rewrite all_at in H.
  unfold gj_extract in H. destruct reqs as [|r0 rest] eqn:ER; [discriminate H|]. rewrite <- ER in *. clear ER.
  unfold as_iterator, amap in H. destruct (m_extract i reqs w) as [y w1] eqn:Em. cbn [fst snd] in H.
  destruct y as [res|e|]; cbn [omap obind try_catch checked] in H; try discriminate H.
  destruct (requests_seen i qs reqs w res w1 HQ R HC HI Em) as (u & listing & L1 & L2 & L3).
  cbn [source_new s_data] in H. rewrite map_length, c_loop in H by (unfold lenN in *; rewrite L3, Lr; exact L).
  injection H as <- <-. exists u, listing. split; [exact L1|]. eapply F2_imp; [|exact L2]. cbn. intros q x. apply c_of_cpp.
Qed.
Theorem cpp_user (i : impl F W) qs reqs w s w' : (lenN reqs < two64)%N -> Forall (fine_wanted cfg) qs -> Forall2 request_for qs reqs ->
  plain_catalogue o cfg -> right_answers o P cfg i w -> gj_extract i reqs w = (Ok s, w') ->
  exists u listing res s', o_list o u = Ok listing /\ dump_vector s = Ok (map Some res, s') /\ Forall2 (cpp_sees o P cfg listing) qs res.
Proof.
  intros L HQ HR HC HI H. unfold gj_extract in H. destruct reqs as [|r0 rest]; [discriminate H|]. set (reqs := r0 :: rest) in *.
  unfold as_iterator, amap in H. destruct (m_extract i reqs w) as [[res|e|] w1] eqn:Em; cbn [fst snd omap obind] in H; try discriminate H.
  injection H as <- <-. destruct (requests_seen i qs reqs w res w1 HQ HR HC HI Em) as (u & listing & L1 & L2 & L3).
  destruct (iterate_all res ltac:(unfold lenN in *; rewrite L3; exact L) 0) as (s & H & _ & s' & D). cbn in H. injection H as <-.
  exists u, listing, res, s'. auto.
Qed.
End User.

(* ---- by file and offset ---- *)
Section Paths.
Context {F W : Type}.
Variable n : node F.

Lemma message_supported path off m S bytes : message_of n path off m S bytes -> supported m bytes off.
Proof. intros (_ & (_ & Su & _)). exact Su. Qed.

Theorem rust_paths_user ignore (i : impl F W) reqs w out w' : (lenN reqs < two64)%N ->
  right_paths n ignore i w (map cpp_path_request reqs) -> rs_fetch (rs_extract_from_paths i reqs) w = (Ok out, w') ->
  Forall2 (rust_path_sees n ignore) reqs out.
Proof.
  intros L HI H. unfold rs_extract_from_paths, gj_extract_paths in H. unfold right_paths in HI.
  destruct reqs as [|r0 rest]; [discriminate H|]. cbn [map] in H. change (cpp_path_request r0 :: map cpp_path_request rest) with (map cpp_path_request (r0 :: rest)) in H.
  set (reqs := r0 :: rest) in *. destruct (m_extract_paths i (map cpp_path_request reqs) w) as [y w1] eqn:Em.
  rewrite rust_call in H; rewrite Em in *; cbn [fst snd] in *.
  2: { intros res ->. pose proof (HI _ _ eq_refl) as X. apply Forall2_length in X. rewrite map_length in X. unfold lenN in *. now rewrite <- X. }
  destruct y as [res|e|]; cbn [omap obind] in H; try discriminate H. injection H as <- <-.
  apply F2_map_r. pose proof (HI _ _ eq_refl) as R. apply F2_map_l in R. eapply F2_imp; [|exact R]. cbn. clear.
  intros r x [B H]. cbn in *. split; [exact B|]. intros m S bytes Hp M. destruct (H m S bytes Hp M) as [G V]. split; [exact G|].
  intros Gd. apply rust_of_stored; auto. eapply message_supported; eauto.
Qed.

Theorem rust_file_user (i : impl F W) path ms w out w' : (lenN ms < two64)%N -> Forall (fun q => fst q < two63)%N ms ->
  right_direct n i w -> rs_fetch (rs_extract_from_file i path ms) w = (Ok out, w') ->
  Forall2 (rust_file_sees n path) ms out.
Proof.
  intros L B HI H. unfold rs_extract_from_file in H.
  assert (bridge_extract_from_file i (to_cxx path ms) = gj_extract_direct i path (map (fun m => Z.of_N (fst m)) ms) (map snd ms)) as E
    by (apply rust_file_extraction; assumption).
  rewrite E in H. unfold gj_extract_direct in H.
  destruct (String.eqb_spec path "") as [|Np]; [discriminate H|]. unfold lenN in H. rewrite !map_length in H.
  destruct (N.eqb_spec (N.of_nat (length ms)) 0) as [|Nm]; [discriminate H|]. rewrite N.eqb_refl in H. cbn [negb] in H.
  set (offs := map (fun m => Z.of_N (fst m)) ms) in *. set (rs := map snd ms) in *.
  assert (length offs = length ms) as Lo by apply map_length. assert (length rs = length ms) as Lr by apply map_length.
  assert (offs <> []) as No by (intros X; rewrite X in Lo; cbn in Lo; lia).
  destruct (m_extract_direct i path offs rs w) as [y w1] eqn:Em.
  assert (forall res, y = Ok res -> Forall2 (offset_result n path) (combine offs rs) res) as R.
  { intros res ->. eapply HI; eauto. congruence. }
  rewrite rust_call in H; rewrite Em in *; cbn [fst snd] in *.
  2: { intros res Y. pose proof (R _ Y) as X. apply Forall2_length in X. rewrite combine_length in X. unfold lenN in *. lia. }
  destruct y as [res|e|]; cbn [omap obind] in H; try discriminate H. injection H as <- <-.
  apply F2_map_r. specialize (R _ eq_refl).
  assert (combine offs rs = map (fun q => (Z.of_N (fst q), snd q)) ms) as C.
  { unfold offs, rs. clear. induction ms as [|a l IH]; cbn; [reflexivity|]. now rewrite IH. }
  rewrite C in R. apply F2_map_l in R. eapply F2_imp; [|exact R]. cbn. clear.
  intros q x H m S bytes M Gd. cbn in *. apply rust_of_stored; auto. eapply message_supported; eauto.
Qed.

(* on this machine *)
Theorem local_right_paths cfg (i : impl F W) reqs w : sound_node n -> c_inefficient cfg = false ->
  (forall rs, fst (m_extract_paths i rs w) = extract_path_requests (node_world n) cfg rs) ->
  Forall (fun r => q_host r = None /\ q_port r = 0%Z) reqs -> reqs <> [] -> right_paths n (c_ignore_grid cfg) i w (map cpp_path_request reqs).
Proof.
  intros Sn Ci HI Hh Ne res w' E. destruct reqs as [|r0 rest]; [congruence|]. inversion Hh as [|? ? [H1 H2] _]; subst.
  cbn [map] in *. apply (f_equal fst) in E. rewrite HI in E. cbn [fst] in E.
  eapply paths_stored; eauto. cbn. now rewrite H1.
Qed.
Theorem local_right_direct (i : impl F W) w : sound_node n ->
  (forall path offs ranges, fst (m_extract_direct i path offs ranges w) = node_direct n path offs ranges) -> right_direct n i w.
Proof.
  intros Sn HI path offs ranges res w' Np No Lo E. apply (f_equal fst) in E. rewrite HI in E. cbn [fst] in E. eapply direct_stored; eauto.
Qed.
End Paths.

(* the examples *)
Lemma two_users :
  Forall (fine_wanted one_cfg) two_wanted /\ Forall2 request_for two_wanted two_requests /\
  Forall2 (asks_c false (fun s => Ok s)) two_wanted two_asks /\
  plain_catalogue one_file one_cfg /\ right_answers one_file one_path one_cfg one_impl tt.
Proof.
  split; [|split; [|split; [|exact (proj2 one_user)]]].
  - repeat (constructor; [apply plain_pairs; [nodup|reflexivity|reflexivity|reflexivity]|]). constructor.
  - repeat (constructor; [split; [first [left; reflexivity|right; reflexivity]|split; reflexivity]|]). constructor.
  - repeat (constructor; [split; [first [left; reflexivity|right; reflexivity]|split; [reflexivity|split; reflexivity]]|]). constructor.
Qed.
