(* Axes from the catalogue to the user. *)
From Coq Require Import Permutation Lia ZifyBool.
From Verif Require Import Base ModelStrings ModelInfo ModelJumper ModelEngine ModelProtocol ModelApi ModelPython ModelUser ModelRemote ModelAxes
     SpecRemote SpecAxes ProofsStrings ProofsProtocol ProofsRemote ProofsApi ProofsTight.

(* ---- same_axes ---- *)
Definition ordered (order : list string -> list string) (m : named_values) : named_values := map (fun kv => (fst kv, order (snd kv))) m.

Lemma same_refl m : same_axes m m.
Proof. induction m; constructor; auto. Qed.
Lemma same_trans a b c : same_axes a b -> same_axes b c -> same_axes a c.
Proof.
  intros H. revert c. induction H as [|x y a b [E P] H IH]; intros c K; inversion K as [|y' z b' c' [E' P'] K']; subst; constructor.
  - split; [congruence|]. now rewrite P.
  - now apply IH.
Qed.
Lemma same_sym a b : same_axes a b -> same_axes b a.
Proof. induction 1 as [|x y a b [E P] H IH]; constructor; [split; [congruence|now symmetry]|exact IH]. Qed.
Lemma same_ordered order m : an_order order -> same_axes m (ordered order m).
Proof. intros O. induction m; constructor; [split; [reflexivity|apply O]|assumption]. Qed.
Lemma same_insert a b : same_axes a b -> forall x y, fst x = fst y -> Permutation (snd x) (snd y) ->
  same_axes (sinsert fst x a) (sinsert fst y b).
Proof.
  induction 1 as [|u v a b [E P] H IH]; intros x y Ex Px; cbn.
  - constructor; [split; assumption|constructor].
  - rewrite Ex, E. destruct (String.leb (fst y) (fst v)).
    + constructor; [split; assumption|]. constructor; [split; assumption|exact H].
    + constructor; [split; assumption|]. now apply IH.
Qed.
Lemma same_in_key_order a b : same_axes a b -> same_axes (in_key_order a) (in_key_order b).
Proof.
  unfold in_key_order, ssort. induction 1 as [|u v a b [E P] H IH]; cbn; [constructor|]. now apply same_insert.
Qed.

Lemma fst_inj {V} (m : list (string * V)) : NoDup (map fst m) -> forall x y, In x m -> In y m -> fst x = fst y -> x = y.
Proof.
  induction m as [|[k v] m IH]; intros N x y Ix Iy E; [easy|]. inversion N as [|? ? N1 N2]; subst.
  destruct Ix as [<-|Ix], Iy as [<-|Iy]; cbn [fst] in *; auto.
  - exfalso. apply N1. rewrite E. now apply in_map.
  - exfalso. apply N1. rewrite <- E. now apply in_map.
Qed.
Lemma in_key_order_fix (m : named_values) : NoDup (map fst m) -> in_key_order (in_key_order m) = in_key_order m.
Proof.
  intros N. symmetry. apply (ssort_unique fst).
  - apply ssort_perm.
  - apply fst_inj, N.
Qed.

(* ---- good_axes ---- *)
Lemma same_keys a b : same_axes a b -> map fst a = map fst b.
Proof. induction 1 as [|x y a b [E _] _ IH]; cbn; congruence. Qed.
Lemma same_Forall a b (P : string * list string -> Prop) : (forall k l l', Permutation l l' -> P (k, l) -> P (k, l')) ->
  same_axes a b -> Forall P a -> Forall P b.
Proof.
  intros H. induction 1 as [|[k l] [k' l'] a b [E Q] _ IH]; intros K; [constructor|]. cbn [fst snd] in *. subst.
  inversion K; subst. constructor; [eapply H; eassumption|auto].
Qed.
Lemma same_good a b : same_axes a b -> good_axes a -> good_axes b.
Proof.
  intros S ((N & D) & (L & B) & P). split; [split|split; [split|]].
  - now rewrite <- (same_keys _ _ S).
  - revert D. apply same_Forall; [|exact S]. cbn. intros k l l'. apply Permutation_NoDup.
  - assert (E : length b = length a) by (rewrite <- (map_length fst b), <- (same_keys _ _ S); apply map_length).
    unfold lenN in *. rewrite E. exact L.
  - revert B. apply same_Forall; [|exact S]. cbn. intros k l l' Q. unfold lenN. now rewrite (Permutation_length Q).
  - revert P. apply same_Forall; [|exact S]. cbn. intros k l l' Q [H1 H2]. split; [exact H1|]. now rewrite <- Q.
Qed.
Lemma in_key_order_good m : good_axes m -> good_axes (in_key_order m).
Proof.
  intros ((N & D) & (L & B) & P). pose proof (ssort_perm (A := string * list string) fst m) as Q.
  split; [split|split; [split|]].
  - now apply ordered_keys.
  - unfold in_key_order. now rewrite <- Q.
  - now rewrite ordered_length.
  - unfold in_key_order. now rewrite <- Q.
  - unfold plain_axes, in_key_order. now rewrite <- Q.
Qed.

(* ---- the lister ---- *)
Lemma as_sets_fold order m : Forall (fun kv => NoDup (snd kv)) m -> forall acc, NoDup (map fst (acc ++ m)) ->
  fold_left (fun values kv => sset (fst kv) (order (fold_left set_insert (snd kv) [])) values) m acc = acc ++ ordered order m.
Proof.
  intros D. induction D as [|[k l] m N D IH]; intros acc A; cbn [fold_left ordered map]; [now rewrite app_nil_r|].
  cbn [fst snd] in *. rewrite (set_insert_nodup l []) by exact N. cbn [app].
  assert (X : sfind k acc = None).
  { apply sfind_none. intros I. rewrite map_app in A. cbn [map fst] in A. apply NoDup_remove in A.
    apply (proj2 A), in_or_app. auto. }
  rewrite sset_new by exact X. rewrite IH.
  - rewrite <- app_assoc. reflexivity.
  - rewrite <- app_assoc. rewrite map_app in *. exact A.
Qed.
Lemma as_sets_ordered order m : a_map_of_sets m -> as_sets order m = ordered order m.
Proof. intros [N D]. unfold as_sets. now rewrite (as_sets_fold order m D []). Qed.

Lemma lister_same {R} order (parse : string -> outcome (list R)) fdb text level m :
  an_order order -> catalogue_axes parse fdb text level = Ok m -> a_map_of_sets m ->
  exists m', lister_axes order parse fdb text level = Ok m' /\ same_axes m m'.
Proof.
  unfold catalogue_axes, lister_axes. intros O H G. destruct (parse text) as [rs| |]; cbn [obind] in *; try discriminate.
  destruct rs as [|r [|? ?]]; try discriminate. rewrite H. cbn [omap obind].
  exists (ordered order m). rewrite as_sets_ordered by exact G. split; [reflexivity|]. now apply same_ordered.
Qed.
Lemma lister_throws {R} order (parse : string -> outcome (list R)) fdb text level e :
  catalogue_axes parse fdb text level = Throw e -> lister_axes order parse fdb text level = Throw e.
Proof.
  unfold catalogue_axes, lister_axes. intros H. destruct (parse text) as [rs| |]; cbn [obind] in *; try discriminate; [|exact H].
  destruct rs as [|r [|? ?]]; try exact H. rewrite H. reflexivity.
Qed.

(* ---- texts ---- *)
Lemma plain_c_str s : plain_text s -> c_str s = s.
Proof.
  unfold plain_text. induction s as [|c s IH]; cbn; [reflexivity|]. intros H. inversion H as [|? ? H1 H2]; subst.
  destruct (Ascii.eqb_spec c Ascii.zero) as [->|_]; [cbn in H1; lia|]. now rewrite IH.
Qed.
Lemma plain_ascii s : plain_text s -> is_ascii s = true.
Proof.
  unfold plain_text, is_ascii. intros H. apply forallb_forall. intros c I.
  rewrite Forall_forall in H. apply N.ltb_lt. apply (H c I).
Qed.
Lemma plain_decoded s : plain_text s -> py_ascii (c_str s) = Ok s.
Proof. intros H. unfold py_ascii. rewrite plain_c_str, plain_ascii by exact H. reflexivity. Qed.
Lemma mapM_id {A} (f : A -> outcome A) l : Forall (fun x => f x = Ok x) l -> mapM f l = Ok l.
Proof. induction 1 as [|x l E _ IH]; cbn; [reflexivity|]. rewrite E. cbn. now rewrite IH. Qed.

(* ---- Python ---- *)
Lemma sfind_in_nodup {V} (m : list (string * V)) k v : NoDup (map fst m) -> In (k, v) m -> sfind k m = Some v.
Proof.
  intros N I. destruct (sfind k m) as [v'|] eqn:E.
  - apply sfind_in in E. pose proof (fst_inj m N _ _ I E eq_refl) as X. congruence.
  - apply sfind_none in E. exfalso. apply E. change k with (fst (k, v)). now apply in_map.
Qed.
Lemma combine_names {A B} (a : list A) (b : list B) : length a = length b -> map fst (combine a b) = a.
Proof. revert b. induction a; intros [|? b] H; cbn in *; try discriminate; [reflexivity|]. f_equal. apply IHa. congruence. Qed.
Lemma new_array_length n : lenN (new_array n) = n.
Proof. unfold lenN, new_array. rewrite repeat_length. lia. Qed.

Lemma py_values_of m k vs : good_axes m -> In (k, vs) m -> py_axis_values m k = Ok vs.
Proof.
  intros ((N & _) & (_ & B) & P) I. unfold plain_axes in P. rewrite Forall_forall in B, P.
  specialize (B _ I). destruct (P _ I) as [Pk Pv]. cbn [fst snd] in *.
  unfold py_axis_values. rewrite (plain_c_str k Pk).
  rewrite (proj2 (axes_sizes m)), (sfind_in_nodup m k vs N I). cbn [checked obind].
  rewrite (proj2 (axes_accessors m)) by (try exact B; apply new_array_length).
  rewrite (sfind_in_nodup m k vs N I), N.eqb_refl. cbn [checked obind].
  apply mapM_id. revert Pv. apply Forall_impl. intros s. apply plain_decoded.
Qed.
Lemma py_reads m : good_axes m -> py_read_axes m = Ok m.
Proof.
  intros G. destruct (G) as ((N & _) & (L & _) & P). unfold py_read_axes.
  rewrite (proj1 (axes_sizes m)). cbn [checked obind].
  rewrite (proj1 (axes_accessors m)) by (try exact L; apply new_array_length).
  rewrite N.eqb_refl. cbn [checked obind].
  assert (V : forall l, incl l m -> mapM (py_axis_values m) (map fst l) = Ok (map snd l)).
  { induction l as [|[k vs] l IH]; intros I; cbn [map mapM fst snd]; [reflexivity|].
    rewrite (py_values_of m k vs G) by (apply I; now left). cbn [obind].
    rewrite IH by (intros x X; apply I; now right). reflexivity. }
  rewrite (V m) by apply incl_refl. cbn [obind].
  rewrite (mapM_id (fun k => py_ascii (c_str k)) (map fst m)).
  - cbn [obind]. f_equal. unfold dict_of. rewrite (sset_fold _ []).
    + cbn [app]. clear. induction m as [|[k v] m IH]; cbn; [reflexivity|]. now rewrite IH.
    + cbn [app]. rewrite combine_names; [exact N|]. now rewrite !map_length.
  - apply Forall_forall. intros k I. apply in_map_iff in I. destruct I as ([k' v] & <- & I).
    unfold plain_axes in P. rewrite Forall_forall in P. apply plain_decoded. apply (P _ I).
Qed.

Lemma py_axes_sends {F W} order (i : impl F W) d level w : proper_ask d level ->
  py_axes order i d level w =
  let (r, w') := m_axes i (dic_to_request d) level w in
  (let* m := checked (try_catch (omap (fun m => ordered order (in_key_order m)) r)) in py_read_axes m, w').
Proof.
  intros (NE & P & L). unfold py_axes. unfold py_ascii at 1. rewrite (plain_ascii _ P). cbn [obind]. unfold to_int.
  replace ((-2147483648 <=? level)%Z && (level <? 2147483648)%Z)%bool with true by lia. cbn [obind].
  unfold c_new_axes, gj_axes. rewrite (plain_c_str _ P).
  destruct (String.eqb_spec (dic_to_request d) ""); [contradiction|].
  destruct (m_axes i (dic_to_request d) level w) as [r w']. reflexivity.
Qed.

(* the library's answer reaches the user *)
Theorem python_axes {F W} order (i : impl F W) d level w w' m : an_order order -> proper_ask d level ->
  m_axes i (dic_to_request d) level w = (Ok m, w') -> good_axes m ->
  exists r, py_axes order i d level w = (Ok r, w') /\ same_axes (in_key_order m) r.
Proof.
  intros O A H G. rewrite (py_axes_sends order i d level w A), H. cbn [omap obind try_catch checked].
  exists (ordered order (in_key_order m)).
  pose proof (same_ordered order (in_key_order m) O) as S.
  split; [|exact S]. f_equal. apply py_reads. eapply same_good; [exact S|]. now apply in_key_order_good.
Qed.
Theorem python_axes_error {F W} order (i : impl F W) d level w w' e : proper_ask d level ->
  m_axes i (dic_to_request d) level w = (Throw e, w') -> py_axes order i d level w = (Throw EGribJump, w').
Proof. intros A H. rewrite (py_axes_sends order i d level w A), H. reflexivity. Qed.

(* what is not a proper question is refused *)
Theorem python_axes_refused {F W} order (i : impl F W) d level w :
  (is_ascii (dic_to_request d) = false -> py_axes order i d level w = (Throw EBadValue, w)) /\
  (is_ascii (dic_to_request d) = true -> (level < -2147483648 \/ 2147483648 <= level)%Z ->
   py_axes order i d level w = (Throw EOutOfRange, w)) /\
  (d = [] -> (-2147483648 <= level < 2147483648)%Z -> py_axes order i d level w = (Throw EGribJump, w)).
Proof.
  unfold py_axes, py_ascii, to_int. split; [|split].
  - intros ->. reflexivity.
  - intros -> L. cbn [obind].
    replace ((-2147483648 <=? level)%Z && (level <? 2147483648)%Z)%bool with false by lia. reflexivity.
  - intros -> L. replace ((-2147483648 <=? level)%Z && (level <? 2147483648)%Z)%bool with true by lia. reflexivity.
Qed.

(* whatever the library answers, reading it stays inside the arrays *)
Lemma checked_not_UB {A} (x : outcome (c_error * option A)) : x <> UB -> checked x <> UB.
Proof. destruct x as [[[|] [a|]]| |]; cbn; congruence. Qed.
Lemma mapM_not_UB {A B} (f : A -> outcome B) l : (forall x, In x l -> f x <> UB) -> mapM f l <> UB.
Proof.
  induction l as [|x l IH]; intros H; cbn; [discriminate|].
  destruct (f x) as [b| |] eqn:E; cbn [obind]; [|discriminate|exact (fun _ => H x (or_introl eq_refl) E)].
  pose proof (IH (fun y I => H y (or_intror I))) as K. destruct (mapM f l); cbn [obind]; congruence.
Qed.
Lemma py_ascii_not_UB s : py_ascii s <> UB.
Proof. unfold py_ascii. destruct (is_ascii s); discriminate. Qed.
Theorem python_reads_inside m : fits_memory m -> py_read_axes m <> UB.
Proof.
  intros [L B]. unfold py_read_axes. rewrite (proj1 (axes_sizes m)). cbn [checked obind].
  rewrite (proj1 (axes_accessors m)) by (try exact L; apply new_array_length). rewrite N.eqb_refl. cbn [checked obind].
  assert (V : mapM (py_axis_values m) (map fst m) <> UB).
  { apply mapM_not_UB. intros k _. unfold py_axis_values. rewrite (proj2 (axes_sizes m)). cbn [checked obind].
    destruct (sfind (c_str k) m) as [vs|] eqn:E.
    - pose proof (sfind_in _ _ _ E) as I. rewrite Forall_forall in B. specialize (B _ I). cbn [snd] in B.
      rewrite (proj2 (axes_accessors m)) by (try exact B; apply new_array_length). rewrite E, N.eqb_refl. cbn [checked obind].
      apply mapM_not_UB. intros s _. apply py_ascii_not_UB.
    - rewrite (proj2 (axes_accessors m)) by (try reflexivity; apply new_array_length). rewrite E. discriminate. }
  destruct (mapM (py_axis_values m) (map fst m)) as [vs| |]; cbn [obind]; [|discriminate|congruence].
  assert (K : mapM (fun k => py_ascii (c_str k)) (map fst m) <> UB).
  { apply mapM_not_UB. intros s _. apply py_ascii_not_UB. }
  destruct (mapM (fun k => py_ascii (c_str k)) (map fst m)); cbn [obind]; congruence.
Qed.

(* ---- Rust ---- *)
Theorem rust_axes_same {F W} utf8 (i : impl F W) request level w w' m :
  (forall s, plain_text s -> utf8 s = true) -> request <> ""%string ->
  m_axes i request level w = (Ok m, w') -> good_axes m ->
  rust_axes utf8 i request level w = (Ok (in_key_order m), w').
Proof.
  intros U NE H G. unfold rust_axes, gj_axes. destruct (String.eqb_spec request ""); [contradiction|]. rewrite H. cbn [obind].
  apply in_key_order_good in G. destruct G as ((N & _) & _ & P). unfold bridge_axes.
  rewrite (mapM_id _ (in_key_order m)).
  - cbn [omap obind]. unfold dict_of. now rewrite (sset_fold _ []).
  - revert P. apply Forall_impl. intros [k vs] [Pk Pv]. cbn [fst snd] in *. unfold rust_string at 1. rewrite (U k Pk). cbn [obind].
    rewrite mapM_id; [reflexivity|]. revert Pv. apply Forall_impl. intros v Q. unfold rust_string. now rewrite (U v Q).
Qed.
Theorem rust_axes_error {F W} utf8 (i : impl F W) request level w w' e : request <> ""%string ->
  m_axes i request level w = (Throw e, w') -> rust_axes utf8 i request level w = (Throw e, w').
Proof.
  intros NE H. unfold rust_axes, gj_axes. destruct (String.eqb_spec request ""); [contradiction|]. now rewrite H.
Qed.

(* ---- the library of this machine and of a server ---- *)
Section Answers.
Context {F W R : Type}.
Variable order : list string -> list string.
Variable parse : string -> outcome (list R).
Variable fdb : R -> Z -> outcome named_values.
Hypothesis O : an_order order.

(* what the library answers *)
Definition answers (becomes : error -> error) (i : impl F W) : Prop :=
  forall text level w, text <> ""%string ->
  match catalogue_axes parse fdb text level with
  | Ok m => good_axes m -> exists m', m_axes i text level w = (Ok m', w) /\ same_axes (in_key_order m) (in_key_order m') /\ good_axes m'
  | Throw e => m_axes i text level w = (Throw (becomes e), w)
  | UB => True
  end.
Lemma local_answers_axes i : local_library order parse fdb i -> answers (fun e => e) i.
Proof.
  intros L text level w NE. destruct (catalogue_axes parse fdb text level) as [m|e|] eqn:E; [|rewrite L; f_equal; now apply lister_throws|trivial].
  intros G. destruct (lister_same order parse fdb text level m O E (proj1 G)) as (m' & H & S).
  exists m'. rewrite L, H. split; [reflexivity|]. split; [now apply same_in_key_order|]. eapply same_good; eassumption.
Qed.
Lemma server_answers_axes {M} (k : link F M) e i : serves_axes order parse fdb e -> library_of_server k e i ->
  (forall text level m, catalogue_axes parse fdb text level = Ok m -> a_map_of_sets m) ->
  answers (fun x => EMsg (k_what k x)) i.
Proof.
  intros V L A text level w NE.
  assert (X : forall m, e_axes e text level = Ok m -> NoDup (map fst m) /\ forall a, In a m -> NoDup (snd a)).
  { rewrite V. intros m Hm. destruct (catalogue_axes parse fdb text level) as [c| |] eqn:E.
    - destruct (lister_same order parse fdb text level c O E (A _ _ _ E)) as (m' & H & S).
      assert (m' = m) by congruence. subst m'. destruct (A _ _ _ E) as [N D]. split.
      + now rewrite <- (same_keys _ _ S).
      + intros a I. assert (D' : Forall (fun kv => NoDup (snd kv)) m).
        { revert D. apply same_Forall; [|exact S]. cbn. intros ? l l'. apply Permutation_NoDup. }
        rewrite Forall_forall in D'. now apply D'.
    - rewrite (lister_throws order parse fdb text level _ E) in Hm. discriminate.
    - exfalso. revert Hm E. unfold catalogue_axes, lister_axes. destruct (parse text) as [rs| |]; cbn [obind]; try discriminate.
      destruct rs as [|r [|? ?]]; try discriminate. intros Hm E. rewrite E in Hm. discriminate. }
  rewrite L. unfold client_axes, server.
  rewrite (remote_axes_seen (k_title k) (k_r_mars k) (k_r_uri k) (k_what k) (k_context k) e text level NE X). rewrite V.
  destruct (catalogue_axes parse fdb text level) as [m|x|] eqn:E; [|rewrite (lister_throws order parse fdb text level _ E); reflexivity|trivial].
  intros G. destruct (lister_same order parse fdb text level m O E (proj1 G)) as (m' & H & S).
  rewrite H. exists (in_key_order m'). split; [reflexivity|].
  assert (G' : good_axes m') by (eapply same_good; eassumption).
  split; [|now apply in_key_order_good]. rewrite (in_key_order_fix m') by apply G'. now apply same_in_key_order.
Qed.

Lemma answers_python order' becomes i d level w : an_order order' -> answers becomes i -> proper_ask d level ->
  (forall m, catalogue_axes parse fdb (dic_to_request d) level = Ok m -> good_axes m) ->
  sees_axes (fun _ => EGribJump) (catalogue_axes parse fdb (dic_to_request d) level) w (py_axes order' i d level w).
Proof.
  intros O' H P G. specialize (H (dic_to_request d) level w (proj1 P)). unfold sees_axes.
  destruct (catalogue_axes parse fdb (dic_to_request d) level) as [m|e|]; [|eapply python_axes_error; eassumption|trivial].
  destruct (H (G m eq_refl)) as (m' & Hm & S & G').
  destruct (python_axes order' i d level w w m' O' P Hm G') as (r & Hr & S').
  exists r. split; [exact Hr|]. eapply same_trans; eassumption.
Qed.
Lemma answers_rust utf8 becomes i text level w : (forall s, plain_text s -> utf8 s = true) -> answers becomes i -> text <> ""%string ->
  (forall m, catalogue_axes parse fdb text level = Ok m -> good_axes m) ->
  sees_axes becomes (catalogue_axes parse fdb text level) w (rust_axes utf8 i text level w).
Proof.
  intros U H P G. specialize (H text level w P). unfold sees_axes.
  destruct (catalogue_axes parse fdb text level) as [m|e|]; [|eapply rust_axes_error; eassumption|trivial].
  destruct (H (G m eq_refl)) as (m' & Hm & S & G').
  exists (in_key_order m'). split; [|exact S]. eapply rust_axes_same; eassumption.
Qed.
End Answers.

Theorem local_python_axes {F W R} order order' (parse : string -> outcome (list R)) fdb (i : impl F W) d level w :
  an_order order -> an_order order' -> local_library order parse fdb i -> proper_ask d level ->
  (forall m, catalogue_axes parse fdb (dic_to_request d) level = Ok m -> good_axes m) ->
  sees_axes (fun _ => EGribJump) (catalogue_axes parse fdb (dic_to_request d) level) w (py_axes order' i d level w).
Proof. intros O O' L. apply (answers_python parse fdb order' (fun e => e) i d level w O'). now apply (local_answers_axes order). Qed.
Theorem server_python_axes {F M W R} order order' (parse : string -> outcome (list R)) fdb (k : link F M) e (i : impl F W) d level w :
  an_order order -> an_order order' -> serves_axes order parse fdb e -> library_of_server k e i -> proper_ask d level ->
  (forall text level m, catalogue_axes parse fdb text level = Ok m -> good_axes m) ->
  sees_axes (fun _ => EGribJump) (catalogue_axes parse fdb (dic_to_request d) level) w (py_axes order' i d level w).
Proof.
  intros O O' V L P G. apply (answers_python parse fdb order' (fun x => EMsg (k_what k x)) i d level w O'); [|exact P|apply G].
  apply (server_answers_axes order parse fdb O k e i V L). intros t l m H. apply (G t l m H).
Qed.
Theorem local_rust_axes {F W R} order (parse : string -> outcome (list R)) fdb utf8 (i : impl F W) text level w :
  an_order order -> (forall s, plain_text s -> utf8 s = true) -> local_library order parse fdb i -> text <> ""%string ->
  (forall m, catalogue_axes parse fdb text level = Ok m -> good_axes m) ->
  sees_axes (fun e => e) (catalogue_axes parse fdb text level) w (rust_axes utf8 i text level w).
Proof. intros O U L. apply (answers_rust parse fdb utf8 (fun e => e) i text level w U). now apply (local_answers_axes order). Qed.
Theorem server_rust_axes {F M W R} order (parse : string -> outcome (list R)) fdb utf8 (k : link F M) e (i : impl F W) text level w :
  an_order order -> (forall s, plain_text s -> utf8 s = true) -> serves_axes order parse fdb e -> library_of_server k e i -> text <> ""%string ->
  (forall text level m, catalogue_axes parse fdb text level = Ok m -> good_axes m) ->
  sees_axes (fun x => EMsg (k_what k x)) (catalogue_axes parse fdb text level) w (rust_axes utf8 i text level w).
Proof.
  intros O U V L P G. apply (answers_rust parse fdb utf8 (fun x => EMsg (k_what k x)) i text level w U); [|exact P|apply G].
  apply (server_answers_axes order parse fdb O k e i V L). intros t l m H. apply (G t l m H).
Qed.

(* two views of one catalogue are the same mapping *)
Theorem same_view {W} b1 b2 (cat : outcome named_values) (w : W) s1 s2 r1 r2 : cat <> UB ->
  sees_axes b1 cat w s1 -> sees_axes b2 cat w s2 -> fst s1 = Ok r1 -> fst s2 = Ok r2 -> same_axes r1 r2.
Proof.
  unfold sees_axes. intros U H1 H2 E1 E2. destruct cat as [m|e|]; [|subst; discriminate|congruence].
  destruct H1 as (x & -> & S1), H2 as (y & -> & S2). cbn [fst] in *. injection E1 as ->. injection E2 as ->.
  eapply same_trans; [apply same_sym; exact S1|exact S2].
Qed.
