(* From the dicts of a Python user to the values they see, for C95. *)
From Coq Require Import Lia Permutation Sorted.
From Verif Require Import Base BaseLemmas ModelInfo ModelSimple ModelJumper ModelStrings ModelEngine ModelApi ModelPython ModelUser
     SpecEngine SpecJumper SpecBuild SpecApi SpecPython SpecSystem ModelRemote ModelForward SpecRemote SpecForward SpecDeploy SpecUser ProofsStrings ProofsEngine ProofsPython ProofsPython2 ProofsTools ProofsSystem ProofsDeploy.

(* ---- the text ---- *)

Lemma dic_text d : dic_to_request d = request_string d.
Proof. reflexivity. Qed.

Lemma canonical_verb drop r : canonical drop ("retrieve," ++ r) = canonical drop r.
Proof. unfold canonical, sanitized. rewrite split_verb. cbn [filter]. reflexivity. Qed.

Lemma no_ym_filter drop d : (drop = true -> has_key "year" d = false /\ has_key "month" d = false) ->
  filter (keep_pair drop) d = filter valued d.
Proof.
  intros H. apply filter_ext_in. intros [k v] I. unfold keep_pair, valued. cbn [fst snd].
  destruct drop; cbn [andb negb]; [|apply andb_true_r].
  destruct (H eq_refl) as [Y M]. unfold has_key in Y, M.
  assert (forall s, existsb (fun p : string * string => String.eqb (fst p) s) d = false -> String.eqb k s = false) as K.
  { intros s E. destruct (String.eqb k s) eqn:X; [|reflexivity].
    assert (existsb (fun p : string * string => String.eqb (fst p) s) d = true) by (apply existsb_exists; exists (k, v); auto). congruence. }
  rewrite (K _ Y), (K _ M). cbn. apply andb_true_r.
Qed.

Lemma keep_valued l : filter (keep_pair false) (filter valued l) = filter valued l.
Proof.
  apply filter_id. intros [k v] I. apply filter_In in I as [_ I]. unfold keep_pair, valued in *. cbn in *. now rewrite I.
Qed.

Lemma field_text ignore drop d key : plain_field ignore d -> plain_field ignore key -> (drop = true -> ignore = true) ->
  fdbkey_to_str ignore key = canonical drop (request_string d) <-> names d key.
Proof.
  intros (Wd & Ad & Yd) (Wk & Ak & Yk) D.
  rewrite (canonical_pairs drop d Wd Ad), (fdbkey_pairs ignore key Wk).
  rewrite (no_ym_filter drop d) by (intros H; apply Yd; auto).
  rewrite (no_ym_filter (ignore && has_key "date" key) key) by (intros H; apply andb_prop in H as [-> _]; auto).
  unfold names. split.
  - intros E.
    assert (forall l, wf_pairs l -> (forall k v, In (k, v) l -> after_equals k = true) ->
      single false (request_string (filter valued l)) = String.concat "," (map pair_string (ssort fst (filter valued l)))) as T.
    { intros l W Al. unfold single. cbn [andb]. rewrite canonical_pairs, keep_valued; [reflexivity|now apply wf_filter|].
      intros k v I. apply filter_In in I as [I _]. eapply Al; eauto. }
    apply request_string_inj_canonical; [now apply wf_filter|now apply wf_filter| |].
    + intros k v [I|I]; apply filter_In in I as [I V]; (split; [solve [eauto]|]); intros ->; discriminate V.
    + rewrite !T by assumption. now symmetry.
  - intros Q. do 2 f_equal. apply (sorted_unique fst).
    + apply ssort_sorted.
    + apply ssort_sorted.
    + etransitivity; [symmetry; apply ssort_perm|]. etransitivity; [|apply ssort_perm]. now symmetry.
    + intros x y Ix Iy. apply (Permutation_in _ (Permutation_sym (ssort_perm _ _))) in Ix, Iy.
      apply filter_In in Ix as [Ix _], Iy as [Iy _]. now apply (keys_inj key x y (proj1 Wk)).
Qed.

Lemma named_entry ignore drop d listing : plain_field ignore d -> plain_listing ignore listing -> duplicate_free ignore listing ->
  (drop = true -> ignore = true) ->
  (forall e, In e listing -> names d (l_key e) -> entry_of ignore listing (canonical drop (request_string d)) = Some e) /\
  ((forall e, In e listing -> ~ names d (l_key e)) -> entry_of ignore listing (canonical drop (request_string d)) = None).
Proof.
  intros Hd Hl Hn D. unfold plain_listing in Hl. rewrite Forall_forall in Hl. unfold entry_of. split.
  - intros e I N. destruct (find _ listing) as [e'|] eqn:E.
    + apply find_some in E as [I' E]. apply String.eqb_eq in E. f_equal.
      assert (listed_as ignore e = listed_as ignore e') as Q.
      { rewrite E. apply field_text; auto. }
      clear - Hn I I' Q. unfold duplicate_free in Hn. induction listing as [|a l IH]; [destruct I|].
      cbn in Hn. inversion Hn as [|? ? Na Nl]; subst. destruct I as [<-|I], I' as [<-|I']; auto.
      * elim Na. rewrite Q. now apply in_map.
      * elim Na. rewrite <- Q. now apply in_map.
    + exfalso. apply (find_none _ _ E) in I as X. apply String.eqb_neq in X. apply X. apply field_text; auto.
  - intros N. destruct (find _ listing) as [e|] eqn:E; [|reflexivity]. exfalso.
    apply find_some in E as [I E]. apply String.eqb_eq in E. apply (N e I). eapply field_text; eauto.
Qed.

(* ---- the requests ---- *)

Definition requested (parsing : bool) (parse : string -> outcome string) (a : pyask) (r : py_request) : Prop :=
  a_ranges a <> [] /\ Forall (fun i => 0 <= fst i /\ fst i < snd i /\ snd i < Z.of_N two64)%Z (a_ranges a) /\
  py_shape r = map (fun i => snd i - fst i)%Z (a_ranges a) /\
  r_ranges (py_ctype r) = asked_ranges a /\ r_hash (py_ctype r) = match a_hash a with Some h => h | None => ""%string end /\
  text_ok parsing parse ("retrieve," ++ dic_to_request (a_dict a)) (r_string (py_ctype r)).

Lemma range_dec (r : Z * Z) : sumbool (0 <= fst r /\ fst r < snd r /\ snd r < Z.of_N two64)%Z (~ (0 <= fst r /\ fst r < snd r /\ snd r < Z.of_N two64)%Z).
Proof.
  destruct (Z_le_dec 0 (fst r)), (Z_lt_dec (fst r) (snd r)), (Z_lt_dec (snd r) (Z.of_N two64)); (left; tauto) || (right; tauto).
Qed.

Lemma one_requested parsing parse a r : (2 * lenN (a_ranges a) < two64)%N ->
  py_request_of parsing parse a = Ok r -> requested parsing parse a r.
Proof.
  intros L H. unfold py_request_of in H.
  assert (a_ranges a <> []) as Ne.
  { intros E. edestruct new_request_bad as [e X]; [left; exact E|]. rewrite X in H. discriminate. }
  destruct (Forall_Exists_dec _ range_dec (a_ranges a)) as [G|B].
  2: { edestruct new_request_bad as [e X]; [right; exact B|]. rewrite X in H. discriminate. }
  assert (exists s, text_ok parsing parse ("retrieve," ++ dic_to_request (a_dict a)) s) as [s T].
  { unfold text_ok. destruct parsing; [|eauto].
    destruct (parse ("retrieve," ++ dic_to_request (a_dict a))%string) as [s|e|] eqn:E; eauto; exfalso.
    all: unfold py_new_request in H; revert H Ne L G; destruct (a_ranges a) as [|r0 rs]; intros H Ne L G; [congruence|];
      rewrite flatten_ranges_ok in H by exact G; cbn [obind] in H;
      unfold c_new_request in H; cbn [assert_ not_null obind] in H; rewrite E in H; destruct (c_ranges _ _) in H; discriminate H. }
  rewrite (new_request_ok parsing parse _ s (a_ranges a) (a_hash a) T Ne L G) in H. injection H as <-.
  unfold requested. cbn. repeat split; auto.
Qed.

Lemma all_requested parsing parse asks : Forall (fun a => 2 * lenN (a_ranges a) < two64)%N asks -> forall rs,
  mapM (py_request_of parsing parse) asks = Ok rs -> Forall2 (requested parsing parse) asks rs.
Proof.
  induction 1 as [|a asks L _ IH]; intros rs H; cbn in H.
  - injection H as <-. constructor.
  - destruct (py_request_of parsing parse a) as [r| |] eqn:E; try discriminate. cbn in H.
    destruct (mapM _ asks) as [rs'| |]; try discriminate. cbn in H. injection H as <-.
    constructor; [now apply one_requested|now apply IH].
Qed.

(* the rewritten requests of the engine *)
Lemma canon_position ignore reqs : forall drop, (drop = true -> ignore = true) ->
  Forall2 (fun r c => r_ranges c = r_ranges r /\ r_hash c = r_hash r /\ exists d, (d = true -> ignore = true) /\ r_string c = canonical d (r_string r))
          reqs (canon_requests ignore drop reqs).
Proof.
  induction reqs as [|r reqs IH]; intros drop D; cbn [canon_requests]; constructor.
  - cbn. repeat split. exists (drop || (ignore && triggers (r_string r))). split; [|reflexivity].
    intros H. apply orb_prop in H as [H|H]; [auto|now apply andb_prop in H as [-> _]].
  - apply IH. intros H. apply orb_prop in H as [H|H]; [auto|now apply andb_prop in H as [-> _]].
Qed.

Lemma F2_compose {X Y Z} (R : X -> Y -> Prop) (S : Y -> Z -> Prop) (T : X -> Z -> Prop) l m n :
  (forall x y z, R x y -> S y z -> T x z) -> Forall2 R l m -> Forall2 S m n -> Forall2 T l n.
Proof.
  intros H P. revert n. induction P as [|x y l m Rxy P IH]; intros n Q; inversion Q; subst; constructor; eauto.
Qed.
Lemma F2_imp {X Y} (R T : X -> Y -> Prop) l m : (forall x y, R x y -> T x y) -> Forall2 R l m -> Forall2 T l m.
Proof. intros H. induction 1; constructor; auto. Qed.
Lemma F2_map_l {X Y Z} (f : X -> Y) (R : Y -> Z -> Prop) l m : Forall2 R (map f l) m -> Forall2 (fun x => R (f x)) l m.
Proof.
  revert m. induction l as [|x l IH]; intros m H; inversion H; subst; constructor; auto.
Qed.

(* ---- the views ---- *)

Lemma sizes_fit (l : list (N * N)) : forall lo n, Forall (fun i => fst i <= snd i <= n)%N l ->
  StronglySorted (fun a b => snd a <= fst b)%N l -> Forall (fun i => lo <= fst i)%N l -> (lo <= n)%N ->
  fold_right (fun i k => size_of i + k) 0 l <= N.to_nat n - N.to_nat lo.
Proof.
  induction l as [|i l IH]; intros lo n Hb Hs Hl Hn; cbn [fold_right]; [lia|].
  inversion Hb as [|? ? B1 B2]; subst. inversion Hs as [|? ? S1 S2]; subst. inversion Hl as [|? ? L1 L2]; subst.
  pose proof (IH (snd i) n B2 S1 S2 ltac:(lia)). unfold size_of at 1. lia.
Qed.

Lemma total_sizes {V} (l : list (N * N)) (vs : list (list V)) : Forall2 (fun i v => length v = size_of i) l vs ->
  total vs = fold_right (fun i k => size_of i + k) 0 l.
Proof.
  unfold total. induction 1 as [|i v l vs E _ IH]; [reflexivity|]. cbn. now rewrite app_length, E, IH.
Qed.

Lemma points_length i : length (points i) = size_of i.
Proof. unfold points, size_of. apply seq_length. Qed.

Lemma stored_seen {F} (zero : F) (A : farith F) (m : grib F) S bytes off (l : list (N * N)) x :
  supported m bytes off -> good_request (Z.to_N (m_points m)) l ->
  stored_result m bytes off S A l x -> sees_values zero A m S bytes off l x (shape_of l).
Proof.
  intros Hsup (Hne & Hb & Hs) [Hv Hm]. destruct x as [vals masks]. cbn [fst snd] in *.
  unfold sees_values.
  set (V := fun i : N * N => map (fun p => or_missing A (m_point m bytes off (code_value m A) S p)) (points i)).
  set (B := fun i : N * N => map (fun p => is_some (m_point m bytes off (fun X => X) S p)) (points i)).
  assert (vals = map V l) as ->.
  { clear - Hv. induction Hv as [|i v l vs E _ IH]; [reflexivity|]. cbn [map]. now rewrite E, IH. }
  assert (Forall2 (fun i v => length v = size_of i) l (map V l)) as LV.
  { clear. induction l; cbn; constructor; [|assumption]. unfold V. now rewrite map_length, points_length. }
  destruct (python_views zero l (map V l) (map B l) masks) as (P1 & _ & P2); auto.
  - eapply Forall_impl; [|exact Hb]. cbn. lia.
  - clear. induction l; cbn; constructor; [|assumption]. unfold B. now rewrite map_length, points_length.
  - unfold right_masks in Hm. clear - Hm. induction Hm; cbn; constructor; auto.
  - rewrite (total_sizes l _ LV). pose proof (sizes_fit l 0%N _ Hb Hs ltac:(apply Forall_forall; lia) ltac:(lia)) as Q.
    destruct Hsup as (_ & _ & _ & _ & _ & Hp & _). unfold two64. clear - Q Hp. lia.
Qed.

Lemma shape_eq (a : pyask) : Forall (fun i => 0 <= fst i /\ fst i < snd i /\ snd i < Z.of_N two64)%Z (a_ranges a) ->
  map (fun i => snd i - fst i)%Z (a_ranges a) = shape_of (asked_ranges a).
Proof.
  unfold shape_of, asked_ranges. rewrite map_map. intros H. apply map_ext_in. intros i I.
  rewrite Forall_forall in H. specialize (H i I). cbn. lia.
Qed.
Lemma zsum_total l : forall k, (fold_left Z.add (map (fun i : Z * Z => snd i - fst i) l) k = k + fold_right (fun r n => snd r - fst r + n) 0 l)%Z.
Proof. induction l as [|i l IH]; intros k; cbn; [lia|]. rewrite IH. lia. Qed.

Lemma missing_seen {F} (zero : F) (a : pyask) : a_ranges a <> [] -> (asked_total a < Z.of_N two64)%Z ->
  Forall (fun i => 0 <= fst i /\ fst i < snd i /\ snd i < Z.of_N two64)%Z (a_ranges a) ->
  py_values zero (@nil (list F), @nil (list N)) (map (fun i => snd i - fst i)%Z (a_ranges a)) = Throw EGribJump.
Proof.
  intros Ne T G. assert (zsum (map (fun i => snd i - fst i)%Z (a_ranges a)) = asked_total a) as Z.
  { unfold zsum, asked_total. rewrite zsum_total. lia. }
  assert (0 < asked_total a)%Z.
  { unfold asked_total. clear T Z. destruct (a_ranges a) as [|i l]; [congruence|]. inversion G as [|? ? G1 G2]; subst. cbn [fold_right].
    assert (0 <= fold_right (fun r n => (snd r - fst r + n)%Z) 0%Z l)%Z.
    { clear - G2. induction G2 as [|i l H _ IH]; cbn [fold_right]; lia. }
    lia. }
  apply py_values_mismatch; rewrite ?Z; [reflexivity| |].
  - clear - T H. split; [lia|exact T].
  - clear - H. unfold total. cbn [concat length]. lia.
Qed.

(* ---- put together ---- *)
Section User.
Context {F W : Type}.
Variable zero : F.
Variable o : outside F.
Variable P : string -> Prop.
Variable cfg : ModelEngine.config.
Variable expand : list (string * string) -> list (string * string).

Lemma user_view parsing parse listing asks rs res :
  Forall (fine_ask cfg expand parsing parse) asks ->
  plain_listing (c_ignore_ym cfg) listing -> duplicate_free (c_ignore_ym cfg) listing ->
  Forall2 (requested parsing parse) asks rs -> right_results o P cfg (map py_ctype rs) listing res ->
  Forall2 (python_sees zero o P cfg expand listing) asks (combine res (map py_shape rs)).
Proof.
  intros HA PL DF R RR. unfold right_results in RR.
  pose proof (canon_position (c_ignore_ym cfg) (map py_ctype rs) false ltac:(discriminate)) as CP.
  apply F2_map_l in CP.
  revert res RR. revert HA CP. generalize (canon_requests (c_ignore_ym cfg) false (map py_ctype rs)) as cs.
  induction R as [|a r asks rs Rr R IH]; intros cs HA CP res RR.
  - inversion CP; subst. inversion RR; subst. constructor.
  - inversion CP as [|? c ? cs' C1 C2]; subst. inversion RR as [|? x ? res' X1 X2]; subst. cbn [map combine].
    inversion HA as [|? ? A1 A2]; subst.
    constructor; [|eapply IH; eauto]. clear IH A2 C2 X2 R RR CP HA.
    destruct A1 as ((Fl & Ft) & U & PF). destruct Rr as (Ne & G & Sh & Ra & Ha & Te).
    destruct C1 as (C1 & C2 & d & D & C3). rewrite (U _ Te), canonical_verb in C3. rewrite C3 in X1.
    destruct (named_entry _ d _ _ PF PL DF D) as [E1 E2]. rewrite C1, C2, Ra, Ha in X1.
    split.
    + intros e I N m S bytes off M. rewrite (E1 e I N) in X1. destruct (X1 m S bytes off M) as [Y1 Y2].
      split; [exact Y1|]. intros Gd. cbn [fst snd]. rewrite Sh, (shape_eq a G).
      apply stored_seen; auto. destruct M as (_ & _ & _ & (_ & Su & _)). exact Su.
    + intros N. rewrite (E2 N) in X1. destruct X1 as [X1 ->]. split; [exact X1|]. cbn [fst snd]. rewrite Sh.
      now apply missing_seen.
Qed.

(* the call succeeds exactly if the library returns as many results as requests *)
Lemma extract_ok parsing parse (i : impl F W) asks w out w' : (lenN asks < two64)%N ->
  py_extract parsing parse i asks w = (Ok out, w') ->
  exists rs res, mapM (py_request_of parsing parse) asks = Ok rs /\ m_extract i (map py_ctype rs) w = (Ok res, w') /\
    (length res = length rs -> out = combine res (map py_shape rs)).
Proof.
  intros L H. unfold py_extract in H. destruct asks as [|a0 asks0] eqn:EA; [discriminate|]. rewrite <- EA in *. clear EA.
  destruct (mapM (py_request_of parsing parse) asks) as [rs| |] eqn:E; try discriminate.
  assert (length rs = length asks) as LR.
  { clear - E. revert rs E. induction asks as [|a l IH]; intros rs E; cbn in E; [injection E as <-; reflexivity|].
    destruct (py_request_of parsing parse a); try discriminate. cbn in E. destruct (mapM _ l); try discriminate. cbn in E. injection E as <-.
    cbn. f_equal. auto. }
  exists rs. unfold c_extract in H.
  assert (mapM (fun k => at_ (map py_ctype rs) (N.of_nat k)) (seq 0 (N.to_nat (lenN rs))) = Ok (map py_ctype rs)) as M.
  { unfold lenN. rewrite Nat2N.id.
    assert (forall pre, mapM (fun k => at_ (pre ++ map py_ctype rs) (N.of_nat k)) (seq (length pre) (length rs)) = Ok (map py_ctype rs)) as Q.
    { clear. induction rs as [|r rs IH]; intros pre; cbn [map length seq mapM]; [reflexivity|].
      unfold at_ at 1. rewrite Nat2N.id, nth_error_app2, Nat.sub_diag by lia. cbn [nth_error obind].
      specialize (IH (pre ++ [py_ctype r])). rewrite <- app_assoc in IH. cbn [app] in IH. rewrite app_length in IH. cbn [length] in IH.
      rewrite Nat.add_1_r in IH. rewrite IH. reflexivity. }
    exact (Q []). }
  rewrite M in H. unfold gj_extract in H.
  destruct (map py_ctype rs) as [|q qs] eqn:EQ.
  { cbn in H. discriminate. }
  rewrite <- EQ in *. unfold as_iterator, amap in H. destruct (m_extract i (map py_ctype rs) w) as [res w1].
  cbn [fst snd] in H. destruct res as [res| |]; cbn [omap obind try_catch checked] in H; try discriminate H.
  pose proof (f_equal snd H) as Y. apply (f_equal fst) in H. cbn [fst snd] in H, Y. subst w1.
  exists res. split; [reflexivity|]. split; [reflexivity|]. intros Lr.
  rewrite <- Lr in H. rewrite python_iteration in H.
  - now injection H as <-.
  - unfold lenN in *. rewrite Lr, LR. exact L.
  - now rewrite map_length.
Qed.

Lemma results_length listing reqs res : right_results o P cfg reqs listing res -> length res = length reqs.
Proof.
  unfold right_results. intros H. apply Forall2_length in H. etransitivity; [symmetry; exact H|]. clear H. generalize false.
  induction reqs as [|r l IH]; intros b; cbn; [reflexivity|]. now rewrite IH.
Qed.

Theorem python_user parsing parse (i : impl F W) asks w out w' : (lenN asks < two64)%N ->
  Forall (fine_ask cfg expand parsing parse) asks ->
  plain_catalogue o cfg -> right_answers o P cfg i w ->
  py_extract parsing parse i asks w = (Ok out, w') ->
  exists u listing, o_list o u = Ok listing /\ Forall2 (python_sees zero o P cfg expand listing) asks out.
Proof.
  intros L HA HL HI H. destruct (extract_ok parsing parse i asks w out w' L H) as (rs & res & E1 & E2 & E3).
  destruct (HI _ _ _ E2) as (u & listing & L1 & L2). exists u, listing. split; [exact L1|].
  rewrite E3 by (rewrite (results_length _ _ _ L2), map_length; reflexivity).
  destruct (HL u listing L1) as [PL DF]. eapply user_view; eauto.
  apply all_requested; [|exact E1]. eapply Forall_impl; [|exact HA]. intros a ((A1 & _) & _). exact A1.
Qed.


(* ---- one region of every field ---- *)
Lemma asked_within (l : list (N * N)) n : l <> [] -> Forall (fun i => fst i < snd i)%N l ->
  StronglySorted (fun a b => snd a <= fst b)%N l -> Forall (fun p => p < n) (asked_points l) -> good_request (N.of_nat n) l.
Proof.
  intros Ne Lt So In. split; [exact Ne|]. split; [|exact So]. rewrite Forall_forall in *. intros i I.
  specialize (Lt i I). assert (N.to_nat (snd i) - 1 < n); [|lia].
  apply In. unfold asked_points. apply in_flat_map. exists i. split; [exact I|]. apply in_seq. lia.
Qed.

Lemma region_of {V} (f : nat -> V) (l : list (N * N)) : concat (map (fun i => map f (points i)) l) = map f (asked_points l).
Proof.
  unfold asked_points. induction l as [|i l IH]; [reflexivity|]. cbn [map concat flat_map]. rewrite IH, map_app. reflexivity.
Qed.

Lemma mapM_dicts (l : list (Z * Z)) hash dicts :
  mapM (fun d => omap (fun rs => mk_pyask d rs hash) (Ok l)) dicts = Ok (map (fun d => mk_pyask d l hash) dicts).
Proof. induction dicts as [|d ds IH]; [reflexivity|]. cbn in *. now rewrite IH. Qed.

Theorem region_user parsing parse (i : impl F W) (l : list (Z * Z)) pts dicts hash w out w' : (lenN dicts < two64)%N ->
  (forall d, asked_fits (mk_pyask d l hash)) -> Forall (fine_dict cfg expand parsing parse) dicts ->
  plain_catalogue o cfg -> right_answers o P cfg i w ->
  let ns := map (fun r => (Z.to_N (fst r), Z.to_N (snd r))) l in
  l <> [] -> Forall (fun i => fst i < snd i)%N ns -> StronglySorted (fun a b => snd a <= fst b)%N ns -> asked_points ns = pts ->
  py_extract_region parsing parse i (Ok l) dicts hash w = (Ok out, w') ->
  exists u listing, o_list o u = Ok listing /\ Forall2 (region_sees zero o P cfg expand pts hash listing) dicts out.
Proof.
  intros L Fi Fd PC RA ns Ne Lt So Ep H. unfold py_extract_region in H. rewrite mapM_dicts in H.
  apply python_user in H; auto.
  2: { unfold lenN in *. rewrite map_length. exact L. }
  2: { rewrite Forall_map. eapply Forall_impl; [|exact Fd]. intros d D. split; [apply Fi|exact D]. }
  destruct H as (u & listing & L1 & L2).
  - exists u, listing. split; [exact L1|]. apply F2_map_l in L2. eapply F2_imp; [|exact L2].
    intros d y [S _] e I N m Sq bytes off M. cbn [a_dict a_ranges a_hash] in S.
    destruct (S e I N m Sq bytes off M) as [V0 V]. split; [exact V0|]. intros B.
    destruct V as [V1 V2].
    { unfold asked_ranges. cbn [a_ranges]. fold ns. replace (Z.to_N (m_points m)) with (N.of_nat (Z.to_nat (m_points m))).
      - apply asked_within; auto.
        + unfold ns. destruct l; [congruence|discriminate].
        + rewrite Ep. eapply Forall_impl; [|exact B]. cbn. intros p Q. clear - Q. lia.
      - clear. lia. }
    eexists. eexists. split; [exact V1|]. split; [|split; [exact V2|]].
    all: unfold asked_ranges; cbn [a_ranges]; fold ns; rewrite <- Ep; apply region_of.
Qed.


Lemma total_nat hash d (l : list (Z * Z)) : Forall (fun r => 0 <= fst r /\ fst r < snd r)%Z l ->
  asked_total (mk_pyask d l hash) = Z.of_nat (fold_right (fun i k => size_of i + k) 0 (map (fun r => (Z.to_N (fst r), Z.to_N (snd r))) l)) /\
  (Z.of_nat (length l) <= asked_total (mk_pyask d l hash))%Z.
Proof.
  unfold asked_total. cbn [a_ranges]. induction 1 as [|r l B _ IH]; [split; reflexivity || (cbn; lia)|].
  cbn [map fold_right length]. unfold size_of at 1. cbn [fst snd]. lia.
Qed.

Lemma region_fits hash (l : list (Z * Z)) n : (2 * N.of_nat n < two64)%N -> Forall (fun r => 0 <= fst r /\ fst r < snd r /\ snd r <= Z.of_nat n)%Z l ->
  StronglySorted (fun a b => snd a <= fst b)%N (map (fun r => (Z.to_N (fst r), Z.to_N (snd r))) l) ->
  forall d, asked_fits (mk_pyask d l hash).
Proof.
  intros L B So d. unfold asked_fits. cbn [a_ranges].
  destruct (total_nat hash d l) as [T1 T2]; [eapply Forall_impl; [|exact B]; cbn; tauto|].
  assert (fold_right (fun i k => size_of i + k) 0 (map (fun r => (Z.to_N (fst r), Z.to_N (snd r))) l) <= n) as Q.
  { rewrite <- (Nat2N.id n). rewrite <- (Nat.sub_0_r (N.to_nat (N.of_nat n))). change 0 with (N.to_nat 0) at 2. apply sizes_fit; [|exact So| |].
    - rewrite Forall_map. eapply Forall_impl; [|exact B]. cbn [fst snd]. clear. intros r Q. lia.
    - apply Forall_forall. intros x _. clear. lia.
    - clear. lia. }
  unfold lenN, two64 in *. clear - T1 T2 Q L. lia.
Qed.

Theorem mask_user parsing parse (i : impl F W) mask dicts hash w out w' : (lenN dicts < two64)%N -> (2 * lenN mask < two64)%N ->
  Forall (fine_dict cfg expand parsing parse) dicts -> plain_catalogue o cfg -> right_answers o P cfg i w ->
  py_extract_mask parsing parse i dicts mask hash w = (Ok out, w') ->
  exists u listing, o_list o u = Ok listing /\ Forall2 (region_sees zero o P cfg expand (true_points mask) hash listing) dicts out.
Proof.
  intros L Lm Fd PC RA H. unfold py_extract_mask in H.
  destruct (existsb (fun b => b) mask) eqn:E.
  2: { unfold mask_ranges in H. rewrite E in H. cbn [negb] in H. unfold py_extract_region in H.
       destruct dicts as [|d ds]; [unfold py_extract in H; discriminate H|discriminate H]. }
  destruct (mask_ranges_spec mask E) as (l & El & Se & Ru). rewrite El in H.
  pose proof (separated_forall (-1) _ l ltac:(lia) Se) as B.
  pose proof (proj1 (separated_sorted (Z.of_nat (length mask)) l (-1) ltac:(lia) Se)) as So.
  assert (forall d, asked_fits (mk_pyask d l hash)) as Fi.
  { apply (region_fits hash l (length mask)); [exact Lm| |exact So]. eapply Forall_impl; [|exact B]. cbn. intros; lia. }
  destruct (from_mask_exact false parse "" "" mask None eq_refl E Lm) as (r & R1 & R2 & G & Lt & _).
  unfold py_from_mask in R1. rewrite El in R1. cbn [obind] in R1.
  destruct (Fi []) as [F1 _]. cbn [a_ranges] in F1.
  assert (l <> []) as Ne by (intros ->; discriminate R1).
  rewrite (new_request_ok false parse "" "" l None) in R1; auto.
  2: reflexivity.
  2: { eapply Forall_impl; [|exact B]. cbn beta. intros a Q. unfold lenN in Lm. clear - Q Lm. lia. }
  injection R1 as <-. cbn [py_ctype r_ranges] in *.
  eapply region_user; eauto.
Qed.

Theorem indices_user parsing parse (i : impl F W) (pts : list nat) dicts hash w out w' : (lenN dicts < two64)%N ->
  (2 * lenN pts < two64)%N -> StronglySorted lt pts -> Forall (fun p => 2 * (N.of_nat p + 1) < two64)%N pts ->
  Forall (fine_dict cfg expand parsing parse) dicts -> plain_catalogue o cfg -> right_answers o P cfg i w ->
  py_extract_indices parsing parse i dicts (map Z.of_nat pts) hash w = (Ok out, w') ->
  exists u listing, o_list o u = Ok listing /\ Forall2 (region_sees zero o P cfg expand pts hash listing) dicts out.
Proof.
  intros L Lp So Bd Fd PC RA H. unfold py_extract_indices in H.
  set (l := index_ranges (map Z.of_nat pts)) in *.
  assert (map (fun r => (Z.to_N (fst r), Z.to_N (snd r))) l = map (fun p => (N.of_nat p, N.of_nat p + 1)%N) pts) as El.
  { unfold l, index_ranges. rewrite !map_map. apply map_ext. intros p. cbn. f_equal; lia. }
  assert (pts <> []) as Np.
  { intros ->. unfold py_extract_region, l in H. rewrite mapM_dicts in H. unfold py_extract in H.
    destruct dicts as [|d ds]; cbn in H; discriminate. }
  assert (StronglySorted (fun a b => snd a <= fst b)%N (map (fun p => (N.of_nat p, N.of_nat p + 1)%N) pts)) as So2.
  { clear - So. induction So as [|p l S IH A]; cbn; constructor; auto. rewrite Forall_map. eapply Forall_impl; [|exact A]. cbn. lia. }
  assert (exists n, (2 * N.of_nat n < two64)%N /\ Forall (fun p => p < n) pts) as (n & N1 & N2).
  { exists (fold_right (fun p n => Nat.max (S p) n) 0 pts). split.
    - clear - Bd. induction Bd as [|p l B _ IH]; cbn [fold_right]; [reflexivity|].
      destruct (Nat.max_spec (S p) (fold_right (fun p n => Nat.max (S p) n) 0 l)) as [[_ E]|[_ E]]; rewrite E; [exact IH|lia].
    - clear. induction pts as [|p l IH]; cbn [fold_right]; constructor.
      + apply Nat.le_max_l.
      + eapply Forall_impl; [|exact IH]. cbn beta. intros q Q. eapply Nat.lt_le_trans; [exact Q|apply Nat.le_max_r]. }
  eapply region_user with (l := l); eauto.
  - apply (region_fits hash l n N1); [|rewrite El; exact So2]. unfold l, index_ranges. rewrite map_map, Forall_map.
    eapply Forall_impl; [|exact N2]. cbn. lia.
  - unfold l. destruct pts; [congruence|discriminate].
  - rewrite El, Forall_map. apply Forall_forall. intros p _. cbn. lia.
  - now rewrite El.
  - rewrite El. clear. unfold asked_points. induction pts as [|p l IH]; [reflexivity|]. cbn [map flat_map]. rewrite IH. cbn [fst snd].
    replace (N.to_nat (N.of_nat p + 1) - N.to_nat (N.of_nat p)) with 1 by lia. cbn. now rewrite Nat2N.id.
Qed.

(* ---- the call does succeed ---- *)
Lemma mapM_requests parsing parse asks texts : Forall2 (accepted parsing parse) asks texts -> exists rs,
  mapM (py_request_of parsing parse) asks = Ok rs /\
  map py_ctype rs = map (fun p => asked_request (fst p) (snd p)) (combine asks texts) /\
  map py_shape rs = map (fun a => shape_of (asked_ranges a)) asks.
Proof.
  induction 1 as [|a s asks texts (T & Ne & (L & _) & G) _ (rs & R1 & R2 & R3)]; [exists []; auto|].
  cbn [mapM]. unfold py_request_of at 1. rewrite (new_request_ok _ _ _ s _ _ T Ne L G). cbn [obind]. rewrite R1. cbn [obind].
  eexists. split; [reflexivity|]. cbn [map combine fst snd py_ctype py_shape]. rewrite R2, R3, (shape_eq a G). auto.
Qed.

Lemma all_at (l : list request) : mapM (fun k => at_ l (N.of_nat k)) (seq 0 (length l)) = Ok l.
Proof.
  assert (forall pre, mapM (fun k => at_ (pre ++ l) (N.of_nat k)) (seq (length pre) (length l)) = Ok l) as Q.
  { induction l as [|r rs IH]; intros pre; cbn [map length seq mapM]; [reflexivity|].
    unfold at_ at 1. rewrite Nat2N.id, nth_error_app2, Nat.sub_diag by lia. cbn [nth_error obind].
    specialize (IH (pre ++ [r])). rewrite <- app_assoc in IH. cbn [app] in IH. rewrite app_length in IH. cbn [length] in IH.
    rewrite Nat.add_1_r in IH. rewrite IH. reflexivity. }
  exact (Q []).
Qed.

Theorem python_succeeds parsing parse (i : impl F W) asks texts w res w' : asks <> [] -> (lenN asks < two64)%N ->
  Forall2 (accepted parsing parse) asks texts ->
  m_extract i (map (fun p => asked_request (fst p) (snd p)) (combine asks texts)) w = (Ok res, w') -> length res = length asks ->
  py_extract parsing parse i asks w = (Ok (combine res (map (fun a => shape_of (asked_ranges a)) asks)), w').
Proof.
  intros Ne L HA HE HL. destruct (mapM_requests _ _ _ _ HA) as (rs & R1 & R2 & R3).
  unfold py_extract. destruct asks as [|a0 asks0] eqn:EA; [congruence|]. rewrite <- EA in *. rewrite R1.
  assert (length rs = length asks) as LR.
  { rewrite <- (map_length py_shape), R3. apply map_length. }
  unfold c_extract. replace (N.to_nat (lenN rs)) with (length (map py_ctype rs)) by (unfold lenN; rewrite map_length; lia).
  rewrite all_at. unfold gj_extract. destruct (map py_ctype rs) as [|q qs] eqn:EQ.
  { apply map_eq_nil in EQ. subst rs asks. discriminate LR. }
  rewrite R2. unfold as_iterator, amap. rewrite HE. cbn [fst snd omap obind try_catch checked].
  replace (length rs) with (length res) by congruence. rewrite python_iteration.
  - now rewrite R3.
  - unfold lenN in *. rewrite HL. exact L.
  - rewrite map_length. congruence.
Qed.
End User.

(* without request parsing the dict is taken as it is *)
Lemma understood_plain parse d : understood_as false parse (fun d => d) d.
Proof. intros s H. unfold text_ok in H. injection H as <-. now rewrite dic_text. Qed.

(* ---- where the implementation comes from ---- *)
Theorem local_answers {F W} (o : outside F) g P cfg state (i : impl F W) w : sound_outside o g P ->
  (forall p offs, SpecSystem.reachable o g P (state p offs)) -> plain_catalogue o cfg -> c_forward cfg = false -> c_inefficient cfg = false ->
  (forall reqs, fst (m_extract i reqs w) = extract_requests (world_of o g P state) cfg reqs) -> right_answers o P cfg i w.
Proof.
  intros S R C F1 F2 E reqs res w' H. specialize (E reqs). rewrite H in E. cbn [fst] in E. symmetry in E.
  eapply system_values in E; eauto. intros u l Hl. apply (C u l Hl).
Qed.

Theorem client_answers {F M W} (k : link F M) (s : site F M) (n : node F) (i : impl F W) w : sound_node n -> s_world s = node_world n ->
  plain_catalogue (n_outside n) (s_cfg s) -> c_forward (s_cfg s) = false -> c_inefficient (s_cfg s) = false ->
  (forall reqs, fst (m_extract i reqs w) = omap fst (client_extract k (site_server k s) reqs)) ->
  right_answers (n_outside n) (n_paths n) (s_cfg s) i w.
Proof.
  intros S R C F1 F2 E reqs res w' H. specialize (E reqs). rewrite H in E. cbn [fst] in E.
  destruct (client_extract k (site_server k s) reqs) as [[res' rest]| |] eqn:X; try discriminate. injection E as ->.
  eapply served_values in X; eauto; [apply X|]. intros u l Hl. apply (C u l Hl).
Qed.

(* ---- dicts with lists ---- *)
Lemma multi_loop_app d : forall out, multi_loop d out = (out ++ multi_loop d "")%string.
Proof.
  induction d as [|[k [v|l]] d IH]; intros out; cbn [multi_loop].
  - symmetry. induction out as [|c out IHo]; cbn; [reflexivity|now rewrite IHo].
  - rewrite IH, (IH ("" ++ _)%string). cbn [append]. now rewrite !sapp_assoc.
  - rewrite IH, (IH ("" ++ _)%string). cbn [append]. now rewrite !sapp_assoc.
Qed.
Lemma but_last_app s c : but_last (s ++ String c "") = s.
Proof.
  unfold but_last. assert (String.length (s ++ String c "") - 1 = String.length s) as ->.
  { assert (String.length (s ++ String c "") = S (String.length s)) as ->; [|lia].
    induction s as [|x s IH]; [reflexivity|]. cbn in *. now rewrite IH. }
  induction s as [|x s IH]; [reflexivity|]. cbn. now rewrite IH.
Qed.
Theorem multi_text d : multivalued_dic_to_request d = String.concat "," (map (fun kv => (fst kv ++ "=" ++ dvalue_text (snd kv))%string) d).
Proof.
  unfold multivalued_dic_to_request. destruct d as [|x d]; [reflexivity|].
  assert (forall x, multi_loop (x :: d) "" = (String.concat "," (map (fun kv => (fst kv ++ "=" ++ dvalue_text (snd kv))%string) (x :: d)) ++ ",")%string) as Q.
  { induction d as [|y d IH]; intros [k v].
    - cbn. destruct v; cbn; rewrite ?sapp_assoc; reflexivity.
    - assert (multi_loop ((k, v) :: y :: d) "" = ((k ++ "=" ++ dvalue_text v ++ ",") ++ multi_loop (y :: d) "")%string) as ->.
      { transitivity (multi_loop (y :: d) (k ++ "=" ++ dvalue_text v ++ ",")%string); [|apply multi_loop_app].
        destruct v as [v|l]; [reflexivity|]. change (multi_loop (y :: d) ((k ++ "=") ++ String.concat "/" l ++ ",") = multi_loop (y :: d) (k ++ "=" ++ String.concat "/" l ++ ",")).
        now rewrite sapp_assoc. }
      rewrite IH. cbn [map fst snd]. set (z := map _ d). cbn [String.concat]. rewrite !sapp_assoc. reflexivity. }
  rewrite Q. apply but_last_app.
Qed.
(* a dict without lists: the same text as dic_to_request *)
Theorem multi_single d : multivalued_dic_to_request (map (fun kv => (fst kv, One (snd kv))) d) = dic_to_request d.
Proof. rewrite multi_text. unfold dic_to_request. now rewrite map_map. Qed.

(* ---- the example ---- *)
Lemma plain_pairs ignore l : NoDup (map fst l) ->
  forallb (fun kv => negb (has_char "," (fst kv)) && negb (has_char "=" (fst kv)) && negb (has_char "," (snd kv)) && negb (has_char "=" (snd kv)) &&
                     negb (String.eqb (fst kv) "") && after_equals (fst kv)) l = true ->
  has_key "year" l = false -> has_key "month" l = false -> plain_field ignore l.
Proof.
  intros N H Y M. rewrite forallb_forall in H. split; [split; [exact N|]|split; [|intros _; auto]].
  - intros k v I. specialize (H _ I). cbn [fst snd] in H. repeat rewrite andb_true_iff in H. rewrite !negb_true_iff in H.
    destruct H as (((((H1 & H2) & H3) & H4) & H5) & H6). repeat split; auto. now apply String.eqb_neq.
  - intros k v I. specialize (H _ I). cbn [fst snd] in H. repeat rewrite andb_true_iff in H. tauto.
Qed.

Ltac nodup := repeat (constructor; [cbn; intuition discriminate|]); constructor.
Lemma one_user :
  Forall (fine_ask one_cfg (fun d => d) false (fun s => Ok s)) one_asks /\ plain_catalogue one_file one_cfg /\
  right_answers one_file one_path one_cfg one_impl tt.
Proof.
  assert (plain_catalogue one_file one_cfg) as C.
  { intros u l E. injection E as <-. split.
    - repeat (constructor; [apply plain_pairs; [nodup|reflexivity|reflexivity|reflexivity]|]). constructor.
    - unfold duplicate_free. cbn. nodup. }
  split; [|split; [exact C|]].
  - repeat (constructor; [split; [split; reflexivity|split; [apply understood_plain|apply plain_pairs; [nodup|reflexivity|reflexivity|reflexivity]]]|]).
    constructor.
  - apply (local_answers one_file one_cache one_path one_cfg one_state one_impl tt one_file_sound one_state_reachable C); reflexivity.
Qed.
