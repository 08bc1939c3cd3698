From Coq Require Import Permutation Sorted.
From Verif Require Import Base BaseLemmas ModelRange ModelSimple ModelCcsds ModelInfo ModelJumper ModelStrings ModelEngine
     SpecSimple SpecJumper SpecEngine SpecSafety ProofsSimple ProofsStrings ProofsEngine ProofsEngine2 ProofsEngine3 ProofsSafety.
Open Scope nat_scope.

Lemma mapM_dies {X Y} (f : X -> outcome Y) : forall l, mapM f l = UB -> exists x, In x l /\ f x = UB.
Proof.
  induction l as [|x l IH]; cbn [mapM]; [discriminate|]. destruct (f x) as [y|e|] eqn:E; cbn [obind]; [|discriminate|].
  - destruct (mapM f l); cbn [obind]; try discriminate. intros _. destruct IH as (z & Hz & H); [reflexivity|]. exists z. split; [now right|exact H].
  - intros _. exists x. split; [now left|exact E].
Qed.

Lemma no_death_dies {V} (ok : V -> Prop) x : no_death ok x -> x <> UB.
Proof. destruct x; cbn; [discriminate|discriminate|contradiction]. Qed.

Section Calls.
Context {F : Type}.
Variable w : world F.
Variable P : string -> Prop.
Hypothesis D : defined_world w P.
Notation items := (list (string * @item F)).
Notation A := (w_arith w).
Notation aec := (w_aec w).

Lemma extract_dies bytes off inf l : is_bytes bytes -> sane_info inf ->
  extract A aec bytes off inf l = UB -> ~ plain_ranges l \/ beyond_bitmap inf bytes off l.
Proof.
  intros Hb Hs H. assert (plain_ranges l \/ ~ plain_ranges l) as [Hl|Hl].
  { clear. unfold plain_ranges. induction l as [|i l [IH|IH]]; [left; constructor| |right; intros X; inversion X; auto].
    assert ((fst i <= snd i < two64)%N \/ ~ (fst i <= snd i < two64)%N) as [X|X] by lia; [left; now constructor|].
    right. intros Y; inversion Y; auto. }
  - right. apply (extract_undefined A aec bytes off inf Hb (dw_aec _ _ D) Hs l Hl). exact H.
  - now left.
Qed.

(* the items of a map: where they are and what they ask *)
Definition job_of (its : items) (j : string * @item F * Z) : Prop :=
  exists k, sfind k its = Some (snd (fst j)) /\ u_offset (it_uri (snd (fst j))) = Ok (snd j).

Lemma jobs_all (its : items) keys js : jobs its keys = Ok js ->
  Forall (fun j => exists k, In k keys /\ sfind k its = Some (snd (fst j)) /\ u_offset (it_uri (snd (fst j))) = Ok (snd j)) js.
Proof.
  unfold jobs. intros H. apply mapM_inv in H. induction H as [|k j ks js H1 H2 IH]; constructor.
  - unfold get_item in H1. destruct (sfind k its) as [i|] eqn:E; [|discriminate]. cbn [obind] in H1.
    destruct (u_offset (it_uri i)) as [o|e|] eqn:Eo; try discriminate. cbn [obind] in H1. injection H1 as <-.
    exists k. cbn [fst snd]. split; [now left|auto].
  - eapply Forall_impl; [|exact IH]. intros j' (k' & I & X). exists k'. split; [now right|exact X].
Qed.

Lemma jobs_defined (its : items) keys :
  (forall k, In k keys -> exists i, sfind k its = Some i /\ u_offset (it_uri i) <> UB) -> jobs its keys <> UB.
Proof.
  intros H E. apply mapM_dies in E. destruct E as (k & Hk & E). destruct (H k Hk) as (i & Hi & Ho).
  unfold get_item in E. rewrite Hi in E. cbn [obind] in E. destruct (u_offset (it_uri i)); cbn [obind] in E; congruence.
Qed.

Lemma loop_dies ig bytes : forall js infos, is_bytes bytes -> Forall sane_info infos -> length infos = length js ->
  extract_loop A aec ig bytes js infos = UB ->
  exists n j inf, nth_error js n = Some j /\ nth_error infos n = Some inf /\
    extract A aec bytes (snd j) inf (r_ranges (it_request (snd (fst j)))) = UB.
Proof.
  intros js infos Hb. revert infos. induction js as [|[[k i] o] js IH]; intros [|inf infos] Hs Hl H; cbn [extract_loop] in H; try discriminate.
  inversion Hs; subst. destruct (_ && _)%bool; [discriminate|]. destruct (_ && _)%bool; [discriminate|].
  destruct (extract A aec bytes o inf _) as [r|e|] eqn:E; cbn [obind] in H; [|discriminate|].
  - destruct (extract_loop _ _ _ _ js infos) eqn:El; cbn [obind] in H; try discriminate.
    destruct (IH infos) as (n & j & inf' & H1' & H2' & H3'); auto. exists (S n), j, inf'. auto.
  - exists 0, (k, i, o), inf. auto.
Qed.

(* what is known of the keys of a group *)
Definition group_fine (its : items) (p : string) (keys : list string) : Prop :=
  P p /\ forall k, In k keys -> exists i, sfind k its = Some i /\ u_offset (it_uri i) <> UB /\ u_length (it_uri i) <> UB.

Definition deadly_in (its : items) (p : string) (keys : list string) : Prop :=
  exists k i, In k keys /\ sfind k its = Some i /\ deadly w p (it_uri i) (r_ranges (it_request i)).

Lemma file_task_dies ig (its : items) p keys : group_fine its p keys ->
  extract_file w ig its p keys = UB -> deadly_in its p keys.
Proof.
  intros [Hp G] H. unfold extract_file, file_task in H.
  destruct (jobs its keys) as [js|e|] eqn:Ej; cbn [obind] in H; [|discriminate|].
  2:{ exfalso. apply (jobs_defined its keys) in Ej; [exact Ej|]. intros k Hk. destruct (G k Hk) as (i & Hi & Ho & _). eauto. }
  pose proof (dw_cache _ _ D p (map snd (w_sorter w js)) Hp) as C.
  destruct (w_cache_get w p (map snd (w_sorter w js))) as [infos|e|] eqn:Ec; cbn [obind no_death] in *; [|discriminate|contradiction].
  destruct C as [C1 C2]. rewrite map_length in C1. destruct (w_files w p) as [bytes|] eqn:Ef; [|discriminate].
  pose proof (dw_files _ _ D p bytes Ef) as Hb.
  destruct (loop_dies ig bytes _ infos Hb C2 C1 H) as (n & j & inf & Hj & Hi & He).
  pose proof (jobs_all _ _ _ Ej) as Hall. rewrite Forall_forall in Hall.
  assert (In j js) as Ij. { eapply Permutation_in; [symmetry; apply (dw_sorter _ _ D)|]. eapply nth_error_In; eauto. }
  destruct (Hall j Ij) as (k & Ik & Hk & Ho). exists k, (snd (fst j)). split; [exact Ik|]. split; [exact Hk|].
  assert (sane_info inf) as Hs. { rewrite Forall_forall in C2. apply C2. eapply nth_error_In; eauto. }
  destruct (extract_dies _ _ _ _ Hb Hs He) as [X|X]; [now left|right].
  exists bytes, (snd j), inf. split; [|exact X]. left. split; [exact Ef|]. split; [exact Ho|].
  exists (map snd (w_sorter w js)), infos, n. split; [exact Ec|]. split; [|exact Hi]. rewrite nth_error_map, Hj. reflexivity.
Qed.

Lemma read_loop_bytes ps : forall b, is_bytes b -> Forall is_bytes ps -> is_bytes (read_loop b ps).
Proof.
  unfold read_loop. induction ps as [|p ps IH]; intros b Hb Hp; [exact Hb|]. cbn [fold_left]. inversion Hp; subst. apply IH; [|assumption].
  unfold is_bytes in *. apply Forall_app. split; [assumption|]. rewrite Forall_forall in *. intros x Hx. apply Hb.
  rewrite <- (firstn_skipn (length p) b). apply in_or_app. now right.
Qed.

Lemma remote_task_dies (its : items) p keys : group_fine its p keys ->
  extract_remote w its keys = UB -> deadly_in its p keys.
Proof.
  intros [Hp G] H. unfold extract_remote, inefficient_task in H.
  destruct (jobs its keys) as [js|e|] eqn:Ej; cbn [obind] in H; [|discriminate|].
  2:{ exfalso. apply (jobs_defined its keys) in Ej; [exact Ej|]. intros k Hk. destruct (G k Hk) as (i & Hi & Ho & _). eauto. }
  pose proof (jobs_all _ _ _ Ej) as Hall.
  assert (Forall (fun j => exists k, In k keys /\ sfind k its = Some (snd (fst j)) /\ u_offset (it_uri (snd (fst j))) = Ok (snd j)) (w_sorter w js)) as Hall'.
  { rewrite Forall_forall in *. intros j Hj. apply Hall. eapply Permutation_in; [symmetry; apply (dw_sorter _ _ D)|exact Hj]. }
  clear Hall Ej. revert H Hall'. generalize (w_sorter w js) as l. induction l as [|[[k i] o] l IH]; intros H Hall; cbn [inefficient_loop] in H; [discriminate|].
  inversion Hall as [|? ? (k' & Ik & Hk & Ho) Hall']; subst. cbn [fst snd] in *.
  destruct (String.eqb_spec (u_scheme (it_uri i)) "fdb") as [Hs|]; cbn [negb] in H; [|discriminate].
  destruct (G k' Ik) as (i' & Hi' & _ & Hlen). assert (i' = i) by congruence. subst i'.
  destruct (u_length (it_uri i)) as [n|e|] eqn:En; cbn [obind] in H; [|discriminate|congruence].
  destruct (n <? 0)%Z eqn:Eneg; [discriminate|].
  pose proof (dw_pieces _ _ D (it_uri i) n) as Hps. destruct (w_pieces w (it_uri i) n) as [ps|e|] eqn:Eps; cbn [obind no_death] in *; [|discriminate|contradiction].
  set (buf := read_loop (w_fresh w n) ps) in *.
  assert (is_bytes buf) as Hb. { apply read_loop_bytes; [apply (dw_fresh _ _ D)|exact Hps]. }
  pose proof (dw_build _ _ D buf) as Hbi. destruct (w_build_info w buf) as [inf|e|] eqn:Eb; cbn [obind no_death] in *; [|discriminate|contradiction].
  destruct (extract A aec buf 0 inf _) as [r|e|] eqn:Ee; cbn [obind] in H; [|discriminate|].
  - apply IH; [|exact Hall']. destruct (inefficient_loop _ _ _ _ _ l); cbn [obind] in H; congruence.
  - exists k', i. split; [exact Ik|]. split; [exact Hk|]. destruct (extract_dies _ _ _ _ Hb Hbi Ee) as [X|X]; [now left|right].
    exists buf, 0%Z, inf. split; [|exact X]. right. split; [exact Hs|]. split; [reflexivity|]. split; [exact Eb|].
    exists n. split; [exact En|]. unfold buffer_of. rewrite Eneg, Eps. reflexivity.
Qed.

Lemma run_tasks_dies ts : forall its : items, run_tasks ts its = UB -> In UB ts.
Proof.
  induction ts as [|[r|e|] ts IH]; intros its H; cbn [run_tasks] in H; [discriminate| | |now left].
  - right. eauto.
  - right. destruct (run_tasks ts its) eqn:E; cbn [obind] in H; try discriminate. eauto.
Qed.

Notation sched := (schedule A aec (w_cache_get w) (w_files w) (w_sorter w) (w_build_info w) (w_pieces w) (w_fresh w) (w_forward w)).

Lemma schedule_dies cfg forward fm (its : items) :
  (forall p ks, In (p, ks) fm -> ks <> [] /\ group_fine its p ks) ->
  sched cfg forward fm its = UB -> exists p ks, In (p, ks) fm /\ deadly_in its p ks.
Proof.
  intros G H. unfold schedule in H. destruct forward.
  { exfalso. apply (dw_forward _ _ D fm its); [|exact H]. intros p ks Ig. destruct (G p ks Ig) as [Hne [_ Hk]]. split; [exact Hne|].
    intros k Ik. destruct (Hk k Ik) as (i & Hi & Ho & _). eauto. }
  assert (forall g, In g (in_key_order fm) -> In g fm) as Hin.
  { intros g Hg. eapply Permutation_in; [symmetry; apply in_key_order_perm|exact Hg]. }
  destruct (mapM _ (in_key_order fm)) as [ts|e|] eqn:Em; cbn [obind] in H; [|discriminate|].
  - destruct (negb _); cbn [assert_ obind] in H; [|discriminate]. apply run_tasks_dies in H.
    apply mapM_inv in Em. clear -Em H G Hin D. induction Em as [|[p ks] t gs ts H1 H2 IH]; [destruct H|].
    destruct H as [->|H]; [|apply IH; [exact H|]; intros g Hg; apply Hin; now right].
    specialize (Hin (p, ks) (or_introl eq_refl)). destruct (G p ks Hin) as [Hne Hg]. exists p, ks. split; [exact Hin|].
    unfold task_for in H1. cbn [fst snd] in H1. destruct ks as [|k ks]; [congruence|].
    destruct (get_item its k) as [i|e|]; cbn [obind] in H1; try discriminate.
    destruct (is_remote (it_uri i)).
    + destruct (c_inefficient cfg); [|discriminate]. injection H1 as H1. exact (remote_task_dies its p _ Hg H1).
    + injection H1 as H1. exact (file_task_dies _ its p _ Hg H1).
  - exfalso. apply mapM_dies in Em. destruct Em as ([p ks] & Hg & Em). apply Hin in Hg. destruct (G p ks Hg) as [Hne [_ Hk]].
    unfold task_for in Em. cbn [fst snd] in Em. destruct ks as [|k ks]; [congruence|].
    destruct (Hk k (or_introl eq_refl)) as (i & Hi & _). unfold get_item in Em. rewrite Hi in Em. cbn [obind] in Em.
    destruct (is_remote (it_uri i)); [destruct (c_inefficient cfg)|]; discriminate.
Qed.

Lemma take_all_defined keys : forall m : items, take_all keys m <> UB.
Proof.
  induction keys as [|k keys IH]; intros m H; cbn [take_all] in H; [discriminate|].
  destruct (sfind k m) as [i|]; [|discriminate]. destruct (it_result i); [|discriminate].
  specialize (IH (supdate k take_result m)). destruct (take_all keys _); cbn [obind] in H; congruence.
Qed.

Lemma tail_defined keys (x : outcome (list error * items)) :
  (let* (es, its2) := x in let* _ := raise_errors es in collect_results keys (collect_items its2)) = UB -> x = UB.
Proof.
  destruct x as [[es its2]|e|]; cbn [obind]; [|discriminate|reflexivity].
  destruct es; cbn [raise_errors obind]; [|discriminate]. unfold collect_results, assert_. destruct (_ =? _)%N; cbn [obind]; [|discriminate].
  intros H. exfalso. exact (take_all_defined _ _ H).
Qed.

(* how far a batch of requests gets before it can be undefined *)
Lemma requests_schedule cfg reqs :
  (forall u, no_death (Forall (fun e => P (u_path (l_uri e)) /\ u_offset (l_uri e) <> UB /\ u_length (l_uri e) <> UB)) (w_list w u)) ->
  extract_requests w cfg reqs = UB ->
  exists u listing fm its1, w_list w u = Ok listing /\ NoDup (map fst fm) /\
    Forall (fun e => P (u_path (l_uri e)) /\ u_offset (l_uri e) <> UB /\ u_length (l_uri e) <> UB) listing /\
    (forall k i, sfind k its1 = Some i -> exists r, In r (canon_requests (c_ignore_ym cfg) false reqs) /\ r_string r = k /\ it_request i = r) /\
    (forall p ks, In (p, ks) fm -> ks <> [] /\ P p /\
     forall k, In k ks -> (exists e', In e' listing /\ listed_as (c_ignore_ym cfg) e' = k /\ u_path (l_uri e') = p) /\
       exists i e, sfind k its1 = Some i /\ In e listing /\ listed_as (c_ignore_ym cfg) e = k /\ it_uri i = l_uri e) /\
    sched cfg (c_forward cfg) fm its1 = UB.
Proof.
  intros HD.
  unfold extract_requests, local_extract. intros H.
  destruct (build_request_map (c_ignore_ym cfg) reqs) as [[[u rs] its]|e|] eqn:Eb; cbn [obind] in H; [|discriminate|].
  2:{ exfalso. clear H. destruct (ListDec.NoDup_dec string_dec (map r_string (canon_requests (c_ignore_ym cfg) false reqs))) as [ND|ND].
      - destruct (build_map_ok (F := F) _ _ ND) as (u & E). rewrite E in Eb. discriminate.
      - rewrite (build_map_clash _ _ ND) in Eb. discriminate. }
  destruct (build_map_inv _ _ _ _ _ Eb) as (-> & -> & ND). clear Eb.
  set (rs := canon_requests (c_ignore_ym cfg) false reqs) in *. set (its := map (fun r => (r_string r, new_item r)) rs) in *.
  pose proof (HD u) as HL. destruct (w_list w u) as [listing|e|] eqn:El; cbn [obind no_death] in *; [|discriminate|contradiction].
  destruct (file_map _ _ listing its) as [[fm its1]|e|] eqn:Ef; cbn [obind] in H; [|discriminate|].
  2:{ unfold file_map in Ef. destruct (fold_left _ listing _) as [[fm its'] c]. destruct (_ && _)%bool; discriminate. }
  apply tail_defined in H.
  destruct (file_map_inv _ _ _ _ _ _ Ef) as (c & L & _).
  assert (forall k i, sfind k its1 = Some i -> exists r, In r rs /\ r_string r = k /\ it_request i = r) as Hreq.
  { intros k i Hi. rewrite (li_find _ _ _ _ _ _ L) in Hi. unfold its in Hi. rewrite sfind_entries in Hi by exact ND.
    destruct (find _ rs) as [r|] eqn:Er; [|discriminate]. apply find_some in Er. destruct Er as [Ir Ek]. apply String.eqb_eq in Ek.
    exists r. split; [exact Ir|]. split; [exact Ek|]. injection Hi as <-. destruct (last_entry _ _ _); reflexivity. }
  assert (Hgroup : forall p ks, In (p, ks) fm -> ks <> [] /\ P p /\
     forall k, In k ks -> (exists e', In e' listing /\ listed_as (c_ignore_ym cfg) e' = k /\ u_path (l_uri e') = p) /\
       exists i e, sfind k its1 = Some i /\ In e listing /\ listed_as (c_ignore_ym cfg) e = k /\ it_uri i = l_uri e).
  { intros p ks Ig. destruct (li_groups _ _ _ _ _ _ L) as (m & -> & (_ & Pm & Gm)).
    apply in_map_iff in Ig. destruct Ig as ([p' es] & E & Im). cbn [fst snd] in E. injection E as <- <-.
    destruct (Gm _ _ Im) as [Hne Hes].
    assert (forall e, In e es -> In e listing /\ known (c_ignore_ym cfg) its e = true) as Hl.
    { intros e Ie. apply filter_In. eapply Permutation_in; [symmetry; exact Pm|]. apply in_concat. exists es. split; [|exact Ie].
      apply in_map_iff. exists (p', es). auto. }
    rewrite Forall_forall in HL.
    split; [destruct es; [congruence|discriminate]|]. split.
    { destruct es as [|e es]; [congruence|]. rewrite <- (Hes e (or_introl eq_refl)). apply HL. apply Hl. now left. }
    intros k Ik. apply in_map_iff in Ik. destruct Ik as (e & Ek & Ie). destruct (Hl e Ie) as [Il Kn].
    split; [exists e; auto|]. unfold known in Kn. rewrite Ek in Kn.
    rewrite (li_find _ _ _ _ _ _ L k). destruct (sfind k its) as [i|] eqn:Ei; [|discriminate].
    destruct (last_entry (c_ignore_ym cfg) listing k) as [e2|] eqn:E2.
    - unfold last_entry in E2. apply find_some in E2. destruct E2 as [I2 K2]. apply in_rev in I2. apply String.eqb_eq in K2.
      exists (set_uri (l_uri e2) i), e2. auto.
    - exfalso. unfold last_entry in E2. pose proof (find_none _ _ E2 e) as X. rewrite <- in_rev in X. specialize (X Il). cbn beta in X. rewrite Ek, String.eqb_refl in X. discriminate. }
  exists u, listing, fm, its1. split; [exact El|]. split.
  { destruct (li_groups _ _ _ _ _ _ L) as (m & -> & (Nm & _)). rewrite map_map. exact Nm. }
  split; [exact HL|]. split; [exact Hreq|]. split; [exact Hgroup|exact H].
Qed.

(* a batch of requests *)
Theorem requests_die cfg reqs : extract_requests w cfg reqs = UB ->
  exists u listing r e e',
    w_list w u = Ok listing /\ In e listing /\ In e' listing /\
    In r (canon_requests (c_ignore_ym cfg) false reqs) /\
    listed_as (c_ignore_ym cfg) e = r_string r /\ listed_as (c_ignore_ym cfg) e' = r_string r /\
    deadly w (u_path (l_uri e')) (l_uri e) (r_ranges r).
Proof.
  intros H. destruct (requests_schedule cfg reqs (dw_list _ _ D) H) as (u & listing & fm & its1 & El & _ & HL & Hreq & Hgroup & Hs).
  destruct (schedule_dies cfg (c_forward cfg) fm its1) as (p & ks & Ig & (k & i & Ik & Hi & Hd)); [|exact Hs|].
  { intros p ks Ig. destruct (Hgroup p ks Ig) as (Hne & Hp & Hk). split; [exact Hne|]. split; [exact Hp|].
    intros k Ik. destruct (Hk k Ik) as (_ & i & e & Hi & Ie & _ & Hu). exists i. split; [exact Hi|]. rewrite Hu.
    rewrite Forall_forall in HL. destruct (HL e Ie) as (_ & X & Y). auto. }
  destruct (Hgroup p ks Ig) as (_ & _ & Hk). destruct (Hk k Ik) as ((e' & Ie' & Ke' & Pe') & i2 & e & Hi2 & Ie & Ke & Hu).
  assert (i2 = i) by congruence. subst i2. destruct (Hreq k i Hi) as (r & Ir & Kr & Rr).
  exists u, listing, r, e, e'. rewrite Rr, Hu in Hd. rewrite Pe'. split; [exact El|]. repeat (split; [assumption || congruence|]). exact Hd.
Qed.

(* requests by file and offset *)
Theorem path_requests_die cfg reqs : reqs <> [] -> Forall (fun r => P (p_path r)) reqs -> extract_path_requests w cfg reqs = UB ->
  exists r, In r reqs /\ deadly w (p_path r) (p_uri r) (p_ranges r).
Proof.
  intros Hne HP H. unfold extract_path_requests, local_extract_paths in H. destruct reqs as [|r0 reqs]; [congruence|]. set (l := r0 :: reqs) in *.
  apply tail_defined in H. set (its := build_uris_map l) in *.
  assert (wf_items its) as [ND _]. { apply pfold_wf. split; [constructor|intros; discriminate]. }
  destruct (paths_groups_ok its ND) as [[_ G] _].
  destruct (schedule_dies cfg (negb (String.eqb (p_host r0) "" && (p_port r0 =? 0)%Z)) (file_map_from_paths its) its) as (p & ks & Ig & (k & i & Ik & Hi & Hd)); [|exact H|].
  - intros p ks Ig. split.
    + rewrite file_map_from_paths_map in Ig. pose proof (paths_partition its) as (_ & _ & Gm).
      apply in_map_iff in Ig. destruct Ig as ([g xs] & E & Im). cbn [fst snd] in E. injection E as <- <-.
      destruct (Gm _ _ Im) as [X _]. destruct xs; [congruence|discriminate].
    + assert (forall k, In k ks -> exists r, In r l /\ sfind k its = Some (set_uri (p_uri r) (new_item (p_request r))) /\ p_path r = p) as Hk.
      { intros k Ik. destruct (G p ks k Ig Ik) as (i & Hi & Hp). destruct (pfold_items _ _ _ Hi) as (r & Ir & _ & ->). exists r. auto. }
      split.
      * destruct ks as [|k ks].
        { exfalso. rewrite file_map_from_paths_map in Ig. pose proof (paths_partition its) as (_ & _ & Gm).
          apply in_map_iff in Ig. destruct Ig as ([g xs] & E & Im). cbn [fst snd] in E. injection E as <- E.
          destruct (Gm _ _ Im) as [X _]. destruct xs; [congruence|discriminate]. }
        destruct (Hk k (or_introl eq_refl)) as (r & Ir & _ & <-). rewrite Forall_forall in HP. auto.
      * intros k Ik. destruct (Hk k Ik) as (r & Ir & Hi & _). eexists. split; [exact Hi|]. cbn [set_uri it_uri p_uri u_offset u_length].
        split; [destruct (_ <? _)%N; discriminate|discriminate].
  - destruct (pfold_items _ _ _ Hi) as (r & Ir & _ & ->). exists r. split; [exact Ir|].
    destruct (G p ks k Ig Ik) as (i' & Hi' & Hp). rewrite Hi in Hi'. injection Hi' as <-. cbn in Hp. subst p. exact Hd.
Qed.
End Calls.

(* straight from a file *)
Section Direct.
Context {F : Type}.
Variable A : farith F.
Variable aec : aec_oracle.
Variable files : string -> option (list N).
Variable extractor : string -> list Z -> outcome (list (info F)).
Hypothesis Haec : counts_samples aec.
Hypothesis Hfiles : forall p b, files p = Some b -> is_bytes b.
Hypothesis Hext : forall p offs, no_death (fun infos => length infos = length offs /\ Forall sane_info infos) (extractor p offs).

Lemma direct_loop_dies bytes : is_bytes bytes -> forall offs infos ranges, length infos = length offs -> length ranges = length offs ->
  Forall sane_info infos -> direct_loop A aec bytes offs infos ranges = UB ->
  exists k off inf l, nth_error offs k = Some off /\ nth_error infos k = Some inf /\ nth_error ranges k = Some l /\
    (~ plain_ranges l \/ beyond_bitmap inf bytes off l).
Proof.
  intros Hb. induction offs as [|o offs IH]; intros [|inf infos] [|l ranges] H1 H2 Hs H; cbn [direct_loop] in H; try discriminate.
  inversion Hs; subst. destruct (extract A aec bytes o inf l) as [r|e|] eqn:E; cbn [obind] in H; [|discriminate|].
  - destruct (direct_loop _ _ _ offs infos ranges) eqn:El; cbn [obind] in H; try discriminate.
    destruct (IH infos ranges) as (k & X); auto. exists (S k). exact X.
  - exists 0, o, inf, l. repeat (split; [reflexivity|]).
    assert (plain_ranges l \/ ~ plain_ranges l) as [Hl|Hl]; [|right|now left].
    { clear. unfold plain_ranges. induction l as [|i l [IH|IH]]; [left; constructor| |right; intros X; inversion X; auto].
      assert ((fst i <= snd i < two64)%N \/ ~ (fst i <= snd i < two64)%N) as [X|X] by lia; [left; now constructor|].
      right. intros Y; inversion Y; auto. }
    apply (extract_undefined A aec bytes o inf Hb Haec); assumption.
Qed.

Theorem direct_dies path offs ranges : api_extract_direct A aec files extractor path offs ranges = UB ->
  exists bytes infos k off inf l,
    files path = Some bytes /\ extractor path offs = Ok infos /\
    nth_error offs k = Some off /\ nth_error infos k = Some inf /\ nth_error ranges k = Some l /\
    (~ plain_ranges l \/ beyond_bitmap inf bytes off l).
Proof.
  unfold api_extract_direct, direct_extract. destruct (String.eqb _ _); [discriminate|]. destruct (_ =? 0)%N; [discriminate|].
  destruct (N.eqb_spec (lenN offs) (lenN ranges)) as [E|]; cbn [negb]; [|discriminate].
  pose proof (Hext path offs) as He. destruct (extractor path offs) as [infos|e|]; cbn [obind no_death] in *; [|discriminate|contradiction].
  destruct He as [He1 He2]. destruct (files path) as [bytes|] eqn:Ef; [|discriminate]. intros H.
  assert (length ranges = length offs) as Hr by (unfold lenN in E; lia).
  destruct (direct_loop_dies bytes (Hfiles _ _ Ef) offs infos ranges He1 Hr He2 H) as (k & off & inf & l & X).
  exists bytes, infos, k, off, inf, l. auto.
Qed.
End Direct.
