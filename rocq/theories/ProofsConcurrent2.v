(* For C88 and C89: requests served by the task system, with a shared info cache. *)
From Coq Require Import Permutation QArith Lia.
From Verif Require Import Base BaseLemmas ModelInfo ModelSimple ModelCcsds ModelJumper ModelStrings ModelLRU ModelCache ModelBuild ModelEngine ModelQueue ModelTask
  ModelStream ModelProtocol ModelRemote SpecCache SpecJumper SpecBuild SpecEngine SpecSystem SpecRemote SpecDeploy SpecQueue
  ProofsTask2 ProofsTask3 ProofsStrings ProofsEngine ProofsEngine2 ProofsEngine3 ProofsBuild3 ProofsForward ProofsSystem ProofsDeploy
  SpecConcurrent ProofsConcurrent.
From Verif Require Import ProofsBuild ProofsBuild2.
From Verif Require ModelThreads SpecThreads ProofsThreads4.
Local Open Scope nat_scope.

Section Served.
Context {F : Type}.
Variable w : world F.
Notation items := (list (string * @item F)).
Notation work := (outcome (list (string * result F))).
Notation keys_of := (@writes_to F).
Notation tasks cfg its := (task_for (w_arith w) (w_aec w) (w_cache_get w) (w_files w) (w_sorter w) (w_build_info w)
                             (w_pieces w) (w_fresh w) cfg its).
Hypothesis Hw : sound_world w.

Lemma task_keys cfg (its : items) f t : tasks cfg its f = Ok t -> incl (keys_of t) (snd f) /\ (NoDup (snd f) -> NoDup (keys_of t)).
Proof.
  intro E. destruct t as [rs|e|]; [|split; [intros ? []|constructor]..].
  assert (Permutation (snd f) (map fst rs)) as Pm.
  { unfold task_for in E. destruct f as [p ks]. cbn [fst snd] in *. destruct ks as [|k0 ks]; [discriminate|].
    unfold get_item in E. destruct (sfind k0 its) as [i0|]; [|discriminate]. cbn [obind] in E.
    destruct (is_remote (it_uri i0)).
    - destruct (c_inefficient cfg); [|discriminate]. injection E as E.
      exact (proj1 (inefficient_task_inv (w_arith w) (w_aec w) (w_sorter w) (w_build_info w) (w_pieces w) (w_fresh w) (proj1 Hw) _ _ _ E)).
    - injection E as E.
      exact (proj1 (file_task_inv (w_arith w) (w_aec w) (w_cache_get w) (w_files w) (w_sorter w) (w_build_info w) (w_pieces w) (w_fresh w) (w_list w) (w_true_info w) (proj1 Hw) (proj2 Hw) _ _ _ _ _ E)). }
  split.
  - intros k I. eapply Permutation_in; [symmetry; exact Pm|exact I].
  - intro ND. eapply Permutation_NoDup; eauto.
Qed.

Lemma tasks_separate cfg (its : items) fm ts : groups_ok its fm -> mapM (tasks cfg its) (in_key_order fm) = Ok ts -> separate ts.
Proof.
  intros [ND _] E. apply mapM_inv in E.
  assert (ND' : NoDup (concat (map snd (in_key_order fm)))).
  { eapply Permutation_NoDup; [apply concat_map_perm, in_key_order_perm|exact ND]. }
  clear ND. apply nodup_separate. revert ND' E. generalize (in_key_order fm) as l. intros l ND E.
  induction E as [|f t l ts Et E IH]; cbn [map concat] in *; [constructor|].
  apply NoDup_app_iff_ in ND. destruct ND as (N1 & N2 & N3). apply NoDup_app_iff_.
  destruct (task_keys _ _ _ _ Et) as [K1 K2]. split; [exact (K2 N1)|]. split; [exact (IH N2)|].
  intros k I1 I2. apply (N3 k (K1 k I1)). clear -E I2 Hw.
  induction E as [|f t l ts Et E IH]; cbn [map concat] in *; [exact I2|].
  apply in_app_iff in I2. apply in_app_iff. destruct I2 as [I2|I2]; [left|right; exact (IH I2)].
  exact (proj1 (task_keys _ _ _ _ Et) k I2).
Qed.

Lemma prepared_separate cfg reqs keys its ts : unique_listings w cfg -> prepared w cfg reqs keys its ts -> separate ts.
Proof.
  intros U (u & reqs' & its0 & listing & fm & Eb & El & Em & Et & _).
  destruct (build_map_inv _ _ _ _ _ Eb) as (-> & -> & ND).
  apply (tasks_separate cfg its fm ts); [|exact Et].
  eapply file_map_groups_ok; [exact (U _ _ El)| |exact Em]. exact (proj1 (wf_entries _ ND)).
Qed.
Lemma prepared_paths_separate cfg reqs keys its ts : prepared_paths w cfg reqs keys its ts -> separate ts.
Proof.
  intros (-> & Et & _). eapply tasks_separate; [|exact Et]. apply paths_groups_ok.
  exact (proj1 (pfold_wf reqs [] (conj (NoDup_nil _) (fun k i (X : sfind k [] = Some i) => ltac:(discriminate X))))).
Qed.

Lemma some_tasks {A} cf s g errs (ts : list (outcome A)) text : no_abandon cf -> ModelTask.reachable cf s -> returned s g errs -> runs_tasks text cf g ts -> lenN ts <> 0%N.
Proof.
  intros NA R Ret [N _]. destruct (inv_reach cf NA s R) as [I J].
  assert (W : waits (s_clients s g) = true) by (destruct Ret as [H|H]; rewrite H; reflexivity).
  destruct (i_wait _ _ J g W) as [_ Z]. unfold lenN. rewrite <- N. lia.
Qed.

Lemma answer_spec text keys (errs : list string) es (its : items) : Permutation errs (map text es) ->
  answer_of keys errs its = let* _ := raise_errors es in collect_results keys (collect_items its).
Proof.
  intro Pm. destruct es as [|e es]; cbn in Pm.
  - apply Permutation_sym, Permutation_nil in Pm. subst. reflexivity.
  - destruct errs; [apply Permutation_nil in Pm; discriminate|reflexivity].
Qed.

(* the answer of a request does not depend on the schedule *)
Theorem served_requests text cf g cfg reqs keys its ts s h errs :
  unique_listings w cfg -> c_forward cfg = false -> prepared w cfg reqs keys its ts ->
  no_abandon cf -> runs_tasks text cf g ts -> runs cf s h -> returned s g errs ->
  answer_of keys errs (items_after ts (of_group g h) its) = extract_requests w cfg reqs.
Proof.
  intros U Hf Hp NA RT R Ret. pose proof (prepared_separate _ _ _ _ _ U Hp) as Sep.
  destruct (tasks_schedule_independent text cf g ts its s h errs NA RT Sep R Ret) as (es & Er & Pm).
  rewrite (answer_spec text keys errs es _ Pm).
  pose proof (some_tasks cf s g errs ts text NA (runs_reachable _ _ _ R) Ret RT) as Ne.
  destruct Hp as (u & reqs' & its0 & listing & fm & Eb & El & Em & Et & ->).
  unfold extract_requests, local_extract. rewrite Eb. cbn [obind]. rewrite El. cbn [obind]. rewrite Em. cbn [obind].
  unfold schedule. rewrite Hf, Et. cbn [obind]. apply N.eqb_neq in Ne. rewrite Ne. cbn [negb assert_ obind]. rewrite Er. reflexivity.
Qed.

Theorem served_paths text cf g cfg reqs keys its ts s h errs r0 rest :
  reqs = r0 :: rest -> p_host r0 = ""%string -> p_port r0 = 0%Z -> prepared_paths w cfg reqs keys its ts ->
  no_abandon cf -> runs_tasks text cf g ts -> runs cf s h -> returned s g errs ->
  answer_of keys errs (items_after ts (of_group g h) its) = extract_path_requests w cfg reqs.
Proof.
  intros Hr Hh Hpt Hp NA RT R Ret. pose proof (prepared_paths_separate _ _ _ _ _ Hp) as Sep.
  destruct (tasks_schedule_independent text cf g ts its s h errs NA RT Sep R Ret) as (es & Er & Pm).
  rewrite (answer_spec text keys errs es _ Pm).
  pose proof (some_tasks cf s g errs ts text NA (runs_reachable _ _ _ R) Ret RT) as Ne.
  destruct Hp as (-> & Et & ->). subst reqs.
  unfold extract_path_requests, local_extract_paths. cbv beta zeta iota. rewrite Hh, Hpt. cbn [String.eqb andb Z.eqb negb].
  unfold schedule. rewrite Et. cbn [obind]. apply N.eqb_neq in Ne. rewrite Ne. cbn [negb assert_ obind]. rewrite Er. reflexivity.
Qed.

(* a request that the engine can answer is prepared, and none of its tasks fails *)
Theorem answered_prepared cfg reqs res : c_forward cfg = false -> extract_requests w cfg reqs = Ok res ->
  exists keys its ts, prepared w cfg reqs keys its ts /\ ts <> [] /\ forall t, In t ts -> exists rs, t = Ok rs.
Proof.
  intros Hf H. unfold extract_requests, local_extract in H.
  destruct (build_request_map (c_ignore_ym cfg) reqs) as [[[u rs] its0]| |] eqn:Eb; try discriminate. cbn [obind] in H.
  destruct (w_list w u) as [listing| |] eqn:El; try discriminate. cbn [obind] in H.
  destruct (file_map (c_ignore_ym cfg) (c_allow_missing cfg) listing its0) as [[fm its1]| |] eqn:Em; try discriminate.
  cbn [obind] in H. unfold schedule in H. rewrite Hf in H.
  destruct (mapM (tasks cfg its1) (in_key_order fm)) as [ts| |] eqn:Et; try discriminate. cbn [obind] in H.
  destruct (lenN ts =? 0)%N eqn:En; [discriminate|]. cbn [negb assert_ obind] in H.
  destruct (run_tasks ts its1) as [[es its2]| |] eqn:Er; try discriminate. cbn [obind] in H.
  destruct es as [|e es]; [|discriminate]. destruct (run_tasks_ok _ _ _ Er) as (outs & -> & _).
  exists (map r_string rs), its1, (map Ok outs). split; [|split].
  - exists u, rs, its0, listing, fm. auto.
  - intros X. rewrite X in En. discriminate.
  - intros t I. apply in_map_iff in I. destruct I as (x & <- & _). eauto.
Qed.

(* such a request completes in every schedule, whatever the other requests do *)
Theorem good_tasks_complete {A} text cf g (ts : list (outcome A)) s :
  no_abandon cf -> 0 < cf_workers cf -> ModelTask.reachable cf s -> g < cf_clients cf -> runs_tasks text cf g ts ->
  ts <> [] -> (forall t, In t ts -> exists rs, t = Ok rs) ->
  completes cf s g /\ forall s' errs, ModelTask.reachable cf s' -> returned s' g errs -> errs = [].
Proof.
  intros NA HW R L [N RT] Ne Hok.
  assert (None' : forall i, i < cf_tasks cf g -> cf_result cf g i = None).
  { intros i Hi. rewrite N in Hi. destruct (nth_error ts i) as [t|] eqn:E; [|apply nth_error_None in E; lia].
    destruct (Hok t (nth_error_In _ _ E)) as (rs & ->). exact (RT i _ E). }
  split.
  - apply completes_if; auto. rewrite N. destruct ts; [congruence|discriminate].
  - intros s' errs R' Ret. apply (proj2 (errors_exact cf NA s' g errs R' Ret)). exact None'.
Qed.
Theorem answered_always cfg reqs res : c_forward cfg = false -> extract_requests w cfg reqs = Ok res ->
  exists keys its ts, prepared w cfg reqs keys its ts /\
    forall text cf g s, no_abandon cf -> 0 < cf_workers cf -> g < cf_clients cf -> runs_tasks text cf g ts ->
      ModelTask.reachable cf s ->
      completes cf s g /\ forall s' errs, ModelTask.reachable cf s' -> returned s' g errs -> errs = [].
Proof.
  intros Hf He. destruct (answered_prepared cfg reqs res Hf He) as (keys & its & ts & Hp & Ne & Hok).
  exists keys, its, ts. split; [exact Hp|]. intros text cf g s NA HW L RT R. eapply good_tasks_complete; eauto.
Qed.
End Served.

(* ---- with an info cache shared with other threads and processes ---- *)
Section Shared.
Context {F : Type}.
Variable o : outside F.
Variable g : ModelCache.config.
Variable P : string -> Prop.
Hypothesis Hs : sound_outside o g P.
Variable quiet : bool.
Variable lookup : string -> list Z -> outcome (list (info F)).
Hypothesis Hl : shared_lookup o g P quiet lookup.
Notation w := (shared_world o P lookup).

Lemma shared_true p offs infos : P p -> lookup p offs = Ok infos -> Forall2 (fun off inf => describe o p off = Ok inf) offs infos.
Proof.
  intros Hp E. destruct (proj1 Hl p offs Hp) as (uniq & writer & d & cap & ps & s & t & Sw & _ & Re & Lo & It & Ia).
  pose proof (ProofsThreads4.concurrent_lookup F uniq _ _ g P writer d cap ps Sw s t Re Lo It) as A.
  rewrite Forall_forall in A. destruct (A _ Ia p offs eq_refl) as (_ & B & _). rewrite E in B. cbn [omap snd] in B.
  destruct (B _ eq_refl) as (infos' & X & Y). injection X as <-. exact Y.
Qed.

Lemma shared_answers p offs : quiet = true -> g_lazy g = true -> P p -> NoDup offs ->
  (forall off, In off offs -> exists i, describe o p off = Ok i) -> exists infos, lookup p offs = Ok infos.
Proof.
  intros Hq Hz Hp ND Hd. destruct (proj1 Hl p offs Hp) as (uniq & writer & d & cap & ps & s & t & Sw & Qu & Re & Lo & It & Ia).
  pose proof (ProofsThreads4.concurrent_no_flush F uniq _ _ g P writer d cap ps Sw (Qu Hq) s t Re It) as A.
  rewrite Forall_forall in A. destruct (A _ Ia) as (_ & B). destruct (B p offs eq_refl) as (_ & C).
  destruct (C Hz ND Hd) as (infos & X). cbn [snd] in X. destruct (lookup p offs); try discriminate. eauto.
Qed.

Lemma shared_sound : sound_world w.
Proof.
  pose proof Hs as (_ & _ & _ & Hsort & _). split; [exact Hsort|].
  intros p offs infos H. cbn [w_cache_get w_true_info shared_world] in *.
  apply Forall2_under; [symmetry; exact (proj2 Hl _ _ _ H)|]. intros Hp. now apply shared_true.
Qed.

Theorem shared_values cfg reqs res :
  unique_listings w cfg -> c_forward cfg = false -> c_inefficient cfg = false ->
  extract_requests w cfg reqs = Ok res ->
  exists u listing, o_list o u = Ok listing /\ right_results o P cfg reqs listing res.
Proof.
  intros Hu Hf Hi He.
  destruct (local_extract_answers (w_arith w) (w_aec w) (w_cache_get w) (w_files w) (w_sorter w) (w_build_info w)
              (w_pieces w) (w_fresh w) (w_forward w) (w_list w) (w_true_info w) (proj1 shared_sound) (proj2 shared_sound)
              cfg reqs res Hf Hu He) as (u & listing & El & Ha).
  exists u, listing. split; [exact El|]. eapply Forall2_impl; [|exact Ha]. cbv beta. intros r x Hx.
  destruct (entry_of _ listing (r_string r)) as [e|]; [|exact Hx].
  intros m S bytes off (Hp & Hfile & Hoff & Hm). pose proof Hs as (Hcons & Hfresh & _).
  destruct Hx as [(bytes' & off' & inf & Hfile' & Hoff' & Ht & Hh & Hx)|[Hi' _]]; [|congruence].
  cbn [w_files w_true_info w_arith w_aec shared_world] in *.
  rewrite Hfile in Hfile'. injection Hfile' as <-. rewrite Hoff in Hoff'. injection Hoff' as <-. specialize (Ht Hp).
  destruct (describe_message o g P Hs _ _ _ _ _ Hfile Hm) as (i' & Hd & Hmd & _). rewrite Ht in Hd. injection Hd as <-. split.
  - intros Hig. destruct (Hh Hig) as [_ ->]. exact Hmd.
  - intros Hg. destruct (stored_values (o_arith o) (o_aec o) (o_aec_full o) (o_fresh o) (o_grib_at o) Hcons Hfresh bytes off m S _ Hm Hg)
      as (inf' & x' & Hb & Hx' & Hst).
    unfold describe, extract_info, open_file in Ht. rewrite Hfile in Ht. cbn [obind] in Ht.
    rewrite Ht in Hb. injection Hb as <-. rewrite Hx in Hx'. injection Hx' as <-. exact Hst.
Qed.

Theorem shared_complete cfg reqs listing :
  quiet = true -> g_lazy g = true -> c_forward cfg = false -> c_inefficient cfg = false ->
  NoDup (map r_string (canon_requests (c_ignore_ym cfg) false reqs)) ->
  (forall u, o_list o u = Ok listing) -> duplicate_free (c_ignore_ym cfg) listing ->
  own_places cfg reqs listing ->
  (forall r e, located cfg reqs listing r e -> fine_request o P cfg r e) ->
  (c_allow_missing cfg = true \/
   forall r, In r (canon_requests (c_ignore_ym cfg) false reqs) -> exists e, located cfg reqs listing r e) ->
  (exists r e, located cfg reqs listing r e) ->
  exists res, extract_requests w cfg reqs = Ok res /\ right_results o P cfg reqs listing res.
Proof.
  intros Hq Hz Hf Hi ND Hll D Hown Hfine Hall (r0 & e0 & L0).
  assert (Hdesc : forall r e off, located cfg reqs listing r e -> u_offset (l_uri e) = Ok off ->
            P (u_path (l_uri e)) /\ exists i, describe o (u_path (l_uri e)) off = Ok i).
  { intros r e off L Ho. destruct (Hfine r e L) as (_ & m & S & bytes & off' & (Hp & Hfile & Hoff & Hm) & _).
    rewrite Ho in Hoff. injection Hoff as <-. split; [exact Hp|].
    destruct (describe_message o g P Hs _ _ _ _ _ Hfile Hm) as (i & Hd & _). eauto. }
  assert (exists i0 : info F, True) as (i0 & _).
  { destruct (Hfine r0 e0 L0) as (_ & m & S & bytes & off' & (Hp & Hfile & Hoff & Hm) & _).
    destruct (Hdesc r0 e0 off' L0 Hoff) as (_ & i & _). eauto. }
  set (inf := fun p off => match describe o p off with Ok i => i | _ => i0 end).
  assert (Hex : exists res, extract_requests w cfg reqs = Ok res).
  { apply (found_are_served (w_arith w) (w_aec w) (w_cache_get w) (w_files w) (w_sorter w)
             (w_build_info w) (w_pieces w) (w_fresh w) (w_forward w) (w_list w) (w_true_info w) cfg reqs listing inf); auto.
    - exact (proj1 shared_sound).
    - intros p offs Ne NDo Hin. cbn [w_cache_get shared_world].
      assert (Hp : P p).
      { destruct offs as [|o1 offs']; [congruence|]. destruct (Hin o1) as (r & e & L & Ep & Eo); [left; auto|].
        rewrite <- Ep. exact (proj1 (Hdesc r e o1 L Eo)). }
      assert (Hd : forall off, In off offs -> exists i, describe o p off = Ok i).
      { intros off Io. destruct (Hin off Io) as (r & e & L & Ep & Eo). rewrite <- Ep. exact (proj2 (Hdesc r e off L Eo)). }
      destruct (shared_answers p offs Hq Hz Hp NDo Hd) as (infos & Hg). rewrite Hg. f_equal.
      pose proof (shared_true _ _ _ Hp Hg) as HF. clear -HF. induction HF as [|x y l l' H _ IH]; cbn; auto.
      unfold inf at 1. now rewrite H, IH.
    - intros r e L. destruct (Hfine r e L) as (Hrem & m & S & bytes & off & (Hp & Hfile & Hoff & Hm) & Hgr & Hh).
      destruct (describe_message o g P Hs _ _ _ _ _ Hfile Hm) as (i & Hd & Hmd & Hx). destruct (Hx _ Hgr) as (x & Ex).
      split; [exact Hrem|]. exists bytes, off, x. unfold inf. rewrite Hd. cbn [w_files w_arith w_aec shared_world].
      repeat split; auto; destruct (Hh H) as [H1 H2]; congruence.
    - eauto. }
  destruct Hex as (res & He). exists res. split; [exact He|].
  destruct (shared_values cfg reqs res) as (u & listing' & Hl' & Hr); auto.
  - intros u l' Hl'. cbn [w_list shared_world] in Hl'. rewrite Hll in Hl'. now injection Hl' as <-.
  - rewrite Hll in Hl'. now injection Hl' as <-.
Qed.

(* a client of a server that runs requests in parallel, while other threads and processes use the info cache *)
Theorem busy_server_values text cf c cfg reqs keys its ts s h errs res :
  unique_listings w cfg -> c_forward cfg = false -> c_inefficient cfg = false -> prepared w cfg reqs keys its ts ->
  no_abandon cf -> runs_tasks text cf c ts -> runs cf s h -> returned s c errs ->
  answer_of keys errs (items_after ts (of_group c h) its) = Ok res ->
  exists u listing, o_list o u = Ok listing /\ right_results o P cfg reqs listing res.
Proof.
  intros Hu Hf Hi Hp NA RT R Ret A. rewrite (served_requests w shared_sound text cf c cfg reqs keys its ts s h errs Hu Hf Hp NA RT R Ret) in A.
  exact (shared_values cfg reqs res Hu Hf Hi A).
Qed.

Theorem busy_server_complete cfg reqs listing :
  quiet = true -> g_lazy g = true -> c_forward cfg = false -> c_inefficient cfg = false ->
  NoDup (map r_string (canon_requests (c_ignore_ym cfg) false reqs)) ->
  (forall u, o_list o u = Ok listing) -> duplicate_free (c_ignore_ym cfg) listing ->
  own_places cfg reqs listing ->
  (forall r e, located cfg reqs listing r e -> fine_request o P cfg r e) ->
  (c_allow_missing cfg = true \/
   forall r, In r (canon_requests (c_ignore_ym cfg) false reqs) -> exists e, located cfg reqs listing r e) ->
  (exists r e, located cfg reqs listing r e) ->
  exists keys its ts res, prepared w cfg reqs keys its ts /\ right_results o P cfg reqs listing res /\
    forall text cf c, no_abandon cf -> 0 < cf_workers cf -> c < cf_clients cf -> runs_tasks text cf c ts ->
      (forall s, ModelTask.reachable cf s -> completes cf s c) /\
      (forall s h errs, runs cf s h -> returned s c errs ->
         answer_of keys errs (items_after ts (of_group c h) its) = Ok res).
Proof.
  intros Hq Hz Hf Hi ND Hll D Hown Hfine Hall Hsome.
  destruct (shared_complete cfg reqs listing Hq Hz Hf Hi ND Hll D Hown Hfine Hall Hsome) as (res & He & Hr).
  destruct (answered_prepared w cfg reqs res Hf He) as (keys & its & ts & Hp & Ne & Hok).
  exists keys, its, ts, res. split; [exact Hp|]. split; [exact Hr|]. intros text cf c NA HW Lc RT. split.
  - intros s Re. exact (proj1 (good_tasks_complete text cf c ts s NA HW Re Lc RT Ne Hok)).
  - intros s h errs R Ret. rewrite <- He.
    apply (served_requests w shared_sound text cf c cfg reqs keys its ts s h errs); auto.
    intros u l' Hl'. cbn [w_list shared_world] in Hl'. rewrite Hll in Hl'. now injection Hl' as <-.
Qed.
End Shared.
