(* For C105: forwarded requests and scans under every schedule of the workers. *)
From Coq Require Import Permutation Lia.
From Verif Require Import Base BaseLemmas ModelInfo ModelSimple ModelCcsds ModelStream ModelJumper ModelStrings ModelEngine ModelQueue ModelTask ModelProtocol
  ModelRemote ModelForward SpecQueue SpecEngine SpecRemote SpecForward SpecScanning SpecDeploy SpecConcurrent SpecBusy
  ProofsStrings ProofsTask2 ProofsEngine ProofsEngine2 ProofsEngine3 ProofsForward ProofsForward3 ProofsScanning ProofsDeploy ProofsTask3 ProofsConcurrent ProofsConcurrent2.
Local Open Scope nat_scope.

Section Order.
Context {F : Type}.
Notation items := (list (string * @item F)).
Notation work := (outcome (list (string * result F))).

Lemma separate_perm (l l' : list work) : Permutation l l' -> separate l -> separate l'.
Proof.
  unfold separate. induction 1 as [|a l l' P IH|a b l|l l1 l2 _ IH1 _ IH2]; intros S; auto.
  - inversion S as [|? ? A B]; subst. constructor; [|now apply IH]. eapply Permutation_Forall; eauto.
  - inversion S as [|? ? A B]; subst. inversion A as [|? ? A1 A2]; subst. inversion B as [|? ? B1 B2]; subst.
    constructor; [|constructor; auto]. constructor; [|assumption]. intros x I J. exact (A1 x J I).
Qed.
Lemma writes_perm (l l' : list work) : Permutation l l' -> separate l -> forall its : items,
  fold_left (fun m t => write_results t m) l its = fold_left (fun m t => write_results t m) l' its.
Proof.
  induction 1 as [|a l l' P IH|a b l|l l1 l2 P1 IH1 P2 IH2]; intros S its; cbn [fold_left]; auto.
  - inversion S; subst. now apply IH.
  - inversion S as [|? ? A B]; subst. inversion A as [|? ? A1 A2]; subst. f_equal. apply write_comm. intros x I J. exact (A1 x J I).
  - rewrite IH1 by exact S. apply IH2. eapply separate_perm; eauto.
Qed.
Lemma errors_perm {A} (l l' : list (outcome A)) : Permutation l l' -> Permutation (errors_of l) (errors_of l').
Proof.
  induction 1 as [|a l l' P IH|a b l|l l1 l2 _ IH1 _ IH2]; [constructor|..].
  - destruct a; cbn; auto.
  - destruct a, b; cbn; auto. apply perm_swap.
  - etransitivity; eauto.
Qed.
Lemma items_in_order (ts : list work) its : items_after ts (seq 0 (length ts)) its = fold_left (fun m t => write_results t m) ts its.
Proof.
  assert (Q : forall pre its, items_after (pre ++ ts) (seq (length pre) (length ts)) its = fold_left (fun m t => write_results t m) ts its).
  { induction ts as [|t ts IH]; intros pre its'; [reflexivity|]. cbn [length seq]. unfold items_after. cbn [fold_left].
    rewrite nth_error_app2, Nat.sub_diag by lia. cbn [nth_error].
    specialize (IH (pre ++ [t])). rewrite <- app_assoc in IH. cbn [app] in IH. rewrite app_length in IH. cbn [length] in IH.
    rewrite Nat.add_1_r in IH. apply IH. }
  exact (Q [] its).
Qed.
Lemma run_perm (ts ts' : list work) its es its2 : Permutation ts ts' -> separate ts' -> run_tasks ts' its = Ok (es, its2) ->
  (forall t, In t ts' -> t <> UB) -> exists es0, run_tasks ts its = Ok (es0, its2) /\ Permutation es es0.
Proof.
  intros Pm Sep R D. assert (D' : forall t, In t ts -> t <> UB) by (intros t I; apply D; eapply Permutation_in; eauto).
  rewrite (run_tasks_spec ts' D) in R. injection R as <- <-. rewrite (run_tasks_spec ts D'). eexists. split.
  - f_equal. f_equal. rewrite !items_in_order. symmetry. apply writes_perm; [now apply Permutation_sym|exact Sep].
  - apply errors_perm. now apply Permutation_sym.
Qed.
End Order.

Section Busy.
Context {F M : Type}.
Variable k : link F M.
Variable sm : list (endpoint * endpoint).
Variable connect : endpoint -> list (tok F) -> outcome (list (tok F)).
Notation items := (list (string * @item F)).
Notation filemap := (list (string * list string)).
Notation work := (outcome (list (string * result F))).

Lemma combine_fst_incl {A B} : forall (l : list A) (l' : list B), incl (map fst (combine l l')) l.
Proof. induction l as [|a l IH]; intros [|b l'] x I; cbn in *; try contradiction. destruct I as [<-|I]; [now left|right; exact (IH l' x I)]. Qed.

Lemma forward_keys sorter ep fm (its : items) : sorts sorter ->
  incl (writes_to (forwards_to k connect sorter ep fm its)) (concat (map snd fm)).
Proof.
  intros So. unfold forwards_to, forward_task.
  destruct (mapM (sorted_file sorter its) (in_key_order fm)) as [files| |] eqn:Ef; try (intros ? []). cbn [obind].
  destruct (remote_forward_extract _ _ _ _ _) as [[res rest]| |]; try (intros ? []). cbn [obind writes_to].
  intros x I. apply in_map_iff in I as (p & <- & I). apply in_concat in I as (l & Il & I). apply in_map_iff in Il as (r & <- & Ir).
  unfold by_position in I. destruct (sfind (fst r) files) as [js|] eqn:Es; [|contradiction].
  assert (Ix : In (fst p) (map (fun j => fst (fst j)) js)).
  { eapply combine_fst_incl. apply in_map. exact I. }
  assert (In (fst r, js) files) as If.
  { clear -Es. induction files as [|[a v] l IH]; cbn in Es; [discriminate|]. destruct (String.eqb_spec (fst r) a) as [->|].
    - injection Es as ->. now left.
    - right. auto. }
  apply mapM_inv in Ef. assert (exists f, In f (in_key_order fm) /\ sorted_file sorter its f = Ok (fst r, js)) as (f & Jf & Ef').
  { clear -Ef If. induction Ef as [|a b l l' E Ef IH]; [contradiction|]. destruct If as [<-|If]; [exists a; split; [now left|exact E]|].
    destruct (IH If) as (f & J & E'). exists f. split; [now right|exact E']. }
  unfold sorted_file in Ef'. destruct (jobs its (snd f)) as [js0| |] eqn:Ej; try discriminate. cbn [obind] in Ef'. injection Ef' as _ <-.
  apply in_concat. exists (snd f). split.
  - apply in_map. apply (Permutation_in _ (Permutation_sym (in_key_order_perm fm))). exact Jf.
  - rewrite <- (jobs_keys _ _ _ Ej). apply in_map_iff in Ix as (j & Ej' & Ij). apply in_map_iff. exists j. split; [exact Ej'|].
    eapply Permutation_in; [apply Permutation_sym; apply (So js0)|exact Ij].
Qed.

Lemma servers_separate (w : world F) (its : items) fm subs : sorts (w_sorter w) -> NoDup (concat (map snd fm)) ->
  server_file_map sm its fm = Ok subs -> separate (server_tasks k connect w its subs).
Proof.
  intros So ND Es. apply files_partitioned in Es as (_ & Pm & _).
  assert (NoDup (concat (map (fun s : endpoint * filemap => concat (map snd (snd s))) subs))) as ND'.
  { eapply Permutation_NoDup; [|exact ND]. etransitivity; [apply concat_map_perm; exact Pm|]. clear.
    induction subs as [|s l IH]; cbn; [constructor|]. rewrite map_app, concat_app. now apply Permutation_app_head. }
  clear Pm ND. unfold server_tasks. induction subs as [|s l IH]; cbn [map concat] in *; [constructor|].
  apply NoDup_app_iff_ in ND' as (_ & N2 & N3). constructor; [|now apply IH]. apply Forall_forall. intros t I x K K'.
  apply in_map_iff in I as (s' & <- & I). apply forward_keys in K; [|exact So]. apply forward_keys in K'; [|exact So].
  apply (N3 x K). apply in_concat. exists (concat (map snd (snd s'))). split; [|exact K']. apply in_map_iff. eauto.
Qed.

(* the items and errors of a forwarded request do not depend on the schedule or on the order of the servers *)
Theorem forward_independent (w : world F) (its : items) fm subs order text cf g s h errs : sorts (w_sorter w) -> NoDup (concat (map snd fm)) ->
  server_file_map sm its fm = Ok subs -> Permutation subs order -> let ts := server_tasks k connect w its order in
  no_abandon cf -> runs_tasks text cf g ts -> runs cf s h -> returned s g errs ->
  exists es, forwards k sm connect (w_sorter w) fm its = Ok (es, items_after ts (of_group g h) its) /\ Permutation errs (map text es).
Proof.
  intros So ND Es Pm ts NA RT R Ret. pose proof (servers_separate w its fm subs So ND Es) as Sep.
  assert (Pt : Permutation (server_tasks k connect w its subs) ts) by (apply Permutation_map; exact Pm).
  assert (Sep' : separate ts) by (eapply separate_perm; eauto).
  destruct (tasks_schedule_independent text cf g ts its s h errs NA RT Sep' R Ret) as (es & Er & Pe).
  assert (D : forall t, In t ts -> t <> UB).
  { intros t I ->. apply In_nth_error in I as [i E]. exact (proj2 RT i UB E). }
  destruct (run_perm _ _ its es _ Pt Sep' Er D) as (es0 & Er0 & P0). exists es0. split.
  - unfold forwards, forward_extract. rewrite Es. cbn [obind].
    pose proof (some_tasks cf s g errs ts text NA (runs_reachable _ _ _ R) Ret RT) as Ne.
    assert (length ts = length subs) as L by (apply Permutation_length in Pm; unfold ts, server_tasks; rewrite map_length; congruence).
    unfold lenN in *. rewrite L in Ne. apply N.eqb_neq in Ne. rewrite Ne. cbn [negb assert_ obind]. exact Er0.
  - etransitivity; [exact Pe|]. now apply Permutation_map.
Qed.

Theorem served_forward (w : world F) text cf g cfg reqs keys its ts s h errs :
  sorts (w_sorter w) -> unique_listings w cfg -> c_forward cfg = true -> prepared_forward k sm connect w cfg reqs keys its ts ->
  no_abandon cf -> runs_tasks text cf g ts -> runs cf s h -> returned s g errs ->
  answer_of keys errs (items_after ts (of_group g h) its) = extract_requests (forwarding k sm connect w) cfg reqs.
Proof.
  intros So U Hf (u & reqs' & its0 & listing & fm & subs & order & Eb & El & Em & Es & Pm & -> & ->) NA RT R Ret.
  destruct (build_map_inv _ _ _ _ _ Eb) as (Er & -> & ND).
  assert (NoDup (concat (map snd fm))) as NDf.
  { eapply file_map_groups_ok; [exact (U _ _ El)| |exact Em]. exact (proj1 (wf_entries _ ND)). }
  destruct (forward_independent w its fm subs order text cf g s h errs So NDf Es Pm NA RT R Ret) as (es & Ef & Pe).
  rewrite (answer_spec text _ errs es _ Pe). unfold extract_requests, local_extract. rewrite Eb. cbn [obind].
  change (w_list (forwarding k sm connect w)) with (w_list w). rewrite El. cbn [obind]. rewrite Em. cbn [obind].
  unfold schedule. rewrite Hf. change (w_forward (forwarding k sm connect w)) with (forwards k sm connect (w_sorter w)). rewrite Ef. reflexivity.
Qed.

Theorem served_forward_paths (w : world F) text cf g cfg reqs keys its ts s h errs r0 rest :
  sorts (w_sorter w) -> reqs = r0 :: rest -> (p_host r0 <> ""%string \/ p_port r0 <> 0%Z) ->
  prepared_forward_paths k sm connect w reqs keys its ts ->
  no_abandon cf -> runs_tasks text cf g ts -> runs cf s h -> returned s g errs ->
  answer_of keys errs (items_after ts (of_group g h) its) = extract_path_requests (forwarding k sm connect w) cfg reqs.
Proof.
  intros So Hr Hh (subs & order & -> & Es & Pm & -> & ->) NA RT R Ret.
  assert (NoDup (concat (map snd (file_map_from_paths (build_uris_map (F := F) reqs))))) as NDf.
  { apply (paths_groups_ok (build_uris_map (F := F) reqs)).
    exact (proj1 (pfold_wf reqs [] (conj (NoDup_nil _) (fun k i (X : sfind k [] = Some i) => ltac:(discriminate X))))). }
  destruct (forward_independent w _ _ subs order text cf g s h errs So NDf Es Pm NA RT R Ret) as (es & Ef & Pe).
  rewrite (answer_spec text _ errs es _ Pe). subst reqs. unfold extract_path_requests, local_extract_paths. cbv beta zeta iota.
  assert (negb (String.eqb (p_host r0) "" && (p_port r0 =? 0)%Z) = true) as ->.
  { destruct (String.eqb_spec (p_host r0) "") as [E|E]; cbn; [|reflexivity]. destruct Hh as [X|X]; [contradiction|]. now apply Z.eqb_neq in X as ->. }
  unfold schedule. change (w_forward (forwarding k sm connect w)) with (forwards k sm connect (w_sorter w)). rewrite Ef. reflexivity.
Qed.

(* a forwarded request that the engine answers is answered under every schedule *)
Lemma forward_tasks_fine (w : world F) (its : items) fm subs order its2 : server_file_map sm its fm = Ok subs -> Permutation subs order ->
  forwards k sm connect (w_sorter w) fm its = Ok ([], its2) ->
  let ts := server_tasks k connect w its order in ts <> [] /\ forall t, In t ts -> exists rs, t = Ok rs.
Proof.
  intros Es Pm H ts. unfold forwards, forward_extract in H. rewrite Es in H. cbn [obind] in H.
  destruct (lenN subs =? 0)%N eqn:En; [discriminate|]. cbn [negb assert_ obind] in H.
  destruct (run_tasks_ok _ _ _ H) as (outs & Eo & _). split.
  - intros X. apply N.eqb_neq in En. apply En. apply (f_equal (@length _)) in X. unfold ts, server_tasks in X. rewrite map_length in X.
    apply Permutation_length in Pm. unfold lenN. rewrite Pm, X. reflexivity.
  - intros t I. unfold ts, server_tasks in I. apply in_map_iff in I as (s & <- & I).
    assert (In (forwards_to k connect (w_sorter w) (fst s) (snd s) its) (map Ok outs)) as J.
    { rewrite <- Eo. apply in_map_iff. exists s. split; [reflexivity|]. eapply Permutation_in; [symmetry; exact Pm|exact I]. }
    apply in_map_iff in J as (x & E & _). rewrite <- E. eauto.
Qed.
Theorem answered_forward (w : world F) cfg reqs res : c_forward cfg = true -> extract_requests (forwarding k sm connect w) cfg reqs = Ok res ->
  (exists keys its ts, prepared_forward k sm connect w cfg reqs keys its ts) /\
  forall keys its ts, prepared_forward k sm connect w cfg reqs keys its ts ->
    forall text cf g s, no_abandon cf -> 0 < cf_workers cf -> g < cf_clients cf -> runs_tasks text cf g ts ->
      ModelTask.reachable cf s ->
      completes cf s g /\ forall s' errs, ModelTask.reachable cf s' -> returned s' g errs -> errs = [].
Proof.
  intros Hf H. unfold extract_requests, local_extract in H.
  destruct (build_request_map (c_ignore_ym cfg) reqs) as [[[u rs] its0]| |] eqn:Eb; try discriminate. cbn [obind] in H.
  change (w_list (forwarding k sm connect w)) with (w_list w) in H.
  destruct (w_list w u) as [listing| |] eqn:El; try discriminate. cbn [obind] in H.
  destruct (file_map (c_ignore_ym cfg) (c_allow_missing cfg) listing its0) as [[fm its1]| |] eqn:Em; try discriminate.
  cbn [obind] in H. unfold schedule in H. rewrite Hf in H.
  change (w_forward (forwarding k sm connect w)) with (forwards k sm connect (w_sorter w)) in H.
  destruct (forwards k sm connect (w_sorter w) fm its1) as [[es its2]| |] eqn:Ef; try discriminate. cbn [obind] in H.
  destruct es as [|e es]; [|discriminate].
  destruct (server_file_map sm its1 fm) as [subs| |] eqn:Es; try (unfold forwards, forward_extract in Ef; rewrite Es in Ef; discriminate Ef).
  split.
  - exists (map r_string rs), its1, (server_tasks k connect w its1 subs). exists u, rs, its0, listing, fm, subs, subs. repeat (split; auto).
  - intros keys its ts (u' & rs' & its0' & listing' & fm' & subs' & order & Eb' & El' & Em' & Es' & Pm & -> & _) text cf g s NA HW L RT R.
    rewrite Eb in Eb'. injection Eb' as <- <- <-. rewrite El in El'. injection El' as <-. rewrite Em in Em'. injection Em' as <- <-.
    rewrite Es in Es'. injection Es' as <-. destruct (forward_tasks_fine w its1 fm subs order its2 Es Pm Ef) as [Ne Hok].
    eapply good_tasks_complete; eauto.
Qed.

(* and its values are those that the owners store *)
Theorem busy_forward_values sites nodes (w : world F) text cf g cfg reqs keys its ts s h errs res :
  sound_link k -> sorts (w_sorter w) ->
  (forall ep, sound_node (nodes ep) /\ s_world (sites ep) = node_world (nodes ep)) ->
  (forall ep, connect ep = site_server k (sites ep)) ->
  c_forward cfg = true -> unique_listings w cfg -> (forall u l, w_list w u = Ok l -> placed_listing (c_ignore_ym cfg) l) ->
  prepared_forward k sm connect w cfg reqs keys its ts -> no_abandon cf -> runs_tasks text cf g ts -> runs cf s h -> returned s g errs ->
  answer_of keys errs (items_after ts (of_group g h) its) = Ok res ->
  exists u listing, w_list w u = Ok listing /\ owner_results sm nodes (fun ep => s_cfg (sites ep)) cfg reqs listing res.
Proof.
  intros H1 H2 H3 H4 H5 H6 H7 Hp NA RT R Ret E. rewrite (served_forward w text cf g cfg reqs keys its ts s h errs H2 H6 H5 Hp NA RT R Ret) in E.
  exact (forwarded_values k sm sites nodes connect w H1 H2 H3 H4 cfg reqs H5 res H6 H7 E).
Qed.
End Busy.

(* ---- scans ---- *)
Section Scans.
Lemma add64_swap a b c : add64 (add64 a b) c = add64 (add64 a c) b.
Proof. unfold add64, w64. rewrite !N.add_mod_idemp_l by discriminate. f_equal. lia. Qed.
Definition plus (ts : list (outcome N)) n i := match nth_error ts i with Some (Ok m) => add64 n m | _ => n end.
Lemma count_perm ts l l' : Permutation l l' -> forall n, fold_left (plus ts) l n = fold_left (plus ts) l' n.
Proof.
  induction 1 as [|a l l' P IH|a b l|l l1 l2 _ IH1 _ IH2]; intros n; cbn [fold_left]; auto.
  - f_equal. unfold plus. destruct (nth_error ts a) as [[x| |]|], (nth_error ts b) as [[y| |]|]; try reflexivity. apply add64_swap.
  - now rewrite IH1.
Qed.
Lemma add64_w64 a b : add64 (w64 a) b = w64 (a + b).
Proof. unfold add64, w64. now rewrite N.add_mod_idemp_l by discriminate. Qed.
Lemma count_in_order ts : count_after ts (seq 0 (length ts)) = w64 (fold_right N.add 0%N (results_in ts)).
Proof.
  unfold count_after. fold (plus ts).
  assert (Q : forall l pre a, fold_left (plus (pre ++ l)) (seq (length pre) (length l)) (w64 a) = w64 (a + fold_right N.add 0%N (results_in l))).
  { induction l as [|t l IH]; intros pre a; cbn [length seq fold_left].
    - cbn. now rewrite N.add_0_r.
    - specialize (IH (pre ++ [t])). rewrite <- app_assoc in IH. cbn [app] in IH. rewrite app_length in IH. cbn [length] in IH. rewrite Nat.add_1_r in IH.
      unfold plus at 2. rewrite nth_error_app2, Nat.sub_diag by lia. cbn [nth_error].
      destruct t as [n|e|]; cbn [results_in fold_right]; [|apply IH..]. rewrite add64_w64, IH. f_equal. lia. }
  exact (Q ts [] 0%N).
Qed.
Theorem scans_independent text cf g (ts : list (outcome N)) s h errs :
  no_abandon cf -> runs_tasks text cf g ts -> runs cf s h -> returned s g errs ->
  exists es, count_tasks ts = Ok (count_after ts (of_group g h), es) /\ Permutation errs (map text es).
Proof.
  intros NA RT R Ret. exists (errors_of ts). split.
  - rewrite count_totals. unfold totals. assert (existsb is_ub ts = false) as ->.
    { apply not_true_is_false. intros E. apply existsb_exists in E as (t & I & X). destruct t; try discriminate.
      apply In_nth_error in I as [i E]. exact (proj2 RT i UB E). }
    f_equal. f_equal. change (_ mod two64)%N with (w64 (fold_right N.add 0%N (results_in ts))). rewrite <- count_in_order.
    pose proof (order_complete cf NA s h g errs R Ret) as Pm. rewrite (proj1 RT) in Pm. unfold count_after. fold (plus ts).
    apply count_perm. now apply Permutation_sym.
  - rewrite <- (failures_spec text cf g ts RT). exact (proj2 (proj2 (proj2 (returned_spec cf NA s g errs (runs_reachable _ _ _ R) Ret)))).
Qed.

(* the files of a scan *)
Theorem file_scans_independent scan_file m text cf g s h errs : let ts := scan_tasks scan_file m in
  no_abandon cf -> runs_tasks text cf g ts -> runs cf s h -> returned s g errs ->
  exists es, schedule_scan scan_file m = Ok (count_after ts (of_group g h), es) /\ Permutation errs (map text es).
Proof.
  intros ts NA RT R Ret. destruct (scans_independent text cf g ts s h errs NA RT R Ret) as (es & E & P). exists es. split; [|exact P].
  pose proof (some_tasks cf s g errs ts text NA (runs_reachable _ _ _ R) Ret RT) as Ne. apply N.eqb_neq in Ne.
  unfold schedule_scan. fold (scan_tasks scan_file m). fold ts. rewrite Ne. exact E.
Qed.
(* the servers of a forwarded scan, in any order *)
Theorem server_scans_independent {F M} (k : link F M) sm connect us subs order text cf g s h errs :
  server_scan_map sm us = Ok subs -> Permutation subs order -> let ts := server_scan_tasks k connect order in
  no_abandon cf -> runs_tasks text cf g ts -> runs cf s h -> returned s g errs ->
  exists es, forwards_scans k sm connect us = Ok (count_after ts (of_group g h), es) /\ Permutation errs (map text es).
Proof.
  intros Es Pm ts NA RT R Ret. destruct (scans_independent text cf g ts s h errs NA RT R Ret) as (es & E & P).
  assert (Pt : Permutation (server_scan_tasks k connect subs) ts) by (apply Permutation_map; exact Pm).
  rewrite count_totals in E. unfold totals in E. destruct (existsb is_ub ts) eqn:Eu; [discriminate|]. injection E as Ec <-.
  exists (errors_of (server_scan_tasks k connect subs)). split.
  - unfold forwards_scans, forward_scan. destruct us as [|u us'].
    { exfalso. injection Es as <-. apply Permutation_nil in Pm. subst order.
      apply (some_tasks cf s g errs ts text NA (runs_reachable _ _ _ R) Ret RT). reflexivity. }
    cbn [lenN length]. replace (_ =? 0)%N with false by (symmetry; apply N.eqb_neq; unfold lenN; cbn [length]; lia).
    cbn [negb assert_ obind]. rewrite Es. cbn [obind]. fold (server_scan_tasks k connect subs). rewrite count_totals. unfold totals.
    assert (existsb is_ub (server_scan_tasks k connect subs) = false) as ->.
    { apply not_true_is_false. intros X. apply existsb_exists in X as (t & I & X).
      assert (existsb is_ub ts = true) as Y; [|congruence]. apply existsb_exists. exists t. split; [eapply Permutation_in; eauto|exact X]. }
    f_equal. f_equal. rewrite <- Ec. f_equal. clear -Pt.
    induction Pt as [|a l l' P IH|a b l|l l1 l2 _ IH1 _ IH2]; [reflexivity|..].
    + destruct a; cbn [results_in fold_right]; auto. now rewrite IH.
    + destruct a, b; cbn [results_in fold_right]; try reflexivity. lia.
    + congruence.
  - etransitivity; [exact P|]. apply Permutation_map, errors_perm. now apply Permutation_sym.
Qed.

(* a scan whose files can all be scanned returns under every schedule, without errors *)
Lemma no_errors_ok {A} : forall ts : list (outcome A), existsb is_ub ts = false -> errors_of ts = [] -> forall t, In t ts -> exists n, t = Ok n.
Proof.
  induction ts as [|t ts IH]; intros U E x I; [contradiction|]. destruct t as [n|e|]; cbn in U, E; try discriminate.
  destruct I as [<-|I]; [eauto|now apply IH].
Qed.
Theorem scan_answered scan_file m n : schedule_scan scan_file m = Ok (n, []) ->
  forall text cf g s, no_abandon cf -> 0 < cf_workers cf -> g < cf_clients cf -> runs_tasks text cf g (scan_tasks scan_file m) ->
    ModelTask.reachable cf s ->
    completes cf s g /\ forall s' errs, ModelTask.reachable cf s' -> returned s' g errs -> errs = [].
Proof.
  intros H text cf g s NA HW L RT R. unfold schedule_scan in H. fold (scan_tasks scan_file m) in H.
  destruct (lenN (scan_tasks scan_file m) =? 0)%N eqn:En; [discriminate|]. cbn [negb assert_ obind] in H.
  rewrite count_totals in H. unfold totals in H. destruct (existsb is_ub _) eqn:Eu; [discriminate|]. injection H as _ Ee.
  eapply good_tasks_complete; eauto.
  - intros X. rewrite X in En. discriminate.
  - exact (no_errors_ok _ Eu Ee).
Qed.
Lemma scan_map_grows sm : forall us acc, acc <> [] -> server_scan_map_ sm us acc <> Ok [].
Proof.
  induction us as [|u us IH]; intros acc Na H; cbn [server_scan_map_] in H; [congruence|].
  destruct (server_for sm u) as [ep| |]; try discriminate. cbn [obind] in H. destruct (u_offset u) as [o| |]; try discriminate. cbn [obind] in H.
  revert H. apply IH. destruct acc as [|[e x] acc]; [contradiction|]. cbn. destruct (ep_eqb _ _); discriminate.
Qed.
Lemma scan_map_nonempty sm u us : server_scan_map sm (u :: us) <> Ok [].
Proof.
  unfold server_scan_map. cbn [server_scan_map_]. destruct (server_for sm u) as [ep| |]; try discriminate. cbn [obind].
  destruct (u_offset u) as [o| |]; try discriminate. cbn [obind]. apply scan_map_grows. discriminate.
Qed.
Theorem server_scan_answered {F M} (k : link F M) sm connect us subs order n :
  server_scan_map sm us = Ok subs -> Permutation subs order -> forwards_scans k sm connect us = Ok (n, []) ->
  forall text cf g s, no_abandon cf -> 0 < cf_workers cf -> g < cf_clients cf -> runs_tasks text cf g (server_scan_tasks k connect order) ->
    ModelTask.reachable cf s ->
    completes cf s g /\ forall s' errs, ModelTask.reachable cf s' -> returned s' g errs -> errs = [].
Proof.
  intros Es Pm H text cf g s NA HW L RT R. unfold forwards_scans, forward_scan in H.
  destruct (lenN us =? 0)%N eqn:En; [discriminate|]. cbn [negb assert_ obind] in H. rewrite Es in H. cbn [obind] in H.
  fold (server_scan_tasks k connect subs) in H. rewrite count_totals in H. unfold totals in H.
  destruct (existsb is_ub _) eqn:Eu; [discriminate|]. injection H as _ Ee.
  assert (Pt : Permutation (server_scan_tasks k connect subs) (server_scan_tasks k connect order)) by (apply Permutation_map; exact Pm).
  eapply good_tasks_complete; eauto.
  - intros X. rewrite X in Pt. apply Permutation_sym, Permutation_nil, map_eq_nil in Pt. subst subs. 
    destruct us as [|u us]; [discriminate|]. exact (scan_map_nonempty sm u us Es).
  - intros t I. apply (no_errors_ok _ Eu Ee). eapply Permutation_in; [apply Permutation_sym; exact Pt|exact I].
Qed.
End Scans.
