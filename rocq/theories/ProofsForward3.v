(* Distribution of files and URIs over servers, and extraction through forwarding: C49-C51 *)
From Coq Require Import Lia Permutation Sorted.
From Verif Require Import Base BaseLemmas ModelRange ModelInfo ModelSimple ModelStream SpecStream ModelJumper
  ModelStrings ModelCache ModelEngine SpecEngine ModelProtocol ModelRemote SpecRemote ModelForward SpecForward
  ProofsStrings ProofsEngine ProofsEngine2 ProofsEngine3 ProofsProtocol ProofsRemote ProofsForward ProofsForward2.
Local Open Scope nat_scope.

(* ---- maps over endpoints ---- *)

Lemma ep_eqb_spec a b : reflect (a = b) (ep_eqb a b).
Proof.
  destruct a as [h p], b as [h' p']. unfold ep_eqb. cbn [fst snd].
  destruct (String.eqb_spec h h') as [->|N]; cbn [andb].
  - destruct (Z.eqb_spec p p') as [->|N]; constructor; congruence.
  - constructor. congruence.
Qed.

Section Map.
Context {V : Type}.
Notation map_ := (list (endpoint * V)).

Lemma ep_update_keys e d f (m : map_) :
  incl (map fst (ep_update e d f m)) (e :: map fst m) /\ incl (map fst m) (map fst (ep_update e d f m)).
Proof.
  induction m as [|[e' v] m [IH1 IH2]]; cbn; [split; [apply incl_refl|apply incl_nil_l]|].
  destruct (ep_eqb_spec e e') as [->|N]; cbn [map fst].
  - split; [apply incl_tl, incl_refl|apply incl_refl].
  - split.
    + intros x [<-|I]; [now right; left|]. apply IH1 in I. destruct I as [<-|I]; [now left|now right; right].
    + intros x [<-|I]; [now left|]. right. apply IH2, I.
Qed.
Lemma ep_update_nodup e d f (m : map_) : NoDup (map fst m) -> NoDup (map fst (ep_update e d f m)).
Proof.
  induction m as [|[e' v] m IH]; cbn; intro ND; [repeat constructor; intros []|].
  inversion ND as [|? ? NI ND']; subst. destruct (ep_eqb_spec e e') as [->|N]; cbn [map fst]; [exact ND|].
  constructor; [|auto]. intro I. apply (proj1 (ep_update_keys e d f m)) in I. destruct I as [E|I]; congruence.
Qed.
Lemma ep_update_in e d f (m : map_) ep v : In (ep, v) (ep_update e d f m) ->
  In (ep, v) m \/ (ep = e /\ exists v0, (In (e, v0) m \/ v0 = d) /\ v = f v0).
Proof.
  induction m as [|[e' v'] m IH]; cbn.
  - intros [[= <- <-]|[]]. right. split; [reflexivity|]. exists d. auto.
  - destruct (ep_eqb_spec e e') as [->|N].
    + intros [[= <- <-]|I]; [|now left; right]. right. split; [reflexivity|]. exists v'. split; [now left; left|reflexivity].
    + intros [[= <- <-]|I]; [now left; left|]. destruct (IH I) as [H|(E & v0 & H & E')]; [now left; right|].
      right. split; [exact E|]. exists v0. split; [|exact E']. destruct H; [now left; right|now right].
Qed.
(* an update adds to one entry *)
Lemma ep_update_perm {X} (g : V -> list X) e d f (x : X) (m : map_) :
  g d = [] -> (forall v, Permutation (g (f v)) (g v ++ [x])) ->
  Permutation (concat (map (fun p => g (snd p)) (ep_update e d f m))) (concat (map (fun p => g (snd p)) m) ++ [x]).
Proof.
  intros Hd Hf. induction m as [|[e' v] m IH]; cbn.
  - rewrite app_nil_r. rewrite (Hf d), Hd. reflexivity.
  - destruct (ep_eqb e e'); cbn [map snd concat].
    + rewrite (Hf v), <- !app_assoc. apply Permutation_app_head, Permutation_app_comm.
    + rewrite IH, app_assoc. reflexivity.
Qed.
End Map.

(* ---- files over servers ---- *)
Section Files.
Context {F : Type}.
Variable sm : list (endpoint * endpoint).
Notation items := (list (string * @item F)).
Notation filemap := (list (string * list string)).

Lemma server_for_ok u ep : server_for sm u = Ok ep <-> ep_find (location u) sm = Some ep.
Proof.
  unfold server_for, location. destruct (ep_find _ sm) as [e|]; split; try discriminate; intros [= ->]; reflexivity.
Qed.

Lemma server_for_throw u e : server_for sm u = Throw e -> e = ESeriousBug.
Proof. unfold server_for. destruct (ep_find _ sm); [discriminate|]. now intros [= <-]. Qed.
Lemma server_for_ub u : server_for sm u = UB -> False.
Proof. unfold server_for. destruct (ep_find _ sm); discriminate. Qed.

Lemma split_step (its : items) done acc fname keys ep : split_over sm its done acc -> owner sm its (fname, keys) ep ->
  split_over sm its (done ++ [(fname, keys)]) (ep_update ep [] (fun sub => sub ++ [(fname, keys)]) acc).
Proof.
  intros (ND & P & H) O. split; [apply ep_update_nodup, ND|]. split.
  - rewrite P. symmetry.
    apply (ep_update_perm (fun v => v) ep [] (fun sub => sub ++ [(fname, keys)]) (fname, keys) acc eq_refl).
    intro v. reflexivity.
  - intros ep' sub I. apply ep_update_in in I. destruct I as [I|(-> & v0 & I & ->)]; [apply H, I|].
    split; [destruct v0; discriminate|]. intros f If. apply in_app_or in If. destruct If as [If|[<-|[]]]; [|exact O].
    destruct I as [I| ->]; [apply (proj2 (H _ _ I)), If|destruct If].
Qed.

Lemma server_file_map_inv (its : items) : forall fm done acc subs, split_over sm its done acc ->
  server_file_map_ sm its fm acc = Ok subs -> split_over sm its (done ++ fm) subs.
Proof.
  induction fm as [|[fname keys] fm IH]; intros done acc subs S H; cbn in H.
  - injection H as <-. rewrite app_nil_r. exact S.
  - destruct keys as [|k rest]; [discriminate|]. unfold get_item in H.
    destruct (sfind k its) as [i|] eqn:Ei; [|discriminate]. cbn [obind] in H.
    destruct (server_for sm (it_uri i)) as [ep| |] eqn:Es; try discriminate. cbn [obind] in H.
    change ((fname, k :: rest) :: fm) with ([(fname, k :: rest)] ++ fm). rewrite app_assoc.
    eapply IH; [|exact H]. apply split_step; [exact S|]. exists k, rest. split; [reflexivity|].
    exists i. split; [exact Ei|]. now apply server_for_ok.
Qed.

Theorem files_partitioned (its : items) fm subs : server_file_map sm its fm = Ok subs -> split_over sm its fm subs.
Proof.
  intros H. apply (server_file_map_inv its (in_key_order fm) [] []) in H.
  - cbn [app] in H. destruct H as (ND & P & H). split; [exact ND|]. split; [|exact H].
    rewrite <- P. apply in_key_order_perm.
  - split; [constructor|]. split; [reflexivity|]. intros ep sub [].
Qed.

Lemma server_file_map_total (its : items) : forall fm acc, (forall f, In f fm -> exists ep, owner sm its f ep) ->
  exists subs, server_file_map_ sm its fm acc = Ok subs.
Proof.
  induction fm as [|[fname keys] fm IH]; intros acc H; [eexists; reflexivity|].
  destruct (H _ (or_introl eq_refl)) as (ep & k & rest & E & i & Ei & Es). cbn [snd] in E. subst keys. cbn.
  unfold get_item. rewrite Ei. cbn [obind]. rewrite (proj2 (server_for_ok _ _) Es). cbn [obind].
  apply IH. intros f I. apply H. now right.
Qed.
Theorem files_all_served (its : items) fm : (forall f, In f fm -> exists ep, owner sm its f ep) ->
  exists subs, server_file_map sm its fm = Ok subs.
Proof. intros H. apply server_file_map_total. intros f I. apply H. now apply ordered_in. Qed.

Lemma server_file_map_missing (its : items) : forall fm acc,
  (forall f keys, In (f, keys) fm -> exists k rest i, keys = k :: rest /\ sfind k its = Some i) ->
  (exists f, In f fm /\ forall ep, ~ owner sm its f ep) ->
  server_file_map_ sm its fm acc = Throw ESeriousBug.
Proof.
  induction fm as [|[fname keys] fm IH]; intros acc W (f & I & N); [destruct I|].
  destruct (W fname keys (or_introl eq_refl)) as (k & rest & i & -> & Ei). cbn.
  unfold get_item. rewrite Ei. cbn [obind].
  destruct (server_for sm (it_uri i)) as [ep|e|] eqn:Es; cbn [obind].
  - apply IH; [intros f' keys' I'; apply (W f'); now right|]. exists f. split; [|exact N].
    destruct I as [<-|I]; [|exact I]. exfalso. apply (N ep). exists k, rest. split; [reflexivity|].
    exists i. split; [exact Ei|]. now apply server_for_ok.
  - apply server_for_throw in Es. now subst e.
  - now apply server_for_ub in Es.
Qed.
Theorem files_unserved (its : items) fm :
  (forall f keys, In (f, keys) fm -> exists k rest i, keys = k :: rest /\ sfind k its = Some i) ->
  (exists f, In f fm /\ forall ep, ~ owner sm its f ep) ->
  server_file_map sm its fm = Throw ESeriousBug.
Proof.
  intros W (f & I & N). apply server_file_map_missing.
  - intros f' keys I'. apply (W f'). now apply ordered_in.
  - exists f. split; [|exact N]. eapply Permutation_in; [apply in_key_order_perm|exact I].
Qed.

(* ---- URIs over servers ---- *)

Lemma spush_entries p o (m : list (string * list Z)) :
  Permutation (scan_entries (spush p o m)) (scan_entries m ++ [(p, o)]).
Proof.
  unfold spush, scan_entries. destruct (sfind p m) as [l|] eqn:E.
  - induction m as [|[p' l'] m IH]; [discriminate|]. cbn [sfind] in E. cbn [supdate].
    destruct (String.eqb_spec p p') as [->|N]; cbn [map concat fst snd].
    + rewrite map_app, <- !app_assoc. apply Permutation_app_head, Permutation_app_comm.
    + rewrite IH by exact E. now rewrite app_assoc.
  - rewrite map_app, concat_app. cbn. reflexivity.
Qed.
Lemma flat_update ep p o m :
  Permutation (flat (ep_update ep [] (spush p o) m)) (flat m ++ [(ep, (p, o))]).
Proof.
  unfold flat. induction m as [|[e v] m IH]; cbn.
  - reflexivity.
  - destruct (ep_eqb_spec ep e) as [->|N]; cbn [map concat fst snd].
    + rewrite (Permutation_map (pair e) (spush_entries p o v)), map_app, <- !app_assoc.
      apply Permutation_app_head, Permutation_app_comm.
    + rewrite IH. now rewrite app_assoc.
Qed.

Lemma server_scan_map_inv : forall us acc subs, server_scan_map_ sm us acc = Ok subs ->
  NoDup (map fst acc) ->
  NoDup (map fst subs) /\ exists l, Forall2 (scans sm) us l /\ Permutation (flat acc ++ l) (flat subs).
Proof.
  induction us as [|u us IH]; intros acc subs H ND; cbn in H.
  - injection H as <-. split; [exact ND|]. exists []. split; [constructor|]. now rewrite app_nil_r.
  - destruct (server_for sm u) as [ep| |] eqn:Es; try discriminate. cbn [obind] in H.
    destruct (u_offset u) as [o| |] eqn:Eo; try discriminate. cbn [obind] in H.
    destruct (IH _ _ H (ep_update_nodup _ _ _ _ ND)) as (ND' & l & Hl & P). split; [exact ND'|].
    exists ((ep, (u_path u, o)) :: l). split.
    + constructor; [|exact Hl]. split; [now apply server_for_ok|]. split; [reflexivity|exact Eo].
    + rewrite <- P, flat_update, <- app_assoc. reflexivity.
Qed.
Theorem uris_partitioned us subs : server_scan_map sm us = Ok subs ->
  NoDup (map fst subs) /\ exists l, Forall2 (scans sm) us l /\ Permutation l (flat subs).
Proof. intros H. exact (server_scan_map_inv us [] subs H (NoDup_nil _)). Qed.

Lemma uris_unserved_ : forall us acc, (forall u, In u us -> exists o, u_offset u = Ok o) ->
  (exists u, In u us /\ ep_find (location u) sm = None) -> server_scan_map_ sm us acc = Throw ESeriousBug.
Proof.
  induction us as [|u us IH]; intros acc W (u' & I & N); [destruct I|]. cbn.
  destruct (server_for sm u) as [ep|e|] eqn:Es; cbn [obind].
  - destruct (W u (or_introl eq_refl)) as (o & ->). cbn [obind]. apply IH; [intros; apply W; now right|].
    exists u'. split; [|exact N]. destruct I as [<-|I]; [|exact I]. apply server_for_ok in Es. congruence.
  - apply server_for_throw in Es. now subst e.
  - now apply server_for_ub in Es.
Qed.

(* what is sent for a file holds all its requests *)
Theorem sends_all_requests sorter (its : items) f keys p : sorts sorter ->
  sorted_file sorter its (f, keys) = Ok p ->
  fst (to_wire p) = f /\
  exists l, Permutation l (snd (to_wire p)) /\
    Forall2 (fun x r => exists i, sfind x its = Some i /\ r = (it_request i, it_uri i)) keys l.
Proof.
  intros S H. unfold sorted_file in H. cbn [fst snd] in H.
  destruct (jobs its keys) as [js| |] eqn:Ej; try discriminate. injection H as <-.
  split; [reflexivity|]. unfold to_wire. cbn [snd].
  exists (map (fun j => (it_request (snd (fst j)), it_uri (snd (fst j)))) js).
  split; [apply Permutation_map, S|]. apply mapM_inv in Ej. clear S.
  induction Ej as [|x j keys js E _ IH]; [constructor|]. constructor; [|exact IH].
  unfold get_item in E. destruct (sfind x its) as [i|] eqn:Ei; [|discriminate]. cbn [obind] in E.
  destruct (u_offset (it_uri i)); [|discriminate..]. injection E as <-. cbn [fst snd]. exists i. auto.
Qed.
End Files.

(* ---- extraction through forwarding ---- *)
Section Through.
Context {F M : Type}.
Variable k : link F M.
Variable sm : list (endpoint * endpoint).
Variable sites : endpoint -> site F M.
Variable connect : endpoint -> list (tok F) -> outcome (list (tok F)).
Variable sorter : list (string * @item F * Z) -> list (string * @item F * Z).
Hypothesis link_ok : sound_link k.
Hypothesis sorter_ok : sorts sorter.
Hypothesis sites_ok : forall ep, sorts (w_sorter (s_world (sites ep))).
Hypothesis connected : forall ep, connect ep = site_server k (sites ep).
Notation items := (list (string * @item F)).
Notation filemap := (list (string * list string)).

Lemma sub_forwardable (its : items) fm subs ep sub : forwardable its fm -> split_over sm its fm subs -> In (ep, sub) subs ->
  forwardable its sub.
Proof.
  intros (ND & NE & H) (NDs & P & O) I. destruct (O _ _ I) as [Ns _].
  assert (Inc : incl sub fm).
  { intros f If. eapply Permutation_in; [symmetry; exact P|]. apply in_concat. exists sub. split; [|exact If].
    apply in_map_iff. exists (ep, sub). auto. }
  split; [|split; [exact Ns|]].
  - assert (NDc : NoDup (map fst (concat (map snd subs)))) by (eapply Permutation_NoDup; [apply Permutation_map, P|exact ND]).
    clear -NDc I. induction subs as [|[e s] subs IH]; [destruct I|]. cbn [map snd concat] in NDc. rewrite map_app in NDc.
    apply NoDup_app_iff_ in NDc. destruct NDc as (N1 & N2 & _). destruct I as [[= <- <-]|I]; auto.
  - intros f keys If. apply (H f keys), Inc, If.
Qed.

(* whatever the servers answer *)
Theorem forward_extract_eq its fm : forwardable its fm ->
  forwards k sm connect sorter fm its =
  (let* subs := server_file_map sm its fm in
   run_tasks (map (fun s => gathered k (map (site_extracts (sites (fst s)) its) (in_key_order (snd s)))) subs) its).
Proof.
  intros W. unfold forwards, forward_extract.
  destruct (server_file_map sm its fm) as [subs|e|] eqn:E; [|reflexivity..]. cbn [obind].
  pose proof (files_partitioned sm its fm subs E) as S.
  destruct subs as [|s0 subs0].
  - exfalso. destruct S as (_ & P & _). cbn in P. apply Permutation_sym, Permutation_nil in P. apply (proj1 (proj2 W)), P.
  - cbn [lenN length N.of_nat N.eqb negb assert_ obind]. set (subs := s0 :: subs0) in *. f_equal.
    apply map_ext_in. intros [ep sub] I. cbn [fst snd].
    apply (forward_task_gathered k (sites ep)); auto. eapply sub_forwardable; eauto.
Qed.

Lemma gathered_ok ts (out : list (string * result F)) : gathered k ts = Ok out ->
  exists outs, ts = map Ok outs /\ out = concat outs.
Proof.
  unfold gathered. destruct (existsb is_ub ts) eqn:U; [discriminate|].
  destruct (errors_of ts) as [|e es] eqn:E; [|discriminate]. intros [= <-].
  exists (results_in ts). split; [|reflexivity]. apply no_errors_all_ok; [exact E|].
  now apply is_ub_none.
Qed.
Lemma gathered_all_ok (outs : list (list (string * result F))) : gathered k (map Ok outs) = Ok (concat outs).
Proof.
  unfold gathered.
  replace (existsb is_ub (map Ok outs)) with false; [|induction outs; [reflexivity|exact IHouts]].
  replace (errors_of (map Ok outs)) with (@nil error); [|induction outs; [reflexivity|exact IHouts]].
  f_equal. f_equal. induction outs as [|o outs IH]; [reflexivity|]. cbn. now rewrite IH.
Qed.


Lemma extracts_names ep its f keys out : keys <> [] -> distinct_offsets its keys ->
  site_extracts (sites ep) its (f, keys) = Ok out ->
  Permutation keys (map fst out) /\ forall x, In x keys -> exists i, sfind x its = Some i.
Proof.
  intros N D H. destruct (prepare_file (sites ep) sorter sorter_ok (sites_ok ep) its f keys N D) as (js & E1 & _ & E2).
  rewrite E2 in H. apply core_names in H. rewrite H. unfold sorted_file in E1. cbn [fst snd] in E1.
  destruct (jobs its keys) as [js0| |] eqn:Ej; try discriminate. cbn [obind] in E1. injection E1 as <-.
  pose proof (jobs_keys its keys js0 Ej) as K. split.
  - rewrite <- K. apply Permutation_map, sorter_ok.
  - intros x I. rewrite <- K in I. apply in_map_iff in I. destruct I as (j & <- & I).
    pose proof (proj1 (Forall_forall _ _) (jobs_ok its keys js0 Ej) j I) as [Hj _]. eexists. exact Hj.
Qed.

(* the results of all files of a sub map *)
Lemma sub_results its ep sub outs : (forall f keys, In (f, keys) sub -> keys <> [] /\ distinct_offsets its keys) ->
  map (site_extracts (sites ep) its) sub = map Ok outs ->
  Permutation (concat (map snd sub)) (map fst (concat outs)) /\
  (forall f keys, In (f, keys) sub -> exists out, site_extracts (sites ep) its (f, keys) = Ok out /\ incl out (concat outs)).
Proof.
  revert outs. induction sub as [|[f keys] sub IH]; intros [|out outs] H E; try discriminate.
  - split; [reflexivity|]. intros f keys [].
  - cbn [map] in E. injection E as E1 E2. destruct (H f keys (or_introl eq_refl)) as [Hn Hd].
    destruct (extracts_names ep its f keys out Hn Hd E1) as [P _].
    destruct (IH outs) as [P' G]; [intros f' keys' I; apply (H f'); now right|exact E2|].
    cbn [map snd concat]. rewrite map_app. split; [now apply Permutation_app|].
    intros f' keys' [[= <- <-]|I]; [exists out; split; [exact E1|apply incl_appl, incl_refl]|].
    destruct (G f' keys' I) as (o & Eo & Io). exists o. split; [exact Eo|]. apply incl_appr, Io.
Qed.

Lemma concat_perm {X} (l l' : list (list X)) : Permutation l l' -> Permutation (concat l) (concat l').
Proof.
  intros P. induction P; cbn; [reflexivity|now apply Permutation_app_head| |etransitivity; eassumption].
  rewrite !app_assoc. apply Permutation_app_tail, Permutation_app_comm.
Qed.
Lemma concat_concat_snd (subs : list (endpoint * filemap)) :
  concat (map (fun s => concat (map snd (snd s))) subs) = concat (map snd (concat (map snd subs))).
Proof. induction subs as [|[e s] subs IH]; [reflexivity|]. cbn. now rewrite map_app, concat_app, IH. Qed.

Lemma all_subs its fm subs outs : forwardable its fm -> split_over sm its fm subs ->
  map (fun s => gathered k (map (site_extracts (sites (fst s)) its) (in_key_order (snd s)))) subs = map Ok outs ->
  Permutation (concat (map snd fm)) (map fst (concat outs)) /\
  (forall f keys, In (f, keys) fm -> exists ep out, owner sm its (f, keys) ep /\
     site_extracts (sites ep) its (f, keys) = Ok out /\ incl out (concat outs)).
Proof.
  intros W S E.
  assert (X : forall subs outs,
    (forall ep sub, In (ep, sub) subs -> forwardable its sub) ->
    map (fun s => gathered k (map (site_extracts (sites (fst s)) its) (in_key_order (snd s)))) subs = map Ok outs ->
    Permutation (concat (map (fun s => concat (map snd (snd s))) subs)) (map fst (concat outs)) /\
    (forall ep sub f keys, In (ep, sub) subs -> In (f, keys) sub -> exists out,
       site_extracts (sites ep) its (f, keys) = Ok out /\ incl out (concat outs))).
  { clear subs outs S E. induction subs as [|[ep sub] subs IH]; intros [|out outs] H E; try discriminate.
    - split; [reflexivity|]. intros ep sub f keys [].
    - cbn [map fst snd] in E. injection E as E1 E2. destruct (gathered_ok _ _ E1) as (outs1 & E3 & ->).
      destruct (H ep sub (or_introl eq_refl)) as (_ & _ & Hk).
      destruct (sub_results its ep (in_key_order sub) outs1) as [P1 G1];
        [intros f keys I; apply (Hk f); now apply ordered_in|exact E3|].
      destruct (IH outs) as [P2 G2]; [intros e s I; apply (H e); now right|exact E2|].
      cbn [map snd concat]. rewrite map_app. split.
      + apply Permutation_app; [|exact P2]. rewrite <- P1. apply concat_perm, Permutation_map, in_key_order_perm.
      + intros e s f keys [[= <- <-]|I] If.
        * destruct (G1 f keys) as (o & Eo & Io); [eapply Permutation_in; [apply in_key_order_perm|exact If]|].
          exists o. split; [exact Eo|]. apply incl_appl, Io.
        * destruct (G2 e s f keys I If) as (o & Eo & Io). exists o. split; [exact Eo|]. apply incl_appr, Io. }
  destruct (X subs outs) as [P G]; [intros ep sub I; eapply sub_forwardable; eauto|exact E|].
  destruct S as (_ & Ps & O). split.
  - rewrite <- P, concat_concat_snd. apply concat_perm, Permutation_map, Ps.
  - intros f keys I. apply (Permutation_in _ Ps) in I. apply in_concat in I. destruct I as (sub & Is & If).
    apply in_map_iff in Is. destruct Is as ([ep sub'] & <- & Is). cbn [snd] in If.
    destruct (G ep sub' f keys Is If) as (out & Eo & Io). exists ep, out.
    split; [apply (proj2 (O _ _ Is)), If|]. split; assumption.
Qed.

Theorem forwarded_done its fm its2 : forwardable its fm -> NoDup (concat (map snd fm)) ->
  forwards k sm connect sorter fm its = Ok ([], its2) -> done_at_owners sm sites its fm its2.
Proof.
  intros W ND H. rewrite forward_extract_eq in H by exact W.
  destruct (server_file_map sm its fm) as [subs| |] eqn:Es; try discriminate. cbn [obind] in H.
  pose proof (files_partitioned sm its fm subs Es) as S.
  destruct (run_tasks_ok _ _ _ H) as (outs & E & ->). clear H.
  destruct (all_subs its fm subs outs W S E) as [P G].
  assert (NDo : NoDup (map fst (concat outs))) by (eapply Permutation_NoDup; [exact P|exact ND]).
  split; [apply apply_results_keys|]. split.
  - intros f keys I. destruct (G f keys I) as (ep & out & O & Eo & Io). exists ep, out.
    destruct (proj2 (proj2 W) f keys I) as [Hn Hd]. destruct (extracts_names ep its f keys out Hn Hd Eo) as [Pk Fk].
    split; [exact O|]. split; [exact Eo|]. split; [exact Pk|]. intros x r Ix.
    destruct (Fk x) as (i & Ei).
    { eapply Permutation_in; [symmetry; exact Pk|]. apply (in_map fst) in Ix. exact Ix. }
    exists i. split; [exact Ei|]. apply apply_results_find; [exact NDo|apply Io, Ix|exact Ei].
  - intros x N. apply apply_results_other. intros I. apply N.
    eapply Permutation_in; [symmetry; exact P|exact I].
Qed.

(* if every owner can extract its files, forwarding succeeds *)
Theorem forwarding_succeeds its fm : forwardable its fm ->
  (forall f, In f fm -> exists ep, owner sm its f ep) ->
  (forall f ep, In f fm -> owner sm its f ep -> exists out, site_extracts (sites ep) its f = Ok out) ->
  exists its2, forwards k sm connect sorter fm its = Ok ([], its2).
Proof.
  intros W A G. rewrite forward_extract_eq by exact W.
  destruct (files_all_served sm its fm A) as (subs & Es). rewrite Es. cbn [obind].
  destruct (files_partitioned sm its fm subs Es) as (_ & P & O).
  assert (X : exists outs, map (fun s => gathered k (map (site_extracts (sites (fst s)) its) (in_key_order (snd s)))) subs
                           = map Ok outs).
  { assert (Inc : forall ep sub f, In (ep, sub) subs -> In f sub -> In f fm).
    { intros ep sub f I If. eapply Permutation_in; [symmetry; exact P|]. apply in_concat. exists sub.
      split; [|exact If]. apply in_map_iff. exists (ep, sub). auto. }
    clear P Es. induction subs as [|[ep sub] subs IH]; [now exists []|].
    destruct IH as (outs & E).
    { intros e s I. apply O. now right. }
    { intros e s f I If. apply (Inc e s f); [now right|exact If]. }
    assert (Y : exists outs1, map (site_extracts (sites ep) its) (in_key_order sub) = map Ok outs1).
    { assert (Z : forall f, In f (in_key_order sub) -> exists out, site_extracts (sites ep) its f = Ok out).
      { intros f I. apply ordered_in in I. apply G.
        - apply (Inc ep sub f); [now left|exact I].
        - apply (proj2 (O ep sub (or_introl eq_refl))), I. }
      clear -Z. induction (in_key_order sub) as [|f l IH]; [now exists []|].
      destruct (Z f (or_introl eq_refl)) as (out & Eo). destruct IH as (outs & Es); [intros; apply Z; now right|].
      exists (out :: outs). cbn. now rewrite Eo, Es. }
    destruct Y as (outs1 & Ey). exists (concat outs1 :: outs). cbn [map fst snd]. rewrite Ey, gathered_all_ok, E. reflexivity. }
  destruct X as (outs & ->). rewrite run_tasks_all_ok. eexists. reflexivity.
Qed.

(* if some owner reports an error, so does forwarding *)
Theorem forwarding_fails its fm f ep e : forwardable its fm -> In f fm -> owner sm its f ep ->
  site_extracts (sites ep) its f = Throw e ->
  forall es its2, forwards k sm connect sorter fm its = Ok (es, its2) -> es <> [].
Proof.
  intros W I O E es its2 H ->. rewrite forward_extract_eq in H by exact W.
  destruct (server_file_map sm its fm) as [subs| |] eqn:Es; try discriminate. cbn [obind] in H.
  pose proof (files_partitioned sm its fm subs Es) as S.
  destruct (run_tasks_ok _ _ _ H) as (outs & Eo & _).
  destruct f as [f keys]. destruct (proj2 (all_subs its fm subs outs W S Eo) f keys I) as (ep' & out & O' & E' & _).
  destruct O as (x & rest & Ek & i & Ei & Ep). destruct O' as (x' & rest' & Ek' & i' & Ei' & Ep').
  cbn [snd] in *. rewrite Ek in Ek'. injection Ek' as <- <-. rewrite Ei in Ei'. injection Ei' as <-.
  rewrite Ep in Ep'. injection Ep' as <-. congruence.
Qed.
End Through.
