From Coq Require Import Lia Permutation Sorted.
From Verif Require Import Base BaseLemmas ModelRange ModelInfo ModelSimple ModelStream SpecStream ModelJumper ModelStrings ModelCache ModelBuild ModelEngine
  ModelProtocol ModelRemote ModelForward SpecEngine SpecSystem SpecRemote SpecForward SpecSafety SpecDeploy SpecHostile
  ProofsStrings ProofsProtocol ProofsRemote ProofsEngine2 ProofsForward ProofsForward3 ProofsSafety2 ProofsDeploy ProofsHostile ProofsHostile2.
Open Scope nat_scope.

(* ---- what a reader gives ---- *)
Section Gives.
Context {F : Type}.
Definition gives {A} (R : A -> Prop) (f : @reader F A) : Prop := forall s a r, f s = Ok (a, r) -> R a.
Lemma gives_times {A} (R : A -> Prop) (f : @reader F A) n : gives R f -> gives (Forall R) (r_times n f).
Proof.
  intros G. induction n as [|n IH]; intros s a r; cbn [r_times]; [intros [= <- _]; constructor|].
  destruct (f s) as [[x s1]| |] eqn:E; cbn [obind]; try discriminate. destruct (r_times n f s1) as [[l s2]| |] eqn:E2; cbn [obind]; try discriminate.
  intros [= <- _]. constructor; eauto. 
Qed.
Lemma gives_count {A} (R : A -> Prop) (f : @reader F A) n : gives R f -> gives (Forall R) (r_count n f).
Proof.
  intros G s a r. unfold r_count. destruct (_ <=? _)%N; [now apply gives_times|]. destruct (r_times _ f s); discriminate.
Qed.
Lemma sset_incl {V} (k : string) (v : V) m x : In x (sset k v m) -> x = (k, v) \/ In x m.
Proof.
  unfold sset. destruct (sfind k m) as [v0|].
  - induction m as [|[k' v'] m IH]; cbn [supdate]; [intros []|].
    destruct (String.eqb_spec k k') as [<-|_]; intros [<-|I]; auto; [right; now right|right; now left|]. destruct (IH I); [now left|right; now right].
  - intros I. apply in_app_or in I. destruct I as [I|[<-|[]]]; auto.
Qed.
Lemma sset_all_incl {V} (l : list (string * V)) : forall acc x, In x (fold_left (fun m f => sset (fst f) (snd f) m) l acc) -> In x acc \/ In x l.
Proof.
  induction l as [|[k v] l IH]; intros acc x; cbn [fold_left]; [now left|]. intros I. apply IH in I. destruct I as [I|I]; [|right; now right].
  apply sset_incl in I. destruct I as [->|I]; [right; now left|now left].
Qed.
(* the items of a forwarded request carry URIs as they were read, as local files *)
Lemma gives_forward (R : uri -> Prop) (r_uri : @reader F uri) : gives R r_uri -> gives (fun m => forall f l r u, In (f, l) m -> In (r, u) l ->
  exists u0, u = as_file u0 /\ R u0) (r_forward_extract_request r_uri).
Proof.
  intros G s m rest. unfold r_forward_extract_request. destruct (r_ulong s) as [[n s1]| |]; cbn [obind]; try discriminate.
  destruct (r_count n (r_forward_file r_uri) s1) as [[fs s2]| |] eqn:E; cbn [obind]; try discriminate. intros [= <- _].
  assert (Forall (fun fl => Forall (fun i => exists u0, snd i = as_file u0 /\ R u0) (snd fl)) fs) as A.
  { revert E. apply gives_count. clear -G. intros s fl r. unfold r_forward_file. destruct (r_str s) as [[name t]| |]; cbn [obind]; try discriminate.
    destruct (r_ulong t) as [[n t1]| |]; cbn [obind]; try discriminate. destruct (r_count n (r_forward_item r_uri) t1) as [[l t2]| |] eqn:E; cbn [obind]; try discriminate.
    intros [= <- _]. cbn [snd]. revert E. apply gives_count. clear -G. intros s i r. unfold r_forward_item.
    destruct (r_request s) as [[q t]| |]; cbn [obind]; try discriminate. destruct (r_uri t) as [[u t1]| |] eqn:Eu; cbn [obind]; try discriminate.
    intros [= <- _]. cbn [snd]. exists u. split; [reflexivity|]. exact (G _ _ _ Eu). }
  intros f l r u I Iu. apply sset_all_incl in I. destruct I as [[]|I]. rewrite Forall_forall in A. specialize (A _ I). cbn [snd] in A.
  rewrite Forall_forall in A. exact (A _ Iu).
Qed.
End Gives.

Lemma count_dies ts : count_tasks ts = UB -> In UB ts.
Proof.
  induction ts as [|[n|e|] ts IH]; cbn [count_tasks]; [discriminate| | |now left];
    (destruct (count_tasks ts) as [[? ?]| |]; cbn [obind]; [discriminate|discriminate|]; right; auto).
Qed.

Section Server.
Context {F M : Type}.
Variable k : link F M.
Hypothesis L : reading_link k.
Variable s : site F M.
Variable P : string -> Prop.
Notation w := (s_world s).
Notation cfg := (s_cfg s).
Hypothesis D : defined_site k s P.

Lemma extract_stream_dies reqs s1 : e_extract (site_engine k s) reqs = UB \/
  (exists rs m errs, e_extract (site_engine k s) reqs = Ok (rs, m, errs) /\ reply_results (map r_string rs) m = UB) ->
  s1 = reqs -> deadly_requests w cfg reqs.
Proof.
  intros H ->. apply (requests_die w P (ds_world _ _ _ D) cfg reqs).
  pose proof (same_extraction k s (ds_forward _ _ _ D) reqs) as S.
  assert (client_extract k (site_server k s) reqs = UB) as E.
  { unfold client_extract, site_server, server. unfold remote_extract, call. rewrite serve_sent.
    rewrite <- (app_nil_r (send_extract _ _)), dispatch_extract. unfold answered, process.
    destruct H as [->|(rs & m & errs & -> & H)]; [reflexivity|]. cbn [obind fst snd]. rewrite H. reflexivity. }
  rewrite E in S. destruct (extract_requests w cfg reqs) as [res|e|]; [discriminate|destruct S; discriminate|reflexivity].
Qed.

Lemma scan_defined l b : e_scan (site_engine k s) l b <> UB.
Proof.
  cbn [site_engine the_engine e_scan]. unfold with_text. intros H.
  match type of H with obind ?x _ = _ => assert (x = UB) as E by (destruct x as [[? ?]| |]; [discriminate|discriminate|reflexivity]) end. clear H.
  unfold engine_scan in E. pose proof (ds_list _ _ _ D l) as Hl. destruct (s_list_uris s l) as [us|e|]; cbn [obind no_death] in *; [|discriminate|contradiction].
  destruct us as [|u0 us0]; [discriminate|]. set (us := u0 :: us0) in *. destruct (s_forward_scans s).
  - unfold forward_scan in E. destruct (negb _); cbn [assert_ obind] in E; [|discriminate].
    destruct (server_scan_map _ us) as [subs|e|] eqn:Es; cbn [obind] in E; [|discriminate|].
    + apply count_dies in E. apply in_map_iff in E. destruct E as ([ep t] & E & _). cbn [fst snd] in E. unfold forward_scan_task in E.
      destruct (remote_forward_scan _ _ _ t) eqn:Er; try discriminate. clear E. unfold remote_forward_scan in Er.
      destruct (call_dies (fun _ => False) (fun _ _ x => x) _ _ _ _ (tame_ulong (fun _ => False)) Er) as [X|(t' & _ & [])].
      exact (ds_connect _ _ _ D _ _ X).
    + unfold server_scan_map in Es. revert Es. generalize (@nil (endpoint * list (string * list Z))) as acc. clear E. clearbody us. induction Hl as [|u us Hu Hl IH]; intros acc; cbn [server_scan_map_]; [discriminate|].
      unfold server_for. destruct (ep_find _ _); cbn [obind]; [|discriminate]. destruct (u_offset u) as [z| |]; cbn [obind]; [apply IH|discriminate|congruence].
  - destruct (files_offsets us) as [m|e|] eqn:Ef; cbn [obind] in E; [|discriminate|].
    + unfold schedule_scan in E. destruct (negb _); cbn [assert_ obind] in E; [|discriminate]. apply count_dies in E. apply in_map_iff in E.
      destruct E as ([p offs] & E & _). exact (ds_scan _ _ _ D _ _ E).
    + unfold files_offsets in Ef. revert Ef. generalize (@nil (string * list Z)) as acc. clear E. clearbody us. induction Hl as [|u us Hu Hl IH]; intros acc; cbn [files_offsets_]; [discriminate|].
      destruct (u_offset u) as [z| |]; cbn [obind]; [apply IH|discriminate|congruence].
Qed.
Lemma forward_scan_defined m : e_forward_scan (site_engine k s) m <> UB.
Proof.
  cbn [site_engine the_engine e_forward_scan]. unfold with_text, schedule_scan. intros H. destruct (negb _); cbn [assert_ obind] in H; [|discriminate].
  destruct (count_tasks _) as [[? ?]| |] eqn:E; cbn [obind] in H; try discriminate. apply count_dies in E. apply in_map_iff in E.
  destruct E as ([p offs] & E & _). exact (ds_scan _ _ _ D _ _ E).
Qed.

Lemma process_dies {A B} (c : @reader F A) (ex : A -> outcome (list string * B)) re t :
  snd (process c ex re t) = UB -> c t = UB \/ exists a rest, c t = Ok (a, rest) /\ (ex a = UB \/ exists errs b, ex a = Ok (errs, b) /\ re b = UB).
Proof.
  unfold process. destruct (c t) as [[a rest]|e|]; cbn [snd]; [|discriminate|now left]. intros H. right. exists a, rest. split; [reflexivity|].
  destruct (ex a) as [[errs b]|e|]; cbn [snd] in H; [|discriminate|now left]. right. exists errs, b. split; [reflexivity|].
  destruct (re b); [discriminate|discriminate|reflexivity].
Qed.

Theorem server_dies st : (forall m f l, asks_forward k st m -> In (f, l) m -> P f) -> site_server k s st = UB ->
  lying_ranges st \/
  (exists reqs, asks_extract st reqs /\ deadly_requests w cfg reqs) \/
  (exists m, asks_forward k st m /\ ((exists f, In (f, []) m) \/ deadly_files w m)).
Proof.
  intros HP H. unfold site_server, server, serve in H. destruct (dispatch _ _ _ st) as [out fin] eqn:Ed. assert (fin = UB) as -> by (destruct fin; congruence). clear H.
  assert (snd (dispatch (k_r_mars k) (k_r_uri k) (site_engine k s) st) = UB) as H by now rewrite Ed. clear Ed out.
  unfold dispatch in H. pose proof (tame_header (fun _ : list (tok F) => False) (fun _ _ x => x) st) as [Th _].
  pose proof (tame_header (@lying_ranges F) lying_ranges_later st) as [_ Th2].
  destruct (r_header st) as [[ty s1]|e|] eqn:Eh; cbn [snd] in H; [|discriminate|destruct (Th eq_refl)].
  destruct (Th2 _ _ eq_refl) as (pre & Est). clear Th Th2.
  destruct (N.eqb_spec ty t_extract) as [->|_].
  { unfold serve_extract in H. apply process_dies in H. destruct H as [H|(reqs & rest & E & H)].
    - left. rewrite Est. apply lying_ranges_later. now apply tame_extract_request.
    - right. left. exists reqs. split; [exists s1, rest; auto|]. eapply extract_stream_dies; [|reflexivity].
      destruct H as [H|(errs & [rs m] & H1 & H2)].
      + left. destruct (e_extract _ reqs) as [[[? ?] ?]| |]; [discriminate|discriminate|reflexivity].
      + right. destruct (e_extract _ reqs) as [[[rs' m'] errs']| |]; try discriminate. injection H1 as <- <- <-.
        exists rs', m', errs'. split; [reflexivity|]. cbn [fst snd] in H2. destruct (reply_results _ m'); [discriminate|discriminate|reflexivity]. }
  destruct (N.eqb_spec ty t_axes) as [->|_].
  { exfalso. unfold serve_axes in H. apply process_dies in H. destruct H as [H|(q & rest & E & H)].
    - destruct (tame_axes_request (fun _ : list (tok F) => False) (fun _ _ x => x) s1) as [T _].
      destruct (r_axes_request s1) as [[q r]| |]; cbn [obind] in H; [destruct (negb _); discriminate|discriminate|exact (T eq_refl)].
    - destruct H as [H|(errs & b & _ & H)]; [|discriminate]. cbn [site_engine the_engine e_axes] in H.
      pose proof (ds_axes _ _ _ D (fst q) (snd q)) as Ha. destruct (s_list_axes s _ _); cbn [obind] in H; congruence. }
  destruct (N.eqb_spec ty t_scan) as [->|_].
  { exfalso. unfold serve_scan in H. apply process_dies in H. destruct H as [H|(q & rest & E & H)].
    - refine (proj1 (tame_scan_request (fun _ : list (tok F) => False) (fun _ _ x => x) (k_r_mars k) _ s1) H).
      intros t. split; [exact (ds_mars _ _ _ D t)|]. intros a r Ht. exact (proj1 L t a r Ht).
    - destruct H as [H|(errs & b & _ & H)]; [|discriminate]. pose proof (scan_defined (fst q) (snd q)) as Ha.
      destruct (e_scan _ _ _) as [[? ?]| |]; cbn [obind] in H; congruence. }
  destruct (N.eqb_spec ty t_forward_extract) as [->|_].
  { unfold serve_forward_extract in H. apply process_dies in H. destruct H as [H|(m & rest & E & H)].
    - left. rewrite Est. apply lying_ranges_later.
      assert (r_forward_extract_request (k_r_uri k) s1 = UB) as H'.
      { destruct (r_forward_extract_request (k_r_uri k) s1) as [[m r]| |]; cbn [obind] in H; [destruct (_ <? _)%N; discriminate|discriminate|reflexivity]. }
      refine (proj1 (tame_forward_extract_request (k_r_uri k) _ s1) H').
      intros t. pose proof (ds_uri _ _ _ D t) as Hu. split; [intros X; rewrite X in Hu; contradiction|]. intros a r Ht. exact (proj2 L t a r Ht).
    - assert (exists r, r_forward_extract_request (k_r_uri k) s1 = Ok (m, r)) as (r & Er).
      { destruct (r_forward_extract_request (k_r_uri k) s1) as [[m' r]| |]; cbn [obind] in E; try discriminate.
        destruct (_ <? _)%N; cbn [assert_ obind] in E; try discriminate. injection E as <- <-. eauto. }
      assert (asks_forward k st m) as Ask by (exists s1, r; auto).
      right. right. exists m. split; [exact Ask|].
      assert ((exists f, In (f, []) m) \/ forall f l, In (f, l) m -> l <> []) as [X|X].
      { clear. induction m as [|[f l] m IH]; [right; intros ? ? []|]. destruct l as [|i l]; [left; exists f; now left|].
        destruct IH as [(g & I)|IH]; [left; exists g; now right|]. right. intros f' l' [E|I]; [injection E as <- <-; discriminate|eauto]. }
      { now left. }
      right. apply (forward_dies k s P (ds_world _ _ _ D) m).
      + intros f l I. split; [exact (HP m f l Ask I)|]. split; [exact (X f l I)|]. intros q u Iu.
        assert (gives (fun u : uri => u_offset u <> UB /\ u_length u <> UB) (k_r_uri k)) as G.
        { intros t a r' Ht. pose proof (ds_uri _ _ _ D t) as Hu. rewrite Ht in Hu. exact Hu. }
        destruct (gives_forward _ _ G _ _ _ Er f l q u I Iu) as (u0 & -> & Hu). exact Hu.
      + destruct H as [H|(errs & b & _ & H)]; [|discriminate]. destruct (e_forward_extract _ m) as [[? ?]| |]; cbn [obind] in H; [discriminate|discriminate|reflexivity]. }
  destruct (N.eqb_spec ty t_forward_scan) as [->|_]; [|discriminate].
  exfalso. unfold serve_forward_scan in H. apply process_dies in H. destruct H as [H|(m & rest & E & H)].
  - exact (proj1 (tame_forward_scan_request (fun _ : list (tok F) => False) (fun _ _ x => x) s1) H).
  - destruct H as [H|(errs & b & _ & H)]; [|discriminate]. pose proof (forward_scan_defined m) as Ha.
    destruct (e_forward_scan _ _) as [[? ?]| |]; cbn [obind] in H; congruence.
Qed.
End Server.

(* ---- the two requests that are fatal to every server ---- *)
Section Fatal.
Context {F M : Type}.
Variable k : link F M.
Variable s : site F M.

Lemma lying_kills context str hash n l rest : (lenN l < 2 * n)%N ->
  site_server k s (w_header t_extract context ++ [KULong 1; KStr str; KStr hash; KULong n; KWords l] ++ rest) = UB.
Proof.
  intros H. assert (E : r_extract_request ([KULong 1; KStr str; KStr hash; KULong n; KWords l] ++ rest) = UB :> outcome (list request * list (tok F))).
  { unfold r_extract_request. cbn [app r_ulong obind]. unfold r_count.
    replace (1 <=? lenN (KStr str :: KStr hash :: KULong n :: KWords l :: rest))%N with true by (symmetry; apply N.leb_le; unfold lenN; cbn [length]; lia).
    change (N.to_nat 1) with 1. cbn [r_times]. unfold r_request. cbn [r_str obind]. unfold r_ranges_. cbn [r_ulong r_words obind].
    unfold from_buffer. replace (lenN l <? 2 * n)%N with true by (symmetry; now apply N.ltb_lt). reflexivity. }
  unfold site_server, server, serve, dispatch. rewrite header_read. cbn [N.eqb t_extract]. unfold serve_extract, process. rewrite E. reflexivity.
Qed.

Lemma empty_kills context m f : sound_link k -> NoDup (map fst m) -> In (f, []) m -> (0 < item_count m)%N ->
  site_server k s (send_forward_extract (k_w_uri k) context m) = UB.
Proof.
  intros [_ Lu] ND I Hc. unfold site_server, server. rewrite serve_sent. rewrite <- (app_nil_r (send_forward_extract _ _ _)).
  assert (E : forall e, dispatch (k_r_mars k) (k_r_uri k) e (send_forward_extract (k_w_uri k) context m ++ []) =
    process (fun st => Ok (tt, st)) (fun _ => let* (res, errs) := e_forward_extract e (map received_file m) in Ok (errs, res)) (fun res => Ok (w_forward_extract_reply res)) []).
  { intros e. unfold send_forward_extract. unfold dispatch. rewrite <- app_assoc, header_read. cbn [N.eqb t_forward_extract t_extract t_axes t_scan].
    unfold serve_forward_extract, process.
    rewrite (proj1 (exact_forward_extract_request (k_w_uri k) (k_r_uri k) Lu m ND)). cbn [obind].
    rewrite item_count_received. replace (0 <? item_count m)%N with true by (symmetry; now apply N.ltb_lt). reflexivity. }
  rewrite E. unfold process. cbn [obind]. rewrite (empty_file_kills k s (map received_file m) f).
  - reflexivity.
  - apply in_map_iff. exists (f, []). split; [reflexivity|exact I].
  - intros f' l r u Il Iu. apply in_map_iff in Il. destruct Il as ([g l'] & Eg & _). injection Eg as <- <-.
    apply in_map_iff in Iu. destruct Iu as (x & Ex & _). unfold received in Ex. injection Ex as <- <-. reflexivity.
Qed.
End Fatal.

(* ---- clients ---- *)
Section Clients.
Context {F M : Type}.
Variable k : link F M.
Variable srv : list (tok F) -> outcome (list (tok F)).

Theorem extract_client_dies reqs : client_extract k srv reqs = UB ->
  let sent := send_extract (k_context k) reqs in srv sent = UB \/ exists t, srv sent = Ok t /\ lying_reply t.
Proof. intros H. exact (call_dies _ lying_reply_later _ _ _ _ (tame_extract_reply _) H). Qed.
Theorem forward_client_dies m : client_forward_extract k srv m = UB ->
  let sent := send_forward_extract (k_w_uri k) (k_context k) m in srv sent = UB \/ exists t, srv sent = Ok t /\ lying_reply t.
Proof. intros H. exact (call_dies _ lying_reply_later _ _ _ _ (tame_forward_extract_reply _) H). Qed.
Theorem other_clients_live :
  (forall t, srv t <> UB) ->
  (forall r z, client_axes k srv r z <> UB) /\ (forall l b, client_scan k srv l b <> UB) /\ (forall m, client_forward_scan k srv m <> UB).
Proof.
  intros N. pose proof (fun (_ : list (tok F)) (_ : list (tok F)) (x : False) => x) as later. repeat split.
  - intros r z H. destruct (call_dies (fun _ => False) later _ _ _ _ (tame_axes_reply _ later) H) as [X|(t & _ & [])]; exact (N _ X).
  - intros l b H. destruct (call_dies (fun _ => False) later _ _ _ _ (tame_ulong _) H) as [X|(t & _ & [])]; exact (N _ X).
  - intros m H. destruct (call_dies (fun _ => False) later _ _ _ _ (tame_ulong _) H) as [X|(t & _ & [])]; exact (N _ X).
Qed.
End Clients.
