(* Requests answered through forwarding servers: C50, C51 *)
From Coq Require Import Lia Permutation Sorted.
From Verif Require Import Base BaseLemmas ModelRange ModelInfo ModelSimple ModelStream SpecStream ModelJumper
  ModelStrings ModelCache ModelEngine SpecEngine ModelProtocol ModelRemote SpecRemote ModelForward SpecForward
  ProofsStrings ProofsEngine ProofsEngine2 ProofsEngine3 ProofsProtocol ProofsRemote ProofsForward ProofsForward2
  ProofsForward3.
Local Open Scope nat_scope.

Lemma NoDup_map_by {X Y Z} (f : X -> Y) (g : X -> Z) (l : list X) :
  NoDup (map f l) -> (forall x y, In x l -> In y l -> g x = g y -> f x = f y) -> NoDup (map g l).
Proof.
  induction l as [|x l IH]; intros ND H; [constructor|]. cbn in *. inversion ND as [|? ? NI ND']; subst.
  constructor; [|apply IH; [exact ND'|intros; apply H; auto]].
  intros I. apply in_map_iff in I. destruct I as (y & E & I). apply NI.
  rewrite <- (H y x (or_intror I) (or_introl eq_refl) E). now apply in_map.
Qed.

Section Placed.
Context {F M : Type}.
Variable k : link F M.
Variable sm : list (endpoint * endpoint).
Variable sites : endpoint -> site F M.
Variable connect : endpoint -> list (tok F) -> outcome (list (tok F)).
Variable sorter : list (string * @item F * Z) -> list (string * @item F * Z).
Hypothesis link_ok : sound_link k.
Hypothesis sorter_ok : sorts sorter.
Hypothesis sites_ok : forall ep, sound_world (s_world (sites ep)).
Hypothesis connected : forall ep, connect ep = site_server k (sites ep).
Notation items := (list (string * @item F)).
Notation filemap := (list (string * list string)).

Lemma jobs_exist (its : items) : forall keys,
  (forall x, In x keys -> exists i o, sfind x its = Some i /\ u_offset (it_uri i) = Ok o) ->
  exists js, jobs its keys = Ok js.
Proof.
  unfold jobs. induction keys as [|x keys IH]; intros H; [eexists; reflexivity|].
  destruct (H x (or_introl eq_refl)) as (i & o & Ei & Eo). destruct IH as (js & Ej); [intros; apply H; now right|].
  cbn [mapM]. unfold get_item at 1. rewrite Ei. cbn [obind]. rewrite Eo. cbn [obind]. rewrite Ej. eexists. reflexivity.
Qed.

(* groups of well placed items can be forwarded *)
Lemma placed_forwardable (its : items) fm l : placed l -> groups_ok its fm -> NoDup (map fst fm) -> fm <> [] ->
  (forall f keys, In (f, keys) fm -> keys <> []) ->
  (forall x i, In x (concat (map snd fm)) -> sfind x its = Some i -> In (x, it_uri i) l) ->
  forwardable its fm.
Proof.
  intros [Po Pl] [NDc G] ND NE Hk Hl. split; [exact ND|]. split; [exact NE|].
  intros f keys I. split; [apply (Hk f), I|].
  assert (Ic : forall x, In x keys -> In x (concat (map snd fm))).
  { intros x Ix. apply in_concat. exists keys. split; [|exact Ix]. apply in_map_iff. exists (f, keys). auto. }
  destruct (jobs_exist its keys) as (js & Ej).
  { intros x Ix. destruct (G f keys x I Ix) as (i & Ei & _).
    destruct (Po x (it_uri i)) as (o & Eo); [apply Hl; auto|]. exists i, o. auto. }
  exists js. split; [exact Ej|]. pose proof (jobs_keys its keys js Ej) as K.
  pose proof (proj1 (Forall_forall _ _) (jobs_ok its keys js Ej)) as J.
  apply (NoDup_map_by (fun j => fst (fst j))).
  - rewrite K. clear -NDc I. induction fm as [|[f' keys'] fm IH]; [destruct I|]. cbn [map snd concat] in NDc.
    apply NoDup_app_iff_ in NDc. destruct NDc as (N1 & N2 & _). destruct I as [[= <- <-]|I]; auto.
  - intros [[x i] o] [[x' i'] o'] Ij Ij' E. cbn [fst snd] in *. subst o'.
    destruct (J _ Ij) as [E1 E2]. destruct (J _ Ij') as [E1' E2']. cbn [fst snd] in *.
    assert (Ix : In x keys) by (rewrite <- K; apply (in_map (fun j => fst (fst j))) in Ij; exact Ij).
    assert (Ix' : In x' keys) by (rewrite <- K; apply (in_map (fun j => fst (fst j))) in Ij'; exact Ij').
    destruct (G f keys x I Ix) as (j & Ej1 & Ep). destruct (G f keys x' I Ix') as (j' & Ej2 & Ep').
    assert (j = i) by congruence. assert (j' = i') by congruence. subst j j'.
    apply (proj2 (Pl x (it_uri i) x' (it_uri i') (Hl _ _ (Ic _ Ix) E1) (Hl _ _ (Ic _ Ix') E1') ltac:(congruence))).
    congruence.
Qed.

Theorem placed_answers (its : items) fm l its2 : placed l -> groups_ok its fm -> NoDup (map fst fm) ->
  (forall f keys, In (f, keys) fm -> keys <> []) ->
  (forall x i, In x (concat (map snd fm)) -> sfind x its = Some i -> In (x, it_uri i) l) ->
  forwards k sm connect sorter fm its = Ok ([], its2) ->
  leaves (answers_at sm sites) fm its its2.
Proof.
  intros P G ND Hk Hl H.
  assert (NE : fm <> []) by (intros ->; discriminate).
  pose proof (placed_forwardable its fm l P G ND NE Hk Hl) as W.
  destruct (forwarded_done k sm sites connect sorter link_ok sorter_ok (fun ep => proj1 (sites_ok ep)) connected
              its fm its2 W (proj1 G) H) as (K & D & O).
  split; [exact K|]. intros x i Ei. split; [|intro N; rewrite (O x N); exact Ei].
  intros Ix. pose proof Ix as Ic. apply in_concat in Ix. destruct Ix as (keys & Ik & Ix). apply in_map_iff in Ik.
  destruct Ik as ([f keys'] & <- & I). cbn [snd] in Ix. rename keys' into keys.
  destruct (D f keys I) as (ep & out & Ow & E & Pk & R).
  assert (Io : In x (map fst out)) by (eapply Permutation_in; [exact Pk|exact Ix]).
  apply in_map_iff in Io. destruct Io as ([x' r] & Ex & Io). cbn [fst] in Ex. subst x'.
  destruct (R x r Io) as (i' & Ei' & E2). assert (i' = i) by congruence. subst i'.
  exists r. split; [exact E2|].
  destruct Ow as (x0 & rest & E0 & i0 & Ei0 & Ep). cbn [snd] in E0. subst keys.
  destruct (proj2 G f (x0 :: rest) x I Ix) as (j & Ej & Ejp). assert (j = i) by congruence. subst j.
  destruct (proj2 G f (x0 :: rest) x0 I (or_introl eq_refl)) as (j & Ej0 & Ejp0). assert (j = i0) by congruence. subst j.
  assert (Ic0 : In x0 (concat (map snd fm))).
  { apply in_concat. exists (x0 :: rest). split; [|now left]. apply in_map_iff. exists (f, x0 :: rest). auto. }
  exists ep. split.
  - rewrite (proj1 (proj2 P x (it_uri i) x0 (it_uri i0) (Hl _ _ Ic Ei) (Hl _ _ Ic0 Ei0) ltac:(congruence))). exact Ep.
  - cbn zeta. unfold site_extracts, extract_file in E.
    destruct (file_task_inv (w_arith (s_world (sites ep))) (w_aec (s_world (sites ep))) (w_cache_get (s_world (sites ep)))
      (w_files (s_world (sites ep))) (w_sorter (s_world (sites ep))) (w_build_info (s_world (sites ep)))
      (w_pieces (s_world (sites ep))) (w_fresh (s_world (sites ep))) (w_list (s_world (sites ep)))
      (w_true_info (s_world (sites ep))) (proj1 (sites_ok ep)) (proj2 (sites_ok ep)) _ _ _ _ _ E) as [_ A].
    destruct (A x r Io) as (i' & Ei'' & A'). assert (i' = i) by congruence. subst i'.
    unfold own_answer. rewrite Ejp. exact A'.
Qed.
End Placed.

Section Requests.
Context {F M : Type}.
Variable k : link F M.
Variable sm : list (endpoint * endpoint).
Variable sites : endpoint -> site F M.
Variable connect : endpoint -> list (tok F) -> outcome (list (tok F)).
Variable w : world F.
Hypothesis link_ok : sound_link k.
Hypothesis sorter_ok : sorts (w_sorter w).
Hypothesis sites_ok : forall ep, sound_world (s_world (sites ep)).
Hypothesis connected : forall ep, connect ep = site_server k (sites ep).

Theorem requests_forwarded cfg reqs res : c_forward cfg = true -> unique_listings w cfg ->
  (forall u l, w_list w u = Ok l -> placed_listing (c_ignore_ym cfg) l) ->
  extract_requests (forwarding k sm connect w) cfg reqs = Ok res ->
  exists u listing, w_list w u = Ok listing /\
    Forall2 (fun r x => match entry_of (c_ignore_ym cfg) listing (r_string r) with
                        | Some e => answers_at sm sites (l_uri e) r x
                        | None => c_allow_missing cfg = true /\ x = ([], [])
                        end)
            (canon_requests (c_ignore_ym cfg) false reqs) res.
Proof.
  intros Hf D P H. unfold extract_requests, forwarding in H. cbn [w_arith w_aec w_cache_get w_files w_sorter w_build_info
    w_pieces w_fresh w_forward w_list] in H.
  refine (local_extract_through _ _ _ _ _ _ _ _ _ _ (answers_at sm sites) cfg reqs res _ D H).
  intros u listing its fm its1 its2 El ND Em Es. rewrite Hf in Es. unfold schedule in Es.
  specialize (D u listing El).
  destruct (file_map_partitions _ _ _ _ _ _ D Em) as [NDl (NDf & Pm & G)].
  destruct (file_map_inv _ _ _ _ _ _ Em) as (c & L & _).
  refine (placed_answers k sm sites connect (w_sorter w) link_ok sorter_ok sites_ok connected its1 fm _ its2 (P u listing El)
    (file_map_groups_ok _ _ _ _ _ _ D ND Em) NDf _ _ Es).
  - intros f keys I. exact (proj1 (G f keys I)).
  - intros x i Ix Ei. rewrite (li_find _ _ _ _ _ _ L x) in Ei. rewrite (last_entry_of _ _ _ D) in Ei.
    apply (Permutation_in _ (Permutation_sym Pm)) in Ix. apply in_map_iff in Ix. destruct Ix as (e & Ex & Ie).
    apply filter_In in Ie. destruct Ie as [Ie _].
    destruct (sfind x its) as [i0|]; [|discriminate].
    destruct (entry_of (c_ignore_ym cfg) listing x) as [e'|] eqn:Ee.
    + injection Ei as <-. destruct (entry_of_some _ _ _ _ Ee) as [Ie' Ex'].
      apply in_map_iff. exists e'. rewrite Ex'. auto.
    + pose proof (find_none _ _ Ee e Ie) as X. cbn in X. rewrite Ex, String.eqb_refl in X. discriminate.
Qed.

Lemma asks_forward r : asks_to_forward r -> negb (String.eqb (p_host r) "" && (p_port r =? 0)%Z) = true.
Proof.
  intros H. destruct (String.eqb_spec (p_host r) ""); [|reflexivity].
  destruct (Z.eqb_spec (p_port r) 0); [|reflexivity]. destruct H; contradiction.
Qed.

Theorem paths_forwarded cfg r0 rest res : asks_to_forward r0 -> placed_paths (r0 :: rest) ->
  extract_path_requests (forwarding k sm connect w) cfg (r0 :: rest) = Ok res ->
  Forall2 (fun r x => answers_at sm sites (p_uri r) (p_request r) x) (r0 :: rest) res.
Proof.
  intros Hf P H. unfold extract_path_requests, forwarding in H. cbn [w_arith w_aec w_cache_get w_files w_sorter w_build_info
    w_pieces w_fresh w_forward w_list] in H.
  refine (proj2 (local_paths_through _ _ _ _ _ _ _ _ _ (answers_at sm sites) cfg r0 rest res _ H)).
  cbn zeta. intros its2 ND Hi Es. rewrite (asks_forward r0 Hf) in Es. unfold schedule in Es.
  set (its := build_uris_map (r0 :: rest)) in *.
  pose proof (paths_partition its) as (NDg & Pg & Gg). rewrite file_map_from_paths_map in *.
  refine (placed_answers k sm sites connect (w_sorter w) link_ok sorter_ok sites_ok connected its _ _ its2 P _ _ _ _ Es).
  - rewrite <- file_map_from_paths_map. exact (proj1 (paths_groups_ok its ND)).
  - rewrite map_map. exact NDg.
  - intros f keys I. apply in_map_iff in I. destruct I as ([g xs] & [= <- <-] & I). cbn [snd].
    destruct (Gg _ _ I) as [Nx _]. destruct xs; [contradiction|discriminate].
  - intros x i _ Ei. destruct (Hi x i Ei) as (r & Ir & -> & ->). apply in_map_iff. exists r. split; [reflexivity|exact Ir].
Qed.
End Requests.

(* ---- a location without a server ---- *)
Section Unserved.
Context {F M : Type}.
Variable k : link F M.

Theorem unserved_extract sm (its : list (string * @item F)) fm :
  (forall f keys, In (f, keys) fm -> exists x rest i, keys = x :: rest /\ sfind x its = Some i) ->
  (exists f, In f fm /\ forall ep, ~ owner sm its f ep) ->
  forall connect sorter, forwards k sm connect sorter fm its = Throw ESeriousBug.
Proof.
  intros W N connect sorter. unfold forwards, forward_extract. now rewrite (files_unserved sm its fm W N).
Qed.
Theorem unserved_scan sm us : (forall u, In u us -> exists o, u_offset u = Ok o) ->
  (exists u, In u us /\ ep_find (location u) sm = None) ->
  forall connect, forwards_scans k sm connect us = Throw ESeriousBug.
Proof.
  intros W N connect. unfold forwards_scans, forward_scan.
  destruct us as [|u us]; [destruct N as (u & [] & _)|]. cbn [lenN length N.of_nat N.eqb negb assert_ obind].
  unfold server_scan_map. now rewrite (uris_unserved_ sm (u :: us) [] W N).
Qed.
End Unserved.

(* ---- the demonstration sites ---- *)
Lemma demo_insert_ok j l : Permutation (j :: l) (demo_insert j l) /\
  (StronglySorted (fun a b => (snd a <= snd b)%Z) l -> StronglySorted (fun a b => (snd a <= snd b)%Z) (demo_insert j l)).
Proof.
  induction l as [|j' l [IH1 IH2]]; cbn; [split; [reflexivity|repeat constructor]|].
  destruct (Z.leb_spec (snd j) (snd j')) as [L|L].
  - split; [reflexivity|]. intros S. constructor; [exact S|]. inversion S as [|? ? S' A]; subst.
    constructor; [exact L|]. eapply Forall_impl; [|exact A]. cbn. intros; lia.
  - split.
    + rewrite perm_swap. now constructor.
    + intros S. inversion S as [|? ? S' A]; subst. constructor; [apply IH2, S'|].
      rewrite <- IH1. constructor; [lia|exact A].
Qed.
Lemma demo_sorts : sorts (fun l => fold_right demo_insert [] l).
Proof.
  intros l. induction l as [|j l [P S]]; cbn [fold_right]; [split; [reflexivity|constructor]|].
  destruct (demo_insert_ok j (fold_right demo_insert [] l)) as [P' S']. split; [|apply S', S].
  rewrite <- P'. now constructor.
Qed.
Lemma demo_world_sound add : sound_world (demo_world add).
Proof.
  split; [exact demo_sorts|]. intros p offs infos H. cbn in H. injection H as <-.
  induction offs as [|o offs IH]; [constructor|]. constructor; [reflexivity|exact IH].
Qed.
Lemma demo_sites_sound ep : sound_world (s_world (demo_sites ep)).
Proof. unfold demo_sites. destruct (ep_eqb _ _); exact (demo_world_sound _). Qed.

(* the result of a request at h2, had its own server been asked *)
Lemma demo_at_h2 path off res : (off < two63)%N ->
  answers_at demo_servermap demo_sites (p_uri (demo_path "h2" 7000 path off)) (p_request (demo_path "h2" 7000 path off)) res ->
  res = ([[2000 + Z.of_N off]]%Z, [[1]]%N).
Proof.
  intros L (ep & E & bytes & o & inf & _ & Eo & Ei & _ & Ex). cbn in E. injection E as <-.
  unfold p_uri in Eo. cbn [u_offset demo_path p_offset] in Eo. rewrite (proj2 (N.ltb_lt _ _) L) in Eo. injection Eo as <-.
  cbn in Ei. subst inf. cbn in Ex. injection Ex as <-. reflexivity.
Qed.

Theorem same_path_misrouted :
  exists r1 r2 res,
    ep_find (location (p_uri r2)) demo_servermap <> None /\
    extract_path_requests demo_client demo_cfg [r1; r2] = Ok res /\
    ~ Forall2 (fun r x => answers_at demo_servermap demo_sites (p_uri r) (p_request r) x) [r1; r2] res.
Proof.
  exists (demo_path "h1" 7000 "/a" 100), (demo_path "h2" 7000 "/a" 200). eexists.
  split; [discriminate|]. split; [vm_compute; reflexivity|].
  intros H. inversion H as [|? ? ? ? _ H2]; subst. inversion H2 as [|? ? ? ? H3 _]; subst.
  apply demo_at_h2 in H3; [discriminate|reflexivity].
Qed.

Theorem first_request_decides :
  exists r1 r2 res,
    asks_to_forward r2 /\ ep_find (location (p_uri r2)) demo_servermap <> None /\ p_path r1 <> p_path r2 /\
    extract_path_requests demo_client demo_cfg [r1; r2] = Ok res /\
    (forall x, nth_error res 1 = Some x -> ~ answers_at demo_servermap demo_sites (p_uri r2) (p_request r2) x).
Proof.
  exists (demo_path "" 0 "/b" 100), (demo_path "h2" 7000 "/a" 200). eexists.
  split; [left; discriminate|]. split; [discriminate|]. split; [discriminate|].
  split; [vm_compute; reflexivity|].
  intros x [= <-] H. apply demo_at_h2 in H; [discriminate|reflexivity].
Qed.

(* equal paths and offsets on two hosts are taken for one request, and the call fails *)
Theorem same_offset_refused :
  extract_path_requests demo_client demo_cfg [demo_path "h1" 7000 "/a" 100; demo_path "h2" 7000 "/a" 100]
  = Throw EAssert.
Proof. vm_compute. reflexivity. Qed.
