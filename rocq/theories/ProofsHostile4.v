From Coq Require Import Lia Permutation Sorted.
From Verif Require Import Base BaseLemmas ModelRange ModelInfo ModelSimple ModelStream SpecStream ModelJumper ModelStrings ModelCache ModelBuild ModelEngine
  ModelProtocol ModelRemote ModelForward SpecEngine SpecSystem SpecRemote SpecForward SpecSafety SpecDeploy SpecHostile
  ProofsStrings ProofsProtocol ProofsRemote ProofsEngine2 ProofsForward ProofsForward3 ProofsSafety2 ProofsDeploy ProofsHostile ProofsHostile2 ProofsHostile3.
Open Scope nat_scope.

Section Front.
Context {F M : Type}.
Variable k : link F M.
Variable sm : list (endpoint * endpoint).
Variable connect : endpoint -> list (tok F) -> outcome (list (tok F)).
Variable sorter : list (string * @item F * Z) -> list (string * @item F * Z).
Notation items := (list (string * @item F)).

Lemma file_map_defined (its : items) : forall fm acc,
  (forall p ks, In (p, ks) fm -> ks <> [] /\ forall x, In x ks -> exists i, sfind x its = Some i /\ u_offset (it_uri i) <> UB) ->
  server_file_map_ sm its fm acc <> UB.
Proof.
  induction fm as [|[p ks] fm IH]; intros acc G; cbn [server_file_map_]; [discriminate|].
  destruct (G p ks (or_introl eq_refl)) as [Hne Hk]. destruct ks as [|x ks]; [congruence|].
  destruct (Hk x (or_introl eq_refl)) as (i & Hi & _). unfold get_item. rewrite Hi. cbn [obind].
  unfold server_for. destruct (ep_find _ sm); cbn [obind]; [|discriminate]. apply IH. intros p' ks' I. exact (G p' ks' (or_intror I)).
Qed.

Lemma files_defined (its : items) sub : well_grouped sub its -> mapM (sorted_file sorter its) (in_key_order sub) <> UB.
Proof.
  intros G H. apply mapM_dies in H. destruct H as ([p ks] & I & H). apply ordered_in in I. unfold sorted_file in H. cbn [fst snd] in H.
  destruct (jobs its ks) eqn:E; cbn [obind] in H; try discriminate. apply jobs_defined in E; [exact E|]. exact (proj2 (G p ks I)).
Qed.

(* the two ways in which a forwarded request can be undefined at the forwarding side *)
Lemma forwards_die fm its : well_grouped fm its -> forwards k sm connect sorter fm its = UB ->
  exists ep sub, forwards_to k connect sorter ep sub its = UB /\ (forall f, In f sub -> In f fm /\ owner sm its f ep) /\ sub <> [] /\
    (NoDup (map fst fm) -> NoDup (map fst sub)).
Proof.
  intros G H. unfold forwards, forward_extract in H.
  destruct (server_file_map sm its fm) as [subs|e|] eqn:E; cbn [obind] in H; [|discriminate|].
  2:{ exfalso. eapply file_map_defined; [|exact E]. intros p ks I. apply ordered_in in I. exact (G p ks I). }
  destruct (negb _); cbn [assert_ obind] in H; [|discriminate]. apply run_tasks_dies in H. apply in_map_iff in H.
  destruct H as ([ep sub] & H & I). cbn [fst snd] in H. exists ep, sub. split; [exact H|].
  destruct (files_partitioned sm its fm subs E) as (_ & Pm & O). destruct (O ep sub I) as [Hne Ho]. split; [|split; [exact Hne|]].
  - intros f If. split; [|exact (Ho f If)]. eapply Permutation_in; [symmetry; exact Pm|]. apply in_concat. exists sub. split; [|exact If].
    now apply (in_map snd) in I.
  - intros ND. assert (NoDup (map fst (concat (map snd subs)))) as N2 by (eapply Permutation_NoDup; [apply Permutation_map; exact Pm|exact ND]).
    clear -N2 I. induction subs as [|[e t] subs IH]; [destruct I|]. cbn [map snd concat] in N2. rewrite map_app in N2. apply NoDup_app_iff_ in N2.
    destruct N2 as (N1 & N3 & _). destruct I as [X|I]; [injection X as <- <-; exact N1|exact (IH I N3)].
Qed.

Theorem forwards_defined fm its : well_grouped fm its ->
  (forall ep t, connect ep t <> UB) -> (forall ep t reply, connect ep t = Ok reply -> ~ lying_reply reply) ->
  forwards k sm connect sorter fm its <> UB.
Proof.
  intros G Hc Hr H. destruct (forwards_die fm its G H) as (ep & sub & Hs & Hin & _). unfold forwards_to, forward_task in Hs.
  assert (well_grouped sub its) as G'. { intros p ks I. exact (G p ks (proj1 (Hin _ I))). }
  destruct (mapM _ (in_key_order sub)) as [files|e|] eqn:E; cbn [obind] in Hs; [|discriminate|exact (files_defined its sub G' E)].
  destruct (remote_forward_extract _ _ _ _ _) as [[? ?]|e|] eqn:Er; cbn [obind] in Hs; try discriminate.
  destruct (forward_client_dies k (connect ep) _ Er) as [X|(t & X & Y)]; [exact (Hc _ _ X)|exact (Hr _ _ _ X Y)].
Qed.
End Front.

(* ---- a server's reply to a forwarded request has the shape of the request ---- *)
Section Shape.
Context {F M : Type}.
Variable k : link F M.
Variable s : site F M.
Hypothesis sorter_ok : forall l, Permutation l (w_sorter (s_world s) l).

Lemma number_files_shape n (m : wire_files) :
  map (fun f => (fst f, lenN (map fst (snd f)))) (number_files (F := F) n m) = shape m.
Proof.
  revert n. induction m as [|[f l] m IH]; intros n; [reflexivity|]. cbn [number_files map shape fst snd]. rewrite IH.
  f_equal. f_equal. rewrite number_items_names. unfold lenN, zs. now rewrite !map_length, seq_length.
Qed.

Lemma forward_shape (m : wire_files) res errs : NoDup (map fst m) -> StronglySorted (fun x y => String.leb x y = true) (map fst m) ->
  e_forward_extract (site_engine k s) m = Ok (res, errs) -> shape res = shape m.
Proof.
  intros ND St. cbn [site_engine the_engine e_forward_extract]. unfold engine_forward_extract.
  set (named := number_files 0 m). set (its := concat (map snd named)). set (fm := map (fun f => (fst f, map fst (snd f))) named).
  match goal with |- context [schedule ?a ?b ?c ?d ?e ?f ?g ?h ?i ?j ?l ?fm ?its] => destruct (schedule a b c d e f g h i j l fm its) as [[es its2]|e0|] end;
    cbn [obind]; [|discriminate|discriminate].
  assert (Hsh : map (fun f => (fst f, lenN (snd f))) fm = shape m).
  { unfold fm. rewrite map_map. cbn [fst snd]. apply number_files_shape. }
  assert (Hn : map fst fm = map fst m).
  { rewrite <- (shape_names m), <- Hsh, map_map. reflexivity. }
  assert (Hord : in_key_order fm = fm).
  { apply ssort_fix.
    - apply (sorted_map fst (fun x y => String.leb x y = true)). rewrite Hn. exact St.
    - intros x y Ix Iy E. rewrite <- Hn in ND. eapply map_inj_in; eauto. }
  rewrite Hord. match goal with |- context [mapM ?f fm] => destruct (mapM f fm) as [r| |] eqn:Em end; cbn [obind]; try discriminate.
  intros [= <- _]. rewrite <- Hsh. apply mapM_inv in Em. clear Hsh Hn Hord. induction Em as [|[p ks] [p' rs] fm' r' H1 H2 IH]; [reflexivity|].
  cbn [map shape fst snd]. unfold shape in IH. rewrite IH. f_equal. cbn [fst snd] in H1.
  match type of H1 with context [mapM ?f ?l] => destruct (mapM f l) as [rs'| |] eqn:E2 end; cbn [obind] in H1; try discriminate. injection H1 as <- <-.
  f_equal. apply mapM_inv in E2. apply Forall2_length in E2. unfold lenN. rewrite <- E2. f_equal.
  unfold order_after. destruct (jobs its ks) as [js| |] eqn:Ej; [|reflexivity|reflexivity]. rewrite map_length, <- (Permutation_length (sorter_ok js)).
  rewrite <- (jobs_keys _ _ _ Ej). now rewrite map_length.
Qed.
End Shape.

(* ---- a forwarder and the servers it forwards to ---- *)
Section Deployment.
Context {F M : Type}.
Variable k : link F M.
Hypothesis link_ok : sound_link k.
Variable sm : list (endpoint * endpoint).
Variable sites : endpoint -> site F M.
Variable P : endpoint -> string -> Prop.
Variable sorter : list (string * @item F * Z) -> list (string * @item F * Z).
Hypothesis sorter_ok : forall l, Permutation l (sorter l).
Hypothesis defined : forall ep, defined_world (s_world (sites ep)) (P ep).
Notation items := (list (string * @item F)).
Notation connect := (fun ep => site_server k (sites ep)).

Theorem forwarded_dies fm (its : items) : NoDup (map fst fm) ->
  (forall p ks, In (p, ks) fm -> ks <> [] /\ forall x, In x ks -> exists i, sfind x its = Some i /\ u_offset (it_uri i) <> UB /\ u_length (it_uri i) <> UB) ->
  (forall p ks ep, In (p, ks) fm -> owner sm its (p, ks) ep -> P ep p) ->
  forwards k sm connect sorter fm its = UB ->
  exists p ks ep x i, In (p, ks) fm /\ owner sm its (p, ks) ep /\ In x ks /\ sfind x its = Some i /\
    deadly (s_world (sites ep)) p (as_file (it_uri i)) (r_ranges (it_request i)).
Proof.
  intros ND G HP H.
  assert (well_grouped fm its) as G0. { intros p ks I. destruct (G p ks I) as [A B]. split; [exact A|]. intros x Ix. destruct (B x Ix) as (i & Hi & Ho & _). eauto. }
  destruct (forwards_die k sm connect sorter fm its G0 H) as (ep & sub & Hs & Hin & Hne & Hnd). specialize (Hnd ND). clear H.
  unfold forwards_to, forward_task in Hs.
  assert (well_grouped sub its) as G'. { intros p ks I. exact (G0 p ks (proj1 (Hin _ I))). }
  destruct (mapM _ (in_key_order sub)) as [files|e|] eqn:E; cbn [obind] in Hs; [|discriminate|destruct (files_defined sorter its sub G' E)].
  destruct (remote_forward_extract _ _ _ _ _) as [[? ?]|e|] eqn:Er; cbn [obind] in Hs; try discriminate. clear Hs.
  apply mapM_inv in E.
  assert (Hfiles : forall f js, In (f, js) files -> exists ks js0, In (f, ks) sub /\ jobs its ks = Ok js0 /\ js = sorter js0).
  { intros f js I. assert (forall g, In g (in_key_order sub) -> In g sub) as Ho by (intros g; apply ordered_in). clear -E I Ho.
    induction E as [|[p ks] [f' js'] gs fs H1 H2 IH]; [destruct I|]. destruct I as [X|I].
    - injection X as -> ->. unfold sorted_file in H1. cbn [fst snd] in H1. destruct (jobs its ks) as [js0| |] eqn:Ej; cbn [obind] in H1; try discriminate.
      injection H1 as -> <-. exists ks, js0. split; [apply Ho; now left|]. auto.
    - apply IH; [exact I|]. intros g Ig. apply Ho. now right. }
  assert (Hnames : map fst files = map fst (in_key_order sub)).
  { clear -E. induction E as [|[p ks] [f' js'] gs fs H1 H2 IH]; [reflexivity|]. cbn [map fst]. rewrite IH. f_equal.
    unfold sorted_file in H1. cbn [fst snd] in H1. destruct (jobs its ks); cbn [obind] in H1; try discriminate. now injection H1 as -> _. }
  set (m := map to_wire files) in *.
  assert (Hm : map fst m = map fst (in_key_order sub)). { unfold m. rewrite map_map. cbn [to_wire fst]. exact Hnames. }
  assert (Nm : NoDup (map fst m)). { rewrite Hm. now apply ordered_keys. }
  assert (Hrn : map fst (map received_file m) = map fst m). { rewrite map_map. reflexivity. }
  assert (Hlen : forall f js ks js0, jobs its ks = Ok js0 -> In (f, ks) sub -> js = sorter js0 -> js <> []).
  { intros f js ks js0 Ej If ->. destruct (Hin _ If) as [If' _]. destruct (G _ _ If') as [Hk _]. intros X. apply Hk. rewrite <- (jobs_keys _ _ _ Ej).
    pose proof (sorter_ok js0) as Y. rewrite X in Y. apply Permutation_sym, Permutation_nil in Y. now rewrite Y. }
  assert (Hc : (0 < item_count m)%N).
  { destruct files as [|[f js] files'].
    - exfalso. cbn in Hnames. apply Hne. symmetry in Hnames. apply map_eq_nil in Hnames.
      pose proof (in_key_order_perm sub) as Y. rewrite Hnames in Y. apply Permutation_sym, Permutation_nil in Y. exact Y.
    - destruct (Hfiles f js (or_introl eq_refl)) as (ks & js0 & If & Ej & E2). pose proof (Hlen f js ks js0 Ej If E2) as Hj.
      unfold m. cbn [map item_count fold_right to_wire snd]. unfold lenN. rewrite map_length. destruct js; [congruence|]. cbn [length]. lia. }
  unfold site_server, server in Er. rewrite (remote_forward_extract_seen (k_title k) (k_r_mars k) (k_w_uri k) (k_r_uri k) (k_what k) (k_context k)) in Er.
  2:{ apply link_ok. } 2:{ exact Nm. } 2:{ exact Hc. }
  2:{ intros res errs X. rewrite (forward_shape k (sites ep) (dw_sorter _ _ (defined ep)) (map received_file m) res errs); [apply shape_received| | |exact X].
      - now rewrite Hrn.
      - rewrite Hrn, Hm. apply (sorted_map fst (fun x y => String.leb x y = true)). apply ssort_sorted. }
  assert (e_forward_extract (site_engine k (sites ep)) (map received_file m) = UB) as Hub.
  { destruct (e_forward_extract _ (map received_file m)) as [[res [|e1 errs]]|e|]; [discriminate|discriminate|discriminate|reflexivity]. }
  clear Er.
  assert (Hitem : forall f l q u, In (f, l) (map received_file m) -> In (q, u) l ->
    exists ks x i, In (f, ks) sub /\ In x ks /\ sfind x its = Some i /\ q = mk_request "" (r_ranges (it_request i)) (r_hash (it_request i)) /\ u = as_file (it_uri i)).
  { intros f l q u I Iu. apply in_map_iff in I. destruct I as ([f' l'] & X & I). unfold received_file in X. cbn [fst snd] in X. injection X as -> <-.
    apply in_map_iff in I. destruct I as ([f'' js] & X & I). unfold to_wire in X. cbn [fst snd] in X. injection X as -> <-.
    destruct (Hfiles _ _ I) as (ks & js0 & If & Ej & ->).
    rewrite map_map in Iu. apply in_map_iff in Iu. destruct Iu as (j & X & Ij). unfold received in X. cbn [fst snd] in X. injection X as <- <-.
    pose proof (jobs_all _ _ _ Ej) as Hall. rewrite Forall_forall in Hall. destruct (Hall j) as (x & Ix & Hx & _).
    { eapply Permutation_in; [symmetry; apply sorter_ok|exact Ij]. }
    exists ks, x, (snd (fst j)). auto. }
  destruct (forward_dies k (sites ep) (P ep) (defined ep) (map received_file m)) as (f & l & q & u & I & Iu & Hd); [|exact Hub|].
  - intros f l I. split; [|split].
    + apply in_map_iff in I. destruct I as ([f' l'] & X & I). unfold received_file in X. cbn [fst snd] in X. injection X as -> <-.
      apply in_map_iff in I. destruct I as ([f'' js] & X & I). unfold to_wire in X. cbn [fst snd] in X. injection X as -> <-.
      destruct (Hfiles _ _ I) as (ks & js0 & If & Ej & ->). destruct (Hin _ If) as [If' Ow]. exact (HP _ _ _ If' Ow).
    + apply in_map_iff in I. destruct I as ([f' l'] & X & I). unfold received_file in X. cbn [fst snd] in X. injection X as -> <-.
      apply in_map_iff in I. destruct I as ([f'' js] & X & I). unfold to_wire in X. cbn [fst snd] in X. injection X as -> <-.
      destruct (Hfiles _ _ I) as (ks & js0 & If & Ej & E2). pose proof (Hlen f js ks js0 Ej If E2) as Hj. intros X. apply map_eq_nil, map_eq_nil in X. contradiction.
    + intros q u Iu. destruct (Hitem f l q u I Iu) as (ks & x & i & If & Ix & Hx & _ & ->). destruct (Hin _ If) as [If' _]. destruct (G _ _ If') as [_ Hk].
      destruct (Hk x Ix) as (i' & Hi' & Ho & Hl). rewrite Hx in Hi'. injection Hi' as <-. auto.
  - destruct (Hitem f l q u I Iu) as (ks & x & i & If & Ix & Hx & -> & ->). destruct (Hin _ If) as [If' Ow].
    exists f, ks, ep, x, i. auto 10.
Qed.

(* requests forwarded to the servers of the locations of their fields *)
Variable w : world F.
Variable cfg : config.
Hypothesis forward : c_forward cfg = true.
Hypothesis w_sorter_is : w_sorter w = sorter.
Hypothesis listings : forall u, no_death (Forall (fun e => u_offset (l_uri e) <> UB /\ u_length (l_uri e) <> UB)) (w_list w u).
Hypothesis unique : unique_listings w cfg.
Hypothesis placed : forall u listing, w_list w u = Ok listing -> placed_listing (c_ignore_ym cfg) listing.
Hypothesis in_use : forall u listing e ep, w_list w u = Ok listing -> In e listing -> ep_find (location (l_uri e)) sm = Some ep ->
  P ep (u_path (l_uri e)).

Theorem forwarded_requests_die reqs : extract_requests (forwarding k sm connect w) cfg reqs = UB ->
  exists u listing r e ep, w_list w u = Ok listing /\ located cfg reqs listing r e /\ ep_find (location (l_uri e)) sm = Some ep /\
    deadly (s_world (sites ep)) (u_path (l_uri e)) (as_file (l_uri e)) (r_ranges r).
Proof.
  intros H.
  destruct (requests_schedule (forwarding k sm connect w) (fun _ => True) cfg reqs) as (u & listing & fm & its & El & ND & HL & Hreq & Hgroup & Hs); [|exact H|].
  { intros u. pose proof (listings u) as X. cbn [forwarding w_list]. destruct (w_list w u); cbn [no_death] in *; auto.
    eapply Forall_impl; [|exact X]. cbv beta. tauto. }
  cbn [forwarding w_list] in El. rewrite forward in Hs. unfold schedule in Hs. cbn [forwarding w_forward] in Hs. rewrite w_sorter_is in Hs.
  pose proof (unique u listing El) as U. unfold duplicate_free in U. pose proof (placed u listing El) as [_ Pl].
  assert (Hname : forall e e', In e listing -> In e' listing -> listed_as (c_ignore_ym cfg) e = listed_as (c_ignore_ym cfg) e' -> e = e').
  { intros e e' I I' E. eapply map_inj_in; eauto. }
  assert (Hwhere : forall p ks x, In (p, ks) fm -> In x ks -> exists i e, sfind x its = Some i /\ In e listing /\ listed_as (c_ignore_ym cfg) e = x /\ it_uri i = l_uri e /\ u_path (l_uri e) = p).
  { intros p ks x I Ix. destruct (Hgroup p ks I) as (_ & _ & Hk). destruct (Hk x Ix) as ((e' & Ie' & Ke' & Pe') & i & e & Hi & Ie & Ke & Hu).
    assert (e = e') by (apply Hname; congruence). subst e'. exists i, e. auto. }
  assert (Hown : forall p ks ep x i e, In (p, ks) fm -> owner sm its (p, ks) ep -> In x ks -> sfind x its = Some i -> In e listing -> it_uri i = l_uri e ->
     u_path (l_uri e) = p -> ep_find (location (l_uri e)) sm = Some ep).
  { intros p ks ep x i e I (x0 & rest & Ek & (i0 & Hi0 & Hep)) Ix Hi Ie Hu Hp. cbn [snd] in Ek.
    destruct (Hwhere p ks x0 I) as (i1 & e1 & Hi1 & Ie1 & _ & Hu1 & Hp1); [rewrite Ek; now left|]. rewrite Hi0 in Hi1. injection Hi1 as <-.
    assert (location (l_uri e) = location (l_uri e1)) as ->; [|rewrite <- Hu1; exact Hep].
    eapply (Pl (listed_as (c_ignore_ym cfg) e) (l_uri e) (listed_as (c_ignore_ym cfg) e1) (l_uri e1)); [| |congruence].
    - apply in_map_iff. exists e. auto.
    - apply in_map_iff. exists e1. auto. }
  destruct (forwarded_dies fm its ND) as (p & ks & ep & x & i & I & Ow & Ix & Hi & Hd); [| |exact Hs|].
  - intros p ks I. destruct (Hgroup p ks I) as (Hne & _ & _). split; [exact Hne|]. intros x Ix.
    destruct (Hwhere p ks x I Ix) as (i & e & Hi & Ie & _ & Hu & _). exists i. split; [exact Hi|]. rewrite Hu.
    rewrite Forall_forall in HL. destruct (HL e Ie) as (_ & X & Y). auto.
  - intros p ks ep I Ow. pose proof Ow as (x0 & rest & Ek & _). cbn [snd] in Ek.
    destruct (Hwhere p ks x0 I) as (i & e & Hi & Ie & _ & Hu & Hp); [rewrite Ek; now left|]. rewrite <- Hp.
    eapply in_use; [exact El|exact Ie|]. eapply (Hown p ks ep x0 i e); eauto. rewrite Ek; now left.
  - destruct (Hwhere p ks x I Ix) as (i' & e & Hi' & Ie & Ke & Hu & Hp). rewrite Hi in Hi'. injection Hi' as <-.
    destruct (Hreq x i Hi) as (r & Ir & Kr & Rr). exists u, listing, r, e, ep. split; [exact El|]. split; [|split].
    + split; [exact Ir|]. unfold entry_of. destruct (find _ listing) as [e2|] eqn:E2.
      * apply find_some in E2. destruct E2 as [I2 K2]. apply String.eqb_eq in K2. f_equal. apply Hname; [assumption|assumption|congruence].
      * pose proof (find_none _ _ E2 e Ie) as X. cbn beta in X. rewrite Ke, Kr, String.eqb_refl in X. discriminate.
    + exact (Hown p ks ep x i e I Ow Ix Hi Ie Hu Hp).
    + rewrite Hp, <- Hu, <- Rr. exact Hd.
Qed.

(* the same for the clients of a server that forwards *)
Corollary chained_requests_die (front : site F M) reqs : s_world front = forwarding k sm connect w -> s_cfg front = cfg ->
  client_extract k (site_server k front) reqs = UB ->
  exists u listing r e ep, w_list w u = Ok listing /\ located cfg reqs listing r e /\ ep_find (location (l_uri e)) sm = Some ep /\
    deadly (s_world (sites ep)) (u_path (l_uri e)) (as_file (l_uri e)) (r_ranges r).
Proof.
  intros Ew Ec H. apply forwarded_requests_die.
  assert (c_forward (s_cfg front) = false \/ keeps_items (w_forward (s_world front))) as K by (right; rewrite Ew; apply forwards_keep).
  pose proof (same_extraction k front K reqs) as S. rewrite H, Ew, Ec in S.
  destruct (extract_requests _ cfg reqs) as [res|e|]; [discriminate|destruct S; discriminate|reflexivity].
Qed.
End Deployment.
