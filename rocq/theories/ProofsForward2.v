(* The client's side of forwarding, and the distribution of files over servers. *)
From Coq Require Import Lia Permutation Sorted.
From Verif Require Import Base BaseLemmas ModelRange ModelInfo ModelSimple ModelStream SpecStream ModelJumper
  ModelStrings ModelCache ModelEngine SpecEngine ModelProtocol ModelRemote SpecRemote ModelForward SpecForward
  ProofsStrings ProofsEngine2 ProofsEngine3 ProofsProtocol ProofsRemote ProofsForward.
Local Open Scope nat_scope.

Lemma is_ub_none {B} (ts : list (outcome B)) : existsb is_ub ts = false <-> forall t, In t ts -> t <> UB.
Proof.
  induction ts as [|t ts IH]; cbn [existsb]; [split; [contradiction|reflexivity]|].
  rewrite orb_false_iff, IH. split.
  - intros [H1 H2] x [<-|I]; [intros ->; discriminate|auto].
  - intros H. split; [|intros; apply H; now right]. specialize (H t (or_introl eq_refl)).
    destruct t; [reflexivity..|congruence].
Qed.
Lemma is_ub_some {B} (ts : list (outcome B)) : existsb is_ub ts = true -> In UB ts.
Proof. intros H. apply existsb_exists in H. destruct H as (t & I & E). destruct t; try discriminate. exact I. Qed.

Section Client.
Context {F M : Type}.
Variable k : link F M.
Variable s : site F M.
Variable connect : endpoint -> list (tok F) -> outcome (list (tok F)).
Variable sorter : list (string * @item F * Z) -> list (string * @item F * Z).
Variable ep : endpoint.
Hypothesis link_ok : sound_link k.
Hypothesis sorter_ok : sorts sorter.
Hypothesis site_ok : sorts (w_sorter (s_world s)).
Hypothesis connected : connect ep = site_server k s.
Notation items := (list (string * @item F)).
Notation job := (string * @item F * Z)%type.
Notation name_of := (fun j : job => fst (fst j)).
Notation core_ := (core (w_arith (s_world s)) (w_aec (s_world s)) (w_cache_get (s_world s)) (w_files (s_world s)) (s_cfg s)).

Lemma prepare_file its f keys : keys <> [] -> distinct_offsets its keys ->
  exists js, sorted_file sorter its (f, keys) = Ok (f, js) /\ good_file (f, js) /\
    site_extracts s its (f, keys) = core_ f js.
Proof.
  intros N (js & E & D). exists (sorter js). unfold sorted_file. cbn [snd fst]. rewrite E. cbn [obind].
  destruct (sorter_ok js) as [P S].
  assert (D' : NoDup (map snd (sorter js))) by (eapply Permutation_NoDup; [apply Permutation_map, P|exact D]).
  split; [reflexivity|]. split.
  - split; [|split; [|split]]; cbn [snd].
    + intros Z. apply N. rewrite Z in P. apply Permutation_sym, Permutation_nil in P. subst js.
      apply jobs_keys in E. destruct keys; [reflexivity|discriminate].
    + rewrite <- P. eapply Forall_impl; [|exact (jobs_ok its keys js E)]. intros j [_ H]. exact H.
    + exact D'.
    + exact S.
  - unfold site_extracts, extract_file, file_task. cbn [fst snd]. rewrite E. cbn [obind].
    destruct (site_ok js) as [P' S']. rewrite <- (zsorted_unique (sorter js) (w_sorter (s_world s) js)); auto.
    etransitivity; [symmetry; exact P|exact P'].
Qed.
Lemma prepare its fm : (forall f keys, In (f, keys) fm -> keys <> [] /\ distinct_offsets its keys) ->
  exists pf, mapM (sorted_file sorter its) fm = Ok pf /\ Forall good_file pf /\ map fst pf = map fst fm /\
    map (site_extracts s its) fm = map (fun f => core_ (fst f) (snd f)) pf.
Proof.
  induction fm as [|[f keys] fm IH]; intros H; [exists []; repeat split; constructor|].
  destruct (H f keys (or_introl eq_refl)) as [H1 H2].
  destruct (prepare_file its f keys H1 H2) as (js & E1 & G & E2).
  destruct IH as (pf & E3 & G' & E4 & E5); [intros f' keys' I'; apply (H f'); now right|].
  exists ((f, js) :: pf). cbn [mapM map fst snd]. rewrite E1, E2, E4, E5. cbn [obind]. rewrite E3. cbn [obind].
  repeat split. now constructor.
Qed.

Lemma by_position_all (pf l : list (string * list job)) (outs : list (list (string * result F))) :
  NoDup (map fst pf) -> incl l pf ->
  Forall2 (fun f out => map fst out = map name_of (snd f)) l outs ->
  concat (map (by_position pf) (map (fun p => (fst (fst p), map snd (snd p))) (combine l outs))) = concat outs.
Proof.
  intros ND I H. induction H as [|[f js] out l outs E H IH]; [reflexivity|].
  cbn [combine map fst snd concat]. f_equal.
  - unfold by_position. cbn [fst snd]. rewrite (in_sfind f js); [|exact ND|apply I; now left].
    cbn [snd] in E. rewrite <- E. clear. induction out as [|[a b] out IH]; [reflexivity|]. cbn. now rewrite IH.
  - apply IH. intros x Ix. apply I. now right.
Qed.
Lemma outs_named (pf : list (string * list job)) :
  errors_of (map (fun f => core_ (fst f) (snd f)) pf) = [] ->
  (forall t, In t (map (fun f => core_ (fst f) (snd f)) pf) -> t <> UB) ->
  Forall2 (fun f out => map fst out = map name_of (snd f)) pf (results_in (map (fun f => core_ (fst f) (snd f)) pf)).
Proof.
  induction pf as [|[f js] pf IH]; intros E U; [constructor|]. cbn [map fst snd] in *.
  destruct (core_ f js) as [out|e|] eqn:Ec; [|discriminate|exfalso; exact (U UB (or_introl eq_refl) eq_refl)].
  cbn [results_in]. constructor.
  - cbn [snd]. eapply core_names, Ec.
  - apply IH; [exact E|]. intros t It. apply U. now right.
Qed.

Theorem forward_task_gathered its fm : forwardable its fm ->
  forwards_to k connect sorter ep fm its = gathered k (map (site_extracts s its) (in_key_order fm)).
Proof.
  intros (ND & NE & H). unfold forwards_to, forward_task.
  assert (H' : forall f keys, In (f, keys) (in_key_order fm) -> keys <> [] /\ distinct_offsets its keys)
    by (intros f keys I; apply (H f); now apply ordered_in).
  destruct (prepare its _ H') as (pf & E1 & G & Nm & E2). rewrite E1, E2. cbn [obind].
  assert (NDp : NoDup (map fst pf)) by (rewrite Nm; now apply ordered_keys).
  assert (Op : in_key_order pf = pf).
  { apply ssort_fix.
    - apply (sorted_map fst (fun x y => String.leb x y = true)). rewrite Nm.
      apply (sorted_map fst (fun x y => String.leb x y = true)). apply ssort_sorted.
    - intros x y Ix Iy E. eapply map_inj_in; [exact NDp|exact Ix|exact Iy|exact E]. }
  assert (NEp : pf <> []).
  { intros ->. apply NE. cbn in Nm. apply length_zero_iff_nil.
    pose proof (ordered_length fm) as L. unfold lenN in L.
    apply (f_equal (@length string)) in Nm. rewrite map_length in Nm. cbn in Nm. lia. }
  assert (NDw : NoDup (map fst (map (to_wire (F := F)) pf))) by now rewrite map_map.
  assert (Sh : shape (map (to_wire (F := F)) pf) = shape pf).
  { unfold shape. rewrite map_map. apply map_ext. intros [f js]. cbn. unfold lenN. now rewrite map_length. }
  assert (Cnt : (0 < item_count (map (to_wire (F := F)) pf))%N).
  { destruct pf as [|[f js] pf]; [congruence|]. inversion G as [|? ? [Gj _] _]; subst. cbn [snd] in Gj.
    cbn [map item_count fold_right to_wire fst snd]. unfold lenN. rewrite map_length.
    destruct js; [congruence|]. cbn [length]. lia. }
  set (ts := map (fun f => core_ (fst f) (snd f)) pf) in *. unfold gathered.
  set (w := s_world s) in *.
  assert (X : remote_forward_extract (k_title k) (k_w_uri k) (k_context k) (connect ep) (map (to_wire (F := F)) pf) =
    and_unread [] (seen (k_title k) (k_what k) (e_forward_extract (site_engine k s) (map received_file (map (to_wire (F := F)) pf))))).
  { rewrite connected. unfold site_server, server.
    apply remote_forward_extract_seen; [exact (proj2 link_ok)|exact NDw|exact Cnt|].
    intros res errs Er. rewrite Sh.
    destruct (ub_dec ts) as [U|U].
    - cbn in Er. unfold ts in U.
      rewrite (server_ub _ _ _ _ _ _ _ _ _ _ _ site_ok pf G NDp Op NEp U) in Er. discriminate.
    - cbn in Er.
      destruct (server_answer _ _ _ _ _ (w_build_info w) (w_pieces w) (w_fresh w) (w_forward w) _ (k_what k) site_ok pf G NDp Op NEp U)
        as (res' & Er' & Sr & _). fold w in Er. rewrite Er' in Er. injection Er as <- <-. exact Sr. }
  rewrite X. cbn [site_engine the_engine e_forward_extract].
  destruct (existsb is_ub ts) eqn:U.
  - apply is_ub_some in U.
    rewrite (server_ub _ _ _ _ _ _ _ _ _ _ _ site_ok pf G NDp Op NEp U). reflexivity.
  - pose proof (proj1 (is_ub_none ts) U) as U'. clear U. rename U' into U.
    destruct (server_answer _ _ _ _ _ (w_build_info w) (w_pieces w) (w_fresh w) (w_forward w) _ (k_what k) site_ok pf G NDp Op NEp U)
      as (res & Er & _ & Ok_). fold w. rewrite Er. fold ts. fold ts in Ok_.
    destruct (errors_of ts) as [|e es] eqn:Ee.
    + cbn [map seen and_unread omap obind]. rewrite (Ok_ eq_refl). f_equal.
      apply by_position_all; [exact NDp|apply incl_refl|]. apply outs_named; [exact Ee|exact U].
    + reflexivity.
Qed.
End Client.
