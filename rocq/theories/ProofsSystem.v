From Coq Require Import Permutation Sorted QArith.
From Verif Require Import Base BaseLemmas ModelInfo ModelSimple ModelCcsds ModelJumper ModelScan ModelStream ModelIndex ModelLRU ModelCache
     ModelBuild ModelEngine SpecCache SpecJumper SpecScan SpecBuild SpecEngine SpecSystem ProofsScan ProofsCache ProofsCache2 ProofsEngine ProofsEngine2 ProofsEngine3
     ProofsEngine4 ProofsBuild ProofsBuild2 ProofsBuild3 ModelFloat.
Open Scope nat_scope.

Section System.
Context {F : Type}.
Variable o : outside F.
Variable g : ModelCache.config.
Variable P : string -> Prop.
Hypothesis Hs : sound_outside o g P.

Lemma describe_defined p off : describe o p off <> UB.
Proof.
  destruct Hs as (_ & _ & He & _). unfold describe, extract_info, open_file.
  destruct (o_files o p); cbn [obind]; [|discriminate]. now apply build_defined.
Qed.

Lemma offsets_defined p : find_offsets o p <> UB.
Proof.
  destruct Hs as (_ & _ & _ & _ & Hb & Hl & _).
  unfold find_offsets, extract_offsets. destruct (o_codes_offsets o p); [discriminate|].
  destruct (o_scan_corrupted o); [|discriminate]. unfold open_file. destruct (o_files o p) as [b|] eqn:E; [|discriminate].
  cbn [obind]. destruct (find_all b (o_buffer_size o) Hb (Hl _ _ E)) as (l & -> & _). discriminate.
Qed.

Lemma calls_app (l l' : list (@call F)) : forall c, c_calls (o_uniq o) (describe o) (find_offsets o) g c (l ++ l') =
  let (c1, log) := c_calls (o_uniq o) (describe o) (find_offsets o) g c l in
  let (c2, log') := c_calls (o_uniq o) (describe o) (find_offsets o) g c1 l' in (c2, log ++ log').
Proof.
  induction l as [|q l IH]; intros c; cbn [app c_calls].
  - destruct (c_calls _ _ _ _ c l'); reflexivity.
  - destruct (c_call _ _ _ _ c q) as [c1 a]. rewrite IH.
    destruct (c_calls _ _ _ _ c1 l) as [c2 log]. destruct (c_calls _ _ _ _ c2 l') as [c3 log']. reflexivity.
Qed.

Lemma lookup_true c p offs infos : reachable o g P c -> P p -> snd (c_get (describe o) g c p offs) = Ok infos ->
  Forall2 (fun off inf => describe o p off = Ok inf) offs infos.
Proof.
  intros (d & cap & calls & log & Hc & Ht & Hq & E) Hp Hg.
  pose proof Hs as (_ & _ & _ & _ & _ & _ & Hna & Hfn).
  destruct (c_calls (o_uniq o) (describe o) (find_offsets o) g (cache_new d cap) (calls ++ [CGet p offs])) as [c' log'] eqn:E'.
  assert (Hq' : Forall (true_call (describe o) P) (calls ++ [CGet p offs])).
  { apply Forall_app. split; auto. }
  destruct (history_from_start (o_uniq o) (describe o) (find_offsets o) g P d cap _ c' log' describe_defined offsets_defined Hna Hfn Hc Ht Hq' E')
    as (Em & Ha & _).
  rewrite calls_app, E in E'. cbn [c_calls c_call] in E'.
  destruct (c_get (describe o) g c p offs) as [c1 r] eqn:Ec. cbn [snd] in Hg. subst r. injection E' as <- <-.
  rewrite Forall_app in Ha. destruct Ha as [_ Ha]. inversion Ha as [|? ? [_ H1] _]. subst.
  destruct (H1 p offs eq_refl) as [H2 _]. destruct (H2 _ eq_refl) as (infos' & Ei & H3). injection Ei as <-. exact H3.
Qed.

Variable state : string -> list Z -> @cache F.
Hypothesis Hstate : forall p offs, reachable o g P (state p offs).
Notation w := (world_of o g P state).

Lemma reachable_capacity c : reachable o g P c -> 1 <= l_capacity (c_lru c).
Proof.
  intros (d & cap & calls & log & Hc & Ht & Hq & E). pose proof Hs as (_ & _ & _ & _ & _ & _ & Hna & Hfn).
  destruct (history_true (o_uniq o) (describe o) (find_offsets o) g describe_defined P Hna Hfn offsets_defined calls _ _ _
              (inv_new (describe o) g P d cap Hc Ht) Hq E) as (Hi & _). exact (inv_cap _ _ _ _ Hi).
Qed.

Lemma Forall2_under {X Y} (Pr : Prop) (Q : X -> Y -> Prop) l l' : length l = length l' -> (Pr -> Forall2 Q l l') ->
  Forall2 (fun x y => Pr -> Q x y) l l'.
Proof.
  revert l'. induction l as [|x l IH]; intros [|y l'] Hl H; try discriminate; constructor.
  - intros Hp. specialize (H Hp). now inversion H.
  - apply IH; [now injection Hl|]. intros Hp. specialize (H Hp). now inversion H.
Qed.

Lemma sound_system : sound_world w.
Proof.
  pose proof Hs as (_ & _ & _ & Hsort & _). split; [exact Hsort|].
  intros p offs infos H. cbn [w_cache_get w_true_info world_of] in *.
  apply Forall2_under.
  - destruct (c_get (describe o) g (state p offs) p offs) as [c' r] eqn:E. cbn [snd] in H.
    destruct (c_get_shape (o_uniq o) (describe o) (find_offsets o) g describe_defined (state p offs) p offs c' r (reachable_capacity _ (Hstate p offs)) E) as [_ Hsh].
    symmetry. now apply Hsh.
  - intros Hp. eapply lookup_true; eauto.
Qed.

Theorem system_values cfg reqs res :
  unique_listings w cfg -> c_forward cfg = false -> c_inefficient cfg = false ->
  extract_requests w cfg reqs = Ok res ->
  exists u listing, o_list o u = Ok listing /\ right_results o P cfg reqs listing res.
Proof.
  intros Hu Hf Hi He.
  destruct (local_extract_answers (w_arith w) (w_aec w) (w_cache_get w) (w_files w) (w_sorter w) (w_build_info w)
              (w_pieces w) (w_fresh w) (w_forward w) (w_list w) (w_true_info w) (proj1 sound_system) (proj2 sound_system)
              cfg reqs res Hf Hu He) as (u & listing & Hl & Ha).
  exists u, listing. split; [exact Hl|]. eapply Forall2_impl; [|exact Ha]. cbv beta. intros r x Hx.
  destruct (entry_of _ listing (r_string r)) as [e|]; [|exact Hx].
  intros m S bytes off (Hp & Hfile & Hoff & Hm). pose proof Hs as (Hcons & Hfresh & _).
  destruct Hx as [(bytes' & off' & inf & Hfile' & Hoff' & Ht & Hh & Hx)|[Hi' _]]; [|congruence].
  cbn [w_files w_true_info w_arith w_aec world_of] in *.
  rewrite Hfile in Hfile'. injection Hfile' as <-. rewrite Hoff in Hoff'. injection Hoff' as <-. specialize (Ht Hp).
  unfold describe, extract_info, open_file in Ht. rewrite Hfile in Ht. cbn [obind] in Ht. split.
  - intros Hig. destruct (Hh Hig) as [_ ->]. destruct (build_told _ _ _ _ _ _ Ht) as (_ & k & Hk & Htold).
    destruct Hm as ((k' & Hk' & R) & _). rewrite Hk in Hk'. injection Hk' as <-.
    unfold told_by in Htold. do 11 (destruct Htold as [_ Htold]). destruct Htold as [Htold _].
    rewrite (rep_md5 _ _ R) in Htold. now injection Htold.
  - intros Hg. destruct (stored_values (o_arith o) (o_aec o) (o_aec_full o) (o_fresh o) (o_grib_at o) Hcons Hfresh bytes off m S _ Hm Hg)
      as (inf' & x' & Hb & Hx' & Hst).
    rewrite Ht in Hb. injection Hb as <-. rewrite Hx in Hx'. injection Hx' as <-. exact Hst.
Qed.

Lemma describe_message p off m S bytes : o_files o p = Some bytes -> message_at (o_aec_full o) (o_grib_at o) bytes off m S ->
  exists i, describe o p off = Ok i /\ i_md5 i = m_md5 m /\
    forall l, good_request (Z.to_N (m_points m)) l -> exists x, extract (o_arith o) (o_aec o) bytes off i l = Ok x.
Proof.
  intros Hf Hm. pose proof Hs as (Hcons & Hfresh & _). pose proof Hm as ((k & Hk & R) & Sup & HS).
  destruct (described (o_arith o) (o_aec o) (o_aec_full o) (o_fresh o) (o_grib_at o) Hcons Hfresh bytes off k m S Hk R Sup HS)
    as (i & Hb & _).
  exists i. unfold describe, extract_info, open_file. rewrite Hf. cbn [obind]. split; [exact Hb|]. split.
  - destruct (build_told _ _ _ _ _ _ Hb) as (_ & k' & Hk' & Htold). rewrite Hk in Hk'. injection Hk' as <-.
    unfold told_by in Htold. do 11 (destruct Htold as [_ Htold]). destruct Htold as [Htold _].
    rewrite (rep_md5 _ _ R) in Htold. now injection Htold.
  - intros l Hg. destruct (stored_values (o_arith o) (o_aec o) (o_aec_full o) (o_fresh o) (o_grib_at o) Hcons Hfresh bytes off m S l Hm Hg)
      as (i' & x & Hb' & Hx & _). rewrite Hb in Hb'. injection Hb' as <-. eauto.
Qed.

Lemma lookup_answers c p offs : reachable o g P c -> P p -> g_lazy g = true -> NoDup offs ->
  (forall off, In off offs -> exists i, describe o p off = Ok i) ->
  exists infos, snd (c_get (describe o) g c p offs) = Ok infos.
Proof.
  intros (d & cap & calls & log & Hc & Ht & Hq & E) Hp Hz ND Hall.
  pose proof Hs as (_ & _ & _ & _ & _ & _ & Hna & Hfn).
  destruct (c_calls (o_uniq o) (describe o) (find_offsets o) g (cache_new d cap) (calls ++ [CGet p offs])) as [c' log'] eqn:E'.
  assert (Hq' : Forall (true_call (describe o) P) (calls ++ [CGet p offs])).
  { apply Forall_app. split; auto. }
  destruct (history_from_start (o_uniq o) (describe o) (find_offsets o) g P d cap _ c' log' describe_defined offsets_defined Hna Hfn Hc Ht Hq' E')
    as (Em & Ha & _).
  rewrite calls_app, E in E'. cbn [c_calls c_call] in E'.
  destruct (c_get (describe o) g c p offs) as [c1 r] eqn:Ec. cbn [snd]. injection E' as <- <-.
  rewrite Forall_app in Ha. destruct Ha as [_ Ha]. inversion Ha as [|? ? [_ H1] _]. subst.
  destruct (H1 p offs eq_refl) as [_ H2]. destruct (H2 Hz ND Hall) as (infos & Hi). cbn [snd] in Hi.
  destruct r; try discriminate. eauto.
Qed.

Theorem system_complete cfg reqs listing :
  g_lazy g = true -> c_forward cfg = false -> c_inefficient cfg = false ->
  NoDup (map r_string (canon_requests (c_ignore_ym cfg) false reqs)) ->
  (forall u, o_list o u = Ok listing) -> duplicate_free (c_ignore_ym cfg) listing ->
  own_places cfg reqs listing ->
  (forall r e, located cfg reqs listing r e -> fine_request o P cfg r e) ->
  (c_allow_missing cfg = true \/
   forall r, In r (canon_requests (c_ignore_ym cfg) false reqs) -> exists e, located cfg reqs listing r e) ->
  (exists r e, located cfg reqs listing r e) ->
  exists res, extract_requests w cfg reqs = Ok res /\ right_results o P cfg reqs listing res.
Proof.
  intros Hz Hf Hi ND Hl D Hown Hfine Hall (r0 & e0 & L0).
  assert (Hdesc : forall r e off, located cfg reqs listing r e -> u_offset (l_uri e) = Ok off ->
            P (u_path (l_uri e)) /\ exists i, describe o (u_path (l_uri e)) off = Ok i).
  { intros r e off L Ho. destruct (Hfine r e L) as (_ & m & S & bytes & off' & (Hp & Hfile & Hoff & Hm) & _).
    rewrite Ho in Hoff. injection Hoff as <-. split; [exact Hp|].
    destruct (describe_message _ _ _ _ _ Hfile Hm) as (i & Hd & _). eauto. }
  assert (exists i0 : info F, True) as (i0 & _).
  { destruct (Hfine r0 e0 L0) as (_ & m & S & bytes & off' & (Hp & Hfile & Hoff & Hm) & _).
    destruct (Hdesc r0 e0 off' L0 Hoff) as (_ & i & _). eauto. }
  set (inf := fun p off => match describe o p off with Ok i => i | _ => i0 end).
  assert (Hex : exists res, extract_requests w cfg reqs = Ok res).
  { apply (found_are_served (w_arith w) (w_aec w) (w_cache_get w) (w_files w) (w_sorter w)
             (w_build_info w) (w_pieces w) (w_fresh w) (w_forward w) (w_list w) (w_true_info w) cfg reqs listing inf); auto.
    - exact (proj1 sound_system).
    - intros p offs _ NDo Hin. cbn [w_cache_get world_of].
      destruct offs as [|o1 offs'] eqn:Eoffs.
      { cbn [map]. destruct (c_get (describe o) g (state p []) p []) as [c' r] eqn:Ec. cbn [snd].
        unfold c_get in Ec. cbn in Ec. now injection Ec as <- <-. }
      rewrite <- Eoffs in *.
      assert (Hp : P p).
      { destruct (Hin o1) as (r & e & L & Ep & Eo); [rewrite Eoffs; left; auto|]. rewrite <- Ep. exact (proj1 (Hdesc r e o1 L Eo)). }
      assert (Hd : forall off, In off offs -> exists i, describe o p off = Ok i).
      { intros off Io. destruct (Hin off Io) as (r & e & L & Ep & Eo). rewrite <- Ep. exact (proj2 (Hdesc r e off L Eo)). }
      destruct (lookup_answers (state p offs) p offs (Hstate p offs) Hp Hz NDo Hd) as (infos & Hg). rewrite Hg. f_equal.
      pose proof (lookup_true _ _ _ _ (Hstate p offs) Hp Hg) as HF. clear -HF. induction HF as [|x y l l' H _ IH]; cbn; auto.
      unfold inf at 1. now rewrite H, IH.
    - intros r e L. destruct (Hfine r e L) as (Hrem & m & S & bytes & off & (Hp & Hfile & Hoff & Hm) & Hgr & Hh).
      destruct (describe_message _ _ _ _ _ Hfile Hm) as (i & Hd & Hmd & Hx). destruct (Hx _ Hgr) as (x & Ex).
      split; [exact Hrem|]. exists bytes, off, x. unfold inf. rewrite Hd. cbn [w_files w_arith w_aec world_of].
      repeat split; auto; destruct (Hh H) as [H1 H2]; congruence.
    - eauto. }
  destruct Hex as (res & He). exists res. split; [exact He|].
  destruct (system_values cfg reqs res) as (u & listing' & Hl' & Hr); auto.
  - intros u l' Hl'. cbn [w_list world_of] in Hl'. rewrite Hl in Hl'. now injection Hl' as <-.
  - rewrite Hl in Hl'. now injection Hl' as <-.
Qed.
End System.

Lemma by_offset_ok {I} (j : I * Z) l : Permutation (j :: l) (by_offset j l) /\
  (StronglySorted (fun a b => (snd a <= snd b)%Z) l -> StronglySorted (fun a b => (snd a <= snd b)%Z) (by_offset j l)).
Proof.
  induction l as [|j' l [IH1 IH2]]; cbn; [split; [reflexivity|repeat constructor]|].
  destruct (Z.leb_spec (snd j) (snd j')) as [L|L].
  - split; [reflexivity|]. intros S. constructor; [exact S|]. inversion S as [|? ? S' A]; subst.
    constructor; [exact L|]. eapply Forall_impl; [|exact A]. cbn. intros; lia.
  - split.
    + rewrite perm_swap. now constructor.
    + intros S. inversion S as [|? ? S' A]; subst. constructor; [apply IH2, S'|].
      rewrite <- IH1. constructor; [lia|exact A].
Qed.
Lemma by_offset_sorts {I} : sorts (fun l : list (I * Z) => fold_right by_offset [] l).
Proof.
  intros l. induction l as [|j l [P S]]; cbn [fold_right]; [split; [reflexivity|constructor]|].
  destruct (by_offset_ok j (fold_right by_offset [] l)) as [P' S']. split; [|apply S', S].
  rewrite <- P'. now constructor.
Qed.

(* the assumptions hold of the example *)
Lemma one_file_sound : sound_outside one_file one_cache one_path.
Proof.
  split; [exact raw_consistent|]. split; [exact zeros_length|]. split.
  { intros b off. cbn [o_grib_at one_file]. unfold ex_eccodes.
    repeat match goal with |- context [if ?c then _ else _] => destruct c end; (split; [discriminate|]);
      intros k Hk; try discriminate; injection Hk as <-; apply codes_of_defined. }
  split; [exact by_offset_sorts|]. split; [cbn; lia|]. split.
  { intros p b H. cbn in H. destruct (String.eqb p "/fdb/x.data"); [|discriminate]. injection H as <-. reflexivity. }
  split.
  - apply plain_names_apart; [intros p ->; reflexivity|intros p q -> -> _; reflexivity].
  - intros p q -> ->. vm_compute. discriminate.
Qed.
Lemma one_state_reachable p offs : reachable one_file one_cache one_path (one_state p offs).
Proof.
  exists (fun _ => None), 2, [], []. split; [lia|]. split.
  - intros q _. exists []. split; [left; auto|constructor].
  - split; [constructor|reflexivity].
Qed.
