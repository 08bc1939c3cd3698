From Coq Require Import Lia Permutation.
From Verif Require Import Base BaseLemmas ModelStrings ModelInfo ModelSimple ModelCcsds ModelJumper ModelForward ModelFactory SpecFactory ProofsFactory.
From Verif Require ModelBuild ModelConfig.
Local Open Scope nat_scope.

Lemma builders_only l : all_builders (map ABuilder l) = l.
Proof. induction l as [|b l IH]; cbn; [reflexivity|]. f_equal. exact IH. Qed.
Lemma clients_none l before u v after : map ABuilder l <> before ++ AClient u v :: after.
Proof.
  intros E. assert (In (AClient u v) (map ABuilder l)) as I by (rewrite E; apply in_or_app; right; now left).
  apply in_map_iff in I. destruct I as (b & X & _). discriminate.
Qed.
Lemma told_nothing l : forall before log, start_told before (map ABuilder l) log -> log = [].
Proof. induction l as [|b l IH]; cbn; eauto. Qed.
Lemma exit_nothing l : forall before log, exit_told before (map ABuilder l) log -> log = [].
Proof. induction l as [|b l IH]; cbn; eauto. Qed.

Lemma library_names : unique_names library.
Proof. unfold unique_names. cbn. repeat (constructor; [cbn; intuition discriminate|]). constructor. Qed.

(* a lookup that finds nothing *)
Lemma lookup_nothing p bs f n : described p bs -> undead p -> NoDup (map fst bs) -> unique_names (map snd bs) -> f <> Infos ->
  (forall m, ~ gives (map snd bs) f n m) -> lookup f n p = Throw ESeriousBug.
Proof.
  intros D Un ND U Nf N. unfold lookup.
  assert (exists t, table_of f p = Ok t) as (t & Et).
  { unfold table_of. specialize (Un f). destruct (p_single p f); eauto; contradiction. }
  rewrite Et. cbn [obind]. rewrite (table_described p bs D f t Et).
  destruct (get_address f n (entries f bs)) as [a|x|] eqn:A.
  - destruct (address_given p bs D ND f n a A) as (m & [(L & G)|(b & L & E & G)]); destruct (N m G).
  - unfold get_address in A. destruct (tfind n _); [discriminate|]. destruct f; cbn; congruence.
  - destruct (get_address_defined _ _ _ A).
Qed.

Section Library.
Variable l : list builder.
Hypothesis order : Permutation library l.

Lemma l_unique : unique_names l.
Proof. eapply Permutation_NoDup; [apply Permutation_map; exact order|exact library_names]. Qed.
Lemma l_in b : In b l <-> In b library.
Proof. split; apply Permutation_in; [now apply Permutation_sym|exact order]. Qed.

Theorem library_life : exists p, lives (map ABuilder l) p [] [] /\
  (forall n, lookup Infos n p = omap info_made (ModelBuild.get_builder n)) /\
  (forall F (A : farith F) aec file off inf ranges,
     read_values A aec file off inf ranges =
     let* j := lookup Jumpers (i_packing inf) p in read_with A aec file off inf j ranges) /\
  (forall parse y,
     ModelConfig.build_implementation parse y =
     let* name := ModelConfig.get_string ModelConfig.ConfigType y in
     let* m := lookup Implementations name p in implementation_of parse y m).
Proof.
  pose proof l_unique as U. pose proof (builders_only l) as B.
  destruct (start_ok (map ABuilder l) [] fresh_process [] fresh_described fresh_filled) as (p & log & E & T & D & Fi).
  { cbn [app]. now rewrite B. }
  { intros a u v b X. now apply clients_none in X. }
  cbn [app length] in *. apply told_nothing in T. subst log.
  assert (unique_names (all_builders (map ABuilder l))) as U' by now rewrite B.
  assert (exists log', exit_told [] (map ABuilder l) log') as (log' & T').
  { apply exit_served. intros a u v b X. now apply clients_none in X. }
  pose proof (exit_nothing _ _ _ T') as ->. apply (finish_told _ p D U') in T'. destruct T' as (p' & T').
  exists p. split; [exists (ends_from [] (map ABuilder l) []), p'; auto|].
  assert (forall f n m, lookup f n p = Ok m <-> gives l f n m) as G.
  { intros f n m. rewrite (lookup_gives p _ D (addressed_nodup _ _)); rewrite addressed_builders, B; [reflexivity|exact U]. }
  assert (forall f n, f <> Infos -> (forall m, ~ gives l f n m) -> lookup f n p = Throw ESeriousBug) as Nn.
  { intros f n Nf N. apply (lookup_nothing p (addressed 0 (map ABuilder l))); auto.
    - eapply filled_undead; eauto.
    - apply addressed_nodup.
    - now rewrite addressed_builders, B.
    - now rewrite addressed_builders, B. }
  assert (forall f n m, In (mk_builder f n m) library -> lookup f n p = Ok m) as K.
  { intros f n m I. apply G. left. now apply l_in. }
  assert (forall f n, f <> Infos -> (forall m, ~ In (mk_builder f n m) library) -> lookup f n p = Throw ESeriousBug) as K'.
  { intros f n Nf N. apply Nn; [exact Nf|]. intros m [I|[X _]]; [|contradiction]. apply l_in in I. exact (N m I). }
  split; [|split].
  - intros n. unfold ModelBuild.get_builder. cbn [ModelBuild.find_builder ModelBuild.builders].
    destruct (String.eqb_spec "grid_ccsds" n) as [<-|N1]; [apply K; cbn; auto 10|].
    destruct (String.eqb_spec "grid_simple" n) as [<-|N2]; [apply K; cbn; auto 10|].
    destruct (String.eqb_spec "unsupported" n) as [<-|N3]; [apply K; cbn; auto 10|].
    cbn. apply G. right. split; [reflexivity|]. split; [|apply l_in; cbn; auto 10].
    intros x I. apply l_in in I. cbn in I. repeat (destruct I as [I|I]; [try discriminate; injection I; intros; contradiction|]). contradiction.
  - intros F A aec file off inf ranges. unfold read_values.
    destruct (String.eqb_spec (i_packing inf) "grid_simple") as [->|N1]; [rewrite (K Jumpers "grid_simple"%string ASimpleJumper) by (cbn; auto 10); reflexivity|].
    destruct (String.eqb_spec (i_packing inf) "grid_ccsds") as [->|N2]; [rewrite (K Jumpers "grid_ccsds"%string ACcsdsJumper) by (cbn; auto 10); reflexivity|].
    rewrite K'; [reflexivity|discriminate|].
    intros x I. cbn in I. repeat (destruct I as [I|I]; [try discriminate; injection I; intros; congruence|]). contradiction.
  - intros parse y. unfold ModelConfig.build_implementation. destruct (ModelConfig.get_string ModelConfig.ConfigType y) as [n| |]; try reflexivity. cbn [obind].
    destruct (String.eqb_spec n "local") as [->|N1]; [rewrite (K Implementations "local"%string ALocalGribJump) by (cbn; auto 10); reflexivity|].
    destruct (String.eqb_spec n "remote") as [->|N2]; [rewrite (K Implementations "remote"%string ARemoteGribJump) by (cbn; auto 10); reflexivity|].
    rewrite K'; [reflexivity|discriminate|].
    intros x I. cbn in I. repeat (destruct I as [I|I]; [try discriminate; injection I; intros; congruence|]). contradiction.
Qed.

Lemma known_given x : known x -> exists m, gives l (fst x) (snd x) m.
Proof.
  intros [E|(m & I)]; [|exists m; left; now apply l_in].
  destruct x as [f n]. cbn in *. subst f. pose proof (proj2 (l_in (mk_builder Infos "unsupported" AnUnsupportedInfo)) ltac:(cbn; auto 10)) as Iu.
  destruct (String.eqb_spec n "grid_simple") as [->|N1]; [exists ASimpleInfo; left; apply l_in; cbn; auto 10|].
  destruct (String.eqb_spec n "grid_ccsds") as [->|N2]; [exists ACcsdsInfo; left; apply l_in; cbn; auto 10|].
  destruct (String.eqb_spec n "unsupported") as [->|N3]; [exists AnUnsupportedInfo; left; exact Iu|].
  exists AnUnsupportedInfo. right. split; [reflexivity|]. split; [|exact Iu].
  intros x I. apply l_in in I. cbn in I. repeat (destruct I as [I|I]; [try discriminate; injection I; intros; congruence|]). contradiction.
Qed.

Lemma split_after us before u v after : map ABuilder l ++ clients us = before ++ AClient u v :: after ->
  all_builders before = l /\ In (u, v) us.
Proof.
  revert before. generalize l as k. clear. induction k as [|b k IH]; intros before; cbn [map app].
  - revert before. induction us as [|[u' v'] us IHu]; intros [|x before] E; cbn in E; try discriminate.
    + injection E as <- <- _. split; [reflexivity|now left].
    + injection E as <- E. destruct (IHu before E) as [A I]. split; [exact A|now right].
  - destruct before as [|x before]; cbn [app]; intros E; [discriminate|]. injection E as <- E. destruct (IH before E) as [A I].
    split; [|exact I]. cbn. f_equal. exact A.
Qed.

Theorem after_library us : Forall (fun x => Forall known (fst x ++ snd x)) us ->
  exists p log log', lives (map ABuilder l ++ clients us) p log log' /\
    Forall2 (fun x m => gives l (fst x) (snd x) m) (flat_map fst us) log /\
    Forall2 (fun x m => gives l (fst x) (snd x) m) (flat_map snd (rev us)) log'.
Proof.
  intros K. assert (all_builders (map ABuilder l ++ clients us) = l) as B.
  { unfold all_builders. rewrite flat_map_app. fold (all_builders (map ABuilder l)). rewrite builders_only. clear. induction us as [|x us IH]; cbn in *; [apply app_nil_r|exact IH]. }
  assert (forall u v, In (u, v) us -> Forall known u /\ Forall known v) as K'.
  { intros u v I. rewrite Forall_forall in K. specialize (K _ I). cbn in K. now apply Forall_app in K. }
  assert (forall a b, all_builders (a ++ b) = all_builders a ++ all_builders b) as Ap by (intros; apply flat_map_app).
  destruct (life (map ABuilder l ++ clients us)) as (p & log & log' & L & T & T' & _).
  - rewrite B. apply l_unique.
  - intros before u v after E. apply split_after in E. destruct E as [E I]. unfold served_by. rewrite E.
    destruct (K' u v I) as [X _]. eapply Forall_impl; [|exact X]. apply known_given.
  - intros before u v after E. apply split_after in E. destruct E as [E I]. unfold served_by. rewrite E.
    destruct (K' u v I) as [_ X]. eapply Forall_impl; [|exact X]. apply known_given.
  - exists p, log, log'. split; [exact L|]. clear L. split.
    + clear T'. revert T. cut (forall rest before, all_builders before = l -> forall log, start_told before (clients rest) log -> Forall2 (fun x m => gives l (fst x) (snd x) m) (flat_map fst rest) log).
      * intros X. cut (forall r before, start_told before (map ABuilder r ++ clients us) log -> all_builders before ++ r = l -> Forall2 (fun x m => gives l (fst x) (snd x) m) (flat_map fst us) log).
        { intros Y T. apply (Y l [] T). reflexivity. }
        induction r as [|b r IH]; intros before T E; cbn [map app start_told] in T.
        -- rewrite app_nil_r in E. exact (X us before E log T).
        -- apply (IH _ T). rewrite Ap. cbn. rewrite <- app_assoc. exact E.
      * induction rest as [|[u v] rest IH]; intros before E lg; cbn [clients map start_told flat_map fst]; [intros ->; constructor|].
        intros (xs & ys & -> & G & T). unfold got in G. rewrite E in G. apply Forall2_app; [exact G|].
        apply (IH (before ++ [AClient u v])); [rewrite Ap; cbn; now rewrite app_nil_r|exact T].
    + clear T. revert T'. cut (forall rest before, all_builders before = l -> forall log, exit_told before (clients rest) log -> Forall2 (fun x m => gives l (fst x) (snd x) m) (flat_map snd (rev rest)) log).
      * intros X. cut (forall r before, exit_told before (map ABuilder r ++ clients us) log' -> all_builders before ++ r = l -> Forall2 (fun x m => gives l (fst x) (snd x) m) (flat_map snd (rev us)) log').
        { intros Y T. apply (Y l [] T). reflexivity. }
        induction r as [|b r IH]; intros before T E; cbn [map app exit_told] in T.
        -- rewrite app_nil_r in E. exact (X us before E log' T).
        -- apply (IH _ T). rewrite Ap. cbn. rewrite <- app_assoc. exact E.
      * induction rest as [|[u v] rest IH]; intros before E lg; cbn [clients map exit_told rev]; [intros ->; constructor|].
        intros (ys & xs & -> & T & G). unfold got in G. rewrite E in G. rewrite flat_map_app. cbn [flat_map snd]. rewrite app_nil_r. apply Forall2_app; [|exact G].
        apply (IH (before ++ [AClient u v])); [rewrite Ap; cbn; now rewrite app_nil_r|exact T].
Qed.
End Library.

