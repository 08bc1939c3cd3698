From Coq Require Import Lia Permutation Sorted.
From Verif Require Import Base BaseLemmas ModelRange ModelInfo ModelSimple ModelStream SpecStream ModelJumper ModelStrings ModelCache ModelBuild ModelEngine
  ModelProtocol ModelRemote ModelForward SpecEngine SpecSystem SpecRemote SpecForward SpecSafety SpecDeploy SpecHostile
  ProofsStrings ProofsProtocol ProofsRemote ProofsEngine2 ProofsForward ProofsForward3 ProofsSafety2 ProofsDeploy ProofsHostile.
Open Scope nat_scope.

Notation wire_files := (list (string * list (request * uri))).

(* ---- numbered items ---- *)
Section Numbered.
Context {F : Type}.
Notation items := (list (string * @item F)).

Lemma number_items_names n l : map fst (number_items (F := F) n l) = map decimal (zs n (length l)).
Proof.
  revert n. induction l as [|[r u] l IH]; intros n; [reflexivity|]. cbn [number_items map length fst]. rewrite zs_cons. cbn [map]. now rewrite IH.
Qed.
Lemma number_files_names n m :
  map fst (concat (map snd (number_files (F := F) n m))) = map decimal (zs n (length (concat (map snd m)))).
Proof.
  revert n. induction m as [|[f l] m IH]; intros n; [reflexivity|].
  cbn [number_files map snd concat]. rewrite map_app, number_items_names, IH, app_length, zs_app, map_app. reflexivity.
Qed.
Lemma number_items_in n l x (i : @item F) : In (x, i) (number_items n l) ->
  exists r u, In (r, u) l /\ i = set_uri u (new_item r).
Proof.
  revert n. induction l as [|[r u] l IH]; intros n; [intros []|]. cbn [number_items]. intros [E|I].
  - injection E as <- <-. exists r, u. split; [now left|reflexivity].
  - destruct (IH _ I) as (r' & u' & I' & E). exists r', u'. split; [now right|exact E].
Qed.
Lemma number_files_in n m f (js : items) : In (f, js) (number_files n m) -> exists k l, In (f, l) m /\ js = number_items k l.
Proof.
  revert n. induction m as [|[g l] m IH]; intros n; [intros []|]. cbn [number_files]. intros [E|I].
  - injection E as <- <-. exists n, l. split; [now left|reflexivity].
  - destruct (IH _ I) as (k & l' & I' & E). exists k, l'. split; [now right|exact E].
Qed.
Lemma number_files_of n m f l : In (f, l) m -> exists k, In (f, number_items (F := F) k l) (number_files n m).
Proof.
  revert n. induction m as [|[g l'] m IH]; intros n; [intros []|]. cbn [number_files]. intros [E|I].
  - injection E as <- <-. exists n. now left.
  - destruct (IH (n + Z.of_nat (length l'))%Z I) as (k & I'). exists k. now right.
Qed.

(* every key of a file names one of its items *)
Lemma numbered_find m f js x : In (f, js) (number_files (F := F) 0 m) -> In x (map fst js) ->
  exists l r u, In (f, l) m /\ In (r, u) l /\ sfind x (concat (map snd (number_files (F := F) 0 m))) = Some (set_uri u (new_item r)).
Proof.
  intros I Ix. apply in_map_iff in Ix. destruct Ix as ([x' i] & E & Ii). cbn [fst] in E. subst x'.
  destruct (number_files_in _ _ _ _ I) as (n & l & Il & ->). destruct (number_items_in _ _ _ _ Ii) as (r & u & Iu & ->).
  exists l, r, u. split; [exact Il|]. split; [exact Iu|]. apply in_sfind; [rewrite number_files_names; apply decimals_nodup|].
  apply in_concat. exists (number_items n l). split; [|exact Ii]. now apply (in_map snd) in I.
Qed.
End Numbered.

(* ---- the engine's forwarded extraction ---- *)
Section Engine.
Context {F M : Type}.
Variable k : link F M.
Variable s : site F M.
Variable P : string -> Prop.
Notation w := (s_world s).
Hypothesis D : defined_world w P.

Lemma forward_dies (m : wire_files) :
  (forall f l, In (f, l) m -> P f /\ l <> [] /\ forall r u, In (r, u) l -> u_offset u <> UB /\ u_length u <> UB) ->
  e_forward_extract (site_engine k s) m = UB -> deadly_files w m.
Proof.
  intros G. cbn [site_engine the_engine e_forward_extract]. unfold engine_forward_extract.
  set (named := number_files 0 m). set (its := concat (map snd named)). set (fm := map (fun f => (fst f, map fst (snd f))) named).
  assert (Gk : forall p ks, In (p, ks) fm -> P p /\ ks <> [] /\ forall x, In x ks -> exists l r u, In (p, l) m /\ In (r, u) l /\ sfind x its = Some (set_uri u (new_item r))).
  { intros p ks I. apply in_map_iff in I. destruct I as ([f js] & E & I). cbn [fst snd] in E. injection E as <- <-.
    destruct (number_files_in _ _ _ _ I) as (n & l & Il & Ej). destruct (G _ _ Il) as (Hp & Hl & _). split; [exact Hp|]. split.
    - subst js. destruct l as [|[r u] l]; [congruence|discriminate].
    - intros x Ix. exact (numbered_find m f js x I Ix). }
  match goal with |- context [schedule ?a ?b ?c ?d ?e ?f ?g ?h ?i ?j ?l ?fm ?its] => destruct (schedule a b c d e f g h i j l fm its) as [[es its2]|e0|] eqn:E end;
    cbn [obind]; [|discriminate|].
  - intros H. exfalso. match type of H with context [mapM ?f ?l] => destruct (mapM f l) eqn:Em end; cbn [obind] in H; try discriminate. clear H.
    assert (map fst its2 = map fst its /\ forall x i2, sfind x its2 = Some i2 -> it_result i2 <> None) as [K R].
    { unfold schedule in E. destruct (mapM _ _); cbn [obind] in E; try discriminate. destruct (assert_ _); cbn [obind] in E; try discriminate.
      destruct (run_tasks_keeps _ _ _ _ E) as [K R]. split; [exact K|]. intros x i2 Hx. destruct (R x i2 Hx) as (i & Hi & _ & X). apply X.
      assert (In x (map fst its)) as Ix. { apply sfind_in in Hi. now apply (in_map fst) in Hi. }
      apply sfind_in in Hi. unfold its in Hi. apply in_concat in Hi. destruct Hi as (js & Ij & Ii). apply in_map_iff in Ij. destruct Ij as ([f js'] & Ej & Ij).
      cbn [snd] in Ej. subst js'. destruct (number_files_in _ _ _ _ Ij) as (n & l & _ & ->). destruct (number_items_in _ _ _ _ Ii) as (r & u & _ & ->). discriminate. }
    apply mapM_dies in Em. destruct Em as ([p ks] & Ig & Em). cbn [fst snd] in Em.
    assert (In (p, ks) fm) as Ig' by (eapply Permutation_in; [symmetry; apply in_key_order_perm|exact Ig]).
    match type of Em with context [mapM ?f ?l] => destruct (mapM f l) eqn:Em2 end; cbn [obind] in Em; try discriminate. clear Em.
    apply mapM_dies in Em2. destruct Em2 as (x & Ix & Ex).
    assert (In x ks) as Ixk.
    { unfold order_after in Ix. destruct (jobs its ks) as [js| |] eqn:Ej; [|exact Ix|exact Ix]. rewrite <- (jobs_keys _ _ _ Ej).
      eapply Permutation_in; [|exact Ix]. apply Permutation_map. symmetry. apply (dw_sorter _ _ D). }
    destruct (Gk p ks Ig') as (_ & _ & Hk). destruct (Hk x Ixk) as (l & r & u & _ & _ & Hf).
    assert (In x (map fst its2)) as I2. { rewrite K. apply sfind_in in Hf. now apply (in_map fst) in Hf. }
    destruct (sfind_some _ _ I2) as (i2 & Hi2). unfold get_item in Ex. rewrite Hi2 in Ex. cbn [obind] in Ex.
    specialize (R x i2 Hi2). destruct (it_result i2); congruence.
  - intros _. destruct (schedule_dies w P D (s_cfg s) false fm its) as (p & ks & Ig & (x & i & Ix & Hi & Hd)); [|exact E|].
    + intros p ks Ig. destruct (Gk p ks Ig) as (Hp & Hne & Hk). split; [exact Hne|]. split; [exact Hp|].
      intros x Ix. destruct (Hk x Ix) as (l & r & u & Il & Iu & Hf). exists (set_uri u (new_item r)). split; [exact Hf|].
      destruct (G _ _ Il) as (_ & _ & Hu). exact (Hu _ _ Iu).
    + destruct (Gk p ks Ig) as (_ & _ & Hk). destruct (Hk x Ix) as (l & r & u & Il & Iu & Hf). rewrite Hf in Hi. injection Hi as <-.
      exists p, l, r, u. auto.
Qed.

(* a file without items is fatal, whatever the rest is *)
Lemma task_for_received a b c d e g h i ignore_grid (m : wire_files) f js x rest : In (f, js) (number_files (F := F) 0 m) ->
  (forall f l r u, In (f, l) m -> In (r, u) l -> u_scheme u = "file"%string) -> map fst js = x :: rest ->
  exists t, task_for (F := F) a b c d e g h i ignore_grid (concat (map snd (number_files 0 m))) (f, map fst js) = Ok t.
Proof.
  intros I Hs E. unfold task_for. cbn [snd]. rewrite E.
  destruct (numbered_find m f js x I) as (l & r & u & Il & Iu & Hf); [rewrite E; now left|].
  unfold get_item. rewrite Hf. cbn [obind set_uri it_uri]. unfold is_remote. rewrite (Hs _ _ _ _ Il Iu). cbn. eauto.
Qed.
Lemma empty_file_kills (m : wire_files) f : In (f, []) m ->
  (forall f l r u, In (f, l) m -> In (r, u) l -> u_scheme u = "file"%string) ->
  e_forward_extract (site_engine k s) m = UB.
Proof.
  intros I Hs. cbn [site_engine the_engine e_forward_extract]. unfold engine_forward_extract, schedule.
  set (fm := map (fun f => (fst f, map fst (snd f))) (number_files (F := F) 0 m)).
  match goal with |- context [mapM ?t (in_key_order fm)] => set (task := t) end.
  assert (mapM task (in_key_order fm) = UB) as ->; [|reflexivity].
  assert (forall g, In g (in_key_order fm) -> task g = UB \/ exists t, task g = Ok t) as Hall.
  { intros g Ig. assert (In g fm) as I' by (eapply Permutation_in; [symmetry; apply in_key_order_perm|exact Ig]).
    apply in_map_iff in I'. destruct I' as ([f' js] & <- & Ij). cbn [fst snd]. destruct (map fst js) as [|x rest] eqn:E.
    - left. reflexivity.
    - right. rewrite <- E. exact (task_for_received _ _ _ _ _ _ _ _ _ m f' js x rest Ij Hs E). }
  assert (exists g, In g (in_key_order fm) /\ task g = UB) as Hex.
  { destruct (number_files_of (F := F) 0 m f [] I) as (n & In'). exists (f, []). split; [|reflexivity].
    eapply Permutation_in; [apply in_key_order_perm|]. apply in_map_iff. exists (f, []). split; [reflexivity|exact In']. }
  clearbody task. induction (in_key_order fm) as [|g gs IH]; [destruct Hex as (g & [] & _)|]. cbn [mapM].
  destruct (Hall g (or_introl eq_refl)) as [Eg|(t & Eg)]; rewrite Eg; [reflexivity|]. cbn [obind]. rewrite IH; [reflexivity| |].
  - intros g' I'. apply Hall. now right.
  - destruct Hex as (g' & [<-|I'] & E); [congruence|exists g'; auto].
Qed.
End Engine.
