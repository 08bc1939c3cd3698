(* Proofs about listing, grouping by file, tasks and collection of results: C36, C40, C42-C45 *)
From Coq Require Import Lia Permutation Sorted.
From Verif Require Import Base BaseLemmas ModelRange ModelInfo ModelSimple ModelCcsds ModelJumper ModelStrings
  ModelEngine SpecEngine ProofsStrings ProofsEngine.

Lemma spush_partitions : forall {X} (name : X -> string) l m x,
  partitions name l m -> partitions name (l ++ [x]) (spush (name x) x m).
Proof.
  intros X name l m x (ND & P & G). split; [|split].
  - apply spush_keys_nodup, ND.
  - etransitivity; [symmetry; apply Permutation_cons_append|].
    etransitivity; [apply perm_skip, P|]. apply spush_perm.
  - assert (NDp := spush_keys_nodup (name x) x m ND). intros g xs I.
    apply (in_sfind _ _ _ NDp) in I. rewrite sfind_spush in I.
    destruct (String.eqb_spec g (name x)) as [->|N].
    + destruct (sfind (name x) m) as [l0|] eqn:E; injection I as <-.
      * split; [destruct l0; discriminate|]. intros y Iy. apply in_app_or in Iy.
        destruct Iy as [Iy|[<-|[]]]; [|reflexivity].
        exact (proj2 (G _ _ (sfind_in _ _ _ E)) y Iy).
      * split; [discriminate|]. intros y [<-|[]]. reflexivity.
    + exact (G _ _ (sfind_in _ _ _ I)).
Qed.

Lemma partitions_nil : forall {X} (name : X -> string), partitions name [] [].
Proof. intros. split; [constructor|split; [reflexivity|]]. intros g xs []. Qed.

Lemma partitions_fold : forall {X Y} (name : Y -> string) (f : X -> Y) l m l0,
  partitions name l0 m ->
  partitions name (l0 ++ map f l) (fold_left (fun m x => spush (name (f x)) (f x) m) l m).
Proof.
  intros X Y name f l. induction l as [|x l IH]; intros m l0 H; cbn.
  - rewrite app_nil_r. exact H.
  - change (f x :: map f l) with ([f x] ++ map f l). rewrite app_assoc.
    apply IH, spush_partitions, H.
Qed.

Lemma Forall2_map_in : forall {X Y Z} (f : X -> Y) (P : Y -> Z -> Prop) (Q : X -> Z -> Prop) l r,
  Forall2 P (map f l) r -> (forall x, In x l -> forall z, P (f x) z -> Q x z) -> Forall2 Q l r.
Proof.
  intros X Y Z f P Q l. induction l as [|x l IH]; intros r Fa H; cbn in Fa;
    inversion Fa as [|? z ? r' P1 Fa']; subst; constructor.
  - apply H; [left; reflexivity|exact P1].
  - apply IH; [exact Fa'|]. intros y I. apply H. right. exact I.
Qed.

Lemma mapM_inv : forall {X Y} (f : X -> outcome Y) l r, mapM f l = Ok r -> Forall2 (fun x y => f x = Ok y) l r.
Proof.
  intros X Y f l. induction l as [|x l IH]; intros r H; cbn in H.
  - injection H as <-. constructor.
  - destruct (f x) eqn:E; try discriminate. cbn in H.
    destruct (mapM f l) eqn:E2; try discriminate. injection H as <-. constructor; auto.
Qed.

Section Engine.
Context {F : Type}.
Notation items := (list (string * @item F)).
Notation filemap := (list (string * list string)).

(* ---- the listing loop ---- *)

Section Listing.
Variable ignore : bool.
Notation key := (listed_as ignore).

Definition known (its : items) (e : listed) : bool :=
  match sfind (key e) its with Some _ => true | None => false end.

Lemma known_keys : forall its its' e, map fst its = map fst its' -> known its e = known its' e.
Proof.
  intros its its' e E. unfold known.
  destruct (sfind (key e) its) eqn:E1; destruct (sfind (key e) its') eqn:E2; try reflexivity.
  - apply sfind_none in E2. apply sfind_key in E1. rewrite E in E1. contradiction.
  - apply sfind_none in E1. apply sfind_key in E2. rewrite <- E in E2. contradiction.
Qed.

Definition last_entry (listing : list listed) (k : string) : option listed :=
  find (fun e => String.eqb (key e) k) (rev listing).

Record listing_inv (its : items) (listing : list listed) (fm : filemap) (its' : items) (c : N) : Prop := {
  li_keys : map fst its' = map fst its;
  li_count : c = lenN (filter (known its) listing);
  li_groups : exists m, fm = map (fun g => (fst g, map key (snd g))) m /\
                        partitions (fun e => u_path (l_uri e)) (filter (known its) listing) m;
  li_find : forall k, sfind k its' =
     match sfind k its with
     | Some i => Some (match last_entry listing k with Some e => set_uri (l_uri e) i | None => i end)
     | None => None
     end
}.

Lemma sfind_map_snd : forall {V W} (f : V -> W) k m,
  sfind k (map (fun g => (fst g, f (snd g))) m) = match sfind k m with Some v => Some (f v) | None => None end.
Proof.
  intros V W f k m. induction m as [|[k' v] m IH]; cbn; [reflexivity|].
  destruct (String.eqb k k'); auto.
Qed.

Lemma supdate_map_snd : forall {V W} (f : V -> W) (g : V -> V) (g' : W -> W) k m,
  (forall v, f (g v) = g' (f v)) ->
  supdate k g' (map (fun x => (fst x, f (snd x))) m) = map (fun x => (fst x, f (snd x))) (supdate k g m).
Proof.
  intros V W f g g' k m H. induction m as [|[k' v] m IH]; cbn; [reflexivity|].
  destruct (String.eqb k k'); cbn; congruence.
Qed.

Lemma spush_map : forall {V W} (f : V -> W) k v m,
  spush k (f v) (map (fun g => (fst g, map f (snd g))) m) = map (fun g => (fst g, map f (snd g))) (spush k v m).
Proof.
  intros V W f k v m. unfold spush. rewrite (sfind_map_snd (map f)).
  destruct (sfind k m).
  - apply (supdate_map_snd (map f)). intro l0. rewrite map_app. reflexivity.
  - rewrite map_app. reflexivity.
Qed.

Lemma listing_loop : forall its listing,
  let '(fm, its', c) := fold_left (list_step ignore) listing ([], its, 0%N) in
  listing_inv its listing fm its' c.
Proof.
  intros its listing. induction listing as [|e listing IH] using rev_ind.
  - cbn. constructor; auto.
    + exists []. split; [reflexivity|apply partitions_nil].
    + intro k. destruct (sfind k its); reflexivity.
  - rewrite fold_left_app. cbn [fold_left].
    destruct (fold_left (list_step ignore) listing ([], its, 0%N)) as [[fm its'] c].
    destruct IH as [K C (m & -> & P) Fd]. unfold list_step.
    change (fdbkey_to_str ignore (l_key e)) with (key e).
    destruct (sfind (key e) its') as [i|] eqn:E.
    + assert (Kn : known its e = true).
      { rewrite (known_keys its its') by auto. unfold known. rewrite E. reflexivity. }
      constructor.
      * rewrite supdate_keys. exact K.
      * rewrite filter_app, C. cbn. rewrite Kn. unfold lenN. rewrite app_length. cbn. lia.
      * exists (spush (u_path (l_uri e)) e m). split; [apply spush_map|].
        rewrite filter_app. cbn. rewrite Kn.
        apply (spush_partitions (fun e => u_path (l_uri e))), P.
      * intro k. rewrite sfind_supdate, Fd. unfold last_entry. rewrite rev_unit. cbn [find].
        fold (last_entry listing k).
        destruct (String.eqb_spec k (key e)) as [->|N].
        -- rewrite String.eqb_refl. destruct (sfind (key e) its); [|reflexivity].
           destruct (last_entry listing (key e)); reflexivity.
        -- destruct (String.eqb_spec (key e) k); [congruence|]. reflexivity.
    + assert (Kn : known its e = false).
      { rewrite (known_keys its its') by auto. unfold known. rewrite E. reflexivity. }
      constructor; auto.
      * rewrite filter_app, C. cbn. rewrite Kn, app_nil_r. reflexivity.
      * exists m. split; [reflexivity|]. rewrite filter_app. cbn. rewrite Kn, app_nil_r. exact P.
      * intro k. rewrite Fd. unfold last_entry. rewrite rev_unit. cbn [find].
        fold (last_entry listing k).
        destruct (String.eqb_spec (key e) k) as [<-|N]; [|reflexivity].
        unfold known in Kn. destruct (sfind (key e) its); [discriminate|reflexivity].
Qed.

Lemma file_map_inv : forall allow listing its fm its',
  file_map ignore allow listing its = Ok (fm, its') ->
  exists c, listing_inv its listing fm its' c /\ (allow = false -> c = lenN its).
Proof.
  intros allow listing its fm its' H. unfold file_map in H.
  pose proof (listing_loop its listing) as L.
  destruct (fold_left (list_step ignore) listing ([], its, 0%N)) as [[fm0 its0] c].
  destruct (negb (c =? lenN its0)%N && negb allow) eqn:E; [discriminate|].
  injection H as -> ->. exists c. split; [exact L|].
  intros ->. rewrite andb_true_r in E. apply negb_false_iff, N.eqb_eq in E.
  rewrite E. unfold lenN. f_equal.
  rewrite <- (map_length fst its'), (li_keys _ _ _ _ _ L). apply map_length.
Qed.

(* with a duplicate-free listing the last entry is the entry *)
Lemma find_rev : forall (f : listed -> bool) l,
  (forall x y, In x l -> In y l -> f x = true -> f y = true -> x = y) -> find f (rev l) = find f l.
Proof.
  intros f l H. destruct (find f l) as [e|] eqn:E.
  - apply find_some in E. destruct E as [I T].
    destruct (find f (rev l)) as [e'|] eqn:E'.
    + apply find_some in E'. destruct E' as [I' T']. apply in_rev in I'. f_equal. apply H; auto.
    + exfalso. pose proof (find_none _ _ E' e (proj1 (in_rev _ _) I)) as X. congruence.
  - destruct (find f (rev l)) as [e'|] eqn:E'; [|reflexivity].
    apply find_some in E'. destruct E' as [I' T']. apply in_rev in I'.
    pose proof (find_none _ _ E e' I') as X. congruence.
Qed.

Lemma map_inj_in : forall {X Y} (f : X -> Y) l x y, NoDup (map f l) -> In x l -> In y l -> f x = f y -> x = y.
Proof.
  intros X Y f l x y ND. induction l as [|z l IH]; [contradiction|].
  cbn in ND. inversion ND as [|? ? Nz NDl]; subst. intros [->|Ix] [->|Iy] E; auto.
  - exfalso. apply Nz. rewrite E. apply in_map, Iy.
  - exfalso. apply Nz. rewrite <- E. apply in_map, Ix.
Qed.

Lemma last_entry_of : forall listing k, duplicate_free ignore listing ->
  last_entry listing k = entry_of ignore listing k.
Proof.
  intros listing k D. unfold last_entry, entry_of. apply find_rev.
  intros x y Ix Iy Tx Ty. apply String.eqb_eq in Tx, Ty.
  apply (map_inj_in (listed_as ignore) listing); auto. congruence.
Qed.

Lemma entry_of_some : forall listing k e, entry_of ignore listing k = Some e ->
  In e listing /\ listed_as ignore e = k.
Proof.
  intros listing k e H. apply find_some in H. destruct H as [I T]. apply String.eqb_eq in T. auto.
Qed.

Lemma known_nodup : forall its listing, duplicate_free ignore listing ->
  NoDup (map (listed_as ignore) (filter (known its) listing)).
Proof.
  intros its listing D. induction listing as [|e l IH]; cbn; [constructor|].
  cbn in D. inversion D as [|? ? Ne Dl]; subst. specialize (IH Dl).
  destruct (known its e); [|exact IH]. cbn. constructor; [|exact IH].
  intro I. apply Ne. apply in_map_iff in I. destruct I as (x & E & I). apply filter_In in I.
  rewrite <- E. apply in_map, (proj1 I).
Qed.

(* when the count is right, every item is located *)
Lemma all_located : forall (its : items) listing, duplicate_free ignore listing -> NoDup (map fst its) ->
  lenN (filter (known its) listing) = lenN its ->
  forall k, In k (map fst its) -> exists e, entry_of ignore listing k = Some e.
Proof.
  intros its listing D ND C k I.
  assert (I2 : In k (map key (filter (known its) listing))).
  { assert (Inc : incl (map fst its) (map key (filter (known its) listing))).
    { apply NoDup_length_incl.
      - apply known_nodup, D.
      - unfold lenN in C. rewrite !map_length. lia.
      - intros x Hx. apply in_map_iff in Hx. destruct Hx as (e & <- & Ie).
        apply filter_In in Ie. destruct Ie as [_ Kn]. unfold known in Kn.
        destruct (sfind (key e) its) eqn:E; [|discriminate]. eapply sfind_key, E. }
    exact (Inc k I). }
  apply in_map_iff in I2. destruct I2 as (e & <- & Ie). apply filter_In in Ie.
  unfold entry_of. destruct (find _ listing) as [e'|] eqn:E; [eauto|].
  pose proof (find_none _ _ E e (proj1 Ie)) as X. cbn in X. rewrite String.eqb_refl in X. discriminate.
Qed.

Lemma some_missing : forall (its : items) listing k, duplicate_free ignore listing -> NoDup (map fst its) ->
  In k (map fst its) -> entry_of ignore listing k = None ->
  file_map ignore false listing its = Throw EDataNotFound.
Proof.
  intros its listing k D ND I E. destruct (file_map ignore false listing its) as [[fm its']|er|] eqn:H.
  - exfalso. apply file_map_inv in H. destruct H as (c & L & Hc). specialize (Hc eq_refl).
    rewrite (li_count _ _ _ _ _ L) in Hc.
    destruct (all_located its listing D ND Hc k I) as (e & E'). congruence.
  - unfold file_map in H.
    destruct (fold_left (list_step ignore) listing ([], its, 0%N)) as [[fm0 its0] c].
    destruct (negb (c =? lenN its0)%N && negb false); congruence.
  - unfold file_map in H.
    destruct (fold_left (list_step ignore) listing ([], its, 0%N)) as [[fm0 its0] c].
    destruct (negb (c =? lenN its0)%N && negb false); congruence.
Qed.

Lemma all_found : forall allow (its : items) listing, duplicate_free ignore listing -> NoDup (map fst its) ->
  (allow = true \/ forall k, In k (map fst its) -> exists e, entry_of ignore listing k = Some e) ->
  exists fm its', file_map ignore allow listing its = Ok (fm, its').
Proof.
  intros allow its listing D ND H. unfold file_map. pose proof (listing_loop its listing) as L.
  destruct (fold_left (list_step ignore) listing ([], its, 0%N)) as [[fm its'] c].
  destruct H as [->|H]; [rewrite andb_false_r; eauto|].
  assert (E : (c =? lenN its')%N = true); [|rewrite E; cbn; eauto].
  apply N.eqb_eq. rewrite (li_count _ _ _ _ _ L). unfold lenN. f_equal.
  rewrite <- (map_length fst its'), (li_keys _ _ _ _ _ L). rewrite <- (map_length key (filter (known its) listing)).
  apply Permutation_length, NoDup_Permutation; [apply known_nodup, D|exact ND|]. intros k. split; intro I.
  - apply in_map_iff in I. destruct I as (e & <- & Ie). apply filter_In in Ie. destruct Ie as [_ Kn]. unfold known in Kn.
    destruct (sfind (key e) its) eqn:E; [|discriminate]. eapply sfind_key, E.
  - destruct (H k I) as (e & Ee). unfold entry_of in Ee. apply find_some in Ee. destruct Ee as [Ie Ek].
    apply String.eqb_eq in Ek. apply in_map_iff. exists e. split; [exact Ek|]. apply filter_In. split; [exact Ie|].
    unfold known. replace (key e) with k. destruct (sfind_some _ _ I) as (i & ->). reflexivity.
Qed.
End Listing.

(* ---- C42 ---- *)

Lemma file_map_partitions : forall ignore allow listing (its : items) fm its',
  duplicate_free ignore listing ->
  file_map ignore allow listing its = Ok (fm, its') ->
  let located := map (listed_as ignore) (filter (known ignore its) listing) in
  NoDup located /\
  partitions (fun k => match entry_of ignore listing k with Some e => u_path (l_uri e) | None => "" end%string)
             located fm.
Proof.
  intros ignore allow listing its fm its' D H. cbn zeta. split; [apply known_nodup, D|].
  apply file_map_inv in H. destruct H as (c & L & _).
  destruct (li_groups _ _ _ _ _ _ L) as (m & -> & ND & P & G). split; [|split].
  - rewrite map_map. cbn. exact ND.
  - rewrite map_map. cbn [snd]. rewrite <- (map_map snd (map (listed_as ignore))).
    rewrite <- concat_map. apply Permutation_map, P.
  - intros g xs I. apply in_map_iff in I. destruct I as ([g' es] & [= <- <-] & I).
    destruct (G _ _ I) as [Ne Gp]. split; [cbn; destruct es; [congruence|discriminate]|].
    intros x Ix. apply in_map_iff in Ix. destruct Ix as (e & <- & Ie).
    assert (Il : In e listing).
    { assert (Ic : In e (concat (map snd m))).
      { apply in_concat. exists es. split; [|exact Ie].
        apply in_map_iff. exists (g', es). auto. }
      apply (Permutation_in _ (Permutation_sym P)) in Ic. apply filter_In in Ic. tauto. }
    destruct (entry_of ignore listing (listed_as ignore e)) as [e'|] eqn:E.
    + apply entry_of_some in E. destruct E as [Il' Ee].
      rewrite (map_inj_in _ listing e' e D Il' Il Ee). exact (Gp e Ie).
    + exfalso. pose proof (find_none _ _ E e Il) as X. cbn in X. rewrite String.eqb_refl in X. discriminate.
Qed.

Lemma paths_partition : forall its : items, 
  partitions (fun p => u_path (it_uri (snd p))) its
    (fold_left (fun m (p : string * @item F) => spush (u_path (it_uri (snd p))) p m) (in_key_order its) []).
Proof.
  intro its.
  pose proof (partitions_fold (fun p : string * @item F => u_path (it_uri (snd p))) (fun p => p)
                (in_key_order its) [] [] (partitions_nil _)) as (ND & P & G).
  split; [exact ND|split; [|exact G]]. etransitivity; [|exact P]. cbn. rewrite map_id.
  apply in_key_order_perm.
Qed.

Lemma file_map_from_paths_map : forall its : items,
  file_map_from_paths its =
  map (fun g => (fst g, map fst (snd g)))
    (fold_left (fun m (p : string * @item F) => spush (u_path (it_uri (snd p))) p m) (in_key_order its) []).
Proof.
  intro its. unfold file_map_from_paths.
  change (@nil (string * list string))
    with (map (fun g : string * list (string * @item F) => (fst g, map fst (snd g))) []) at 1.
  generalize (@nil (string * list (string * @item F))) as m. generalize (in_key_order its) as l.
  induction l as [|p l IH]; intro m; [reflexivity|]. cbn [fold_left].
  rewrite <- IH. f_equal. apply (spush_map fst).
Qed.

Lemma files_offsets_partition : forall us m, files_offsets us = Ok m ->
  exists l, map (fun u => u_offset u) us = map (fun p => Ok (snd p)) l /\
            map u_path us = map fst l /\
            exists g, partitions fst l g /\ m = map (fun x => (fst x, map snd (snd x))) g.
Proof.
  assert (G : forall us l0 (g0 : list (string * list (string * Z))) m,
    partitions fst l0 g0 ->
    files_offsets_ us (map (fun x => (fst x, map snd (snd x))) g0) = Ok m ->
    exists l, map (fun u => u_offset u) us = map (fun p => Ok (snd p)) l /\
              map u_path us = map fst l /\
              exists g, partitions fst (l0 ++ l) g /\ m = map (fun x => (fst x, map snd (snd x))) g).
  { induction us as [|u us IH]; intros l0 g0 m P H; cbn [files_offsets_] in H.
    - injection H as <-. exists []. cbn. rewrite app_nil_r. repeat split; auto.
      exists g0. auto.
    - destruct (u_offset u) as [o| |] eqn:E; try discriminate. cbn [obind] in H.
      pose proof (spush_map (V := string * Z) snd (u_path u) (u_path u, o) g0) as S.
      cbn [snd] in S. rewrite S in H.
      destruct (IH (l0 ++ [(u_path u, o)]) _ m (spush_partitions fst l0 g0 (u_path u, o) P) H)
        as (l & E1 & E2 & g & Pg & ->).
      exists ((u_path u, o) :: l). cbn. rewrite E, E1, E2. repeat split; auto.
      exists g. rewrite <- app_assoc in Pg. auto. }
  intros us m H. destruct (G us [] [] m (partitions_nil _) H) as (l & E1 & E2 & g & Pg & E).
  exists l. repeat split; auto. exists g. auto.
Qed.

(* ---- results attached to items ---- *)

Notation apply_results := (fold_left (fun (m : items) p => supdate (fst p) (set_result (F := F) (snd p)) m)).

Lemma apply_results_keys : forall rs (its : items), map fst (apply_results rs its) = map fst its.
Proof.
  induction rs as [|p rs IH]; intro its; cbn; [reflexivity|]. rewrite IH. apply supdate_keys.
Qed.

Lemma apply_results_other : forall rs (its : items) k, ~ In k (map fst rs) ->
  sfind k (apply_results rs its) = sfind k its.
Proof.
  induction rs as [|p rs IH]; intros its k N; cbn in *; [reflexivity|].
  rewrite IH by tauto. apply sfind_supdate_other. intro E. apply N. left. auto.
Qed.

Lemma apply_results_find : forall rs (its : items) k r i, NoDup (map fst rs) ->
  In (k, r) rs -> sfind k its = Some i -> sfind k (apply_results rs its) = Some (set_result r i).
Proof.
  induction rs as [|[k' r'] rs IH]; intros its k r i ND I E; [contradiction|].
  cbn in ND. inversion ND as [|? ? Nk NDr]; subst. destruct I as [[= -> ->]|I]; cbn [fold_left fst snd].
  - rewrite apply_results_other by exact Nk. rewrite (sfind_supdate_same _ _ _ _ E). reflexivity.
  - eapply IH; eauto. rewrite sfind_supdate_other; [exact E|].
    intro X. subst k'. apply Nk. apply (in_map fst) in I. exact I.
Qed.

(* ---- collection ---- *)

Definition wf_items (its : items) : Prop :=
  NoDup (map fst its) /\ forall k i, sfind k its = Some i -> r_string (it_request i) = k.

Lemma wf_request : forall its k i, wf_items its -> In (k, i) its -> r_string (it_request i) = k.
Proof. intros its k i [ND W] I. apply W. apply in_sfind; assumption. Qed.

Lemma collect_items_perm : forall its : items, wf_items its ->
  collect_items its = in_key_order its.
Proof.
  intros its W. unfold collect_items.
  assert (G : forall l m : items, NoDup (map fst (m ++ l)) -> (forall k i, In (k, i) l -> r_string (it_request i) = k) ->
    fold_left (fun m p => sset (r_string (it_request (snd p))) (snd p) m) l m = m ++ l).
  { induction l as [|[k i] l IH]; intros m ND H; cbn [fold_left].
    - rewrite app_nil_r. reflexivity.
    - cbn [snd]. rewrite (H k i (or_introl eq_refl)).
      rewrite sset_new.
      + rewrite IH.
        * rewrite <- app_assoc. reflexivity.
        * rewrite <- app_assoc. exact ND.
        * intros k' i' I. apply H. right. exact I.
      + apply sfind_none. intro I. rewrite map_app in ND. cbn in ND.
        apply NoDup_remove_2 in ND. apply ND, in_or_app. left. exact I. }
  rewrite G; [reflexivity| |].
  - cbn. eapply Permutation_NoDup; [apply Permutation_map, in_key_order_perm|exact (proj1 W)].
  - intros k i I. apply (Permutation_in _ (Permutation_sym (in_key_order_perm its))) in I.
    eapply wf_request; eassumption.
Qed.

Lemma collect_items_find : forall (its : items) k, wf_items its ->
  sfind k (collect_items its) = sfind k its.
Proof.
  intros its k W. rewrite collect_items_perm by exact W. symmetry.
  apply sfind_perm; [exact (proj1 W)|apply in_key_order_perm].
Qed.

Lemma take_all_length : forall keys (m : items) rs, take_all keys m = Ok rs -> length rs = length keys.
Proof.
  induction keys as [|k keys IH]; intros m rs H; cbn in H.
  - injection H as <-. reflexivity.
  - destruct (sfind k m) as [i|]; [|discriminate]. destruct (it_result i) as [r|]; [|discriminate].
    destruct (take_all keys (supdate k take_result m)) as [rest| |] eqn:E; try discriminate.
    injection H as <-. cbn. f_equal. eapply IH, E.
Qed.

Lemma take_all_inv : forall keys (m : items) rs, take_all keys m = Ok rs ->
  NoDup keys /\
  Forall2 (fun k r => exists i, sfind k m = Some i /\ it_result i = Some r) keys rs.
Proof.
  induction keys as [|k keys IH]; intros m rs H; cbn in H.
  - injection H as <-. split; constructor.
  - destruct (sfind k m) as [i|] eqn:Ei; [|discriminate].
    destruct (it_result i) as [r|] eqn:Er; [|discriminate].
    destruct (take_all keys (supdate k take_result m)) as [rest| |] eqn:E; try discriminate.
    injection H as <-. destruct (IH _ _ E) as [ND Fa].
    assert (Nk : ~ In k keys).
    { intro I. destruct (In_nth_error _ _ I) as (n & Hn).
      assert (X : forall ks rs', Forall2 (fun k0 r0 => exists i0, sfind k0 (supdate k take_result m) = Some i0 /\ it_result i0 = Some r0) ks rs' -> In k ks -> False).
      { clear -Ei. intros ks rs' Fa. induction Fa as [|a b ks rs' (i0 & E0 & R0) Fa IH]; [auto|].
        intros [->|I]; [|auto]. rewrite (sfind_supdate_same _ _ _ _ Ei) in E0. injection E0 as <-.
        discriminate. }
      exact (X _ _ Fa I). }
    split; [constructor; assumption|]. constructor; [eauto|].
    clear -Fa Nk. induction Fa as [|a b ks rs' (i0 & E0 & R0) Fa IH]; [constructor|].
    constructor.
    + exists i0. split; [|exact R0]. rewrite sfind_supdate_other in E0; [exact E0|].
      intros ->. apply Nk. left. reflexivity.
    + apply IH. intro I. apply Nk. right. exact I.
Qed.

Lemma take_all_ok : forall keys (m : items), NoDup keys ->
  (forall k, In k keys -> exists i r, sfind k m = Some i /\ it_result i = Some r) ->
  exists rs, take_all keys m = Ok rs.
Proof.
  induction keys as [|k keys IH]; intros m ND H; [cbn; eauto|].
  inversion ND as [|? ? Nk NDk]; subst.
  destruct (H k (or_introl eq_refl)) as (i & r & E & R). cbn. rewrite E, R.
  destruct (IH (supdate k take_result m) NDk) as (rs & ->).
  - intros k' I. destruct (H k' (or_intror I)) as (i' & r' & E' & R').
    exists i', r'. split; [|exact R']. rewrite sfind_supdate_other; [exact E'|].
    intros ->. contradiction.
  - cbn. eauto.
Qed.

(* ---- tasks ---- *)

Variable A : farith F.
Variable aec : aec_oracle.
Variable cache_get : string -> list Z -> outcome (list (info F)).
Variable files : string -> option (list N).
Variable sorter : list (string * @item F * Z) -> list (string * @item F * Z).
Variable build_info : list N -> outcome (info F).
Variable pieces : uri -> Z -> outcome (list (list N)).
Variable fresh : Z -> list N.
Variable forward_extract : filemap -> items -> outcome (list error * items).
Variable fdb_list : string -> outcome (list listed).
Variable true_info : string -> Z -> info F -> Prop.

Hypothesis sorter_sorts : sorts sorter.
Hypothesis cache_true : forall p offs infos, cache_get p offs = Ok infos -> Forall2 (true_info p) offs infos.

Notation own := (own_answer A aec files true_info).
Notation remote := (remote_answer A aec build_info (buffer_of pieces fresh)).
Notation answer_ := (answer A aec files true_info build_info (buffer_of pieces fresh)).

Lemma jobs_inv : forall (its : items) keys js, jobs its keys = Ok js ->
  Forall2 (fun k j => exists i o, j = (k, i, o) /\ sfind k its = Some i /\ u_offset (it_uri i) = Ok o) keys js.
Proof.
  intros its keys js H. apply mapM_inv in H. induction H as [|k j keys js H1 H IH]; constructor; [|exact IH].
  unfold get_item in H1. destruct (sfind k its) as [i|] eqn:E; [|discriminate]. cbn in H1.
  destruct (u_offset (it_uri i)) as [o| |] eqn:Eo; try discriminate. injection H1 as <-. eauto 7.
Qed.

Lemma jobs_keys : forall (its : items) keys js, jobs its keys = Ok js ->
  map (fun j => fst (fst j)) js = keys.
Proof.
  intros its keys js H. apply jobs_inv in H.
  induction H as [|k j keys js (i & o & -> & _ & _) H IH]; cbn; congruence.
Qed.

Definition job_ok (its : items) (j : string * @item F * Z) : Prop :=
  sfind (fst (fst j)) its = Some (snd (fst j)) /\ u_offset (it_uri (snd (fst j))) = Ok (snd j).

Lemma jobs_ok : forall (its : items) keys js, jobs its keys = Ok js -> Forall (job_ok its) js.
Proof.
  intros its keys js H. apply jobs_inv in H.
  induction H as [|k j keys js (i & o & -> & E1 & E2) H IH]; constructor; [split; assumption|exact IH].
Qed.

Lemma extract_loop_inv : forall ignore_grid bytes js infos out,
  extract_loop A aec ignore_grid bytes js infos = Ok out ->
  exists infos', infos' = firstn (length js) infos /\ length infos' = length js /\
  map fst out = map (fun j => fst (fst j)) js /\
  Forall2 (fun ji kr => 
     (ignore_grid = false -> r_hash (it_request (snd (fst (fst ji)))) <> ""%string /\
                             r_hash (it_request (snd (fst (fst ji)))) = i_md5 (snd ji)) /\
     extract A aec bytes (snd (fst ji)) (snd ji) (r_ranges (it_request (snd (fst (fst ji))))) = Ok (snd kr))
    (combine js infos') out.
Proof.
  intros ignore_grid bytes js. induction js as [|[[k i] o] js IH]; intros infos out H; cbn in H.
  - injection H as <-. exists []. repeat split; constructor.
  - destruct infos as [|inf infos]; [discriminate|].
    destruct (negb ignore_grid && String.eqb (r_hash (it_request i)) "") eqn:E1; [discriminate|].
    destruct (negb ignore_grid && negb (String.eqb (r_hash (it_request i)) (i_md5 inf))) eqn:E2; [discriminate|].
    destruct (extract A aec bytes o inf (r_ranges (it_request i))) as [res| |] eqn:Ex; try discriminate.
    cbn in H. destruct (extract_loop A aec ignore_grid bytes js infos) as [rest| |] eqn:Er; try discriminate.
    injection H as <-. destruct (IH infos rest Er) as (infos' & -> & L & Ek & Fa).
    exists (inf :: firstn (length js) infos). cbn [length firstn map combine fst snd].
    repeat split; [cbn; lia|rewrite Ek; reflexivity|].
    constructor; [|exact Fa]. cbn [fst snd]. split; [|exact Ex].
    intros ->. cbn in E1, E2. apply negb_false_iff in E2. apply String.eqb_eq in E2.
    split; [|exact E2]. destruct (String.eqb_spec (r_hash (it_request i)) ""); [discriminate|assumption].
Qed.

(* what a successful file task attaches to its items *)
Lemma file_task_inv : forall ignore_grid (its : items) path keys out,
  file_task A aec cache_get files sorter ignore_grid its path keys = Ok out ->
  Permutation keys (map fst out) /\
  (forall k res, In (k, res) out -> exists i, sfind k its = Some i /\
     exists bytes off inf, files path = Some bytes /\ u_offset (it_uri i) = Ok off /\
       true_info path off inf /\
       (ignore_grid = false -> r_hash (it_request i) <> ""%string /\ r_hash (it_request i) = i_md5 inf) /\
       extract A aec bytes off inf (r_ranges (it_request i)) = Ok res).
Proof.
  intros ignore_grid its path keys out H. unfold file_task in H.
  destruct (jobs its keys) as [js| |] eqn:Ej; try discriminate. cbn in H.
  destruct (cache_get path (map snd (sorter js))) as [infos| |] eqn:Ec; try discriminate. cbn in H.
  destruct (files path) as [bytes|] eqn:Ef; [|discriminate].
  destruct (extract_loop_inv _ _ _ _ _ H) as (infos' & E' & L & Ek & Fa).
  destruct (sorter_sorts js) as [P _]. pose proof (cache_true _ _ _ Ec) as T.
  pose proof (Forall2_length _ _ _ T) as Lt. rewrite map_length in Lt.
  assert (infos' = infos) by (rewrite E', Lt; apply firstn_all). subst infos'.
  split.
  - rewrite Ek. rewrite <- (jobs_keys _ _ _ Ej). exact (Permutation_map _ P).
  - pose proof (jobs_ok _ _ _ Ej) as J.
    assert (J' : Forall (job_ok its) (sorter js)).
    { apply Forall_forall. intros j Ij. apply (Permutation_in _ (Permutation_sym P)) in Ij.
      exact (proj1 (Forall_forall _ _) J j Ij). }
    clear -Fa J' T Ek Ef. revert infos out T Ek Fa J'. generalize (sorter js) as l.
    induction l as [|[[k i] o] l IH]; intros infos out T Ek Fa J k0 res I; cbn in *.
    + inversion Fa; subst. contradiction.
    + inversion T as [|? inf ? infos2 T1 T2]; subst. cbn in Fa.
      inversion Fa as [|? [k1 r1] ? out2 [Hh Hx] Fa2]; subst. cbn in *.
      inversion J as [|? ? [J1 J2] J3]; subst. cbn in *. injection Ek as -> Ek.
      destruct I as [[= -> ->]|I].
      * exists i. split; [exact J1|]. exists bytes, o, inf. auto.
      * exact (IH infos2 out2 T2 Ek Fa2 J3 k0 res I).
Qed.

Lemma inefficient_loop_inv : forall js out,
  inefficient_loop A aec build_info pieces fresh js = Ok out ->
  map fst out = map (fun j => fst (fst j)) js /\
  Forall2 (fun j kr => remote (it_uri (snd (fst j))) (it_request (snd (fst j))) (snd kr)) js out.
Proof.
  induction js as [|[[k i] o] js IH]; intros out H; cbn [inefficient_loop] in H.
  - injection H as <-. repeat constructor.
  - destruct (String.eqb_spec (u_scheme (it_uri i)) "fdb") as [Es|]; [|discriminate]. cbn [negb] in H.
    destruct (u_length (it_uri i)) as [n| |] eqn:En; try discriminate. cbn [obind] in H.
    destruct (n <? 0)%Z eqn:Eneg; [discriminate|].
    destruct (pieces (it_uri i) n) as [ps| |] eqn:Ep; try discriminate. cbn [obind] in H.
    destruct (build_info (read_loop (fresh n) ps)) as [inf| |] eqn:Eb; try discriminate. cbn [obind] in H.
    destruct (extract A aec (read_loop (fresh n) ps) 0 inf (r_ranges (it_request i))) as [res| |] eqn:Ex;
      try discriminate. cbn [obind] in H.
    destruct (inefficient_loop A aec build_info pieces fresh js) as [rest| |] eqn:Er; try discriminate.
    injection H as <-. destruct (IH rest eq_refl) as [Ek Fa].
    split; [cbn; rewrite Ek; reflexivity|]. constructor; [|exact Fa]. cbn [fst snd].
    exists n, (read_loop (fresh n) ps), inf. repeat split; auto.
    unfold buffer_of. rewrite Eneg, Ep. reflexivity.
Qed.

Lemma inefficient_task_inv : forall (its : items) keys out,
  inefficient_task A aec sorter build_info pieces fresh its keys = Ok out ->
  Permutation keys (map fst out) /\
  (forall k res, In (k, res) out -> exists i, sfind k its = Some i /\
                 remote (it_uri i) (it_request i) res).
Proof.
  intros its keys out H. unfold inefficient_task in H.
  destruct (jobs its keys) as [js| |] eqn:Ej; try discriminate. cbn in H.
  destruct (inefficient_loop_inv _ _ H) as [Ek Fa].
  destruct (sorter_sorts js) as [P _]. split.
  - rewrite Ek. rewrite <- (jobs_keys _ _ _ Ej). exact (Permutation_map _ P).
  - pose proof (jobs_ok _ _ _ Ej) as J.
    assert (J' : Forall (job_ok its) (sorter js)).
    { apply Forall_forall. intros j Ij. apply (Permutation_in _ (Permutation_sym P)) in Ij.
      exact (proj1 (Forall_forall _ _) J j Ij). }
    clear -Fa J' Ek. revert out Ek Fa J'. generalize (sorter js) as l.
    induction l as [|[[k i] o] l IH]; intros out Ek Fa J k0 res I; cbn in *.
    + inversion Fa; subst. contradiction.
    + inversion Fa as [|? [k1 r1] ? out2 Hx Fa2]; subst. cbn in *.
      inversion J as [|? ? [J1 J2] J3]; subst. cbn in *. injection Ek as -> Ek.
      destruct I as [[= -> ->]|I].
      * exists i. auto.
      * exact (IH out2 Ek Fa2 J3 k0 res I).
Qed.

Lemma run_tasks_ok : forall ts (its : items) its2, run_tasks ts its = Ok ([], its2) ->
  exists outs, ts = map Ok outs /\ its2 = apply_results (concat outs) its.
Proof.
  induction ts as [|t ts IH]; intros its its2 H; cbn in H.
  - injection H as <-. exists []. auto.
  - destruct t as [rs|e|]; [| |discriminate].
    + destruct (IH _ _ H) as (outs & -> & ->). exists (rs :: outs). split; [reflexivity|].
      cbn [concat]. rewrite fold_left_app. reflexivity.
    + destruct (run_tasks ts its) as [[es x]| |]; discriminate.
Qed.

Lemma run_tasks_all_ok : forall outs (its : items),
  run_tasks (map Ok outs) its = Ok ([], apply_results (concat outs) its).
Proof.
  induction outs as [|o outs IH]; intro its; cbn; [reflexivity|].
  rewrite IH, fold_left_app. reflexivity.
Qed.

Notation sched := (schedule A aec cache_get files sorter build_info pieces fresh forward_extract).

(* the items of every group carry the URI of a path equal to the group's name *)
Definition groups_ok (its : items) (fm : filemap) : Prop :=
  NoDup (concat (map snd fm)) /\
  (forall p ks k, In (p, ks) fm -> In k ks -> exists i, sfind k its = Some i /\ u_path (it_uri i) = p).

Lemma concat_map_perm : forall {X} (l l' : list (string * list X)), Permutation l l' ->
  Permutation (concat (map snd l)) (concat (map snd l')).
Proof.
  intros X l l' P. induction P; cbn.
  - reflexivity.
  - apply Permutation_app_head. assumption.
  - rewrite !app_assoc. apply Permutation_app_tail, Permutation_app_comm.
  - etransitivity; eassumption.
Qed.

Lemma schedule_inv : forall cfg fm (its : items) its2, groups_ok its fm ->
  sched cfg false fm its = Ok ([], its2) ->
  fm <> [] /\
  map fst its2 = map fst its /\
  (forall k i, sfind k its = Some i ->
     (In k (concat (map snd fm)) -> exists res, sfind k its2 = Some (set_result res i) /\
                                     answer_ cfg (it_uri i) (it_request i) res) /\
     (~ In k (concat (map snd fm)) -> sfind k its2 = Some i)).
Proof.
  intros cfg fm its its2 [ND G] H. unfold schedule in H. cbn [andb] in H.
  destruct (mapM _ (in_key_order fm)) as [ts| |] eqn:Em; try discriminate. cbn [obind] in H.
  destruct (negb (lenN ts =? 0)%N) eqn:En; [|discriminate]. cbn [assert_ obind] in H.
  apply mapM_inv in Em.
  assert (Hne : fm <> []).
  { intros ->. cbn in Em. inversion Em; subst. discriminate. }
  split; [exact Hne|]. clear En.
  destruct (run_tasks_ok _ _ _ H) as (outs & -> & ->). clear H.
  assert (Pg : Permutation fm (in_key_order fm)) by apply in_key_order_perm.
  assert (X : Permutation (concat (map snd (in_key_order fm))) (map fst (concat outs)) /\
              (forall k res, In (k, res) (concat outs) -> exists i, sfind k its = Some i /\
                 answer_ cfg (it_uri i) (it_request i) res)).
  { assert (G' : forall p ks k, In (p, ks) (in_key_order fm) -> In k ks ->
                   exists i, sfind k its = Some i /\ u_path (it_uri i) = p).
    { intros p ks k I. apply G. eapply Permutation_in; [symmetry; exact Pg|exact I]. }
    clear -Em G' sorter_sorts cache_true fdb_list forward_extract. revert outs Em G'. generalize (in_key_order fm) as l.
    induction l as [|[p ks] l IH]; intros outs Em G; destruct outs as [|out outs]; cbn in Em;
      inversion Em as [|? ? ? ? Et Em2]; subst.
    - cbn. split; [reflexivity|]. intros k res [].
    - destruct (IH outs Em2) as [P1 A1]. { intros p' ks' k I. apply G. right. exact I. }
      assert (Y : Permutation ks (map fst out) /\
                  (forall k res, In (k, res) out -> exists i, sfind k its = Some i /\
                     answer_ cfg (it_uri i) (it_request i) res)).
      { unfold task_for in Et. cbn [snd fst] in Et. destruct ks as [|k0 ks]; [discriminate|].
        unfold get_item in Et. destruct (sfind k0 its) as [i0|]; [|discriminate]. cbn [obind] in Et.
        destruct (is_remote (it_uri i0)).
        - destruct (c_inefficient cfg) eqn:Ei; [|discriminate]. injection Et as Et.
          destruct (inefficient_task_inv _ _ _ Et) as [P0 A0]. split; [exact P0|].
          intros k res I. destruct (A0 k res I) as (i & E & R). exists i. split; [exact E|].
          right. auto.
        - injection Et as Et. destruct (file_task_inv _ _ _ _ _ Et) as [P0 A0]. split; [exact P0|].
          intros k res I. destruct (A0 k res I) as (i & E & bytes & off & inf & R).
          exists i. split; [exact E|]. left. unfold own_answer.
          assert (Ik : In k (k0 :: ks)).
          { eapply Permutation_in; [symmetry; exact P0|]. apply (in_map fst) in I. exact I. }
          destruct (G p (k0 :: ks) k (or_introl eq_refl) Ik) as (i' & E' & Hp).
          assert (i' = i) by congruence. subst i'. rewrite Hp. exists bytes, off, inf. exact R. }
      destruct Y as [P0 A0]. cbn [map snd concat]. rewrite map_app. split.
      + apply Permutation_app; assumption.
      + intros k res I. apply in_app_or in I. destruct I as [I|I]; auto. }
  destruct X as [P Ax].
  assert (NDo : NoDup (map fst (concat outs))).
  { eapply Permutation_NoDup; [exact P|]. eapply Permutation_NoDup; [apply concat_map_perm, Pg|exact ND]. }
  split; [apply apply_results_keys|]. intros k i E. split.
  - intro I. assert (I2 : In k (map fst (concat outs))).
    { eapply Permutation_in; [exact P|]. eapply Permutation_in; [apply concat_map_perm, Pg|exact I]. }
    apply in_map_iff in I2. destruct I2 as ([k' res] & Ek & I2). cbn in Ek. subst k'.
    exists res. split; [eapply apply_results_find; eauto|].
    destruct (Ax k res I2) as (i' & E' & R). congruence.
  - intro NI. rewrite apply_results_other; [exact E|]. intro I. apply NI.
    eapply Permutation_in; [apply concat_map_perm; symmetry; exact Pg|].
    eapply Permutation_in; [symmetry; exact P|exact I].
Qed.

Notation local := (local_extract A aec cache_get files sorter build_info pieces fresh forward_extract fdb_list).
Notation local_paths := (local_extract_paths A aec cache_get files sorter build_info pieces fresh forward_extract).

Lemma sfind_entries : forall rs k, NoDup (map r_string rs) ->
  sfind k (map (fun r => (r_string r, new_item (F := F) r)) rs) =
  match find (fun r => String.eqb (r_string r) k) rs with Some r => Some (new_item r) | None => None end.
Proof.
  intros rs k. induction rs as [|r rs IH]; intro ND; [reflexivity|]. cbn.
  inversion ND; subst. destruct (String.eqb_spec k (r_string r)) as [->|N].
  - rewrite String.eqb_refl. reflexivity.
  - destruct (String.eqb_spec (r_string r) k); [congruence|]. auto.
Qed.

Lemma find_request : forall rs r, NoDup (map r_string rs) -> In r rs ->
  find (fun x => String.eqb (r_string x) (r_string r)) rs = Some r.
Proof.
  intros rs r ND I. destruct (find _ rs) as [r'|] eqn:E.
  - apply find_some in E. destruct E as [I' T]. apply String.eqb_eq in T.
    f_equal. exact (map_inj_in r_string rs r' r ND I' I T).
  - pose proof (find_none _ _ E r I) as X. cbn in X. rewrite String.eqb_refl in X. discriminate.
Qed.

Lemma wf_set : forall (its its' : items),
  wf_items its -> map fst its' = map fst its ->
  (forall k i', sfind k its' = Some i' -> exists i, sfind k its = Some i /\ it_request i' = it_request i) ->
  wf_items its'.
Proof.
  intros its its' [ND W] K H. split; [rewrite K; exact ND|].
  intros k i' E. destruct (H k i' E) as (i & E' & ->). apply W, E'.
Qed.

Lemma wf_entries : forall rs, NoDup (map r_string rs) ->
  wf_items (map (fun r => (r_string r, new_item (F := F) r)) rs).
Proof.
  intros rs ND. split; [rewrite map_map; exact ND|].
  intros k i E. apply sfind_in in E. apply in_map_iff in E. destruct E as (r & [= <- <-] & _). reflexivity.
Qed.

Lemma file_map_groups_ok : forall ignore allow listing (its : items) fm its1,
  duplicate_free ignore listing -> NoDup (map fst its) ->
  file_map ignore allow listing its = Ok (fm, its1) -> groups_ok its1 fm.
Proof.
  intros ignore allow listing its fm its1 D ND H.
  destruct (file_map_partitions _ _ _ _ _ _ D H) as [NDl (NDf & P & G)].
  destruct (file_map_inv _ _ _ _ _ _ H) as (c & L & _). split.
  - eapply Permutation_NoDup; [exact P|exact NDl].
  - intros p ks k Ip Ik. destruct (G _ _ Ip) as [_ Gp].
    assert (Il : In k (map (listed_as ignore) (filter (known ignore its) listing))).
    { eapply Permutation_in; [symmetry; exact P|]. apply in_concat. exists ks. split; [|exact Ik].
      apply in_map_iff. exists (p, ks). auto. }
    apply in_map_iff in Il. destruct Il as (e & Ek & Ie). apply filter_In in Ie. destruct Ie as [Ie Kn].
    unfold known in Kn. rewrite Ek in Kn. destruct (sfind k its) as [i|] eqn:Ei; [|discriminate].
    rewrite (li_find _ _ _ _ _ _ L k), Ei. eexists. split; [reflexivity|].
    rewrite (last_entry_of _ _ _ D). rewrite <- (Gp k Ik).
    destruct (entry_of ignore listing k) as [e'|] eqn:E; [reflexivity|].
    exfalso. pose proof (find_none _ _ E e Ie) as X. cbn in X. rewrite Ek, String.eqb_refl in X. discriminate.
Qed.

(* what the scheduled tasks leave behind: every item of the file map has an answer, the others are untouched *)
Definition leaves (ANS : uri -> request -> result F -> Prop) (fm : filemap) (its its2 : items) : Prop :=
  map fst its2 = map fst its /\
  (forall k i, sfind k its = Some i ->
     (In k (concat (map snd fm)) -> exists res, sfind k its2 = Some (set_result res i) /\
                                     ANS (it_uri i) (it_request i) res) /\
     (~ In k (concat (map snd fm)) -> sfind k its2 = Some i)).

(* the end-to-end statement, whatever carries out the extraction *)
Theorem local_extract_through : forall (ANS : uri -> request -> result F -> Prop) cfg reqs res,
  (forall u listing its fm its1 its2, fdb_list u = Ok listing -> NoDup (map fst its) ->
     file_map (c_ignore_ym cfg) (c_allow_missing cfg) listing its = Ok (fm, its1) ->
     sched cfg (c_forward cfg) fm its1 = Ok ([], its2) -> leaves ANS fm its1 its2) ->
  (forall u l, fdb_list u = Ok l -> duplicate_free (c_ignore_ym cfg) l) ->
  local cfg reqs = Ok res ->
  exists u listing, fdb_list u = Ok listing /\
    Forall2 (fun r x => match entry_of (c_ignore_ym cfg) listing (r_string r) with
                        | Some e => ANS (l_uri e) r x
                        | None => c_allow_missing cfg = true /\ x = ([], [])
                        end)
            (canon_requests (c_ignore_ym cfg) false reqs) res.
Proof.
  intros ANS cfg reqs res Hf D H. unfold local_extract in H.
  destruct (build_request_map (c_ignore_ym cfg) reqs) as [[[u rs] its]| |] eqn:Eb; try discriminate.
  cbn [obind] in H. destruct (fdb_list u) as [listing| |] eqn:El; try discriminate. cbn [obind] in H.
  destruct (file_map (c_ignore_ym cfg) (c_allow_missing cfg) listing its) as [[fm its1]| |] eqn:Em; try discriminate.
  cbn [obind] in H.
  destruct (sched cfg (c_forward cfg) fm its1) as [[es its2]| |] eqn:Es; try discriminate. cbn [obind] in H.
  destruct es as [|e es]; [|discriminate]. cbn [raise_errors obind] in H.
  exists u, listing. split; [exact El|]. specialize (D u listing El).
  destruct (build_map_inv _ _ _ _ _ Eb) as (-> & -> & ND).
  set (rs := canon_requests (c_ignore_ym cfg) false reqs) in *.
  pose proof (wf_entries rs ND) as W0.
  destruct (file_map_inv _ _ _ _ _ _ Em) as (c & L & Hc).
  destruct (Hf u listing _ fm its1 its2 El (proj1 W0) Em Es) as (K2 & S). clear Hf.
  assert (W1 : wf_items its1).
  { apply (wf_set _ _ W0 (li_keys _ _ _ _ _ _ L)). intros k i' E.
    rewrite (li_find _ _ _ _ _ _ L k) in E.
    destruct (sfind k (map (fun r => (r_string r, new_item r)) rs)) as [i|]; [|discriminate].
    exists i. split; [reflexivity|]. injection E as <-.
    destruct (last_entry _ listing k); reflexivity. }
  assert (W2 : wf_items its2).
  { apply (wf_set _ _ W1 K2). intros k i' E.
    assert (Ik : In k (map fst its1)) by (rewrite <- K2; eapply sfind_key, E).
    destruct (sfind_some _ _ Ik) as (i & Ei). exists i. split; [exact Ei|].
    destruct (S k i Ei) as [S1 S2].
    destruct (in_dec string_dec k (concat (map snd fm))) as [I|NI].
    - destruct (S1 I) as (r & Er & _). rewrite Er in E. injection E as <-. reflexivity.
    - rewrite (S2 NI) in E. injection E as <-. reflexivity. }
  unfold collect_results in H. destruct (lenN (collect_items its2) =? lenN (map r_string rs))%N; [|discriminate].
  cbn [assert_ obind] in H. destruct (take_all_inv _ _ _ H) as [_ Fa].
  assert (Hloc : forall r, In r rs -> forall x,
            (exists i, sfind (r_string r) (collect_items its2) = Some i /\ it_result i = Some x) ->
            match entry_of (c_ignore_ym cfg) listing (r_string r) with
            | Some e => ANS (l_uri e) r x
            | None => c_allow_missing cfg = true /\ x = ([], [])
            end).
  { intros r Ir x (i2 & E2 & R2). rewrite collect_items_find in E2 by exact W2.
    assert (E0 : sfind (r_string r) (map (fun r => (r_string r, new_item (F := F) r)) rs) = Some (new_item r)).
    { rewrite sfind_entries by exact ND. rewrite find_request by assumption. reflexivity. }
    pose proof (li_find _ _ _ _ _ _ L (r_string r)) as E1. rewrite E0 in E1.
    rewrite (last_entry_of _ _ _ D) in E1. destruct (S _ _ E1) as [S1 S2].
    destruct (file_map_partitions _ _ _ _ _ _ D Em) as [NDl (NDf & P & G)].
    destruct (entry_of (c_ignore_ym cfg) listing (r_string r)) as [e|] eqn:Ee.
    - destruct (entry_of_some _ _ _ _ Ee) as [Ie Ek].
      destruct S1 as (x' & E2' & An).
      { eapply Permutation_in; [exact P|]. apply in_map_iff. exists e. split; [exact Ek|].
        apply filter_In. split; [exact Ie|]. unfold known. rewrite Ek, E0. reflexivity. }
      rewrite E2' in E2. injection E2 as <-. cbn in R2. injection R2 as ->. exact An.
    - assert (NI : ~ In (r_string r) (concat (map snd fm))).
      { intro I. apply (Permutation_in _ (Permutation_sym P)) in I. apply in_map_iff in I.
        destruct I as (e & Ek & Ie). apply filter_In in Ie.
        pose proof (find_none _ _ Ee e (proj1 Ie)) as X. cbn in X. rewrite Ek, String.eqb_refl in X. discriminate. }
      rewrite (S2 NI) in E2. injection E2 as <-. cbn in R2. injection R2 as <-. split; [|reflexivity].
      destruct (c_allow_missing cfg) eqn:Ea; [reflexivity|]. exfalso.
      specialize (Hc eq_refl). rewrite (li_count _ _ _ _ _ _ L) in Hc.
      destruct (all_located _ _ _ D (proj1 W0) Hc (r_string r)) as (e & X).
      + rewrite map_map. cbn. apply in_map, Ir.
      + congruence. }
  exact (Forall2_map_in _ _ _ _ _ Fa Hloc).
Qed.
(* the end-to-end statement *)
Theorem local_extract_answers : forall cfg reqs res,
  c_forward cfg = false ->
  (forall u l, fdb_list u = Ok l -> duplicate_free (c_ignore_ym cfg) l) ->
  local cfg reqs = Ok res ->
  exists u listing, fdb_list u = Ok listing /\
    Forall2 (fun r x => match entry_of (c_ignore_ym cfg) listing (r_string r) with
                        | Some e => answer_ cfg (l_uri e) r x
                        | None => c_allow_missing cfg = true /\ x = ([], [])
                        end)
            (canon_requests (c_ignore_ym cfg) false reqs) res.
Proof.
  intros cfg reqs res Hf D H. apply (local_extract_through (answer_ cfg) cfg reqs res); [|exact D|exact H].
  intros u listing its fm its1 its2 El ND Em Es. rewrite Hf in Es.
  destruct (schedule_inv cfg fm its1 its2 (file_map_groups_ok _ _ _ _ _ _ (D u listing El) ND Em) Es) as (_ & X).
  exact X.
Qed.
End Engine.
