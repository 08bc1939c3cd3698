From Coq Require Import Lia Permutation.
From Verif Require Import Base BaseLemmas ModelStrings ModelFactory SpecFactory.
Local Open Scope nat_scope.

Lemma factory_eqb_spec a b : factory_eqb a b = true <-> a = b.
Proof. destruct a, b; cbn; split; congruence. Qed.
Lemma factory_eqb_refl f : factory_eqb f f = true.
Proof. now destruct f. Qed.

(* ---- tables described by the builders in use ---- *)
Definition entries (f : factory) (bs : list (nat * builder)) : table :=
  map (fun e => (bu_name (snd e), fst e)) (filter (fun e => factory_eqb (bu_factory (snd e)) f) bs).
Definition described (p : process) (bs : list (nat * builder)) : Prop :=
  (forall f, p_single p f = Alive (entries f bs) \/ entries f bs = [] /\ (p_single p f = Absent \/ p_single p f = Destroyed)) /\
  (forall a, live a (p_live p) = live a bs).
Definition undead (p : process) : Prop := forall f, p_single p f <> Destroyed.

Lemma entries_app f a b : entries f (a ++ b) = entries f a ++ entries f b.
Proof. unfold entries. now rewrite filter_app, map_app. Qed.
Lemma entries_one f a b : entries f [(a, b)] = if factory_eqb (bu_factory b) f then [(bu_name b, a)] else [].
Proof. unfold entries. cbn. now destruct (factory_eqb _ _). Qed.
Lemma entries_in f bs n a : In (n, a) (entries f bs) <-> exists b, In (a, b) bs /\ bu_factory b = f /\ bu_name b = n.
Proof.
  unfold entries. rewrite in_map_iff. split.
  - intros ([x b] & E & I). cbn in E. injection E as <- <-. apply filter_In in I. destruct I as [I Q]. cbn in Q. apply factory_eqb_spec in Q. eauto.
  - intros (b & I & <- & <-). exists (a, b). split; [reflexivity|]. apply filter_In. split; [exact I|]. apply factory_eqb_refl.
Qed.

Lemma tfind_some n t a : tfind n t = Some a -> In (n, a) t.
Proof. induction t as [|[m x] t IH]; cbn; [discriminate|]. destruct (String.eqb_spec m n) as [->|]; intros H; [injection H as <-; auto|auto]. Qed.
Lemma tfind_none n t a : tfind n t = None -> ~ In (n, a) t.
Proof. induction t as [|[m x] t IH]; cbn; [auto|]. destruct (String.eqb_spec m n) as [->|N]; [discriminate|]. intros H [E|I]; [congruence|]. now apply IH. Qed.
Lemma live_some a l b : live a l = Some b -> In (a, b) l.
Proof. induction l as [|[x y] l IH]; cbn; [discriminate|]. destruct (Nat.eqb_spec x a) as [->|]; intros H; [injection H as <-; auto|auto]. Qed.
Lemma live_in a l b : NoDup (map fst l) -> In (a, b) l -> live a l = Some b.
Proof.
  induction l as [|[x y] l IH]; cbn; [contradiction|]. intros ND [E|I].
  - injection E as -> ->. now rewrite Nat.eqb_refl.
  - apply NoDup_cons_iff in ND. destruct ND as [N ND]. destruct (Nat.eqb_spec x a) as [->|]; [|auto].
    destruct N. apply in_map_iff. exists (a, b). auto.
Qed.
Lemma live_none a l : ~ In a (map fst l) -> live a l = None.
Proof.
  intros N. destruct (live a l) as [b|] eqn:E; [|reflexivity]. destruct N. apply in_map_iff. exists (a, b). split; [reflexivity|]. now apply live_some.
Qed.
Lemma live_app a l l' : live a (l ++ l') = match live a l with Some b => Some b | None => live a l' end.
Proof. induction l as [|[x y] l IH]; cbn; [reflexivity|]. now destruct (Nat.eqb x a). Qed.
Lemma live_filter a x l : live x (filter (fun e : nat * builder => negb (Nat.eqb (fst e) a)) l) = if Nat.eqb x a then None else live x l.
Proof.
  induction l as [|[y b] l IH]; cbn; [now destruct (Nat.eqb x a)|].
  destruct (Nat.eqb_spec y a) as [->|N]; cbn.
  - rewrite IH. destruct (Nat.eqb_spec a x) as [->|]; [now rewrite Nat.eqb_refl|reflexivity].
  - rewrite IH. destruct (Nat.eqb_spec y x) as [->|]; [|reflexivity]. destruct (Nat.eqb_spec x a); [contradiction|reflexivity].
Qed.

Section Described.
Variable p : process.
Variable bs : list (nat * builder).
Hypothesis D : described p bs.
Hypothesis addresses : NoDup (map fst bs).
Hypothesis names : unique_names (map snd bs).

Lemma table_described f t : table_of f p = Ok t -> t = entries f bs.
Proof.
  unfold table_of. destruct (proj1 D f) as [->|[E [->| ->]]]; intros H; try discriminate; injection H as <-; auto.
Qed.
Lemma table_exists f : entries f bs <> [] -> table_of f p = Ok (entries f bs).
Proof. intros N. unfold table_of. destruct (proj1 D f) as [->|[E _]]; [reflexivity|contradiction]. Qed.

Lemma same_named a a' b b' : In (a, b) bs -> In (a', b') bs -> bu_factory b = bu_factory b' -> bu_name b = bu_name b' -> b = b'.
Proof.
  intros I I' E E'. unfold unique_names in names. clear D addresses. induction bs as [|[x y] l IH]; [contradiction|].
  cbn in names. apply NoDup_cons_iff in names. destruct names as [N ND].
  destruct I as [I|I], I' as [I'|I'].
  - congruence.
  - injection I as <- <-. destruct N. rewrite E, E'. apply in_map_iff. exists b'. split; [reflexivity|]. apply in_map_iff. exists (a', b'). auto.
  - injection I' as <- <-. destruct N. rewrite <- E, <- E'. apply in_map_iff. exists b. split; [reflexivity|]. apply in_map_iff. exists (a, b). auto.
  - apply IH; auto.
Qed.

(* a name that is registered, and one that is not *)
Lemma tfind_named f n a : tfind n (entries f bs) = Some a -> exists m, In (a, mk_builder f n m) bs.
Proof.
  intros H. apply tfind_some, entries_in in H. destruct H as ([g x m] & I & E & E'). cbn in *. subst. eauto.
Qed.
Lemma tfind_unnamed f n m : tfind n (entries f bs) = None -> ~ In (mk_builder f n m) (map snd bs).
Proof.
  intros H I. apply in_map_iff in I. destruct I as ([a b] & E & I). cbn in E. subst b.
  apply (tfind_none _ _ a H). apply entries_in. eexists. split; [exact I|]. auto.
Qed.
Lemma named_in f n m a : In (a, mk_builder f n m) bs -> In (mk_builder f n m) (map snd bs).
Proof. intros I. apply in_map_iff. eexists. split; [|exact I]. reflexivity. Qed.
Lemma tfind_registered f n m : In (mk_builder f n m) (map snd bs) -> exists a, tfind n (entries f bs) = Some a /\ live a (p_live p) = Some (mk_builder f n m).
Proof.
  intros I. destruct (tfind n (entries f bs)) as [a|] eqn:E.
  - exists a. split; [reflexivity|]. rewrite (proj2 D). apply live_in; [exact addresses|].
    destruct (tfind_named _ _ _ E) as (m' & I'). apply in_map_iff in I. destruct I as ([a' b] & E' & I). cbn in E'. subst b.
    now rewrite (same_named a' a _ _ I I' eq_refl eq_refl).
  - destruct (tfind_unnamed _ _ _ E I).
Qed.

Lemma address_given f n a : get_address f n (entries f bs) = Ok a -> exists m, live a (p_live p) = Some (mk_builder f n m) /\ gives (map snd bs) f n m \/
  exists b, live a (p_live p) = Some b /\ bu_makes b = m /\ gives (map snd bs) f n m.
Proof.
  unfold get_address. destruct (tfind n (entries f bs)) as [x|] eqn:E.
  - intros [= <-]. destruct (tfind_named _ _ _ E) as (m & I). exists m. left. split; [rewrite (proj2 D); now apply live_in|].
    left. eapply named_in; eauto.
  - destruct f; try discriminate. destruct (tfind "unsupported" (entries Infos bs)) as [x|] eqn:E'; [|discriminate].
    intros [= <-]. destruct (tfind_named _ _ _ E') as (m & I). exists m. right. eexists. split; [rewrite (proj2 D); apply live_in; eauto|].
    split; [reflexivity|]. right. split; [reflexivity|]. split; [|eapply named_in; eauto]. intros y. now apply tfind_unnamed.
Qed.
Lemma given_address f n m : gives (map snd bs) f n m -> exists a b, get_address f n (entries f bs) = Ok a /\ live a (p_live p) = Some b /\ bu_makes b = m.
Proof.
  unfold get_address. intros [I|(-> & N & I)].
  - destruct (tfind_registered _ _ _ I) as (a & -> & L). exists a. eexists. split; [reflexivity|]. split; [exact L|reflexivity].
  - destruct (tfind n (entries Infos bs)) as [x|] eqn:E.
    + destruct (tfind_named _ _ _ E) as (m' & I'). destruct (N m'). eapply named_in; eauto.
    + destruct (tfind_registered _ _ _ I) as (a & -> & L). exists a. eexists. split; [reflexivity|]. split; [exact L|reflexivity].
Qed.
Lemma given_entries f n m : gives (map snd bs) f n m -> entries f bs <> [].
Proof.
  intros G E. destruct (given_address f n m G) as (a & b & H & _). rewrite E in H. destruct f; discriminate H.
Qed.
Lemma given_unique f n m m' : gives (map snd bs) f n m -> gives (map snd bs) f n m' -> m = m'.
Proof.
  intros G G'. destruct (given_address _ _ _ G) as (a & b & A & L & <-). destruct (given_address _ _ _ G') as (a' & b' & A' & L' & <-).
  rewrite A in A'. injection A' as <-. rewrite L in L'. injection L' as <-. reflexivity.
Qed.

Theorem lookup_gives f n m : lookup f n p = Ok m <-> gives (map snd bs) f n m.
Proof.
  unfold lookup, make. split.
  - destruct (table_of f p) as [t| |] eqn:T; try discriminate. cbn [obind]. apply table_described in T. subst t.
    destruct (get_address f n (entries f bs)) as [a| |] eqn:A; try discriminate. cbn [obind].
    destruct (address_given _ _ _ A) as (m' & [(L & G)|(b & L & <- & G)]); rewrite L; intros [= <-]; exact G.
  - intros G. rewrite table_exists by (eapply given_entries; eauto). cbn [obind].
    destruct (given_address _ _ _ G) as (a & b & -> & L & <-). cbn [obind]. now rewrite L.
Qed.
Lemma lookup_defined f n : undead p -> lookup f n p <> UB.
Proof.
  intros U. unfold lookup, table_of. specialize (U f). destruct (proj1 D f) as [E|[E [E'|E']]].
  - rewrite E. cbn [obind]. destruct (get_address f n (entries f bs)) as [a| |] eqn:A.
    + cbn [obind]. unfold make. destruct (address_given _ _ _ A) as (m' & [(L & G)|(b & L & <- & G)]); rewrite L; discriminate.
    + discriminate.
    + unfold get_address in A. destruct (tfind n _), f; try discriminate. destruct (tfind _ _); discriminate.
  - rewrite E'. cbn. destruct f; discriminate.
  - contradiction.
Qed.
Lemma uses_got us ms : uses us p = Ok ms <-> Forall2 (fun x m => gives (map snd bs) (fst x) (snd x) m) us ms.
Proof.
  unfold uses. revert ms. induction us as [|u us IH]; intros ms; cbn [mapM].
  - split; [intros [= <-]; constructor|intros H; inversion H; reflexivity].
  - split.
    + destruct (lookup (fst u) (snd u) p) as [m| |] eqn:L; try discriminate. cbn [obind]. destruct (mapM _ us) as [r| |] eqn:M; try discriminate.
      cbn [obind]. intros [= <-]. constructor; [now apply lookup_gives|now apply IH].
    + intros H. inversion H as [|? m ? r G R]; subst. apply lookup_gives in G. rewrite G. cbn [obind]. apply IH in R. now rewrite R.
Qed.
End Described.

(* ---- one builder comes, one goes ---- *)
Definition starts_factory (f : factory) (bs : list (nat * builder)) : list pending :=
  match entries f bs, f with [], Jumpers => [EndFactory Jumpers] | [], Infos => [EndFactory Infos] | _, _ => [] end.

Lemma entries_tfind_new bs b : unique_names (map snd bs ++ [b]) -> tfind (bu_name b) (entries (bu_factory b) bs) = None.
Proof.
  intros U. destruct (tfind _ _) as [a|] eqn:E; [|reflexivity]. apply tfind_some, entries_in in E. destruct E as (b' & I & E & E').
  unfold unique_names in U. rewrite map_app in U. cbn in U. apply NoDup_remove_2 in U. destruct U. rewrite app_nil_r.
  apply in_map_iff. exists b'. split; [now rewrite E, E'|]. apply in_map_iff. exists (a, b'). auto.
Qed.
Lemma nodup_snoc {A} (l : list A) x : NoDup l -> ~ In x l -> NoDup (l ++ [x]).
Proof. intros ND N. apply (NoDup_Add (a := x) (l := l)); [|auto]. rewrite <- (app_nil_r l) at 1. apply Add_app. Qed.
Lemma entries_tfind_old bs b : unique_names (map snd bs) -> tfind (bu_name b) (entries (bu_factory b) bs) = None -> unique_names (map snd bs ++ [b]).
Proof.
  intros U E. unfold unique_names. rewrite map_app. cbn [map]. apply nodup_snoc; [exact U|]. intros I. apply in_map_iff in I.
  destruct I as (b' & E' & I). apply in_map_iff in I. destruct I as ([a x] & E2 & I). cbn in E2. subst x. injection E' as E1 E2.
  apply (tfind_none _ _ a E). apply entries_in. eauto.
Qed.

Lemma instance_described p bs f : described p bs -> undead p ->
  exists e, instance f p = Ok (entries f bs, e) /\ (p_single p f = Absent -> entries f bs = []).
Proof.
  intros D U. unfold instance. destruct (proj1 D f) as [->|[E [E'|E']]]; [eexists; split; [reflexivity|discriminate]| |destruct (U f); exact E'].
  rewrite E', E. eexists. split; [reflexivity|auto].
Qed.

(* the state before: alive exactly when filled, as while the program starts *)
Definition filled (p : process) (bs : list (nat * builder)) : Prop :=
  forall f, p_single p f = match entries f bs with [] => Absent | t => Alive t end.
Lemma filled_undead p bs : filled p bs -> undead p.
Proof. intros H f. rewrite (H f). now destruct (entries f bs). Qed.

Lemma set_described p bs a b e : described p bs -> e = entries (bu_factory b) bs ->
  ~ In a (map fst bs) ->
  described (mk_process (p_single (set_single (bu_factory b) (Alive (e ++ [(bu_name b, a)])) p)) ((a, b) :: p_live p)) (bs ++ [(a, b)]).
Proof.
  intros D -> N. split.
  - intros f. cbn [p_single set_single]. rewrite entries_app, entries_one. destruct (factory_eqb f (bu_factory b)) eqn:E.
    + apply factory_eqb_spec in E. subst f. rewrite factory_eqb_refl. now left.
    + assert (factory_eqb (bu_factory b) f = false) as -> by (destruct f, (bu_factory b); cbn in *; congruence). rewrite app_nil_r. apply D.
  - intros x. cbn [p_live live]. rewrite live_app, (proj2 D). cbn [live]. destruct (Nat.eqb_spec a x) as [->|]; [|destruct (live x bs); reflexivity].
    now rewrite (live_none x bs N).
Qed.

Lemma construct_ok p bs a b : described p bs -> filled p bs -> ~ In a (map fst bs) -> unique_names (map snd bs ++ [b]) ->
  exists q, construct a b p = Ok (q, EndBuilder a :: starts_factory (bu_factory b) bs) /\ described q (bs ++ [(a, b)]) /\ filled q (bs ++ [(a, b)]).
Proof.
  intros D Fi N U. unfold construct.
  assert (instance (bu_factory b) p = Ok (entries (bu_factory b) bs, starts_factory (bu_factory b) bs)) as ->.
  { unfold instance, starts_factory. rewrite (Fi (bu_factory b)). destruct (entries (bu_factory b) bs); destruct (bu_factory b); reflexivity. }
  cbn [obind]. unfold enregister. rewrite entries_tfind_new by exact U. cbn [obind]. eexists. split; [reflexivity|].
  split; [exact (set_described p bs a b _ D eq_refl N)|].
  intros f. cbn [p_single set_single]. rewrite entries_app, entries_one. destruct (factory_eqb f (bu_factory b)) eqn:E.
  - apply factory_eqb_spec in E. subst f. rewrite factory_eqb_refl. destruct (entries (bu_factory b) bs); reflexivity.
  - assert (factory_eqb (bu_factory b) f = false) as -> by (destruct f, (bu_factory b); cbn in *; congruence). rewrite app_nil_r. apply Fi.
Qed.
Lemma construct_new p bs a b x : described p bs -> undead p -> unique_names (map snd bs) -> construct a b p = Ok x -> unique_names (map snd bs ++ [b]).
Proof.
  intros D Un U. unfold construct. destruct (instance_described p bs (bu_factory b) D Un) as (e & -> & _). cbn [obind]. unfold enregister.
  destruct (tfind _ _) eqn:E; [destruct (bu_factory b); discriminate|]. intros _. now apply entries_tfind_old.
Qed.

Lemma terase_last t n a : tfind n t = None -> terase n (t ++ [(n, a)]) = t.
Proof.
  unfold terase. rewrite filter_app. cbn. rewrite String.eqb_refl. cbn. rewrite app_nil_r.
  induction t as [|[m x] t IH]; cbn; [reflexivity|]. destruct (String.eqb m n); [discriminate|]. cbn. intros H. now rewrite IH.
Qed.
Lemma tfind_last t n a : exists x, tfind n (t ++ [(n, a)]) = Some x.
Proof. induction t as [|[m x] t IH]; cbn; [rewrite String.eqb_refl; eauto|]. destruct (String.eqb m n); eauto. Qed.

Lemma destroy_ok p bs a b : described p (bs ++ [(a, b)]) -> ~ In a (map fst bs) -> unique_names (map snd bs ++ [b]) ->
  exists q, destroy a p = Ok q /\ described q bs.
Proof.
  intros D N U. unfold destroy. rewrite (proj2 D), live_app, (live_none a bs N). cbn [live]. rewrite Nat.eqb_refl.
  assert (entries (bu_factory b) (bs ++ [(a, b)]) = entries (bu_factory b) bs ++ [(bu_name b, a)]) as E.
  { now rewrite entries_app, entries_one, factory_eqb_refl. }
  unfold instance. destruct (proj1 D (bu_factory b)) as [->|[X _]]; [|rewrite E in X; destruct (entries _ bs); discriminate].
  rewrite E. cbn [obind]. pose proof (entries_tfind_new bs b U) as Nw.
  assert (deregister (bu_factory b) (bu_name b) (entries (bu_factory b) bs ++ [(bu_name b, a)]) = Ok (entries (bu_factory b) bs)) as ->.
  { unfold deregister. destruct (tfind_last (entries (bu_factory b) bs) (bu_name b) a) as (x & X).
    rewrite (terase_last _ _ _ Nw). destruct (bu_factory b); rewrite ?X; reflexivity. }
  cbn [obind]. eexists. split; [reflexivity|]. split.
  - intros f. cbn [p_single set_single]. destruct (factory_eqb f (bu_factory b)) eqn:Ef.
    + apply factory_eqb_spec in Ef. subst f. now left.
    + destruct (proj1 D f) as [X|X]; rewrite entries_app, entries_one in X;
        assert (factory_eqb (bu_factory b) f = false) as R by (destruct f, (bu_factory b); cbn in *; congruence); rewrite R, app_nil_r in X; auto.
  - intros x. cbn [p_live set_single]. rewrite live_filter, (proj2 D), live_app. cbn [live]. destruct (Nat.eqb_spec x a) as [->|N'].
    + now rewrite (live_none a bs N).
    + destruct (live x bs); [reflexivity|]. destruct (Nat.eqb_spec a x); [congruence|reflexivity].
Qed.

(* ---- the objects of a program ---- *)
Fixpoint addressed (a : nat) (l : list object) : list (nat * builder) :=
  match l with
  | [] => []
  | ABuilder b :: r => (a, b) :: addressed (S a) r
  | AClient _ _ :: r => addressed (S a) r
  end.
Lemma addressed_app a l l' : addressed a (l ++ l') = addressed a l ++ addressed (a + length l) l'.
Proof.
  revert a. induction l as [|[b|u v] l IH]; intros a; cbn [addressed app length].
  - now rewrite Nat.add_0_r.
  - rewrite IH. cbn. now rewrite Nat.add_succ_r.
  - rewrite IH. now rewrite Nat.add_succ_r.
Qed.
Lemma addressed_bounds a l x : In x (map fst (addressed a l)) -> a <= x < a + length l.
Proof.
  revert a. induction l as [|[b|u v] l IH]; intros a; cbn [addressed map In length]; [contradiction| |].
  - intros [<-|I]; [cbn; lia|]. apply IH in I. lia.
  - intros I. apply IH in I. lia.
Qed.
Lemma addressed_nodup a l : NoDup (map fst (addressed a l)).
Proof.
  revert a. induction l as [|[b|u v] l IH]; intros a; cbn; [constructor| |apply IH]. constructor; [|apply IH].
  intros I. apply addressed_bounds in I. lia.
Qed.
Lemma addressed_builders a l : map snd (addressed a l) = all_builders l.
Proof. revert a. induction l as [|[b|u v] l IH]; intros a; cbn; auto. now rewrite IH. Qed.
Lemma all_builders_app l l' : all_builders (l ++ l') = all_builders l ++ all_builders l'.
Proof. apply flat_map_app. Qed.
Lemma nodup_front {A} (l l' : list A) : NoDup (l ++ l') -> NoDup l.
Proof.
  induction l as [|x l IH]; cbn; [constructor|]. intros ND. apply NoDup_cons_iff in ND. destruct ND as [N ND]. constructor; [|auto].
  intros I. apply N, in_or_app. now left.
Qed.
Lemma unique_front bs bs' : unique_names (bs ++ bs') -> unique_names bs.
Proof. unfold unique_names. rewrite map_app. apply nodup_front. Qed.

Definition ends_of_one (before : list object) (x : object) : list pending :=
  match x with
  | ABuilder b => EndBuilder (length before) :: starts_factory (bu_factory b) (addressed 0 before)
  | AClient _ v => [EndClient v]
  end.
Fixpoint ends_from (before rest : list object) (acc : list pending) : list pending :=
  match rest with [] => acc | x :: r => ends_from (before ++ [x]) r (ends_of_one before x ++ acc) end.
Lemma ends_from_snoc rest before x acc : ends_from before (rest ++ [x]) acc = ends_of_one (before ++ rest) x ++ ends_from before rest acc.
Proof.
  revert before acc. induction rest as [|y rest IH]; intros before acc; cbn [app ends_from]; [now rewrite app_nil_r|].
  rewrite IH, <- app_assoc. reflexivity.
Qed.
Lemma fresh_address before : ~ In (length before) (map fst (addressed 0 before)).
Proof. intros I. apply addressed_bounds in I. lia. Qed.

Theorem start_ok rest : forall before p acc, described p (addressed 0 before) -> filled p (addressed 0 before) ->
  unique_names (all_builders (before ++ rest)) ->
  (forall a u v b, rest = a ++ AClient u v :: b -> served_by (before ++ a) u) ->
  exists q log, start (length before) rest p acc = Ok (q, ends_from before rest acc, log) /\ start_told before rest log /\
    described q (addressed 0 (before ++ rest)) /\ filled q (addressed 0 (before ++ rest)).
Proof.
  induction rest as [|[b|u v] rest IH]; intros before p acc D Fi U Sv; cbn [start ends_from start_told].
  - rewrite app_nil_r. eauto 10.
  - destruct (construct_ok p (addressed 0 before) (length before) b D Fi) as (q & -> & D' & F').
    + apply fresh_address.
    + rewrite addressed_builders. rewrite all_builders_app in U. change (all_builders (ABuilder b :: rest)) with ([b] ++ all_builders rest) in U. rewrite app_assoc in U. now apply unique_front in U.
    + cbn [obind]. assert (addressed 0 (before ++ [ABuilder b]) = addressed 0 before ++ [(length before, b)]) as Ea by now rewrite addressed_app.
      rewrite <- Ea in D', F'.
      destruct (IH (before ++ [ABuilder b]) q (EndBuilder (length before) :: starts_factory (bu_factory b) (addressed 0 before) ++ acc) D' F') as (q' & log & E & T & R).
      * now rewrite <- app_assoc.
      * intros a u v b' ->. rewrite <- app_assoc. apply (Sv (ABuilder b :: a) u v b'). reflexivity.
      * rewrite app_length, Nat.add_1_r in E. rewrite <- app_assoc in R. exists q', log. cbn [ends_of_one app]. split; [exact E|]. split; [exact T|exact R].
  - assert (served_by before u) as Su by (rewrite <- (app_nil_r before); apply (Sv [] u v rest); reflexivity).
    assert (exists xs, got before u xs) as (xs & G).
    { unfold served_by in Su. clear - Su. induction Su as [|x l (m & G) _ (ms & H)]; [exists []; constructor|]. exists (m :: ms). now constructor. }
    assert (uses u p = Ok xs) as ->.
    { apply (uses_got p (addressed 0 before) D (addressed_nodup _ _)); rewrite addressed_builders; [|exact G].
      rewrite all_builders_app in U. now apply unique_front in U. }
    cbn [obind]. assert (addressed 0 (before ++ [AClient u v]) = addressed 0 before) as Ea by (rewrite addressed_app; cbn; apply app_nil_r).
    destruct (IH (before ++ [AClient u v]) p (EndClient v :: acc)) as (q' & log & E & T & R).
    + now rewrite Ea.
    + now rewrite Ea.
    + now rewrite <- app_assoc.
    + intros a u' v' b' ->. rewrite <- app_assoc. apply (Sv (AClient u v :: a) u' v' b'). reflexivity.
    + rewrite app_length, Nat.add_1_r in E. rewrite <- app_assoc in R. rewrite E. cbn [obind]. exists q', (xs ++ log). cbn [ends_of_one app].
      split; [reflexivity|]. split; [eauto|exact R].
Qed.

Theorem start_only rest : forall before p acc x, described p (addressed 0 before) -> filled p (addressed 0 before) ->
  unique_names (all_builders before) -> start (length before) rest p acc = Ok x ->
  unique_names (all_builders (before ++ rest)) /\ (forall a u v b, rest = a ++ AClient u v :: b -> served_by (before ++ a) u).
Proof.
  induction rest as [|[b|u v] rest IH]; intros before p acc x D Fi U H; cbn [start] in H.
  - rewrite app_nil_r. split; [exact U|]. intros [|? ?] u v b E; discriminate.
  - destruct (construct (length before) b p) as [[q e]| |] eqn:C; try discriminate. cbn [obind] in H.
    assert (unique_names (all_builders (before ++ [ABuilder b]))) as U'.
    { rewrite all_builders_app. cbn. rewrite <- (addressed_builders 0 before).
      eapply construct_new; [exact D|eapply filled_undead; eauto|now rewrite addressed_builders|exact C]. }
    destruct (construct_ok p (addressed 0 before) (length before) b D Fi) as (q' & C' & D' & F').
    + apply fresh_address.
    + rewrite addressed_builders. rewrite all_builders_app in U'. exact U'.
    + rewrite C in C'. injection C' as <- ->. assert (addressed 0 (before ++ [ABuilder b]) = addressed 0 before ++ [(length before, b)]) as Ea by now rewrite addressed_app.
      rewrite <- Ea in D', F'. destruct (IH (before ++ [ABuilder b]) q ((EndBuilder (length before) :: starts_factory (bu_factory b) (addressed 0 before)) ++ acc) x D' F' U') as [A B].
      * rewrite app_length, Nat.add_1_r. exact H.
      * rewrite <- app_assoc in A. split; [exact A|]. intros [|y a] u v b' E; [discriminate|]. injection E as <- ->.
        specialize (B a u v b' eq_refl). now rewrite <- app_assoc in B.
  - destruct (uses u p) as [xs| |] eqn:Us; try discriminate. cbn [obind] in H.
    destruct (start (S (length before)) rest p (EndClient v :: acc)) as [y| |] eqn:St; try discriminate.
    apply (uses_got p (addressed 0 before) D (addressed_nodup _ _)) in Us; [|now rewrite addressed_builders]. rewrite addressed_builders in Us.
    assert (addressed 0 (before ++ [AClient u v]) = addressed 0 before) as Ea by (rewrite addressed_app; cbn; apply app_nil_r).
    assert (all_builders (before ++ [AClient u v]) = all_builders before) as Eb by (rewrite all_builders_app; cbn; apply app_nil_r).
    destruct (IH (before ++ [AClient u v]) p (EndClient v :: acc) y) as [A B].
    + now rewrite Ea.
    + now rewrite Ea.
    + now rewrite Eb.
    + rewrite app_length, Nat.add_1_r. exact St.
    + rewrite <- app_assoc in A. split; [exact A|]. intros [|z a] u' v' b' E.
      * injection E as -> -> ->. rewrite app_nil_r. clear - Us. unfold served_by. induction Us; constructor; eauto.
      * injection E as <- ->. specialize (B a u' v' b' eq_refl). now rewrite <- app_assoc in B.
Qed.

Lemma exit_told_snoc rest : forall before x log, exit_told before (rest ++ [x]) log <->
  exists xs ys, log = xs ++ ys /\ match x with ABuilder _ => xs = [] | AClient _ v => got (before ++ rest) v xs end /\ exit_told before rest ys.
Proof.
  induction rest as [|[b|u v] rest IH]; intros before x log; cbn [app exit_told].
  - rewrite app_nil_r. destruct x as [b|u v]; cbn [exit_told].
    + split; [intros ->; exists [], []; auto|intros (xs & ys & -> & -> & ->); reflexivity].
    + split.
      * intros (ys & xs & -> & -> & G). exists xs, []. rewrite app_nil_r. auto.
      * intros (xs & ys & -> & G & ->). exists [], xs. rewrite app_nil_r. auto.
  - rewrite IH. assert ((before ++ [ABuilder b]) ++ rest = before ++ ABuilder b :: rest) as -> by now rewrite <- app_assoc. reflexivity.
  - split.
    + intros (ys & xs & -> & H & G). apply IH in H. destruct H as (xs' & ys' & -> & H & T). rewrite <- app_assoc in H. exists xs', (ys' ++ xs).
      rewrite app_assoc. split; [reflexivity|]. split; [exact H|]. eauto.
    + intros (xs & ys & -> & H & ys' & xs' & -> & T & G). exists (xs ++ ys'), xs'. split; [now rewrite app_assoc|]. split; [|exact G].
      apply IH. exists xs, ys'. rewrite <- app_assoc. auto.
Qed.

Lemma end_factory p bs b a r : described p bs ->
  exists q, described q bs /\ finish (starts_factory (bu_factory b) bs ++ r) p = finish r q /\ a = a :> nat.
Proof.
  intros D. unfold starts_factory. destruct (entries (bu_factory b) bs) as [|e t] eqn:E.
  2: { exists p. auto. }
  assert (forall f, entries f bs = [] -> described (set_single f Destroyed p) bs) as X.
  { intros f Ef. split; [|apply D]. intros g. cbn [p_single set_single]. destruct (factory_eqb g f) eqn:Eg; [|apply D].
    apply factory_eqb_spec in Eg. subst g. right. auto. }
  destruct (bu_factory b); cbn [app finish]; eauto.
Qed.

Theorem finish_told l : forall p, described p (addressed 0 l) -> unique_names (all_builders l) -> forall log,
  (exists p', finish (ends_from [] l []) p = Ok (p', log)) <-> exit_told [] l log.
Proof.
  induction l as [|x l IH] using rev_ind; intros p D U log.
  - cbn. split; [intros (p' & [= _ <-]); reflexivity|intros ->; eauto].
  - rewrite ends_from_snoc, exit_told_snoc. cbn [app]. destruct x as [b|u v]; cbn [ends_of_one].
    + rewrite addressed_app in D. cbn [addressed Nat.add] in D.
      assert (unique_names (map snd (addressed 0 l) ++ [b])) as U1 by (rewrite addressed_builders; rewrite all_builders_app in U; exact U).
      destruct (destroy_ok p (addressed 0 l) (length l) b D (fresh_address l) U1) as (q & E & Dq).
      cbn [app finish]. rewrite E. cbn [obind].
      destruct (end_factory q (addressed 0 l) b 0 (ends_from [] l []) Dq) as (q' & Dq' & -> & _).
      assert (unique_names (all_builders l)) as U' by (rewrite all_builders_app in U; now apply unique_front in U).
      rewrite (IH q' Dq' U' log). split; [intros T; exists [], log; auto|intros (xs & ys & -> & -> & T); exact T].
    + rewrite addressed_app in D. cbn [addressed] in D. rewrite app_nil_r in D.
      assert (unique_names (all_builders l)) as U' by (rewrite all_builders_app in U; now apply unique_front in U).
      cbn [app finish].
      assert (forall xs, uses v p = Ok xs <-> got l v xs) as G.
      { intros xs. rewrite (uses_got p (addressed 0 l) D (addressed_nodup _ _)); rewrite addressed_builders; [reflexivity|exact U']. }
      split.
      * intros (p' & H). destruct (uses v p) as [xs| |] eqn:Us; try discriminate. cbn [obind] in H.
        destruct (finish (ends_from [] l []) p) as [[q ys]| |] eqn:Fn; try discriminate. cbn [obind] in H. injection H as <- <-.
        exists xs, ys. split; [reflexivity|]. split; [now apply G|]. apply (IH p D U'). eauto.
      * intros (xs & ys & -> & Gx & T). apply G in Gx. rewrite Gx. cbn [obind]. apply (IH p D U') in T. destruct T as (p' & ->). cbn [obind]. eauto.
Qed.

Lemma exit_served rest : forall before, (exists log, exit_told before rest log) <->
  (forall a u v b, rest = a ++ AClient u v :: b -> served_by (before ++ a) v).
Proof.
  induction rest as [|[b|u v] rest IH]; intros before; cbn [exit_told].
  - split; [|eauto]. intros _ [|? ?] u v b E; discriminate.
  - rewrite IH. split.
    + intros H [|x a] u v b' E; [discriminate|]. injection E as <- ->. specialize (H a u v b' eq_refl). now rewrite <- app_assoc in H.
    + intros H a u v b' ->. rewrite <- app_assoc. apply (H (ABuilder b :: a) u v b'). reflexivity.
  - split.
    + intros (log & ys & xs & -> & T & G) [|x a] u' v' b' E.
      * injection E as -> -> ->. rewrite app_nil_r. clear - G. unfold served_by, got in *. induction G; constructor; eauto.
      * injection E as <- ->. assert (exists log, exit_told (before ++ [AClient u v]) (a ++ AClient u' v' :: b') log) as X by eauto.
        apply IH with (a := a) (u := u') (v := v') (b := b') in X; [|reflexivity]. now rewrite <- app_assoc in X.
    + intros H. assert (exists ys, exit_told (before ++ [AClient u v]) rest ys) as (ys & T).
      { apply IH. intros a u' v' b' ->. rewrite <- app_assoc. apply (H (AClient u v :: a) u' v' b'). reflexivity. }
      assert (served_by before v) as Sv by (rewrite <- (app_nil_r before); apply (H [] u v rest); reflexivity).
      assert (exists xs, got before v xs) as (xs & G).
      { unfold served_by in Sv. clear - Sv. induction Sv as [|x l (m & G) _ (ms & H)]; [exists []; constructor|]. exists (m :: ms). now constructor. }
      exists (ys ++ xs), ys, xs. auto.
Qed.

Lemma fresh_described : described fresh_process (addressed 0 []).
Proof. split; [intros f; right; cbn; auto|reflexivity]. Qed.
Lemma fresh_filled : filled fresh_process (addressed 0 []).
Proof. intros f. reflexivity. Qed.

Theorem life l : unique_names (all_builders l) -> starts_served l -> exits_served l ->
  exists p log log', lives l p log log' /\ start_told [] l log /\ exit_told [] l log' /\
    (forall f n m, lookup f n p = Ok m <-> gives (all_builders l) f n m) /\ (forall f n, lookup f n p <> UB).
Proof.
  intros U S1 S2. destruct (start_ok l [] fresh_process [] fresh_described fresh_filled U) as (p & log & E & T & D & Fi).
  { intros a u v b ->. cbn [app]. eapply S1. reflexivity. }
  cbn [app length] in *.
  assert (exists log', exit_told [] l log') as (log' & T').
  { apply exit_served. intros a u v b ->. eapply S2. reflexivity. }
  pose proof T' as X. apply (finish_told l p D U) in X. destruct X as (p' & X).
  exists p, log, log'. split; [exists (ends_from [] l []), p'; auto|]. split; [exact T|]. split; [exact T'|]. split.
  - intros f n m. rewrite (lookup_gives p _ D (addressed_nodup _ _)); rewrite addressed_builders; [reflexivity|exact U].
  - intros f n. apply (lookup_defined p _ D (addressed_nodup _ _)). eapply filled_undead; eauto.
Qed.

Theorem lives_only l p log log' : lives l p log log' ->
  unique_names (all_builders l) /\ starts_served l /\ exits_served l /\ start_told [] l log /\ exit_told [] l log'.
Proof.
  intros (ends & p' & E & Fn).
  destruct (start_only l [] fresh_process [] _ fresh_described fresh_filled (NoDup_nil _) E) as [U S1]. cbn [app] in *.
  assert (starts_served l) as S1' by (intros a u v b ->; eapply S1; reflexivity).
  destruct (start_ok l [] fresh_process [] fresh_described fresh_filled U S1) as (q & log0 & E' & T & D & Fi). cbn [app length] in *.
  rewrite E in E'. injection E' as <- -> <-.
  assert (exit_told [] l log') as T' by (apply (finish_told l p D U); eauto).
  split; [exact U|]. split; [exact S1'|]. split; [|auto]. intros a u v b ->.
  assert (exists y, exit_told [] (a ++ AClient u v :: b) y) as X by eauto. apply exit_served with (a := a) (u := u) (v := v) (b := b) in X; auto.
Qed.

(* ---- threads ---- *)
Definition remembers (p : process) (h : held) (last : nat -> option made) : Prop :=
  forall t, match holds t h, last t with
            | Some a, Some m => exists b, live a (p_live p) = Some b /\ bu_makes b = m
            | None, None => True
            | _, _ => False
            end.

Lemma get_address_defined f n t : get_address f n t <> UB.
Proof. unfold get_address. destruct (tfind n t), f; try discriminate. destruct (tfind _ t); discriminate. Qed.

Lemma construct_more p bs a b : described p bs -> undead p -> ~ In a (map fst bs) -> unique_names (map snd bs ++ [b]) ->
  exists q e, construct a b p = Ok (q, e) /\ described q (bs ++ [(a, b)]) /\ undead q /\ p_live q = (a, b) :: p_live p.
Proof.
  intros D Un N U. unfold construct. destruct (instance_described p bs (bu_factory b) D Un) as (e & -> & _). cbn [obind].
  unfold enregister. rewrite entries_tfind_new by exact U. cbn [obind]. do 2 eexists. split; [reflexivity|].
  split; [exact (set_described p bs a b _ D eq_refl N)|]. split; [|reflexivity].
  intros f. cbn [p_single set_single]. destruct (factory_eqb f (bu_factory b)); [discriminate|apply Un].
Qed.

Theorem threads_told es : forall bs p h last, described p bs -> undead p -> NoDup (map fst (bs ++ loads es)) ->
  unique_names (map snd (bs ++ loads es)) -> unloads_nothing es -> remembers p h last ->
  exists p' h' xs, happens es p h = Ok (p', h', xs) /\ told (map snd bs) last es xs.
Proof.
  induction es as [|e es IH]; intros bs p h last D Un ND U NU R; cbn [happens told].
  - eauto 6.
  - assert (unloads_nothing es) as NU' by (intros a I; apply (NU a); now right).
    assert (NoDup (map fst bs)) as ND0 by (rewrite map_app in ND; now apply nodup_front in ND).
    assert (unique_names (map snd bs)) as U0 by (rewrite map_app in U; now apply unique_front in U).
    destruct e as [a b|a|t f n|t|n]; cbn [happen loads flat_map app] in *.
    + change (flat_map _ es) with (loads es) in *.
      assert (bs ++ (a, b) :: loads es = (bs ++ [(a, b)]) ++ loads es) as Eq by now rewrite <- app_assoc. rewrite Eq in ND, U.
      assert (NoDup (map fst (bs ++ [(a, b)]))) as ND1 by (rewrite map_app in ND; now apply nodup_front in ND).
      assert (~ In a (map fst bs)) as N.
      { rewrite map_app in ND1. cbn in ND1. apply NoDup_remove_2 in ND1. now rewrite app_nil_r in ND1. }
      destruct (construct_more p bs a b D Un N) as (q & e & -> & Dq & Uq & Lq).
      { rewrite map_app in U. apply unique_front in U. now rewrite map_app in U. }
      cbn [obind]. destruct (IH (bs ++ [(a, b)]) q h last Dq Uq ND U NU') as (p' & h' & xs & -> & T).
      * intros t. specialize (R t). destruct (holds t h) as [x|], (last t) as [m|]; auto. destruct R as (b' & L & E). exists b'. split; [|exact E].
        rewrite Lq. cbn [live]. destruct (Nat.eqb_spec a x) as [->|]; [|exact L]. rewrite (proj2 D) in L. apply live_some in L.
        destruct N. apply in_map_iff. exists (x, b'). auto.
      * cbn [obind]. rewrite map_app in T. eauto 6.
    + destruct (NU a). now left.
    + change (flat_map _ es) with (loads es) in *.
      assert (exists t0, table_of f p = Ok t0) as (t0 & Et).
      { unfold table_of. specialize (Un f). destruct (p_single p f); eauto; contradiction. }
      rewrite Et. cbn [obind]. rewrite (table_described p bs D f t0 Et) in *.
      destruct (get_address f n (entries f bs)) as [a|x|] eqn:A; [| |destruct (get_address_defined f n _ A)].
      * cbn [obind]. assert (exists m b, live a (p_live p) = Some b /\ bu_makes b = m /\ gives (map snd bs) f n m) as (m & b & L & Em & G).
        { destruct (address_given p bs D ND0 f n a A) as (m & [(L & G)|(b & L & E & G)]); [|eauto 6]. exists m. eexists. split; [exact L|]. auto. }
        destruct (IH bs p ((t, a) :: h) (fun u => if Nat.eqb u t then Some m else last u) D Un ND U NU') as (p' & h' & xs & -> & T).
        { intros u. cbn [holds]. rewrite (Nat.eqb_sym t u). destruct (Nat.eqb u t); [eauto|apply R]. }
        cbn [obind]. do 3 eexists. split; [reflexivity|]. left. eauto.
      * cbn [obind]. destruct (IH bs p h last D Un ND U NU' R) as (p' & h' & xs & -> & T). cbn [obind].
        do 3 eexists. split; [reflexivity|]. right. split; [|eauto].
        intros m G. destruct (given_address p bs D ND0 U0 f n m G) as (a & b & A' & _). congruence.
    + change (flat_map _ es) with (loads es) in *. pose proof (R t) as Rt. destruct (holds t h) as [a|] eqn:H.
      * destruct (last t) as [m|]; [|contradiction]. destruct Rt as (b & L & E). unfold make. rewrite L. cbn [obind].
        destruct (IH bs p h last D Un ND U NU' R) as (p' & h' & xs & -> & T). cbn [obind]. do 3 eexists. split; [reflexivity|]. rewrite E. eauto.
      * destruct (last t) as [m|]; [contradiction|]. cbn [obind]. destruct (IH bs p h last D Un ND U NU' R) as (p' & h' & xs & -> & T). cbn [obind]. eauto 6.
    + change (flat_map _ es) with (loads es) in *. destruct (lookup Implementations n p) as [m|x|] eqn:L.
      * cbn [obind]. destruct (IH bs p h last D Un ND U NU' R) as (p' & h' & xs & -> & T). cbn [obind]. do 3 eexists. split; [reflexivity|].
        exists (Ok m), xs. split; [reflexivity|]. split; [exact T|]. left. exists m. split; [|reflexivity]. now apply (lookup_gives p bs D ND0 U0).
      * cbn [obind]. destruct (IH bs p h last D Un ND U NU' R) as (p' & h' & xs & -> & T). cbn [obind]. do 3 eexists. split; [reflexivity|].
        exists (Throw x), xs. split; [reflexivity|]. split; [exact T|]. right. split; [|eauto]. intros m G.
        apply (lookup_gives p bs D ND0 U0) in G. congruence.
      * destruct (lookup_defined p bs D ND0 Implementations n Un L).
Qed.

(* from the start of the program on *)
Theorem running l es p ends log : start 0 l fresh_process [] = Ok (p, ends, log) ->
  NoDup (map fst (loads es)) -> Forall (fun e => length l <= fst e) (loads es) ->
  unique_names (all_builders l ++ map snd (loads es)) -> unloads_nothing es ->
  exists p' h xs, happens es p [] = Ok (p', h, xs) /\ told (all_builders l) (fun _ => None) es xs.
Proof.
  intros E ND Hi U NU.
  destruct (start_only l [] fresh_process [] _ fresh_described fresh_filled (NoDup_nil _) E) as [U0 S1]. cbn [app] in *.
  destruct (start_ok l [] fresh_process [] fresh_described fresh_filled U0 S1) as (q & log0 & E' & _ & D & Fi). cbn [app length] in *.
  rewrite E in E'. injection E' as <- -> <-. rewrite <- (addressed_builders 0 l) in *.
  apply threads_told; auto.
  - eapply filled_undead; eauto.
  - rewrite map_app. clear - ND Hi. pose proof (addressed_nodup 0 l) as A.
    assert (forall x, In x (map fst (addressed 0 l)) -> x < length l) as B by (intros x I; apply addressed_bounds in I; lia).
    induction (map fst (addressed 0 l)) as [|x r IH]; [exact ND|]. apply NoDup_cons_iff in A. destruct A as [A1 A2]. cbn [app]. constructor.
    + intros I. apply in_app_or in I. destruct I as [I|I]; [contradiction|]. apply in_map_iff in I. destruct I as (e & <- & I).
      rewrite Forall_forall in Hi. specialize (Hi e I). specialize (B (fst e) (or_introl eq_refl)). lia.
    + apply IH; [exact A2|]. intros y I. apply B. now right.
  - now rewrite map_app.
  - intros t. exact I.
Qed.
