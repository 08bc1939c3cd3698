(* The archive plugin: invariants of all executions. *)
From Coq Require Import Lia Permutation.
From Verif Require Import Base BaseLemmas ModelStrings ModelInfo ModelLRU ModelIndex ModelCache SpecIndex SpecCache SpecEngine ModelQueue
  ModelPlugin SpecPlugin ProofsIndex ProofsCache ProofsCache2 ProofsStrings.
Local Open Scope nat_scope.

Lemma wupd_same {A} (f : nat -> A) i a : wupd f i a i = a.
Proof. unfold wupd. now rewrite Nat.eqb_refl. Qed.
Lemma wupd_other {A} (f : nat -> A) i a j : j <> i -> wupd f i a j = f j.
Proof. intros H. unfold wupd. destruct (Nat.eqb_spec j i); [contradiction|reflexivity]. Qed.

Lemma made_by_app {A} i (a b : list (nat * A)) : made_by i (a ++ b) = made_by i a ++ made_by i b.
Proof. unfold made_by. now rewrite filter_app, map_app. Qed.
Lemma made_by_one {A} i (x : A) : made_by i [(i, x)] = [x].
Proof. unfold made_by. cbn. now rewrite Nat.eqb_refl. Qed.
Lemma made_by_other {A} i j (x : A) : i <> j -> made_by i [(j, x)] = [].
Proof. intros H. unfold made_by. cbn. destruct (Nat.eqb_spec i j); [contradiction|reflexivity]. Qed.
Lemma in_made_by {A} i (x : A) l : In (i, x) l <-> In x (made_by i l).
Proof.
  unfold made_by. rewrite in_map_iff. split.
  - intros H. exists (i, x). split; [reflexivity|]. apply filter_In. cbn. now rewrite Nat.eqb_refl.
  - intros ([j y] & E & I). cbn in E. subst y. apply filter_In in I as [I E]. cbn in E. apply Nat.eqb_eq in E. now subst.
Qed.

Lemma short_not_grib bytes : (lenN bytes <? 4)%N = true -> is_grib bytes = false.
Proof. unfold lenN. destruct bytes as [|? [|? [|? [|? ?]]]]; try reflexivity. intros H. apply N.ltb_lt in H. cbn [length] in H. lia. Qed.

Section Inv.
Context {F : Type}.
Variable uniq : string -> string.
Variable g : @config.
Variable selected : list (string * string) -> outcome bool.
Variable build : list N -> outcome (info F).
Variable loc : nat -> nat -> outcome location.
Variable events : nat -> list event.
Notation act := (act uniq g selected build loc events).
Notation play := (play uniq g selected build loc events).
Notation start := (start selected build).
Notation to_index := (to_index selected build).
Notation fields := (fields selected build).
Notation fields_from := (fields_from selected build).
Notation records := (records loc).
Notation callback_outcome := (callback_outcome selected build).
Notation cfp := (cache_file_path g).
Notation rec := (string * Z * info F)%type.
Implicit Types (x : @fdb F) (s : @sys F) (fl un : list (nat * rec)).


(* ---- the fields of a prefix of the events ---- *)
Definition field_at (n : nat) (e : event) : list (nat * info F) :=
  match to_index e with Some inf => [(n, inf)] | None => [] end.

Lemma fields_from_app a b n : fields_from n (a ++ b) = fields_from n a ++ fields_from (n + length a) b.
Proof using selected build. clear loc events.
  revert n. induction a as [|e a IH]; intros n; cbn [app SpecPlugin.fields_from length]; [now rewrite Nat.add_0_r|].
  rewrite IH. replace (S n + length a) with (n + S (length a)) by lia. destruct (to_index e); reflexivity.
Qed.

Lemma firstn_snoc {A} (l : list A) n e : nth_error l n = Some e -> firstn (S n) l = firstn n l ++ [e].
Proof.
  revert n. induction l as [|x l IH]; intros [|n] H; cbn in H; try discriminate.
  - now injection H as ->.
  - cbn [firstn app]. f_equal. now apply IH.
Qed.
Lemma nth_error_lt {A} (l : list A) n e : nth_error l n = Some e -> n < length l.
Proof. intros H. apply nth_error_Some. congruence. Qed.

Lemma fields_snoc l n e : nth_error l n = Some e -> fields (firstn (S n) l) = fields (firstn n l) ++ field_at n e.
Proof using selected build. clear loc events.
  intros H. rewrite (firstn_snoc _ _ _ H). unfold SpecPlugin.fields. rewrite fields_from_app. cbn [SpecPlugin.fields_from].
  rewrite firstn_length, Nat.min_l by (apply nth_error_lt in H; lia). unfold field_at. cbn [Nat.add].
  destruct (to_index e); reflexivity.
Qed.

Lemma fields_from_in l : forall n m inf, In (m, inf) (fields_from n l) <->
  exists k e, m = n + k /\ nth_error l k = Some e /\ to_index e = Some inf.
Proof using selected build. clear loc events.
  induction l as [|e l IH]; intros n m inf; cbn [SpecPlugin.fields_from].
  - split; [intros []|]. intros ([|k] & e & _ & H & _); discriminate.
  - assert (G : In (m, inf) (fields_from (S n) l) <-> exists k e0, m = n + S k /\ nth_error l k = Some e0 /\ to_index e0 = Some inf).
    { rewrite IH. split; intros (k & e0 & E & H); exists k, e0; (split; [lia|exact H]). }
    destruct (to_index e) as [i0|] eqn:Et.
    + cbn [In]. rewrite G. split.
      * intros [[= <- <-]|(k & e0 & E & H)]; [exists 0, e; repeat split; auto; lia|exists (S k), e0; auto].
      * intros ([|k] & e0 & E & H & H'); cbn in H; [left; injection H as <-; rewrite Et in H'; injection H' as <-; f_equal; lia|].
        right. exists k, e0. auto.
    + rewrite G. split.
      * intros (k & e0 & E & H). exists (S k), e0. auto.
      * intros ([|k] & e0 & E & H & H'); cbn in H; [injection H as <-; congruence|]. exists k, e0. auto.
Qed.
Lemma fields_in l n inf : In (n, inf) (fields l) <-> exists e, nth_error l n = Some e /\ to_index e = Some inf.
Proof using selected build. clear loc events.
  unfold SpecPlugin.fields. rewrite fields_from_in. cbn [Nat.add]. split.
  - intros (k & e & -> & H). eauto.
  - intros (e & H). exists n, e. auto.
Qed.

Lemma records_app i (a b : list (nat * info F)) : records i (a ++ b) = records i a ++ records i b.
Proof. unfold SpecPlugin.records. apply flat_map_app. Qed.

(* ---- one FDB object ---- *)
Definition waiting x : list (nat * info F) :=
  match d_agg x with
  | None => []
  | Some a => match a_consumer a with KWait e => [e] | _ => [] end ++ a_queue a
  end.
Definition offered x : list (nat * info F) := match d_pc x with UEmplace e => [e] | _ => [] end.
Definition inflight x := waiting x ++ offered x.

Record good (i : nat) x fl un : Prop := {
  G_len : length (d_log x) <= length (events i);
  G_log : d_log x = map callback_outcome (firstn (length (d_log x)) (events i));
  (* everything taken up so far is inserted, or on its way *)
  G_fields : exists done, fields (firstn (length (d_log x)) (events i)) ++ offered x = done ++ inflight x /\
               made_by i (fl ++ un) = records i done;
  G_none : d_agg x = None -> made_by i un = [];
  G_closed : forall a, d_agg x = Some a -> a_closed a = true <-> d_pc x = UJoin;
  G_done : forall a, d_agg x = Some a -> a_consumer a = KDone -> a_closed a = true /\ a_queue a = [];
  G_emplace : forall e, d_pc x = UEmplace e -> d_agg x <> None /\
                exists ev, nth_error (events i) (length (d_log x)) = Some ev /\
                           field_at (length (d_log x)) ev = [e] /\ callback_outcome ev = Ok tt;
  G_join : d_pc x = UJoin -> d_agg x <> None /\ nth_error (events i) (length (d_log x)) = Some Flush;
  G_flushed : forall k, k < length (d_log x) -> nth_error (events i) k = Some Flush ->
                exists rest, made_by i fl = records i (fields (firstn k (events i))) ++ rest
}.

Lemma good_new i : good i fdb_new [] [].
Proof.
  constructor; cbn; try discriminate; try lia; auto.
  exists []. auto.
Qed.

(* moves of other objects *)
Lemma good_other_insert i j x fl un r : i <> j -> good i x fl un -> good i x fl (un ++ [(j, r)]).
Proof.
  intros N [? ? H3 H4 ? ? ? ? ?]. constructor; auto.
  - destruct H3 as (d & E1 & E2). exists d. split; [exact E1|].
    rewrite !made_by_app in *. rewrite (made_by_other i j) by exact N. now rewrite app_nil_r.
  - intros E. rewrite made_by_app, (made_by_other i j) by exact N. rewrite H4 by exact E. reflexivity.
Qed.
Lemma good_other_flush i x fl un : good i x fl un -> good i x (fl ++ un) [].
Proof.
  intros [? ? H3 H4 ? ? ? ? H9]. constructor; auto.
  - rewrite app_nil_r. exact H3.
  - intros k A B. destruct (H9 k A B) as (r & E). rewrite made_by_app, E. exists (r ++ made_by i un). now rewrite <- app_assoc.
Qed.

Lemma log_snoc (l : list (outcome unit)) evs r ev : l = map callback_outcome (firstn (length l) evs) ->
  nth_error evs (length l) = Some ev -> callback_outcome ev = r ->
  l ++ [r] = map callback_outcome (firstn (length (l ++ [r])) evs).
Proof.
  intros E H R. rewrite app_length. cbn [length]. rewrite Nat.add_1_r, (firstn_snoc _ _ _ H), map_app, <- E, <- R. reflexivity.
Qed.

(* callbacks that end at once *)
Lemma good_logged i x fl un ev r : good i x fl un -> d_pc x = UIdle ->
  nth_error (events i) (length (d_log x)) = Some ev -> to_index ev = None -> callback_outcome ev = r ->
  (ev = Flush -> d_agg x = None) -> good i (logged x r) fl un.
Proof.
  intros [H1 H2 (dn & H3 & H3') H4 H5 H6 H7 H8 H9] P E T C Fl. unfold logged.
  assert (L : length (d_log x ++ [r]) = S (length (d_log x))) by (rewrite app_length; cbn; lia).
  assert (Fs : fields (firstn (S (length (d_log x))) (events i)) = fields (firstn (length (d_log x)) (events i))).
  { rewrite (fields_snoc _ _ _ E). unfold field_at. rewrite T. apply app_nil_r. }
  constructor; cbn [d_pc d_agg d_log].
  - rewrite L. apply nth_error_lt in E. lia.
  - apply log_snoc with ev; auto.
  - exists dn. rewrite L, Fs. unfold inflight, offered, waiting in *. cbn [d_pc d_agg d_log]. rewrite P in H3. auto.
  - auto.
  - intros a Ha. rewrite (H5 a Ha), P. split; discriminate.
  - auto.
  - discriminate.
  - discriminate.
  - rewrite L. intros k Hk Ek. destruct (Nat.eq_dec k (length (d_log x))) as [->|N]; [|apply H9; [lia|exact Ek]].
    rewrite E in Ek. injection Ek as ->. specialize (Fl eq_refl). exists [].
    rewrite app_nil_r. rewrite made_by_app, (H4 Fl), app_nil_r in H3'. rewrite H3'. f_equal.
    unfold inflight, waiting, offered in H3. rewrite Fl, P in H3. cbn [app] in H3. rewrite !app_nil_r in H3. now symmetry.
Qed.

Definition with_agg x : @fdb F :=
  mk_fdb UIdle (Some (match d_agg x with Some a => a | None => agg_new end)) (d_log x).

Lemma good_with_agg i x fl un : good i x fl un -> d_pc x = UIdle -> good i (with_agg x) fl un.
Proof.
  intros [H1 H2 (dn & H3 & H3') H4 H5 H6 H7 H8 H9] P. unfold with_agg. constructor; cbn [d_pc d_agg d_log]; auto; try discriminate.
  - exists dn. unfold inflight, offered, waiting in *. cbn [d_pc d_agg d_log]. rewrite P in H3.
    destruct (d_agg x); auto.
  - intros a [= <-]. destruct (d_agg x) as [a|] eqn:Ea; [rewrite (H5 a eq_refl), P|cbn]; split; discriminate.
  - intros a [= <-]. destruct (d_agg x) as [a|] eqn:Ea; [apply H6; reflexivity|cbn; discriminate].
Qed.

Lemma good_start i x fl un ev : good i x fl un -> d_pc x = UIdle ->
  nth_error (events i) (length (d_log x)) = Some ev -> good i (start x ev) fl un.
Proof.
  intros G P E. destruct ev as [key bytes|]; cbn [ModelPlugin.start].
  - destruct (selected key) as [[|]|err|] eqn:Es.
    + destruct (lenN bytes <? 4)%N eqn:El.
      * eapply good_logged; eauto; cbn; rewrite ?Es, ?(short_not_grib _ El); auto; discriminate.
      * fold (with_agg x). pose proof (good_with_agg _ _ _ _ G P) as G'.
        destruct (is_grib bytes) eqn:Eg.
        -- destruct (build bytes) as [inf|err|] eqn:Eb.
           ++ destruct G' as [H1 H2 (dn & H3 & H3') H4 H5 H6 H7 H8 H9].
              constructor; cbn [d_pc d_agg d_log] in *; auto; try discriminate.
              ** exists dn. split; [|exact H3']. unfold inflight, offered, waiting in *. cbn [d_pc d_agg d_log with_agg] in *.
                 rewrite !app_nil_r in H3. rewrite H3. rewrite <- !app_assoc. reflexivity.
              ** intros a Ha. rewrite (H5 a Ha). split; discriminate.
              ** intros e [= <-]. split; [discriminate|]. exists (Archive key bytes). split; [exact E|].
                 unfold field_at. cbn. rewrite Es, Eg, Eb. auto.
           ++ eapply good_logged; [exact G'|reflexivity|exact E| | |discriminate]; cbn; rewrite Es, Eg, Eb; reflexivity.
           ++ eapply good_logged; [exact G'|reflexivity|exact E| | |discriminate]; cbn; rewrite Es, Eg, Eb; reflexivity.
        -- eapply good_logged; [exact G'|reflexivity|exact E| | |discriminate]; cbn; rewrite Es, Eg; reflexivity.
    + eapply good_logged; eauto; cbn; rewrite ?Es; auto; discriminate.
    + eapply good_logged; eauto; cbn; rewrite ?Es; auto; discriminate.
    + eapply good_logged; eauto; cbn; rewrite ?Es; auto; discriminate.
  - destruct (d_agg x) as [a|] eqn:Ea.
    + destruct G as [H1 H2 (dn & H3 & H3') H4 H5 H6 H7 H8 H9].
      constructor; cbn [d_pc d_agg d_log] in *; auto; try discriminate.
      * exists dn. split; [|exact H3']. unfold inflight, offered, waiting in *. cbn [d_pc d_agg d_log a_queue a_consumer].
        rewrite P, Ea in H3. exact H3.
      * intros b [= <-]. cbn. split; auto.
      * intros b [= <-]. cbn. intros K. split; auto. exact (proj2 (H6 a Ea K)).
      * intros _. split; [discriminate|exact E].
    + eapply good_logged; eauto.
Qed.

(* emplace *)
Lemma good_emplace i x fl un e a : good i x fl un -> d_pc x = UEmplace e -> d_agg x = Some a ->
  a_closed a = false /\
  good i (mk_fdb UIdle (Some (mk_agg (a_queue a ++ [e]) false (a_consumer a))) (d_log x ++ [Ok tt])) fl un.
Proof.
  intros [H1 H2 (dn & H3 & H3') H4 H5 H6 H7 H8 H9] P A.
  assert (C : a_closed a = false).
  { destruct (a_closed a) eqn:C; [|reflexivity]. apply (H5 a A) in C. congruence. }
  split; [exact C|]. destruct (H7 e P) as (_ & ev & E & Fe & Ce).
  assert (L : length (d_log x ++ [Ok tt]) = S (length (d_log x))) by (rewrite app_length; cbn; lia).
  assert (Nf : ev <> Flush) by (intros ->; cbn in Fe; discriminate).
  constructor; cbn [d_pc d_agg d_log].
  - rewrite L. apply nth_error_lt in E. lia.
  - apply log_snoc with ev; auto.
  - exists dn. rewrite L, (fields_snoc _ _ _ E), Fe. split; [|exact H3'].
    unfold inflight, offered, waiting in *. cbn [d_pc d_agg d_log a_queue a_consumer]. rewrite P, A in H3.
    rewrite !app_nil_r. rewrite H3. rewrite <- !app_assoc. reflexivity.
  - discriminate.
  - intros b [= <-]. cbn. split; discriminate.
  - intros b [= <-]. cbn. intros K. apply (H6 a A) in K as [K _]. congruence.
  - discriminate.
  - discriminate.
  - rewrite L. intros k Hk Ek. apply H9; [|exact Ek]. destruct (Nat.eq_dec k (length (d_log x))) as [->|N]; [congruence|lia].
Qed.

(* the end of a flush *)
Lemma good_join i x fl un a : good i x fl un -> d_pc x = UJoin -> d_agg x = Some a -> a_consumer a = KDone ->
  a_queue a = [] /\ good i (mk_fdb UIdle None (d_log x ++ [Ok tt])) (fl ++ un) [].
Proof.
  intros [H1 H2 (dn & H3 & H3') H4 H5 H6 H7 H8 H9] P A K. destruct (H6 a A K) as [C Q]. split; [exact Q|].
  destruct (H8 P) as [_ E].
  assert (L : length (d_log x ++ [Ok tt]) = S (length (d_log x))) by (rewrite app_length; cbn; lia).
  assert (Fs : fields (firstn (S (length (d_log x))) (events i)) = fields (firstn (length (d_log x)) (events i))).
  { rewrite (fields_snoc _ _ _ E). apply app_nil_r. }
  assert (D : fields (firstn (length (d_log x)) (events i)) = dn).
  { unfold inflight, offered, waiting in H3. rewrite P, A, K, Q in H3. cbn [app] in H3. now rewrite !app_nil_r in H3. }
  constructor; cbn [d_pc d_agg d_log]; try discriminate.
  - rewrite L. apply nth_error_lt in E. lia.
  - apply log_snoc with Flush; auto.
  - exists dn. rewrite L, Fs, D. unfold inflight, offered, waiting. cbn [d_pc d_agg app]. rewrite !app_nil_r. auto.
  - auto.
  - rewrite L. intros k Hk Ek. destruct (Nat.eq_dec k (length (d_log x))) as [->|N].
    + exists []. rewrite app_nil_r, D. exact H3'.
    + destruct (H9 k) as (r & Er); [lia|exact Ek|]. rewrite made_by_app, Er. exists (r ++ made_by i un). now rewrite <- app_assoc.
Qed.

(* the consumer *)
Definition set_agg x q k : @fdb F :=
  mk_fdb (d_pc x) (Some (mk_agg q (match d_agg x with Some a => a_closed a | None => false end) k)) (d_log x).

Lemma good_pop i x fl un a e q : good i x fl un -> d_agg x = Some a -> a_consumer a = KPop -> a_queue a = e :: q ->
  good i (set_agg x q (KWait e)) fl un.
Proof.
  intros [H1 H2 (dn & H3 & H3') H4 H5 H6 H7 H8 H9] A K Q. unfold set_agg. rewrite A.
  constructor; cbn [d_pc d_agg d_log]; auto; try discriminate.
  - exists dn. split; [|exact H3']. unfold inflight, offered, waiting in *. cbn [d_pc d_agg d_log a_queue a_consumer].
    rewrite A, K, Q in H3. exact H3.
  - intros b [= <-]. cbn. apply H5, A.
  - intros b [= <-]. cbn. discriminate.
  - intros e' P. split; [discriminate|]. exact (proj2 (H7 e' P)).
  - intros P. split; [discriminate|]. exact (proj2 (H8 P)).
Qed.

Lemma good_end i x fl un a : good i x fl un -> d_agg x = Some a -> a_consumer a = KPop -> a_queue a = [] -> a_closed a = true ->
  good i (set_agg x [] KDone) fl un.
Proof.
  intros [H1 H2 (dn & H3 & H3') H4 H5 H6 H7 H8 H9] A K Q C. unfold set_agg. rewrite A.
  constructor; cbn [d_pc d_agg d_log]; auto; try discriminate.
  - exists dn. split; [|exact H3']. unfold inflight, offered, waiting in *. cbn [d_pc d_agg d_log a_queue a_consumer].
    rewrite A, K, Q in H3. exact H3.
  - intros b [= <-]. cbn. apply H5, A.
  - intros b [= <-]. cbn. auto.
  - intros e' P. split; [discriminate|]. exact (proj2 (H7 e' P)).
  - intros P. split; [discriminate|]. exact (proj2 (H8 P)).
Qed.

Lemma good_insert i x fl un a n inf p o : good i x fl un -> d_agg x = Some a -> a_consumer a = KWait (n, inf) ->
  loc i n = Ok (p, Ok o) ->
  good i (set_agg x (a_queue a) KPop) fl (un ++ [(i, (p, o, inf))]).
Proof.
  intros [H1 H2 (dn & H3 & H3') H4 H5 H6 H7 H8 H9] A K E. unfold set_agg. rewrite A.
  constructor; cbn [d_pc d_agg d_log]; auto; try discriminate.
  - exists (dn ++ [(n, inf)]). split.
    + unfold inflight, offered, waiting in *. cbn [d_pc d_agg d_log a_queue a_consumer].
      rewrite A, K in H3. rewrite H3. rewrite <- !app_assoc. reflexivity.
    + rewrite app_assoc, made_by_app, made_by_one, H3', records_app. f_equal.
      unfold SpecPlugin.records, record_of. cbn. rewrite E. reflexivity.
  - intros b [= <-]. cbn. apply H5, A.
  - intros b [= <-]. cbn. discriminate.
  - intros e' P. split; [discriminate|]. exact (proj2 (H7 e' P)).
  - intros P. split; [discriminate|]. exact (proj2 (H8 P)).
Qed.

(* ---- the InfoCache ---- *)
Definition cache_ok (d : @disk F) (c : @cache F) (fl un : list rec) : Prop :=
  (staged_ok g un (c_staged c) /\ (un = [] -> c_staged c = [])) /\
  forall p l0, complete_file d (cfp p) l0 ->
    exists l, complete_file (c_disk c) (cfp p) l /\
      forall o, mfind o l = mfind o (l0 ++ inserted_for g (cfp p) fl).

Lemma cache_ok_new d cap : cache_ok d (cache_new d cap) [] [].
Proof.
  split.
  - split; [|reflexivity]. split; [constructor|]. split; [intros ? ? []|]. intros fp H. now elim H.
  - intros p l0 H. exists l0. split; [exact H|]. intros o. cbn. now rewrite app_nil_r.
Qed.

Lemma cache_ok_insert d c (fl un : list rec) p o inf : cache_ok d c fl un -> cache_ok d (c_insert g c p o inf) fl (un ++ [(p, o, inf)]).
Proof. intros [[H1 _] H2]. split; [|exact H2]. split; [now apply insert_step|]. intros X. now apply app_eq_nil in X. Qed.

Lemma inserted_app fp (a b : list rec) : inserted_for g fp (a ++ b) = inserted_for g fp a ++ inserted_for g fp b.
Proof. unfold inserted_for. now rewrite filter_app, map_app. Qed.

Lemma cache_ok_flush d c (fl un : list rec) : cache_ok d c fl un -> exists c', c_flush uniq c true = (c', Ok tt) /\ cache_ok d c' (fl ++ un) [].
Proof.
  intros [[(ND & H1 & H2) _] H3].
  destruct (flush_append uniq (fun _ _ => UB) (fun _ => UB) (c_staged c) (c_disk c) ND) as (d' & Ef & G1 & G2).
  { intros fp x Hx. destruct (H1 _ _ Hx). eauto. }
  unfold c_flush. rewrite Ef. eexists. split; [reflexivity|]. split.
  - cbn. split; [|reflexivity]. split; [constructor|]. split; [intros ? ? []|]. intros fp H. now elim H.
  - cbn [c_disk]. intros p l0 H. destruct (H3 p l0 H) as (l & Hc & Hl).
    destruct (in_dec string_dec (cfp p) (map fst (c_staged c))) as [I|I].
    + apply in_map_iff in I as ([fp y] & Ey & I). cbn in Ey. subst fp. destruct (H1 _ _ I) as [_ ->].
      eexists. split; [exact (G2 _ _ _ I Hc)|]. intros o. rewrite inserted_app, app_assoc, !mfind_app, Hl, ins_all_lookup, mfind_app. reflexivity.
    + exists l. split.
      * apply complete_iff. rewrite G1 by exact I. now apply complete_iff.
      * intros o. rewrite inserted_app.
        assert (inserted_for g (cfp p) un = []) as ->.
        { destruct (inserted_for g (cfp p) un) eqn:Ei; [reflexivity|]. exfalso. apply I, H2. rewrite Ei. discriminate. }
        rewrite app_nil_r. apply Hl.
Qed.

(* ---- the system ---- *)
Hypothesis located : all_located loc.

Definition Inv (d : @disk F) s (st : list (nat * rec) * list (nat * rec)) : Prop :=
  y_dead s = false /\ (forall i, good i (y_fdbs s i) (fst st) (snd st)) /\
  cache_ok d (y_cache s) (map snd (fst st)) (map snd (snd st)).

Lemma Inv_new d cap : Inv d (sys_new d cap) ([], []).
Proof.
  split; [reflexivity|]. split; [intros i; apply good_new|apply cache_ok_new].
Qed.

Definition settle_opt (i : nat) (q : option (@call F)) st := match q with Some q => settle st (i, q) | None => st end.

Lemma Inv_set d s st i x : Inv d s st -> good i x (fst st) (snd st) -> Inv d (set_fdb s i x) st.
Proof.
  intros (D & G & C) Gx. split; [exact D|]. split; [|exact C]. intros j. cbn [set_fdb y_fdbs].
  destruct (Nat.eq_dec j i) as [->|N]; [now rewrite wupd_same|rewrite wupd_other by exact N; apply G].
Qed.

Lemma Inv_act d s st a s' q : Inv d s st -> act s a = Some (s', q) -> Inv d s' (settle_opt (who a) q st).
Proof.
  intros I E. pose proof I as (D & G & C). unfold ModelPlugin.act in E. rewrite D in E.
  destruct a as [i|i|i n]; cbn [who].
  - specialize (G i). destruct (d_pc (y_fdbs s i)) as [|e|] eqn:P.
    + destruct (nth_error (events i) (length (d_log (y_fdbs s i)))) as [ev|] eqn:Ev; [|discriminate].
      injection E as <- <-. cbn [settle_opt]. apply Inv_set; [exact I|]. now apply good_start.
    + destruct (d_agg (y_fdbs s i)) as [ag|] eqn:A; [|discriminate].
      destruct (good_emplace _ _ _ _ _ _ G P A) as [Cl G']. rewrite Cl in E.
      destruct (length (a_queue ag) <? queue_size); [|discriminate]. injection E as <- <-. cbn [settle_opt]. now apply Inv_set.
    + destruct (d_agg (y_fdbs s i)) as [ag|] eqn:A; [|discriminate].
      destruct (a_consumer ag) eqn:K; try discriminate.
      destruct (good_join _ _ _ _ _ G P A K) as [Q G']. rewrite Q in E.
      destruct (cache_ok_flush _ _ _ _ C) as (c' & Ec & C'). rewrite Ec in E. injection E as <- <-.
      cbn [settle_opt settle snd]. split; [exact D|]. split.
      * intros j. cbn [set_cache set_fdb y_fdbs fst snd].
        destruct (Nat.eq_dec j i) as [->|N]; [now rewrite wupd_same|rewrite wupd_other by exact N].
        apply good_other_flush. destruct I as (_ & G0 & _). apply G0.
      * cbn [set_cache y_cache fst snd]. rewrite map_app. exact C'.
  - specialize (G i). destruct (d_agg (y_fdbs s i)) as [ag|] eqn:A; [|discriminate].
    assert (SA : forall q k, mk_fdb (d_pc (y_fdbs s i)) (Some (mk_agg q (a_closed ag) k)) (d_log (y_fdbs s i))
                 = set_agg (y_fdbs s i) q k) by (intros; unfold set_agg; now rewrite A).
    destruct (a_consumer ag) as [|[n inf]|] eqn:K; [| |discriminate].
    + destruct (a_queue ag) as [|e r] eqn:Q.
      * destruct (a_closed ag) eqn:Cl; [|discriminate]. injection E as <- <-. cbn [settle_opt]. rewrite SA.
        apply Inv_set; [exact I|]. eapply good_end; eauto.
      * injection E as <- <-. cbn [settle_opt]. rewrite SA. apply Inv_set; [exact I|]. eapply good_pop; eauto.
    + destruct (y_ready s i n); [|discriminate]. destruct (located i n) as (p & o & Lo). rewrite Lo in E.
      injection E as <- <-. cbn [settle_opt settle snd fst]. rewrite SA. split; [exact D|]. split.
      * intros j. cbn [set_cache set_fdb y_fdbs fst snd].
        destruct (Nat.eq_dec j i) as [->|N]; [rewrite wupd_same; eapply good_insert; eauto|rewrite wupd_other by exact N].
        apply good_other_insert; [exact N|]. destruct I as (_ & G0 & _). apply G0.
      * cbn [set_cache y_cache fst snd]. rewrite map_app. now apply cache_ok_insert.
  - injection E as <- <-. cbn [settle_opt]. split; [reflexivity|]. split; [exact G|exact C].
Qed.

Lemma Inv_play d l : forall s st s' tr, Inv d s st -> play s l = Some (s', tr) -> Inv d s' (fold_left settle tr st).
Proof.
  induction l as [|a l IH]; intros s st s' tr I E; cbn [ModelPlugin.play] in E; [injection E as <- <-; exact I|].
  destruct (act s a) as [[s1 q]|] eqn:Ea; [|discriminate].
  destruct (play s1 l) as [[s2 tr1]|] eqn:Ep; [|discriminate]. injection E as <- <-.
  pose proof (Inv_act _ _ _ _ _ _ I Ea) as I1. pose proof (IH _ _ _ _ I1 Ep) as I2.
  destruct q as [q|]; exact I2.
Qed.

Theorem execution_inv d cap l s tr : play (sys_new d cap) l = Some (s, tr) -> Inv d s (settled tr).
Proof. intros E. exact (Inv_play _ _ _ _ _ _ (Inv_new d cap) E). Qed.
End Inv.
