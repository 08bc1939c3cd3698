(* The archive plugin: with one FDB object, the same as the serial aggregator. *)
From Coq Require Import Lia Permutation.
From Verif Require Import Base BaseLemmas ModelStrings ModelInfo ModelLRU ModelIndex ModelCache SpecIndex SpecCache SpecEngine ModelQueue
  ModelPlugin SpecPlugin ProofsIndex ProofsCache ProofsCache2 ProofsStrings ProofsPlugin2 ProofsPlugin3.
Local Open Scope nat_scope.

Section Serial.
Context {F : Type}.
Variable uniq : string -> string.
Variable g : @config.
Variable selected : list (string * string) -> outcome bool.
Variable build : list N -> outcome (info F).
Variable loc : nat -> nat -> outcome location.
Variable events : nat -> list event.
Notation act := (act uniq g selected build loc events).
Notation play := (play uniq g selected build loc events).
Notation start := (start selected build).
Notation to_index := (to_index selected build).
Notation fields := (fields selected build).
Notation records := (records loc).
Notation callback_outcome := (callback_outcome selected build).
Notation cfp := (cache_file_path g).
Notation rec := (string * Z * info F)%type.
Implicit Types (s : @sys F).

Hypothesis located : all_located loc.

(* ---- the same as the serial aggregator ---- *)
Notation serial_event := (serial_event uniq g selected build loc).
Notation serial_run := (serial_run uniq g selected build loc).

Lemma serial_app i a : forall n b c,
  serial_run i n (a ++ b) c = (let (c1, o1) := serial_run i n a c in
                               let (c2, o2) := serial_run i (n + length a) b c1 in (c2, o1 ++ o2)).
Proof.
  induction a as [|e a IH]; intros n b c; cbn [app ModelPlugin.serial_run length].
  - rewrite Nat.add_0_r. destruct (serial_run i n b c); reflexivity.
  - destruct (serial_event i n e c) as [c1 o1]. rewrite IH. replace (S n + length a) with (n + S (length a)) by lia.
    destruct (serial_run i (S n) a c1) as [c2 o2]. destruct (serial_run i (n + S (length a)) b c2). reflexivity.
Qed.

Definition drain (i : nat) (l : list (nat * info F)) (c : @cache F) : @cache F :=
  fold_left (fun c e => match loc i (fst e) with Ok (p, Ok o) => c_insert g c p o (snd e) | _ => c end) l c.
Lemma drain_app i a b c : drain i (a ++ b) c = drain i b (drain i a c).
Proof. apply fold_left_app. Qed.

(* an archive event inserts its field *)
Lemma serial_archive i n e c : e <> Flush -> serial_event i n e c = (drain i (field_at selected build n e) c, callback_outcome e).
Proof.
  intros N. destruct e as [key bytes|]; [|contradiction]. unfold field_at, drain. cbn.
  destruct (selected key) as [[|]|?|]; try reflexivity. destruct (lenN bytes <? 4)%N eqn:L.
  - rewrite (short_not_grib _ L). reflexivity.
  - destruct (is_grib bytes); [|reflexivity]. destruct (build bytes); try reflexivity.
    cbn. destruct (located i n) as (p & o & ->). reflexivity.
Qed.

Definition serial_cache i k c0 := fst (serial_run i 0 (firstn k (events i)) c0).
Lemma serial_cache_snoc i k e c0 : nth_error (events i) k = Some e ->
  serial_cache i (S k) c0 = fst (serial_event i k e (serial_cache i k c0)).
Proof.
  intros H. unfold serial_cache. rewrite (firstn_snoc _ _ _ H), serial_app.
  destruct (serial_run i 0 (firstn k (events i)) c0) as [c1 o1]. cbn [Nat.add fst].
  rewrite firstn_length, Nat.min_l by (apply nth_error_lt in H; lia). cbn [ModelPlugin.serial_run].
  destruct (serial_event i k e c1); reflexivity.
Qed.

(* only FDB object i is used *)
Variable i0 : nat.
Hypothesis alone : forall j, j <> i0 -> events j = [].

Definition lag d cap s : Prop :=
  drain i0 (offered (y_fdbs s i0)) (serial_cache i0 (length (d_log (y_fdbs s i0))) (cache_new d cap))
    = drain i0 (inflight (y_fdbs s i0)) (y_cache s).


Lemma lag_logged d cap s ev x r : nth_error (events i0) (length (d_log (y_fdbs s i0))) = Some ev ->
  d_pc (y_fdbs s i0) = UIdle -> lag d cap s ->
  waiting x = waiting (y_fdbs s i0) -> d_log x = d_log (y_fdbs s i0) ->
  fst (serial_event i0 (length (d_log (y_fdbs s i0))) ev (serial_cache i0 (length (d_log (y_fdbs s i0))) (cache_new d cap)))
    = serial_cache i0 (length (d_log (y_fdbs s i0))) (cache_new d cap) ->
  lag d cap (set_fdb s i0 (logged x r)).
Proof.
  intros Ev P L Wx Lx Ff. unfold lag in *. cbn [set_fdb y_fdbs y_cache]. rewrite wupd_same.
  unfold inflight, offered in *. rewrite P in L. unfold logged. cbn [d_pc d_log].
  assert (waiting (mk_fdb UIdle (d_agg x) (d_log x ++ [r])) = waiting x) as -> by reflexivity.
  rewrite app_length, Wx, Lx. cbn [length]. rewrite Nat.add_1_r, (serial_cache_snoc _ _ _ _ Ev), Ff. exact L.
Qed.

Lemma no_field i n e c : e <> Flush -> to_index e = None -> fst (serial_event i n e c) = c.
Proof. intros N T. rewrite serial_archive by exact N. unfold field_at. rewrite T. reflexivity. Qed.

Lemma lag_start d cap s st ev : Inv g selected build loc events d s st -> (forall j, j <> i0 -> y_fdbs s j = fdb_new) ->
  nth_error (events i0) (length (d_log (y_fdbs s i0))) = Some ev -> d_pc (y_fdbs s i0) = UIdle -> lag d cap s ->
  lag d cap (set_fdb s i0 (start (y_fdbs s i0) ev)).
Proof.
  intros I Others Ev P L. pose proof I as (D & G & C). specialize (G i0).
  assert (WA : waiting (mk_fdb UIdle (Some (match d_agg (y_fdbs s i0) with Some a => a | None => agg_new end)) (d_log (y_fdbs s i0)))
               = waiting (y_fdbs s i0)).
  { unfold waiting. cbn [d_agg]. destruct (d_agg (y_fdbs s i0)); reflexivity. }
  destruct ev as [key bytes|]; cbn [ModelPlugin.start].
  - assert (NF : to_index (Archive key bytes) = None ->
                 fst (serial_event i0 (length (d_log (y_fdbs s i0))) (Archive key bytes) (serial_cache i0 (length (d_log (y_fdbs s i0))) (cache_new d cap)))
                 = serial_cache i0 (length (d_log (y_fdbs s i0))) (cache_new d cap)).
    { intros T. apply no_field; [discriminate|exact T]. }
    cbn [SpecPlugin.to_index] in NF.
    destruct (selected key) as [[|]|err|] eqn:Es; [|eapply lag_logged; eauto..].
    destruct (lenN bytes <? 4)%N eqn:El.
    + eapply lag_logged; eauto. apply NF. now rewrite (short_not_grib _ El).
    + destruct (is_grib bytes) eqn:Eg; [|eapply lag_logged; eauto].
      destruct (build bytes) as [inf|err|] eqn:Eb; [|eapply lag_logged; eauto..].
      unfold lag in *. cbn [set_fdb y_fdbs y_cache]. rewrite wupd_same. unfold inflight, offered in *. rewrite P, app_nil_r in L.
      cbn [d_pc d_agg d_log]. rewrite drain_app.
      match goal with |- context [waiting ?x] => replace (waiting x) with (waiting (y_fdbs s i0)) by (symmetry; exact WA) end.
      rewrite <- L. reflexivity.
  - destruct (d_agg (y_fdbs s i0)) as [ag|] eqn:A.
    + unfold lag in *. cbn [set_fdb y_fdbs y_cache]. rewrite wupd_same.
      unfold inflight, offered, waiting in *. rewrite P, A in L. cbn [d_pc d_agg d_log a_queue a_consumer]. exact L.
    + eapply lag_logged; eauto. cbn [ModelPlugin.serial_event].
      assert (NS : serial_cache i0 (length (d_log (y_fdbs s i0))) (cache_new d cap) = y_cache s).
      { unfold lag, inflight, offered, waiting in L. rewrite A, P in L. exact L. }
      rewrite NS.
      assert (U : snd st = []).
      { pose proof (G_none _ _ _ _ _ _ _ _ G A) as U. destruct st as [fl un]. cbn [snd] in *.
        destruct un as [|[j r] un]; [reflexivity|exfalso].
        destruct (Nat.eq_dec j i0) as [->|N].
        - unfold made_by in U. cbn [filter fst] in U. rewrite Nat.eqb_refl in U. discriminate.
        - destruct I as (_ & G' & _). pose proof (G_none _ _ _ _ _ _ _ _ (G' j)) as U'. rewrite (Others j N) in U'.
          specialize (U' eq_refl). unfold made_by in U'. cbn [filter fst snd] in U'. rewrite Nat.eqb_refl in U'. discriminate. }
      destruct C as [[_ S0] _]. rewrite U in S0. specialize (S0 eq_refl). unfold c_flush. rewrite S0. cbn [flush_all fst].
      destruct (y_cache s); cbn in *; now subst.
Qed.

Lemma lag_act d cap s st a s' q : Inv g selected build loc events d s st -> (forall j, j <> i0 -> y_fdbs s j = fdb_new) ->
  lag d cap s -> act s a = Some (s', q) -> lag d cap s' /\ (forall j, j <> i0 -> y_fdbs s' j = fdb_new).
Proof.
  intros I Others L E. pose proof I as (D & G & C). unfold ModelPlugin.act in E. rewrite D in E.
  assert (Keep : forall x j, j <> i0 -> wupd (y_fdbs s) i0 x j = fdb_new) by (intros x j N; rewrite wupd_other by exact N; auto).
  assert (Only : who a = i0 \/ exists j n, a = Fulfil j n).
  { destruct a as [j|j|j n]; [| |eauto]; (destruct (Nat.eq_dec j i0) as [->|N]; [auto|]); exfalso; rewrite (Others j N) in E; cbn in E;
      [rewrite (alone j N) in E|]; discriminate. }
  specialize (G i0).
  destruct a as [j|j|j n]; [destruct Only as [W|(? & ? & W)]; [cbn in W; subst j|discriminate]|
                            destruct Only as [W|(? & ? & W)]; [cbn in W; subst j|discriminate]|].
  - destruct (d_pc (y_fdbs s i0)) as [|e|] eqn:P.
    + destruct (nth_error (events i0) (length (d_log (y_fdbs s i0)))) as [ev|] eqn:Ev; [|discriminate].
      injection E as <- <-. split; [|exact (Keep _)]. eapply lag_start; eauto.
    + destruct (d_agg (y_fdbs s i0)) as [ag|] eqn:A; [|discriminate].
      destruct (good_emplace _ _ _ _ _ _ _ _ _ _ G P A) as [Cl _]. rewrite Cl in E.
      destruct (length (a_queue ag) <? queue_size); [|discriminate]. injection E as <- <-. split; [|exact (Keep _)].
      destruct (G_emplace _ _ _ _ _ _ _ _ G _ P) as (_ & ev & Ev & Fe & _).
      unfold lag in *. cbn [set_fdb y_fdbs y_cache]. rewrite wupd_same.
      unfold inflight, offered, waiting in *. rewrite P, A in L. cbn [d_pc d_agg d_log a_queue a_consumer].
      rewrite app_length. cbn [length]. rewrite Nat.add_1_r, (serial_cache_snoc _ _ _ _ Ev), serial_archive, Fe by (intros ->; discriminate Fe).
      rewrite app_nil_r, app_assoc. exact L.
    + destruct (d_agg (y_fdbs s i0)) as [ag|] eqn:A; [|discriminate]. destruct (a_consumer ag) eqn:K; try discriminate.
      destruct (good_join _ _ _ _ _ _ _ _ _ G P A K) as [Q _]. rewrite Q in E.
      destruct (cache_ok_flush uniq _ _ _ _ _ C) as (c' & Ec & C'). rewrite Ec in E. injection E as <- <-. split; [|exact (Keep _)].
      destruct (G_join _ _ _ _ _ _ _ _ G P) as (_ & Ev).
      unfold lag in *. cbn [set_cache set_fdb y_fdbs y_cache]. rewrite wupd_same.
      unfold inflight, offered, waiting in *. rewrite P, A, K, Q in L. cbn [d_pc d_agg d_log app].
      unfold drain in L at 1. cbn [fold_left] in L. unfold drain in L. cbn [fold_left app] in L.
      rewrite app_length. cbn [length]. rewrite Nat.add_1_r, (serial_cache_snoc _ _ _ _ Ev), L. cbn [ModelPlugin.serial_event]. rewrite Ec. reflexivity.
  - destruct (d_agg (y_fdbs s i0)) as [ag|] eqn:A; [|discriminate].
    destruct (a_consumer ag) as [|[n inf]|] eqn:K; [| |discriminate].
    + destruct (a_queue ag) as [|e r] eqn:Q.
      * destruct (a_closed ag) eqn:Cl; [|discriminate]. injection E as <- <-. split; [|exact (Keep _)].
        unfold lag in *. cbn [set_fdb y_fdbs y_cache]. rewrite wupd_same.
        unfold inflight, offered, waiting in *. rewrite A, K, Q in L. cbn [d_pc d_agg d_log a_queue a_consumer]. exact L.
      * injection E as <- <-. split; [|exact (Keep _)].
        unfold lag in *. cbn [set_fdb y_fdbs y_cache]. rewrite wupd_same.
        unfold inflight, offered, waiting in *. rewrite A, K, Q in L. cbn [d_pc d_agg d_log a_queue a_consumer]. exact L.
    + destruct (y_ready s i0 n); [|discriminate]. destruct (located i0 n) as (p & o & Lo). rewrite Lo in E.
      injection E as <- <-. split; [|exact (Keep _)].
      unfold lag in *. cbn [set_cache set_fdb y_fdbs y_cache]. rewrite wupd_same.
      unfold inflight, offered, waiting in *. rewrite A, K in L. cbn [d_pc d_agg d_log a_queue a_consumer].
      rewrite <- !app_assoc in L. rewrite drain_app in L. unfold drain in L at 3. cbn [fold_left fst snd] in L. rewrite Lo in L. exact L.
  - injection E as <- <-. split; [exact L|exact Others].
Qed.

Lemma lag_play d cap l : forall s st s' tr, Inv g selected build loc events d s st -> (forall j, j <> i0 -> y_fdbs s j = fdb_new) ->
  lag d cap s -> play s l = Some (s', tr) -> lag d cap s'.
Proof.
  induction l as [|a l IH]; intros s st s' tr I O L E; cbn [ModelPlugin.play] in E; [injection E as <- <-; exact L|].
  destruct (act s a) as [[s1 q]|] eqn:Ea; [|discriminate].
  destruct (play s1 l) as [[s2 tr1]|] eqn:Ep; [|discriminate]. injection E as <- <-.
  destruct (lag_act _ _ _ _ _ _ _ I O L Ea) as [L1 O1].
  exact (IH _ _ _ _ (Inv_act _ _ _ _ _ _ located _ _ _ _ _ _ I Ea) O1 L1 Ep).
Qed.

(* whenever the InfoAggregator is gone (as after every flush) the InfoCache, memory and disk, is as if a
   SerialAggregator had been used *)
Theorem same_as_serial d cap l s tr : play (sys_new d cap) l = Some (s, tr) -> d_agg (y_fdbs s i0) = None ->
  y_cache s = fst (serial_run i0 0 (firstn (length (d_log (y_fdbs s i0))) (events i0)) (cache_new d cap)).
Proof.
  intros E A.
  assert (L : lag d cap s).
  { eapply lag_play; [apply Inv_new| | |exact E]; [reflexivity|]. reflexivity. }
  pose proof (execution_inv _ _ _ _ _ _ located _ _ _ _ _ E) as (_ & G & _). specialize (G i0).
  unfold lag, inflight, offered, waiting in L. rewrite A in L.
  destruct (d_pc (y_fdbs s i0)) as [|e|] eqn:P.
  - symmetry. exact L.
  - destruct (G_emplace _ _ _ _ _ _ _ _ G _ P). contradiction.
  - destruct (G_join _ _ _ _ _ _ _ _ G P). contradiction.
Qed.
End Serial.

(* the InfoCache changes by the calls made on it *)
Section Calls.
Context {F : Type}.
Variable uniq : string -> string.
Variable g : @config.
Variable selected : list (string * string) -> outcome bool.
Variable build : list N -> outcome (info F).
Variable loc : nat -> nat -> outcome location.
Variable events : nat -> list event.
Variable data : string -> Z -> outcome (info F).
Variable data_offsets : string -> outcome (list Z).

Lemma act_call (s s' : @sys F) a q : act uniq g selected build loc events s a = Some (s', q) ->
  y_cache s' = match q with Some q => fst (c_call uniq data data_offsets g (y_cache s) q) | None => y_cache s end /\
  match q with Some (CInsert _ _ _) | Some (CFlush true) | None => True | _ => False end.
Proof.
  unfold act. intros E. destruct (y_dead s); [discriminate|]. destruct a as [i|i|i n].
  - destruct (d_pc (y_fdbs s i)).
    + destruct (nth_error _ _); [|discriminate]. injection E as <- <-. auto.
    + destruct (d_agg (y_fdbs s i)); [|discriminate]. destruct (a_closed a); [injection E as <- <-; auto|].
      destruct (_ <? _); [|discriminate]. injection E as <- <-. auto.
    + destruct (d_agg (y_fdbs s i)); [|discriminate]. destruct (a_consumer a); try discriminate.
      destruct (a_queue a); [|injection E as <- <-; auto]. destruct (c_flush uniq (y_cache s) true) as [c r] eqn:Ec.
      injection E as <- <-. cbn [c_call set_cache y_cache]. rewrite Ec. auto.
  - destruct (d_agg (y_fdbs s i)); [|discriminate]. destruct (a_consumer a).
    + destruct (a_queue a); [destruct (a_closed a); [|discriminate]|]; injection E as <- <-; auto.
    + destruct e as [n inf]. destruct (y_ready s i n); [|discriminate].
      destruct (loc i n) as [[p [o| |]]| |]; injection E as <- <-; auto.
    + discriminate.
  - injection E as <- <-. auto.
Qed.
Theorem cache_calls d cap l (s : @sys F) tr : play uniq g selected build loc events (sys_new d cap) l = Some (s, tr) ->
  y_cache s = fst (c_calls uniq data data_offsets g (cache_new d cap) (map snd tr)) /\
  forall j q, In (j, q) tr -> q = CFlush true \/ exists p o inf, q = CInsert p o inf.
Proof.
  change (cache_new d cap) with (y_cache (@sys_new F d cap)). generalize (@sys_new F d cap) as s0. revert s tr.
  induction l as [|a l IH]; intros s tr s0 E; cbn [play] in E; [injection E as <- <-; split; [reflexivity|intros j q []]|].
  destruct (act uniq g selected build loc events s0 a) as [[s1 q]|] eqn:Ea; [|discriminate].
  destruct (play uniq g selected build loc events s1 l) as [[s2 tr1]|] eqn:Ep; [|discriminate]. injection E as <- <-.
  destruct (IH _ _ _ Ep) as [H1 H2]. destruct (act_call _ _ _ _ Ea) as [A1 A2].
  destruct q as [q|]; [|rewrite <- A1; split; assumption]. split.
  - cbn [map snd c_calls]. rewrite A1 in H1. destruct (c_call uniq data data_offsets g (y_cache s0) q) as [c1 x]. cbn [fst] in H1.
    destruct (c_calls uniq data data_offsets g c1 (map snd tr1)). exact H1.
  - intros j q' [I|I]; [|eauto]. injection I as <- <-. destruct q as [|p o inf|[]| | |]; try contradiction; eauto.
Qed.
End Calls.
