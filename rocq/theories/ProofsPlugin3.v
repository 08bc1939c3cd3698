(* The archive plugin: what is in the index after a flush, progress, and the serial aggregator. *)
From Coq Require Import Lia Permutation.
From Verif Require Import Base BaseLemmas ModelStrings ModelInfo ModelLRU ModelIndex ModelCache SpecIndex SpecCache SpecEngine ModelQueue
  ModelPlugin SpecPlugin ProofsIndex ProofsCache ProofsCache2 ProofsStrings ProofsPlugin2.
Local Open Scope nat_scope.

Section Claims.
Context {F : Type}.
Variable uniq : string -> string.
Variable g : @config.
Variable selected : list (string * string) -> outcome bool.
Variable build : list N -> outcome (info F).
Variable loc : nat -> nat -> outcome location.
Variable events : nat -> list event.
Notation act := (act uniq g selected build loc events).
Notation play := (play uniq g selected build loc events).
Notation start := (start selected build).
Notation to_index := (to_index selected build).
Notation fields := (fields selected build).
Notation records := (records loc).
Notation callback_outcome := (callback_outcome selected build).
Notation cfp := (cache_file_path g).
Notation rec := (string * Z * info F)%type.
Implicit Types (s : @sys F).

Hypothesis located : all_located loc.

(* the process never dies; every callback answers by itself what it should *)
Theorem callbacks_answer d cap l s tr i : play (sys_new d cap) l = Some (s, tr) ->
  y_dead s = false /\
  d_log (y_fdbs s i) = map callback_outcome (firstn (length (d_log (y_fdbs s i))) (events i)).
Proof.
  intros E. apply execution_inv in E as (D & G & _); [|exact located]. split; [exact D|]. exact (G_log _ _ _ _ _ _ _ _ (G i)).
Qed.

(* the records on disk: all fields before a flush that has returned are there *)
Theorem flushed_fields d cap l s tr i k : play (sys_new d cap) l = Some (s, tr) ->
  nth_error (events i) k = Some Flush -> k < length (d_log (y_fdbs s i)) ->
  exists rest, made_by i (fst (settled tr)) = records i (fields (firstn k (events i))) ++ rest.
Proof.
  intros E Ek Hk. apply execution_inv in E as (_ & G & _); [|exact located]. exact (G_flushed _ _ _ _ _ _ _ _ (G i) k Hk Ek).
Qed.

(* and nothing else *)
Theorem only_fields d cap l s tr i r : play (sys_new d cap) l = Some (s, tr) -> In (i, r) (fst (settled tr)) ->
  exists n e inf, nth_error (events i) n = Some e /\ to_index e = Some inf /\
    loc i n = Ok (fst (fst r), Ok (snd (fst r))) /\ snd r = inf.
Proof.
  intros E I. apply execution_inv in E as (_ & G & _); [|exact located].
  destruct (G_fields _ _ _ _ _ _ _ _ (G i)) as (dn & E1 & E2).
  assert (In r (records i dn)) as I2.
  { rewrite <- E2, made_by_app. apply in_or_app. left. now apply in_made_by. }
  unfold SpecPlugin.records in I2. apply in_flat_map in I2 as ([n inf] & I2 & I3).
  assert (In (n, inf) (fields (firstn (length (d_log (y_fdbs s i))) (events i)) ++ offered (y_fdbs s i))) as I4.
  { rewrite E1. apply in_or_app. now left. }
  assert (exists e, nth_error (events i) n = Some e /\ to_index e = Some inf) as (e & N & T).
  { apply in_app_or in I4 as [I4|I4].
    - apply fields_in in I4 as (e & N & T). exists e. split; [|exact T].
      pose proof (nth_error_lt _ _ _ N) as L. rewrite firstn_length in L.
      rewrite <- (firstn_skipn (length (d_log (y_fdbs s i))) (events i)). rewrite nth_error_app1; [exact N|].
      rewrite firstn_length. exact L.
    - unfold offered in I4. destruct (d_pc (y_fdbs s i)) as [|e0|] eqn:P; try contradiction.
      destruct I4 as [->|[]]. destruct (G_emplace _ _ _ _ _ _ _ _ (G i) _ P) as (_ & ev & A & B & _).
      unfold field_at in B. destruct (to_index ev) as [i0|] eqn:T; [|discriminate]. injection B as <- <-. eauto. }
  exists n, e, inf. split; [exact N|]. split; [exact T|].
  unfold record_of in I3. cbn [fst snd] in I3. destruct (loc i n) as [[p [o|?|]]|?|]; try contradiction.
  destruct I3 as [<-|[]]. auto.
Qed.

Lemma inserted_in fp (l : list rec) o inf : In (o, inf) (inserted_for g fp l) <-> exists p, In (p, o, inf) l /\ cfp p = fp.
Proof.
  unfold inserted_for. rewrite in_map_iff. split.
  - intros ([[p o'] i'] & [= <- <-] & I). apply filter_In in I as [I E]. cbn in E. apply String.eqb_eq in E. eauto.
  - intros (p & I & E). exists (p, o, inf). split; [reflexivity|]. apply filter_In. split; [exact I|]. cbn. now apply String.eqb_eq.
Qed.

Lemma mfind_in {V} k (m : list (Z * V)) v : mfind k m = Some v -> In (k, v) m.
Proof.
  induction m as [|[k' v'] m IH]; cbn; [discriminate|]. destruct (Z.eqb_spec k k') as [->|N]; [intros [= ->]; now left|].
  intros H. right. auto.
Qed.
Lemma mfind_some {V} k (m : list (Z * V)) v : In (k, v) m -> exists v', mfind k m = Some v'.
Proof.
  induction m as [|[k' v'] m IH]; cbn; [intros []|]. destruct (Z.eqb_spec k k') as [->|N]; [eauto|].
  intros [[= -> ->]|I]; [congruence|auto].
Qed.

(* the index file of a field archived before a flush that has returned *)
Theorem archived_is_indexed d cap l s tr i k n key bytes inf p o l0 :
  play (sys_new d cap) l = Some (s, tr) ->
  nth_error (events i) k = Some Flush -> k < length (d_log (y_fdbs s i)) ->
  n < k -> nth_error (events i) n = Some (Archive key bytes) ->
  selected key = Ok true -> is_grib bytes = true -> build bytes = Ok inf -> loc i n = Ok (p, Ok o) ->
  complete_file d (cfp p) l0 ->
  exists recs, index_holds (c_disk (y_cache s)) (cfp p) (l0 ++ recs) /\ In (o, inf) recs /\
    (* what was archived there describes an archived field at its location *)
    (forall o' inf', In (o', inf') recs -> exists j m p' e,
        loc j m = Ok (p', Ok o') /\ cfp p' = cfp p /\ nth_error (events j) m = Some e /\ to_index e = Some inf').
Proof.
  intros E Ek Hk Hn En Sel Gr Bu Lo Hd.
  pose proof (execution_inv _ _ _ _ _ _ located _ _ _ _ _ E) as (_ & G & (_ & C)).
  destruct (C p l0 Hd) as (l1 & Hc & Hl).
  exists (inserted_for g (cfp p) (map snd (fst (settled tr)))). split; [|split].
  - destruct (complete_holds _ _ _ Hc) as (m & A & B & D). exists m. split; [exact A|]. split; [exact B|].
    intros off. rewrite D, Hl. reflexivity.
  - apply inserted_in. exists p. split; [|reflexivity].
    destruct (flushed_fields _ _ _ _ _ _ _ E Ek Hk) as (rest & R).
    apply in_map_iff. exists (i, (p, o, inf)). split; [reflexivity|]. apply in_made_by. rewrite R. apply in_or_app. left.
    unfold SpecPlugin.records. apply in_flat_map. exists (n, inf). split.
    + apply fields_in. exists (Archive key bytes). split.
      * rewrite <- (firstn_skipn k (events i)) in En. rewrite nth_error_app1 in En; [exact En|].
        rewrite firstn_length. apply nth_error_lt in Ek. lia.
      * cbn. now rewrite Sel, Gr, Bu.
    + unfold record_of. cbn [fst snd]. rewrite Lo. now left.
  - intros o' inf' I. apply inserted_in in I as (p' & I & Ep). apply in_map_iff in I as ([j r] & Er & I). cbn in Er. subst r.
    destruct (only_fields _ _ _ _ _ _ _ E I) as (m & e & inf0 & A & B & D & D'). cbn in D, D'. subst inf0.
    exists j, m, p', e. auto.
Qed.

(* a later process finds the description of the field at its location *)
Theorem archived_is_found data d cap l s tr i k n key bytes inf p o l0 cap2 :
  (forall q o, data q o <> UB) -> 1 <= cap2 ->
  play (sys_new d cap) l = Some (s, tr) ->
  nth_error (events i) k = Some Flush -> k < length (d_log (y_fdbs s i)) ->
  n < k -> nth_error (events i) n = Some (Archive key bytes) ->
  selected key = Ok true -> is_grib bytes = true -> build bytes = Ok inf -> loc i n = Ok (p, Ok o) ->
  complete_file d (cfp p) l0 ->
  (* the location is new, and nothing else is archived there *)
  mfind o l0 = None ->
  (forall j m p', loc j m = Ok (p', Ok o) -> cfp p' = cfp p -> j = i /\ m = n) ->
  exists c2, c_get data g (cache_new (c_disk (y_cache s)) cap2) p [o] = (c2, Ok [inf]).
Proof.
  intros Ds Hcap E Ek Hk Hn En Sel Gr Bu Lo Hd New Only.
  destruct (archived_is_indexed _ _ _ _ _ _ _ _ _ _ _ _ _ _ E Ek Hk Hn En Sel Gr Bu Lo Hd) as (recs & H & I & Own).
  assert (M : mfind o (l0 ++ recs) = Some inf).
  { rewrite mfind_app, New. destruct (mfind_some _ _ _ I) as (v & Hv). rewrite Hv.
    destruct (Own o v (mfind_in _ _ _ Hv)) as (j & m & p' & e & A & B & C & D).
    destruct (Only _ _ _ A B) as [-> ->]. rewrite En in C. injection C as <-. cbn in D. rewrite Sel, Gr, Bu in D. congruence. }
  destruct (holds_get uniq data (fun _ => UB) g Ds (c_disk (y_cache s)) cap2 p _ [o] Hcap H) as (c2 & vec & Ec & Hv).
  - constructor; [intros []|constructor].
  - intros o' [<-|[]]. eauto.
  - exists c2. rewrite Ec. inversion Hv as [|? v ? r A B]; subst. inversion B; subst. congruence.
Qed.

(* ---- progress ---- *)
Definition can_move s i := act s (Caller i) <> None \/ act s (Worker i) <> None.

(* an FDB object that has not finished can move, or its consumer waits for a future *)
Theorem no_deadlock d cap l s tr i : play (sys_new d cap) l = Some (s, tr) ->
  finished events s i \/ can_move s i \/
  (exists n inf, In (n, inf) (waiting (y_fdbs s i)) /\ y_ready s i n = false /\ n < length (events i)).
Proof.
  intros E. pose proof (execution_inv _ _ _ _ _ _ located _ _ _ _ _ E) as (D & G & (_ & C)). specialize (G i).
  assert (W : forall a, d_agg (y_fdbs s i) = Some a -> (a_queue a <> [] \/ a_closed a = true) -> a_consumer a <> KDone ->
     can_move s i \/ (exists n inf, In (n, inf) (waiting (y_fdbs s i)) /\ y_ready s i n = false /\ n < length (events i))).
  { intros a A Q K. destruct (a_consumer a) as [|[n inf]|] eqn:Ek; [| |congruence].
    - left. right. unfold ModelPlugin.act. rewrite D, A, Ek. destruct (a_queue a) eqn:Eq; [|discriminate].
      destruct Q as [Q|Q]; [congruence|]. rewrite Q. discriminate.
    - destruct (y_ready s i n) eqn:R.
      + left. right. unfold ModelPlugin.act. rewrite D, A, Ek, R. destruct (located i n) as (p & o & ->). discriminate.
      + right. exists n, inf. assert (I : In (n, inf) (waiting (y_fdbs s i))) by (unfold waiting; rewrite A, Ek; now left).
        split; [exact I|]. split; [exact R|].
        destruct (G_fields _ _ _ _ _ _ _ _ G) as (dn & E1 & _).
        assert (I2 : In (n, inf) (fields (firstn (length (d_log (y_fdbs s i))) (events i)) ++ offered (y_fdbs s i))).
        { rewrite E1. apply in_or_app. right. unfold inflight. apply in_or_app. now left. }
        apply in_app_or in I2 as [I2|I2].
        * apply fields_in in I2 as (e & N & _). apply nth_error_lt in N. rewrite firstn_length in N. lia.
        * unfold offered in I2. destruct (d_pc (y_fdbs s i)) as [|e0|] eqn:P; try contradiction.
          destruct I2 as [->|[]]. destruct (G_emplace _ _ _ _ _ _ _ _ G _ P) as (_ & ev & X & Y & _).
          unfold field_at in Y. destruct (to_index ev); [|discriminate]. injection Y as <- _. now apply nth_error_lt in X. }
  destruct (d_pc (y_fdbs s i)) as [|e|] eqn:P.
  - destruct (nth_error (events i) (length (d_log (y_fdbs s i)))) as [ev|] eqn:Ev.
    + right. left. left. unfold ModelPlugin.act. rewrite D, P, Ev. discriminate.
    + left. split; [|exact P]. apply nth_error_None in Ev. pose proof (G_len _ _ _ _ _ _ _ _ G). lia.
  - destruct (G_emplace _ _ _ _ _ _ _ _ G _ P) as (A & _). destruct (d_agg (y_fdbs s i)) as [a|] eqn:Ea; [|congruence].
    destruct (good_emplace _ _ _ _ _ _ _ _ _ _ G P Ea) as [Cl _].
    destruct (length (a_queue a) <? queue_size) eqn:Q.
    + right. left. left. unfold ModelPlugin.act. rewrite D, P, Ea, Cl, Q. discriminate.
    + right. apply (W a eq_refl).
      * left. intros X. rewrite X in Q. discriminate.
      * intros K. destruct (G_done _ _ _ _ _ _ _ _ G a Ea K). congruence.
  - destruct (G_join _ _ _ _ _ _ _ _ G P) as (A & _). destruct (d_agg (y_fdbs s i)) as [a|] eqn:Ea; [|congruence].
    destruct (a_consumer a) eqn:K.
    + right. apply (W a eq_refl); [|congruence]. right. now apply (G_closed _ _ _ _ _ _ _ _ G a Ea).
    + right. apply (W a eq_refl); [|congruence]. right. now apply (G_closed _ _ _ _ _ _ _ _ G a Ea).
    + right. left. left. unfold ModelPlugin.act. rewrite D, P, Ea, K.
      destruct (good_join _ _ _ _ _ _ _ _ _ G P Ea K) as [Q _]. rewrite Q.
      destruct (c_flush uniq (y_cache s) true). discriminate.
Qed.

(* steps of the threads of i are bounded *)
Definition measure (E : nat) (x : @fdb F) : nat :=
  6 * (E - length (d_log x)) + (match d_pc x with UIdle => 2 | _ => 0 end) +
  match d_agg x with
  | None => 0
  | Some a => 2 * length (a_queue a) + match a_consumer a with KPop => 1 | KWait _ => 2 | KDone => 0 end
  end.

Lemma measure_act d s st a s' q i : Inv g selected build loc events d s st -> act s a = Some (s', q) ->
  measure (length (events i)) (y_fdbs s' i) + steps_of i [a] <= measure (length (events i)) (y_fdbs s i).
Proof.
  intros I E. pose proof I as (D & G & C). unfold ModelPlugin.act in E. rewrite D in E. unfold steps_of. cbn [filter].
  destruct a as [j|j|j n].
  - destruct (Nat.eqb_spec i j) as [<-|N].
    + cbn [length]. specialize (G i). destruct (d_pc (y_fdbs s i)) as [|e|] eqn:P.
      * destruct (nth_error (events i) (length (d_log (y_fdbs s i)))) as [ev|] eqn:Ev; [|discriminate].
        injection E as <- <-. cbn [set_fdb y_fdbs]. rewrite wupd_same. apply nth_error_lt in Ev.
        assert (L : forall r, length (d_log (y_fdbs s i) ++ [r]) = S (length (d_log (y_fdbs s i)))) by (intros; rewrite app_length; cbn; lia).
        unfold measure. rewrite P. destruct ev as [key bytes|]; cbn [ModelPlugin.start].
        -- assert (Lg : forall r, 6 * (length (events i) - length (d_log (logged (y_fdbs s i) r))) + 2 +
               match d_agg (y_fdbs s i) with None => 0 | Some a => 2 * length (a_queue a) + match a_consumer a with KPop => 1 | KWait _ => 2 | KDone => 0 end end + 1
               <= 6 * (length (events i) - length (d_log (y_fdbs s i))) + 2 +
               match d_agg (y_fdbs s i) with None => 0 | Some a => 2 * length (a_queue a) + match a_consumer a with KPop => 1 | KWait _ => 2 | KDone => 0 end end).
           { intros r. unfold logged. cbn [d_log]. rewrite L. clear -Ev. lia. }
           destruct (selected key) as [[|]|err|]; [|apply Lg|apply Lg|apply Lg].
           destruct (lenN bytes <? 4)%N; [apply Lg|]. clear Lg.
           destruct (is_grib bytes); [destruct (build bytes)|]; unfold logged; cbn [d_pc d_agg d_log]; rewrite ?L;
             destruct (d_agg (y_fdbs s i)) as [ag|]; cbn [agg_new a_queue a_consumer length]; clear -Ev; lia.
        -- destruct (d_agg (y_fdbs s i)) as [a|] eqn:Ea; unfold logged; cbn [d_pc d_agg d_log a_queue a_consumer]; rewrite ?L, ?Ea; clear -Ev; lia.
      * destruct (d_agg (y_fdbs s i)) as [ag|] eqn:A; [|discriminate].
        destruct (good_emplace _ _ _ _ _ _ _ _ _ _ G P A) as [Cl G']. rewrite Cl in E.
        destruct (length (a_queue ag) <? queue_size); [|discriminate]. injection E as <- <-.
        cbn [set_fdb y_fdbs]. rewrite wupd_same. unfold measure. rewrite P, A. cbn [d_pc d_agg d_log a_queue a_consumer].
        rewrite !app_length. cbn [length]. apply G_len in G'. cbn [d_log] in G'. rewrite app_length in G'. cbn [length] in G'. clear -G'. lia.
      * destruct (d_agg (y_fdbs s i)) as [ag|] eqn:A; [|discriminate].
        destruct (a_consumer ag) eqn:K; try discriminate.
        destruct (good_join _ _ _ _ _ _ _ _ _ G P A K) as [Q G']. rewrite Q in E.
        destruct (cache_ok_flush uniq _ _ _ _ _ C) as (c' & Ec & C'). rewrite Ec in E. injection E as <- <-.
        cbn [set_cache set_fdb y_fdbs]. rewrite wupd_same. unfold measure. rewrite P, A. cbn [d_pc d_agg d_log].
        apply G_len in G'. cbn [d_log] in G'. rewrite app_length in *. cbn [length] in *. rewrite Q, K. clear -G'. cbn [length]. lia.
    + cbn [length]. rewrite Nat.add_0_r. enough (y_fdbs s' i = y_fdbs s i) as -> by lia.
      destruct (d_pc (y_fdbs s j)) as [|e|].
      * destruct (nth_error (events j) (length (d_log (y_fdbs s j)))); [|discriminate]. injection E as <- <-. now apply wupd_other.
      * destruct (d_agg (y_fdbs s j)) as [ag|]; [|discriminate]. destruct (a_closed ag); [injection E as <- <-; now apply wupd_other|].
        destruct (length (a_queue ag) <? queue_size); [|discriminate]. injection E as <- <-. now apply wupd_other.
      * destruct (d_agg (y_fdbs s j)) as [ag|]; [|discriminate]. destruct (a_consumer ag); try discriminate.
        destruct (a_queue ag); [|injection E as <- <-; now apply wupd_other].
        destruct (c_flush uniq (y_cache s) true). injection E as <- <-. now apply wupd_other.
  - destruct (Nat.eqb_spec i j) as [<-|N].
    + cbn [length]. destruct (d_agg (y_fdbs s i)) as [ag|] eqn:A; [|discriminate].
      destruct (a_consumer ag) as [|[n inf]|] eqn:K; [| |discriminate].
      * destruct (a_queue ag) as [|e r] eqn:Q.
        -- destruct (a_closed ag) eqn:Cl; [|discriminate]. injection E as <- <-. cbn [set_fdb y_fdbs]. rewrite wupd_same.
           unfold measure. rewrite A, K, Q. cbn [d_pc d_agg d_log a_queue a_consumer length]. lia.
        -- injection E as <- <-. cbn [set_fdb y_fdbs]. rewrite wupd_same.
           unfold measure. rewrite A, K, Q. cbn [d_pc d_agg d_log a_queue a_consumer length]. lia.
      * destruct (y_ready s i n); [|discriminate]. destruct (located i n) as (p & o & Lo). rewrite Lo in E.
        injection E as <- <-. cbn [set_cache set_fdb y_fdbs]. rewrite wupd_same.
        unfold measure. rewrite A, K. cbn [d_pc d_agg d_log a_queue a_consumer length]. lia.
    + cbn [length]. rewrite Nat.add_0_r. enough (y_fdbs s' i = y_fdbs s i) as -> by lia.
      destruct (d_agg (y_fdbs s j)) as [ag|]; [|discriminate]. destruct (a_consumer ag) as [|[n inf]|]; [| |discriminate].
      * destruct (a_queue ag); [destruct (a_closed ag); [|discriminate]|]; injection E as <- <-; now apply wupd_other.
      * destruct (y_ready s j n); [|discriminate]. destruct (loc j n) as [[p [o|?|]]|?|]; injection E as <- <-; try reflexivity.
        now apply wupd_other.
  - injection E as <- <-. cbn [y_fdbs length]. lia.
Qed.

Lemma steps_cons i a l : steps_of i (a :: l) = steps_of i [a] + steps_of i l.
Proof. unfold steps_of. cbn [filter]. destruct a as [j|j|j n]; [destruct (i =? j)|destruct (i =? j)|]; cbn [length]; lia. Qed.

Lemma measure_play d i l : forall s st s' tr, Inv g selected build loc events d s st -> play s l = Some (s', tr) ->
  measure (length (events i)) (y_fdbs s' i) + steps_of i l <= measure (length (events i)) (y_fdbs s i).
Proof.
  induction l as [|a l IH]; intros s st s' tr I E; cbn [ModelPlugin.play] in E; [injection E as <- <-; unfold steps_of; cbn; lia|].
  destruct (act s a) as [[s1 q]|] eqn:Ea; [|discriminate].
  destruct (play s1 l) as [[s2 tr1]|] eqn:Ep; [|discriminate]. injection E as <- <-.
  pose proof (measure_act _ _ _ _ _ _ i I Ea) as M1.
  pose proof (Inv_act _ _ _ _ _ _ located _ _ _ _ _ _ I Ea) as I1. pose proof (IH _ _ _ _ I1 Ep) as M2.
  rewrite steps_cons. lia.
Qed.

(* the two threads of an FDB object make at most 6 steps per event *)
Theorem steps_bounded d cap l s tr i : play (sys_new d cap) l = Some (s, tr) -> steps_of i l <= 6 * length (events i) + 2.
Proof.
  intros E. pose proof (measure_play d i _ _ _ _ _ (Inv_new g selected build loc events d cap) E) as M.
  unfold measure at 2 in M. cbn in M. lia.
Qed.

Lemma play_app l1 : forall s s1 tr1 l2, play s l1 = Some (s1, tr1) ->
  play s (l1 ++ l2) = match play s1 l2 with Some (s2, tr2) => Some (s2, tr1 ++ tr2) | None => None end.
Proof.
  induction l1 as [|a l1 IH]; intros s s1 tr1 l2 E; cbn [app ModelPlugin.play] in *.
  - injection E as <- <-. destruct (play s l2) as [[? ?]|]; reflexivity.
  - destruct (act s a) as [[s0 q]|]; [|discriminate]. destruct (play s0 l1) as [[s3 tr3]|] eqn:Ep; [|discriminate].
    injection E as <- <-. rewrite (IH _ _ _ l2 Ep). destruct (play s3 l2) as [[s4 tr4]|]; [|reflexivity]. destruct q; reflexivity.
Qed.

(* whatever happened so far, FDB object i can be brought to its end *)
Theorem can_finish d cap l s tr i : play (sys_new d cap) l = Some (s, tr) ->
  exists l', Forall (fun a => who a = i) l' /\
    exists s' tr', play (sys_new d cap) (l ++ l') = Some (s', tr') /\ finished events s' i.
Proof.
  remember (measure (length (events i)) (y_fdbs s i)) as m eqn:Em. revert l s tr Em.
  induction m as [m IH] using (well_founded_induction lt_wf). intros l s tr Em E.
  pose proof (execution_inv _ _ _ _ _ _ located _ _ _ _ _ E) as I.
  assert (Step : forall l1, Forall (fun a => who a = i) l1 -> forall s1 tr1, play s l1 = Some (s1, tr1) -> 0 < steps_of i l1 ->
     exists l', Forall (fun a => who a = i) l' /\
       exists s' tr', play (sys_new d cap) (l ++ l') = Some (s', tr') /\ finished events s' i).
  { intros l1 F1 s1 tr1 E1 P1. pose proof (measure_play d i _ _ _ _ _ I E1) as M.
    assert (E2 : play (sys_new d cap) (l ++ l1) = Some (s1, tr ++ tr1)) by (rewrite (play_app _ _ _ _ _ E), E1; reflexivity).
    destruct (IH (measure (length (events i)) (y_fdbs s1 i))) with (l := l ++ l1) (s := s1) (tr := tr ++ tr1) as (l' & F' & s' & tr' & E' & Fin);
      [lia|reflexivity|exact E2|].
    exists (l1 ++ l'). split; [apply Forall_app; auto|]. exists s', tr'. rewrite app_assoc. auto. }
  assert (Move : forall a, who a = i -> steps_of i [a] = 1 -> act s a <> None ->
     exists l', Forall (fun a => who a = i) l' /\
       exists s' tr', play (sys_new d cap) (l ++ l') = Some (s', tr') /\ finished events s' i).
  { intros a Wa Sa Na. destruct (act s a) as [[s1 q]|] eqn:Ea; [|congruence].
    eapply (Step [a]); [now repeat constructor| |lia]. cbn [ModelPlugin.play]. rewrite Ea. reflexivity. }
  assert (S1 : steps_of i [Caller i] = 1 /\ steps_of i [Worker i] = 1).
  { unfold steps_of. cbn. now rewrite Nat.eqb_refl. }
  destruct (no_deadlock _ _ _ _ _ i E) as [Fin|[[Mv|Mv]|(n & inf & W & R & _)]].
  - exists []. split; [constructor|]. exists s, tr. rewrite app_nil_r. auto.
  - apply (Move (Caller i)); tauto.
  - apply (Move (Worker i)); tauto.
  - (* fulfil the awaited future, after popping it if it is still queued *)
    destruct I as (D & G & C). specialize (G i).
    unfold waiting in W. destruct (d_agg (y_fdbs s i)) as [a|] eqn:A; [|destruct W].
    destruct (a_consumer a) as [|[n0 inf0]|] eqn:K.
    + apply (Move (Worker i)); [reflexivity|tauto|]. unfold ModelPlugin.act. rewrite D, A, K.
      destruct (a_queue a); [destruct W|discriminate].
    + set (s1 := mk_sys (y_fdbs s) (fun j m => if Nat.eqb j i && Nat.eqb m n0 then true else y_ready s j m) (y_cache s) false).
      destruct (located i n0) as (p & o & Lo).
      set (s2 := set_cache (set_fdb s1 i (mk_fdb (d_pc (y_fdbs s i)) (Some (mk_agg (a_queue a) (a_closed a) KPop)) (d_log (y_fdbs s i))))
                           (c_insert g (y_cache s) p o inf0)).
      eapply (Step [Fulfil i n0; Worker i]); [now repeat constructor| |rewrite steps_cons; lia].
      cbn [ModelPlugin.play]. unfold ModelPlugin.act at 1. rewrite D. fold s1.
      unfold ModelPlugin.act. cbn [y_dead s1 y_fdbs y_ready y_cache]. rewrite A, K. rewrite !Nat.eqb_refl. cbn [andb]. rewrite Lo. reflexivity.
    + destruct (G_done _ _ _ _ _ _ _ _ G a A K) as [_ Q]. rewrite Q in W. destruct W.
Qed.

End Claims.

Theorem failed_future_kills {F : Type} uniq g selected (build : list N -> outcome (info F)) loc events (s : @sys F) i a n inf :
  y_dead s = false -> d_agg (y_fdbs s i) = Some a -> a_consumer a = KWait (n, inf) -> y_ready s i n = true ->
  (forall p o, loc i n <> Ok (p, Ok o)) ->
  exists s', act uniq g selected build loc events s (Worker i) = Some (s', None) /\ y_dead s' = true /\
    forall b, act uniq g selected build loc events s' b = None.
Proof.
  intros D A K R Bad. unfold ModelPlugin.act at 1. rewrite D, A, K, R.
  exists (mk_sys (y_fdbs s) (y_ready s) (y_cache s) true).
  split; [|split; [reflexivity|intros b; reflexivity]].
  destruct (loc i n) as [[p [o|?|]]|?|] eqn:El; try reflexivity. elim (Bad p o eq_refl).
Qed.
