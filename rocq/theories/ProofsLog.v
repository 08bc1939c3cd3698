(* Log channels and progress messages, for C92 and C93. *)
From Verif Require Import Base BaseLemmas ModelStrings ModelLog SpecLog.
From Coq Require Import Lia.

Lemma lower_small a : lower_ascii a = small a.
Proof. destruct a as [[] [] [] [] [] [] [] []]; vm_compute; reflexivity. Qed.
Lemma lower_in_small s : lower s = in_small s.
Proof. induction s as [|a r IH]; cbn [lower in_small]; [reflexivity|]. now rewrite lower_small, IH. Qed.

Definition as_getter (m : option channel) : getter := match m with Some c => Fixed c | None => Default end.
Lemma standard_meaning v : standard_channel (lower v) = match meaning v with Some m => Ok (as_getter m) | None => Throw EUser end.
Proof.
  rewrite lower_in_small. unfold standard_channel, meaning.
  destruct (String.eqb (in_small v) "debug"); [reflexivity|]. destruct (String.eqb (in_small v) "info"); [reflexivity|].
  destruct (String.eqb (in_small v) "error"); [reflexivity|]. destruct (String.eqb (in_small v) "default"); reflexivity.
Qed.

Lemma sfind_route k a g l : sfind k (route a g l) = if String.eqb k a then Some g else sfind k l.
Proof.
  induction l as [|[x y] l IH]; cbn [route sfind]; [reflexivity|].
  destruct (String.eqb_spec a x) as [->|N]; cbn [sfind].
  - destruct (String.eqb k x); reflexivity.
  - rewrite IH. destruct (String.eqb_spec k x) as [->|N']; [|reflexivity]. destruct (String.eqb_spec x a); [congruence|reflexivity].
Qed.

Lemma configure_ok l : (forall k v, In (k, v) l -> meaning v <> None) -> forall r,
  exists r', configure_entries l r = (r', Ok tt) /\ ro_default r' = ro_default r /\
    forall k, sfind k (ro_channels r') =
      match last_value k l with
      | Some v => match meaning v with Some m => Some (as_getter m) | None => None end
      | None => sfind k (ro_channels r)
      end.
Proof.
  induction l as [|[a v] l IH]; intros U r; cbn [configure_entries last_value].
  - exists r. auto.
  - rewrite standard_meaning. destruct (meaning v) as [m|] eqn:E; [|exfalso; now apply (U a v (or_introl eq_refl))].
    destruct (IH (fun k w I => U k w (or_intror I)) (mk_router (route a (as_getter m) (ro_channels r)) (ro_default r))) as (r' & A & B & C).
    exists r'. split; [exact A|]. split; [exact B|]. intro k. rewrite C. cbn [ro_channels]. rewrite sfind_route.
    destruct (last_value k l); [reflexivity|]. destruct (String.eqb k a); [now rewrite E|reflexivity].
Qed.

Lemma configure_bad l : (exists k v, In (k, v) l /\ meaning v = None) -> forall r, exists r', configure_entries l r = (r', Throw EUser).
Proof.
  induction l as [|[a v] l IH]; intros (k & w & I & E) r; [destruct I|]. cbn [configure_entries]. rewrite standard_meaning.
  destruct (meaning v) as [m|] eqn:Q; [|eauto]. apply IH. destruct I as [I|I]; [injection I as <- <-; congruence|]. eauto.
Qed.

Lemma new_router_eq : new_router = Ok (mk_router [] (Fixed Debug)).
Proof. reflexivity. Qed.

Lemma routes server logging : understood logging ->
  exists r, process_router server logging = Ok r /\ forall kind, get_channel r kind = Ok (belongs server logging kind).
Proof.
  intro U. unfold process_router. rewrite new_router_eq. cbn [obind].
  assert (X : exists r', configure logging (mk_router [] (Fixed Debug)) = (r', Ok tt) /\ ro_default r' = Fixed Debug /\
     forall k, sfind k (ro_channels r') = match last_value k (entries logging) with
       | Some v => match meaning v with Some m => Some (as_getter m) | None => None end | None => None end).
  { destruct logging as [l|]; [|exists (mk_router [] (Fixed Debug)); auto].
    destruct (configure_ok l U (mk_router [] (Fixed Debug))) as (r' & A & B & C). exists r'. auto. }
  destruct X as (r' & A & B & C). rewrite A. cbn [obind].
  assert (Y : exists r, (if server then set_default r' "info" else Ok r') = Ok r /\ ro_channels r = ro_channels r' /\ ro_default r = Fixed (default_channel server)).
  { destruct server; [|now exists r']. eexists. split; [reflexivity|]. auto. }
  destruct Y as (r & -> & D & E). exists r. split; [reflexivity|]. intro kind. unfold get_channel, belongs. rewrite D, C.
  destruct (last_value kind (entries logging)) as [v|] eqn:L.
  - assert (I : In (kind, v) (entries logging)).
    { revert L. generalize (entries logging) as l. induction l as [|[a b] l IH]; cbn [last_value]; [discriminate|].
      destruct (last_value kind l) as [x|]; [intros [= ->]; right; now apply IH|]. destruct (String.eqb_spec kind a) as [->|]; [|discriminate].
      intros [= ->]. now left. }
    specialize (U _ _ I). destruct (meaning v) as [[c|]|]; [reflexivity| |congruence]. cbn [as_getter call_getter]. now rewrite E.
  - cbn [call_getter]. rewrite E. reflexivity.
Qed.

Lemma not_understood server logging : ~ understood logging -> (exists k v, In (k, v) (entries logging) /\ meaning v = None) ->
  process_router server logging = Throw EUser.
Proof.
  intros _ H. destruct logging as [l|]; [|destruct H as (k & v & [] & _)].
  unfold process_router. rewrite new_router_eq. cbn [obind configure].
  destruct (configure_bad l H (mk_router [] (Fixed Debug))) as [r' E]. rewrite E. reflexivity.
Qed.

Lemma unknown_refused server logging k v : In (k, v) (entries logging) -> meaning v = None -> process_router server logging = Throw EUser.
Proof. intros I E. apply not_understood; [|eauto]. intro U. exact (U k v I E). Qed.

(* ---- progress ---- *)
Lemma run_app n l : forall s l', group_run n s (l ++ l') =
  let (s', o) := group_run n s l in let (s'', o') := group_run n s' l' in (s'', o ++ o').
Proof.
  induction l as [|c l IH]; intros s l'; cbn [app group_run].
  - now destruct (group_run n s l').
  - destruct (group_step n s c) as [s1 o1]. rewrite IH. destruct (group_run n s1 l) as [s2 o2].
    destruct (group_run n s2 l') as [s3 o3]. destruct o1; reflexivity.
Qed.

Lemma run_complete n l : forall s, p_complete (fst (group_run n s l)) = (p_complete s + completions l)%N.
Proof.
  induction l as [|c l IH]; intro s; cbn [group_run]; [cbn; lia|].
  pose proof (fun s => IH s) as J. destruct (group_step n s c) as [s1 o1] eqn:E.
  specialize (J s1). destruct (group_run n s1 l) as [s2 o2]. cbn [fst] in *. rewrite J.
  unfold completions, lenN. cbn [filter]. destruct c; cbn [group_step] in E.
  1: destruct (p_waiting s && (p_complete s + 1 =? p_logcounter s)%N); injection E as <- <-; cbn [p_complete length]; lia.
  all: injection E as <- <-; cbn [p_complete length]; lia.
Qed.

Lemma message_true n l c k : snd (group_step n (fst (group_run n new_counters l)) c) = Some k ->
  c = Notified /\ In Waits l /\ k = completions (l ++ [c]).
Proof.
  pose proof (run_complete n l new_counters) as R.
  assert (W : forall l s, p_waiting (fst (group_run n s l)) = true -> p_waiting s = true \/ In Waits l).
  { clear. induction l as [|c l IH]; intros s H; [now left|]. cbn [group_run] in H.
    destruct (group_step n s c) as [s1 o1] eqn:E. specialize (IH s1). destruct (group_run n s1 l) as [s2 o2]. cbn [fst] in *.
    destruct (IH H) as [Q|Q]; [|right; now right]. destruct c; cbn [group_step] in E; try (right; now left); left.
    1: destruct (p_waiting s && (p_complete s + 1 =? p_logcounter s)%N); injection E as <- <-; exact Q.
    all: injection E as <- <-; exact Q. }
  specialize (W l new_counters). destruct (group_run n new_counters l) as [s o]. cbn [fst] in *.
  destruct c; cbn [group_step]; try discriminate.
  destruct (p_waiting s) eqn:P; cbn [andb]; [|discriminate].
  destruct (p_complete s + 1 =? p_logcounter s)%N; [|discriminate]. cbn [snd]. intros [= <-].
  split; [reflexivity|]. split; [destruct (W eq_refl); [discriminate|assumption]|].
  unfold completions, lenN in *. rewrite filter_app, app_length. cbn [filter length] in *. cbn [new_counters p_complete] in R. lia.
Qed.

(* once the count has passed logcounter_ nothing is printed any more *)
Lemma passed_silent n l : forall s, (p_logcounter s <= p_complete s)%N -> snd (group_run n s l) = [].
Proof.
  induction l as [|c l IH]; intros s H; [reflexivity|]. cbn [group_run].
  assert (E : exists s1, group_step n s c = (s1, None) /\ (p_logcounter s1 <= p_complete s1)%N).
  { destruct c; cbn [group_step]; try (eexists; split; [reflexivity|]; cbn [p_logcounter p_complete]; lia).
    replace (p_complete s + 1 =? p_logcounter s)%N with false by (symmetry; apply N.eqb_neq; lia). rewrite Bool.andb_false_r.
    eexists; split; [reflexivity|]. cbn [p_logcounter p_complete]; lia. }
  destruct E as (s1 & -> & H1). specialize (IH s1 H1). destruct (group_run n s1 l) as [s2 o]. exact IH.
Qed.

(* nothing is printed, and logcounter_ stays, while nobody waits *)
Lemma unwaited n l : forall s, p_waiting s = false -> ~ In Waits l ->
  snd (group_run n s l) = [] /\ p_logcounter (fst (group_run n s l)) = p_logcounter s /\ p_waiting (fst (group_run n s l)) = false.
Proof.
  induction l as [|c l IH]; intros s P N; [auto|]. cbn [group_run].
  assert (E : exists s1, group_step n s c = (s1, None) /\ p_logcounter s1 = p_logcounter s /\ p_waiting s1 = false).
  { destruct c; cbn [group_step]; try (eexists; split; [reflexivity|]; cbn; auto; fail).
    - rewrite P. cbn [andb]. eexists. split; [reflexivity|]. auto.
    - exfalso. apply N. now left. }
  destruct E as (s1 & -> & E1 & E2). destruct (IH s1 E2) as (A & B & C); [intro; apply N; now right|].
  destruct (group_run n s1 l) as [s2 o]. cbn [fst snd] in *. repeat split; congruence.
Qed.

Lemma early_silent n before after : ~ In Waits before -> before <> [] -> snd (group_run n new_counters (before ++ Waits :: after)) = [].
Proof.
  intros N NE. rewrite run_app. destruct (unwaited n before new_counters eq_refl N) as (A & B & C).
  pose proof (run_complete n before new_counters) as R.
  destruct (group_run n new_counters before) as [s o]. cbn [fst snd] in *. subst o. cbn [app].
  assert (S : snd (group_run n s (Waits :: after)) = []).
  { apply passed_silent. rewrite B, R. cbn [new_counters p_logcounter p_complete].
    destruct before as [|c before]; [congruence|]. unfold completions, lenN. cbn [filter]. destruct c; cbn [length]; try lia.
    exfalso. apply N. now left. }
  destruct (group_run n s (Waits :: after)) as [s2 o2]. exact S.
Qed.

(* the caller waits before the first task ends, and all tasks succeed *)
Lemma upto_seq k : upto k = map N.of_nat (seq 1 k).
Proof. induction k as [|k IH]; [reflexivity|]. cbn [upto]. rewrite seq_S, map_app, <- IH. reflexivity. Qed.

Lemma counted_run m inc : (1 <= inc)%N -> forall j s n, p_waiting s = true -> p_increment s = inc ->
  (exists q, p_logcounter s = q * inc + 1 /\ p_complete s < p_logcounter s /\ (q = 0 \/ p_complete s >= (q - 1) * inc + 1))%N ->
  p_complete s = N.of_nat j ->
  snd (group_run n s (repeat Notified m)) = filter (fun k => ((k - 1) mod inc =? 0)%N) (map N.of_nat (seq (S j) m)).
Proof.
  intro I. induction m as [|m IH]; intros j s n W E (q & Q & L & G) C; [reflexivity|].
  cbn [repeat group_run group_step seq map]. rewrite W. cbn [andb].
  assert (K : (p_complete s + 1 = N.of_nat (S j))%N) by lia. rewrite K.
  destruct (N.eqb_spec (N.of_nat (S j)) (p_logcounter s)) as [H|H].
  - assert (Z : ((N.of_nat (S j) - 1) mod inc =? 0)%N = true).
    { apply N.eqb_eq. rewrite H, Q. replace (q * inc + 1 - 1)%N with (q * inc)%N by lia. apply N.mod_mul. lia. }
    cbn [filter]. rewrite Z.
    specialize (IH (S j) (mk_counters (N.of_nat (S j)) (p_logcounter s + p_increment s) (p_increment s) true) n).
    cbn [p_waiting p_increment p_logcounter p_complete] in IH.
    destruct (group_run n (mk_counters (N.of_nat (S j)) (p_logcounter s + p_increment s) (p_increment s) true) (repeat Notified m)) as [s2 o] eqn:R.
    cbn [snd] in *. f_equal. apply IH; [reflexivity|exact E| |reflexivity].
    exists (q + 1)%N. rewrite E, Q. split; [lia|]. split; [lia|]. right. replace (q + 1 - 1)%N with q by lia. lia.
  - assert (Z : ((N.of_nat (S j) - 1) mod inc =? 0)%N = false).
    { apply N.eqb_neq. intro Z. apply N.mod_divide in Z; [|lia]. destruct Z as [z Z].
      (* j = z * inc with (q-1)*inc + 1 <= j (or q = 0) and j + 1 < q * inc + 1 *)
      assert (Zj : (N.of_nat j = z * inc)%N) by lia.
      assert (LT : (z * inc < q * inc)%N) by lia.
      assert (z < q)%N by (apply N.mul_lt_mono_pos_r in LT; lia).
      destruct G as [->|G]; [lia|]. assert (GE : ((q - 1) * inc + 1 <= z * inc)%N) by lia.
      assert (z <= q - 1)%N by lia. assert (z * inc <= (q - 1) * inc)%N by (apply N.mul_le_mono_r; lia). lia. }
    cbn [filter]. rewrite Z.
    specialize (IH (S j) (mk_counters (N.of_nat (S j)) (p_logcounter s) (p_increment s) true) n).
    cbn [p_waiting p_increment p_logcounter p_complete] in IH.
    destruct (group_run n (mk_counters (N.of_nat (S j)) (p_logcounter s) (p_increment s) true) (repeat Notified m)) as [s2 o] eqn:R.
    cbn [snd] in *. apply IH; [reflexivity|exact E| |reflexivity].
    exists q. split; [exact Q|]. split; [lia|]. destruct G; [now left|right]. lia.
Qed.

Lemma undisturbed n : snd (group_run (N.of_nat n) new_counters (Waits :: repeat Notified n)) = milestones n.
Proof.
  cbn [group_run group_step new_counters p_complete p_logcounter].
  assert (T : (if (N.of_nat n / 10 =? 0)%N then 1%N else (N.of_nat n / 10)%N) = tenth (N.of_nat n)).
  { unfold tenth. destruct (N.eqb_spec (N.of_nat n / 10) 0); lia. }
  rewrite T. destruct (group_run (N.of_nat n) (mk_counters 0 1 (tenth (N.of_nat n)) true) (repeat Notified n)) as [s o] eqn:E.
  cbn [snd]. unfold milestones. rewrite upto_seq.
  rewrite <- (counted_run n (tenth (N.of_nat n)) ltac:(unfold tenth; lia) 0 (mk_counters 0 1 (tenth (N.of_nat n)) true) (N.of_nat n)); [now rewrite E|reflexivity|reflexivity| |reflexivity].
  exists 0%N. cbn [p_logcounter p_complete]. split; [lia|]. split; [lia|]. now left.
Qed.

(* a failed task at a milestone silences the rest *)
Lemma failure_silences n l after : (completions l + 1 = p_logcounter (fst (group_run n new_counters l)))%N ->
  snd (group_run n new_counters (l ++ NotifiedError :: after)) = snd (group_run n new_counters l).
Proof.
  intro H. rewrite run_app. pose proof (run_complete n l new_counters) as R.
  destruct (group_run n new_counters l) as [s o]. cbn [fst snd] in *.
  assert (S : snd (group_run n s (NotifiedError :: after)) = []).
  { cbn [group_run group_step].
    pose proof (passed_silent n after (mk_counters (p_complete s + 1) (p_logcounter s) (p_increment s) (p_waiting s))) as P.
    cbn [p_logcounter p_complete] in P.
    destruct (group_run n (mk_counters (p_complete s + 1) (p_logcounter s) (p_increment s) (p_waiting s)) after) as [s2 o2].
    apply P. rewrite R. cbn [new_counters p_complete]. lia. }
  destruct (group_run n s (NotifiedError :: after)) as [s2 o2]. cbn [snd] in *. subst. now rewrite app_nil_r.
Qed.
