From Verif Require Import Base BaseLemmas ModelStrings ModelInfo ModelLRU ModelIndex ModelCache ModelQueue ModelPlugin.
Local Open Scope nat_scope.

Section Plugin.
Context {F : Type}.
Variable uniq : string -> string.
Variable g : config.
Variable selected : list (string * string) -> outcome bool.
Variable build : list N -> outcome (info F).
Variable loc : nat -> nat -> outcome location.
Variable events : nat -> list event.
Notation act := (act uniq g selected build loc events).
Notation play := (play uniq g selected build loc events).

Lemma act_ready s a s' q : act s a = Some (s', q) ->
  forall j m, y_ready s' j m = true <-> y_ready s j m = true \/ a = Fulfil j m.
Proof.
  unfold ModelPlugin.act. intros H j m. destruct (y_dead s); [discriminate|]. destruct a as [i|i|i n].
  - assert (y_ready s' = y_ready s) as ->; [|split; [auto|intros [E|E]; [exact E|discriminate]]].
    destruct (d_pc (y_fdbs s i)).
    + destruct (nth_error _ _); [|discriminate]. now injection H as <- _.
    + destruct (d_agg _) as [x|]; [|discriminate]. destruct (a_closed x); [now injection H as <- _|].
      destruct (_ <? _); [|discriminate]. now injection H as <- _.
    + destruct (d_agg _) as [x|]; [|discriminate]. destruct (a_consumer x); try discriminate.
      destruct (a_queue x); [|now injection H as <- _]. destruct (c_flush _ _ _) as [c r]. now injection H as <- _.
  - assert (y_ready s' = y_ready s) as ->; [|split; [auto|intros [E|E]; [exact E|discriminate]]].
    destruct (d_agg _) as [x|]; [|discriminate]. destruct (a_consumer x) as [|[n inf]|]; try discriminate.
    + destruct (a_queue x); [destruct (a_closed x); [|discriminate]|]; now injection H as <- _.
    + destruct (y_ready s i n); [|discriminate]. destruct (loc i n) as [[p [o| |]]| |]; now injection H as <- _.
  - injection H as <- _. cbn. destruct (Nat.eqb_spec j i) as [->|N1]; [destruct (Nat.eqb_spec m n) as [->|N2]|]; cbn; split; auto;
      intros [E|E]; auto; injection E; intros; subst; contradiction.
Qed.

Lemma act_insert s a s' p o inf : act s a = Some (s', Some (CInsert p o inf)) ->
  exists n, y_ready s (who a) n = true /\ loc (who a) n = Ok (p, Ok o).
Proof.
  unfold ModelPlugin.act. intros H. destruct (y_dead s); [discriminate|]. destruct a as [i|i|i n]; cbn [who].
  - destruct (d_pc (y_fdbs s i)).
    + destruct (nth_error _ _); discriminate.
    + destruct (d_agg _) as [x|]; [|discriminate]. destruct (a_closed x); [discriminate|]. destruct (_ <? _); discriminate.
    + destruct (d_agg _) as [x|]; [|discriminate]. destruct (a_consumer x); try discriminate.
      destruct (a_queue x); [|discriminate]. destruct (c_flush _ _ _). discriminate.
  - destruct (d_agg _) as [x|]; [|discriminate]. destruct (a_consumer x) as [|[n i']|]; try discriminate.
    + destruct (a_queue x); [destruct (a_closed x)|]; discriminate.
    + destruct (y_ready s i n) eqn:R; [|discriminate]. destruct (loc i n) as [[p' [o'| |]]| |] eqn:L; try discriminate.
      injection H as _ <- <- _. eauto.
  - discriminate.
Qed.

Lemma ready_from l : forall s s' tr, play s l = Some (s', tr) ->
  forall j m, y_ready s' j m = true <-> y_ready s j m = true \/ In (Fulfil j m) l.
Proof.
  induction l as [|a l IH]; intros s s' tr H j m; cbn [ModelPlugin.play] in H.
  - injection H as <- _. cbn. tauto.
  - destruct (act s a) as [[s1 q]|] eqn:A; [|discriminate]. destruct (play s1 l) as [[s2 t]|] eqn:P; [|discriminate]. injection H as <- _.
    rewrite (IH _ _ _ P), (act_ready _ _ _ _ A). cbn. tauto.
Qed.

Lemma inserted_from l : forall s s' tr, play s l = Some (s', tr) ->
  forall i p o inf, In (i, CInsert p o inf) tr -> exists n, (y_ready s i n = true \/ In (Fulfil i n) l) /\ loc i n = Ok (p, Ok o).
Proof.
  induction l as [|a l IH]; intros s s' tr H i p o inf I; cbn [ModelPlugin.play] in H.
  - injection H as _ <-. contradiction.
  - destruct (act s a) as [[s1 q]|] eqn:A; [|discriminate]. destruct (play s1 l) as [[s2 t]|] eqn:P; [|discriminate]. injection H as _ <-.
    assert (In (i, CInsert p o inf) t -> exists n, (y_ready s i n = true \/ In (Fulfil i n) (a :: l)) /\ loc i n = Ok (p, Ok o)) as L.
    { intros J. destruct (IH _ _ _ P _ _ _ _ J) as (n & R & E). exists n. split; [|exact E]. rewrite (act_ready _ _ _ _ A) in R. cbn. tauto. }
    destruct q as [q|]; [|auto]. destruct I as [I|I]; [|auto]. injection I as <- ->.
    destruct (act_insert _ _ _ _ _ _ A) as (n & R & E). eauto.
Qed.

Theorem fulfilled_first d cap l s tr : play (sys_new d cap) l = Some (s, tr) ->
  (forall i n, y_ready s i n = true <-> In (Fulfil i n) l) /\
  (forall i p o inf, In (i, CInsert p o inf) tr -> exists n, In (Fulfil i n) l /\ loc i n = Ok (p, Ok o)).
Proof.
  intros H. split.
  - intros i n. rewrite (ready_from _ _ _ _ H). cbn. intuition discriminate.
  - intros i p o inf I. destruct (inserted_from _ _ _ _ H _ _ _ _ I) as (n & [R|R] & E); [discriminate|eauto].
Qed.
End Plugin.
