(* For the examples of C88 and C89. *)
From Coq Require Import Permutation QArith Lia.
From Verif Require Import Base BaseLemmas ModelInfo ModelSimple ModelCcsds ModelJumper ModelStrings ModelStream ModelIndex ModelLRU ModelCache ModelBuild
  ModelEngine ModelQueue ModelTask SpecCache SpecBuild SpecEngine SpecSystem SpecDeploy SpecQueue ProofsCache ProofsCache2
  ProofsTask3 ProofsSystem SpecConcurrent ProofsConcurrent.
From Verif Require Import ModelThreads SpecThreads ProofsThreads4.
Local Open Scope nat_scope.

Lemma play_runs cf l : forall s h s' h', runs cf s h -> play_log cf s h l = Some (s', h') -> runs cf s' h'.
Proof.
  induction l as [|a l IH]; intros s h s' h' R H; cbn [play_log] in H; [injection H as <- <-; exact R|].
  destruct (act cf s a) as [s1|] eqn:A; [|discriminate]. apply (IH _ _ _ _) in H; [exact H|]. clear IH H.
  pose proof (act_step _ _ _ _ A) as St.
  assert (C : (exists w t, ends s a = [t] /\ s_workers s w = WRunning t /\ s_workers s1 w <> WRunning t) \/
              (ends s a = [] /\ forall w t, s_workers s w = WRunning t -> s_workers s1 w = WRunning t)).
  { destruct a as [g|g w|w]; cbn [ends act] in *.
    - right. split; [reflexivity|]. intros w t E.
      repeat match type of A with
             | context [match ?x with _ => _ end] => destruct x; try discriminate
             end; injection A as <-; exact E.
    - right. split; [reflexivity|]. intros w' t E.
      repeat match type of A with
             | context [match ?x with _ => _ end] => destruct x eqn:?; try discriminate
             end; injection A as <-; cbn; unfold wupd; (destruct (Nat.eqb_spec w' w) as [->|]; [congruence|exact E]).
    - destruct (Nat.ltb w (cf_workers cf)); cbn [negb] in A; [|discriminate].
      destruct (s_workers s w) as [| |t|t|t|t m|g k] eqn:Ew; cbn [touches] in A.
      all: try discriminate A; try (right; split; [reflexivity|]; intros w' t' E; assert (w' <> w) by (intros ->; congruence);
                repeat match type of A with
                       | context [match ?x with _ => _ end] => destruct x; try discriminate
                       end; injection A as <-; cbn; unfold wupd; (destruct (Nat.eqb_spec w' w); [congruence|exact E])).
      destruct (g_alive (s_groups s (fst t))) eqn:Al.
      + left. exists w, t. split; [reflexivity|]. split; [exact Ew|]. destruct t as [g i]. injection A as <-. cbn. unfold wupd.
        rewrite Nat.eqb_refl. destruct (cf_result cf g i); discriminate.
      + right. split; [reflexivity|]. intros w' t' E. destruct (s_ub s); [discriminate|]. injection A as <-. exact E. }
  destruct C as [(w & t & -> & E1 & E2)|(-> & K)].
  - eapply runs_end; eauto.
  - rewrite app_nil_r. eapply runs_step; eauto.
Qed.

(* a lookup by a single thread *)
Section Lone.
Context {F : Type}.
Variable uniq : nat -> string -> string.
Variable data : string -> Z -> outcome (info F).
Variable data_offsets : string -> outcome (list Z).
Variable g : ModelCache.config.
Variable cap : nat.
Let nothing : @disk F := fun _ => None.

Lemma lone_lookup p offs : exists s t,
  reached uniq data data_offsets g nothing cap [(0, [CGet p offs])] s /\ h_lost (fst s) = false /\
  In t (snd s) /\ In (CGet p offs, omap AInfos (snd (c_get data g (cache_new nothing cap) p offs))) (t_log t).
Proof.
  unfold reached.
  assert (Q : exists n s t, run uniq data data_offsets g (repeat (0, false) n) (start_pool nothing cap [(0, [CGet p offs])]) = Some s /\
     h_lost (fst s) = false /\ snd s = [t] /\ t_log t = [(CGet p offs, omap AInfos (snd (c_get data g (cache_new nothing cap) p offs)))]).
  2:{ destruct Q as (n & s & t & A & B & C & D). exists s, t. split; [eauto|]. split; [exact B|]. rewrite C, D. split; left; reflexivity. }
  unfold c_get. cbn [cache_new c_lru c_disk c_staged].
  destruct (get_cached p offs (lru_new cap) []) as [[res l]|e|] eqn:Eg.
  2:{ exists 1. cbn. unfold step_pool, step_thread, start. cbn. rewrite Eg. cbn. do 2 eexists. split; [reflexivity|]. cbn. auto. }
  2:{ exists 1. cbn. unfold step_pool, step_thread, start. cbn. rewrite Eg. cbn. do 2 eexists. split; [reflexivity|]. cbn. auto. }
  cbv zeta.
  assert (V : get_vec data g None p offs res = (let* res := get_rest data g nothing p offs res in
             let* _ := assert_ (lenN res =? lenN offs)%N in mapM (pick res) offs)) by reflexivity.
  assert (Q : exists n h, run uniq data data_offsets g (repeat (0, false) n) (start_pool nothing cap [(0, [CGet p offs])]) =
     Some (h, [mk_thread 0 (WHave p (ForGet offs res) None) [CGet p offs] []]) /\ h_lost h = false /\ p_lru (h_proc h 0) = l).
  { destruct (lenN res =? lenN offs)%N eqn:El.
    - exists 1. cbn. unfold step_pool, step_thread, start. cbn. rewrite Eg, El. cbn. eexists. split; [reflexivity|]. cbn. auto.
    - exists 2. cbn. unfold step_pool, step_thread, start. cbn. rewrite Eg, El. cbn. eexists. split; [reflexivity|]. cbn. auto. }
  destruct Q as (n & h & R & Lo & Lr).
  assert (App : forall m s, run uniq data data_offsets g (repeat (0, false) m) (h, [mk_thread 0 (WHave p (ForGet offs res) None) [CGet p offs] []]) = Some s ->
     run uniq data data_offsets g (repeat (0, false) (n + m)) (start_pool nothing cap [(0, [CGet p offs])]) = Some s).
  { clear -R. intros m s H. revert R. generalize (start_pool nothing cap [(0, [CGet p offs])]). induction n as [|n IH]; intros s0 R; cbn [Nat.add repeat run] in *.
    - injection R as ->. exact H.
    - destruct (step_pool uniq data data_offsets g 0 false s0); [|discriminate]. now apply IH. }
  destruct (get_rest data g nothing p offs res) as [res'|e|] eqn:Er; cbn [obind] in V |- *.
  2,3: eexists (n + 1), _, _; split; [apply App; cbn [repeat run]; unfold step_pool, step_thread; cbn [fst snd nth_error t_todo t_work]; rewrite V; reflexivity|];
     cbn; auto.
  destruct (lenN res' =? lenN offs)%N eqn:El; cbn [assert_ obind] in V |- *.
  2: eexists (n + 1), _, _; split; [apply App; cbn [repeat run]; unfold step_pool, step_thread; cbn [fst snd nth_error t_todo t_work]; rewrite V; reflexivity|];
     cbn; auto.
  destruct (mapM (pick res') offs) as [vec|e|] eqn:Em; cbn [obind] in V |- *.
  2,3: eexists (n + 1), _, _; split; [apply App; cbn [repeat run]; unfold step_pool, step_thread; cbn [fst snd nth_error t_todo t_work]; rewrite V; reflexivity|];
     cbn; auto.
  destruct (put_cache p (combine offs vec) l) as [l2|e|] eqn:Ep; cbn [obind];
    eexists (n + 2), _, _; (split; [apply App; cbn [repeat run]; unfold step_pool, step_thread; cbn [fst snd nth_error t_todo t_work]; rewrite V;
      cbn [fst snd nth_error t_todo t_work go set_nth t_proc]; rewrite Lr, Ep; reflexivity|]); cbn; auto.
Qed.
End Lone.

(* the assumption on lookups can be met *)
Lemma one_world ps : sound_programs (describe one_file) one_path (fun _ => 0) ps ->
  SpecThreads.sound_world ex_tickets (describe one_file) (find_offsets one_file) one_cache one_path (fun _ => 0) (fun _ => None) 2 ps.
Proof.
  intros S. pose proof one_file_sound as Hs. split; [exact (describe_defined _ _ _ Hs)|]. split; [exact (offsets_defined _ _ _ Hs)|].
  split; [exact (proj1 (proj2 (proj2 (proj2 (proj2 (proj2 (proj2 Hs)))))))|]. split; [|split; [|split; [lia|exact S]]].
  - split; [|split].
    + intros n p q -> ->. discriminate.
    + intros n m p q E. apply (f_equal String.length) in E. unfold ex_tickets in E. rewrite !slen_app, !us_length in E. lia.
    + reflexivity.
  - intros p _. exists []. split; [left; auto|constructor].
Qed.

Lemma one_lookup_shared : shared_lookup one_file one_cache one_path true one_lookup.
Proof.
  split.
  - intros p offs Hp. destruct (lone_lookup ex_tickets (describe one_file) (find_offsets one_file) one_cache 2 p offs) as (s & t & R & L & I & A).
    exists ex_tickets, (fun _ => 0), (fun _ => None), 2, [(0, [CGet p offs])], s, t. split.
    { apply one_world. constructor; [|constructor]. constructor; [|constructor]. split; [exact Hp|exact Logic.I]. }
    split; [intros _; repeat constructor|]. auto.
  - intros p offs infos E. unfold one_lookup in E.
    destruct (c_get (describe one_file) one_cache (cache_new (fun _ => None) 2) p offs) as [c r] eqn:Ec. cbn [snd] in E.
    destruct (c_get_shape (o_uniq one_file) (describe one_file) (find_offsets one_file) one_cache (describe_defined _ _ _ one_file_sound) (cache_new (fun _ => None) 2) p offs c r ltac:(cbn; lia) Ec) as [_ Hsh].
    now apply Hsh.
Qed.

(* the example of C88 *)
Lemma busy_runs : exists s, runs busy_cf s [(1, 0); (0, 1); (0, 0)] /\ returned s 0 [] /\ returned s 1 ["no such file"%string].
Proof.
  assert (X : match play_log busy_cf sys_init [] busy_schedule with
              | Some (s, h) => h = [(1, 0); (0, 1); (0, 0)] /\ s_clients s 0 = CDone [] /\ s_clients s 1 = CDone ["no such file"%string]
              | None => False end) by (vm_compute; auto).
  destruct (play_log busy_cf sys_init [] busy_schedule) as [[s h]|] eqn:E; [|contradiction]. destruct X as (-> & A & B).
  exists s. split; [exact (play_runs _ _ _ _ _ _ (runs_init _) E)|]. split; right; assumption.
Qed.
Lemma busy_prepared : prepared demo demo_cfg busy_requests (map r_string (canon_requests false false busy_requests)) busy_items busy_tasks.
Proof.
  unfold prepared. do 5 eexists. split; [vm_compute; reflexivity|]. split; [reflexivity|]. split; [vm_compute; reflexivity|].
  split; vm_compute; reflexivity.
Qed.
Lemma busy_runs_tasks : no_abandon busy_cf /\ runs_tasks (fun _ => ""%string) busy_cf 0 busy_tasks.
Proof.
  split; [intro; reflexivity|]. split; [reflexivity|].
  assert (X : forall i t, nth_error busy_tasks i = Some t -> exists rs, t = Ok rs).
  { assert (Y : Forall (fun t => exists rs, t = Ok rs) busy_tasks) by (vm_compute; repeat constructor; eauto).
    intros i t E. exact (proj1 (Forall_forall _ _) Y t (nth_error_In _ _ E)). }
  intros i t E. destruct (X i t E) as (rs & ->). reflexivity.
Qed.
