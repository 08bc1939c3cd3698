(* C88, C89: requests served at the same time *)
From Coq Require Import Permutation QArith.
From Verif Require Import Base ModelInfo ModelSimple ModelJumper ModelStrings ModelCache ModelBuild ModelEngine ModelQueue ModelTask
  SpecCache SpecBuild SpecEngine SpecSystem SpecDeploy SpecQueue SpecConcurrent ProofsConcurrent ProofsConcurrent2 ProofsConcurrent3.
Local Open Scope nat_scope.

(* ---- C88 ---- *)

(* every execution has a history: the order in which the tasks ended *)
Theorem C88_histories :
  forall cf s, no_abandon cf -> ModelTask.reachable cf s -> exists h, runs cf s h.
Proof. exact (fun cf s NA => reachable_runs cf NA s). Qed.
Print Assumptions C88_histories.

(* ... and when a request has returned, each of its tasks has ended exactly once *)
Theorem C88_each_once :
  forall cf s h g errs, no_abandon cf -> runs cf s h -> returned s g errs ->
    Permutation (of_group g h) (seq 0 (cf_tasks cf g)).
Proof. exact (fun cf s h g errs NA => order_complete cf NA s h g errs). Qed.
Print Assumptions C88_each_once.

(* whatever the schedule, the items and errors of a group are those of running its tasks one after the other *)
Theorem C88_tasks :
  forall (F : Type) text cf g (ts : list (outcome (list (string * result F)))) its s h errs,
    no_abandon cf -> runs_tasks text cf g ts -> separate ts -> runs cf s h -> returned s g errs ->
    exists es, run_tasks ts its = Ok (es, items_after ts (of_group g h) its) /\ Permutation errs (map text es).
Proof. exact (fun F => @tasks_schedule_independent F). Qed.
Print Assumptions C88_tasks.

(* so the call returns what the sequential engine returns *)
Theorem C88_answer :
  forall (F : Type) (w : world F) text cf g cfg reqs keys its ts s h errs,
    sound_world w -> unique_listings w cfg -> c_forward cfg = false -> prepared w cfg reqs keys its ts ->
    no_abandon cf -> runs_tasks text cf g ts -> runs cf s h -> returned s g errs ->
    answer_of keys errs (items_after ts (of_group g h) its) = extract_requests w cfg reqs.
Proof. exact (fun F w text cf g cfg reqs keys its ts s h errs Hw => served_requests w Hw text cf g cfg reqs keys its ts s h errs). Qed.
Print Assumptions C88_answer.

Theorem C88_answer_paths :
  forall (F : Type) (w : world F) text cf g cfg reqs keys its ts s h errs r0 rest,
    sound_world w -> reqs = r0 :: rest -> p_host r0 = ""%string -> p_port r0 = 0%Z -> prepared_paths w cfg reqs keys its ts ->
    no_abandon cf -> runs_tasks text cf g ts -> runs cf s h -> returned s g errs ->
    answer_of keys errs (items_after ts (of_group g h) its) = extract_path_requests w cfg reqs.
Proof. exact (fun F w text cf g cfg reqs keys its ts s h errs r0 rest Hw => served_paths w Hw text cf g cfg reqs keys its ts s h errs r0 rest). Qed.
Print Assumptions C88_answer_paths.

(* a request that the sequential engine answers is answered under every schedule, even when other requests fail *)
Theorem C88_answered :
  forall (F : Type) (w : world F) cfg reqs res, c_forward cfg = false -> extract_requests w cfg reqs = Ok res ->
    exists keys its ts, prepared w cfg reqs keys its ts /\
      forall text cf g s, no_abandon cf -> 0 < cf_workers cf -> g < cf_clients cf -> runs_tasks text cf g ts ->
        ModelTask.reachable cf s ->
        completes cf s g /\ forall s' errs, ModelTask.reachable cf s' -> returned s' g errs -> errs = [].
Proof. exact (fun F => @answered_always F). Qed.
Print Assumptions C88_answered.

(* the second of two tasks ends first, between them a task of a request that fails *)
Example C88_example :
  exists s, runs busy_cf s [(1, 0); (0, 1); (0, 0)] /\ returned s 0 [] /\ returned s 1 ["no such file"%string] /\
    of_group 0 [(1, 0); (0, 1); (0, 0)] = [1; 0] /\
    prepared demo demo_cfg busy_requests (map r_string (canon_requests false false busy_requests)) busy_items busy_tasks /\
    no_abandon busy_cf /\ runs_tasks (fun _ => ""%string) busy_cf 0 busy_tasks /\
    answer_of (map r_string (canon_requests false false busy_requests)) [] (items_after busy_tasks [1; 0] busy_items) =
      Ok [([[700; 700]], [[3%N]]); ([[100; 100; 100]], [[7%N]]); ([[300]], [[1%N]])]%Z /\
    extract_requests demo demo_cfg busy_requests =
      Ok [([[700; 700]], [[3%N]]); ([[100; 100; 100]], [[7%N]]); ([[300]], [[1%N]])]%Z.
Proof.
  destruct busy_runs as (s & R & A & B). exists s. split; [exact R|]. split; [exact A|]. split; [exact B|]. split; [reflexivity|].
  split; [exact busy_prepared|]. split; [exact (proj1 busy_runs_tasks)|]. split; [exact (proj2 busy_runs_tasks)|].
  split; vm_compute; reflexivity.
Qed.

(* ---- C89 ---- *)

(* with the info cache shared with other threads and processes, results are still the stored values *)
Theorem C89_values :
  forall (F : Type) (o : outside F) (g : ModelCache.config) (P : string -> Prop) quiet lookup cfg reqs res,
    sound_outside o g P -> shared_lookup o g P quiet lookup ->
    unique_listings (shared_world o P lookup) cfg -> c_forward cfg = false -> c_inefficient cfg = false ->
    extract_requests (shared_world o P lookup) cfg reqs = Ok res ->
    exists u listing, o_list o u = Ok listing /\ right_results o P cfg reqs listing res.
Proof. exact (fun F o g P quiet lookup cfg reqs res Hs Hl => shared_values o g P Hs quiet lookup Hl cfg reqs res). Qed.
Print Assumptions C89_values.

(* ... with the tasks of the request run by concurrent workers among those of other requests *)
Theorem C89_server_values :
  forall (F : Type) (o : outside F) (g : ModelCache.config) (P : string -> Prop) quiet lookup text cf c cfg reqs keys its ts s h errs res,
    sound_outside o g P -> shared_lookup o g P quiet lookup -> let w := shared_world o P lookup in
    unique_listings w cfg -> c_forward cfg = false -> c_inefficient cfg = false -> prepared w cfg reqs keys its ts ->
    no_abandon cf -> runs_tasks text cf c ts -> runs cf s h -> returned s c errs ->
    answer_of keys errs (items_after ts (of_group c h) its) = Ok res ->
    exists u listing, o_list o u = Ok listing /\ right_results o P cfg reqs listing res.
Proof. exact (fun F o g P quiet lookup text cf c cfg reqs keys its ts s h errs res Hs Hl =>
                busy_server_values o g P Hs quiet lookup Hl text cf c cfg reqs keys its ts s h errs res). Qed.
Print Assumptions C89_server_values.

(* ... and the answer does come, if nobody flushes the cache meanwhile and files are scanned on demand *)
Theorem C89_server_answers :
  forall (F : Type) (o : outside F) (g : ModelCache.config) (P : string -> Prop) lookup cfg reqs listing,
    sound_outside o g P -> shared_lookup o g P true lookup -> let w := shared_world o P lookup in
    g_lazy g = true -> c_forward cfg = false -> c_inefficient cfg = false ->
    NoDup (map r_string (canon_requests (c_ignore_ym cfg) false reqs)) ->
    (forall u, o_list o u = Ok listing) -> duplicate_free (c_ignore_ym cfg) listing ->
    own_places cfg reqs listing ->
    (forall r e, located cfg reqs listing r e -> fine_request o P cfg r e) ->
    (c_allow_missing cfg = true \/
     forall r, In r (canon_requests (c_ignore_ym cfg) false reqs) -> exists e, located cfg reqs listing r e) ->
    (exists r e, located cfg reqs listing r e) ->
    exists keys its ts res, prepared w cfg reqs keys its ts /\ right_results o P cfg reqs listing res /\
      forall text cf c, no_abandon cf -> 0 < cf_workers cf -> c < cf_clients cf -> runs_tasks text cf c ts ->
        (forall s, ModelTask.reachable cf s -> completes cf s c) /\
        (forall s h errs, runs cf s h -> returned s c errs ->
           answer_of keys errs (items_after ts (of_group c h) its) = Ok res).
Proof. exact (fun F o g P lookup cfg reqs listing Hs Hl => busy_server_complete o g P Hs true lookup Hl cfg reqs listing eq_refl). Qed.
Print Assumptions C89_server_answers.

(* two messages of one file; the lookups satisfy the assumption *)
Example C89_example :
  sound_outside one_file one_cache one_path /\ shared_lookup one_file one_cache one_path true one_lookup /\
  extract_requests (shared_world one_file one_path one_lookup) one_cfg one_requests =
  extract_requests (world_of one_file one_cache one_path one_state) one_cfg one_requests /\
  exists res, extract_requests (shared_world one_file one_path one_lookup) one_cfg one_requests = Ok res /\ length res = 3.
Proof.
  split; [exact ProofsSystem.one_file_sound|]. split; [exact one_lookup_shared|]. split; [vm_compute; reflexivity|].
  eexists. split; [vm_compute; reflexivity|reflexivity].
Qed.
