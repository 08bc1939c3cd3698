(* C105: forwarded requests and scans served at the same time as others *)
From Coq Require Import Permutation.
From Verif Require Import Base ModelInfo ModelStream ModelJumper ModelStrings ModelEngine ModelQueue ModelTask ModelProtocol ModelRemote ModelForward
  SpecQueue SpecEngine SpecRemote SpecForward SpecDeploy SpecConcurrent SpecBusy ProofsConcurrent3 ProofsBusy.
Local Open Scope nat_scope.

(* whatever the schedule and the order of the servers, the items and errors are those of asking one server after the other *)
Theorem C105_tasks :
  forall (F M : Type) (k : link F M) sm connect (w : world F) its fm subs order text cf g s h errs,
    sorts (w_sorter w) -> NoDup (concat (map snd fm)) -> server_file_map sm its fm = Ok subs -> Permutation subs order ->
    let ts := server_tasks k connect w its order in
    no_abandon cf -> runs_tasks text cf g ts -> runs cf s h -> returned s g errs ->
    exists es, forwards k sm connect (w_sorter w) fm its = Ok (es, items_after ts (of_group g h) its) /\ Permutation errs (map text es).
Proof. exact (fun F M => @forward_independent F M). Qed.
Print Assumptions C105_tasks.

(* so the call returns what the sequential engine returns *)
Theorem C105_answer :
  forall (F M : Type) (k : link F M) sm connect (w : world F) text cf g cfg reqs keys its ts s h errs,
    sorts (w_sorter w) -> unique_listings w cfg -> c_forward cfg = true -> prepared_forward k sm connect w cfg reqs keys its ts ->
    no_abandon cf -> runs_tasks text cf g ts -> runs cf s h -> returned s g errs ->
    answer_of keys errs (items_after ts (of_group g h) its) = extract_requests (forwarding k sm connect w) cfg reqs.
Proof. exact (fun F M => @served_forward F M). Qed.
Print Assumptions C105_answer.

Theorem C105_answer_paths :
  forall (F M : Type) (k : link F M) sm connect (w : world F) text cf g cfg reqs keys its ts s h errs r0 rest,
    sorts (w_sorter w) -> reqs = r0 :: rest -> (p_host r0 <> ""%string \/ p_port r0 <> 0%Z) ->
    prepared_forward_paths k sm connect w reqs keys its ts ->
    no_abandon cf -> runs_tasks text cf g ts -> runs cf s h -> returned s g errs ->
    answer_of keys errs (items_after ts (of_group g h) its) = extract_path_requests (forwarding k sm connect w) cfg reqs.
Proof. exact (fun F M => @served_forward_paths F M). Qed.
Print Assumptions C105_answer_paths.

(* a request that the sequential engine answers is answered under every schedule, even when other requests fail *)
Theorem C105_answered :
  forall (F M : Type) (k : link F M) sm connect (w : world F) cfg reqs res,
    c_forward cfg = true -> extract_requests (forwarding k sm connect w) cfg reqs = Ok res ->
    (exists keys its ts, prepared_forward k sm connect w cfg reqs keys its ts) /\
    forall keys its ts, prepared_forward k sm connect w cfg reqs keys its ts ->
      forall text cf g s, no_abandon cf -> 0 < cf_workers cf -> g < cf_clients cf -> runs_tasks text cf g ts ->
        ModelTask.reachable cf s ->
        completes cf s g /\ forall s' errs, ModelTask.reachable cf s' -> returned s' g errs -> errs = [].
Proof. exact (fun F M => @answered_forward F M). Qed.
Print Assumptions C105_answered.

(* and its values are those stored by the owners of the files *)
Theorem C105_values :
  forall (F M : Type) (k : link F M) sm connect sites nodes (w : world F) text cf g cfg reqs keys its ts s h errs res,
    sound_link k -> sorts (w_sorter w) ->
    (forall ep, sound_node (nodes ep) /\ s_world (sites ep) = node_world (nodes ep)) ->
    (forall ep, connect ep = site_server k (sites ep)) ->
    c_forward cfg = true -> unique_listings w cfg -> (forall u l, w_list w u = Ok l -> placed_listing (c_ignore_ym cfg) l) ->
    prepared_forward k sm connect w cfg reqs keys its ts -> no_abandon cf -> runs_tasks text cf g ts -> runs cf s h -> returned s g errs ->
    answer_of keys errs (items_after ts (of_group g h) its) = Ok res ->
    exists u listing, w_list w u = Ok listing /\ owner_results sm nodes (fun ep => s_cfg (sites ep)) cfg reqs listing res.
Proof. exact (fun F M => @busy_forward_values F M). Qed.
Print Assumptions C105_values.

(* the atomic counter of a scan ends with the total of the sequential scan *)
Theorem C105_scan :
  forall scan_file m text cf g s h errs, let ts := scan_tasks scan_file m in
    no_abandon cf -> runs_tasks text cf g ts -> runs cf s h -> returned s g errs ->
    exists es, schedule_scan scan_file m = Ok (count_after ts (of_group g h), es) /\ Permutation errs (map text es).
Proof. exact file_scans_independent. Qed.
Print Assumptions C105_scan.

Theorem C105_forwarded_scan :
  forall (F M : Type) (k : link F M) sm connect us subs order text cf g s h errs,
    server_scan_map sm us = Ok subs -> Permutation subs order -> let ts := server_scan_tasks k connect order in
    no_abandon cf -> runs_tasks text cf g ts -> runs cf s h -> returned s g errs ->
    exists es, forwards_scans k sm connect us = Ok (count_after ts (of_group g h), es) /\ Permutation errs (map text es).
Proof. exact (fun F M => @server_scans_independent F M). Qed.
Print Assumptions C105_forwarded_scan.

Theorem C105_scan_answered :
  forall scan_file m n, schedule_scan scan_file m = Ok (n, []) ->
  forall text cf g s, no_abandon cf -> 0 < cf_workers cf -> g < cf_clients cf -> runs_tasks text cf g (scan_tasks scan_file m) ->
    ModelTask.reachable cf s ->
    completes cf s g /\ forall s' errs, ModelTask.reachable cf s' -> returned s' g errs -> errs = [].
Proof. exact scan_answered. Qed.
Print Assumptions C105_scan_answered.

Theorem C105_forwarded_scan_answered :
  forall (F M : Type) (k : link F M) sm connect us subs order n,
    server_scan_map sm us = Ok subs -> Permutation subs order -> forwards_scans k sm connect us = Ok (n, []) ->
  forall text cf g s, no_abandon cf -> 0 < cf_workers cf -> g < cf_clients cf -> runs_tasks text cf g (server_scan_tasks k connect order) ->
    ModelTask.reachable cf s ->
    completes cf s g /\ forall s' errs, ModelTask.reachable cf s' -> returned s' g errs -> errs = [].
Proof. exact (fun F M => @server_scan_answered F M). Qed.
Print Assumptions C105_forwarded_scan_answered.

(* the server of h2 is the first of the map and answers last, among the tasks of a request that fails *)
Example C105_example :
  exists s, runs busy_cf s [(1, 0); (0, 1); (0, 0)] /\ returned s 0 [] /\ of_group 0 [(1, 0); (0, 1); (0, 0)] = [1; 0] /\
    prepared_forward_paths demo_link demo_servermap demo_connect demo far_requests (map p_string far_requests) far_items far_tasks /\
    no_abandon busy_cf /\ runs_tasks (fun _ => ""%string) busy_cf 0 far_tasks /\
    map fst far_order = [("jump2", 9002%Z); ("jump1", 9001%Z)]%string /\
    answer_of (map p_string far_requests) [] (items_after far_tasks [1; 0] far_items) =
      Ok [([[2200]]%Z, [[1]]%N); ([[1300]]%Z, [[1]]%N); ([[2100]]%Z, [[1]]%N)] /\
    extract_path_requests demo_client demo_cfg far_requests =
      Ok [([[2200]]%Z, [[1]]%N); ([[1300]]%Z, [[1]]%N); ([[2100]]%Z, [[1]]%N)].
Proof.
  destruct busy_runs as (s & R & A & B). exists s. split; [exact R|]. split; [exact A|]. split; [reflexivity|].
  split.
  { eexists; eexists. split; [reflexivity|]. split; [vm_compute; reflexivity|]. split; [apply Permutation_rev|]. split; [vm_compute; reflexivity|reflexivity]. }
  split; [intro; reflexivity|]. split.
  { split; [reflexivity|]. intros [|[|i]] t E; vm_compute in E; [injection E as <-; reflexivity..|destruct i; discriminate]. }
  split; [vm_compute; reflexivity|]. split; vm_compute; reflexivity.
Qed.
(* the files /a and /c are counted, whichever ends first; /b fails *)
Example C105_scan_example :
  far_scans = [Ok 3%N; Throw (EMsg "no such file"); Ok 2%N] /\ count_after far_scans [2; 1; 0] = 5%N /\ count_after far_scans [1; 0; 2] = 5%N /\
  schedule_scan far_scan [("/b"%string, [7]); ("/c"%string, [4; 2]); ("/a"%string, [5; 1; 3])]%Z = Ok (5%N, [EMsg "no such file"]).
Proof. vm_compute. auto. Qed.
