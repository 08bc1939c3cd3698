(* A deployment of many servers as its users see it: as if all files were on one machine (C113). *)
From Coq Require Import QArith.
From Verif Require Import Base ModelStrings ModelInfo ModelSimple ModelStream ModelJumper ModelCache ModelBuild ModelEngine ModelQueue ModelTask
     ModelApi ModelPython ModelUser ModelClient ModelProtocol ModelRemote ModelForward
     SpecQueue SpecEngine SpecJumper SpecBuild SpecSystem SpecRemote SpecForward SpecDeploy SpecPaths SpecUser SpecConcurrent SpecBusy.

Section Many.
Context {F M : Type}.
Variable sm : list (endpoint * endpoint).
Variable nodes : endpoint -> node F.
Variable home : string -> endpoint.      (* the server that keeps a file *)

(* the machine with the catalogue [list] and every file as the server that keeps it has it; the rest from [base] *)
Definition together (base : outside F) (list : string -> outcome (list listed)) : outside F :=
  mk_outside F (o_arith base) (o_aec base) (o_aec_full base) (o_grib_at base) (fun p => o_files (n_outside (nodes (home p))) p)
    (o_codes_offsets base) (o_scan_corrupted base) (o_buffer_size base) (o_fresh base) (o_uniq base) (o_sorter base)
    (o_pieces base) (o_forward base) list.
Definition in_use (p : string) : Prop := n_paths (nodes (home p)) p.
Definition joint_node (base : outside F) (list : string -> outcome (list listed)) : node F :=
  mk_node (together base list) (n_cache (nodes (home ""%string))) in_use (fun p offs => n_state (nodes (home p)) p offs).

(* all servers calculate alike and read messages with the same eccodes and libaec *)
Definition alike (base : outside F) : Prop :=
  forall ep, let o := n_outside (nodes ep) in
    o_arith o = o_arith base /\ o_aec_full o = o_aec_full base /\ o_grib_at o = o_grib_at base.
(* the catalogue and the map of servers lead to the server that keeps the file *)
Definition at_home (list : string -> outcome (list listed)) : Prop :=
  forall u listing e ep, list u = Ok listing -> In e listing -> ep_find (location (l_uri e)) sm = Some ep ->
    ep = home (u_path (l_uri e)).
Definition paths_at_home (reqs : list path_request) : Prop :=
  forall r ep, In r reqs -> ep_find (p_host r, p_port r) sm = Some ep -> ep = home (p_path r).
(* what this process checks, the servers check *)
Definition checks_grids (ignore_grid : bool) (configs : endpoint -> ModelEngine.config) : Prop :=
  ignore_grid = false -> forall ep, c_ignore_grid (configs ep) = false.
End Many.

(* [res] is what a request on a busy machine can be answered with: some run of its tasks by workers, among those of
   any other requests *)
Definition busy_answer {F} (w : world F) (cfg : ModelEngine.config) (reqs : list request) (res : list (result F)) : Prop :=
  exists text cf c keys its ts s h errs,
    prepared w cfg reqs keys its ts /\ no_abandon cf /\ runs_tasks text cf c ts /\ runs cf s h /\ returned s c errs /\
    answer_of keys errs (items_after ts (of_group c h) its) = Ok res.
Definition busy_forward_answer {F M} (k : link F M) sm connect (w : world F) (cfg : ModelEngine.config) (reqs : list request)
    (res : list (result F)) : Prop :=
  exists text cf c keys its ts s h errs,
    prepared_forward k sm connect w cfg reqs keys its ts /\ no_abandon cf /\ runs_tasks text cf c ts /\ runs cf s h /\
    returned s c errs /\ answer_of keys errs (items_after ts (of_group c h) its) = Ok res.
Definition busy_path_answer {F} (w : world F) (cfg : ModelEngine.config) (reqs : list path_request) (res : list (result F)) : Prop :=
  exists text cf c keys its ts s h errs,
    prepared_paths w cfg reqs keys its ts /\ no_abandon cf /\ runs_tasks text cf c ts /\ runs cf s h /\ returned s c errs /\
    answer_of keys errs (items_after ts (of_group c h) its) = Ok res.
Definition busy_forward_path_answer {F M} (k : link F M) sm connect (w : world F) (reqs : list path_request) (res : list (result F)) : Prop :=
  exists text cf c keys its ts s h errs,
    prepared_forward_paths k sm connect w reqs keys its ts /\ no_abandon cf /\ runs_tasks text cf c ts /\ runs cf s h /\
    returned s c errs /\ answer_of keys errs (items_after ts (of_group c h) its) = Ok res.

(* the requests a C caller makes *)
Definition c_made (parsing : bool) (parse : string -> outcome string) (asks : list c_ask) : outcome (list request) :=
  mapM (fun a : c_ask => let '(text, arr, hash) := a in
          checked (c_new_request parsing parse true (Some text) (Some arr) (lenN arr) (Some hash))) asks.

(* ---- the two servers of SpecDeploy, for the examples ---- *)
Definition data_home (p : string) : endpoint :=
  if String.eqb p "/fdb/x.data" then ("jump1"%string, 9001%Z) else ("jump2"%string, 9002%Z).
Definition front_impl : impl Q unit :=
  mk_impl (fun _ => throw ELibrary) (fun _ _ => throw ELibrary)
    (fun reqs w => (omap fst (client_extract (plain_link Q) (site_server (plain_link Q) front_site) reqs), w))
    (fun reqs w => (extract_path_requests (forwarding (plain_link Q) demo_servermap data_connect front_world) front_cfg reqs, w))
    (fun _ _ _ => throw ELibrary) (fun _ _ => throw ELibrary).
