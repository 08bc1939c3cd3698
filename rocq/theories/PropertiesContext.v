(* C90-C93: log contexts, metrics, log channels and progress messages. *)
From Verif Require Import Base ModelInfo ModelStream ModelStrings ModelEngine ModelQueue ModelTask ModelProtocol ModelRemote ModelContext ModelLog
  SpecQueue SpecContext SpecLog ProofsContext ProofsContext2 ProofsLog.

(* C90.  Whatever threads call at the same time and whichever workers do the work, every header sent for a
   call carries the context given to that call. *)
Theorem C90_context_follows :
  forall cc, no_abandon (cc_tasks cc) -> forall s g c, c_reachable cc s -> In (g, c) (x_sent s) -> c = cc_context cc g.
Proof. exact context_follows. Qed.
Print Assumptions C90_context_follows.

(* while a worker is in a task, the thread whose variable it reads is still in the call, so nobody writes it *)
Theorem C90_variable_unchanged :
  forall cc, no_abandon (cc_tasks cc) -> forall s w g i, c_reachable cc s -> (w < cf_workers (cc_tasks cc))%nat ->
    s_workers (x_sys s) w = WRunning (g, i) -> x_running s (cc_thread cc g) = Some g /\ x_context s (cc_thread cc g) = cc_context cc g.
Proof. exact caller_waits. Qed.
Print Assumptions C90_variable_unchanged.

(* through any number of servers *)
Theorem C90_through_servers :
  forall n p g p0 g0, runs n -> on_behalf n p g p0 g0 ->
    cc_context (n_config n p) g = cc_context (n_config n p0) g0.
Proof. exact behalf. Qed.
Print Assumptions C90_through_servers.

Theorem C90_headers_through_servers :
  forall n p g p0 g0 c, runs n -> on_behalf n p g p0 g0 -> In (g, c) (x_sent (n_state n p)) -> c = cc_context (n_config n p0) g0.
Proof. exact behalf_sent. Qed.
Print Assumptions C90_headers_through_servers.

(* the C interface takes JSON only, and the default context for a null pointer *)
Theorem C90_interface :
  forall json ctx c, c_context json ctx = Ok c -> json c = true /\ (ctx = Some c \/ ctx = None /\ c = no_context).
Proof. exact api_context. Qed.
Print Assumptions C90_interface.

Theorem C90_interface_refuses : forall json s, json s = false -> c_context json (Some s) = Throw EBadValue.
Proof. exact api_malformed. Qed.
Print Assumptions C90_interface_refuses.

(* the Python interface adds the default entries the user has not given *)
Theorem C90_python :
  forall defaults ctx k,
    sfind k (merge_context defaults ctx) =
    match ctx with Some c => match sfind k c with Some v => Some v | None => sfind k defaults end | None => sfind k defaults end.
Proof. exact merge_sfind. Qed.
Print Assumptions C90_python.

Theorem C90_python_keys :
  forall defaults ctx, NoDup (map fst defaults) -> (forall c, ctx = Some c -> NoDup (map fst c)) -> NoDup (map fst (merge_context defaults ctx)).
Proof. exact merge_keys. Qed.
Print Assumptions C90_python_keys.

(* calls 0 and 2 by one thread, call 1 by another, one worker: it installs the context of call 1 before call 2
   begins and sends it afterwards *)
Example C90_example :
  exists s, cplay ctx_config c_init ctx_schedule = Some s /\ c_reachable ctx_config s /\ no_abandon (cc_tasks ctx_config) /\
    x_sent s = [(0, "{""user"":""a""}"); (1, "{""user"":""b""}"); (2, "{""user"":""c""}")]%nat%string.
Proof.
  destruct (cplay ctx_config c_init ctx_schedule) as [s|] eqn:E; [|vm_compute in E; discriminate].
  exists s. split; [reflexivity|]. split; [now apply cplay_reach in E|]. split; [intro; reflexivity|].
  vm_compute in E. injection E as <-. reflexivity.
Qed.
Example C90_python_example :
  merge_context [("source", "pygribjump"); ("action", "a")]%string (Some [("user", "me"); ("action", "mine")]%string) =
  [("user", "me"); ("action", "mine"); ("source", "pygribjump")]%string.
Proof. reflexivity. Qed.

(* C91.  Every connection whose context is JSON leaves one metrics line: its context, the action, the number of
   requests, and the error the connection ended with. *)
Theorem C91_line :
  forall (F M : Type) (r_mars : @reader F M) (r_uri : @reader F uri) what json engine_sets,
    (forall s k v, In (k, v) (engine_sets s) -> ~ In k server_names) ->
    forall e id type c body, let s := w_header (F := F) type c ++ body in
    json c = true -> snd (dispatch r_mars r_uri e s) <> UB ->
    exists m, connection_metrics r_mars r_uri what json engine_sets e id s = Ok m /\ me_context m = c /\
      sfind "action" (me_values m) = option_map MText (action_name type) /\
      sfind "gribjump_request_id" (me_values m) = option_map (fun _ => MCount id) (action_name type) /\
      sfind "error" (me_values m) = match snd (dispatch r_mars r_uri e s) with Throw x => Some (MText (what x)) | _ => None end /\
      (type = t_extract -> forall q r, r_extract_request body = Ok (q, r) -> sfind "count_extraction_requests" (me_values m) = Some (MCount (lenN q))) /\
      (type = t_scan -> forall q r, r_scan_request r_mars body = Ok (q, r) -> sfind "count_scan_requests" (me_values m) = Some (MCount (lenN (fst q)))) /\
      (type = t_forward_extract -> forall q r, r_forward_extract_request r_uri body = Ok (q, r) ->
         sfind "count_extraction_requests" (me_values m) = Some (MCount (item_count q))) /\
      (type = t_forward_scan -> forall q r, r_forward_scan_request body = Ok (q, r) ->
         sfind "count_received_offsets" (me_values m) = Some (MCount (fold_right (fun f n => (lenN (snd f) + n)%N) 0%N q))).
Proof. exact @connection_line. Qed.
Print Assumptions C91_line.

(* a connection whose header cannot be read: the error, and no context *)
Theorem C91_no_header :
  forall (F M : Type) (r_mars : @reader F M) (r_uri : @reader F uri) what json engine_sets e id s,
    json no_context = true -> fst (header_context s) = no_context -> forall x, r_header s = Throw x ->
    exists m, connection_metrics r_mars r_uri what json engine_sets e id s = Ok m /\
      me_context m = no_context /\ me_values m = [("error"%string, MText (what x))].
Proof. exact @connection_no_header. Qed.
Print Assumptions C91_no_header.

(* A context that is not JSON is taken from the stream without a check: the request is served, and the line is lost. *)
Theorem C91_refuted_malformed :
  forall (F M : Type) (r_mars : @reader F M) (r_uri : @reader F uri) what json engine_sets e id type c body,
    let s := w_header (F := F) type c ++ body in
    json c = false -> snd (dispatch r_mars r_uri e s) <> UB ->
    connection_metrics r_mars r_uri what json engine_sets e id s = Throw EBadValue /\ exists t, serve r_mars r_uri what e s = Ok t.
Proof. exact @malformed_lost. Qed.
Print Assumptions C91_refuted_malformed.

Example C91_example :
  connection_metrics (F := N) (M := N) (fun s => Throw EStream) (fun s => Throw EStream) (fun _ => "failed"%string) (fun c => negb (String.eqb c ""))
    (fun _ => [("count_tasks"%string, MCount 1)])
    (mk_engine (fun _ => Throw EUser) (fun _ _ => Throw EUser) (fun r _ => if String.eqb r "class=od" then Ok [("class"%string, ["od"%string])] else Throw EUser)
               (fun _ => Throw EUser) (fun _ => Throw EUser)) 7 (w_header t_axes "{}" ++ w_axes_request "class=rd" 3%Z) =
  Ok (mk_metrics [("gribjump_request_id", MCount 7); ("action", MText "axes"); ("elapsed_receive", MTime); ("count_tasks", MCount 1);
                  ("error", MText "failed")]%string "{}"%string).
Proof. vm_compute. reflexivity. Qed.

(* C92.  Messages of a kind go to the channel the configuration names for it, in capital or small letters,
   and otherwise to the default channel: debug, or info in a server.  Unknown names are refused. *)
Theorem C92_routes :
  forall server logging, understood logging ->
    exists r, process_router server logging = Ok r /\ forall kind, get_channel r kind = Ok (belongs server logging kind).
Proof. exact routes. Qed.
Print Assumptions C92_routes.

Theorem C92_unknown_refused :
  forall server logging k v, In (k, v) (entries logging) -> meaning v = None -> process_router server logging = Throw EUser.
Proof. exact unknown_refused. Qed.
Print Assumptions C92_unknown_refused.

Example C92_example :
  omap (fun r => map (get_channel r) ["timer"; "progress"; "other"]%string)
    (process_router true (Some [("timer", "Debug"); ("progress", "DEFAULT")]%string)) = Ok [Ok Debug; Ok Info; Ok Info] /\
  omap (fun r => map (get_channel r) ["timer"; "progress"]%string) (process_router false (Some [("timer", "error")]%string)) = Ok [Ok Error; Ok Debug] /\
  process_router true (Some [("timer", "warning")]%string) = Throw EUser.
Proof. vm_compute. auto. Qed.

(* C93.  A progress message is true: it is printed when a task ends well while somebody waits, and gives the
   number of tasks that have ended. *)
Theorem C93_messages_true :
  forall n l c k, snd (group_step n (fst (group_run n new_counters l)) c) = Some k ->
    c = Notified /\ In Waits l /\ k = completions (l ++ [c]).
Proof. exact message_true. Qed.
Print Assumptions C93_messages_true.

(* If the caller waits before the first task ends, and all tasks succeed, there is a message for the first task
   and for every further tenth. *)
Theorem C93_milestones_partial :
  forall n, snd (group_run (N.of_nat n) new_counters (Waits :: repeat Notified n)) = milestones n.
Proof. exact undisturbed. Qed.
Print Assumptions C93_milestones_partial.

(* If one task ends before the caller waits, there is no message at all. *)
Theorem C93_refuted_early :
  forall n before after, ~ In Waits before -> before <> [] -> snd (group_run n new_counters (before ++ Waits :: after)) = [].
Proof. exact early_silent. Qed.
Print Assumptions C93_refuted_early.

(* If a task fails at a milestone, there is no message any more. *)
Theorem C93_refuted_failure :
  forall n l after, (completions l + 1 = p_logcounter (fst (group_run n new_counters l)))%N ->
    snd (group_run n new_counters (l ++ NotifiedError :: after)) = snd (group_run n new_counters l).
Proof. exact failure_silences. Qed.
Print Assumptions C93_refuted_failure.

Example C93_example :
  milestones 25 = [1; 3; 5; 7; 9; 11; 13; 15; 17; 19; 21; 23; 25]%N /\
  snd (group_run 25 new_counters (Notified :: Waits :: repeat Notified 24)) = [] /\
  snd (group_run 25 new_counters (Waits :: repeat Notified 4 ++ NotifiedError :: repeat Notified 20)) = [1; 3]%N.
Proof. vm_compute. auto. Qed.
