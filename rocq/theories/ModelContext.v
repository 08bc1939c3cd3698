(* Log contexts and metrics: LogContext and ContextManager (Metrics.h:31-66,109-127, Metrics.cc:30,120-139),
   Metrics and MetricsManager (Metrics.h:72-105, Metrics.cc:34-117), and the places that use them:
   GribJump.cc:33-112 (an API call installs its context in a variable of the calling thread),
   Protocol.cc:44-46 (a connection installs the context it receives), TaskGroup::ctx_ (Task.h:100,163, a
   reference to the variable of the thread that made the group), Task.cc:249-254,267-272 (a forwarding task
   copies it into the worker's variable), RemoteGribJump.cc:38-40 (a header carries the variable of the
   thread that sends it), Request.cc, GribJumpUser.cc:33-82 and Engine.cc (metrics).

   The threads and the tasks are those of ModelTask; a client of ModelTask is here a call, made by a thread
   that may make any number of calls one after the other.  Left out: times and the process name in a metrics
   line; the values of the timings. *)
From Verif Require Import Base ModelInfo ModelStream ModelStrings ModelEngine ModelQueue ModelTask ModelProtocol ModelRemote.
Local Open Scope nat_scope.

(* ---- contexts ---- *)

Record cconfig := mk_cconfig {
  cc_tasks : ModelTask.config;
  cc_thread : nat -> nat;               (* the thread that makes call g *)
  cc_context : nat -> string;           (* the context given to call g, or received by connection g *)
  cc_forward : nat -> nat -> bool       (* task i of call g is forwarded to another server *)
}.

Record csys := mk_csys {
  x_sys : sys;
  x_begun : nat -> bool;                (* call g has been made *)
  x_running : nat -> option nat;        (* the call thread t is in *)
  x_context : nat -> string;            (* context_ of the calling threads *)
  x_wcontext : nat -> string;           (* context_ of the workers *)
  x_installed : nat -> option task;     (* the last task for which worker w has installed a context *)
  x_sent : list (nat * string)          (* headers sent: the call they were sent for, the context in them *)
}.

Definition no_context : string := "{}".
Definition c_init : csys :=
  mk_csys sys_init (fun _ => false) (fun _ => None) (fun _ => no_context) (fun _ => no_context) (fun _ => None) [].

(* call g is over: its group is gone, or it never had a task *)
Definition over (s : sys) (g : nat) : Prop :=
  (exists e, s_clients s g = CDone e) \/ s_clients s g = CThrown \/ g_status (s_groups s g) = [].

Section Contexts.
Variable cc : cconfig.
Let th := cc_thread cc.

Inductive cstep : csys -> csys -> Prop :=
(* GribJump.cc:34,45,61,70,94,112 and Protocol.cc:45-46: the context is installed first *)
| X_begin : forall s g, x_begun s g = false -> x_running s (th g) = None ->
    cstep s (mk_csys (x_sys s) (wupd (x_begun s) g true) (wupd (x_running s) (th g) (Some g))
                     (wupd (x_context s) (th g) (cc_context cc g)) (x_wcontext s) (x_installed s) (x_sent s))
(* the queue, the groups and the workers move; a caller only while it is in its call *)
| X_move : forall s s', step (cc_tasks cc) (x_sys s) s' ->
    (forall g, x_running s (th g) <> Some g -> s_clients s' g = s_clients (x_sys s) g) ->
    cstep s (mk_csys s' (x_begun s) (x_running s) (x_context s) (x_wcontext s) (x_installed s) (x_sent s))
| X_woken : forall s s', wakeup (cc_tasks cc) (x_sys s) s' ->
    (forall g, x_running s (th g) <> Some g -> s_clients s' g = s_clients (x_sys s) g) ->
    cstep s (mk_csys s' (x_begun s) (x_running s) (x_context s) (x_wcontext s) (x_installed s) (x_sent s))
(* RemoteGribJump as the implementation: the header is sent by the calling thread *)
| X_send : forall s g, x_running s (th g) = Some g ->
    cstep s (mk_csys (x_sys s) (x_begun s) (x_running s) (x_context s) (x_wcontext s) (x_installed s)
                     (x_sent s ++ [(g, x_context s (th g))]))
(* Task.cc:251,269 *)
| X_install : forall s w g i, w < cf_workers (cc_tasks cc) -> s_workers (x_sys s) w = WRunning (g, i) -> cc_forward cc g i = true ->
    cstep s (mk_csys (x_sys s) (x_begun s) (x_running s) (x_context s)
                     (wupd (x_wcontext s) w (x_context s (th g))) (wupd (x_installed s) w (Some (g, i))) (x_sent s))
(* Task.cc:253-254,271-272: the header is sent by the worker *)
| X_forward : forall s w g i, w < cf_workers (cc_tasks cc) -> s_workers (x_sys s) w = WRunning (g, i) ->
    x_installed s w = Some (g, i) ->
    cstep s (mk_csys (x_sys s) (x_begun s) (x_running s) (x_context s) (x_wcontext s) (x_installed s)
                     (x_sent s ++ [(g, x_wcontext s w)]))
(* the call returns or throws; the variable keeps its value *)
| X_end : forall s g, x_running s (th g) = Some g -> over (x_sys s) g ->
    cstep s (mk_csys (x_sys s) (x_begun s) (wupd (x_running s) (th g) None) (x_context s) (x_wcontext s) (x_installed s) (x_sent s)).

Inductive csteps : csys -> csys -> Prop :=
| csteps_refl : forall s, csteps s s
| csteps_next : forall s s' s'', csteps s s' -> cstep s' s'' -> csteps s s''.
Definition c_reachable (s : csys) : Prop := csteps c_init s.
End Contexts.

(* LogContext(std::string), Metrics.h:34-42; [json]: the texts JSONParser accepts *)
Definition new_context (json : string -> bool) (s : string) : outcome string := if json s then Ok s else Throw EBadValue.
(* gribjump_c.cc:272-274 and its repetitions: a null pointer gives the default context *)
Definition c_context (json : string -> bool) (ctx : option string) : outcome string :=
  match ctx with None => new_context json no_context | Some s => new_context json s end.

(* pygribjump.py:786-800; a dict is an association list with distinct keys in insertion order *)
Definition merge_context (defaults : list (string * string)) (ctx : option (list (string * string))) : list (string * string) :=
  match ctx with
  | None => defaults
  | Some c => c ++ filter (fun d => match sfind (fst d) c with None => true | Some _ => false end) defaults
  end.

(* ---- metrics ---- *)

Inductive metric := MText (s : string) | MCount (n : N) | MTime.
Record metrics := mk_metrics { me_values : list (string * metric); me_context : string }.

(* Metrics::add, Metrics.cc:38-40: the last value under a name counts *)
Fixpoint set_metric (k : string) (v : metric) (l : list (string * metric)) : list (string * metric) :=
  match l with
  | [] => [(k, v)]
  | (k', v') :: r => if String.eqb k k' then (k', v) :: r else (k', v') :: set_metric k v r
  end.
Definition set_metrics (l : list (string * metric)) (old : list (string * metric)) : list (string * metric) :=
  fold_left (fun m e => set_metric (fst e) (snd e) m) l old.

Section Metrics.
Context {F M : Type}.
Notation stream := (list (tok F)).
Variable r_mars : @reader F M.
Variable r_uri : @reader F uri.
Variable what : error -> string.
Variable json : string -> bool.

(* what the engine sets while it executes a request, whether it returns or throws (Engine.cc:190-296, Task.cc:152-158) *)
Variable engine_sets : stream -> list (string * metric).

(* GribJumpUser.cc:65-82 with the constructors of Request.cc: what is set, in order.
   [named]: the action; [counted]: what is counted once the request is decoded; [checked]: the assertion after it *)
Definition process_sets {A B} (named : string) (construct : @reader F A) (counted : A -> list (string * metric)) (checked : A -> bool)
    (execute : A -> outcome (list string * B)) (reply : B -> outcome stream) (id : N) (s : stream)
    : list (string * metric) * outcome unit :=
  let start := [("gribjump_request_id", MCount id); ("action", MText named)]%string in
  match construct s with
  | Throw e => (start, Throw e)
  | UB => (start, UB)
  | Ok (a, _) =>
      let received := start ++ counted a in
      if checked a then
        let executing := received ++ [("elapsed_receive"%string, MTime)] ++ engine_sets s in
        match execute a with
        | Throw e => (executing, Throw e)
        | UB => (executing, UB)
        | Ok (_, b) =>
            let executed := executing ++ [("elapsed_execute"%string, MTime)] in
            match reply b with
            | Ok _ => (executed ++ [("elapsed_reply"%string, MTime)], Ok tt)
            | Throw e => (executed, Throw e)
            | UB => (executed, UB)
            end
        end
      else (received, Throw EAssert)
  end.

Notation wire_files := (list (string * list (request * uri))).

(* Request.cc:42-51,70-76,123-140,154-166,183-187 *)
Definition request_sets (e : engine (M := M)) (type : N) (id : N) (s : stream) : list (string * metric) * outcome unit :=
  if (type =? t_extract)%N then
    process_sets "extract" r_extract_request (fun l => [("count_extraction_requests"%string, MCount (lenN l))]) (fun _ => true)
      (fun l => let* (reqs, m, errs) := e_extract e l in Ok (errs, (reqs, m)))
      (fun b => let* rs := reply_results (map r_string (fst b)) (snd b) in Ok (w_extract_reply rs)) id s
  else if (type =? t_axes)%N then
    process_sets "axes" r_axes_request (fun _ => []) (fun q => negb (String.eqb (fst q) ""))
      (fun q => let* m := e_axes e (fst q) (snd q) in Ok ([], m)) (fun m => Ok (w_axes_reply m)) id s
  else if (type =? t_scan)%N then
    process_sets "scan" (r_scan_request r_mars) (fun q => [("count_scan_requests"%string, MCount (lenN (fst q)))]) (fun _ => true)
      (fun q => let* (n, errs) := e_scan e (fst q) (snd q) in Ok (errs, n)) (fun n => Ok (w_scan_reply n)) id s
  else if (type =? t_forward_extract)%N then
    process_sets "forwarded-extract" (r_forward_extract_request r_uri)
      (fun m => [("count_extraction_requests"%string, MCount (item_count m))]) (fun m => (0 <? item_count m)%N)
      (fun m => let* (res, errs) := e_forward_extract e m in Ok (errs, res)) (fun res => Ok (w_forward_extract_reply res)) id s
  else if (type =? t_forward_scan)%N then
    process_sets "forwarded-scan" r_forward_scan_request
      (fun m => [("count_received_offsets"%string, MCount (fold_right (fun f n => (lenN (snd f) + n)%N) 0%N m))]) (fun _ => true)
      (fun m => let* (n, errs) := e_forward_scan e m in Ok (errs, n)) (fun n => Ok (w_scan_reply n)) id s
  else ([], Throw ESeriousBug).

(* Protocol.cc:36-51 with the context: what is read, and the variable of the thread afterwards *)
Definition header_context (s : stream) : string * outcome (N * stream) :=
  match r_u16 s with
  | Ok (version, s) =>
      if negb (version =? remote_protocol_version)%N then (no_context, Throw ESeriousBug)
      else match r_str s with
           | Ok (c, s) => (c, r_u16 s)
           | Throw e => (no_context, Throw e)
           | UB => (no_context, UB)
           end
  | Throw e => (no_context, Throw e)
  | UB => (no_context, UB)
  end.

(* Metrics::report, Metrics.cc:46-75: the values as set last, and the context, which must be JSON (Metrics.h:46) *)
Definition report (values : list (string * metric)) (context : string) : outcome metrics :=
  if json context then Ok (mk_metrics values context) else Throw EBadValue.

(* GribJumpUser.cc:33-63: what the metrics of the connection are when it ends; a connection has a thread of its own *)
Definition connection_metrics (e : engine (M := M)) (id : N) (s : stream) : outcome metrics :=
  let (context, h) := header_context s in
  let (sets, end_) := match h with
                      | Ok (type, s') => request_sets e type id s'
                      | Throw x => ([], Throw x)
                      | UB => ([], UB)
                      end in
  match end_ with
  | Ok _ => report (set_metrics sets []) context
  | Throw x => report (set_metrics (sets ++ [("error"%string, MText (what x))]) []) context
  | UB => UB
  end.
End Metrics.
