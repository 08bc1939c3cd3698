(* Requests served at the same time (C88, C89): the tasks of Task.cc as ModelTask runs them, with the work the engine
   gives them, and the info cache shared with other threads and processes as in ModelThreads. *)
From Coq Require Import Permutation QArith.
From Verif Require Import Base ModelInfo ModelSimple ModelCcsds ModelJumper ModelStrings ModelLRU ModelCache ModelBuild ModelEngine ModelQueue ModelTask
  SpecCache SpecBuild SpecEngine SpecSystem SpecDeploy SpecQueue.
From Verif Require ModelThreads SpecThreads.
Local Open Scope nat_scope.

(* executions from the start, with the tasks in the order in which their executeImpl ended *)
Inductive runs (cf : ModelTask.config) : sys -> list task -> Prop :=
| runs_init : runs cf sys_init []
| runs_end : forall s h w t s', runs cf s h -> step cf s s' ->
    s_workers s w = WRunning t -> s_workers s' w <> WRunning t -> runs cf s' (h ++ [t])
| runs_step : forall s h s', runs cf s h -> step cf s s' ->
    (forall w t, s_workers s w = WRunning t -> s_workers s' w = WRunning t) -> runs cf s' h
| runs_woken : forall s h s', runs cf s h -> wakeup cf s s' -> runs cf s' h.

Section Requests.
Context {F : Type}.
Notation items := (list (string * @item F)).
(* what executing a task comes to: the results it sets on its items, or an exception *)
Notation work := (outcome (list (string * result F))).

(* the results of a task written to the items *)
Definition write_results (t : work) (its : items) : items :=
  match t with Ok rs => fold_left (fun m p => supdate (fst p) (set_result (snd p)) m) rs its | _ => its end.
(* the items after the tasks of a group have ended in this order *)
Definition items_after (ts : list work) (order : list nat) (its : items) : items :=
  fold_left (fun m i => match nth_error ts i with Some t => write_results t m | None => m end) order its.

(* client g of the system runs the tasks ts; text: the message of an exception *)
Definition runs_tasks {A} (text : error -> string) (cf : ModelTask.config) (g : nat) (ts : list (outcome A)) : Prop :=
  cf_tasks cf g = length ts /\
  forall i t, nth_error ts i = Some t ->
    match t with Ok _ => cf_result cf g i = None | Throw e => cf_result cf g i = Some (text e) | UB => False end.

(* no two tasks set the result of the same item *)
Definition writes_to (t : work) : list string := match t with Ok rs => map fst rs | _ => [] end.
Definition separate (ts : list work) : Prop := ForallOrdPairs (fun t t' => forall k, In k (writes_to t) -> ~ In k (writes_to t')) ts.

(* up to the scheduling of the tasks: the names of the requests, the items, and the task of every file *)
Definition prepared (w : world F) (cfg : ModelEngine.config) (reqs : list request) (keys : list string) (its : items)
    (ts : list work) : Prop :=
  exists u reqs' its0 listing fm,
    build_request_map (c_ignore_ym cfg) reqs = Ok (u, reqs', its0) /\ w_list w u = Ok listing /\
    file_map (c_ignore_ym cfg) (c_allow_missing cfg) listing its0 = Ok (fm, its) /\
    mapM (task_for (w_arith w) (w_aec w) (w_cache_get w) (w_files w) (w_sorter w) (w_build_info w) (w_pieces w)
                   (w_fresh w) cfg its) (in_key_order fm) = Ok ts /\
    keys = map r_string reqs'.
Definition prepared_paths (w : world F) (cfg : ModelEngine.config) (reqs : list path_request) (keys : list string) (its : items)
    (ts : list work) : Prop :=
  its = build_uris_map reqs /\
  mapM (task_for (w_arith w) (w_aec w) (w_cache_get w) (w_files w) (w_sorter w) (w_build_info w) (w_pieces w)
                 (w_fresh w) cfg its) (in_key_order (file_map_from_paths its)) = Ok ts /\
  keys = map p_string reqs.

(* what the call returns once the group has finished with these errors and items *)
Definition answer_of (keys : list string) (errs : list string) (its : items) : outcome (list (result F)) :=
  match errs with
  | [] => collect_results keys (collect_items its)
  | _ => Throw ESeriousBug
  end.
End Requests.

Section Shared.
Context {F : Type}.
Variable o : outside F.
Variable g : ModelCache.config.
Variable P : string -> Prop.

(* r is what a lookup can get while threads of this and other processes use the info cache; quiet: nobody flushes *)
Definition may_answer (quiet : bool) (p : string) (offs : list Z) (r : outcome (list (info F))) : Prop :=
  exists uniq writer d cap ps s t,
    SpecThreads.sound_world uniq (describe o) (find_offsets o) g P writer d cap ps /\
    (quiet = true -> SpecThreads.no_call SpecThreads.is_flush ps) /\
    SpecThreads.reached uniq (describe o) (find_offsets o) g d cap ps s /\
    ModelThreads.h_lost (fst s) = false /\
    In t (snd s) /\ In (CGet p offs, omap AInfos r) (ModelThreads.t_log t).

(* every lookup of a file in use gets such an answer; for other files, one description per offset *)
Definition shared_lookup (quiet : bool) (lookup : string -> list Z -> outcome (list (info F))) : Prop :=
  (forall p offs, P p -> may_answer quiet p offs (lookup p offs)) /\
  (forall p offs infos, lookup p offs = Ok infos -> length infos = length offs).

(* the engine's world when its lookups are answered so *)
Definition shared_world (lookup : string -> list Z -> outcome (list (info F))) : world F :=
  mk_world F (o_arith o) (o_aec o) lookup (o_files o) (o_sorter o)
    (fun bytes => build (o_aec_full o) (o_fresh o) (o_grib_at o) bytes 0)
    (o_pieces o) (o_fresh o) (o_forward o) (o_list o)
    (fun p off inf => P p -> describe o p off = Ok inf).
End Shared.

(* ---- concrete schedules with their histories, for the examples ---- *)
Definition ends (s : sys) (a : action) : list task :=
  match a with
  | Work w => match s_workers s w with
              | WRunning t => if g_alive (s_groups s (fst t)) then [t] else []
              | _ => [] end
  | _ => []
  end.
Fixpoint play_log (cf : ModelTask.config) (s : sys) (h : list task) (l : list action) : option (sys * list task) :=
  match l with
  | [] => Some (s, h)
  | a :: r => match act cf s a with Some s' => play_log cf s' (h ++ ends s a) r | None => None end
  end.

(* two workers; the first request has a task per file of the demo world, the second one fails *)
Definition busy_requests : list request := [ask "step=0,param=t" 2; ask "param=t,step=6" 3; ask "param=t,step=9" 1].
Definition busy_items : list (string * @item Z) :=
  match build_request_map false busy_requests with
  | Ok (_, _, its) => match file_map false false demo_listing its with Ok (_, its1) => its1 | _ => [] end
  | _ => []
  end.
Definition busy_tasks : list (outcome (list (string * result Z))) :=
  [extract_file demo false busy_items "/a" ["param=t,step=6"%string];
   extract_file demo false busy_items "/b" ["param=t,step=0"; "param=t,step=9"]%string].
Definition busy_cf : ModelTask.config :=
  ModelTask.mk_config 2 2 (fun g => match g with O => 2 | _ => 1 end) (fun _ => None)
    (fun g i => match g with O => None | _ => Some "no such file"%string end).
(* the second task of the first request ends before the first one *)
Definition busy_schedule : list action :=
  repeat (Client 0) 6 ++ repeat (Client 1) 3 ++ repeat (Work 0) 2 ++ repeat (Work 1) 4 ++ repeat (Client 0) 2 ++
  repeat (Work 1) 7 ++ repeat (Work 0) 2 ++ repeat (Client 0) 2 ++ repeat (Client 1) 3.

(* lookups answered by a cache that starts empty each time *)
Definition one_lookup (p : string) (offs : list Z) : outcome (list (info Q)) :=
  snd (c_get (describe one_file) one_cache (cache_new (fun _ => None) 2) p offs).
