(* Properties C58 and C59: the archive plugin. *)
From Verif Require Import Base ModelStrings ModelInfo ModelLRU ModelIndex ModelCache SpecIndex SpecCache SpecEngine ModelQueue ModelPlugin
  SpecPlugin ProofsPlugin ProofsPlugin2 ProofsPlugin3 ProofsPlugin4 ProofsPlugin5 ProofsTight.
Local Open Scope nat_scope.

(* C58.  Any number of FDB objects, each with its archiving and its indexing thread and all sharing the
   InfoCache; any events; any schedule (the list of actions l; futures become ready at any time).  Every future
   gives a location.  For each field archived by object i before a flush that has returned, selected, a GRIB
   message and described by inf, the index file of its data file has the record (offset, inf) after those that
   were there before; other new records of that file are those of archived fields. *)
Theorem C58_archived_is_indexed :
  forall (F : Type) uniq g selected (build : list N -> outcome (info F)) loc events,
    all_located loc ->
    forall d cap l s tr i k n key bytes inf p o l0,
    play uniq g selected build loc events (sys_new d cap) l = Some (s, tr) ->
    nth_error (events i) k = Some Flush -> k < length (d_log (y_fdbs s i)) ->
    n < k -> nth_error (events i) n = Some (Archive key bytes) ->
    selected key = Ok true -> is_grib bytes = true -> build bytes = Ok inf -> loc i n = Ok (p, Ok o) ->
    complete_file d (cache_file_path g p) l0 ->
    exists recs, index_holds (c_disk (y_cache s)) (cache_file_path g p) (l0 ++ recs) /\ In (o, inf) recs /\
      (forall o' inf', In (o', inf') recs -> exists j m p' e,
          loc j m = Ok (p', Ok o') /\ cache_file_path g p' = cache_file_path g p /\
          nth_error (events j) m = Some e /\ to_index selected build e = Some inf').
Proof. exact @archived_is_indexed. Qed.
Print Assumptions C58_archived_is_indexed.

(* a GRIB message is one that begins with the letters GRIB *)
Theorem C58_grib_message :
  forall bytes : list N, is_grib bytes = true <-> exists rest, bytes = [71; 82; 73; 66]%N ++ rest.
Proof. exact grib_magic. Qed.
Print Assumptions C58_grib_message.

(* so another process that looks up a location that was not used before gets the description of the field *)
Theorem C58_archived_is_found :
  forall (F : Type) uniq g selected (build : list N -> outcome (info F)) loc events,
    all_located loc ->
    forall data d cap l s tr i k n key bytes inf p o l0 cap2,
    (forall q o, data q o <> UB) -> 1 <= cap2 ->
    play uniq g selected build loc events (sys_new d cap) l = Some (s, tr) ->
    nth_error (events i) k = Some Flush -> k < length (d_log (y_fdbs s i)) ->
    n < k -> nth_error (events i) n = Some (Archive key bytes) ->
    selected key = Ok true -> is_grib bytes = true -> build bytes = Ok inf -> loc i n = Ok (p, Ok o) ->
    complete_file d (cache_file_path g p) l0 -> mfind o l0 = None ->
    (forall j m p', loc j m = Ok (p', Ok o) -> cache_file_path g p' = cache_file_path g p -> j = i /\ m = n) ->
    exists c2, c_get data g (cache_new (c_disk (y_cache s)) cap2) p [o] = (c2, Ok [inf]).
Proof. exact @archived_is_found. Qed.
Print Assumptions C58_archived_is_found.

(* The InfoCache is what the calls the plugin makes on it, one after another, leave: insertions and flushes that
   append. *)
Theorem C58_cache_calls :
  forall (F : Type) uniq g selected (build : list N -> outcome (info F)) loc events data data_offsets d cap l s tr,
    play uniq g selected build loc events (sys_new d cap) l = Some (s, tr) ->
    y_cache s = fst (c_calls uniq data data_offsets g (cache_new d cap) (map snd tr)) /\
    forall j q, In (j, q) tr -> q = CFlush true \/ exists p o inf, q = CInsert p o inf.
Proof. exact @cache_calls. Qed.
Print Assumptions C58_cache_calls.

(* A location enters the InfoCache only after FDB has given it: an insertion made so far uses a future fulfilled so far. *)
Theorem C58_fulfilled_first :
  forall (F : Type) uniq g selected (build : list N -> outcome (info F)) loc events d cap l s tr,
    play uniq g selected build loc events (sys_new d cap) l = Some (s, tr) ->
    (forall i n, y_ready s i n = true <-> In (Fulfil i n) l) /\
    (forall i p o inf, In (i, CInsert p o inf) tr -> exists n, In (Fulfil i n) l /\ loc i n = Ok (p, Ok o)).
Proof. exact @fulfilled_first. Qed.
Print Assumptions C58_fulfilled_first.

(* callbacks answer as they would alone: flush always succeeds (no assertion fails), archive raises only what
   the selection and the construction of the description raise *)
Theorem C58_callbacks_answer :
  forall (F : Type) uniq g selected (build : list N -> outcome (info F)) loc events,
    all_located loc ->
    forall d cap l s tr i,
    play uniq g selected build loc events (sys_new d cap) l = Some (s, tr) ->
    y_dead s = false /\
    d_log (y_fdbs s i) = map (callback_outcome selected build) (firstn (length (d_log (y_fdbs s i))) (events i)).
Proof. exact @callbacks_answer. Qed.
Print Assumptions C58_callbacks_answer.

(* no deadlock: an object that has not finished can move, or its consumer waits for an unfulfilled future *)
Theorem C58_no_deadlock :
  forall (F : Type) uniq g selected (build : list N -> outcome (info F)) loc events,
    all_located loc ->
    forall d cap l s tr i,
    play uniq g selected build loc events (sys_new d cap) l = Some (s, tr) ->
    finished events s i \/ can_move uniq g selected build loc events s i \/
    (exists n inf, In (n, inf) (waiting (y_fdbs s i)) /\ y_ready s i n = false /\ n < length (events i)).
Proof. exact @no_deadlock. Qed.
Print Assumptions C58_no_deadlock.

(* no livelock: a bounded number of steps *)
Theorem C58_steps_bounded :
  forall (F : Type) uniq g selected (build : list N -> outcome (info F)) loc events,
    all_located loc ->
    forall d cap l s tr i,
    play uniq g selected build loc events (sys_new d cap) l = Some (s, tr) ->
    steps_of i l <= 6 * length (events i) + 2.
Proof. exact @steps_bounded. Qed.
Print Assumptions C58_steps_bounded.

Theorem C58_can_finish :
  forall (F : Type) uniq g selected (build : list N -> outcome (info F)) loc events,
    all_located loc ->
    forall d cap l s tr i,
    play uniq g selected build loc events (sys_new d cap) l = Some (s, tr) ->
    exists l', Forall (fun a => who a = i) l' /\
      exists s' tr', play uniq g selected build loc events (sys_new d cap) (l ++ l') = Some (s', tr') /\
                     finished events s' i.
Proof. exact @can_finish. Qed.
Print Assumptions C58_can_finish.

(* with one FDB object: whenever the aggregator is gone, as after each flush, memory and disk are as if every
   field had been inserted in the archiving thread (SerialAggregator) *)
Theorem C58_same_as_serial :
  forall (F : Type) uniq g selected (build : list N -> outcome (info F)) loc events,
    all_located loc ->
    forall i0, (forall j, j <> i0 -> events j = []) ->
    forall d cap l s tr,
    play uniq g selected build loc events (sys_new d cap) l = Some (s, tr) -> d_agg (y_fdbs s i0) = None ->
    y_cache s = fst (serial_run uniq g selected build loc i0 0
                       (firstn (length (d_log (y_fdbs s i0))) (events i0)) (cache_new d cap)).
Proof. exact @same_as_serial. Qed.
Print Assumptions C58_same_as_serial.

(* Without the hypothesis on the futures: a future that fails, or a location without a readable offset, ends
   the process. *)
Theorem C58_failed_future_kills :
  forall (F : Type) uniq g selected (build : list N -> outcome (info F)) loc events (s : @sys F) i a n inf,
    y_dead s = false -> d_agg (y_fdbs s i) = Some a -> a_consumer a = KWait (n, inf) -> y_ready s i n = true ->
    (forall p o, loc i n <> Ok (p, Ok o)) ->
    exists s', act uniq g selected build loc events s (Worker i) = Some (s', None) /\ y_dead s' = true /\
      forall b, act uniq g selected build loc events s' b = None.
Proof. exact @failed_future_kills. Qed.
Print Assumptions C58_failed_future_kills.

(* two objects, interleaved; the flush of object 1 also writes what object 0 has inserted so far *)
Example C58_example :
  let run := play ex_uniq (mk_config true "" false) demo_select demo_build demo_loc demo_events (sys_new (fun _ => None) 4) in
  let found s o := snd (c_get (fun _ _ => Throw ELibrary) (mk_config true "" false) (cache_new (c_disk (y_cache s)) 4) "/a/x.data" [o]) in
  match run [Caller 0; Caller 1; Fulfil 1 0; Caller 0; Caller 1; Worker 0; Caller 0; Caller 1; Worker 1; Fulfil 0 0; Worker 0;
             Worker 1; Worker 1; Caller 1] with
  | Some (s, tr) => d_log (y_fdbs s 1) = [Ok tt; Ok tt] /\ d_log (y_fdbs s 0) = [Ok tt; Ok tt] /\
                    map fst tr = [0; 1; 1] /\
                    found s 100%Z = Ok [sample 7%Z 5 "m"] /\ found s 0%Z = Ok [sample 1%Z 5 "m"] /\
                    found s 3%Z = Throw EExtractionDisabled
  | None => False
  end /\
  match run [Caller 0; Caller 0; Caller 0; Caller 0; Caller 0; Caller 0; Caller 0; Worker 0; Fulfil 0 3; Fulfil 0 0; Worker 0; Worker 0; Worker 0; Worker 0; Caller 0] with
  | Some (s, _) => d_log (y_fdbs s 0) = [Ok tt; Ok tt; Ok tt; Ok tt; Ok tt] /\
                   found s 0%Z = Ok [sample 1%Z 5 "m"] /\ found s 3%Z = Ok [sample 3%Z 5 "m"]
  | None => False
  end /\
  (* the consumer cannot go on before the future is there *)
  run [Caller 0; Caller 0; Worker 0; Worker 0] = None.
Proof. vm_compute. repeat split. Qed.

(* Beyond the two threads of the statement: a scan of the same data file (another thread or process) that has
   read the index before the flush and writes it after the flush takes the record of offset 300 away. *)
Example C58_scan_race :
  let p := "/a/x.data"%string in
  let d0 := fun _ : string => None in
  match scan_offsets ex_uniq ex_data ex_cfg d0 p [0]%Z with
  | Ok (scan_ops, _) =>
      let c := fst (c_calls ex_uniq ex_data ex_offsets ex_cfg (cache_new d0 4) [CInsert p 300%Z (sample 2%Z 6 "m1"); CFlush true]) in
      load_index (c_disk c) (cache_file_path ex_cfg p) = Ok [(300, Some (sample 2 6 "m1"))]%Z /\
      load_index (apply_ops (c_disk c) scan_ops) (cache_file_path ex_cfg p) = Ok [(0, Some (sample 1 5 "m0"))]%Z
  | _ => False
  end.
Proof. vm_compute. auto. Qed.

(* C59.  A configuration with at least one condition, written with names and patterns free of ',' and '=',
   distinct names and valid patterns: a key is selected iff it satisfies every condition. *)
Theorem C59_partial :
  forall (regex : string -> option (string -> bool)) (l key : list (string * string)),
    good_conditions regex l -> l <> [] ->
    exists s, parse_config regex (select_text l) no_selection = (s, Ok tt) /\
      (matches regex (sel_dict s) key = Ok true <-> satisfies regex l key).
Proof. exact selection_exact. Qed.
Print Assumptions C59_partial.

(* whatever the text: an accepted one consists of conditions k=p with distinct names and valid patterns, and a
   key is selected iff it satisfies all of them *)
Theorem C59_accepted :
  forall (regex : string -> option (string -> bool)) (select : string) (dict : list (string * string)),
    parse_config regex select no_selection = (mk_selection true dict, Ok tt) ->
    NoDup (map fst dict) /\
    Forall2 (fun t c => split "="%char t = [fst c; snd c] /\ regex (snd c) <> None) (split ","%char select) dict.
Proof. exact select_accepted. Qed.
Print Assumptions C59_accepted.

Theorem C59_matches :
  forall (regex : string -> option (string -> bool)) (dict key : list (string * string)),
    dict <> [] -> (matches regex dict key = Ok true <-> satisfies regex dict key).
Proof. exact matches_exact. Qed.
Print Assumptions C59_matches.

(* no exception for keys that carry all configured keywords *)
Theorem C59_total :
  forall (regex : string -> option (string -> bool)) (dict key : list (string * string)),
    Forall (fun c => regex (snd c) <> None) dict ->
    (forall c, In c dict -> sfind (fst c) key <> None) -> exists b, matches regex dict key = Ok b.
Proof. exact matches_total. Qed.
Print Assumptions C59_total.

(* Not as stated: without conditions nothing is selected, though every key satisfies all of them; *)
Theorem C59_refuted :
  forall (regex : string -> option (string -> bool)) (key : list (string * string)),
    matches regex [] key = Ok false /\ satisfies regex [] key.
Proof. exact empty_selects_nothing. Qed.
Print Assumptions C59_refuted.

(* a key without a configured keyword is not passed over: the archive call fails; *)
Theorem C59_missing_keyword_refuted :
  forall (regex : string -> option (string -> bool)) (dict key : list (string * string)),
    Forall (fun c => regex (snd c) <> None) dict ->
    Exists (fun c => sfind (fst c) key = None) dict ->
    (forall c v f, In c dict -> sfind (fst c) key = Some v -> regex (snd c) = Some f -> f v = true) ->
    matches regex dict key = Throw ESeriousBug.
Proof. exact matches_missing. Qed.
Print Assumptions C59_missing_keyword_refuted.

(* a malformed configuration is refused for the first FDB object only: the later ones silently work with the
   conditions in front of the malformed one. *)
Theorem C59_malformed_refuted :
  forall (regex : string -> option (string -> bool)) l bad rest k,
    good_conditions regex l -> has_char ","%char bad = false -> bad <> ""%string -> length (split "="%char bad) <> 2 ->
    Forall (fun p => has_char ","%char p = false) rest ->
    exists s, parse_config regex (String.concat "," (map condition_text l ++ bad :: rest)) no_selection = (s, Throw EUser) /\
      sel_dict s = l /\
      add_fdbs regex (String.concat "," (map condition_text l ++ bad :: rest)) (S k) no_selection
        = (s, Throw EUser :: repeat (Ok tt) k).
Proof. exact failed_parse_stays. Qed.
Print Assumptions C59_malformed_refuted.

Example C59_example :
  let dict t := sel_dict (fst (parse_config demo_regex t no_selection)) in
  parse_config demo_regex "class=od,stream=oper" no_selection = (mk_selection true [("class", "od"); ("stream", "oper")]%string, Ok tt) /\
  matches demo_regex (dict "class=od,stream=oper"%string) od = Ok true /\
  matches demo_regex (dict "class=od,stream=oper"%string) rd = Ok false /\
  matches demo_regex (dict "class=od,levtype=sfc"%string) od = Throw ESeriousBug /\
  (* names are tried in alphabetical order *)
  matches demo_regex (dict "levtype=sfc,class=od"%string) rd = Ok false /\
  matches demo_regex (dict ""%string) od = Ok false /\
  snd (parse_config demo_regex "class=od,class=rd" no_selection) = Throw EUser /\
  snd (parse_config demo_regex "class=[" no_selection) = Throw ELibrary /\
  add_fdbs demo_regex "class=od,stream" 2 no_selection = (mk_selection true [("class", "od")]%string, [Throw EUser; Ok tt]).
Proof. vm_compute. repeat split. Qed.
