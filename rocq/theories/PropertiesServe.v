(* C100: a scanned catalogue can be served without describing messages from the data files. *)
From Coq Require Import QArith.
From Verif Require Import Base ModelInfo ModelCcsds ModelBuild ModelStream ModelIndex SpecIndex ModelCache ModelEngine SpecCache SpecEngine
  SpecScanning SpecSystem SpecServe ProofsServe2.
Open Scope nat_scope.

(* A process scans some files or messages of files, all scans succeed, and the jobs cover the messages that the
   requests are listed at.  Afterwards every process that starts with these index files, and has made any calls that
   keep the records, extracts the requests and returns the stored values, even if extraction on demand is switched
   off.  If it is, eccodes has no part in the extraction. *)
Theorem C100_scan_then_serve :
  forall (F : Type) (o : outside F) g P d0 cap jobs c log state cfg reqs listing,
    sound_outside o g P -> 1 <= cap -> true_disk (describe o) g P d0 -> Forall P (map fst jobs) ->
    c_calls (o_uniq o) (describe o) (find_offsets o) g (cache_new d0 cap) (map scan_call jobs) = (c, log) ->
    Forall (fun e => exists n, snd e = Ok n) log ->
    (forall r e off, located cfg reqs listing r e -> u_offset (l_uri e) = Ok off ->
       exists job, In job jobs /\ fst job = u_path (l_uri e) /\ job_covers (find_offsets o) job off) ->
    (forall p offs, serving g o P (c_disk c) (state p offs)) ->
    c_forward cfg = false -> c_inefficient cfg = false ->
    NoDup (map r_string (canon_requests (c_ignore_ym cfg) false reqs)) ->
    (forall u, o_list o u = Ok listing) -> duplicate_free (c_ignore_ym cfg) listing ->
    own_places cfg reqs listing ->
    (forall r e, located cfg reqs listing r e -> fine_request o P cfg r e) ->
    (c_allow_missing cfg = true \/
     forall r, In r (canon_requests (c_ignore_ym cfg) false reqs) -> exists e, located cfg reqs listing r e) ->
    (exists r e, located cfg reqs listing r e) ->
    exists res, extract_requests (world_of o g P state) cfg reqs = Ok res /\ right_results o P cfg reqs listing res /\
      (g_lazy g = false -> forall full grib_at offsets,
         extract_requests (world_of (other_eccodes o full grib_at offsets) g P state) cfg reqs = Ok res).
Proof. exact (fun F o g P d0 cap jobs c log state cfg reqs listing Hs =>
         @scan_then_serve F o g P Hs d0 cap jobs c log state cfg reqs listing). Qed.
Print Assumptions C100_scan_then_serve.

(* The scans succeed if the messages they are about can be described. *)
Theorem C100_scans_succeed :
  forall (F : Type) (o : outside F) g P d cap jobs,
    sound_outside o g P -> 1 <= cap -> true_disk (describe o) g P d -> Forall P (map fst jobs) ->
    (forall job, In job jobs ->
       (snd job = [] -> exists offs, find_offsets o (fst job) = Ok offs) /\
       (forall off, job_covers (find_offsets o) job off -> exists i, describe o (fst job) off = Ok i)) ->
    exists c log, c_calls (o_uniq o) (describe o) (find_offsets o) g (cache_new d cap) (map scan_call jobs) = (c, log) /\
      Forall (fun e => exists n, snd e = Ok n) log.
Proof. exact @scans_from_start. Qed.
Print Assumptions C100_scans_succeed.

(* The jobs of the scan of a catalogue (C74), by messages or by files, cover what it lists. *)
Theorem C100_scan_covers :
  forall found (listing : list listed) l jobs,
    Forall2 is_at (map l_uri listing) l -> one_scan_per_file l jobs ->
    forall e off, In e listing -> u_offset (l_uri e) = Ok off ->
      (exists job, In job jobs /\ fst job = u_path (l_uri e) /\ job_covers found job off) /\
      ((exists offs, found (u_path (l_uri e)) = Ok offs /\ In off offs) ->
       exists job, In job (map (fun c => (fst c, [])) jobs) /\ fst job = u_path (l_uri e) /\ job_covers found job off).
Proof. exact listed_covered. Qed.
Print Assumptions C100_scan_covers.

(* Records on disk stay through every history of lookups, inserts, scans, appending flushes and clears. *)
Theorem C100_records_stay :
  forall (F : Type) (o : outside F) g P d cap calls c log,
    sound_outside o g P -> 1 <= cap -> true_disk (describe o) g P d ->
    Forall (true_call (describe o) P) calls -> Forall keeps_records calls ->
    c_calls (o_uniq o) (describe o) (find_offsets o) g (cache_new d cap) calls = (c, log) ->
    true_disk (describe o) g P (c_disk c) /\
    (forall p off, P p -> recorded g d p off -> recorded g (c_disk c) p off) /\
    (forall p offs n, In (CScan p offs, Ok n) log -> forall off, In off offs -> recorded g (c_disk c) p off) /\
    (forall p m n, In (CScanFile p m, Ok n) log ->
       exists offs, find_offsets o p = Ok offs /\ forall off, In off offs -> recorded g (c_disk c) p off).
Proof. exact (fun F o g P d cap calls c log Hs => @records_kept F o g P Hs d cap calls c log). Qed.
Print Assumptions C100_records_stay.

(* Two messages of a file are scanned; a later process with extraction on demand switched off gets the values that
   it would get with extraction on demand, also if eccodes always fails.  Without the scan it gets nothing, nor after
   a flush that replaces the index file. *)
Example C100_example :
  extract_requests (world_of one_file serve_cache one_path serve_state) one_cfg one_requests
  = extract_requests (world_of one_file one_cache one_path one_state) one_cfg one_requests /\
  extract_requests (world_of no_eccodes serve_cache one_path serve_state) one_cfg one_requests
  = extract_requests (world_of one_file one_cache one_path one_state) one_cfg one_requests /\
  omap (@length _) (extract_requests (world_of one_file one_cache one_path one_state) one_cfg one_requests) = Ok 3 /\
  extract_requests (world_of no_eccodes one_cache one_path one_state) one_cfg one_requests = Throw ESeriousBug /\
  extract_requests (world_of one_file serve_cache one_path one_state) one_cfg one_requests = Throw ESeriousBug.
Proof. vm_compute. repeat split. Qed.

Example C100_keeps_records_needed :
  match describe one_file "/fdb/x.data" 4 with
  | Ok i =>
      let c := fst (c_calls (o_uniq one_file) (describe one_file) (find_offsets one_file) serve_cache
                      (cache_new serve_disk 1) [CInsert "/fdb/x.data" 4 i; CFlush false]) in
      extract_requests (world_of one_file serve_cache one_path (fun _ _ => c)) one_cfg one_requests = Throw ESeriousBug
  | _ => False
  end.
Proof. vm_compute. reflexivity. Qed.
