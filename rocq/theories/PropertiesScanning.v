(* C73: the request sent to the catalogue; C74: scans through the engine *)
From Coq Require Import Permutation.
From Verif Require Import Base ModelInfo ModelStream ModelStrings ModelEngine SpecEngine ModelProtocol ModelRemote SpecRemote
  ModelForward SpecForward SpecUnion ProofsUnion SpecScanning ProofsScanning.

(* ---- C73 ---- *)

(* Read as a MARS request, the text sent to the catalogue has a value for a key exactly if some request of the
   batch mentions it (a year or month not counting from the first request on that has year, month and date); each
   key once. *)
Theorem C73_union_request :
  forall (F : Type) ignore_ym reqs u reqs' its,
    build_request_map (F := F) ignore_ym reqs = Ok (u, reqs', its) ->
    hd ""%string (split ","%char u) = "retrieve"%string /\
    NoDup (map fst (read_request u)) /\
    forall k v, has_value (read_request u) k v <->
      exists n r, nth_error reqs n = Some r /\ asks (dropping ignore_ym reqs n) (r_string r) k v.
Proof. exact @union_covers. Qed.
Print Assumptions C73_union_request.

(* keys in different order, a list of values, and year and month dropped from the second request on *)
Example C73_example :
  omap (fun x => fst (fst x)) (build_request_map (F := Z) true
    [ask "retrieve,step=6,param=t,year=1999" 1; ask "param=u/v,date=20000101,year=2000,month=1,step=12" 1;
     ask "step=12,param=t,year=2001" 1])
  = Ok "retrieve,date=20000101,param=t/u/v,step=12/6,year=1999"%string /\
  read_request "retrieve,date=20000101,param=t/u/v,step=12/6,year=1999"
  = [("date", ["20000101"]); ("param", ["t"; "u"; "v"]); ("step", ["12"; "6"]); ("year", ["1999"])]%string.
Proof. vm_compute. auto. Qed.

(* ---- C74 ---- *)

(* Whatever scanning a file does: the files of the listed fields are scanned once each, with the offsets of the
   fields in ascending order, or as a whole; the answer is the number of fields of the scans that succeed, and all
   errors of the others. *)
Theorem C74_local_scan :
  forall (M : Type) scan_file (list_uris : list M -> outcome (list uri)) reqs us l,
    list_uris reqs = Ok us -> us <> [] -> Forall2 is_at us l ->
    exists calls, one_scan_per_file l calls /\
      local_scan scan_file list_uris reqs false = totals (scans_with scan_file calls) /\
      local_scan scan_file list_uris reqs true = totals (scans_with scan_file (map (fun c => (fst c, [])) calls)).
Proof. exact @local_scan_totals. Qed.
Print Assumptions C74_local_scan.

Theorem C74_nothing_listed :
  forall (M : Type) scan_file (list_uris : list M -> outcome (list uri)) reqs byfiles,
    list_uris reqs = Ok [] -> local_scan scan_file list_uris reqs byfiles = Ok (0%N, []).
Proof. exact @scan_nothing. Qed.
Print Assumptions C74_nothing_listed.

(* files given by name, some perhaps several times *)
Theorem C74_named_files :
  forall scan_file names, names <> [] ->
    exists calls, NoDup calls /\ (forall p, In p calls <-> In p names) /\
      engine_scan_files scan_file names = totals (map (fun p => scan_file p []) calls).
Proof. exact scan_names. Qed.
Print Assumptions C74_named_files.

(* With forwarding: each field is scanned at the server of its location, one scan per file there; a server with
   errors counts as one error with their texts.  Missing: byfiles, see below. *)
Theorem C74_forwarded_partial :
  forall (F M : Type) (k : link F M) sm sites connect,
    (forall ep, connect ep = site_server k (sites ep)) ->
    forall scan_file list_uris reqs us l byfiles,
    list_uris reqs = Ok us -> us <> [] -> Forall2 (scans sm) us l ->
    exists subs, NoDup (map fst subs) /\ Permutation l (flat subs) /\
      Forall (fun s => one_scan_per_file (scan_entries (snd s)) (snd s)) subs /\
      client_scans k sm connect scan_file list_uris reqs byfiles =
        totals (map (fun s => reported k (totals (scans_at (sites (fst s)) (snd s)))) subs).
Proof. exact @forwarded_scan_totals. Qed.
Print Assumptions C74_forwarded_partial.

(* Engine.cc:260-268: a client that forwards ignores that whole files were asked for: one field of three is
   scanned, where the server itself would have scanned all *)
Theorem C74_refuted_forwarded_byfiles :
  let us := [demo_place "h1" "/a" 5] in
  client_scans demo_link demo_servermap (fun ep => site_server demo_link (demo_scan_sites ep)) demo_scan (fun _ => Ok us) [] true
    = Ok (1%N, []) /\
  local_scan (M := Z) demo_scan (fun _ => Ok us) [] true = Ok (3%N, []).
Proof. exact byfiles_ignored. Qed.
Print Assumptions C74_refuted_forwarded_byfiles.

Example C74_example :
  let us := [demo_place "h1" "/b" 7; demo_place "h1" "/bad" 1; demo_place "h2" "/a" 9; demo_place "h1" "/b" 6;
             demo_place "h2" "/a" 0] in
  (* "/a" with 0 and 9, "/b" with 6 and 7, "/bad" with 1 *)
  local_scan (M := Z) demo_scan (fun _ => Ok us) [] false = Ok (4%N, [ERead]) /\
  local_scan (M := Z) demo_scan (fun _ => Ok us) [] true = Ok (5%N, [ERead]) /\
  omap fst (client_scans demo_link demo_servermap (fun ep => site_server demo_link (demo_scan_sites ep)) demo_scan
              (fun _ => Ok us) [] false) = Ok 2%N /\
  engine_scan_files demo_scan ["/a"; "/b"; "/a"]%string = Ok (5%N, []) /\
  totals [Ok 18446744073709551615; Throw ERead; Ok 3]%N = Ok (2%N, [ERead]).
Proof. vm_compute. repeat split. Qed.
