(* C76-C79: the command line tools. *)
From Coq Require Import Permutation.
From Verif Require Import Base ModelStrings ModelIndex ModelEngine ModelCache ModelTools SpecEngine SpecTools ProofsTools.

(* C76.  A ranges file in the documented format is read as the ranges it says. *)
Theorem C76_documented_format :
  forall s ls, file_text s ls -> Forall (Forall int_range) ls -> parse_ranges_file (Some s) = Ok ls.
Proof. exact documented_format. Qed.
Print Assumptions C76_documented_format.

(* Exactly the texts of [accepted_file] are accepted, with exactly that reading. *)
Theorem C76_accepts_exactly :
  forall s ls, parse_ranges_file (Some s) = Ok ls <-> accepted_file s ls.
Proof. exact parse_file_iff. Qed.
Print Assumptions C76_accepts_exactly.

(* Texts outside the documented format are accepted: a doubled dash, a sign, trailing text, an empty item. *)
Theorem C76_refuted_malformed :
  parse_ranges_file (Some "10--20"%string) = Ok [[(10%N, 20%N)]] /\
  parse_ranges_file (Some "-10-20"%string) = Ok [[(10%N, 20%N)]] /\
  parse_ranges_file (Some "10-20x,,+3 4-5-"%string) = Ok [[(10%N, 20%N); (3%N, 5%N)]].
Proof. exact malformed_accepted. Qed.
Print Assumptions C76_refuted_malformed.

(* A ranges file that cannot be opened is read as an empty one; no ReadError. *)
Theorem C76_refuted_missing_file : parse_ranges_file None = Ok [].
Proof. exact missing_file. Qed.
Print Assumptions C76_refuted_missing_file.

Example C76_example :
  file_text ex_ranges_text [[(10, 20); (30, 40)]; [(0, 7)]]%N /\
  parse_ranges_file (Some ex_ranges_text) = Ok [[(10, 20); (30, 40)]; [(0, 7)]]%N /\
  parse_ranges_file (Some (ex_ranges_text ++ "8-9"))%string = Ok [[(10, 20); (30, 40)]; [(0, 7)]; [(8, 9)]]%N /\
  parse_ranges_file (Some "10-20;30-40"%string) = Throw EAssert /\
  parse_ranges_file (Some "10-ab"%string) = Throw (EMsg "stoi") /\
  parse_ranges_file (Some "0-2147483648"%string) = Throw (EMsg "stoi").
Proof.
  split; [|vm_compute; auto].
  exists ["10-20, 30-40"; "0-7"]%string. split; [split; [repeat constructor|left; reflexivity]|]. repeat constructor.
  - exists ["10-20"; " 30-40"]%string. split; [reflexivity|]. repeat constructor.
    + exists ""%string, "10"%string, "20"%string, ""%string. repeat split; discriminate.
    + exists " "%string, "30"%string, "40"%string, ""%string. repeat split; discriminate.
  - exists ["0-7"]%string. split; [reflexivity|]. repeat constructor. exists ""%string, "0"%string, "7"%string, ""%string. repeat split; discriminate.
Qed.

(* C77.  gribjump-extract: when every request in the file names one field, each result is printed
   under its own request and ranges, with one line of ranges for all requests or one per request.
   Missing (hence _partial): requests that name several fields. *)
Theorem C77_labels_partial :
  forall (R V : Type) (flatten : R -> list string) extract requests text all ranges (results : list (list (list V))),
    (forall r, In r requests -> length (flatten r) = 1) ->
    parse_ranges_file text = Ok all -> lines_fit requests all ranges ->
    extract (poly_request flatten requests ranges) = Ok results -> answers (poly_request flatten requests ranges) results ->
    exists out, extract_tool flatten extract requests text = Ok out /\ length out = length requests /\
      forall i r rs, nth_error requests i = Some r -> nth_error ranges i = Some rs ->
        exists s v, flatten r = [s] /\ nth_error (poly_request flatten requests ranges) i = Some (strip_verb s, rs) /\
          nth_error results i = Some v /\ length v = length rs /\ nth_error out i = Some (r, combine rs v).
Proof. exact @labels_right. Qed.
Print Assumptions C77_labels_partial.

(* the line of ranges a request gets *)
Theorem C77_ranges :
  forall (R : Type) (requests : list R) all ranges, assign_ranges requests all = Ok ranges <-> lines_fit requests all ranges.
Proof. exact @assign_iff. Qed.
Print Assumptions C77_ranges.

(* A request that names two or more fields makes the tool read beyond its request list: the extraction
   succeeds but the printing never does. *)
Theorem C77_refuted_labels :
  forall (R V : Type) (flatten : R -> list string) extract requests text all ranges (results : list (list (list V))),
    parse_ranges_file text = Ok all -> lines_fit requests all ranges ->
    extract (poly_request flatten requests ranges) = Ok results -> answers (poly_request flatten requests ranges) results ->
    (forall r, In r requests -> flatten r <> []) -> (exists r, In r requests /\ 2 <= length (flatten r)) ->
    forall out, extract_tool flatten extract requests text <> Ok out.
Proof. exact @labels_overrun. Qed.
Print Assumptions C77_refuted_labels.

(* gribjump-extract refuses the options it documents; the other tools take theirs. *)
Theorem C77_refuted_options :
  forall n args, In n (documented TExtract) -> In ("--" ++ n)%string args -> args_accepted (registered TExtract) args = false.
Proof. exact extract_options_refused. Qed.
Print Assumptions C77_refuted_options.

Theorem C77_other_options :
  forall t args, t <> TExtract ->
    (forall a, In a args -> prefix "--" a = false \/ exists n, In n (documented t) /\ a = ("--" ++ n)%string) ->
    args_accepted (registered t) args = true.
Proof. exact other_options. Qed.
Print Assumptions C77_other_options.

(* Removing the verb does not change what the engine looks for. *)
Theorem C77_verb :
  forall (F : Type) ym l,
    @build_request_map F ym (map (fun r => mk_request (strip_verb (r_string r)) (r_ranges r) (r_hash r)) l) = build_request_map ym l.
Proof. exact @verb_ignored. Qed.
Print Assumptions C77_verb.

(* two requests of one field each; then one request of two fields, whose second field is printed as
   the next request *)
Example C77_example :
  extract_tool ex_flatten ex_extract [0; 1] (Some ex_ranges_text) =
    Ok [(0, [((10, 20)%N, [10%N]); ((30, 40)%N, [10%N])]); (1, [((0, 7)%N, [11%N])])] /\
  print_result [9; 1] [[(10, 20)]; [(0, 7)]]%N 1 [[13%N]] = Ok (1, [((0, 7)%N, [13%N])]) /\
  nth_error (poly_request ex_flatten [9; 1] [[(10, 20)]; [(0, 7)]]%N) 1 = Some ("param=p,step=2"%string, [(10, 20)%N]) /\
  extract_tool ex_flatten ex_extract [9; 1] (Some ex_ranges_text) = UB.
Proof. vm_compute. auto. Qed.

(* C78.  gribjump-scan-files: refuses a list with a file that does not exist; otherwise it scans what
   has no index file beside it and, without --skipExisting, everything; --dry-run scans nothing. *)
Theorem C78_files_scanned :
  forall exists_ skip dry files,
    scan_files exists_ skip dry files =
      (if forallb exists_ files then Ok (if dry then None else match to_scan exists_ skip files with [] => None | l => Some l end)
       else Throw EUser).
Proof. exact scan_files_spec. Qed.
Print Assumptions C78_files_scanned.

Theorem C78_all_scanned : forall exists_ files, Permutation (to_scan exists_ false files) files.
Proof. exact to_scan_all. Qed.
Print Assumptions C78_all_scanned.

(* With a directory for the index files, --skipExisting scans a file whose index file exists there. *)
Theorem C78_refuted_skip_existing :
  forall (g : ModelCache.config) exists_ f,
    g_shadow g = false -> exists_ f = true -> exists_ (cache_file_path g f) = true -> exists_ (f ++ file_ext)%string = false ->
    scan_files exists_ true false [f] = Ok (Some [f]).
Proof. exact existing_elsewhere. Qed.
Print Assumptions C78_refuted_skip_existing.

Example C78_example :
  scan_files ex_exists false false ["/d/a"; "/d/b"; "/d/a"]%string = Ok (Some ["/d/b"; "/d/a"; "/d/a"]%string) /\
  scan_files ex_exists true false ["/d/a"; "/d/b"]%string = Ok (Some ["/d/b"]%string) /\
  scan_files ex_exists true false ["/d/a"]%string = Ok None /\
  scan_files ex_exists false true ["/d/a"; "/d/b"]%string = Ok None /\
  scan_files ex_exists true false ["/d/a"; "/d/c"]%string = Throw EUser.
Proof. vm_compute. auto. Qed.

(* C79.  gribjump-validate succeeds exactly if the ranges file is accepted and fits the requests, the
   extraction succeeds, and for each request one field is stored, whose points in the ranges are the
   extracted values; the count it prints is the number of values. *)
Theorem C79_validates :
  forall (R V : Type) veq (stored : R -> list (list V)) extract as_string requests text n,
    validate_tool extract as_string stored veq requests text = Ok n <->
    exists all ranges results, parse_ranges_file text = Ok all /\ lines_fit requests all ranges /\
      extract (map (fun e => (as_string (fst e), snd e)) (combine requests ranges)) = Ok results /\
      Forall2 (agrees stored veq) (combine requests ranges) results /\ n = length (concat (concat results)).
Proof. exact @validate_iff. Qed.
Print Assumptions C79_validates.

(* An extraction with a missing point, which gribjump returns as NaN, is never validated, however right. *)
Theorem C79_refuted_missing_points :
  forall (R V : Type) (veq : V -> V -> bool) (stored : R -> list (list V)) extract as_string requests text x,
    (forall y, veq y x = false) ->
    (forall q results, extract q = Ok results -> exists vals v, In vals results /\ In v vals /\ In x v) ->
    forall n, validate_tool extract as_string stored veq requests text <> Ok n.
Proof. exact @validate_missing. Qed.
Print Assumptions C79_refuted_missing_points.

Example C79_example :
  validate_tool ex_extract (fun _ => "r"%string) (fun r => [[10 + N.of_nat r; 0]])%N N.eqb [0; 1] (Some "0-1,0-1"%string) = Ok 4 /\
  validate_tool ex_extract (fun _ => "r"%string) (fun _ => [[10; 10; 11; 12]])%N N.eqb [0] (Some "2-3"%string) = Throw EAssert /\
  validate_tool ex_extract (fun _ => "r"%string) (fun _ => [[10]; [10]])%N N.eqb [0] (Some "0-1"%string) = Throw EAssert /\
  validate_tool ex_extract (fun _ => "r"%string) (fun _ => [[10]])%N N.eqb [0] (Some "0-2"%string) = UB.
Proof. vm_compute. auto. Qed.
