(* The command line tools: src/gribjump/tools/ToolUtils.cc (the ranges file), GribJumpTool.cc,
   src/tools/gribjump-extract.cc, gribjump-validate.cc with src/gribjump/tools/EccodesExtract.cc, and
   gribjump-scan-files.cc.  MARS parsing, expansion and flattening, the extraction itself and the file
   system are parameters.  A text is a string; log lines are not modelled except what
   gribjump-extract prints for each result. *)
From Verif Require Import Base ModelStrings ModelIndex.

(* ---- numbers ---- *)
Definition newline : ascii := "010"%char.

(* std::isspace in the "C" locale *)
Definition is_space (a : ascii) : bool :=
  let n := N_of_ascii a in ((n =? 32) || ((9 <=? n) && (n <=? 13)))%N.
Definition digit (a : ascii) : option N :=
  let n := N_of_ascii a in if ((48 <=? n) && (n <=? 57))%N then Some (n - 48)%N else None.

Fixpoint skip_space (s : string) : string :=
  match s with
  | EmptyString => EmptyString
  | String a r => if is_space a then skip_space r else s
  end.

(* the digits at the start of s, after those that made up acc *)
Fixpoint digits (acc : N) (s : string) : N :=
  match s with
  | EmptyString => acc
  | String a r => match digit a with Some d => digits (10 * acc + d)%N r | None => acc end
  end.
Definition starts_with_digit (s : string) : bool :=
  match s with String a _ => match digit a with Some _ => true | None => false end | EmptyString => false end.

Definition int_max : N := 2147483647%N.

(* std::stoi: white space, an optional sign, digits; the rest of the text is ignored.
   std::invalid_argument and std::out_of_range both carry the text "stoi". *)
Definition stoi (s : string) : outcome Z :=
  let s := skip_space s in
  let (neg, s) := match s with
                  | String a r => if Ascii.eqb a "-" then (true, r) else if Ascii.eqb a "+" then (false, r) else (false, s)
                  | EmptyString => (false, s)
                  end in
  if starts_with_digit s
  then let n := digits 0 s in
       if neg then (if (n <=? int_max + 1)%N then Ok (- Z.of_N n)%Z else Throw (EMsg "stoi"))
       else (if (n <=? int_max)%N then Ok (Z.of_N n) else Throw (EMsg "stoi"))
  else Throw (EMsg "stoi").

(* ---- parseRangesFile, ToolUtils.cc:22-51 ---- *)
(* std::getline until it fails: a last line without a newline counts if it has a character *)
Fixpoint lines_ (s cur : string) : list string :=
  match s with
  | EmptyString => if String.eqb cur "" then [] else [cur]
  | String a r => if Ascii.eqb a newline then cur :: lines_ r "" else lines_ r (cur ++ String a "")
  end.
Definition lines (s : string) : list string := lines_ s "".

(* std::pair<int, int> converted to Range, a pair of size_t *)
Definition size_of_int (z : Z) : N := Z.to_N (z mod Z.of_N two64).

Definition parse_range (s : string) : outcome (N * N) :=
  match split "-" s with
  | [a; b] => let* x := stoi a in let* y := stoi b in Ok (size_of_int x, size_of_int y)
  | _ => Throw EAssert
  end.
Definition parse_line (s : string) : outcome (list (N * N)) := mapM parse_range (split "," s).

(* None: a file that cannot be opened.  std::ifstream then has its fail bit set, not its bad bit, so
   the test of lines 34-36 does not see it and the first getline fails *)
Definition parse_ranges_file (content : option string) : outcome (list (list (N * N))) :=
  mapM parse_line (match content with Some s => lines s | None => [] end).

(* ---- eckit's CmdArgs: an option that was not registered ends the tool ---- *)
Definition option_name (arg : string) : option string :=
  if prefix "--" arg
  then match split "=" (substring 2 (String.length arg) arg) with n :: _ => Some n | [] => Some ""%string end
  else None.
Definition args_accepted (registered : list string) (args : list string) : bool :=
  forallb (fun a => match option_name a with Some n => existsb (String.eqb n) registered | None => true end) args.

(* the options in GribJumpTool::options_ when run() builds CmdArgs (GribJumpTool.cc:55-57) *)
Inductive tool := TExtract | TValidate | TScan | TScanFiles.
Definition registered (t : tool) : list string :=
  match t with
  | TExtract => []     (* gribjump-extract.cc:35-36 push to a private member options_ that hides the inherited one (line 41) *)
  | TValidate => ["raw"]
  | TScan => ["file"; "raw"; "byfiles"]
  | TScanFiles => ["skipExisting"; "dry-run"]
  end%string.
(* the options the tool's usage text or constructor names *)
Definition documented (t : tool) : list string :=
  match t with
  | TExtract => ["print"; "raw"]
  | TValidate => ["raw"]
  | TScan => ["file"; "raw"; "byfiles"]
  | TScanFiles => ["skipExisting"; "dry-run"]
  end%string.

(* ---- gribjump-extract and gribjump-validate ---- *)
Section Extract.
Context {R V : Type}.                      (* parsed requests; values *)

(* one line of ranges is used for every request; otherwise one line per request
   (gribjump-extract.cc:82-87, gribjump-validate.cc:76-81) *)
Definition assign_ranges (requests : list R) (all : list (list (N * N))) : outcome (list (list (N * N))) :=
  let all := match all with [r] => r :: repeat r (length requests - 1) | _ => all end in
  let* _ := assert_ (Nat.eqb (length requests) (length all)) in
  Ok all.

(* lines 94-98 *)
Definition strip_verb (s : string) : string :=
  if prefix "retrieve," s then substring 9 (String.length s - 9) s else s.

Variable flatten : R -> list string.       (* MarsExpansion::flatten, then asString *)
Definition poly_request (requests : list R) (all : list (list (N * N))) : list (string * list (N * N)) :=
  concat (map (fun e => map (fun s => (strip_verb s, snd e)) (flatten (fst e))) (combine requests all)).

(* printing, lines 117-153: result number i is printed with requests[i] and allRanges[i][k] *)
Definition print_result (requests : list R) (all : list (list (N * N))) (i : nat) (values : list (list V))
    : outcome (R * list ((N * N) * list V)) :=
  match nth_error requests i with
  | None => UB
  | Some r =>
      match values, nth_error all i with
      | [], _ => Ok (r, [])
      | _, None => UB
      | _, Some ranges => if Nat.leb (length values) (length ranges) then Ok (r, combine ranges values) else UB
      end
  end.
Fixpoint print_results (requests : list R) (all : list (list (N * N))) (i : nat) (results : list (list (list V)))
    : outcome (list (R * list ((N * N) * list V))) :=
  match results with
  | [] => Ok []
  | v :: rest => let* l := print_result requests all i v in let* ls := print_results requests all (S i) rest in Ok (l :: ls)
  end.

Variable extract : list (string * list (N * N)) -> outcome (list (list (list V))).   (* GribJump::extract *)
Definition extract_tool (requests : list R) (ranges : option string) : outcome (list (R * list ((N * N) * list V))) :=
  let* all := parse_ranges_file ranges in
  let* all := assign_ranges requests all in
  let* results := extract (poly_request requests all) in
  print_results requests all 0 results.

(* gribjump-validate.cc:83-133.  [as_string]: MarsRequest::asString, verb and all; [stored r]: the value
   arrays of the fields of request r as eccodes decodes them, with missing points set to 9999
   (EccodesExtract.cc:24-74); [veq]: operator== on double *)
Variable as_string : R -> string.
Variable stored : R -> list (list V).
Variable veq : V -> V -> bool.

(* data[k] for k in the range: no bounds check (EccodesExtract.cc:66-68) *)
Definition ec_range (data : list V) (r : N * N) : outcome (list V) :=
  if (snd r <=? fst r)%N then Ok []
  else if (snd r <=? lenN data)%N then Ok (slice data (N.to_nat (fst r)) (N.to_nat (snd r - fst r))) else UB.
Definition ec_extract (r : R) (ranges : list (N * N)) : outcome (list (list (list V))) :=
  mapM (fun data => mapM (ec_range data) ranges) (stored r).

Fixpoint compare_values (a b : list V) : outcome nat :=
  match a, b with
  | [], [] => Ok 0
  | x :: a, y :: b => let* _ := assert_ (veq x y) in let* n := compare_values a b in Ok (S n)
  | _, _ => Throw EAssert
  end.
(* sizes are compared before the values; a mismatch of either kind is an AssertionFailed *)
Fixpoint compare_lists (a b : list (list V)) : outcome nat :=
  match a, b with
  | [], [] => Ok 0
  | x :: a, y :: b => let* n := compare_values x y in let* m := compare_lists a b in Ok (n + m)
  | _, _ => Throw EAssert
  end.
Fixpoint validate_loop (l : list ((R * list (N * N)) * list (list V))) : outcome nat :=
  match l with
  | [] => Ok 0
  | ((r, ranges), gj) :: rest =>
      let* ecs := ec_extract r ranges in
      match ecs with
      | [ec] => let* n := compare_lists ec gj in let* m := validate_loop rest in Ok (n + m)
      | _ => Throw EAssert
      end
  end.
Definition validate_tool (requests : list R) (ranges : option string) : outcome nat :=
  let* all := parse_ranges_file ranges in
  let* all := assign_ranges requests all in
  let* results := extract (map (fun e => (as_string (fst e), snd e)) (combine requests all)) in
  let* _ := assert_ (Nat.eqb (length results) (length requests)) in
  validate_loop (combine (combine requests all) results).
End Extract.

(* ---- gribjump-scan-files.cc:53-123 ---- *)
Section ScanFiles.
Variable exists_ : string -> bool.

(* lines 75-90: None stands for nothing found yet; the first file that does not exist is an error *)
Fixpoint sort_files (files scan existing : list string) : outcome (list string * list string) :=
  match files with
  | [] => Ok (scan, existing)
  | f :: r =>
      if negb (exists_ f) then Throw EUser
      else if exists_ (f ++ file_ext)%string then sort_files r scan (existing ++ [f])
      else sort_files r (scan ++ [f]) existing
  end.
(* the files handed to GribJump::scan; None: nothing is scanned *)
Definition scan_files (skip_existing dry_run : bool) (files : list string) : outcome (option (list string)) :=
  match files with
  | [] => Ok None
  | _ =>
      let* (scan, existing) := sort_files files [] [] in
      let scan := if skip_existing then scan else scan ++ existing in
      match scan with
      | [] => Ok None
      | _ => Ok (if dry_run then None else Some scan)
      end
  end.
End ScanFiles.
