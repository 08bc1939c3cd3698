(* Vocabulary to state what a scan of the fields of a request has to do. *)
From Coq Require Import Sorted Permutation.
From Verif Require Import Base ModelInfo ModelStream ModelStrings ModelEngine ModelProtocol ModelRemote SpecRemote
  ModelForward SpecForward.

(* tasks that each scan one file: the fields of those that succeed are counted, in a 64 bit counter; the errors of
   the others are kept *)
Definition totals (ts : list (outcome N)) : outcome (N * list error) :=
  if existsb is_ub ts then UB
  else Ok ((fold_right N.add 0 (results_in ts) mod two64)%N, errors_of ts).

(* one scan for every file of l, with the offsets that l has for the file, in ascending order *)
Definition one_scan_per_file (l : list (string * Z)) (calls : list (string * list Z)) : Prop :=
  NoDup (map fst calls) /\ Permutation l (scan_entries calls) /\
  Forall (fun c => snd c <> [] /\ StronglySorted Z.le (snd c)) calls.

Definition is_at (u : uri) (x : string * Z) : Prop := u_path u = fst x /\ u_offset u = Ok (snd x).

Section Sites.
Context {F M : Type}.
Variable k : link F M.
(* what a client gets of a scan at a server: the number, or one exception with all errors *)
Definition reported (x : outcome (N * list error)) : outcome N :=
  match x with
  | Ok (n, []) => Ok n
  | Ok (_, es) => Throw (EMsg (error_text (k_title k) (map (k_what k) es)))
  | Throw e => Throw (EMsg (k_what k e))
  | UB => UB
  end.
Definition scans_with (scan_file : string -> list Z -> outcome N) (calls : list (string * list Z)) : list (outcome N) :=
  map (fun c => scan_file (fst c) (snd c)) calls.
Definition scans_at (s : site F M) (calls : list (string * list Z)) : list (outcome N) :=
  scans_with (s_scan_file s) calls.
(* Engine::scan at a client that forwards *)
Definition client_scans (sm : list (endpoint * endpoint)) (connect : endpoint -> list (tok F) -> outcome (list (tok F)))
    (scan_file : string -> list Z -> outcome N) (list_uris : list M -> outcome (list uri)) :=
  engine_scan sm (k_title k) (k_context k) connect scan_file list_uris true.
End Sites.

(* Engine::scan without forwarding *)
Definition local_scan {M} (scan_file : string -> list Z -> outcome N) (list_uris : list M -> outcome (list uri)) :=
  engine_scan (F := unit) [] (fun _ => ""%string) ""%string (fun _ _ => Throw EStream) scan_file list_uris false.

(* for the examples: file x has three fields, and a scan with offsets finds those that exist *)
Definition demo_fields (path : string) : list Z := if String.eqb path "/a" then [0; 5; 9]%Z else [6; 7]%Z.
Definition demo_scan (path : string) (offs : list Z) : outcome N :=
  if String.eqb path "/bad" then Throw ERead
  else Ok (lenN (match offs with [] => demo_fields path
                 | _ => filter (fun o => existsb (Z.eqb o) (demo_fields path)) offs end)).
Definition demo_scan_sites (ep : endpoint) : site Z Z :=
  let s := demo_sites ep in
  mk_site (s_world s) (s_cfg s) demo_scan (s_list_uris s) (s_list_axes s) (s_servermap s) (s_connect s) (s_forward_scans s).
Definition demo_place (host path : string) (o : Z) : uri := mk_uri "file" path host 7000 (Ok o) (Ok 0%Z).
