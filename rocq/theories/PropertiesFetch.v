(* C112: requests by file and offset in Python and C, and extract_single *)
From Coq Require Import QArith.
From Verif Require Import Base ModelStrings ModelInfo ModelSimple ModelJumper ModelEngine ModelApi ModelRust ModelPython ModelUser ModelClient ModelFetch ModelRemote ModelForward
     SpecEngine SpecJumper SpecBuild SpecApi SpecPython SpecSystem SpecRemote SpecForward SpecDeploy SpecPaths SpecUser SpecClient SpecFetch ProofsFetch.

(* ---- C112 ---- *)
(* Python: the result at the position of a request shows, range by range, the values and the mask of the message at the
   offset the request gives. *)
Theorem C112_python_paths :
  forall (F W : Type) (zero : F) (n : node F) ignore (i : impl F W) asks w out w', (lenN asks < two64)%N ->
    Forall (fun a => fits_memory (f_ranges a)) asks -> Forall clean_ask asks ->
    right_paths n ignore i w (map means asks) -> py_extract_paths i asks w = (Ok out, w') ->
    Forall2 (python_path_sees zero n ignore) asks out.
Proof. exact @python_paths_user. Qed.
Print Assumptions C112_python_paths.

(* a call with proper requests that the library answers gives these answers, each with the sizes of its ranges *)
Theorem C112_python_paths_succeed :
  forall (F W : Type) (i : impl F W) asks w res w', asks <> [] -> (lenN asks < two64)%N ->
    Forall proper_ask asks -> Forall (fun a => fits_memory (f_ranges a)) asks -> Forall clean_ask asks ->
    m_extract_paths i (map means asks) w = (Ok res, w') -> length res = length asks ->
    py_extract_paths i asks w = (Ok (combine res (map (fun a => sizes (f_ranges a)) asks)), w').
Proof. exact @python_paths_succeed. Qed.
Print Assumptions C112_python_paths_succeed.

(* without requests, or with one that has no ranges, an empty or reversed range, or a number C cannot hold, the call
   raises and the library is not called *)
Theorem C112_python_paths_refused :
  forall (F W : Type) (i : impl F W) asks w, Forall (fun a => fits_memory (f_ranges a)) asks ->
    asks = [] \/ Exists (fun a => ~ proper_ask a) asks -> exists e, py_extract_paths i asks w = (Throw e, w).
Proof. exact @python_paths_refused. Qed.
Print Assumptions C112_python_paths_refused.

(* a path with a NUL is taken for what stands before it *)
Theorem C112_cut_at_nul :
  forall (F W : Type) a b (i : impl F W) scheme off host port ranges hash w,
    py_extract_paths i [mk_path_ask (a ++ String "000" b) scheme off host port ranges hash] w =
    py_extract_paths i [mk_path_ask a scheme off host port ranges hash] w.
Proof. exact @cut_at_nul. Qed.
Print Assumptions C112_cut_at_nul.

(* C: requests made one by one, one call, the loop; arrays of the sizes asked for are filled *)
Theorem C112_c_paths :
  forall (F W : Type) (zero : F) (n : node F) ignore (i : impl F W) asks reqs w out w', (lenN asks < two64)%N ->
    Forall2 (fun a r => c_means a (p_ranges r) r) asks reqs ->
    right_paths n ignore i w reqs -> c_fetch_paths i asks w = (Ok out, w') -> Forall2 (c_path_sees zero n ignore) reqs out.
Proof. exact @c_paths_user. Qed.
Print Assumptions C112_c_paths.

(* the C functions hand over all requests, in order *)
Theorem C112_c_passed_on :
  forall (F W : Type) (i : impl F W) reqs w,
    c_extract (Some i) reqs (lenN reqs) w = (let (r, w') := gj_extract i reqs w in (try_catch r, w')).
Proof. exact @c_passed_on. Qed.
Print Assumptions C112_c_passed_on.
Theorem C112_c_paths_passed_on :
  forall (F W : Type) (i : impl F W) reqs w,
    c_extract_paths (Some i) reqs (lenN reqs) w = (let (r, w') := gj_extract_paths i reqs w in (try_catch r, w')).
Proof. exact @c_paths_passed_on. Qed.
Print Assumptions C112_c_paths_passed_on.

(* the library on this machine answers rightly *)
Theorem C112_local_paths :
  forall (F W : Type) (n : node F) cfg (i : impl F W) reqs w, sound_node n -> c_inefficient cfg = false ->
    (forall rs, fst (m_extract_paths i rs w) = extract_path_requests (node_world n) cfg rs) ->
    Forall (fun r => p_host r = ""%string /\ p_port r = 0%Z) reqs -> reqs <> [] -> right_paths n (c_ignore_grid cfg) i w reqs.
Proof. exact @machine_right_paths. Qed.
Print Assumptions C112_local_paths.

(* extract_single: one result for every field the request stands for, in this order, each with the values and the mask
   of its field.  The values of a field that is missing cannot be read. *)
Theorem C112_python_single :
  forall (F W : Type) (zero : F) (o : outside F) P cfg (i : impl F W) parse flatten d s ds ranges hash w out w',
    clean (single_text d) -> clean_hash hash -> fits_memory ranges ->
    parse (single_text d) = Ok s -> Forall2 spells (flatten s) ds -> (lenN ds < two64)%N -> Forall (plain_field (c_ignore_ym cfg)) ds ->
    plain_catalogue o cfg -> right_answers o P cfg i w -> py_extract_single parse flatten i d ranges hash w = (Ok out, w') ->
    exists u listing, o_list o u = Ok listing /\ Forall2 (single_sees zero o P cfg ranges hash listing) ds out.
Proof. exact @python_single_user. Qed.
Print Assumptions C112_python_single.
Theorem C112_python_single_succeeds :
  forall (F W : Type) (i : impl F W) parse flatten d s ranges hash w res w',
    clean (single_text d) -> clean_hash hash -> fits_memory ranges -> parse (single_text d) = Ok s -> flatten s <> [] ->
    Forall (fun r => 0 <= fst r < Z.of_N two64 /\ 0 <= snd r < Z.of_N two64)%Z ranges -> (lenN res < two64)%N ->
    m_extract i (single_requests flatten s ranges hash) w = (Ok res, w') ->
    py_extract_single parse flatten i d ranges hash w = (Ok (map (fun x => (x, sizes ranges)) res), w').
Proof. exact @python_single_succeeds. Qed.
Print Assumptions C112_python_single_succeeds.
(* a bound that C cannot hold is refused; reversed ranges are not, they reach the library *)
Theorem C112_python_single_refused :
  forall (F W : Type) (i : impl F W) parse flatten d ranges hash w,
    Exists (fun r => ~ (0 <= fst r < Z.of_N two64 /\ 0 <= snd r < Z.of_N two64)%Z) ranges ->
    exists e, py_extract_single parse flatten i d ranges hash w = (Throw e, w).
Proof. exact @python_single_refused. Qed.
Print Assumptions C112_python_single_refused.

(* two messages of one file *)
Example C112_paths_example :
  exists out, py_extract_paths path_impl two_path_asks tt = (Ok out, tt) /\
    map (fun y => py_values 5%Q (fst y) (snd y)) out = [ Ok [[7 # 20; 0]; [9 # 20]]; Ok [[201 # 2; 241 # 2; 281 # 2]] ]%Q /\
    map (fun y => py_bool_masks (fst y) (snd y)) out = [ Ok [[true; false]; [true]]; Ok [[true; true; true]] ].
Proof. eexists. split; [vm_compute; reflexivity|]. split; vm_compute; reflexivity. Qed.
Example C112_c_paths_example :
  exists x y, c_fetch_paths path_impl two_c_paths tt = (Ok [x; y], tt) /\
    c_read 5%Q x 3 2 = Ok ([7 # 20; 0; 9 # 20]%Q, [1; 1]%N) /\ c_read 5%Q y 3 1 = Ok ([201 # 2; 241 # 2; 281 # 2]%Q, [7]%N).
Proof. do 2 eexists. split; [vm_compute; reflexivity|]. split; vm_compute; reflexivity. Qed.
Example C112_refused_example :
  map (fun a => fst (py_extract_paths path_impl [a] tt))
    [ mk_path_ask "/fdb/x.data" "file" 12 "" 0 [] None; mk_path_ask "/fdb/x.data" "file" 12 "" 0 [(2, 2)]%Z None;
      mk_path_ask "/fdb/x.data" "file" (-1) "" 0 [(0, 2)]%Z None; mk_path_ask "/fdb/x.data" "file" 12 "" (2 ^ 31) [(0, 2)]%Z None ]
  = [Throw EBadValue; Throw EBadValue; Throw EOutOfRange; Throw EOutOfRange].
Proof. vm_compute. reflexivity. Qed.
(* steps 0 and 9, the second of which is missing *)
Example C112_single_example :
  exists out, py_extract_single (fun s => Ok s) split_steps one_impl two_steps [(1, 4)]%Z (Some "g1"%string) tt = (Ok out, tt) /\
    map (fun y => py_values 5%Q (fst y) (snd y)) out = [ Ok [[201 # 2; 241 # 2; 281 # 2]]%Q; Throw EGribJump ].
Proof. eexists. split; vm_compute; reflexivity. Qed.
Example C112_example_assumptions :
  right_paths (node_at "/fdb/x.data") false path_impl tt (map means two_path_asks) /\
  Forall clean_ask two_path_asks /\ Forall proper_ask two_path_asks /\ Forall (fun a => fits_memory (f_ranges a)) two_path_asks /\
  Forall2 (fun a r => c_means a (p_ranges r) r) two_c_paths (map means two_path_asks).
Proof. exact path_users. Qed.
