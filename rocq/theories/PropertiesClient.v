(* C104: what users of the Rust, C and C++ interfaces see *)
From Coq Require Import QArith.
From Verif Require Import Base ModelStrings ModelInfo ModelSimple ModelJumper ModelEngine ModelApi ModelRust ModelUser ModelClient ModelRemote ModelForward
     SpecEngine SpecJumper SpecBuild SpecSystem SpecRemote SpecForward SpecDeploy SpecPaths SpecUser SpecClient ProofsClient.

(* ---- C104 ---- *)
(* Rust: the loop over a call's results gives, at the position of each request, the ranges of the field it names: values,
   validity, values of the valid points only, and their number.  For a request that names no field, no range. *)
Theorem C104_rust :
  forall (F W : Type) (o : outside F) P cfg (i : impl F W) qs reqs w out w',
    (lenN reqs < two64)%N -> Forall (fine_wanted cfg) qs -> Forall2 request_for qs reqs ->
    plain_catalogue o cfg -> right_answers o P cfg i w -> rs_fetch (rs_extract i reqs) w = (Ok out, w') ->
    exists u listing, o_list o u = Ok listing /\ Forall2 (rust_sees o P cfg listing) qs out.
Proof. exact @rust_user. Qed.
Print Assumptions C104_rust.

(* one MARS request for several fields: one result for each field of its expansion *)
Theorem C104_rust_mars :
  forall (F W : Type) (o : outside F) P cfg (i : impl F W) parse flatten text s ds ranges hash w out w',
    parse text = Ok s -> Forall2 spells (flatten s) ds -> (lenN ds < two64)%N -> Forall (plain_field (c_ignore_ym cfg)) ds ->
    plain_catalogue o cfg -> right_answers o P cfg i w -> rs_fetch (rs_extract_mars parse flatten i text ranges hash) w = (Ok out, w') ->
    exists u listing, o_list o u = Ok listing /\ Forall2 (fun d => rust_sees o P cfg listing (mk_wanted d ranges hash)) ds out.
Proof. exact @rust_mars_user. Qed.
Print Assumptions C104_rust_mars.

(* by file and offset, and for messages of one file *)
Theorem C104_rust_paths :
  forall (F W : Type) (n : node F) ignore (i : impl F W) reqs w out w', (lenN reqs < two64)%N ->
    right_paths n ignore i w (map cpp_path_request reqs) -> rs_fetch (rs_extract_from_paths i reqs) w = (Ok out, w') ->
    Forall2 (rust_path_sees n ignore) reqs out.
Proof. exact @rust_paths_user. Qed.
Print Assumptions C104_rust_paths.
Theorem C104_rust_file :
  forall (F W : Type) (n : node F) (i : impl F W) path ms w out w', (lenN ms < two64)%N -> Forall (fun q => fst q < two63)%N ms ->
    right_direct n i w -> rs_fetch (rs_extract_from_file i path ms) w = (Ok out, w') ->
    Forall2 (rust_file_sees n path) ms out.
Proof. exact @rust_file_user. Qed.
Print Assumptions C104_rust_file.

(* the library on this machine answers rightly; for requests of fields see C95_local and C95_server *)
Theorem C104_local_paths :
  forall (F W : Type) (n : node F) cfg (i : impl F W) reqs w, sound_node n -> c_inefficient cfg = false ->
    (forall rs, fst (m_extract_paths i rs w) = extract_path_requests (node_world n) cfg rs) ->
    Forall (fun r => q_host r = None /\ q_port r = 0%Z) reqs -> reqs <> [] -> right_paths n (c_ignore_grid cfg) i w (map cpp_path_request reqs).
Proof. exact @local_right_paths. Qed.
Print Assumptions C104_local_paths.
Theorem C104_local_file :
  forall (F W : Type) (n : node F) (i : impl F W) w, sound_node n ->
    (forall path offs ranges, fst (m_extract_direct i path offs ranges w) = node_direct n path offs ranges) -> right_direct n i w.
Proof. exact @local_right_direct. Qed.
Print Assumptions C104_local_file.

(* C: requests made one by one, one call, the loop over the results; arrays of the number of points and mask words asked
   for are filled with the values and the masks of the field, range after range *)
Theorem C104_c :
  forall (F W : Type) (o : outside F) P cfg (zero : F) (i : impl F W) parsing parse qs asks w out w',
    (lenN asks < two64)%N -> Forall (fine_wanted cfg) qs -> Forall2 (asks_c parsing parse) qs asks ->
    plain_catalogue o cfg -> right_answers o P cfg i w -> c_fetch parsing parse i asks w = (Ok out, w') ->
    exists u listing, o_list o u = Ok listing /\ Forall2 (c_sees o P cfg zero listing) qs out.
Proof. exact @c_user. Qed.
Print Assumptions C104_c.

(* C++: the whole vector *)
Theorem C104_cpp :
  forall (F W : Type) (o : outside F) P cfg (i : impl F W) qs reqs w s w',
    (lenN reqs < two64)%N -> Forall (fine_wanted cfg) qs -> Forall2 request_for qs reqs ->
    plain_catalogue o cfg -> right_answers o P cfg i w -> gj_extract i reqs w = (Ok s, w') ->
    exists u listing res s', o_list o u = Ok listing /\ dump_vector s = Ok (map Some res, s') /\ Forall2 (cpp_sees o P cfg listing) qs res.
Proof. exact @cpp_user. Qed.
Print Assumptions C104_cpp.

(* The loop neither drops nor adds results, and what the library throws arrives: the call gives what the library gives. *)
Theorem C104_call :
  forall (F W : Type) (a : @action W (list (result F))) w,
    (forall res, fst (a w) = Ok res -> (lenN res < two64)%N) ->
    rs_fetch (as_iterator a) w = (omap (map handle_new) (fst (a w)), snd (a w)).
Proof. exact @rust_call. Qed.
Print Assumptions C104_call.

(* three requests, the second of which names no field *)
Example C104_example :
  exists out, rs_fetch (rs_extract one_impl two_requests) tt = (Ok out, tt) /\
    map (fun h => map iter_with_validity (fst (rs_iter h))) out =
      [ [[(7 # 20, true); (0, false)]; [(9 # 20, true)]]; []; [[(201 # 2, true); (241 # 2, true); (281 # 2, true)]] ]%Q /\
    map (fun h => map valid_values (fst (rs_iter h))) out = [ [[7 # 20]; [9 # 20]]; []; [[201 # 2; 241 # 2; 281 # 2]] ]%Q /\
    map ModelRust.total_values out = [3; 0; 3]%N.
Proof. eexists. split; [vm_compute; reflexivity|]. repeat split; vm_compute; reflexivity. Qed.
Example C104_c_example :
  exists x y z, c_fetch false (fun s => Ok s) one_impl two_asks tt = (Ok [x; y; z], tt) /\
    c_read 5%Q x 3 2 = Ok ([7 # 20; 0; 9 # 20]%Q, [1; 1]%N) /\ c_read 5%Q y 1 1 = Throw EGribJump /\
    c_read 5%Q z 3 1 = Ok ([201 # 2; 241 # 2; 281 # 2]%Q, [7]%N) /\ c_read 5%Q z 4 1 = Throw EGribJump.
Proof. do 3 eexists. split; [vm_compute; reflexivity|]. repeat split; vm_compute; reflexivity. Qed.
Example C104_example_assumptions :
  Forall (fine_wanted one_cfg) two_wanted /\ Forall2 request_for two_wanted two_requests /\
  Forall2 (asks_c false (fun s => Ok s)) two_wanted two_asks /\
  plain_catalogue one_file one_cfg /\ right_answers one_file one_path one_cfg one_impl tt.
Proof. exact two_users. Qed.
