(* C95: what a Python user sees *)
From Coq Require Import QArith Sorted.
From Verif Require Import Base ModelInfo ModelSimple ModelJumper ModelCache ModelBuild ModelEngine ModelApi ModelPython ModelRemote ModelForward ModelUser
     SpecJumper SpecBuild SpecEngine SpecPython SpecRemote SpecForward SpecSystem SpecDeploy SpecUser ProofsUser.

(* ---- C95 ---- *)

(* A user gives dicts and ranges.  If the call succeeds, the result at the position of a dict shows, range by range,
   the values and the mask of the field the dict names, whatever the order of its keys; for a dict that names
   no field, reading the values raises an exception. *)
Theorem C95_python_user :
  forall (F W : Type) (zero : F) (o : outside F) (P : string -> Prop) (cfg : ModelEngine.config) expand parsing parse
         (i : impl F W) asks w out w',
    (lenN asks < two64)%N -> Forall (fine_ask cfg expand parsing parse) asks ->
    plain_catalogue o cfg -> right_answers o P cfg i w ->
    py_extract parsing parse i asks w = (Ok out, w') ->
    exists u listing, o_list o u = Ok listing /\ Forall2 (python_sees zero o P cfg expand listing) asks out.
Proof. exact @python_user. Qed.
Print Assumptions C95_python_user.

(* the call succeeds when the texts and ranges are proper and the library answers *)
Theorem C95_call_succeeds :
  forall (F W : Type) parsing parse (i : impl F W) asks texts w res w',
    asks <> [] -> (lenN asks < two64)%N -> Forall2 (accepted parsing parse) asks texts ->
    m_extract i (map (fun p => asked_request (fst p) (snd p)) (combine asks texts)) w = (Ok res, w') -> length res = length asks ->
    py_extract parsing parse i asks w = (Ok (combine res (map (fun a => shape_of (asked_ranges a)) asks)), w').
Proof. exact @python_succeeds. Qed.
Print Assumptions C95_call_succeeds.

(* One mask for every field: the values at the true positions, in increasing order. *)
Theorem C95_mask :
  forall (F W : Type) (zero : F) (o : outside F) (P : string -> Prop) (cfg : ModelEngine.config) expand parsing parse
         (i : impl F W) mask dicts hash w out w',
    (lenN dicts < two64)%N -> (2 * lenN mask < two64)%N -> Forall (fine_dict cfg expand parsing parse) dicts ->
    plain_catalogue o cfg -> right_answers o P cfg i w ->
    py_extract_mask parsing parse i dicts mask hash w = (Ok out, w') ->
    exists u listing, o_list o u = Ok listing /\ Forall2 (region_sees zero o P cfg expand (true_points mask) hash listing) dicts out.
Proof. exact @mask_user. Qed.
Print Assumptions C95_mask.

(* One increasing list of indices for every field: the values at these points. *)
Theorem C95_indices :
  forall (F W : Type) (zero : F) (o : outside F) (P : string -> Prop) (cfg : ModelEngine.config) expand parsing parse
         (i : impl F W) (pts : list nat) dicts hash w out w',
    (lenN dicts < two64)%N -> (2 * lenN pts < two64)%N -> StronglySorted lt pts ->
    Forall (fun p => 2 * (N.of_nat p + 1) < two64)%N pts -> Forall (fine_dict cfg expand parsing parse) dicts ->
    plain_catalogue o cfg -> right_answers o P cfg i w ->
    py_extract_indices parsing parse i dicts (map Z.of_nat pts) hash w = (Ok out, w') ->
    exists u listing, o_list o u = Ok listing /\ Forall2 (region_sees zero o P cfg expand pts hash listing) dicts out.
Proof. exact @indices_user. Qed.
Print Assumptions C95_indices.

(* The answers of the library are right: over the catalogue and the files of this machine, ... *)
Theorem C95_local :
  forall (F W : Type) (o : outside F) g P cfg state (i : impl F W) w,
    sound_outside o g P -> (forall p offs, SpecSystem.reachable o g P (state p offs)) -> plain_catalogue o cfg ->
    c_forward cfg = false -> c_inefficient cfg = false ->
    (forall reqs, fst (m_extract i reqs w) = extract_requests (world_of o g P state) cfg reqs) -> right_answers o P cfg i w.
Proof. exact @local_answers. Qed.
Print Assumptions C95_local.

(* ... and over a server. *)
Theorem C95_server :
  forall (F M W : Type) (k : link F M) (s : site F M) (n : node F) (i : impl F W) w,
    sound_node n -> s_world s = node_world n -> plain_catalogue (n_outside n) (s_cfg s) ->
    c_forward (s_cfg s) = false -> c_inefficient (s_cfg s) = false ->
    (forall reqs, fst (m_extract i reqs w) = omap fst (client_extract k (site_server k s) reqs)) ->
    right_answers (n_outside n) (n_paths n) (s_cfg s) i w.
Proof. exact @client_answers. Qed.
Print Assumptions C95_server.

(* without request parsing a dict is taken as it stands *)
Theorem C95_plain_dict : forall parse d, understood_as false parse (fun d => d) d.
Proof. exact understood_plain. Qed.
Print Assumptions C95_plain_dict.

(* the text of a dict with lists: key=v1/v2, joined by commas; without lists the text of dic_to_request *)
Theorem C95_lists :
  forall d, multivalued_dic_to_request d = String.concat "," (map (fun kv => (fst kv ++ "=" ++ dvalue_text (snd kv))%string) d).
Proof. exact multi_text. Qed.
Print Assumptions C95_lists.
Theorem C95_no_lists :
  forall d, multivalued_dic_to_request (map (fun kv => (fst kv, One (snd kv))) d) = dic_to_request d.
Proof. exact multi_single. Qed.
Print Assumptions C95_no_lists.

(* three dicts, the second of which names no field *)
Example C95_example :
  exists out, py_extract false (fun s => Ok s) one_impl one_asks tt = (Ok out, tt) /\
    map (fun y => py_values 0%Q (fst y) (snd y)) out =
      [ Ok [[7 # 20; 0]; [9 # 20]]%Q; Throw EGribJump; Ok [[201 # 2; 241 # 2; 281 # 2]]%Q ] /\
    map (fun y => py_bool_masks (fst y) (snd y)) out =
      [ Ok [[true; false]; [true]]; Throw EGribJump; Ok [[true; true; true]] ].
Proof. eexists. split; [vm_compute; reflexivity|]. split; vm_compute; reflexivity. Qed.

Example C95_mask_example :
  exists out, py_extract_mask false (fun s => Ok s) one_impl [[("param", "t"); ("step", "0")]%string] [false; true; false; true] (Some "g1"%string) tt = (Ok out, tt) /\
    map (fun y => py_values 0%Q (fst y) (snd y)) out = [Ok [[201 # 2]; [281 # 2]]%Q].
Proof. eexists. split; vm_compute; reflexivity. Qed.

(* the assumptions hold of the example *)
Example C95_example_assumptions :
  Forall (fine_ask one_cfg (fun d => d) false (fun s => Ok s)) one_asks /\ plain_catalogue one_file one_cfg /\
  right_answers one_file one_path one_cfg one_impl tt.
Proof. exact one_user. Qed.
