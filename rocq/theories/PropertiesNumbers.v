(* C99: the numbers a caller gets in IEEE binary64, at the end of a whole call. *)
From Coq Require Import QArith Qabs Floats.SpecFloat.
From Verif Require Import Base ModelInfo ModelSimple ModelFloat ModelJumper ModelCache ModelBuild ModelEngine ModelApi ModelPython ModelUser
     SpecCcsds SpecJumper SpecBuild SpecEngine SpecPython SpecSystem SpecUser SpecAccuracy SpecNumbers ProofsNumbers.

(* ---- C99 ---- *)

(* A batch of requests against catalogue, files and an info cache in any state earlier calls lead to.  If the call
   succeeds, then for every request whose field is stored in a message that follows the formula, every number of
   every range is NaN exactly at the missing points and otherwise within the bound of C96 of (R + X 2^E) 10^-D,
   where X is the packed integer of that grid point; it is finite if the exact values stay in range. *)
Theorem C99_requests :
  forall (o : outside spec_float) (g : ModelCache.config) (P : string -> Prop) (cfg : ModelEngine.config),
    sound_outside o g P -> o_arith o = b64_arith ->
    forall state : string -> list Z -> @cache spec_float, (forall p offs, SpecSystem.reachable o g P (state p offs)) ->
    forall (reqs : list request) (res : list (result spec_float)),
    unique_listings (world_of o g P state) cfg -> c_forward cfg = false -> c_inefficient cfg = false ->
    extract_requests (world_of o g P state) cfg reqs = Ok res ->
    exists u listing, o_list o u = Ok listing /\ number_results o P cfg reqs listing res.
Proof. exact call_numbers. Qed.
Print Assumptions C99_requests.

(* The same for the arrays of a Python user, by ranges ... *)
Theorem C99_python :
  forall (W : Type) (o : outside spec_float) (P : string -> Prop) (cfg : ModelEngine.config) expand parsing parse
         (i : impl spec_float W) asks w out w',
    o_arith o = b64_arith -> (lenN asks < two64)%N -> Forall (fine_ask cfg expand parsing parse) asks ->
    plain_catalogue o cfg -> right_answers o P cfg i w ->
    py_extract parsing parse i asks w = (Ok out, w') ->
    exists u listing, o_list o u = Ok listing /\ Forall2 (python_numbers o P expand listing) asks out.
Proof. exact @python_numbers_seen. Qed.
Print Assumptions C99_python.

(* ... and by a mask. *)
Theorem C99_python_mask :
  forall (W : Type) (o : outside spec_float) (P : string -> Prop) (cfg : ModelEngine.config) expand parsing parse
         (i : impl spec_float W) mask dicts hash w out w',
    o_arith o = b64_arith -> (lenN dicts < two64)%N -> (2 * lenN mask < two64)%N ->
    Forall (fine_dict cfg expand parsing parse) dicts ->
    plain_catalogue o cfg -> right_answers o P cfg i w ->
    py_extract_mask parsing parse i dicts mask hash w = (Ok out, w') ->
    exists u listing, o_list o u = Ok listing /\ Forall2 (region_numbers o P expand (true_points mask) listing) dicts out.
Proof. exact @mask_numbers_seen. Qed.
Print Assumptions C99_python_mask.

(* the assumptions hold of a file with one field of four points, R = 3, E = -1, D = 1 *)
Example C99_example_assumptions :
  sound_outside one_file64 one_cache one_path /\ (forall p offs, SpecSystem.reachable one_file64 one_cache one_path (one_state64 p offs)) /\
  plain_catalogue one_file64 one_cfg /\ right_answers one_file64 one_path one_cfg one_impl64 tt /\ double_message ex_simple64.
Proof. exact (conj one_file64_sound (conj one_state64_reachable one_user64)). Qed.
(* 0.35000000000000003, NaN; 0.45: the values 7/20, missing, 9/20 *)
Example C99_example :
  exists out, py_extract false (fun s => Ok s) one_impl64
      [mk_pyask [("step", "6"); ("param", "u")]%string [(0, 2); (3, 4)]%Z (Some "g2"%string)] tt = (Ok out, tt) /\
    map (fun y => py_values (S754_zero false) (fst y) (snd y)) out =
      [Ok [[S754_finite false 6305039478318695 (-54); S754_nan]; [S754_finite false 8106479329266893 (-54)]]].
Proof. eexists. split; vm_compute; reflexivity. Qed.
