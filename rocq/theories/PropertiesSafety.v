(* Properties C97-C98: when extraction has undefined behaviour. *)
From Coq Require Import Permutation Sorted.
From Verif Require Import Base ModelRange ModelSimple ModelCcsds ModelInfo ModelJumper ModelCache ModelEngine
     SpecSimple SpecCcsds SpecJumper SpecEngine SpecSystem SpecSafety ProofsJumper3 SpecDeploy SpecPaths ProofsSafety ProofsSafety2 ProofsSafety3 ProofsSafety4.
Open Scope nat_scope.

(* C97.  Any octets, any offset, any description that is not degenerate (sane_info), any list of ranges with
   begin <= end: extraction is undefined exactly when the request passes the checks and ends behind the points of a
   field whose bitmap can be read. *)
Theorem C97_undefined_exactly_when :
  forall (F : Type) (A : farith F) (aec : aec_oracle) (file : list N) (offset : Z) (inf : info F),
    is_bytes file -> counts_samples aec -> sane_info inf ->
    forall l : list (N * N), plain_ranges l ->
    (extract A aec file offset inf l = UB <-> beyond_bitmap inf file offset l).
Proof. exact @extract_undefined. Qed.
Print Assumptions C97_undefined_exactly_when.

(* a single range may even be inverted if there is no bitmap to read *)
Theorem C97_one_range :
  forall (F : Type) (A : farith F) (aec : aec_oracle) (file : list N) (offset : Z) (inf : info F),
    is_bytes file -> counts_samples aec -> sane_info inf ->
    forall i : N * N, i_bits_per_value inf = 0%N \/ i_offset_before_bitmap inf = 0%Z ->
    extract A aec file offset inf [i] <> UB.
Proof. exact @one_range_defined. Qed.
Print Assumptions C97_one_range.

(* The hypotheses are needed: several inverted ranges without a bitmap (the search for the insertion point is made in
   an unsorted vector); a CCSDS description with empty intervals (division by zero); a number of points near 2^64. *)
Theorem C97_exclusions_needed :
  extract z_arith no_aec [1; 2; 3; 4; 5]%N 0 (ex_info 8 0 5 0 5) [(0, 5); (18446744073709551615, 0); (3, 4)]%N = UB /\
  extract z_arith raw_libaec [1; 2; 3; 4; 5]%N 0
    (mk_info Z 1 100%Z 0 0 2 8 0 5 0 5 5 5 0 "g" "grid_ccsds" (CcsdsInfo 0 8 0 [0]%N)) [(0, 1)]%N = UB /\
  extract z_arith no_aec ex_file 0 (ex_info 8 2 6 1 18446744073709551615) [(0, 1)]%N = UB.
Proof. exact (conj eq_refl (conj eq_refl eq_refl)). Qed.
Print Assumptions C97_exclusions_needed.

(* a description that has nothing to do with the file; data cut short; an inverted range; the edge of a bitmap *)
Example C97_example :
  extract z_arith no_aec [1; 2; 3]%N 70 (ex_info 8 2 600 900 4) [(0, 2)]%N = Throw ERead /\
  extract z_arith no_aec [1; 2; 3]%N 0 (ex_info 8 0 600 0 4) [(0, 2); (2, 300)]%N = Throw ERead /\
  extract z_arith no_aec ex_file 0 (ex_info 8 2 6 0 4) [(3, 1)]%N = Throw EBadAlloc /\
  extract z_arith no_aec ex_file 0 (ex_info 8 2 6 1 6) [(0, 6)]%N = Ok ([[110; -999; 120; 130; -999; 140]]%Z, [[45]]%N) /\
  extract z_arith no_aec ex_file 0 (ex_info 8 2 6 1 6) [(0, 6); (6, 7)]%N = UB.
Proof. vm_compute. auto. Qed.

(* C98.  A whole call.  The catalogue, the description of messages, the cache and the files only have to return
   something or throw; if a call is undefined then one of its requests has an inverted range or lies outside the bitmap
   of the message at the place the catalogue gives for it.  (e' is another entry of the same field, if the catalogue
   lists it twice.) *)
Theorem C98_requests :
  forall (F : Type) (w : world F) (P : string -> Prop), defined_world w P ->
    forall (cfg : config) (reqs : list request), extract_requests w cfg reqs = UB ->
    exists u listing r e e',
      w_list w u = Ok listing /\ In e listing /\ In e' listing /\
      In r (canon_requests (c_ignore_ym cfg) false reqs) /\
      listed_as (c_ignore_ym cfg) e = r_string r /\ listed_as (c_ignore_ym cfg) e' = r_string r /\
      deadly w (u_path (l_uri e')) (l_uri e) (r_ranges r).
Proof. exact @requests_die. Qed.
Print Assumptions C98_requests.

Theorem C98_path_requests :
  forall (F : Type) (w : world F) (P : string -> Prop), defined_world w P ->
    forall (cfg : config) (reqs : list path_request),
    reqs <> [] -> Forall (fun r => P (p_path r)) reqs -> extract_path_requests w cfg reqs = UB ->
    exists r, In r reqs /\ deadly w (p_path r) (p_uri r) (p_ranges r).
Proof. exact @path_requests_die. Qed.
Print Assumptions C98_path_requests.

Theorem C98_direct :
  forall (F : Type) (A : farith F) (aec : aec_oracle) (files : string -> option (list N))
         (extractor : string -> list Z -> outcome (list (info F))),
    counts_samples aec -> (forall p b, files p = Some b -> is_bytes b) ->
    (forall p offs, no_death (fun infos => length infos = length offs /\ Forall sane_info infos) (extractor p offs)) ->
    forall (path : string) (offs : list Z) (ranges : list (list (N * N))),
    api_extract_direct A aec files extractor path offs ranges = UB ->
    exists bytes infos k off inf l,
      files path = Some bytes /\ extractor path offs = Ok infos /\
      nth_error offs k = Some off /\ nth_error infos k = Some inf /\ nth_error ranges k = Some l /\
      (~ plain_ranges l \/ beyond_bitmap inf bytes off l).
Proof. exact @direct_dies. Qed.
Print Assumptions C98_direct.

(* With the model of the info cache (in any state reached by earlier calls) and of the description of messages: requests
   whose ranges are within the points of the messages they are located at never lead to undefined behaviour, whatever
   else the files contain. *)
Theorem C98_system :
  forall (F : Type) (o : outside F) (g : ModelCache.config) (P : string -> Prop),
    sound_outside o g P -> defined_outside o P ->
    forall state : string -> list Z -> @cache F, (forall p offs, reachable o g P (state p offs)) ->
    forall (cfg : config) (reqs : list request), unique_listings (world_of o g P state) cfg ->
    (forall u listing r e, o_list o u = Ok listing -> located cfg reqs listing r e ->
       is_remote (l_uri e) = false /\ within_bitmap o e (r_ranges r)) ->
    extract_requests (world_of o g P state) cfg reqs <> UB.
Proof. exact @system_requests_defined. Qed.
Print Assumptions C98_system.

(* the same for requests by file and offset *)
Theorem C98_system_paths :
  forall (F : Type) (n : node F), sound_node n -> defined_outside (n_outside n) (n_paths n) ->
    forall (cfg : config) (reqs : list path_request), reqs <> [] ->
    Forall (fun r => n_paths n (p_path r) /\ p_scheme r <> "fdb"%string /\ plain_ranges (p_ranges r) /\
              ((p_offset r < two63)%N -> within_points (n_outside n) (p_path r) (Z.of_N (p_offset r)) (p_ranges r))) reqs ->
    extract_path_requests (node_world n) cfg reqs <> UB.
Proof. exact @node_paths_defined. Qed.
Print Assumptions C98_system_paths.

(* ... and by one file and a list of offsets, of any lengths *)
Theorem C98_system_direct :
  forall (F : Type) (n : node F), sound_node n -> defined_outside (n_outside n) (n_paths n) ->
    forall (path : string) (offs : list Z) (ranges : list (list (N * N))),
    Forall (fun q => within_points (n_outside n) path (fst q) (snd q)) (combine offs ranges) ->
    node_direct n path offs ranges <> UB.
Proof. exact @node_direct_defined. Qed.
Print Assumptions C98_system_direct.

(* the assumptions hold of the file with two messages; the second has a bitmap of four points *)
Example C98_example_sound : sound_outside one_file one_cache one_path /\ defined_outside one_file one_path.
Proof. exact (conj ProofsSystem.one_file_sound one_file_defined). Qed.
Example C98_example :
  extract_requests (world_of one_file one_cache one_path one_state) one_cfg
    [mk_request "step=6,param=u" [(0, 2); (3, 4)]%N "g2"; mk_request "param=t,step=0" [(1, 700)]%N "g1"] = Throw ESeriousBug /\
  extract_requests (world_of one_file one_cache one_path one_state) one_cfg
    [mk_request "step=6,param=u" [(0, 2); (3, 5)]%N "g2"] = UB.
Proof. vm_compute. auto. Qed.
(* the edge of the bitmap of the second message, by file and offset *)
Example C98_paths_example :
  let n := node_at "/fdb/x.data" in
  extract_path_requests (node_world n) one_cfg [mk_path_request "/fdb/x.data" "file" "" 0 12 [(0, 2); (3, 4)]%N "g2"] <> UB /\
  extract_path_requests (node_world n) one_cfg [mk_path_request "/fdb/x.data" "file" "" 0 12 [(0, 2); (3, 5)]%N "g2"] = UB /\
  node_direct n "/fdb/x.data" [4; 12]%Z [[(0, 900)]; [(3, 4)]]%N <> UB /\
  node_direct n "/fdb/x.data" [4; 12]%Z [[(0, 1)]; [(3, 5)]]%N = UB.
Proof. vm_compute. repeat split; try reflexivity; discriminate. Qed.
