(* Properties C63-C68: from the octets of a file to the description of a message and to the values. *)
From Coq Require Import QArith.
From Verif Require Import Base ModelRange ModelInfo ModelSimple ModelCcsds ModelJumper ModelLRU ModelCache ModelBuild ModelEngine
     ModelFloat SpecSimple SpecCcsds SpecJumper SpecScan SpecBuild SpecEngine SpecSystem ProofsBuild ProofsBuild2 ProofsBuild3 ProofsSystem.
Open Scope nat_scope.

(* C63.  A description is made of answers of eccodes about the message read at that place, each stored under
   its own name, and its class is that of the packing. *)
Theorem C63_description_is_what_eccodes_says :
  forall (F : Type) (aec_full : aec_full_oracle) (fresh : Z -> list N)
         (grib_at : list N -> Z -> outcome (option (codes F))) (bytes : list N) (off : Z) (i : info F),
    build aec_full fresh grib_at bytes off = Ok i ->
    (0 <= off)%Z /\ exists k, grib_at bytes off = Ok (Some k) /\ told_by k i.
Proof. exact @build_told. Qed.
Print Assumptions C63_description_is_what_eccodes_says.

(* A message m of edition 1 or 2 has a description: its own header fields. *)
Theorem C63_simple_packing_described :
  forall (F : Type) (aec_full : aec_full_oracle) (fresh : Z -> list N)
         (grib_at : list N -> Z -> outcome (option (codes F))) (bytes : list N) (off : Z) (k : codes F) (m : grib F),
    grib_at bytes off = Ok (Some k) -> reports m k -> wf_grib m -> (0 <= off)%Z ->
    m_packing m = "grid_simple"%string -> build aec_full fresh grib_at bytes off = Ok (info_of m SimpleInfo).
Proof. exact @build_simple. Qed.
Print Assumptions C63_simple_packing_described.

Theorem C63_ccsds_packing_described :
  forall (F : Type) (aec_full : aec_full_oracle) (fresh : Z -> list N)
         (grib_at : list N -> Z -> outcome (option (codes F)))
         (bytes : list N) (off : Z) (k : codes F) (m : grib F),
    grib_at bytes off = Ok (Some k) -> reports m k -> wf_grib m -> (0 <= off)%Z ->
    forall (S offsets : list N) (native : N),
    m_packing m = "grid_ccsds"%string -> (0 < m_bits m <= 32)%Z -> (m_before m < m_after m)%Z ->
    (off + m_after m <= Z.of_nat (length bytes))%Z ->
    (m_after m - m_before m < 1152921504606846976)%Z -> (m_values m < 144115188075855872)%Z ->
    (forall n, length (fresh n) = Z.to_nat n) ->
    native_flags (Z.to_N (m_flags m)) native ->
    aec_full (mk_aec native (Z.to_N (m_bits m)) (Z.to_N (m_block m)) (Z.to_N (m_rsi m))) (m_data m bytes off)
             (Z.to_N (m_values m)) = Some (S, offsets) ->
    build aec_full fresh grib_at bytes off =
      Ok (info_of m (CcsdsInfo (Z.to_N (m_flags m)) (Z.to_N (m_block m)) (Z.to_N (m_rsi m)) offsets)).
Proof. exact @build_ccsds_ok. Qed.
Print Assumptions C63_ccsds_packing_described.

Theorem C63_empty_ccsds_described :
  forall (F : Type) (aec_full : aec_full_oracle) (fresh : Z -> list N)
         (grib_at : list N -> Z -> outcome (option (codes F)))
         (bytes : list N) (off : Z) (k : codes F) (m : grib F),
    grib_at bytes off = Ok (Some k) -> reports m k -> wf_grib m -> (0 <= off)%Z ->
    m_packing m = "grid_ccsds"%string -> m_bits m = 0%Z \/ m_after m = m_before m ->
    build aec_full fresh grib_at bytes off =
      Ok (info_of m (CcsdsInfo (Z.to_N (m_flags m)) (Z.to_N (m_block m)) (Z.to_N (m_rsi m)) [])).
Proof. exact @build_ccsds_empty. Qed.
Print Assumptions C63_empty_ccsds_described.

(* any other packing is described, and extraction refused *)
Theorem C63_other_packings_described :
  forall (F : Type) (aec_full : aec_full_oracle) (fresh : Z -> list N)
         (grib_at : list N -> Z -> outcome (option (codes F)))
         (bytes : list N) (off : Z) (k : codes F) (m : grib F),
    grib_at bytes off = Ok (Some k) -> reports m k -> wf_grib m -> (0 <= off)%Z ->
    m_packing m <> "grid_simple"%string -> m_packing m <> "grid_ccsds"%string ->
    build aec_full fresh grib_at bytes off = Ok (info_of m UnsupportedInfo).
Proof. exact @build_unsupported. Qed.
Print Assumptions C63_other_packings_described.

Theorem C63_other_packings_refused :
  forall (F : Type) (aec_full : aec_full_oracle) (fresh : Z -> list N)
         (grib_at : list N -> Z -> outcome (option (codes F)))
         (A : farith F) (libaec : aec_oracle) (bytes : list N) (off : Z) (i : info F) (l : list (N * N)),
    build aec_full fresh grib_at bytes off = Ok i ->
    i_packing i <> "grid_simple"%string -> i_packing i <> "grid_ccsds"%string ->
    i_class i = UnsupportedInfo /\ extract A libaec bytes off i l = Throw ESeriousBug.
Proof. exact @unsupported_refused. Qed.
Print Assumptions C63_other_packings_refused.

(* making a description has no undefined behaviour of its own *)
Theorem C63_defined :
  forall (F : Type) (aec_full : aec_full_oracle) (fresh : Z -> list N)
         (grib_at : list N -> Z -> outcome (option (codes F))),
    defined_eccodes grib_at ->
    forall (bytes : list N) (off : Z), build aec_full fresh grib_at bytes off <> UB.
Proof. exact @build_defined. Qed.
Print Assumptions C63_defined.

Example C63_example :
  build raw_full zeros ex_eccodes gribs 4
    = Ok (mk_info Q 1 (1 # 2) 1 0 2 8 2 7 0 5 5 8 0 "g1" "grid_ccsds" (CcsdsInfo 14 2 1 [0; 16; 32]%N)) /\
  build raw_full zeros ex_eccodes gribs 12
    = Ok (mk_info Q 1 (3 # 1) (-1) 1 1 4 9 11 8 3 4 12 0 "g2" "grid_simple" SimpleInfo) /\
  build raw_full zeros ex_eccodes gribs 0 = Throw EAssert.
Proof. vm_compute. auto. Qed.

(* C64.  The interval table of a CCSDS description is the one libaec returns for the message's own data
   section, decoded with the message's parameters and the native sample format; it is empty exactly when the
   field is constant or has no data.  The data section has to be in the file. *)
Theorem C64_interval_table_partial :
  forall (F : Type) (aec_full : aec_full_oracle) (fresh : Z -> list N)
         (grib_at : list N -> Z -> outcome (option (codes F))),
    (forall n, length (fresh n) = Z.to_nat n) ->
    forall (bytes : list N) (off : Z) (i : info F) (f b r : N) (offs : list N),
    build aec_full fresh grib_at bytes off = Ok i -> i_class i = CcsdsInfo f b r offs ->
    if ((i_bits_per_value i =? 0)%N || (i_offset_after_data i =? i_offset_before_data i)%Z)%bool then offs = []
    else (i_offset_before_data i < i_offset_after_data i)%Z /\
         ((off + i_offset_after_data i <= Z.of_nat (length bytes))%Z ->
          exists native S, native_flags f native /\
            aec_full (mk_aec native (i_bits_per_value i) b r) (data_bytes bytes off i) (i_number_of_values i)
            = Some (S, offs)).
Proof. exact @build_intervals. Qed.
Print Assumptions C64_interval_table_partial.

(* Missing above: a file that ends inside the data section.  The short read goes unnoticed, libaec is given
   what the new buffer contained, and the same message of the same file gets different tables. *)
Theorem C64_refuted :
  exists i i',
    build sum_full zeros ex_eccodes gribs 24 = Ok i /\ build sum_full ones ex_eccodes gribs 24 = Ok i' /\
    i_class i = CcsdsInfo 14 2 1 [0; 17]%N /\ i_class i' = CcsdsInfo 14 2 1 [0; 19]%N.
Proof. exact stale_intervals. Qed.
Print Assumptions C64_refuted.

Example C64_example :
  omap i_class (build raw_full zeros ex_eccodes gribs 4) = Ok (CcsdsInfo 14 2 1 [0; 16; 32]%N) /\
  raw_full (mk_aec 8 8 2 1) [40; 50; 60; 70; 80]%N 5%N = Some ([40; 50; 60; 70; 80], [0; 16; 32])%N /\
  raw_full (mk_aec 14 8 2 1) [40; 50; 60; 70; 80]%N 5%N = None.
Proof. vm_compute. auto. Qed.

(* C65.  The description made from a message in memory is the one made from a file containing only it. *)
Theorem C65_other_messages_partial :
  forall (F : Type) (aec_full : aec_full_oracle) (fresh : Z -> list N)
         (grib_at : list N -> Z -> outcome (option (codes F)))
         (bytes : list N) (k : codes F) (m : grib F),
    reports m k -> wf_grib m -> m_packing m <> "grid_ccsds"%string -> grib_at bytes 0%Z = Ok (Some k) ->
    build_of_message aec_full fresh bytes k = build aec_full fresh grib_at bytes 0.
Proof. exact @message_other. Qed.
Print Assumptions C65_other_messages_partial.

Theorem C65_ccsds_messages_partial :
  forall (F : Type) (aec_full : aec_full_oracle) (fresh : Z -> list N)
         (grib_at : list N -> Z -> outcome (option (codes F))),
    (forall n, length (fresh n) = Z.to_nat n) ->
    forall (libaec : aec_oracle) (bytes : list N) (k : codes F) (m : grib F) (S : list N),
    libaec_consistent aec_full libaec ->
    reports m k -> supported m bytes 0 -> m_samples m bytes 0 aec_full S ->
    m_packing m = "grid_ccsds"%string -> m_bits m <> 0%Z -> grib_at bytes 0%Z = Ok (Some k) ->
    build_of_message aec_full fresh bytes k = build aec_full fresh grib_at bytes 0.
Proof. exact @message_ccsds. Qed.
Print Assumptions C65_ccsds_messages_partial.

(* Missing above: constant CCSDS fields.  The constructor from a message lacks the test for zero bits per
   value that the other one has, and throws. *)
Theorem C65_refuted :
  let bytes := repeat 0%N 8 in
  build_of_message raw_full zeros bytes (codes_of ex_constant) = Throw ESeriousBug /\
  build raw_full zeros (fun _ _ => Ok (Some (codes_of ex_constant))) bytes 0
    = Ok (info_of ex_constant (CcsdsInfo 14 2 1 [])).
Proof. exact constant_message. Qed.
Print Assumptions C65_refuted.

Example C65_example :
  build_of_message raw_full zeros (slice gribs 4 8) (codes_of ex_ccsds) = build raw_full zeros ex_eccodes gribs 4.
Proof. vm_compute. reflexivity. Qed.

(* C66.  Describing a supported message and extracting with that description succeeds for every good request
   and returns, point by point, the value the code gives to the packed integer of that point (in the order of
   the present points), the missing value where the bitmap has none, and masks saying which is which. *)
Theorem C66_describe_then_extract :
  forall (F : Type) (A : farith F) (libaec : aec_oracle) (aec_full : aec_full_oracle) (fresh : Z -> list N)
         (grib_at : list N -> Z -> outcome (option (codes F))),
    libaec_consistent aec_full libaec -> (forall n, length (fresh n) = Z.to_nat n) ->
    forall (bytes : list N) (off : Z) (m : grib F) (S : list N) (l : list (N * N)),
    message_at aec_full grib_at bytes off m S -> good_request (Z.to_N (m_points m)) l ->
    exists inf x, build aec_full fresh grib_at bytes off = Ok inf /\ extract A libaec bytes off inf l = Ok x /\
                  stored_result m bytes off S A l x.
Proof. exact @stored_values. Qed.
Print Assumptions C66_describe_then_extract.

(* With exact arithmetic these are the values of the GRIB formula, for decimal scale factor 0 and for
   simple packing with at least one bit per value. *)
Theorem C66_values_of_the_formula_partial :
  forall (libaec : aec_oracle) (full : aec_full_oracle) (fresh : Z -> list N)
         (grib_at : list N -> Z -> outcome (option (codes Q))),
    libaec_consistent full libaec -> (forall n, length (fresh n) = Z.to_nat n) ->
    forall (bytes : list N) (off : Z) (m : grib Q) (S : list N) (l : list (N * N)),
    message_at full grib_at bytes off m S -> formula_holds m -> good_request (Z.to_N (m_points m)) l ->
    exists inf x, build full fresh grib_at bytes off = Ok inf /\ extract q_arith libaec bytes off inf l = Ok x /\
                  exact_result m bytes off S l x.
Proof. exact exact_values. Qed.
Print Assumptions C66_values_of_the_formula_partial.

(* Missing above: CCSDS with a decimal scale factor (C05_refuted), and constant fields with one: the value
   returned is R, the formula gives R * 10^-D. *)
Theorem C66_refuted :
  forall m : grib Q, m_bits m = 0%Z -> m_decimal m <> 0%Z -> ~ (m_reference m == 0)%Q ->
    ~ (code_value m q_arith 0 == grib_value (m_reference m) (m_binary m) (m_decimal m) 0)%Q.
Proof. exact constant_ignores_decimal. Qed.
Print Assumptions C66_refuted.

Example C66_example_messages :
  message_at raw_full ex_eccodes gribs 4 ex_ccsds [40; 50; 60; 70; 80]%N /\
  message_at raw_full ex_eccodes gribs 12 ex_simple [1; 9; 3]%N.
Proof. exact (conj ex_ccsds_at ex_simple_at). Qed.
Example C66_example :
  (let* i := build raw_full zeros ex_eccodes gribs 4 in extract q_arith raw_libaec gribs 4 i [(0, 1); (2, 5)]%N)
    = Ok ([[161 # 2]; [241 # 2; 281 # 2; 321 # 2]]%Q, [[1]; [7]]%N) /\
  (let* i := build raw_full zeros ex_eccodes gribs 12 in extract q_arith raw_libaec gribs 12 i [(0, 4)]%N)
    = Ok ([[7 # 20; 0; 15 # 20; 9 # 20]]%Q, [[13]%N]).
Proof. vm_compute. auto. Qed.

(* C67.  The whole way from a batch of requests to the values: catalogue, grouping, cache lookups in any
   state reached by earlier calls, descriptions, extraction.  If a call succeeds, result j belongs to request
   j and holds the values of the message the catalogue names; other positions are empty and only if missing
   fields are allowed. *)
Theorem C67_results_are_the_stored_values :
  forall (F : Type) (o : outside F) (g : ModelCache.config) (P : string -> Prop),
    sound_outside o g P ->
    forall state : string -> list Z -> @cache F, (forall p offs, reachable o g P (state p offs)) ->
    forall (cfg : config) (reqs : list request) (res : list (result F)),
    unique_listings (world_of o g P state) cfg -> c_forward cfg = false -> c_inefficient cfg = false ->
    extract_requests (world_of o g P state) cfg reqs = Ok res ->
    exists u listing, o_list o u = Ok listing /\ right_results o P cfg reqs listing res.
Proof. exact @system_values. Qed.
Print Assumptions C67_results_are_the_stored_values.

(* And the call does succeed when the located requests can be served. *)
Theorem C67_call_succeeds :
  forall (F : Type) (o : outside F) (g : ModelCache.config) (P : string -> Prop),
    sound_outside o g P ->
    forall state : string -> list Z -> @cache F, (forall p offs, reachable o g P (state p offs)) ->
    forall (cfg : config) (reqs : list request) (listing : list listed),
    g_lazy g = true -> c_forward cfg = false -> c_inefficient cfg = false ->
    NoDup (map r_string (canon_requests (c_ignore_ym cfg) false reqs)) ->
    (forall u, o_list o u = Ok listing) -> duplicate_free (c_ignore_ym cfg) listing ->
    own_places cfg reqs listing ->
    (forall r e, located cfg reqs listing r e -> fine_request o P cfg r e) ->
    (c_allow_missing cfg = true \/
     forall r, In r (canon_requests (c_ignore_ym cfg) false reqs) -> exists e, located cfg reqs listing r e) ->
    (exists r e, located cfg reqs listing r e) ->
    exists res, extract_requests (world_of o g P state) cfg reqs = Ok res /\ right_results o P cfg reqs listing res.
Proof. exact @system_complete. Qed.
Print Assumptions C67_call_succeeds.

(* the assumptions hold of a file with two messages and an empty cache; one request is for a field that is not there *)
Example C67_example_sound :
  sound_outside one_file one_cache one_path /\ forall p offs, reachable one_file one_cache one_path (one_state p offs).
Proof. exact (conj one_file_sound one_state_reachable). Qed.
Example C67_example :
  extract_requests (world_of one_file one_cache one_path one_state) one_cfg one_requests
  = Ok [ ([[7 # 20; 0]; [9 # 20]]%Q, [[1]; [1]]%N);
         ([], []);
         ([[201 # 2; 241 # 2; 281 # 2]]%Q, [[7]%N]) ].
Proof. vm_compute. reflexivity. Qed.

(* C68.  The description made from the octets of the message alone, when it is archived, is the one made
   from the file at the message's place, when the file is scanned or a lookup needs it. *)
Theorem C68_archived_is_scanned :
  forall (F : Type) (aec_full : aec_full_oracle) (fresh : Z -> list N)
         (grib_at : list N -> Z -> outcome (option (codes F))),
    (forall n, length (fresh n) = Z.to_nat n) ->
    forall (file : list N) (off : Z) (msg : list N) (k k' : codes F) (m : grib F),
    grib_at file off = Ok (Some k) -> grib_at msg 0%Z = Ok (Some k') -> reports m k -> reports m k' -> wf_grib m ->
    (0 <= off)%Z -> msg = slice file (Z.to_nat off) (length msg) -> (m_after m <= Z.of_nat (length msg))%Z ->
    build aec_full fresh grib_at file off = build aec_full fresh grib_at msg 0.
Proof. exact @same_description. Qed.
Print Assumptions C68_archived_is_scanned.

(* scanning a file: every offset found, in order, with the description of the message there; nothing else *)
Theorem C68_scan_is_faithful :
  forall (F : Type) (aec_full : aec_full_oracle) (fresh : Z -> list N)
         (grib_at : list N -> Z -> outcome (option (codes F)))
         (files : string -> option (list N)) (codes_offsets : string -> option (list Z)) (scan_corrupted : bool)
         (buffer_size : nat) (path : string) (l : list (Z * info F)),
    extract_all aec_full fresh grib_at files codes_offsets scan_corrupted buffer_size path = Ok l ->
    extract_offsets files codes_offsets scan_corrupted buffer_size path = Ok (map fst l) /\
    Forall (fun e => exists bytes, files path = Some bytes /\ build aec_full fresh grib_at bytes (fst e) = Ok (snd e)) l.
Proof. exact @extract_all_describes. Qed.
Print Assumptions C68_scan_is_faithful.

Theorem C68_scan_succeeds :
  forall (F : Type) (aec_full : aec_full_oracle) (fresh : Z -> list N)
         (grib_at : list N -> Z -> outcome (option (codes F)))
         (files : string -> option (list N)) (codes_offsets : string -> option (list Z)) (scan_corrupted : bool)
         (buffer_size : nat) (path : string) (bytes : list N) (offs : list Z) (d : Z -> info F),
    extract_offsets files codes_offsets scan_corrupted buffer_size path = Ok offs -> files path = Some bytes ->
    (forall o, In o offs -> build aec_full fresh grib_at bytes o = Ok (d o)) ->
    extract_all aec_full fresh grib_at files codes_offsets scan_corrupted buffer_size path
    = Ok (map (fun o => (o, d o)) offs).
Proof. exact @extract_all_total. Qed.
Print Assumptions C68_scan_succeeds.

(* Which offsets a scan finds: those eccodes lists; if eccodes cannot read the file and the scan of corrupted
   files is on, every complete message start of the file (C16), in order; otherwise the scan fails. *)
Theorem C68_scan_finds :
  forall (files : string -> option (list N)) (codes_offsets : string -> option (list Z)) (scan_corrupted : bool)
         (buffer_size : nat) (path : string),
    (forall offs, codes_offsets path = Some offs ->
       extract_offsets files codes_offsets scan_corrupted buffer_size path = Ok offs) /\
    (codes_offsets path = None -> scan_corrupted = false ->
       extract_offsets files codes_offsets scan_corrupted buffer_size path = Throw EAssert) /\
    (forall bytes, codes_offsets path = None -> scan_corrupted = true -> files path = Some bytes ->
       3 <= buffer_size -> (lenN bytes < two63)%N ->
       exists l, extract_offsets files codes_offsets scan_corrupted buffer_size path = Ok (map Z.of_nat l) /\
                 lists_exactly (complete_start bytes) l).
Proof. exact offsets_found. Qed.
Print Assumptions C68_scan_finds.

Example C68_scan_finds_example :
  extract_offsets (fun _ => Some [0; 71; 82; 73; 66; 0; 71; 82; 73; 66; 1; 71; 82; 73; 66]%N) (fun _ => None) true 8 "/fdb/x.data"
  = Ok [1; 6]%Z.
Proof. vm_compute. reflexivity. Qed.

Example C68_example :
  omap (map (fun e => (fst e, i_packing (snd e))))
    (extract_all raw_full zeros ex_eccodes (o_files one_file) (o_codes_offsets one_file) false 8 "/fdb/x.data")
  = Ok [(4, "grid_ccsds"); (12, "grid_simple")]%Z%string.
Proof. vm_compute. reflexivity. Qed.
