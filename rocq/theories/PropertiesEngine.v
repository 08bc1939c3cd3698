(* Properties C36-C45: from a batch of requests to the list of results. *)
From Coq Require Import Permutation Sorted.
From Verif Require Import Base ModelRange ModelInfo ModelSimple ModelJumper ModelStrings ModelEngine SpecEngine
  ProofsEngine ProofsEngine2 ProofsEngine3 ProofsEngine4.

(* C36.  One result per request, whatever the catalogue, the tasks and the forwarder did. *)
Theorem C36_one_result_per_request :
  forall (F : Type) (w : world F) (cfg : config) (reqs : list request) (res : list (result F)),
    extract_requests w cfg reqs = Ok res -> length res = length reqs.
Proof. exact (fun F w => local_extract_length (w_arith w) (w_aec w) (w_cache_get w) (w_files w) (w_sorter w)
                (w_build_info w) (w_pieces w) (w_fresh w) (w_forward w) (w_list w)). Qed.
Print Assumptions C36_one_result_per_request.

Theorem C36_one_result_per_path_request :
  forall (F : Type) (w : world F) (cfg : config) (reqs : list path_request) (res : list (result F)),
    extract_path_requests w cfg reqs = Ok res -> length res = length reqs.
Proof. exact (fun F w => local_paths_length (w_arith w) (w_aec w) (w_cache_get w) (w_files w) (w_sorter w)
                (w_build_info w) (w_pieces w) (w_fresh w) (w_forward w)). Qed.
Print Assumptions C36_one_result_per_path_request.

(* ... and the result at a position is the one read from the place where the catalogue lists the request at
   that position, with that request's own ranges; the others are the missing ones, where allowed.  Whatever
   the assignment to files, the sort order, and the number of tasks. *)
Theorem C36_in_request_order :
  forall (F : Type) (w : world F) (cfg : config) (reqs : list request) (res : list (result F)),
    sound_world w -> unique_listings w cfg -> c_forward cfg = false ->
    extract_requests w cfg reqs = Ok res ->
    exists u listing, w_list w u = Ok listing /\
      Forall2 (fun r x => match entry_of (c_ignore_ym cfg) listing (r_string r) with
                          | Some e => answers w cfg (l_uri e) r x
                          | None => c_allow_missing cfg = true /\ x = ([], [])
                          end)
              (canon_requests (c_ignore_ym cfg) false reqs) res.
Proof. exact (fun F w cfg reqs res S U Hf => local_extract_answers (w_arith w) (w_aec w) (w_cache_get w)
                (w_files w) (w_sorter w) (w_build_info w) (w_pieces w) (w_fresh w) (w_forward w) (w_list w)
                (w_true_info w) (proj1 S) (proj2 S) cfg reqs res Hf U). Qed.
Print Assumptions C36_in_request_order.

(* the rewritten requests carry the ranges and hashes of the caller's, position by position *)
Theorem C36_same_ranges :
  forall (ignore_ym drop : bool) (reqs : list request),
    map r_ranges (canon_requests ignore_ym drop reqs) = map r_ranges reqs /\
    map r_hash (canon_requests ignore_ym drop reqs) = map r_hash reqs.
Proof. exact (fun i d l => canon_requests_ranges i l d). Qed.
Print Assumptions C36_same_ranges.

Theorem C36_paths_in_request_order :
  forall (F : Type) (w : world F) (cfg : config) (r0 : path_request) (rest : list path_request)
         (res : list (result F)),
    sound_world w -> p_host r0 = ""%string -> p_port r0 = 0%Z ->
    extract_path_requests w cfg (r0 :: rest) = Ok res ->
    NoDup (map p_string (r0 :: rest)) /\
    Forall2 (fun r x => answers w cfg (p_uri r) (p_request r) x) (r0 :: rest) res.
Proof. exact (fun F w cfg r0 rest res S => local_paths_answers (w_arith w) (w_aec w) (w_cache_get w)
                (w_files w) (w_sorter w) (w_build_info w) (w_pieces w) (w_fresh w) (w_forward w) (w_list w)
                (w_true_info w) cfg r0 rest res (proj1 S) (proj2 S)). Qed.
Print Assumptions C36_paths_in_request_order.

(* three requests over two files, listed and sorted in other orders *)
Example C36_example :
  extract_requests demo demo_cfg
    [ask "step=9,param=t" 2; ask "retrieve,param=t,step=6" 1; ask "step=0,param=t" 3]
  = Ok [([[300; 300]%Z], [[3]%N]); ([[100]%Z], [[1]%N]); ([[700; 700; 700]%Z], [[7]%N])].
Proof. vm_compute. reflexivity. Qed.
Example C36_example_paths :
  extract_path_requests demo demo_cfg
    [mk_path_request "/b" "file" "" 0 9 [(0, 1)]%N "g"; mk_path_request "/a" "file" "" 0 5 [(0, 2)]%N "g";
     mk_path_request "/b" "file" "" 0 4 [(0, 3)]%N "g"]
  = Ok [([[9]%Z], [[1]%N]); ([[5; 5]%Z], [[3]%N]); ([[4; 4; 4]%Z], [[7]%N])].
Proof. vm_compute. reflexivity. Qed.

(* C37.  Two strings with the same comma-separated tokens, in any order, have the same canonical form. *)
Theorem C37_order_does_not_matter :
  forall (ignore_ym : bool) (s s' : string),
    Permutation (split ","%char s) (split ","%char s') -> single ignore_ym s = single ignore_ym s'.
Proof. exact single_perm. Qed.
Print Assumptions C37_order_does_not_matter.

Theorem C37_pair_order_does_not_matter :
  forall (ignore_ym : bool) (l l' : list (string * string)),
    Permutation l l' ->
    (forall k v, In (k, v) l -> has_char ","%char k = false /\ has_char ","%char v = false) ->
    single ignore_ym (request_string l) = single ignore_ym (request_string l').
Proof. exact single_pairs_perm. Qed.
Print Assumptions C37_pair_order_does_not_matter.

(* Idempotent unless a token is repeated. *)
Theorem C37_idempotent_partial :
  forall (ignore_ym : bool) (s : string),
    NoDup (split ","%char s) -> single ignore_ym (single ignore_ym s) = single ignore_ym s.
Proof. exact single_idem. Qed.
Print Assumptions C37_idempotent_partial.

(* Missing above: repeated tokens.  Equal last tokens are glued together without a comma (Engine.cc:74), and
   canonicalising once more drops the result. *)
Theorem C37_refuted :
  exists s : string, single false (single false s) <> single false s.
Proof. exact idempotence_fails. Qed.
Print Assumptions C37_refuted.

Example C37_example :
  single false "retrieve,step=0,class=od,param=t" = "class=od,param=t,step=0"%string /\
  single false "a=1,b=2,b=2" = "a=1,b=2b=2"%string /\ single false "a=1,b=2b=2" = "a=1"%string.
Proof. vm_compute. auto. Qed.

(* C38.  The canonical form used in a batch is that of the request alone, as long as year and month play no
   role: the option is off, or no request mentions year, month and date, or all those with a year or month do. *)
Theorem C38_partial :
  forall (F : Type) (ignore_ym : bool) (reqs : list request) (cs : list string),
    (ignore_ym = true -> (exists r, In r reqs /\ triggers (r_string r) = true) ->
     forall r, In r reqs -> triggers (r_string r) = true \/ no_year_month (r_string r)) ->
    batch_canonical (F := F) ignore_ym reqs = Ok cs ->
    cs = map (fun r => single ignore_ym (r_string r)) reqs.
Proof. exact batch_independent. Qed.
Print Assumptions C38_partial.

(* Missing above: after a request with a date, year and month are dropped from all later requests, so the
   meaning of a request depends on the order of the batch. *)
Theorem C38_refuted :
  exists r1 r2 : request,
    batch_canonical (F := Z) true [r1; r2] = Ok ["date=20200101,param=t"; "param=t"]%string /\
    batch_canonical (F := Z) true [r2; r1] =
      Ok ["month=1,param=t,year=2020"; "date=20200101,param=t"]%string.
Proof. exact (ex_intro _ (ask "date=20200101,year=2020,month=1,param=t" 1)
        (ex_intro _ (ask "year=2020,month=1,param=t" 1) (conj eq_refl eq_refl))). Qed.
Print Assumptions C38_refuted.

Example C38_example :
  batch_canonical (F := Z) false
    [ask "date=20200101,year=2020,month=1,param=t" 1; ask "year=2020,month=1,param=t" 1]
  = Ok ["date=20200101,month=1,param=t,year=2020"; "month=1,param=t,year=2020"]%string.
Proof. reflexivity. Qed.

(* C39.  Two requests of a batch with the same canonical form: the call fails. *)
Theorem C39_duplicates_refused :
  forall (F : Type) (w : world F) (cfg : config) (reqs : list request),
    ~ NoDup (map r_string (canon_requests (c_ignore_ym cfg) false reqs)) ->
    extract_requests w cfg reqs = Throw ESeriousBug.
Proof. exact (fun F w => local_duplicates (w_arith w) (w_aec w) (w_cache_get w) (w_files w) (w_sorter w)
                (w_build_info w) (w_pieces w) (w_fresh w) (w_forward w) (w_list w)). Qed.
Print Assumptions C39_duplicates_refused.

(* In particular requests with the same pairs in any order, at any two positions, where C38 holds. *)
Theorem C39_partial :
  forall (ignore_ym : bool) (reqs : list request) (i j : nat) (ri rj : request),
    (ignore_ym = true -> (exists r, In r reqs /\ triggers (r_string r) = true) ->
     forall r, In r reqs -> triggers (r_string r) = true \/ no_year_month (r_string r)) ->
    nth_error reqs i = Some ri -> nth_error reqs j = Some rj -> i <> j ->
    Permutation (split ","%char (r_string ri)) (split ","%char (r_string rj)) ->
    ~ NoDup (map r_string (canon_requests ignore_ym false reqs)).
Proof. exact (same_tokens_clash (F := Z)). Qed.
Print Assumptions C39_partial.

(* Missing above: with the year/month rule, the very same request is accepted twice when a request with a
   date stands between the two. *)
Theorem C39_refuted :
  exists r r' : request,
    batch_canonical (F := Z) true [r; r'; r] =
      Ok ["month=1,param=t,year=2020"; "date=20200101,param=t"; "param=t"]%string.
Proof. exact (ex_intro _ (ask "year=2020,month=1,param=t" 1)
        (ex_intro _ (ask "date=20200101,year=2020,month=1,param=t" 1) eq_refl)). Qed.
Print Assumptions C39_refuted.

(* Path requests: success means that all were different (a forwarder answers items, it does not add any). *)
Theorem C39_path_duplicates_refused :
  forall (F : Type) (w : world F) (cfg : config) (reqs : list path_request) (res : list (result F)),
    (forall fm its es its', w_forward w fm its = Ok (es, its') ->
       map fst its' = map fst its /\
       forall k i', sfind k its' = Some i' -> exists i, sfind k its = Some i /\ it_request i' = it_request i) ->
    extract_path_requests w cfg reqs = Ok res -> NoDup (map p_string reqs).
Proof. exact (fun F w => paths_duplicates (w_arith w) (w_aec w) (w_cache_get w) (w_files w) (w_sorter w)
                (w_build_info w) (w_pieces w) (w_fresh w) (w_forward w)). Qed.
Print Assumptions C39_path_duplicates_refused.

Example C39_example :
  extract_requests demo demo_cfg [ask "step=9,param=t" 2; ask "step=0,param=t" 1; ask "param=t,step=9" 1]
  = Throw ESeriousBug /\
  extract_path_requests demo demo_cfg
    [mk_path_request "/b" "file" "" 0 9 [(0, 1)]%N "g"; mk_path_request "/b" "file" "" 0 9 [(0, 2)]%N "g"]
  = Throw EAssert.
Proof. vm_compute. auto. Qed.

(* C40.  Without missing fields allowed, a request that is not listed makes the call fail with data-not-found;
   by C36_in_request_order a call that succeeds has located every request. *)
Theorem C40_missing_is_detected :
  forall (F : Type) (w : world F) (cfg : config) (reqs : list request) (listing : list listed),
    c_allow_missing cfg = false ->
    NoDup (map r_string (canon_requests (c_ignore_ym cfg) false reqs)) ->
    (forall u, w_list w u = Ok listing) -> duplicate_free (c_ignore_ym cfg) listing ->
    (exists r, In r (canon_requests (c_ignore_ym cfg) false reqs) /\
               entry_of (c_ignore_ym cfg) listing (r_string r) = None) ->
    extract_requests w cfg reqs = Throw EDataNotFound.
Proof. exact (fun F w => missing_is_detected (w_arith w) (w_aec w) (w_cache_get w) (w_files w) (w_sorter w)
                (w_build_info w) (w_pieces w) (w_fresh w) (w_forward w) (w_list w)). Qed.
Print Assumptions C40_missing_is_detected.

(* The call succeeds if the located requests can be served and there is one, and the others are allowed to be
   missing; C36_in_request_order then gives each result.  The info cache has to answer for located messages
   only.  Missing: the case where none is located. *)
Theorem C40_found_are_served_partial :
  forall (F : Type) (w : world F) (cfg : config) (reqs : list request) (listing : list listed)
         (inf : string -> Z -> info F),
    sorts (w_sorter w) -> c_forward cfg = false ->
    NoDup (map r_string (canon_requests (c_ignore_ym cfg) false reqs)) ->
    (forall u, w_list w u = Ok listing) -> duplicate_free (c_ignore_ym cfg) listing ->
    (c_allow_missing cfg = true \/
     forall r, In r (canon_requests (c_ignore_ym cfg) false reqs) -> exists e, located cfg reqs listing r e) ->
    own_places cfg reqs listing ->
    (forall p offs, offs <> [] -> NoDup offs ->
       (forall off, In off offs -> exists r e, located cfg reqs listing r e /\ u_path (l_uri e) = p /\
                                               u_offset (l_uri e) = Ok off) ->
       w_cache_get w p offs = Ok (map (inf p) offs)) ->
    (forall r e, located cfg reqs listing r e -> servable_from w cfg inf r e) ->
    (exists r e, located cfg reqs listing r e) ->
    exists res, extract_requests w cfg reqs = Ok res.
Proof. exact (fun F w => found_are_served (w_arith w) (w_aec w) (w_cache_get w) (w_files w) (w_sorter w)
                (w_build_info w) (w_pieces w) (w_fresh w) (w_forward w) (w_list w) (w_true_info w)). Qed.
Print Assumptions C40_found_are_served_partial.

(* If all requests are missing (allowed), there is no file, hence no task, and waiting for the empty task
   group trips an assertion instead of returning empty results. *)
Theorem C40_refuted :
  forall (F : Type) (w : world F) (cfg : config) (reqs : list request) (listing : list listed),
    c_forward cfg = false -> c_allow_missing cfg = true ->
    NoDup (map r_string (canon_requests (c_ignore_ym cfg) false reqs)) ->
    (forall u, w_list w u = Ok listing) -> duplicate_free (c_ignore_ym cfg) listing ->
    (forall r, In r (canon_requests (c_ignore_ym cfg) false reqs) ->
               entry_of (c_ignore_ym cfg) listing (r_string r) = None) ->
    extract_requests w cfg reqs = Throw EAssert.
Proof. exact (fun F w => all_missing_fails (w_arith w) (w_aec w) (w_cache_get w) (w_files w) (w_sorter w)
                (w_build_info w) (w_pieces w) (w_fresh w) (w_forward w) (w_list w)). Qed.
Print Assumptions C40_refuted.

Example C40_example :
  extract_requests demo demo_cfg [ask "step=9,param=t" 1; ask "step=1,param=t" 1] = Throw EDataNotFound /\
  extract_requests demo demo_missing_cfg [ask "step=1,param=t" 1; ask "step=9,param=t" 1]
    = Ok [([], []); ([[300]%Z], [[1]%N])] /\
  extract_requests demo demo_missing_cfg [ask "step=1,param=t" 1] = Throw EAssert.
Proof. vm_compute. auto. Qed.

(* C41.  The catalogue string of a field is the canonical form of the request with its pairs, if the
   characters of the keys come after '=' and year/month agree (see year_month_agree). *)
Theorem C41_partial :
  forall (ignore_ym : bool) (l : list (string * string)),
    wf_pairs l -> (forall k v, In (k, v) l -> after_equals k = true) ->
    (ignore_ym = true -> year_month_agree l) ->
    fdbkey_to_str ignore_ym l = single ignore_ym (request_string l).
Proof. exact catalogue_matches. Qed.
Print Assumptions C41_partial.

(* ... and then it identifies the field: other pairs have other strings. *)
Theorem C41_distinct :
  forall l l' : list (string * string),
    wf_pairs l -> wf_pairs l' ->
    (forall k v, In (k, v) l \/ In (k, v) l' -> after_equals k = true /\ v <> ""%string) ->
    single false (request_string l) = single false (request_string l') -> Permutation l l'.
Proof. exact request_string_inj_canonical. Qed.
Print Assumptions C41_distinct.

(* Missing above, in both directions: (1) a key that extends another one by a digit sorts before it with its
   value attached but after it by name; (2) "hdate" makes the request lose year and month, which the catalogue
   keeps; (3) a date with a year but no month loses the year in the catalogue only. *)
Theorem C41_refuted :
  fdbkey_to_str false [("level", "1"); ("level2", "2")]%string
    <> single false (request_string [("level", "1"); ("level2", "2")]%string) /\
  fdbkey_to_str true [("hdate", "20200101"); ("month", "1"); ("year", "2020")]%string
    <> single true (request_string [("hdate", "20200101"); ("month", "1"); ("year", "2020")]%string) /\
  fdbkey_to_str true [("date", "20200101"); ("year", "2020")]%string
    <> single true (request_string [("date", "20200101"); ("year", "2020")]%string).
Proof. exact catalogue_differs. Qed.
Print Assumptions C41_refuted.

Example C41_example :
  fdbkey_to_str true [("step", "0"); ("date", "20200101"); ("levelist", ""); ("year", "2020"); ("month", "1")]%string
  = "date=20200101,step=0"%string.
Proof. reflexivity. Qed.

(* C42.  The listed fields that were asked for, each exactly once, are grouped by the path of their own entry. *)
Theorem C42_file_groups :
  forall (F : Type) (ignore_ym allow : bool) (listing : list listed) (its its' : list (string * @item F))
         (fm : list (string * list string)),
    duplicate_free ignore_ym listing ->
    file_map ignore_ym allow listing its = Ok (fm, its') ->
    let located := map (listed_as ignore_ym) (filter (known ignore_ym its) listing) in
    NoDup located /\
    partitions (fun k => match entry_of ignore_ym listing k with
                         | Some e => u_path (l_uri e)
                         | None => ""%string
                         end) located fm.
Proof. exact (fun F i a l its its' fm => file_map_partitions i a l its fm its'). Qed.
Print Assumptions C42_file_groups.

Theorem C42_path_groups :
  forall (F : Type) (its : list (string * @item F)),
    exists m, partitions (fun p => u_path (it_uri (snd p))) its m /\
              file_map_from_paths its = map (fun g => (fst g, map fst (snd g))) m.
Proof. exact (fun F its => ex_intro _ _ (conj (paths_partition its) (file_map_from_paths_map its))). Qed.
Print Assumptions C42_path_groups.

Theorem C42_scan_groups :
  forall (us : list uri) (m : list (string * list Z)),
    files_offsets us = Ok m ->
    exists l, map u_offset us = map (fun p => Ok (snd p)) l /\ map u_path us = map fst l /\
      exists g, partitions fst l g /\ m = map (fun x => (fst x, map snd (snd x))) g.
Proof. exact files_offsets_partition. Qed.
Print Assumptions C42_scan_groups.

Example C42_example :
  omap fst (file_map false false demo_listing
     (map (fun r => (r_string r, new_item (F := Z) r))
          [ask "param=t,step=6" 1; ask "param=t,step=9" 1; ask "param=t,step=0" 1]))
  = Ok [("/b", ["param=t,step=0"; "param=t,step=9"]); ("/a", ["param=t,step=6"])]%string /\
  files_offsets [demo_uri "/b" 4; demo_uri "/a" 3; demo_uri "/b" 1]
  = Ok [("/b", [4; 1]%Z); ("/a", [3]%Z)]%string.
Proof. vm_compute. auto. Qed.

(* C43.  A file task with grid checking that yields data found the hash of every request equal to that of the
   field it reads ... *)
Theorem C43_local_files :
  forall (F : Type) (w : world F) (its : list (string * @item F)) (path : string) (keys : list string)
         (out : list (string * result F)),
    sound_world w -> extract_file w false its path keys = Ok out ->
    Permutation keys (map fst out) /\
    forall k, In k keys -> exists i off inf, sfind k its = Some i /\ u_offset (it_uri i) = Ok off /\
      w_true_info w path off inf /\ r_hash (it_request i) <> ""%string /\ r_hash (it_request i) = i_md5 inf.
Proof. exact hash_checked. Qed.
Print Assumptions C43_local_files.

(* ... so one request without a hash, or with another one, at any position, leaves the whole file without data. *)
Theorem C43_mismatch_refused :
  forall (F : Type) (w : world F) (its : list (string * @item F)) (path : string) (keys : list string)
         (k : string) (i : @item F),
    sound_world w -> In k keys -> sfind k its = Some i ->
    (forall off inf, u_offset (it_uri i) = Ok off -> w_true_info w path off inf ->
       r_hash (it_request i) = ""%string \/ r_hash (it_request i) <> i_md5 inf) ->
    forall out, extract_file w false its path keys <> Ok out.
Proof. exact mismatch_refused. Qed.
Print Assumptions C43_mismatch_refused.

(* Through a remote handle the hash is never looked at: the same request with a wrong hash, or none, gets data. *)
Theorem C43_refuted :
  exists i i' : @item Z,
    r_hash (it_request i) = "other"%string /\ r_hash (it_request i') = ""%string /\
    extract_remote demo [("k", i)]%string ["k"%string] = Ok [("k"%string, ([[1; 1]%Z], [[3]%N]))] /\
    extract_remote demo [("k", i')]%string ["k"%string] = Ok [("k"%string, ([[1; 1]%Z], [[3]%N]))] /\
    i_md5 (demo_info 1) = "g"%string.
Proof. exact (ex_intro _ (mk_item (mk_request "k" [(0, 2)]%N "other") (mk_uri "fdb" "/a" "h" 1 (Ok 0%Z) (Ok 2%Z)) None)
        (ex_intro _ (mk_item (mk_request "k" [(0, 2)]%N "") (mk_uri "fdb" "/a" "h" 1 (Ok 0%Z) (Ok 2%Z)) None)
          (conj eq_refl (conj eq_refl (conj eq_refl (conj eq_refl eq_refl)))))). Qed.
Print Assumptions C43_refuted.

Example C43_example :
  extract_requests demo demo_cfg [mk_request "step=9,param=t" [(0, 1)]%N "other"] = Throw ESeriousBug /\
  extract_requests demo demo_cfg [mk_request "step=9,param=t" [(0, 1)]%N ""] = Throw ESeriousBug /\
  extract_requests demo (mk_config false false true false false) [mk_request "step=9,param=t" [(0, 1)]%N ""]
    = Ok [([[300]%Z], [[1]%N])].
Proof. vm_compute. auto. Qed.

(* C44.  The outcome for a file (results per request, or the error) does not depend on the order of its
   requests when their offsets differ; C43_local_files (and with checking off, the next theorem) says that
   each result is the extraction at the request's own offset with its own ranges. *)
Theorem C44_order_of_requests :
  forall (F : Type) (w : world F) (ignore_grid : bool) (its : list (string * @item F)) (path : string)
         (keys keys' : list string) (js : list (string * @item F * Z)),
    sorts (w_sorter w) -> Permutation keys keys' ->
    jobs its keys = Ok js -> NoDup (map snd js) ->
    extract_file w ignore_grid its path keys' = extract_file w ignore_grid its path keys.
Proof. exact (fun F w => file_task_order (w_arith w) (w_aec w) (w_cache_get w) (w_files w) (w_sorter w)). Qed.
Print Assumptions C44_order_of_requests.

Theorem C44_own_message :
  forall (F : Type) (w : world F) (ignore_grid : bool) (its : list (string * @item F)) (path : string)
         (keys : list string) (out : list (string * result F)),
    sound_world w -> extract_file w ignore_grid its path keys = Ok out ->
    Permutation keys (map fst out) /\
    forall k res, In (k, res) out -> exists i, sfind k its = Some i /\
      exists bytes off inf, w_files w path = Some bytes /\ u_offset (it_uri i) = Ok off /\
        w_true_info w path off inf /\
        (ignore_grid = false -> r_hash (it_request i) <> ""%string /\ r_hash (it_request i) = i_md5 inf) /\
        extract (w_arith w) (w_aec w) bytes off inf (r_ranges (it_request i)) = Ok res.
Proof. exact (fun F w ig its path keys out S => file_task_inv (w_arith w) (w_aec w) (w_cache_get w) (w_files w)
                (w_sorter w) (w_build_info w) (w_pieces w) (w_fresh w) (w_list w) (w_true_info w)
                (proj1 S) (proj2 S) ig its path keys out). Qed.
Print Assumptions C44_own_message.

Example C44_example :
  let it o n := mk_item (mk_request "k" [(0, n)]%N "g") (demo_uri "/a" o) None in
  let its := [("x", it 30%Z 1%N); ("y", it 10%Z 2%N); ("z", it 20%Z 1%N)]%string in
  extract_file demo false its "/a" ["x"; "y"; "z"]%string
    = Ok [("y", ([[10; 10]%Z], [[3]%N])); ("z", ([[20]%Z], [[1]%N])); ("x", ([[30]%Z], [[1]%N]))]%string /\
  extract_file demo false its "/a" ["z"; "x"; "y"]%string = extract_file demo false its "/a" ["x"; "y"; "z"]%string.
Proof. vm_compute. auto. Qed.

(* C45.  A message delivered in one piece (and any number of empty ones) is decoded as it is. *)
Theorem C45_partial :
  forall (fresh : list N) (ps : list (list N)) (msg : list N),
    length fresh = length msg -> filter (fun p => negb (lenN p =? 0)%N) ps = [msg] ->
    read_loop fresh ps = msg.
Proof. exact read_loop_single. Qed.
Print Assumptions C45_partial.

(* Missing above: two or more pieces.  Each is stored at the start of the buffer, so the message [1; 2]
   delivered byte by byte becomes [2; 255] (255: what the buffer contained), and other values come out. *)
Theorem C45_refuted :
  exists (fresh : list N) (ps : list (list N)) (msg : list N),
    length fresh = length msg /\ concat ps = msg /\ read_loop fresh ps <> msg.
Proof. exact pieces_overwrite. Qed.
Print Assumptions C45_refuted.

Example C45_example :
  let it h := mk_item (mk_request "k" [(0, 2)]%N "g") (mk_uri "fdb" "/a" h 1 (Ok 0%Z) (Ok 2%Z)) None in
  extract_remote demo [("k", it "whole")]%string ["k"%string] = Ok [("k"%string, ([[1; 1]%Z], [[3]%N]))] /\
  extract_remote demo [("k", it "split")]%string ["k"%string] = Ok [("k"%string, ([[2; 2]%Z], [[3]%N]))].
Proof. vm_compute. auto. Qed.
