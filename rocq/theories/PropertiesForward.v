(* C49-C51: forwarding of extractions and scans to the servers that hold the data *)
From Coq Require Import Permutation.
From Verif Require Import Base ModelRange ModelInfo ModelSimple ModelStream ModelJumper ModelStrings ModelEngine
  SpecEngine ModelProtocol ModelRemote SpecRemote ModelForward SpecForward ProofsForward ProofsForward2 ProofsForward3
  ProofsForward4.

(* ---- C49 ---- *)

(* every file is in exactly one sub map, that of the server configured for the location of its first item;
   each server is addressed once *)
Theorem C49_files_partitioned :
  forall (F : Type) (sm : list (endpoint * endpoint)) (its : list (string * @item F)) fm subs,
    server_file_map sm its fm = Ok subs ->
    NoDup (map fst subs) /\ Permutation fm (concat (map snd subs)) /\
    (forall ep sub, In (ep, sub) subs -> sub <> [] /\ forall f, In f sub -> owner sm its f ep).
Proof. exact (fun F => @files_partitioned F). Qed.
Print Assumptions C49_files_partitioned.

(* with all of its requests *)
Theorem C49_with_all_requests :
  forall (F : Type) sorter (its : list (string * @item F)) f keys p,
    sorts sorter -> sorted_file sorter its (f, keys) = Ok p ->
    fst (to_wire p) = f /\
    exists l, Permutation l (snd (to_wire p)) /\
      Forall2 (fun x r => exists i, sfind x its = Some i /\ r = (it_request i, it_uri i)) keys l.
Proof. exact (fun F => @sends_all_requests F). Qed.
Print Assumptions C49_with_all_requests.

Theorem C49_all_served :
  forall (F : Type) (sm : list (endpoint * endpoint)) (its : list (string * @item F)) fm,
    (forall f, In f fm -> exists ep, owner sm its f ep) -> exists subs, server_file_map sm its fm = Ok subs.
Proof. exact (fun F => @files_all_served F). Qed.
Print Assumptions C49_all_served.

(* a file without a server: the call fails whatever the servers would have answered, so nothing was sent *)
Theorem C49_unserved :
  forall (F M : Type) (k : link F M) sm (its : list (string * @item F)) fm,
    (forall f keys, In (f, keys) fm -> exists x rest i, keys = x :: rest /\ sfind x its = Some i) ->
    (exists f, In f fm /\ forall ep, ~ owner sm its f ep) ->
    forall connect sorter, forwards k sm connect sorter fm its = Throw ESeriousBug.
Proof. exact (fun F M k => unserved_extract k). Qed.
Print Assumptions C49_unserved.

(* scanning: every URI contributes its offset, once, to the server of its own location *)
Theorem C49_uris_partitioned :
  forall (sm : list (endpoint * endpoint)) us subs,
    server_scan_map sm us = Ok subs ->
    NoDup (map fst subs) /\ exists l, Forall2 (scans sm) us l /\ Permutation l (flat subs).
Proof. exact uris_partitioned. Qed.
Print Assumptions C49_uris_partitioned.

Theorem C49_unserved_scan :
  forall (F M : Type) (k : link F M) sm us,
    (forall u, In u us -> exists o, u_offset u = Ok o) ->
    (exists u, In u us /\ ep_find (location u) sm = None) ->
    forall connect, forwards_scans k sm connect us = Throw ESeriousBug.
Proof. exact (fun F M k => unserved_scan k). Qed.
Print Assumptions C49_unserved_scan.

Example C49_example :
  server_file_map (F := Z) demo_servermap
    [("x", set_uri (mk_uri "file" "/a" "h1" 7000 (Ok 5%Z) (Ok 0%Z)) (new_item (ask "x" 1)));
     ("y", set_uri (mk_uri "file" "/b" "h2" 7000 (Ok 6%Z) (Ok 0%Z)) (new_item (ask "y" 1)));
     ("z", set_uri (mk_uri "file" "/c" "h1" 7000 (Ok 7%Z) (Ok 0%Z)) (new_item (ask "z" 1)))]%string
    [("/c", ["z"]); ("/b", ["y"]); ("/a", ["x"])]%string
  = Ok [(("jump1", 9001%Z), [("/a", ["x"]); ("/c", ["z"])]); (("jump2", 9002%Z), [("/b", ["y"])])]%string /\
  server_scan_map demo_servermap
    [mk_uri "file" "/a" "h1" 7000 (Ok 5%Z) (Ok 0%Z); mk_uri "file" "/a" "h2" 7000 (Ok 6%Z) (Ok 0%Z);
     mk_uri "file" "/a" "h1" 7000 (Ok 9%Z) (Ok 0%Z)]
  = Ok [(("jump1", 9001%Z), [("/a", [5; 9]%Z)]); (("jump2", 9002%Z), [("/a", [6]%Z)])]%string /\
  extract_path_requests demo_client demo_cfg [demo_path "h1" 7000 "/a" 1; demo_path "h3" 7000 "/b" 2]
  = Throw ESeriousBug.
Proof. vm_compute. auto. Qed.

(* ---- C50 ---- *)

(* if a path has one location in the list, every request is answered by the server of its own host.
   Missing: lists with the same path on two hosts, and lists whose first request is local *)
Theorem C50_partial :
  forall (F M : Type) (k : link F M) sm sites connect (w : world F) cfg r0 rest res,
    sound_link k -> sorts (w_sorter w) -> (forall ep, sound_world (s_world (sites ep))) ->
    (forall ep, connect ep = site_server k (sites ep)) ->
    asks_to_forward r0 -> placed_paths (r0 :: rest) ->
    extract_path_requests (forwarding k sm connect w) cfg (r0 :: rest) = Ok res ->
    Forall2 (fun r x => answers_at sm sites (p_uri r) (p_request r) x) (r0 :: rest) res.
Proof. exact (fun F M k sm sites connect w cfg r0 rest res H1 H2 H3 H4 =>
                paths_forwarded k sm sites connect w H1 H2 H3 H4 cfg r0 rest res). Qed.
Print Assumptions C50_partial.

(* the same path on two hosts: both requests go to the server of the first (Lister.cc:156-176, Forwarder.cc:84-88) *)
Theorem C50_refuted :
  exists r1 r2 res,
    ep_find (location (p_uri r2)) demo_servermap <> None /\
    extract_path_requests demo_client demo_cfg [r1; r2] = Ok res /\
    ~ Forall2 (fun r x => answers_at demo_servermap demo_sites (p_uri r) (p_request r) x) [r1; r2] res.
Proof. exact same_path_misrouted. Qed.
Print Assumptions C50_refuted.

(* a request that names a host is executed locally if the first request of the list does not (Engine.cc:222-225) *)
Theorem C50_first_request_refuted :
  exists r1 r2 res,
    asks_to_forward r2 /\ ep_find (location (p_uri r2)) demo_servermap <> None /\ p_path r1 <> p_path r2 /\
    extract_path_requests demo_client demo_cfg [r1; r2] = Ok res /\
    (forall x, nth_error res 1 = Some x -> ~ answers_at demo_servermap demo_sites (p_uri r2) (p_request r2) x).
Proof. exact first_request_decides. Qed.
Print Assumptions C50_first_request_refuted.

(* the same path and offset on two hosts are one request (ExtractionData.cc:214-227): the call fails *)
Theorem C50_same_offset_refused :
  extract_path_requests demo_client demo_cfg [demo_path "h1" 7000 "/a" 100; demo_path "h2" 7000 "/a" 100]
  = Throw EAssert.
Proof. exact same_offset_refused. Qed.
Print Assumptions C50_same_offset_refused.

Example C50_example :
  extract_path_requests demo_client demo_cfg
    [demo_path "h2" 7000 "/b" 200; demo_path "h1" 7000 "/a" 300; demo_path "h2" 7000 "/b" 100]
  = Ok [([[2200]]%Z, [[1]]%N); ([[1300]]%Z, [[1]]%N); ([[2100]]%Z, [[1]]%N)] /\
  (* h2 was asked for in the second request, but h1 answered *)
  extract_path_requests demo_client demo_cfg demo_two_hosts
  = Ok [([[1100]]%Z, [[1]]%N); ([[1200]]%Z, [[1]]%N)] /\
  (* h2 was asked for in the second request, but the client looked at its own files *)
  extract_path_requests demo_client demo_cfg demo_mixed
  = Ok [([[100]]%Z, [[1]]%N); ([[200]]%Z, [[1]]%N)].
Proof. vm_compute. auto. Qed.

(* ---- C51 ---- *)

(* what the client gets from one server is what that server's own file tasks give, result for result,
   or one exception with the text of all their errors *)
Theorem C51_one_server :
  forall (F M : Type) (k : link F M) (s : site F M) connect sorter ep,
    sound_link k -> sorts sorter -> sorts (w_sorter (s_world s)) -> connect ep = site_server k s ->
    forall (its : list (string * @item F)) fm, forwardable its fm ->
      forwards_to k connect sorter ep fm its = gathered k (map (site_extracts s its) (in_key_order fm)).
Proof. exact (fun F M => @forward_task_gathered F M). Qed.
Print Assumptions C51_one_server.

(* all servers: a forwarded extraction without errors attached to every item the result of its file's owner *)
Theorem C51_results_of_owners :
  forall (F M : Type) (k : link F M) sm sites connect sorter,
    sound_link k -> sorts sorter -> (forall ep, sorts (w_sorter (s_world (sites ep)))) ->
    (forall ep, connect ep = site_server k (sites ep)) ->
    forall (its : list (string * @item F)) fm its2,
      forwardable its fm -> NoDup (concat (map snd fm)) ->
      forwards k sm connect sorter fm its = Ok ([], its2) -> done_at_owners sm sites its fm its2.
Proof. exact (fun F M => @forwarded_done F M). Qed.
Print Assumptions C51_results_of_owners.

(* ... and it has no errors exactly if the owners have none *)
Theorem C51_succeeds :
  forall (F M : Type) (k : link F M) sm sites connect sorter,
    sound_link k -> sorts sorter -> (forall ep, sorts (w_sorter (s_world (sites ep)))) ->
    (forall ep, connect ep = site_server k (sites ep)) ->
    forall (its : list (string * @item F)) fm,
      forwardable its fm ->
      (forall f, In f fm -> exists ep, owner sm its f ep) ->
      (forall f ep, In f fm -> owner sm its f ep -> exists out, site_extracts (sites ep) its f = Ok out) ->
      exists its2, forwards k sm connect sorter fm its = Ok ([], its2).
Proof. exact (fun F M => @forwarding_succeeds F M). Qed.
Print Assumptions C51_succeeds.

Theorem C51_fails :
  forall (F M : Type) (k : link F M) sm sites connect sorter,
    sound_link k -> sorts sorter -> (forall ep, sorts (w_sorter (s_world (sites ep)))) ->
    (forall ep, connect ep = site_server k (sites ep)) ->
    forall (its : list (string * @item F)) fm f ep e,
      forwardable its fm -> In f fm -> owner sm its f ep -> site_extracts (sites ep) its f = Throw e ->
      forall es its2, forwards k sm connect sorter fm its = Ok (es, its2) -> es <> [].
Proof. exact (fun F M => @forwarding_fails F M). Qed.
Print Assumptions C51_fails.

(* end to end: requests of a client that forwards get what the servers of their data read *)
Theorem C51_requests :
  forall (F M : Type) (k : link F M) sm sites connect (w : world F) cfg reqs res,
    sound_link k -> sorts (w_sorter w) -> (forall ep, sound_world (s_world (sites ep))) ->
    (forall ep, connect ep = site_server k (sites ep)) ->
    c_forward cfg = true -> unique_listings w cfg ->
    (forall u l, w_list w u = Ok l -> placed_listing (c_ignore_ym cfg) l) ->
    extract_requests (forwarding k sm connect w) cfg reqs = Ok res ->
    exists u listing, w_list w u = Ok listing /\
      Forall2 (fun r x => match entry_of (c_ignore_ym cfg) listing (r_string r) with
                          | Some e => answers_at sm sites (l_uri e) r x
                          | None => c_allow_missing cfg = true /\ x = ([], [])
                          end)
              (canon_requests (c_ignore_ym cfg) false reqs) res.
Proof. exact (fun F M k sm sites connect w cfg reqs res H1 H2 H3 H4 =>
                requests_forwarded k sm sites connect w H1 H2 H3 H4 cfg reqs res). Qed.
Print Assumptions C51_requests.

(* the sites of the examples meet the assumptions *)
Theorem C51_sound_sites_exist : forall ep, sound_world (s_world (demo_sites ep)).
Proof. exact demo_sites_sound. Qed.
Print Assumptions C51_sound_sites_exist.

Example C51_example :
  let its := [("x", set_uri (mk_uri "file" "/a" "h1" 7000 (Ok 9%Z) (Ok 0%Z)) (new_item (ask "x" 1)));
              ("y", set_uri (mk_uri "file" "/b" "h2" 7000 (Ok 6%Z) (Ok 0%Z)) (new_item (ask "y" 2)));
              ("z", set_uri (mk_uri "file" "/a" "h1" 7000 (Ok 4%Z) (Ok 0%Z)) (new_item (ask "z" 1)))]%string in
  let fm := [("/b", ["y"]); ("/a", ["x"; "z"])]%string in
  forwardable its fm /\
  omap (fun r => (fst r, map (fun p => it_result (snd p)) (snd r)))
       (forwards demo_link demo_servermap demo_connect (w_sorter demo) fm its)
  = Ok ([], [Some ([[1009]]%Z, [[1]]%N); Some ([[2006; 2006]]%Z, [[3]]%N); Some ([[1004]]%Z, [[1]]%N)]).
Proof.
  split; [|vm_compute; reflexivity]. split; [|split; [discriminate|]].
  - repeat constructor; cbn; intuition discriminate.
  - intros f keys [[= <- <-]|[[= <- <-]|[]]]; (split; [discriminate|]); eexists; (split; [vm_compute; reflexivity|]);
      repeat constructor; cbn; intuition discriminate.
Qed.
