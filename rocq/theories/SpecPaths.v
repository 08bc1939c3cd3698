(* Extraction by file and offset (C87): the same vocabulary as for catalogue requests, without a catalogue. *)
From Verif Require Import Base ModelRange ModelInfo ModelSimple ModelJumper ModelStrings ModelCache ModelBuild ModelEngine
  ModelStream ModelRemote ModelForward SpecCache SpecJumper SpecBuild SpecEngine SpecRemote SpecForward SpecSystem SpecDeploy.
From Verif Require ModelApi.

(* different requests ask for different messages *)
Definition distinct_places (l : list path_request) : Prop := NoDup (map (fun r => (p_path r, p_offset r)) l).
(* URI schemes contain no colon *)
Definition plain_schemes (l : list path_request) : Prop := Forall (fun r => has_char ":"%char (p_scheme r) = false) l.

Section Paths.
Context {F : Type}.

(* the message at a file and offset of a node *)
Definition message_of (n : node F) (path : string) (off : Z) (m : grib F) (S : list N) (bytes : list N) : Prop :=
  o_files (n_outside n) path = Some bytes /\
  message_at (o_aec_full (n_outside n)) (o_grib_at (n_outside n)) bytes off m S.

(* x is what the message of r stores at the node, and the hash was checked *)
Definition path_result (n : node F) (ignore_grid : bool) (r : path_request) (x : result F) : Prop :=
  (p_offset r < two63)%N /\
  forall m S bytes, n_paths n (p_path r) -> message_of n (p_path r) (Z.of_N (p_offset r)) m S bytes ->
    (ignore_grid = false -> p_hash r = m_md5 m) /\
    (good_request (Z.to_N (m_points m)) (p_ranges r) ->
     stored_result m bytes (Z.of_N (p_offset r)) S (o_arith (n_outside n)) (p_ranges r) x).

(* the node can serve r *)
Definition path_fine (n : node F) (ignore_grid : bool) (r : path_request) : Prop :=
  (p_offset r < two63)%N /\ n_paths n (p_path r) /\ exists m S bytes, message_of n (p_path r) (Z.of_N (p_offset r)) m S bytes /\
    good_request (Z.to_N (m_points m)) (p_ranges r) /\
    (ignore_grid = false -> m_md5 m <> ""%string /\ p_hash r = m_md5 m).

(* the requests for one file name one host and port *)
Definition one_place_each (l : list path_request) : Prop :=
  forall r r', In r l -> In r' l -> p_path r = p_path r' -> p_host r = p_host r' /\ p_port r = p_port r'.

(* the server configured for the host and port of r answers with what it stores; it can serve r *)
Definition owner_path_result (sm : list (endpoint * endpoint)) (nodes : endpoint -> node F) (configs : endpoint -> config)
    (r : path_request) (x : result F) : Prop :=
  exists ep, ep_find (p_host r, p_port r) sm = Some ep /\ path_result (nodes ep) (c_ignore_grid (configs ep)) r x.
Definition owner_path_fine (sm : list (endpoint * endpoint)) (nodes : endpoint -> node F) (configs : endpoint -> config)
    (r : path_request) : Prop :=
  exists ep, ep_find (p_host r, p_port r) sm = Some ep /\ g_lazy (n_cache (nodes ep)) = true /\
    path_fine (nodes ep) (c_ignore_grid (configs ep)) r.

(* x is what the message at an offset stores, for a list of ranges *)
Definition offset_result (n : node F) (path : string) (q : Z * list interval) (x : result F) : Prop :=
  forall m S bytes, message_of n path (fst q) m S bytes -> good_request (Z.to_N (m_points m)) (snd q) ->
    stored_result m bytes (fst q) S (o_arith (n_outside n)) (snd q) x.
Definition offset_fine (n : node F) (path : string) (q : Z * list interval) : Prop :=
  exists m S bytes, message_of n path (fst q) m S bytes /\ good_request (Z.to_N (m_points m)) (snd q).

(* LocalGribJump::extract(path, offsets, ranges) at a node *)
Definition node_direct (n : node F) (path : string) (offs : list Z) (ranges : list (list interval)) :=
  api_extract_direct (o_arith (n_outside n)) (o_aec (n_outside n)) (o_files (n_outside n))
    (ModelApi.info_extractor (describe (n_outside n))) path offs ranges.
End Paths.
