(* Deployments: a client of a server, and a server that hands files on to the servers that own them (C86). *)
From Coq Require Import QArith.
From Verif Require Import Base ModelRange ModelInfo ModelSimple ModelStream ModelJumper ModelStrings ModelCache ModelBuild
  ModelEngine ModelProtocol ModelRemote ModelForward SpecCache SpecJumper SpecBuild SpecEngine SpecRemote SpecForward
  SpecCcsds SpecSystem ModelFloat.

Local Open Scope nat_scope.

(* a remote answer that says the same as a local one: the results with nothing left unread, or an exception *)
Definition same_answer {F} (here : outcome (list (result F))) (there : outcome (list (result F) * list (tok F))) : Prop :=
  match here with
  | Ok res => there = Ok (res, [])
  | Throw _ => exists text, there = Throw (EMsg text)
  | UB => there = UB
  end.

(* whoever extracts the items keeps their names and requests, and takes no result away *)
Definition keeps_items {F} (run : list (string * list string) -> list (string * @item F) ->
                                  outcome (list error * list (string * @item F))) : Prop :=
  forall fm its es its2, run fm its = Ok (es, its2) ->
    map fst its2 = map fst its /\
    forall k i2, sfind k its2 = Some i2 -> exists i, sfind k its = Some i /\
      it_request i2 = it_request i /\ (it_result i <> None -> it_result i2 <> None).

(* a server with data of its own: its surroundings, the configuration of its info cache, its data files and
   the states of its cache *)
Record node (F : Type) := mk_node {
  n_outside : outside F;
  n_cache : ModelCache.config;
  n_paths : string -> Prop;
  n_state : string -> list Z -> @cache F
}.
Arguments n_outside {F}. Arguments n_cache {F}. Arguments n_paths {F}. Arguments n_state {F}. Arguments mk_node {F}.
Definition node_world {F} (n : node F) : world F := world_of (n_outside n) (n_cache n) (n_paths n) (n_state n).
Definition sound_node {F} (n : node F) : Prop :=
  sound_outside (n_outside n) (n_cache n) (n_paths n) /\
  forall p offs, reachable (n_outside n) (n_cache n) (n_paths n) (n_state n p offs).

Section Deploy.
Context {F M : Type}.
(* which server owns the data at an endpoint of the catalogue, and the servers *)
Variable sm : list (endpoint * endpoint).
Variable nodes : endpoint -> node F.
(* the configurations of the servers *)
Variable configs : endpoint -> config.

(* the values of the message at e as its owner stores them *)
Definition owner_result (r : request) (e : listed) (x : result F) : Prop :=
  exists ep, ep_find (location (l_uri e)) sm = Some ep /\
    forall m S bytes off, entry_message (n_outside (nodes ep)) (n_paths (nodes ep)) e m S bytes off ->
      (c_ignore_grid (configs ep) = false -> r_hash r = m_md5 m) /\
      (good_request (Z.to_N (m_points m)) (r_ranges r) ->
       stored_result m bytes off S (o_arith (n_outside (nodes ep))) (r_ranges r) x).

(* the results, position by position *)
Definition owner_results (cfg : config) (reqs : list request) (listing : list listed) (res : list (result F)) : Prop :=
  Forall2 (fun r x => match entry_of (c_ignore_ym cfg) listing (r_string r) with
                      | Some e => owner_result r e x
                      | None => c_allow_missing cfg = true /\ x = ([], [])
                      end)
          (canon_requests (c_ignore_ym cfg) false reqs) res.

(* the owner can serve the located request: it has one, which finds a supported message there, the ranges lie
   within the field and the hash is that of its grid *)
Definition owner_serves (r : request) (e : listed) : Prop :=
  exists ep, ep_find (location (l_uri e)) sm = Some ep /\ g_lazy (n_cache (nodes ep)) = true /\
    exists m S bytes off, entry_message (n_outside (nodes ep)) (n_paths (nodes ep)) e m S bytes off /\
      good_request (Z.to_N (m_points m)) (r_ranges r) /\
      (c_ignore_grid (configs ep) = false -> m_md5 m <> ""%string /\ r_hash r = m_md5 m).
End Deploy.

(* ---- two servers for the examples, each with one data file of the two messages of SpecBuild ---- *)
Definition file_at (path : string) : outside Q :=
  mk_outside Q q_arith raw_libaec raw_full ex_eccodes
    (fun p => if String.eqb p path then Some gribs else None)
    (fun p => if String.eqb p path then Some [4; 12]%Z else None) false 8 zeros
    (fun p => (p ++ ".tmp")%string) (fun l => fold_right by_offset [] l)
    (fun _ _ => Throw ELibrary) (fun _ _ => Throw ESeriousBug) (fun _ => Ok []).
Definition node_at (path : string) : node Q :=
  mk_node (file_at path) one_cache (fun p => p = path) one_state.
Definition data_node (ep : endpoint) : node Q :=
  if ep_eqb ep ("jump1"%string, 9001%Z) then node_at "/fdb/x.data" else node_at "/fdb/y.data".
Definition site_of (w : world Q) (cfg : config) : site Q Z :=
  mk_site w cfg (fun _ offs => Ok (lenN offs)) (fun _ => Ok []) (fun _ _ => Ok []) [] (fun _ _ => Throw EStream) false.
Definition data_site (ep : endpoint) : site Q Z := site_of (node_world (data_node ep)) one_cfg.
Definition data_connect (ep : endpoint) : list (tok Q) -> outcome (list (tok Q)) :=
  site_server (plain_link Q) (data_site ep).
(* the catalogue: step 0 is at offset 4 of a file at h1, step 6 at offset 12 of one at h2 *)
Definition two_places : list listed :=
  [ mk_listed [("param", "u"); ("step", "6")]%string (mk_uri "fdb" "/fdb/y.data" "h2" 7000 (Ok 12%Z) (Throw EAssert));
    mk_listed [("step", "0"); ("param", "t")]%string (mk_uri "fdb" "/fdb/x.data" "h1" 7000 (Ok 4%Z) (Throw EAssert)) ].
Definition front_world : world Q :=
  mk_world Q q_arith raw_libaec (fun _ _ => Throw EBadValue) (fun _ => None) (fun l => fold_right by_offset [] l)
    (fun _ => Throw EBadValue) (fun _ _ => Throw ELibrary) zeros (fun _ _ => Throw ESeriousBug) (fun _ => Ok two_places)
    (fun _ _ _ => False).
Definition front_cfg : config := mk_config false true false false true.
Definition front_site : site Q Z :=
  site_of (forwarding (plain_link Q) demo_servermap data_connect front_world) front_cfg.
