(* The engine, the info cache, the description of messages and the extraction put together: the world of
   SpecEngine with the parts that other files model, instead of oracles.  What remains outside: the file
   contents, eccodes, libaec, the catalogue, std::sort, the forwarder and remote reads. *)
From Coq Require Import Permutation Sorted QArith.
From Verif Require Import Base ModelInfo ModelSimple ModelCcsds ModelJumper ModelStream ModelIndex ModelLRU ModelCache
     ModelBuild ModelEngine ModelFloat SpecCcsds SpecCache SpecJumper SpecBuild SpecEngine.
Open Scope nat_scope.

Record outside (F : Type) := mk_outside {
  o_arith : farith F;
  o_aec : aec_oracle;
  o_aec_full : aec_full_oracle;
  o_grib_at : list N -> Z -> outcome (option (codes F));
  o_files : string -> option (list N);
  o_codes_offsets : string -> option (list Z);
  o_scan_corrupted : bool;
  o_buffer_size : nat;
  o_fresh : Z -> list N;
  o_uniq : string -> string;
  o_sorter : list (string * @item F * Z) -> list (string * @item F * Z);
  o_pieces : uri -> Z -> outcome (list (list N));
  o_forward : list (string * list string) -> list (string * @item F) ->
              outcome (list error * list (string * @item F));
  o_list : string -> outcome (list listed)
}.
Arguments o_arith {F}. Arguments o_aec {F}. Arguments o_aec_full {F}. Arguments o_grib_at {F}. Arguments o_files {F}.
Arguments o_codes_offsets {F}. Arguments o_scan_corrupted {F}. Arguments o_buffer_size {F}. Arguments o_fresh {F}.
Arguments o_uniq {F}. Arguments o_sorter {F}. Arguments o_pieces {F}. Arguments o_forward {F}. Arguments o_list {F}.

Section System.
Context {F : Type}.
Variable o : outside F.
Variable g : ModelCache.config.          (* of the info cache *)
Variable P : string -> Prop.             (* the data files in use *)

Definition describe (p : string) (off : Z) : outcome (info F) :=
  extract_info (o_aec_full o) (o_fresh o) (o_grib_at o) (o_files o) p off.
Definition find_offsets (p : string) : outcome (list Z) :=
  extract_offsets (o_files o) (o_codes_offsets o) (o_scan_corrupted o) (o_buffer_size o) p.

(* a state of the info cache some history of lookups, inserts, scans, flushes and clears leads to, from
   index files that are true of the data *)
Definition reachable (c : @cache F) : Prop :=
  exists d cap calls log,
    1 <= cap /\ true_disk describe g P d /\ Forall (true_call describe P) calls /\
    c_calls (o_uniq o) describe find_offsets g (cache_new d cap) calls = (c, log).

(* the engine's world; [state p offs] is the state in which the cache is asked *)
Definition world_of (state : string -> list Z -> @cache F) : world F :=
  mk_world F (o_arith o) (o_aec o)
    (fun p offs => snd (c_get describe g (state p offs) p offs))
    (o_files o) (o_sorter o)
    (fun bytes => build (o_aec_full o) (o_fresh o) (o_grib_at o) bytes 0)
    (o_pieces o) (o_fresh o) (o_forward o) (o_list o)
    (fun p off inf => P p -> describe p off = Ok inf).

Definition sound_outside : Prop :=
  libaec_consistent (o_aec_full o) (o_aec o) /\
  (forall n, length (o_fresh o n) = Z.to_nat n) /\
  defined_eccodes (o_grib_at o) /\
  sorts (o_sorter o) /\
  3 <= o_buffer_size o /\ (forall p b, o_files o p = Some b -> lenN b < two63)%N /\
  names_apart g P /\ fresh_names (o_uniq o) g P.

(* the message a catalogue entry points to *)
Definition entry_message (e : listed) (m : grib F) (S : list N) (bytes : list N) (off : Z) : Prop :=
  P (u_path (l_uri e)) /\ o_files o (u_path (l_uri e)) = Some bytes /\ u_offset (l_uri e) = Ok off /\
  message_at (o_aec_full o) (o_grib_at o) bytes off m S.

(* a located request that can be served: a local file, a supported message, ranges within the field, and the
   hash of its grid *)
Definition fine_request (cfg : config) (r : request) (e : listed) : Prop :=
  is_remote (l_uri e) = false /\
  exists m S bytes off, entry_message e m S bytes off /\ good_request (Z.to_N (m_points m)) (r_ranges r) /\
    (c_ignore_grid cfg = false -> m_md5 m <> ""%string /\ r_hash r = m_md5 m).

(* the results, position by position *)
Definition right_results (cfg : config) (reqs : list request) (listing : list listed) (res : list (result F)) : Prop :=
  Forall2 (fun r x => match entry_of (c_ignore_ym cfg) listing (r_string r) with
                      | Some e => forall m S bytes off, entry_message e m S bytes off ->
                          (c_ignore_grid cfg = false -> r_hash r = m_md5 m) /\
                          (good_request (Z.to_N (m_points m)) (r_ranges r) ->
                           stored_result m bytes off S (o_arith o) (r_ranges r) x)
                      | None => c_allow_missing cfg = true /\ x = ([], [])
                      end)
          (canon_requests (c_ignore_ym cfg) false reqs) res.
End System.

(* ---- one file with two messages, for the examples ---- *)
Fixpoint by_offset {I} (j : I * Z) (l : list (I * Z)) : list (I * Z) :=
  match l with
  | [] => [j]
  | j' :: r => if (snd j <=? snd j')%Z then j :: l else j' :: by_offset j r
  end.
Definition one_file : outside Q :=
  mk_outside Q q_arith raw_libaec raw_full ex_eccodes
    (fun p => if String.eqb p "/fdb/x.data" then Some gribs else None)
    (fun p => if String.eqb p "/fdb/x.data" then Some [4; 12]%Z else None) false 8 zeros
    (fun p => (p ++ ".tmp")%string) (fun l => fold_right by_offset [] l)
    (fun _ _ => Throw ELibrary) (fun _ _ => Throw ESeriousBug)
    (fun _ => Ok [ mk_listed [("param", "u"); ("step", "6")]%string (mk_uri "file" "/fdb/x.data" "" 0 (Ok 12%Z) (Throw EAssert));
                   mk_listed [("step", "0"); ("param", "t")]%string (mk_uri "file" "/fdb/x.data" "" 0 (Ok 4%Z) (Throw EAssert)) ]).
Definition one_cache : ModelCache.config := ModelCache.mk_config true "" true.
Definition one_path (p : string) : Prop := p = "/fdb/x.data"%string.
Definition one_state (p : string) (offs : list Z) : @cache Q := cache_new (fun _ => None) 2.
Definition one_cfg : config := mk_config false true false false false.
Definition one_requests : list request :=
  [mk_request "step=6,param=u" [(0, 2); (3, 4)]%N "g2"; mk_request "step=9,param=t" [(0, 1)]%N "g1";
   mk_request "param=t,step=0" [(1, 4)]%N "g1"].
