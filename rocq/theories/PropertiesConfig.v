(* C80-C82: the configuration. *)
From Verif Require Import Base ModelStrings ModelIndex ModelCache ModelLRU ModelForward ModelQueue ModelTask ModelConfig SpecQueue SpecConfig ProofsConfig.

(* C80.  Every option has the value the documentation promises: the environment variable, else the
   resource, else the key in the file, else the default. *)
Theorem C80_bool_options :
  forall to_bool o y a vals v, well_typed (y_bool y) vals ->
    (get_bool to_bool o y a = v <-> promised to_bool vals a (doc_bool o) v).
Proof. exact bool_promised. Qed.
Print Assumptions C80_bool_options.

Theorem C80_int_options :
  forall to_int o y a vals v, well_typed (y_int y) vals ->
    (get_int to_int o y a = v <-> promised to_int vals a (doc_int o) v).
Proof. exact int_promised. Qed.
Print Assumptions C80_int_options.

Theorem C80_threads :
  forall to_size y a vals v, well_typed (y_int y) vals ->
    (get_threads to_size y a = v <-> promised to_size (fun k => option_map size_of (vals k)) a doc_threads v).
Proof. exact threads_promised. Qed.
Print Assumptions C80_threads.

Theorem C80_string_options :
  forall o y a vals v, well_typed (y_string y) vals ->
    (get_string o y = v <-> promised (fun s => Ok s) vals a (doc_string o) v).
Proof. exact string_promised. Qed.
Print Assumptions C80_string_options.

(* the implementation follows the type; a server map entry is the last one given for its FDB server *)
Theorem C80_implementation :
  forall parse_endpoint y strs, well_typed (y_string y) strs ->
    (build_implementation parse_endpoint y = Ok Local <-> strs "type"%string = None \/ strs "type"%string = Some "local"%string) /\
    (forall e, build_implementation parse_endpoint y = Ok (Remote e) <->
       strs "type"%string = Some "remote"%string /\ exists u, strs "uri"%string = Some u /\ u <> ""%string /\ parse_endpoint u = Ok e).
Proof. exact implementation_chosen. Qed.
Print Assumptions C80_implementation.

Theorem C80_server_map : forall y e, ep_find e (server_map y) = last_entry e (y_servers y).
Proof. exact server_map_last. Qed.
Print Assumptions C80_server_map.

(* as many workers as threads asked for *)
Theorem C80_workers :
  forall to_size y a n, get_threads to_size y a = Ok n -> (1 <= n < 2147483648)%N -> workers to_size y a = Ok (N.to_nat n).
Proof. exact workers_positive. Qed.
Print Assumptions C80_workers.

(* Only the low 32 bits of the number of threads count, read as a signed number. *)
Theorem C80_workers_wrapped :
  forall to_size y a q r, get_threads to_size y a = Ok (q * 4294967296 + r)%N -> (r < 4294967296)%N ->
    workers to_size y a = Ok (if (r <? 2147483648)%N then N.to_nat r else 0%nat).
Proof. exact workers_wrapped. Qed.
Print Assumptions C80_workers_wrapped.

(* Zero or a negative number of threads is accepted: there is no worker, and no request is ever answered. *)
Theorem C80_refuted_no_workers :
  forall to_size y vals z, well_typed (y_int y) vals -> vals "threads"%string = Some z -> (-2147483648 <= z <= 0)%Z ->
    workers to_size y quiet = Ok 0%nat.
Proof. exact workers_none. Qed.
Print Assumptions C80_refuted_no_workers.

Theorem C80_refuted_no_answer :
  forall cf, cf_workers cf = 0%nat -> forall s g e, reachable cf s -> ~ returned s g e.
Proof. exact no_worker_no_answer. Qed.
Print Assumptions C80_refuted_no_answer.

(* A cache of size zero is accepted: the first insertion is undefined. *)
Theorem C80_refuted_size_zero :
  forall to_bool to_int y a exists_ n g (K V : Type) (dec : forall a b : K, {a = b} + {a <> b}) (k : K) (v : V),
    get_int to_int CacheSize y a = Ok 0%Z -> info_cache to_bool to_int y a exists_ = Ok (n, g) ->
    lru_put dec (lru_new (N.to_nat n)) k v = UB.
Proof. exact @size_zero. Qed.
Print Assumptions C80_refuted_size_zero.

(* archiving feeds the cache if the plugin is enabled and not disabled *)
Theorem C80_plugin :
  forall to_bool y a vals e d, well_typed (y_bool y) vals ->
    promised to_bool vals a (doc_bool FdbEnable) (Ok e) -> promised to_bool vals a (doc_bool FdbDisable) (Ok d) ->
    (plugin_active to_bool y a = Ok true <-> e = true /\ d = false).
Proof. exact plugin_promised. Qed.
Print Assumptions C80_plugin.

Example C80_example :
  get_bool ex_to_bool AllowMissing ex_yaml quiet = Ok true /\
  get_bool ex_to_bool AllowMissing ex_yaml (mk_around (vars [("GRIBJUMP_ALLOW_MISSING", "0")]%string) (vars [("allowMissing", "1")]%string)) = Ok false /\
  get_bool ex_to_bool AllowMissing no_yaml (mk_around (vars []) (vars [("allowMissing", "1")]%string)) = Ok true /\
  get_bool ex_to_bool AllowMissing no_yaml quiet = Ok false /\
  get_threads ex_to_size ex_yaml quiet = Ok 4%N /\
  get_threads ex_to_size ex_yaml (mk_around (vars [("GRIBJUMP_THREADS", "8")]%string) (vars [])) = Ok 8%N /\
  ep_find ("a"%string, 1%Z) (server_map ex_yaml) = Some ("e"%string, 2%Z) /\
  build_implementation (fun u => Ok (u, 9%Z)) ex_yaml = Ok (Remote ("h:9"%string, 9%Z)) /\
  workers ex_to_size (ex_threads (-1)) quiet = Ok 0%nat /\ workers ex_to_size (ex_threads 3) quiet = Ok 3%nat /\
  plugin_active ex_to_bool ex_yaml (mk_around (vars [("FDB_ENABLE_GRIBJUMP", "1")]%string) (vars [])) = Ok true /\
  plugin_active ex_to_bool ex_yaml (mk_around (vars [("FDB_ENABLE_GRIBJUMP", "1"); ("FDB_DISABLE_GRIBJUMP", "1")]%string) (vars [])) = Ok false.
Proof. vm_compute. auto 20. Qed.

(* C81.  An option keeps its value for the life of the process, whatever happens to the environment,
   the resources and the files meanwhile. *)
Theorem C81_options_do_not_change :
  forall to_bool to_int to_size reads p, stable reads (run_reads to_bool to_int to_size p reads).
Proof. exact reads_stable. Qed.
Print Assumptions C81_options_do_not_change.

(* The first read in a process sees the environment and the file of that moment; the file is the one
   named by GRIBJUMP_CONFIG_FILE, else the default one if it exists, else none.  An option that has no key is read
   without the file, and so also if the file cannot be read. *)
Theorem C81_first_read :
  forall to_bool to_int to_size m r,
    fst (read_option to_bool to_int to_size fresh_proc m r) =
    (let* y := if in_file r then match config_file (m_default m) (m_around m) with Some f => m_parse m f | None => Ok no_yaml end
               else Ok no_yaml in
     get to_bool to_int to_size r y (m_around m)).
Proof. exact fresh_value. Qed.
Print Assumptions C81_first_read.

Example C81_example :
  run_reads ex_to_bool ex_to_int ex_to_size fresh_proc
    [(ex_moment [("GRIBJUMP_THREADS", "x")], RThreads); (ex_moment [("GRIBJUMP_THREADS", "8")], RThreads); (ex_moment [], RThreads);
     (mk_moment quiet (fun _ => Ok no_yaml) true, RString ConfigType)]%string =
  [Throw EBadParameter; Ok (VSize 8); Ok (VSize 8); Ok (VString "remote")].
Proof. vm_compute. reflexivity. Qed.

(* C82.  With the cache enabled the index files are where the configuration says, or the construction
   of the cache is refused with BadValue. *)
Theorem C82_index_location :
  forall to_bool to_int y a exists_ bools strs size lazy,
    well_typed (y_bool y) bools -> well_typed (y_string y) strs ->
    get_int to_int CacheSize y a = Ok size -> get_bool to_bool CacheLazy y a = Ok lazy -> bools "cache.enabled"%string <> Some false ->
    let dir := match strs "cache.directory"%string with Some d => d | None => ""%string end in
    match location (bools "cache.shadowfdb"%string) dir with
    | Some f =>
        if needed_directory (bools "cache.shadowfdb"%string) dir && negb (exists_ dir)
        then info_cache to_bool to_int y a exists_ = Throw EBadValue
        else exists g, info_cache to_bool to_int y a exists_ = Ok (size_of size, g) /\ g_lazy g = lazy /\ forall p, cache_file_path g p = f p
    | None => info_cache to_bool to_int y a exists_ = Throw EBadValue
    end.
Proof. exact location_iff. Qed.
Print Assumptions C82_index_location.

(* Disabling the cache does not stop the use of index files: they are read and written in the root directory. *)
Theorem C82_refuted_disabled :
  forall to_bool to_int y a exists_ bools size lazy,
    well_typed (y_bool y) bools -> get_int to_int CacheSize y a = Ok size -> get_bool to_bool CacheLazy y a = Ok lazy ->
    bools "cache.enabled"%string = Some false ->
    exists g, info_cache to_bool to_int y a exists_ = Ok (size_of size, g) /\
      forall p, cache_file_path g p = ("/" ++ base_name p ++ file_ext)%string.
Proof. exact disabled_uses_root. Qed.
Print Assumptions C82_refuted_disabled.

(* so that files of one base name share an index file *)
Theorem C82_refuted_shared_index :
  exists g, info_cache ex_to_bool ex_to_int (ex_disabled "cache.enabled") quiet (fun _ => false) = Ok (1024%N, g) /\
    cache_file_path g "/fdb/a/x.data" = "/x.data.gribjump"%string /\ cache_file_path g "/fdb/b/x.data" = "/x.data.gribjump"%string.
Proof. exact two_files_one_index. Qed.
Print Assumptions C82_refuted_shared_index.

(* The documented key cache.enable has no effect. *)
Theorem C82_refuted_key :
  forall to_bool to_int a exists_,
    info_cache to_bool to_int (ex_disabled "cache.enable") a exists_ = info_cache to_bool to_int no_yaml a exists_.
Proof. exact enable_ignored. Qed.
Print Assumptions C82_refuted_key.

Example C82_example :
  omap (fun r => (fst r, cache_file_path (snd r) "/fdb/x.data")) (info_cache ex_to_bool ex_to_int ex_yaml quiet (String.eqb "/idx")) =
    Ok (1024%N, "/idx/x.data.gribjump"%string) /\
  info_cache ex_to_bool ex_to_int ex_yaml quiet (fun _ => false) = Throw EBadValue /\
  omap (fun r => cache_file_path (snd r) "/fdb/x.data") (info_cache ex_to_bool ex_to_int no_yaml quiet (fun _ => false)) =
    Ok "/fdb/x.data.gribjump"%string /\
  info_cache ex_to_bool ex_to_int (ex_disabled "cache.shadowfdb") quiet (fun _ => true) = Throw EBadValue.
Proof. vm_compute. auto. Qed.
