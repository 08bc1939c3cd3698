(* The configuration: src/gribjump/Config.{h,cc}, LibGribJump.cc:33-66 (which file is read, and when),
   GribJumpFactory.cc:45-62, RemoteGribJump.cc:23-32, the constructor of InfoCache (InfoCache.cc:47-77)
   and the number of workers (WorkQueue.cc:42-48).

   eckit is a parameter: how texts become values (Translator) and how a YAML file is read
   (YAMLConfiguration, LocalConfiguration::getX).  eckit::Resource looks at the environment, then at
   the resource files and command line, then takes the default, whatever the order of the names in
   its argument.  LogRouter::configure is in ModelLog.v. *)
From Verif Require Import Base ModelStrings ModelIndex ModelCache ModelForward.

(* ---- sources of values ---- *)

(* what a read at some moment sees *)
Record around := mk_around {
  a_env : string -> option string;          (* environment variables *)
  a_res : string -> option string           (* eckit resources *)
}.
(* a loaded configuration: the value under a key, None if it is not there; getInt, getBool and
   getString throw if it is there and has another type *)
Record yaml := mk_yaml {
  y_bool : string -> outcome (option bool);
  y_int : string -> outcome (option Z);
  y_string : string -> outcome (option string);
  y_servers : list (endpoint * endpoint)    (* servermap: fdb, gribjump, in the order of the file *)
}.
Definition no_yaml : yaml := mk_yaml (fun _ => Ok None) (fun _ => Ok None) (fun _ => Ok None) [].

Definition or_default {A} (d : A) (v : outcome (option A)) : outcome A :=
  let* x := v in Ok (match x with Some a => a | None => d end).

Section Options.
Variable to_bool : string -> outcome bool.
Variable to_int : string -> outcome Z.
Variable to_size : string -> outcome N.

(* eckit::Resource<T>("$env;res", dflt): the default is an argument, so it is evaluated first *)
Definition resource {A} (conv : string -> outcome A) (env res : option string) (dflt : outcome A) (a : around) : outcome A :=
  let* d := dflt in
  match (match env with Some n => a_env a n | None => None end) with
  | Some s => conv s
  | None => match (match res with Some n => a_res a n | None => None end) with Some s => conv s | None => Ok d end
  end.

(* static_cast from int to size_t in the default of numThreads *)
Definition size_of (z : Z) : N := Z.to_N (z mod Z.of_N two64).
(* conversion of size_t to int, WorkQueue.cc:43 *)
Definition int_of_size (n : N) : Z :=
  let m := (n mod 4294967296)%N in if (m <? 2147483648)%N then Z.of_N m else (Z.of_N m - 4294967296)%Z.

(* Config.cc:78-183 *)
Inductive bool_option :=
| IgnoreGrid | IgnoreYearMonth | RequestParsing | AllowMissing | InefficientExtraction | ForwardExtraction | ForwardScan
| CacheEnabled | CacheLazy | ScanCorrupted | FdbEnable | FdbDisable.
Definition get_bool (o : bool_option) (y : yaml) (a : around) : outcome bool :=
  let yb k d := or_default d (y_bool y k) in
  match o with
  | IgnoreGrid => resource to_bool (Some "GRIBJUMP_IGNORE_GRID") None (yb "ignoreGridHash" false) a
  | IgnoreYearMonth => resource to_bool (Some "GRIBJUMP_IGNORE_YEARMONTH") None (Ok true) a
  | RequestParsing => resource to_bool (Some "GRIBJUMP_REQUEST_PARSING") None (yb "requestParsing" false) a
  | AllowMissing => resource to_bool (Some "GRIBJUMP_ALLOW_MISSING") (Some "allowMissing") (yb "allowMissing" false) a
  | InefficientExtraction => yb "inefficientExtraction" false
  | ForwardExtraction => yb "forwardExtraction" false
  | ForwardScan => yb "forwardScan" false
  | CacheEnabled => yb "cache.enabled" true
  | CacheLazy => resource to_bool None (Some "gribjumpLazyInfo") (yb "cache.lazy" true) a
  | ScanCorrupted => resource to_bool (Some "GRIBJUMP_SCAN_CORRUPTED") None (Ok false) a
  | FdbEnable => resource to_bool (Some "FDB_ENABLE_GRIBJUMP") (Some "fdbEnableGribjump") (Ok false) a
  | FdbDisable => resource to_bool (Some "FDB_DISABLE_GRIBJUMP") (Some "fdbDisableGribjump") (Ok false) a
  end%string.

Inductive string_option := ConfigType | RemoteURI | CacheDirectory | PluginSelect.
Definition get_string (o : string_option) (y : yaml) : outcome string :=
  match o with
  | ConfigType => or_default "local" (y_string y "type")
  | RemoteURI => or_default "" (y_string y "uri")
  | CacheDirectory => or_default "" (y_string y "cache.directory")
  | PluginSelect => or_default "" (y_string y "plugin.select")
  end%string.

Inductive int_option := ServerPort | CacheSize.
Definition get_int (o : int_option) (y : yaml) (a : around) : outcome Z :=
  match o with
  | ServerPort => resource to_int (Some "GRIBJUMP_SERVER_PORT") None (or_default 9777%Z (y_int y "server.port")) a
  | CacheSize => resource to_int None (Some "gribjumpCacheSize") (or_default 1024%Z (y_int y "cache.size")) a
  end%string.
Definition get_threads (y : yaml) (a : around) : outcome N :=
  resource to_size (Some "GRIBJUMP_THREADS"%string) (Some "gribjumpThreads"%string)
           (omap size_of (or_default 1%Z (y_int y "threads"))) a.
(* lines 146-149: without the key, true if no directory is given *)
Definition get_shadow (y : yaml) : outcome bool :=
  let* d := get_string CacheDirectory y in or_default (String.eqb d "") (y_bool y "cache.shadowfdb").

(* ---- when values are read ---- *)

(* LibGribJump.cc:33-49; [parse]: the Config made from a file, with the files there now; [deflt]: ~gribjump/etc/gribjump/config.yaml exists *)
Definition default_path : string := "~gribjump/etc/gribjump/config.yaml".
Definition load_config (parse : string -> outcome yaml) (deflt : bool) (a : around) : outcome yaml :=
  match a_env a "GRIBJUMP_CONFIG_FILE" with
  | Some f => parse f
  | None => if deflt then parse default_path else Ok no_yaml
  end.

(* every option as one type of reads *)
Inductive read := RBool (o : bool_option) | RInt (o : int_option) | RThreads | RString (o : string_option) | RShadow.
Inductive value := VBool (b : bool) | VInt (z : Z) | VSize (n : N) | VString (s : string).
Definition get (r : read) (y : yaml) (a : around) : outcome value :=
  match r with
  | RBool o => omap VBool (get_bool o y a)
  | RInt o => omap VInt (get_int o y a)
  | RThreads => omap VSize (get_threads y a)
  | RString o => omap VString (get_string o y)
  | RShadow => omap VBool (get_shadow y)
  end.
(* the accessors with a function-local static *)
Definition is_static (r : read) : bool :=
  match r with
  | RBool (InefficientExtraction | ForwardExtraction | ForwardScan | CacheEnabled) => false
  | RBool _ | RInt _ | RThreads => true
  | RString _ | RShadow => false
  end.
(* those that never ask for the configuration *)
Definition needs_config (r : read) : bool :=
  match r with RBool (IgnoreYearMonth | ScanCorrupted | FdbEnable | FdbDisable) => false | _ => true end.

Definition same_read (r r' : read) : bool :=
  match r, r' with
  | RBool a, RBool b =>
      match a, b with
      | IgnoreGrid, IgnoreGrid | IgnoreYearMonth, IgnoreYearMonth | RequestParsing, RequestParsing | AllowMissing, AllowMissing
      | InefficientExtraction, InefficientExtraction | ForwardExtraction, ForwardExtraction | ForwardScan, ForwardScan
      | CacheEnabled, CacheEnabled | CacheLazy, CacheLazy | ScanCorrupted, ScanCorrupted | FdbEnable, FdbEnable | FdbDisable, FdbDisable => true
      | _, _ => false
      end
  | RInt ServerPort, RInt ServerPort | RInt CacheSize, RInt CacheSize | RThreads, RThreads | RShadow, RShadow => true
  | RString a, RString b =>
      match a, b with
      | ConfigType, ConfigType | RemoteURI, RemoteURI | CacheDirectory, CacheDirectory | PluginSelect, PluginSelect => true
      | _, _ => false
      end
  | _, _ => false
  end.

(* the process: the configuration if it has been loaded, the statics initialised so far *)
Record proc := mk_proc { pr_config : option yaml; pr_statics : list (read * value) }.
Definition fresh_proc : proc := mk_proc None [].
(* the world at a moment: environment, resources, files *)
Record moment := mk_moment { m_around : around; m_parse : string -> outcome yaml; m_default : bool }.

(* LibGribJump.cc:55-62: under the mutex; a failed load is tried again *)
Definition config_of (p : proc) (m : moment) : outcome yaml * proc :=
  match pr_config p with
  | Some y => (Ok y, p)
  | None =>
      match load_config (m_parse m) (m_default m) (m_around m) with
      | Ok y => (Ok y, mk_proc (Some y) (pr_statics p))
      | e => (e, p)
      end
  end.
Fixpoint find_static (r : read) (l : list (read * value)) : option value :=
  match l with [] => None | (r', v) :: rest => if same_read r r' then Some v else find_static r rest end.
(* one call of an accessor; a static whose initialiser throws is not initialised *)
Definition read_option (p : proc) (m : moment) (r : read) : outcome value * proc :=
  match (if is_static r then find_static r (pr_statics p) else None) with
  | Some v => (Ok v, p)
  | None =>
      let '(y, p) := if needs_config r then config_of p m else (Ok no_yaml, p) in
      match (let* y := y in get r y (m_around m)) with
      | Ok v => (Ok v, if is_static r then mk_proc (pr_config p) ((r, v) :: pr_statics p) else p)
      | e => (e, p)
      end
  end.
Fixpoint run_reads (p : proc) (l : list (moment * read)) : list (outcome value) :=
  match l with
  | [] => []
  | (m, r) :: rest => let '(v, p) := read_option p m r in v :: run_reads p rest
  end.

(* ---- what the values are used for ---- *)

(* GribJumpFactory::build and the constructor of RemoteGribJump; [parse_endpoint]: eckit::net::Endpoint(text) *)
Inductive implementation := Local | Remote (e : endpoint).
Definition build_implementation (parse_endpoint : string -> outcome endpoint) (y : yaml) : outcome implementation :=
  let* name := get_string ConfigType y in
  if String.eqb name "local" then Ok Local
  else if String.eqb name "remote" then
    let* uri := get_string RemoteURI y in
    if String.eqb uri "" then Throw EUser else let* e := parse_endpoint uri in Ok (Remote e)
  else Throw ESeriousBug.

(* Config::loadServerMap: map[fdb] = gribjump, in the order of the list *)
Definition server_map (y : yaml) : list (endpoint * endpoint) :=
  fold_left (fun m e => ep_update (fst e) (snd e) (fun _ => snd e) m) (y_servers y) [].

(* the constructor of InfoCache: capacity, location and laziness.  shadowCache_ is false and cacheDir_
   empty unless set *)
Definition info_cache (y : yaml) (a : around) (exists_ : string -> bool) : outcome (N * ModelCache.config) :=
  let* size := get_int CacheSize y a in
  let* lazy := get_bool CacheLazy y a in
  let* enabled := get_bool CacheEnabled y a in
  if negb enabled then Ok (size_of size, ModelCache.mk_config false "" lazy)
  else
    let* dir := get_string CacheDirectory y in
    let* shadow := get_shadow y in
    if shadow then Ok (size_of size, ModelCache.mk_config true "" lazy)
    else if String.eqb dir "" then Throw EBadValue
    else if exists_ dir then Ok (size_of size, ModelCache.mk_config false dir lazy) else Throw EBadValue.

(* the number of worker threads of the queue *)
Definition workers (y : yaml) (a : around) : outcome nat := omap (fun n => Z.to_nat (int_of_size n)) (get_threads y a).

(* FDBPlugin.cc:39-42 *)
Definition plugin_active (y : yaml) (a : around) : outcome bool :=
  let* e := get_bool FdbEnable y a in let* d := get_bool FdbDisable y a in Ok (e && negb d).
End Options.
