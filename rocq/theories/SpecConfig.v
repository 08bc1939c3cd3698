(* The options as documented in src/gribjump/Config.h:57-154, and what reading them should mean. *)
From Verif Require Import Base ModelStrings ModelIndex ModelCache ModelForward ModelConfig.

(* where a value may come from, in order of precedence, and the default *)
Record documented_option (A : Type) := mk_doc { d_env : option string; d_res : option string; d_key : option string; d_default : A }.
Arguments mk_doc {A}. Arguments d_env {A}. Arguments d_res {A}. Arguments d_key {A}. Arguments d_default {A}.

Definition doc_bool (o : bool_option) : documented_option bool :=
  match o with
  | IgnoreGrid => mk_doc (Some "GRIBJUMP_IGNORE_GRID") None (Some "ignoreGridHash") false
  | IgnoreYearMonth => mk_doc (Some "GRIBJUMP_IGNORE_YEARMONTH") None None true
  | RequestParsing => mk_doc (Some "GRIBJUMP_REQUEST_PARSING") None (Some "requestParsing") false
  | AllowMissing => mk_doc (Some "GRIBJUMP_ALLOW_MISSING") (Some "allowMissing") (Some "allowMissing") false
  | InefficientExtraction => mk_doc None None (Some "inefficientExtraction") false
  | ForwardExtraction => mk_doc None None (Some "forwardExtraction") false
  | ForwardScan => mk_doc None None (Some "forwardScan") false
  | CacheEnabled => mk_doc None None (Some "cache.enabled") true
  | CacheLazy => mk_doc None (Some "gribjumpLazyInfo") (Some "cache.lazy") true
  | ScanCorrupted => mk_doc (Some "GRIBJUMP_SCAN_CORRUPTED") None None false
  | FdbEnable => mk_doc (Some "FDB_ENABLE_GRIBJUMP") (Some "fdbEnableGribjump") None false
  | FdbDisable => mk_doc (Some "FDB_DISABLE_GRIBJUMP") (Some "fdbDisableGribjump") None false
  end%string.
Definition doc_int (o : int_option) : documented_option Z :=
  match o with
  | ServerPort => mk_doc (Some "GRIBJUMP_SERVER_PORT"%string) None (Some "server.port"%string) 9777%Z
  | CacheSize => mk_doc None (Some "gribjumpCacheSize"%string) (Some "cache.size"%string) 1024%Z
  end.
Definition doc_threads : documented_option N :=
  mk_doc (Some "GRIBJUMP_THREADS"%string) (Some "gribjumpThreads"%string) (Some "threads"%string) 1%N.
Definition doc_string (o : string_option) : documented_option string :=
  match o with
  | ConfigType => mk_doc None None (Some "type") "local"
  | RemoteURI => mk_doc None None (Some "uri") ""
  | CacheDirectory => mk_doc None None (Some "cache.directory") ""
  | PluginSelect => mk_doc None None (Some "plugin.select") ""
  end%string.

(* the documentation gives a key of the file *)
Definition in_file (r : read) : bool :=
  match r with
  | RBool o => match d_key (doc_bool o) with Some _ => true | None => false end
  | RInt o => match d_key (doc_int o) with Some _ => true | None => false end
  | RString o => match d_key (doc_string o) with Some _ => true | None => false end
  | RThreads | RShadow => true
  end.

Definition looked {A} (f : string -> option A) (n : option string) : option A := match n with Some k => f k | None => None end.
(* the value the documentation promises; [key]: the values in the YAML file *)
Inductive promised {A} (conv : string -> outcome A) (key : string -> option A) (a : around) (d : documented_option A) : outcome A -> Prop :=
| P_env : forall s, looked (a_env a) (d_env d) = Some s -> promised conv key a d (conv s)
| P_res : forall s, looked (a_env a) (d_env d) = None -> looked (a_res a) (d_res d) = Some s -> promised conv key a d (conv s)
| P_key : forall v, looked (a_env a) (d_env d) = None -> looked (a_res a) (d_res d) = None -> looked key (d_key d) = Some v ->
    promised conv key a d (Ok v)
| P_default : looked (a_env a) (d_env d) = None -> looked (a_res a) (d_res d) = None -> looked key (d_key d) = None ->
    promised conv key a d (Ok (d_default d)).

(* a file in which every value has the type it is asked for with *)
Definition well_typed {A} (look : string -> outcome (option A)) (key : string -> option A) : Prop := forall k, look k = Ok (key k).

(* two reads of one option in the life of a process agree *)
Definition stable (reads : list (moment * read)) (values : list (outcome value)) : Prop :=
  forall i j m m' r v v', nth_error reads i = Some (m, r) -> nth_error reads j = Some (m', r) ->
    nth_error values i = Some (Ok v) -> nth_error values j = Some (Ok v') -> v = v'.

(* the configuration file of a process: the one named in the environment, else the one in the home directory if it is there *)
Definition config_file (deflt : bool) (a : around) : option string :=
  match a_env a "GRIBJUMP_CONFIG_FILE" with
  | Some f => Some f
  | None => if deflt then Some "~gribjump/etc/gribjump/config.yaml"%string else None
  end.

(* where the index file of a data file belongs (Config.cc:31-34, Config.h:120-129) *)
Definition beside (path : string) : string := (path ++ file_ext)%string.
Definition inside (dir path : string) : string := (dir ++ "/" ++ base_name path ++ file_ext)%string.
Definition location (shadow : option bool) (dir : string) : option (string -> string) :=
  match shadow with
  | Some true => Some beside
  | Some false => if String.eqb dir "" then None else Some (inside dir)
  | None => Some (if String.eqb dir "" then beside else inside dir)
  end.
Definition needed_directory (shadow : option bool) (dir : string) : bool :=
  match shadow with Some true => false | _ => negb (String.eqb dir "") end.

Fixpoint last_entry (e : endpoint) (l : list (endpoint * endpoint)) : option endpoint :=
  match l with
  | [] => None
  | (k, v) :: r => match last_entry e r with Some x => Some x | None => if ep_eqb e k then Some v else None end
  end.

(* ---- examples ---- *)
Definition ex_to_bool (s : string) : outcome bool :=
  if String.eqb s "1" then Ok true else if String.eqb s "0" then Ok false else Throw EBadParameter.
Definition ex_to_int (s : string) : outcome Z := if String.eqb s "2" then Ok 2%Z else Throw EBadParameter.
Definition ex_to_size (s : string) : outcome N := if String.eqb s "8" then Ok 8%N else Throw EBadParameter.
Definition vars (l : list (string * string)) (k : string) : option string := sfind k l.
Definition ex_yaml : yaml :=
  mk_yaml (fun k => Ok (sfind k [("allowMissing", true); ("cache.shadowfdb", false)]%string))
          (fun k => Ok (sfind k [("threads", 4%Z); ("server.port", 7777%Z)]%string))
          (fun k => Ok (sfind k [("cache.directory", "/idx"); ("type", "remote"); ("uri", "h:9")]%string))
          [(("a", 1), ("b", 2)); (("c", 1), ("d", 2)); (("a", 1), ("e", 2))]%string%Z.
Definition ex_disabled (key : string) : yaml :=
  mk_yaml (fun k => Ok (sfind k [(key, false)])) (fun _ => Ok None) (fun _ => Ok None) [].
Definition ex_threads (n : Z) : yaml :=
  mk_yaml (fun _ => Ok None) (fun k => Ok (sfind k [("threads"%string, n)])) (fun _ => Ok None) [].
Definition quiet : around := mk_around (fun _ => None) (fun _ => None).
Definition ex_moment (env : list (string * string)) : moment := mk_moment (mk_around (vars env) (fun _ => None)) (fun _ => Ok ex_yaml) true.
