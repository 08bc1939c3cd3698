(* Comparing and showing what is known about messages: JumpInfo::equals and CcsdsInfo::equals (JumpInfo.cc:174-184,
   CcsdsInfo.cc:107-115), print (JumpInfo.cc:156-172, SimpleInfo.cc:29-32, CcsdsInfo.cc:98-105, UnsupportedInfo.cc:30-33),
   IndexFile::print (InfoCache.cc:441-447), and the tools gribjump-dump-info, gribjump-info and gribjump-scan.

   operator== on double and the text of a double are parameters.  A line ends at std::endl; output to std::cout
   and to the log is a list of lines.  A tool that throws has printed what came before. *)
From Verif Require Import Base ModelStrings ModelInfo ModelStream ModelIndex ModelCache.

Section Infos.
Context {F : Type}.
Variable feq : F -> F -> bool.
Variable show : F -> string.

Fixpoint list_eqb {A} (eq : A -> A -> bool) (a b : list A) : bool :=
  match a, b with
  | [], [] => true
  | x :: a, y :: b => eq x y && list_eqb eq a b
  | _, _ => false
  end.

(* JumpInfo.cc:174-184 *)
Definition base_equals (a b : info F) : bool :=
  (i_version a =? i_version b)%N && feq (i_reference a) (i_reference b) &&
  (i_binary_scale a =? i_binary_scale b)%Z && (i_decimal_scale a =? i_decimal_scale b)%Z &&
  (i_edition a =? i_edition b)%N && (i_bits_per_value a =? i_bits_per_value b)%N &&
  (i_offset_before_data a =? i_offset_before_data b)%Z && (i_offset_after_data a =? i_offset_after_data b)%Z &&
  (i_offset_before_bitmap a =? i_offset_before_bitmap b)%Z && (i_number_of_values a =? i_number_of_values b)%N &&
  (i_number_of_points a =? i_number_of_points b)%N && (i_total_length a =? i_total_length b)%Z &&
  (i_spherical a =? i_spherical b)%Z && String.eqb (i_md5 a) (i_md5 b) && String.eqb (i_packing a) (i_packing b).

(* operator==, virtual in its first argument; the cast of CcsdsInfo.cc:112 is not checked *)
Definition info_equals (a b : info F) : outcome bool :=
  match i_class a with
  | CcsdsInfo flags block_size rsi offsets =>
      if negb (base_equals a b) then Ok false
      else match i_class b with
           | CcsdsInfo flags' block_size' rsi' offsets' =>
               Ok ((flags =? flags')%N && (block_size =? block_size')%N && (rsi =? rsi')%N && list_eqb N.eqb offsets offsets')
           | _ => UB
           end
  | _ => Ok (base_equals a b)
  end.

Definition show_n (n : N) : string := decimal (Z.of_N n).
(* JumpInfo.cc:156-172 *)
Definition print_base (i : info F) : string :=
  ("version=" ++ show_n (i_version i) ++ "," ++
   "referenceValue=" ++ show (i_reference i) ++ "," ++
   "binaryScaleFactor=" ++ decimal (i_binary_scale i) ++ "," ++
   "decimalScaleFactor=" ++ decimal (i_decimal_scale i) ++ "," ++
   "editionNumber=" ++ show_n (i_edition i) ++ "," ++
   "bitsPerValue=" ++ show_n (i_bits_per_value i) ++ "," ++
   "offsetBeforeData=" ++ decimal (i_offset_before_data i) ++ "," ++
   "offsetAfterData=" ++ decimal (i_offset_after_data i) ++ "," ++
   "offsetBeforeBitmap=" ++ decimal (i_offset_before_bitmap i) ++ "," ++
   "numberOfValues=" ++ show_n (i_number_of_values i) ++ "," ++
   "numberOfDataPoints=" ++ show_n (i_number_of_points i) ++ "," ++
   "totalLength=" ++ decimal (i_total_length i) ++ "," ++
   "sphericalHarmonics=" ++ decimal (i_spherical i) ++ "," ++
   "md5GridSection=" ++ i_md5 i ++ "," ++
   "packingType=" ++ i_packing i)%string.
Definition print_info (i : info F) : string :=
  match i_class i with
  | SimpleInfo => "SimpleInfo," ++ print_base i
  | UnsupportedInfo => "UnsupportedInfo," ++ print_base i
  | CcsdsInfo flags block_size rsi offsets =>
      "CcsdsInfo," ++ print_base i ++ ",ccsdsFlags=" ++ show_n flags ++ "," ++ "ccsdsBlockSize=" ++ show_n block_size ++ "," ++
      "ccsdsRsi=" ++ show_n rsi ++ "," ++ "ccsdsOffsets.size=" ++ show_n (lenN offsets)
  end%string.

(* InfoCache.cc:441-447: the lines and how it ends; a null pointer is dereferenced *)
Fixpoint print_entries (m : list (Z * option (info F))) : list string * outcome unit :=
  match m with
  | [] => ([], Ok tt)
  | (o, Some i) :: r =>
      let (l, e) := print_entries r in (("  Offset:" ++ decimal o ++ " -> " ++ print_info i)%string :: l, e)
  | (o, None) :: _ => ([], UB)
  end.
Definition index_header (path : string) (n : N) : string := ("IndexFile[" ++ path ++ " (" ++ show_n n ++ " entries)]:")%string.
Definition print_index (x : @index F) : list string * outcome unit :=
  let (l, e) := print_entries (x_map x) in (index_header (x_path x) (lenN (x_map x)) :: l, e).

(* gribjump-dump-info.cc:42-51; IndexFile(file) loads *)
Fixpoint dump_tool (d : @disk F) (files : list string) : list string * outcome unit :=
  match files with
  | [] => ([], Ok tt)
  | f :: r =>
      match d f with
      | None => ([], Throw EUser)
      | Some _ =>
          match x_load d (new_index f) with
          | Ok x =>
              match print_index x with
              | (l, Ok _) => let (l', e) := dump_tool d r in (l ++ l', e)
              | (l, e) => (l, e)
              end
          | Throw e => ([], Throw e)
          | UB => ([], UB)
          end
      end
  end.
End Infos.

(* ---- gribjump-info.cc:49-82 ---- *)
Record flags := mk_flags { fl_all : bool; fl_version : bool; fl_sha1 : bool; fl_home : bool; fl_library : bool; fl_config : bool }.
Record about := mk_about { ab_version : string; ab_sha1 : string; ab_home : string; ab_library : string; ab_config : string }.
Definition log_info (all condition : bool) (label value : string) : list string :=
  if all || condition then [((if all then label else "") ++ value)%string] else [].
Definition info_tool (f : flags) (a : about) : list string :=
  let all := fl_all f || (negb (fl_version f) && negb (fl_sha1 f) && negb (fl_home f) && negb (fl_library f) && negb (fl_config f)) in
  let path := if String.eqb (ab_config a) "" then "No config file found (use default config)"%string else ab_config a in
  log_info all (fl_version f) "Version: " (ab_version a) ++ log_info all (fl_sha1 f) "gitsha1: " (ab_sha1 a) ++
  log_info all (fl_home f) "Home: " (ab_home a) ++ log_info all (fl_library f) "Library path: " (ab_library a) ++
  log_info all (fl_config f) "Config: " path.

(* ---- gribjump-scan.cc:56-105 ---- *)
Section Scan.
Context {M : Type}.
(* None: the file cannot be opened; the fail bit is set and not the bad bit that line 73 asks for *)
Variable content : string -> option string.
(* MarsParser::parse and MarsExpansion::expand *)
Variable parse_file : string -> outcome (list M).
Variable expand : list M -> outcome (list M).
(* FDBToolRequest::requestsFromString(text, {}, raw, "retrieve"), then request() *)
Variable requests_from : bool -> string -> outcome (list M).
(* GribJump::scan, which refuses an empty list (GribJump.cc:50-55) *)
Variable scan : list M -> bool -> outcome N.

Definition gj_scan (rs : list M) (byfiles : bool) : outcome N := match rs with [] => Throw EUser | _ => scan rs byfiles end.
Definition or_default {A} (x : option A) (d : A) : A := match x with Some a => a | None => d end.
Definition scan_requests (raw : bool) (file : string) (args : list string) : outcome (list M) :=
  if negb (lenN args =? 0)%N && negb (String.eqb file "") then Throw EUser
  else if negb (String.eqb file "") then
    let* parsed := parse_file (or_default (content file) ""%string) in
    if raw then Ok parsed else expand parsed
  else omap (@concat M) (mapM (requests_from raw) args).
(* what is printed *)
Definition scan_tool (raw byfiles : option bool) (file : option string) (args : list string) : outcome string :=
  let* rs := scan_requests (or_default raw false) (or_default file ""%string) args in
  let* n := gj_scan rs (or_default byfiles false) in
  Ok ("Scanned " ++ decimal (Z.of_N n) ++ " field(s)")%string.
End Scan.
