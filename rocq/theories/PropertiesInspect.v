(* C102 and C103: comparing and showing what is known about messages; the scan tool *)
From Coq Require Import Sorted.
From Verif Require Import Base ModelStrings ModelInfo ModelStream ModelIndex ModelCache ModelBuild ModelInspect
     SpecIndex SpecBuild SpecInspect ProofsInspect.

(* ---- C102 ---- *)

(* Two infos whose class is that of their packing: == is true exactly if they are the same in everything, where the
   reference values are compared as doubles. *)
Theorem C102_compares :
  forall (F : Type) (feq : F -> F -> bool) (a b : info F),
    proper_class a -> proper_class b -> exists v, info_equals feq a b = Ok v /\ (v = true <-> same_info feq a b).
Proof. exact @equals_compares. Qed.
Print Assumptions C102_compares.
Theorem C102_symmetric :
  forall (F : Type) (feq : F -> F -> bool) (a b : info F),
    (forall x y, feq x y = feq y x) -> proper_class a -> proper_class b -> info_equals feq a b = info_equals feq b a.
Proof. exact @equals_symmetric. Qed.
Print Assumptions C102_symmetric.

(* every info made from a message has the class of its packing *)
Theorem C102_made_from_a_file :
  forall (F : Type) aec fresh (grib_at : list N -> Z -> outcome (option (codes F))) bytes off i,
    build aec fresh grib_at bytes off = Ok i -> proper_class i.
Proof. exact @built_proper. Qed.
Print Assumptions C102_made_from_a_file.
Theorem C102_made_from_a_message :
  forall (F : Type) aec fresh (k : codes F) bytes i, build_of_message aec fresh bytes k = Ok i -> proper_class i.
Proof. exact @built_of_message_proper. Qed.
Print Assumptions C102_made_from_a_message.

(* an info that was written and read again is equal to the first, unless its reference value is not equal to itself *)
Theorem C102_written :
  forall (F : Type) (feq : F -> F -> bool) (a : info F) rest,
    exists b, r_info (w_info a ++ rest) = Ok (Some b, rest) /\ info_equals feq b a = Ok (feq (i_reference a) (i_reference a)).
Proof. exact @written_equals. Qed.
Print Assumptions C102_written.

(* the tables of two messages are compared; with a class that is not that of the packing the cast is undefined, and
   the answer depends on the side *)
Example C102_example :
  let a := inspect_info (CcsdsInfo 14 32 128 [0; 5]%N) "grid_ccsds" in
  let b := inspect_info (CcsdsInfo 14 32 128 [0; 6]%N) "grid_ccsds" in
  let c := inspect_info SimpleInfo "grid_ccsds" in
  info_equals Z.eqb a a = Ok true /\ info_equals Z.eqb a b = Ok false /\
  info_equals Z.eqb a (inspect_info SimpleInfo "grid_simple") = Ok false /\
  info_equals Z.eqb a c = UB /\ info_equals Z.eqb c a = Ok true /\
  proper_class a /\ ~ proper_class c.
Proof. repeat split; try reflexivity. discriminate. Qed.

(* ---- C103 ---- *)

(* gribjump-dump-info shows, for every file in the order given, the number of records and then every record once, ... *)
Theorem C103_dump :
  forall (F : Type) (show : F -> string) (d : @disk F) fs,
    Forall (index_file_with d) fs -> dump_tool show d (map fst fs) = (concat (map (dump_lines show) fs), Ok tt).
Proof. exact @dump_all. Qed.
Print Assumptions C103_dump.

(* ... in the order of the offsets. *)
Theorem C103_dump_in_order :
  forall (F : Type) (d : @disk F) f l, index_file_with d (f, l) -> StronglySorted Z.lt (map fst l).
Proof. exact @dump_in_order. Qed.
Print Assumptions C103_dump_in_order.

(* a file that is not there ends the tool; what comes before it has been shown *)
Theorem C103_dump_missing :
  forall (F : Type) (show : F -> string) (d : @disk F) fs f rest,
    Forall (index_file_with d) fs -> d f = None ->
    dump_tool show d (map fst fs ++ f :: rest) = (concat (map (dump_lines show) fs), Throw EUser).
Proof. exact @dump_missing. Qed.
Print Assumptions C103_dump_missing.

(* After a process died while it appended to an index file, showing the file can dereference a null pointer. *)
Theorem C103_refuted_torn :
  forall (F : Type) (show : F -> string) (d : @disk F) p l0 e b,
    index_path p -> d p <> None -> complete_file d p l0 -> mfind (fst e) l0 = None ->
    exists ops d', append_to_file d (lift (e :: b)) p = Ok ops /\ crashed d ops d' /\ snd (dump_tool show d' [p]) = UB.
Proof. exact @dump_torn. Qed.
Print Assumptions C103_refuted_torn.

(* gribjump-info: the chosen values alone, or all with their labels if all or none are chosen *)
Theorem C103_info :
  forall f a,
    info_tool f a =
    let path := if String.eqb (ab_config a) "" then "No config file found (use default config)"%string else ab_config a in
    if fl_all f || negb (fl_version f || fl_sha1 f || fl_home f || fl_library f || fl_config f)
    then ["Version: " ++ ab_version a; "gitsha1: " ++ ab_sha1 a; "Home: " ++ ab_home a; "Library path: " ++ ab_library a; "Config: " ++ path]%string
    else map snd (filter fst [(fl_version f, ab_version a); (fl_sha1 f, ab_sha1 a); (fl_home f, ab_home a); (fl_library f, ab_library a); (fl_config f, path)]).
Proof. exact info_tool_lines. Qed.
Print Assumptions C103_info.

(* gribjump-scan scans the requests of all its arguments in one call, ... *)
Theorem C103_scan_arguments :
  forall (M : Type) content parse_file expand requests_from (scan : list M -> bool -> outcome N) raw byfiles args rss,
    Forall2 (fun a r => requests_from (on raw) a = Ok r) args rss ->
    scan_tool content parse_file expand requests_from scan raw byfiles None args = then_scanned scan (concat rss) byfiles.
Proof. exact @scan_of_args. Qed.
Print Assumptions C103_scan_arguments.
(* ... or those of a file; ... *)
Theorem C103_scan_file :
  forall (M : Type) content parse_file expand requests_from (scan : list M -> bool -> outcome N) raw byfiles f text parsed rs,
    f <> ""%string -> content f = Some text -> parse_file text = Ok parsed ->
    (if on raw then Ok parsed else expand parsed) = Ok rs ->
    scan_tool content parse_file expand requests_from scan raw byfiles (Some f) [] = then_scanned scan rs byfiles.
Proof. exact @scan_of_file. Qed.
Print Assumptions C103_scan_file.
(* ... both together are refused, ... *)
Theorem C103_scan_both :
  forall (M : Type) content parse_file expand requests_from (scan : list M -> bool -> outcome N) raw byfiles f a args,
    f <> ""%string -> scan_tool content parse_file expand requests_from scan raw byfiles (Some f) (a :: args) = Throw EUser.
Proof. exact @scan_of_both. Qed.
Print Assumptions C103_scan_both.
(* ... and a file that cannot be opened is taken for an empty one, which is refused as such. *)
Theorem C103_scan_missing_file :
  forall (M : Type) content parse_file expand requests_from (scan : list M -> bool -> outcome N) raw byfiles f,
    f <> ""%string -> content f = None -> parse_file ""%string = Ok [] -> expand [] = Ok [] ->
    scan_tool content parse_file expand requests_from scan raw byfiles (Some f) [] = Throw EUser.
Proof. exact @scan_of_missing_file. Qed.
Print Assumptions C103_scan_missing_file.

(* the help text says that byfiles is true by default *)
Theorem C103_refuted_byfiles_default :
  exists (scan : list string -> bool -> outcome N) args,
    scan_tool (fun _ => None) (fun _ => Ok []) (fun l => Ok l) (fun _ a => Ok [a]) scan None None None args <>
    scan_tool (fun _ => None) (fun _ => Ok []) (fun l => Ok l) (fun _ a => Ok [a]) scan None (Some true) None args.
Proof. exact byfiles_default. Qed.
Print Assumptions C103_refuted_byfiles_default.

Example C103_example :
  fst (dump_tool show_z inspect_disk ["a.gribjump"; "torn.gribjump"]%string) =
    ["IndexFile[a.gribjump (2 entries)]:";
     "  Offset:0 -> SimpleInfo,version=1,referenceValue=273,binaryScaleFactor=-2,decimalScaleFactor=0,editionNumber=2,bitsPerValue=16,offsetBeforeData=100,offsetAfterData=300,offsetBeforeBitmap=0,numberOfValues=100,numberOfDataPoints=100,totalLength=320,sphericalHarmonics=0,md5GridSection=abc,packingType=grid_simple";
     "  Offset:320 -> CcsdsInfo,version=1,referenceValue=273,binaryScaleFactor=-2,decimalScaleFactor=0,editionNumber=2,bitsPerValue=16,offsetBeforeData=100,offsetAfterData=300,offsetBeforeBitmap=0,numberOfValues=100,numberOfDataPoints=100,totalLength=320,sphericalHarmonics=0,md5GridSection=abc,packingType=grid_ccsds,ccsdsFlags=14,ccsdsBlockSize=32,ccsdsRsi=128,ccsdsOffsets.size=2";
     "IndexFile[torn.gribjump (1 entries)]:"]%string /\
  snd (dump_tool show_z inspect_disk ["a.gribjump"; "torn.gribjump"]%string) = UB /\
  info_tool (mk_flags false true false false false true) all_about = ["1.2"; "No config file found (use default config)"]%string /\
  scan_tool (fun _ => None) (fun _ => Ok []) (fun l => Ok l) (fun _ a => Ok [a; a]) (fun rs b => Ok (lenN rs)) None None None ["a"; "b"]%string
    = Ok "Scanned 4 field(s)"%string.
Proof. repeat split; vm_compute; reflexivity. Qed.
