(* Model of how the description of a message (JumpInfo) is made:
   src/gribjump/info/JumpInfo.cc:29-111, CcsdsInfo.cc:23-81, SimpleInfo.cc:20-25, UnsupportedInfo.cc:20-26,
   InfoFactory.cc:42-103 and InfoExtractor.cc:86-167.

   Simplifications.
   - eccodes is an oracle: [grib_at bytes pos] is what codesHandleFromStream makes of a handle positioned at
     pos (None at the end of the file); the handle, or an eckit Message, answers has, getLong, getDouble and
     getString.  A lookup may raise.
   - A data handle is the list of its bytes and a position; it reads fewer bytes than asked for only at the end.
   - Sums and differences of eckit::Offset do not overflow.
   - The factory's table holds the three builders registered in the library. *)
From Verif Require Import Base ModelInfo ModelSimple ModelCcsds ModelScan.

Section Codes.
Context {F : Type}.

(* metkit::codes::CodesHandle / eckit::message::Message *)
Record codes := mk_codes {
  k_has : string -> bool;
  k_long : string -> outcome Z;
  k_double : string -> outcome F;
  k_string : string -> outcome string
}.

(* JumpInfo.cc:55-63 and 90-98: an Offset made from long (edition 1) or from long + size_t *)
Definition bitmap_offset (k : codes) (edition : N) : outcome Z :=
  let* present := k_long k "bitmapPresent" in
  if (present =? 0)%Z then Ok 0%Z
  else if (edition =? 1)%N then omap (fun z => s64 (u64_of_Z z)) (k_long k "offsetBeforeBitmap")
  else omap (fun z => s64 (add64 (u64_of_Z z) 6)) (k_long k "offsetBSection6").

(* JumpInfo.cc:31-37 and 68-74 *)
Definition edition_and_packing (k : codes) : outcome (N * string) :=
  let* ed := k_long k "editionNumber" in
  let* packing := k_string k "packingType" in
  let edition := u64_of_Z ed in
  if (negb (edition =? 1) && negb (edition =? 2))%N then Throw EGribJump else Ok (edition, packing).

(* JumpInfo.h:72 currentVersion_ *)
Definition current_version : N := 1.

(* JumpInfo.cc:29-64, with the members of the subclass *)
Definition jump_info (k : codes) (c : info_class) : outcome (info F) :=
  let* (edition, packing) := edition_and_packing k in
  let* e := k_long k "binaryScaleFactor" in
  let* d := k_long k "decimalScaleFactor" in
  let* bits := k_long k "bitsPerValue" in
  let* r := k_double k "referenceValue" in
  let* before := k_long k "offsetBeforeData" in
  let* after := k_long k "offsetAfterData" in
  let* points := k_long k "numberOfDataPoints" in
  let* values := k_long k "numberOfValues" in
  let* spherical := (if k_has k "sphericalHarmonics" then k_long k "sphericalHarmonics" else Ok 0%Z) in
  let* total := k_long k "totalLength" in
  let* md5 := k_string k "md5GridSection" in
  let* bitmap := bitmap_offset k edition in
  Ok (mk_info F current_version r e d edition (u64_of_Z bits) before after bitmap (u64_of_Z values)
        (u64_of_Z points) total spherical md5 packing c).

(* JumpInfo.cc:66-111 *)
Definition jump_info_of_message (k : codes) (c : info_class) : outcome (info F) :=
  let* (edition, packing) := edition_and_packing k in
  let* e := k_long k "binaryScaleFactor" in
  let* d := k_long k "decimalScaleFactor" in
  let* r := k_double k "referenceValue" in
  let* md5 := k_string k "md5GridSection" in
  let* bits := k_long k "bitsPerValue" in
  let* before := k_long k "offsetBeforeData" in
  let* after := k_long k "offsetAfterData" in
  let* points := k_long k "numberOfDataPoints" in
  let* values := k_long k "numberOfValues" in
  let* total := k_long k "totalLength" in
  let* bitmap := bitmap_offset k edition in
  let* spherical := match k_long k "sphericalHarmonics" with
                    | Ok z => Ok z
                    | Throw _ => Ok 0%Z
                    | UB => UB
                    end in
  Ok (mk_info F current_version r e d edition (u64_of_Z bits) before after bitmap (u64_of_Z values)
        (u64_of_Z points) total spherical md5 packing c).

(* the info with the members of the subclass filled in *)
Definition with_class (i : info F) (c : info_class) : info F :=
  mk_info F (i_version i) (i_reference i) (i_binary_scale i) (i_decimal_scale i) (i_edition i)
    (i_bits_per_value i) (i_offset_before_data i) (i_offset_after_data i) (i_offset_before_bitmap i)
    (i_number_of_values i) (i_number_of_points i) (i_total_length i) (i_spherical i) (i_md5 i) (i_packing i) c.

Variable aec_full : aec_full_oracle.
(* the contents of a new eckit::Buffer *)
Variable fresh : Z -> list N.
Variable grib_at : list N -> Z -> outcome (option codes).

(* eckit::Buffer(len), seek, read into the buffer; the number of bytes read is not looked at
   (CcsdsInfo.cc:36-41 and 63-68) *)
Definition read_buffer (bytes : list N) (pos len : Z) : outcome (list N) :=
  let* _ := alloc (u64_of_Z len) 1 in
  if (pos <? 0)%Z then Throw ERead
  else let got := slice bytes (Z.to_nat pos) (Z.to_nat len) in
       Ok (got ++ skipn (length got) (fresh len)).

Definition optional_long (k : codes) (name : string) : outcome N :=
  if k_has k name then omap u64_of_Z (k_long k name) else Ok 0%N.

(* CcsdsInfo.cc:23-56 *)
Definition ccsds_info (bytes : list N) (k : codes) (start : Z) : outcome (info F) :=
  let* i := jump_info k (CcsdsInfo 0 0 0 []) in
  let* flags := optional_long k "ccsdsFlags" in
  let* block_size := optional_long k "ccsdsBlockSize" in
  let* rsi := optional_long k "ccsdsRsi" in
  if ((i_bits_per_value i =? 0)%N || (i_offset_after_data i =? i_offset_before_data i)%Z)
  then Ok (with_class i (CcsdsInfo flags block_size rsi []))
  else
    let len := (i_offset_after_data i - i_offset_before_data i)%Z in
    let* _ := assert_ (0 <? len)%Z in
    let* buffer := read_buffer bytes (start + i_offset_before_data i)%Z len in
    let* offsets := ccsds_decode_offsets aec_full flags (i_bits_per_value i) block_size rsi
                      (i_number_of_values i) buffer in
    Ok (with_class i (CcsdsInfo flags block_size rsi offsets)).

(* CcsdsInfo.cc:58-81; std::optional::value() throws when there are no offsets (Ccsds.h:33-35) *)
Definition ccsds_info_of_message (bytes : list N) (k : codes) : outcome (info F) :=
  let* i := jump_info_of_message k (CcsdsInfo 0 0 0 []) in
  let* flags := omap u64_of_Z (k_long k "ccsdsFlags") in
  let* block_size := omap u64_of_Z (k_long k "ccsdsBlockSize") in
  let* rsi := omap u64_of_Z (k_long k "ccsdsRsi") in
  let* buffer := read_buffer bytes (i_offset_before_data i)
                   (i_offset_after_data i - i_offset_before_data i)%Z in
  let* (_, offsets) := ccsds_decode_all aec_full (fun x => x) flags (i_bits_per_value i) block_size rsi
                         (i_number_of_values i) buffer in
  match offsets with
  | [] => Throw EBadOptional
  | _ => Ok (with_class i (CcsdsInfo flags block_size rsi offsets))
  end.

(* InfoFactory::get, lines 91-103, over the builders registered in SimpleInfo.cc, CcsdsInfo.cc, UnsupportedInfo.cc *)
Inductive builder := BSimple | BCcsds | BUnsupported.
Definition builders : list (string * builder) :=
  [("grid_ccsds", BCcsds); ("grid_simple", BSimple); ("unsupported", BUnsupported)]%string.
Fixpoint find_builder (name : string) (l : list (string * builder)) : option builder :=
  match l with
  | [] => None
  | (n, b) :: r => if String.eqb n name then Some b else find_builder name r
  end.
Definition get_builder (name : string) : outcome builder :=
  match find_builder name builders with
  | Some b => Ok b
  | None => match find_builder "unsupported" builders with Some b => Ok b | None => Throw EAssert end
  end.

(* InfoFactory::build(handle, offset), lines 42-59 *)
Definition build (bytes : list N) (off : Z) : outcome (info F) :=
  if (off <? 0)%Z then Throw ERead
  else
    let* h := grib_at bytes off in
    match h with
    | None => Throw EAssert
    | Some k =>
        let* packing := k_string k "packingType" in
        let* b := get_builder packing in
        match b with
        | BSimple => jump_info k SimpleInfo
        | BUnsupported => jump_info k UnsupportedInfo
        | BCcsds => ccsds_info bytes k off
        end
    end.

(* InfoFactory::build(message), lines 61-68; bytes are those of the message *)
Definition build_of_message (bytes : list N) (k : codes) : outcome (info F) :=
  let* packing := k_string k "packingType" in
  let* b := get_builder packing in
  match b with
  | BSimple => jump_info_of_message k SimpleInfo
  | BUnsupported => jump_info_of_message k UnsupportedInfo
  | BCcsds => ccsds_info_of_message bytes k
  end.

(* ---- InfoExtractor ---- *)
Variable files : string -> option (list N).

(* openForRead of a missing file *)
Definition open_file (path : string) : outcome (list N) :=
  match files path with Some b => Ok b | None => Throw ERead end.

(* extract(path, offset), lines 123-135 *)
Definition extract_info (path : string) (off : Z) : outcome (info F) :=
  let* bytes := open_file path in build bytes off.

(* extract(path, offsets), lines 104-121: the file is opened inside the loop, once per offset *)
Definition extract_infos (path : string) (offs : list Z) : outcome (list (info F)) :=
  mapM (extract_info path) offs.

(* offsets(path), lines 141-167: codes_extract_offsets_malloc gives an error or the offsets *)
Variable codes_offsets : string -> option (list Z).
Variable scan_corrupted : bool.
Variable buffer_size : nat.
Definition extract_offsets (path : string) : outcome (list Z) :=
  match codes_offsets path with
  | Some offs => Ok offs
  | None => if scan_corrupted
            then let* bytes := open_file path in
                 omap (map s64) (find_grib_offsets buffer_size bytes)
            else Throw EAssert
  end.

(* extract(path), lines 88-102 *)
Definition extract_all (path : string) : outcome (list (Z * info F)) :=
  let* offs := extract_offsets path in
  let* infos := extract_infos path offs in
  Ok (combine offs infos).
End Codes.
Arguments codes : clear implicits.
