(* When extracting from a message is free of undefined behaviour. *)
From Coq Require Import Permutation Sorted.
From Verif Require Import Base ModelSimple ModelCcsds ModelInfo ModelJumper ModelStrings ModelBuild ModelEngine SpecSimple SpecJumper SpecEngine
     SpecSystem.
Open Scope nat_scope.

(* ranges as pairs of size_t with begin <= end; nothing about the field *)
Definition plain_ranges (l : list (N * N)) : Prop := Forall (fun i => fst i <= snd i < two64)%N l.

Section Sane.
Context {F : Type}.
Variable inf : info F.
(* the only things asked of a description: if CCSDS intervals are used at all they are not empty (the size of an
   interval in octets is computed modulo 2^64), and the number of points is not within 7 of 2^64 *)
Definition sane_info : Prop :=
  (i_number_of_points inf + 7 < two64)%N /\
  match i_class inf with
  | CcsdsInfo _ block_size rsi offsets =>
      i_bits_per_value inf = 0%N \/ offsets = [] \/
      ((rsi * block_size * sample_nbytes (i_bits_per_value inf)) mod two64 <> 0)%N
  | _ => True
  end.

(* a request that passes the checks on a field with a bitmap that can be read, and ends behind the field *)
Definition beyond_bitmap (file : list N) (offset : Z) (l : list (N * N)) : Prop :=
  (i_packing inf = "grid_simple" \/ i_packing inf = "grid_ccsds")%string /\
  l <> [] /\ Sorted (fun a b => snd a <= fst b)%N l /\ i_spherical inf = 0%Z /\
  i_bits_per_value inf <> 0%N /\ i_offset_before_bitmap inf <> 0%Z /\
  (i_number_of_points inf = 0%N \/ bitmap_in_file file offset inf) /\
  Exists (fun i => i_number_of_points inf < snd i)%N l.
End Sane.

(* libaec returns as many samples as it was asked for, or fails *)
Definition counts_samples (aec : aec_oracle) : Prop :=
  forall p enc o n s, aec p enc o n = Some s -> lenN s = n.

(* ---- whole calls ---- *)
Definition no_death {V} (ok : V -> Prop) (x : outcome V) : Prop :=
  match x with Ok v => ok v | Throw _ => True | UB => False end.

(* a file map over known items: no file without items, and the offsets of the items can be asked for *)
Definition well_grouped {F} (fm : list (string * list string)) (its : list (string * @item F)) : Prop :=
  forall p ks, In (p, ks) fm -> ks <> [] /\ forall k, In k ks -> exists i, sfind k its = Some i /\ u_offset (it_uri i) <> UB.

Section Calls.
Context {F : Type}.
Variable w : world F.
Variable P : string -> Prop.             (* the data files in use *)

(* What is asked of the surroundings of the engine.  File contents, descriptions and remote messages are
   otherwise arbitrary: they need not belong together or be GRIB at all. *)
Record defined_world : Prop := {
  dw_aec : counts_samples (w_aec w);
  dw_files : forall p b, w_files w p = Some b -> is_bytes b;
  dw_sorter : forall l, Permutation l (w_sorter w l);
  dw_cache : forall p offs, P p -> no_death (fun infos => length infos = length offs /\ Forall sane_info infos) (w_cache_get w p offs);
  dw_build : forall bytes, no_death sane_info (w_build_info w bytes);
  dw_pieces : forall u n, no_death (Forall is_bytes) (w_pieces w u n);
  dw_fresh : forall n, is_bytes (w_fresh w n);
  dw_forward : forall fm its, well_grouped fm its -> w_forward w fm its <> UB;
  dw_list : forall u, no_death (Forall (fun e => P (u_path (l_uri e)) /\ u_offset (l_uri e) <> UB /\ u_length (l_uri e) <> UB)) (w_list w u)
}.

(* the octets, offset and description of the message that a task for the file p and the location u extracts
   from: at that offset of the file with what the cache says of that place, or read through fdb *)
Definition taken_from (p : string) (u : uri) (bytes : list N) (off : Z) (inf : info F) : Prop :=
  (w_files w p = Some bytes /\ u_offset u = Ok off /\
   exists offs infos k, w_cache_get w p offs = Ok infos /\ nth_error offs k = Some off /\ nth_error infos k = Some inf) \/
  (u_scheme u = "fdb"%string /\ off = 0%Z /\ w_build_info w bytes = Ok inf /\
   exists n, u_length u = Ok n /\ buffer_of (w_pieces w) (w_fresh w) u n = Ok bytes).

(* the ranges are not ranges, or lie outside the bitmap of the message *)
Definition deadly (p : string) (u : uri) (l : list (N * N)) : Prop :=
  ~ plain_ranges l \/ exists bytes off inf, taken_from p u bytes off inf /\ beyond_bitmap inf bytes off l.
End Calls.

(* ---- with the info cache and the description of messages in place of oracles ---- *)

(* eccodes answers for a message with non-empty CCSDS blocks and intervals; the sizes of the octets of GRIB 2 template
   5.42 are respected *)
Definition sane_answers {F} (k : codes F) : Prop :=
  (forall z, k_long k "numberOfDataPoints" = Ok z -> (0 <= z < 9223372036854775808)%Z) /\
  (k_string k "packingType" = Ok "grid_ccsds"%string ->
     (forall z, k_long k "bitsPerValue" = Ok z -> (0 <= z < 256)%Z) /\
     k_has k "ccsdsBlockSize" = true /\ (forall z, k_long k "ccsdsBlockSize" = Ok z -> (0 < z < 256)%Z) /\
     k_has k "ccsdsRsi" = true /\ (forall z, k_long k "ccsdsRsi" = Ok z -> (0 < z < 65536)%Z)).

Section System.
Context {F : Type}.
Variable o : outside F.
Variable P : string -> Prop.
Record defined_outside : Prop := {
  do_aec : counts_samples (o_aec o);
  do_files : forall p b, o_files o p = Some b -> is_bytes b;
  do_eccodes : forall bytes off k, o_grib_at o bytes off = Ok (Some k) -> sane_answers k;
  do_pieces : forall u n, no_death (Forall is_bytes) (o_pieces o u n);
  do_fresh : forall n, is_bytes (o_fresh o n);
  do_forward : forall fm its, well_grouped fm its -> o_forward o fm its <> UB;
  do_list : forall u, no_death (Forall (fun e => P (u_path (l_uri e)) /\ u_offset (l_uri e) <> UB /\ u_length (l_uri e) <> UB)) (o_list o u)
}.
(* begin <= end, and if the message has a bitmap the ranges end within its points *)
Definition within_bitmap (e : listed) (l : list (N * N)) : Prop :=
  plain_ranges l /\
  forall off inf, u_offset (l_uri e) = Ok off -> describe o (u_path (l_uri e)) off = Ok inf ->
    i_bits_per_value inf <> 0%N -> i_offset_before_bitmap inf <> 0%Z ->
    Forall (fun i => snd i <= i_number_of_points inf)%N l.
(* the same for the message at an offset of a file *)
Definition within_points (path : string) (off : Z) (l : list (N * N)) : Prop :=
  plain_ranges l /\
  forall inf, describe o path off = Ok inf -> i_bits_per_value inf <> 0%N -> i_offset_before_bitmap inf <> 0%Z ->
    Forall (fun i => snd i <= i_number_of_points inf)%N l.
End System.
