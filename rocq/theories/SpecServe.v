(* Vocabulary to state that a scanned catalogue can be served without describing messages from the data files. *)
From Coq Require Import QArith.
From Verif Require Import Base ModelInfo ModelBuild ModelJumper ModelCcsds ModelStream ModelIndex SpecIndex ModelCache ModelEngine
  SpecCache SpecEngine SpecSystem.
Open Scope nat_scope.

Section Serve.
Context {F : Type}.
Variable g : ModelCache.config.

(* the index file of p has a record for the message at off *)
Definition recorded (d : @disk F) (p : string) (off : Z) : Prop :=
  exists m i, load_index d (cache_file_path g p) = Ok m /\ mfind off m = Some (Some i).

(* calls after which every record is still there: all but a flush that replaces the index files *)
Definition keeps_records (q : @call F) : Prop := match q with CFlush false => False | _ => True end.

(* FileScanTask::executeImpl, Task.cc:334-348: no offsets mean the whole file *)
Definition scan_call (job : string * list Z) : @call F :=
  match snd job with [] => CScanFile (fst job) true | offs => CScan (fst job) (zsort offs) end.

(* the messages a job is about *)
Definition job_covers (found : string -> outcome (list Z)) (job : string * list Z) (off : Z) : Prop :=
  match snd job with
  | [] => exists offs, found (fst job) = Ok offs /\ In off offs
  | offs => In off offs
  end.

(* a process that starts with the index files of d, and has made any calls since that keep the records *)
Definition serving (o : outside F) (P : string -> Prop) (d : @disk F) (c : @cache F) : Prop :=
  exists cap calls log, 1 <= cap /\ Forall (true_call (describe o) P) calls /\ Forall keeps_records calls /\
    c_calls (o_uniq o) (describe o) (find_offsets o) g (cache_new d cap) calls = (c, log).

(* the same surroundings, but for what eccodes says of messages and files *)
Definition other_eccodes (o : outside F) (full : aec_full_oracle) (grib_at : list N -> Z -> outcome (option (codes F)))
    (offsets : string -> option (list Z)) : outside F :=
  mk_outside F (o_arith o) (o_aec o) full grib_at (o_files o) offsets (o_scan_corrupted o) (o_buffer_size o)
    (o_fresh o) (o_uniq o) (o_sorter o) (o_pieces o) (o_forward o) (o_list o).
End Serve.

(* the catalogue of SpecSystem, with extraction on demand switched off *)
Definition serve_cache : ModelCache.config := ModelCache.mk_config true "" false.
Definition serve_jobs : list (string * list Z) := [("/fdb/x.data"%string, [12; 4]%Z)].
Definition serve_disk : @disk Q :=
  c_disk (fst (c_calls (o_uniq one_file) (describe one_file) (find_offsets one_file) serve_cache
                 (cache_new (fun _ => None) 1) (map scan_call serve_jobs))).
Definition serve_state (p : string) (offs : list Z) : @cache Q := cache_new serve_disk 2.
(* eccodes fails on every message *)
Definition no_eccodes : outside Q :=
  other_eccodes one_file (fun _ _ _ => None) (fun _ _ => Throw ELibrary) (fun _ => None).
