(* Vocabulary to state what index files should contain. *)
From Coq Require Import Sorted.
From Verif Require Import Base ModelInfo ModelStream ModelIndex.

Section Spec.
Context {F : Type}.

(* records: an offset and a description *)
Notation records := (list (Z * info F)).

(* as the contents of a std::map of non-null pointers *)
Definition lift (l : records) : list (Z * option (info F)) := map (fun e => (fst e, Some (snd e))) l.

Definition sorted_keys {V} (m : list (Z * V)) : Prop := StronglySorted (fun a b => (fst a < fst b)%Z) m.

(* what a process that starts now sees when it loads the index file p *)
Definition load_index (d : @disk F) (p : string) : outcome (list (Z * option (info F))) :=
  omap x_map (x_load d (new_index p)).

(* the index file p holds, for every offset, the first record of [l] for it *)
Definition index_holds (d : @disk F) (p : string) (l : records) : Prop :=
  exists m, load_index d p = Ok m /\ sorted_keys m /\
            forall off, mfind off m = option_map Some (mfind off l).

(* several batches written to p one after another, by fresh index objects (the first creates
   the file if it is not there) *)
Fixpoint append_batches (d : @disk F) (p : string) (bs : list records) : outcome (@disk F) :=
  match bs with
  | [] => Ok d
  | b :: r => let* ops := append_to_file d (lift b) p in append_batches (apply_ops d ops) p r
  end.

Definition index_path (p : string) : Prop := exists q, p = (q ++ file_ext)%string.

(* the index file p was written by complete writes and appends of the records l (or does not
   exist) *)
Definition complete_file (d : @disk F) (p : string) (l : records) : Prop :=
  (d p = None /\ l = []) \/ (exists s, w_index (lift l) = Ok s /\ d p = Some s).

(* loading after a crash while the batch b was appended to the records l0: no wrong record, and
   the old records are all there; or an exception *)
Definition crash_result (l0 b : records) (r : outcome (list (Z * option (info F)))) : Prop :=
  match r with
  | Ok m => (forall off i, mfind off m = Some (Some i) -> mfind off (l0 ++ b) = Some i) /\
            (forall off i, mfind off l0 = Some i -> mfind off m = Some (Some i))
  | Throw e => e = EStream
  | UB => False
  end.

(* a description to be used in examples *)
Definition sample (f : F) (points : N) (md5 : string) : info F :=
  mk_info F 1 f 2 0 2 16 100 200 0 points points 300 0 md5 "grid_simple" SimpleInfo.
Definition sample_ccsds (f : F) (offs : list N) : info F :=
  mk_info F 1 f 2 0 2 16 100 200 0 5 5 300 0 "abc" "grid_ccsds" (CcsdsInfo 14 32 128 offs).
End Spec.
