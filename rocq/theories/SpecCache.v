(* Vocabulary to state what lookups and scans should do. *)
From Verif Require Import Base ModelInfo ModelStream ModelIndex SpecIndex ModelLRU ModelCache.

Section Spec.
Context {F : Type}.
Notation records := (list (Z * info F)).

(* different files have different index files and different keys in the memory cache *)
Definition names_apart (g : config) (P : string -> Prop) : Prop :=
  forall p q, P p -> P q ->
    (cache_file_path g p = cache_file_path g q -> p = q) /\
    (forall o o', cachekey p o = cachekey q o' -> p = q /\ o = o').

(* temporary files have other names than the index files *)
Definition fresh_names (uniq : string -> string) (g : config) (P : string -> Prop) : Prop :=
  forall p q, P p -> P q -> (uniq (cache_file_path g p) ++ file_ext)%string <> cache_file_path g q.

(* every record of every index file describes the message it is filed under *)
Definition true_disk (data : string -> Z -> outcome (info F)) (g : config) (P : string -> Prop) (d : @disk F) : Prop :=
  forall p, P p -> exists l, complete_file d (cache_file_path g p) l /\
                             Forall (fun e => data p (fst e) = Ok (snd e)) l.

(* calls about the files in P only; what is inserted is true *)
Definition true_call (data : string -> Z -> outcome (info F)) (P : string -> Prop) (q : @call F) : Prop :=
  match q with
  | CGet p _ | CScan p _ | CScanFile p _ => P p
  | CInsert p o i => P p /\ data p o = Ok i
  | CFlush _ | CClear => True
  end.

(* one answered call of a history: never undefined behaviour; a lookup returns one description
   per offset, each the description of the message at that offset of that file; and it does not
   fail when extraction on demand is allowed, the offsets are distinct and the messages are fine *)
Definition good_answer (data : string -> Z -> outcome (info F)) (g : config) (e : @call F * outcome (@answer F)) : Prop :=
  snd e <> UB /\
  forall p offs, fst e = CGet p offs ->
    (forall ans, snd e = Ok ans ->
       exists infos, ans = AInfos infos /\ Forall2 (fun o i => data p o = Ok i) offs infos) /\
    (g_lazy g = true -> NoDup offs -> (forall o, In o offs -> exists i, data p o = Ok i) ->
       exists infos, snd e = Ok (AInfos infos)).

(* a base name that does not end in a digit or a minus sign *)
Fixpoint ends_plain (s : string) : bool :=
  match s with
  | EmptyString => false
  | String c EmptyString =>
      let n := nat_of_ascii c in negb ((Nat.leb 48 n && Nat.leb n 57) || Nat.eqb n 45)
  | String _ r => ends_plain r
  end.

(* offset not held by the memory cache nor by the index map m *)
Definition nowhere (c : @cache F) (path : string) (m : list (Z * option (info F))) (o : Z) : Prop :=
  lru_exists string_dec (c_lru c) (cachekey path o) = false /\ (mfind o m = None \/ mfind o m = Some None).

(* m' is the map m completed with the messages at the offsets offs: what was there stays, what
   is new describes the message at its offset, and every offset of offs is there *)
Definition completes (data : string -> Z -> outcome (info F)) (p : string) (offs : list Z)
    (m m' : list (Z * option (info F))) : Prop :=
  (forall o v, mfind o m = Some v -> mfind o m' = Some v) /\
  (forall o v, mfind o m' = Some v -> mfind o m = None -> In o offs /\ exists i, v = Some i /\ data p o = Ok i) /\
  (forall o, In o offs -> exists v, mfind o m' = Some v).

(* inserts, in order *)
Definition insert_calls (l : list (string * Z * info F)) : list (@call F) :=
  map (fun e => CInsert (fst (fst e)) (snd (fst e)) (snd e)) l.

(* the inserted records that go to the index file fp, in order *)
Definition inserted_for (g : config) (fp : string) (l : list (string * Z * info F)) : records :=
  map (fun e => (snd (fst e), snd e)) (filter (fun e => String.eqb fp (cache_file_path g (fst (fst e)))) l).

(* calls that leave the file system alone and drop nothing that was inserted; inserts *)
Definition no_write (q : @call F) : Prop := match q with CInsert _ _ _ | CGet _ _ | CClear => True | _ => False end.
Definition is_insert (q : @call F) : bool := match q with CInsert _ _ _ => true | _ => false end.
End Spec.

(* the data of two files as an example oracle *)
Definition ex_data (p : string) (o : Z) : outcome (info Z) :=
  if String.eqb p "/a/x.data" then
    if (o =? 0)%Z then Ok (sample 1%Z 5 "m0") else if (o =? 300)%Z then Ok (sample 2%Z 6 "m1") else Throw ELibrary
  else if String.eqb p "/a/y.data" then if (o =? 0)%Z then Ok (sample 3%Z 7 "m2") else Throw ELibrary
  else Throw ERead.
Definition ex_offsets (p : string) : outcome (list Z) := if String.eqb p "/a/x.data" then Ok [0; 300]%Z else Ok [0]%Z.
Definition ex_cfg : config := mk_config true "" true.
Definition ex_uniq (p : string) : string := ("/tmp/u" ++ base_name p)%string.
