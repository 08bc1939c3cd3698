(* Model of IndexFile, src/gribjump/info/InfoCache.cc:292-458, and of the files it reads and
   writes.  std::map<Offset, shared_ptr<JumpInfo>> is a list sorted by offset; a null pointer is
   None.  The mutexes are not modelled (each method holds its own for its whole duration). *)
From Verif Require Import Base ModelInfo ModelStream.

Section Map.
Context {V : Type}.

Fixpoint mfind (k : Z) (m : list (Z * V)) : option V :=
  match m with
  | [] => None
  | (k', v) :: r => if (k =? k')%Z then Some v else mfind k r
  end.

(* std::map::insert: does nothing if the key is there *)
Fixpoint minsert (k : Z) (v : V) (m : list (Z * V)) : list (Z * V) :=
  match m with
  | [] => [(k, v)]
  | (k', v') :: r =>
      if (k <? k')%Z then (k, v) :: m
      else if (k =? k')%Z then m
      else (k', v') :: minsert k v r
  end.

(* map[k] = v *)
Fixpoint mset (k : Z) (v : V) (m : list (Z * V)) : list (Z * V) :=
  match m with
  | [] => [(k, v)]
  | (k', v') :: r =>
      if (k <? k')%Z then (k, v) :: m
      else if (k =? k')%Z then (k, v) :: r
      else (k', v') :: mset k v r
  end.
End Map.

Definition file_ext : string := ".gribjump".            (* line 31 *)

(* eckit::PathName::extension: from the last '.' of the path on; empty if the last component
   has none *)
Fixpoint extension_ (s : string) (acc : option string) : option string :=
  match s with
  | EmptyString => acc
  | String c r =>
      if Ascii.eqb c "/"%char then extension_ r None
      else if Ascii.eqb c "."%char then extension_ r (Some s)
      else extension_ r acc
  end.
Definition extension (s : string) : string :=
  match extension_ s None with Some e => e | None => EmptyString end.

(* eckit::PathName::baseName: what follows the last '/' *)
Fixpoint base_name_ (s acc : string) : string :=
  match s with
  | EmptyString => acc
  | String c r => if Ascii.eqb c "/"%char then base_name_ r r else base_name_ r acc
  end.
Definition base_name (s : string) : string := base_name_ s s.

Section Index.
Context {F : Type}.
Notation ptr := (option (info F)).
Notation imap := (list (Z * ptr)).
Notation stream := (list (tok F)).

(* the file system: path to content *)
Definition disk := string -> option stream.
Definition upd (d : disk) (p : string) (c : option stream) : disk :=
  fun q => if String.eqb q p then c else d q.

(* primitive effects on the file system, in the order the process makes them *)
Inductive file_op :=
| OpTrunc (p : string)                    (* fopen "w" *)
| OpAppend (p : string) (s : stream)      (* data reaching the file *)
| OpRename (p q : string).                (* rename(2): atomic *)

Definition apply_op (d : disk) (o : file_op) : disk :=
  match o with
  | OpTrunc p => upd d p (Some [])
  | OpAppend p s => upd d p (Some (match d p with Some c => c ++ s | None => s end))
  | OpRename p q => upd (upd d q (d p)) p None
  end.

Definition apply_ops (d : disk) (l : list file_op) : disk := fold_left apply_op l d.

(* the process dies: the effects so far are a prefix; the data of the append in progress may
   have reached the file in part, and the last primitive in part *)
Definition torn_of (s cut : stream) : Prop :=
  exists p rest, s = p ++ rest /\ (cut = p \/ (exists t r, rest = t :: r /\ t <> KStart /\ t <> KEnd) /\ cut = p ++ [KTorn]).

Definition crashed (d : disk) (l : list file_op) (d' : disk) : Prop :=
  exists done rest, l = done ++ rest /\
    (d' = apply_ops d done \/
     exists p s cut r, rest = OpAppend p s :: r /\ torn_of s cut /\ d' = apply_op (apply_ops d done) (OpAppend p cut)).

(* lines 325-328 and 368-371: one entry; a null pointer is dereferenced *)
Definition w_entry (e : Z * ptr) : outcome stream :=
  match snd e with
  | Some i => Ok ([KStart; KLL (fst e)] ++ w_info i ++ [KEnd])
  | None => UB
  end.

Definition w_entries (m : imap) : outcome stream :=
  let* l := mapM w_entry m in Ok (List.concat l).

Definition index_version : N := 1.                      (* InfoCache.h, currentVersion_ *)

(* encode, lines 320-330 *)
Definition w_index (m : imap) : outcome stream :=
  let* s := w_entries m in Ok (KU8 index_version :: s).

(* decode, lines 332-346, into an existing map.  Every turn consumes at least one token. *)
Fixpoint r_entries (fuel : nat) (m : imap) (s : stream) : outcome imap :=
  match fuel with
  | O => Throw ESeriousBug
  | S fuel' =>
      let* (more, s) := s_next s in
      if more then
        let* (off, s) := r_ll s in
        let* (p, s) := r_info s in
        r_entries fuel' (minsert off p m) s
      else Ok m
  end.

Definition r_index (m : imap) (s : stream) : outcome imap :=
  let* (v, s) := r_u8 s in
  let* _ := assert_ (v =? index_version)%N in
  r_entries (S (length s)) m s.

(* an IndexFile object *)
Record index := mk_index { x_path : string; x_loaded : bool; x_map : imap }.

Definition new_index (p : string) : index := mk_index p false [].     (* line 292 with autoload false *)

(* load, lines 299-312 *)
Definition x_load (d : disk) (x : index) : outcome index :=
  if x_loaded x then Ok x
  else match d (x_path x) with
       | Some s => let* m := r_index (x_map x) s in Ok (mk_index (x_path x) true m)
       | None => Ok (mk_index (x_path x) true (x_map x))
       end.

(* clear, lines 415-419 *)
Definition x_clear (x : index) : index := mk_index (x_path x) false [].

(* reload, lines 315-318 *)
Definition x_reload (d : disk) (x : index) : outcome index := x_load d (x_clear x).

(* insert, lines 421-424 *)
Definition x_insert (x : index) (off : Z) (p : ptr) : index :=
  mk_index (x_path x) (x_loaded x) (minsert off p (x_map x)).

(* find, lines 427-434 *)
Definition x_find (x : index) (off : Z) : ptr :=
  match mfind off (x_map x) with Some p => p | None => None end.

(* toNewFile, lines 348-353 *)
Definition to_new_file (m : imap) (p : string) : outcome (list file_op) :=
  let* _ := assert_ (String.eqb (extension p) file_ext) in
  let* s := w_index m in
  Ok [OpTrunc p; OpAppend p s].

(* appendToFile, lines 355-374 *)
Definition append_to_file (d : disk) (m : imap) (p : string) : outcome (list file_op) :=
  let* _ := assert_ (String.eqb (extension p) file_ext) in
  match d p with
  | None => to_new_file m p
  | Some _ => let* s := w_entries m in Ok [OpAppend p s]
  end.

(* write, lines 392-403; [uniq] is eckit::PathName::unique *)
Definition x_write (uniq : string -> string) (x : index) : outcome (list file_op) :=
  let tmp := (uniq (x_path x) ++ file_ext)%string in
  let* ops := to_new_file (x_map x) tmp in
  let* _ := assert_ (String.eqb (extension (x_path x)) file_ext) in
  Ok (ops ++ [OpRename tmp (x_path x)]).

(* flush, lines 405-413: effects on the disk *)
Definition x_flush (uniq : string -> string) (d : disk) (x : index) (append : bool) : outcome (list file_op) :=
  if append then append_to_file d (x_map x) (x_path x) else x_write uniq x.

(* merge, lines 382-390 *)
Definition x_merge (x other : index) : index :=
  mk_index (x_path x) (x_loaded x) (fold_left (fun m e => minsert (fst e) (snd e) m) (x_map other) (x_map x)).

(* get, lines 449-458 *)
Definition x_get (d : disk) (x : index) (offs : list Z) : outcome imap :=
  let* x := x_load d x in
  Ok (fold_left (fun m o => match x_find x o with Some i => minsert o (Some i) m | None => m end) offs []).
End Index.
