(* Model of the factories and of the static objects that fill them: jumper/JumperFactory.{h,cc}, info/InfoFactory.{h,cc},
   GribJumpFactory.{h,cc}; SimpleJumper.cc:52, CcsdsJumper.cc:60, SimpleInfo.cc:42, CcsdsInfo.cc:125,
   UnsupportedInfo.cc:43, LocalGribJump.cc:145, RemoteGribJump.cc:168.

   C++: static objects are constructed in an order that the program fixes within a file only; at exit, they and the
   function-local statics are destroyed in the reverse order of the completion of their constructors.  An exception that
   leaves the constructor or destructor of a static object ends the program (std::terminate), here [Throw].

   Simplifications: a std::map is a list in order of insertion (keys are unique); every call under a factory's mutex is one
   step; a builder's [make] is the type of what it makes. *)
From Verif Require Import Base ModelStrings.
Local Open Scope nat_scope.

Inductive factory := Jumpers | Infos | Implementations.
Inductive made := ASimpleJumper | ACcsdsJumper | ASimpleInfo | ACcsdsInfo | AnUnsupportedInfo | ALocalGribJump | ARemoteGribJump.
Definition factory_eqb (a b : factory) : bool :=
  match a, b with Jumpers, Jumpers | Infos, Infos | Implementations, Implementations => true | _, _ => false end.

(* JumperBuilder<T>(name), InfoBuilder<T>(name), GribJumpBuilder<T>(name) *)
Record builder := mk_builder { bu_factory : factory; bu_name : string; bu_makes : made }.

(* builders_ of JumperFactory and InfoFactory, *m of GribJumpFactory: name -> address of the builder *)
Definition table := list (string * nat).
Inductive singleton := Absent | Alive (t : table) | Destroyed.
Record process := mk_process {
  p_single : factory -> singleton;
  p_live : list (nat * builder)       (* the builders that exist, by address *)
}.
Definition fresh_process : process := mk_process (fun _ => Absent) [].
Definition set_single (f : factory) (s : singleton) (p : process) : process :=
  mk_process (fun g => if factory_eqb g f then s else p_single p g) (p_live p).

Fixpoint tfind (name : string) (t : table) : option nat :=
  match t with [] => None | (n, a) :: r => if String.eqb n name then Some a else tfind name r end.
Definition terase (name : string) (t : table) : table := filter (fun e => negb (String.eqb (fst e) name)) t.
Fixpoint live (a : nat) (l : list (nat * builder)) : option builder :=
  match l with [] => None | (x, b) :: r => if Nat.eqb x a then Some b else live a r end.

(* what the exit of the program has to do, the last first *)
Inductive pending := EndFactory (f : factory) | EndBuilder (a : nat) | EndClient (uses : list (factory * string)).

(* JumperFactory.cc:36-39, InfoFactory.cc:37-40: the function-local static is constructed by the first call, destroyed at exit.
   GribJumpFactory.cc:19-27: pthread_once, the map is never deleted *)
Definition instance (f : factory) (p : process) : outcome (table * list pending) :=
  match p_single p f with
  | Alive t => Ok (t, [])
  | Absent => Ok ([], match f with Implementations => [] | _ => [EndFactory f] end)
  | Destroyed => UB
  end.

(* JumperFactory.cc:50-58, InfoFactory.cc:70-78, GribJumpFactory.cc:30-36 *)
Definition enregister (f : factory) (name : string) (a : nat) (t : table) : outcome table :=
  match tfind name t with
  | Some _ => match f with Implementations => Throw EAssert | _ => Throw ESeriousBug end
  | None => Ok (t ++ [(name, a)])
  end.
(* JumperFactory.cc:60-69, InfoFactory.cc:80-89; GribJumpFactory.cc:38-42 erases whatever is there *)
Definition deregister (f : factory) (name : string) (t : table) : outcome table :=
  match f, tfind name t with
  | Implementations, _ => Ok (terase name t)
  | _, None => Throw ESeriousBug
  | _, Some _ => Ok (terase name t)
  end.
(* JumperFactory.cc:71-80; InfoFactory.cc:91-103; GribJumpFactory.cc:44-60 *)
Definition get_address (f : factory) (name : string) (t : table) : outcome nat :=
  match tfind name t with
  | Some a => Ok a
  | None =>
      match f with
      | Infos => match tfind "unsupported" t with Some a => Ok a | None => Throw EAssert end
      | _ => Throw ESeriousBug
      end
  end.
(* builder->make() *)
Definition make (p : process) (a : nat) : outcome made :=
  match live a (p_live p) with Some b => Ok (bu_makes b) | None => UB end.
(* the table a call sees; a lookup in a factory that nobody has filled finds nothing *)
Definition table_of (f : factory) (p : process) : outcome table :=
  match p_single p f with Alive t => Ok t | Absent => Ok [] | Destroyed => UB end.
Definition lookup (f : factory) (name : string) (p : process) : outcome made :=
  let* t := table_of f p in
  let* a := get_address f name t in
  make p a.

(* the constructor of a builder at address a, and its destructor *)
Definition construct (a : nat) (b : builder) (p : process) : outcome (process * list pending) :=
  let f := bu_factory b in
  let* (t, ends) := instance f p in
  let* t' := enregister f (bu_name b) a t in
  let q := set_single f (Alive t') p in
  Ok (mk_process (p_single q) ((a, b) :: p_live q), EndBuilder a :: ends).
Definition destroy (a : nat) (p : process) : outcome process :=
  match live a (p_live p) with
  | None => UB
  | Some b =>
      let f := bu_factory b in
      let* (t, _) := instance f p in
      let* t' := deregister f (bu_name b) t in
      let q := set_single f (Alive t') p in
      Ok (mk_process (p_single q) (filter (fun e => negb (Nat.eqb (fst e) a)) (p_live q)))
  end.

(* a static object of the program: a builder, or one of a client whose constructor and destructor use the factories *)
Inductive object := ABuilder (b : builder) | AClient (at_start at_exit : list (factory * string)).
Definition uses (l : list (factory * string)) (p : process) : outcome (list made) :=
  mapM (fun u => lookup (fst u) (snd u) p) l.

Fixpoint start (a : nat) (l : list object) (p : process) (ends : list pending) : outcome (process * list pending * list made) :=
  match l with
  | [] => Ok (p, ends, [])
  | ABuilder b :: r =>
      let* (q, e) := construct a b p in
      start (S a) r q (e ++ ends)
  | AClient u v :: r =>
      let* xs := uses u p in
      let* (q, e, ys) := start (S a) r p (EndClient v :: ends) in
      Ok (q, e, xs ++ ys)
  end.
Fixpoint finish (ends : list pending) (p : process) : outcome (process * list made) :=
  match ends with
  | [] => Ok (p, [])
  | EndFactory f :: r => finish r (set_single f Destroyed p)
  | EndBuilder a :: r => let* q := destroy a p in finish r q
  | EndClient u :: r =>
      let* xs := uses u p in
      let* (q, ys) := finish r p in
      Ok (q, xs ++ ys)
  end.

(* the builders of the library *)
Definition library : list builder :=
  [ mk_builder Jumpers "grid_simple" ASimpleJumper; mk_builder Jumpers "grid_ccsds" ACcsdsJumper;
    mk_builder Infos "grid_simple" ASimpleInfo; mk_builder Infos "grid_ccsds" ACcsdsInfo; mk_builder Infos "unsupported" AnUnsupportedInfo;
    mk_builder Implementations "local" ALocalGribJump; mk_builder Implementations "remote" ARemoteGribJump ]%string.

(* ---- threads, while libraries are loaded and unloaded ---- *)

(* JumperFactory.cc:45-48: the lock is released between get and make; GribJumpFactory::build keeps it *)
Inductive event :=
  | Load (a : nat) (b : builder) | Unload (a : nat)
  | Get (thread : nat) (f : factory) (name : string) | Make (thread : nat)
  | Build (name : string).
Definition held := list (nat * nat).    (* thread -> address, the last first *)
Fixpoint holds (t : nat) (h : held) : option nat :=
  match h with [] => None | (x, a) :: r => if Nat.eqb x t then Some a else holds t r end.
Definition happen (e : event) (p : process) (h : held) : outcome (process * held * option (outcome made)) :=
  match e with
  | Load a b => let* (q, _) := construct a b p in Ok (q, h, None)
  | Unload a => let* q := destroy a p in Ok (q, h, None)
  | Get t f name =>
      match (let* tb := table_of f p in get_address f name tb) with
      | Ok a => Ok (p, (t, a) :: h, None)
      | Throw e => Ok (p, h, Some (Throw e))
      | UB => UB
      end
  | Make t =>
      match holds t h with
      | None => Ok (p, h, None)
      | Some a => let* m := make p a in Ok (p, h, Some (Ok m))
      end
  | Build name =>
      match lookup Implementations name p with
      | UB => UB
      | x => Ok (p, h, Some x)
      end
  end.
Fixpoint happens (l : list event) (p : process) (h : held) : outcome (process * held * list (outcome made)) :=
  match l with
  | [] => Ok (p, h, [])
  | e :: r =>
      let* (q, h1, x) := happen e p h in
      let* (q', h2, xs) := happens r q h1 in
      Ok (q', h2, match x with Some y => y :: xs | None => xs end)
  end.
