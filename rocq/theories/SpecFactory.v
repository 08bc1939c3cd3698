(* What the factories give, from the start of a program to its exit (C114). *)
From Verif Require Import Base ModelStrings ModelInfo ModelSimple ModelCcsds ModelJumper ModelForward ModelFactory.
From Verif Require ModelBuild ModelConfig.
Local Open Scope nat_scope.

(* the builders among the static objects, in order *)
Definition all_builders (l : list object) : list builder :=
  flat_map (fun x => match x with ABuilder b => [b] | AClient _ _ => [] end) l.
Definition unique_names (bs : list builder) : Prop := NoDup (map (fun b => (bu_factory b, bu_name b)) bs).

(* a factory gives what the builder of that name makes; descriptions of unknown packings are made by "unsupported" *)
Definition gives (bs : list builder) (f : factory) (name : string) (m : made) : Prop :=
  In (mk_builder f name m) bs \/
  f = Infos /\ (forall x, ~ In (mk_builder Infos name x) bs) /\ In (mk_builder Infos "unsupported" m) bs.

(* every client finds what it uses among the objects constructed before it *)
Definition served_by (before : list object) (u : list (factory * string)) : Prop :=
  Forall (fun x => exists m, gives (all_builders before) (fst x) (snd x) m) u.
Definition starts_served (l : list object) : Prop :=
  forall before u v after, l = before ++ AClient u v :: after -> served_by before u.
Definition exits_served (l : list object) : Prop :=
  forall before u v after, l = before ++ AClient u v :: after -> served_by before v.

(* what the clients get while the program starts, and while it exits *)
Definition got (before : list object) : list (factory * string) -> list made -> Prop :=
  Forall2 (fun x m => gives (all_builders before) (fst x) (snd x) m).
Fixpoint start_told (before rest : list object) (log : list made) : Prop :=
  match rest with
  | [] => log = []
  | ABuilder b :: r => start_told (before ++ [ABuilder b]) r log
  | AClient u v :: r => exists xs ys, log = xs ++ ys /\ got before u xs /\ start_told (before ++ [AClient u v]) r ys
  end.
Fixpoint exit_told (before rest : list object) (log : list made) : Prop :=
  match rest with
  | [] => log = []
  | ABuilder b :: r => exit_told (before ++ [ABuilder b]) r log
  | AClient u v :: r => exists ys xs, log = ys ++ xs /\ exit_told (before ++ [AClient u v]) r ys /\ got before v xs
  end.

(* a program that starts and exits *)
Definition lives (l : list object) (p : process) (log log' : list made) : Prop :=
  exists ends p', start 0 l fresh_process [] = Ok (p, ends, log) /\ finish ends p = Ok (p', log').

(* ---- threads ---- *)
Definition loads (es : list event) : list (nat * builder) :=
  flat_map (fun e => match e with Load a b => [(a, b)] | _ => [] end) es.
Definition unloads_nothing (es : list event) : Prop := forall a, ~ In (Unload a) es.
Definition nothing (bs : list builder) f name : Prop := forall m, ~ gives bs f name m.
(* every thread makes what its last successful lookup found when it looked *)
Fixpoint told (bs : list builder) (last : nat -> option made) (es : list event) (xs : list (outcome made)) : Prop :=
  match es with
  | [] => xs = []
  | Load _ b :: r => told (bs ++ [b]) last r xs
  | Unload _ :: _ => False
  | Get t f n :: r =>
      (exists m, gives bs f n m /\ told bs (fun u => if Nat.eqb u t then Some m else last u) r xs) \/
      nothing bs f n /\ exists e ys, xs = Throw e :: ys /\ told bs last r ys
  | Make t :: r =>
      match last t with
      | None => told bs last r xs
      | Some m => exists ys, xs = Ok m :: ys /\ told bs last r ys
      end
  | Build n :: r =>
      exists x ys, xs = x :: ys /\ told bs last r ys /\
        ((exists m, gives bs Implementations n m /\ x = Ok m) \/ nothing bs Implementations n /\ exists e, x = Throw e)
  end.

(* ---- the library ---- *)

(* the models of the parts of the library choose by name without a factory; what they choose, as made here *)
Definition info_made (b : ModelBuild.builder) : made :=
  match b with ModelBuild.BSimple => ASimpleInfo | ModelBuild.BCcsds => ACcsdsInfo | ModelBuild.BUnsupported => AnUnsupportedInfo end.
(* Jumper::readValues of the jumper made *)
Definition read_with {F} (A : farith F) aec file off (inf : info F) (j : made) (l : list interval) : outcome (list (list F)) :=
  match j with
  | ASimpleJumper => simple_read_values A file off inf l
  | ACcsdsJumper => ccsds_read_values A aec file off inf l
  | _ => UB
  end.
Definition implementation_of (parse : string -> outcome endpoint) (y : ModelConfig.yaml) (m : made) : outcome ModelConfig.implementation :=
  match m with
  | ALocalGribJump => Ok ModelConfig.Local
  | ARemoteGribJump =>
      let* uri := ModelConfig.get_string ModelConfig.RemoteURI y in
      if String.eqb uri "" then Throw EUser else let* e := parse uri in Ok (ModelConfig.Remote e)
  | _ => UB
  end.

(* names every process can use: any packing for descriptions, the names registered in the library otherwise *)
Definition known (x : factory * string) : Prop := fst x = Infos \/ exists m, In (mk_builder (fst x) (snd x) m) library.
Definition clients (us : list (list (factory * string) * list (factory * string))) : list object := map (fun x => AClient (fst x) (snd x)) us.

(* ---- for the examples ---- *)
Definition some_order : list object :=
  [ ABuilder (mk_builder Infos "unsupported" AnUnsupportedInfo); AClient [(Infos, "grid_ccsds")] [];
    ABuilder (mk_builder Infos "grid_ccsds" ACcsdsInfo); ABuilder (mk_builder Jumpers "grid_ccsds" ACcsdsJumper);
    AClient [(Jumpers, "grid_ccsds"); (Infos, "grid_jpeg")] [(Infos, "grid_ccsds")]; ABuilder (mk_builder Implementations "local" ALocalGribJump);
    AClient [] [(Implementations, "local")] ]%string.
