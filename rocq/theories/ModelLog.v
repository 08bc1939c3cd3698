(* Model of src/gribjump/LogRouter.cc (to which channel a message of some kind goes) and of the progress
   messages of task groups (Task.cc:76-111,136-147).

   A channel is named by what standardChannel returns; the "default" channel is looked up when a message is
   written.  YAML values that are not strings make getString throw and are left out.  The methods of a group
   run under its mutex, so a concurrent execution is a sequence of whole calls. *)
From Verif Require Import Base ModelStrings.

(* ---- LogRouter ---- *)

Inductive channel := Debug | Info | Error.                       (* eckit's channels *)
Inductive getter := Fixed (c : channel) | Default.               (* the lambdas of lines 34-38 *)
Record router := mk_router { ro_channels : list (string * getter); ro_default : getter }.

(* ::tolower in the C locale *)
Definition lower_ascii (a : Ascii.ascii) : Ascii.ascii :=
  let n := Ascii.N_of_ascii a in if (65 <=? n)%N && (n <=? 90)%N then Ascii.ascii_of_N (n + 32) else a.
Fixpoint lower (s : string) : string :=
  match s with EmptyString => EmptyString | String a r => String (lower_ascii a) (lower r) end.

(* lines 33-48 *)
Definition standard_channel (name : string) : outcome getter :=
  if String.eqb name "debug" then Ok (Fixed Debug)
  else if String.eqb name "info" then Ok (Fixed Info)
  else if String.eqb name "error" then Ok (Fixed Error)
  else if String.eqb name "default" then Ok Default
  else Throw EUser.

(* lines 67-70 *)
Definition set_default (r : router) (name : string) : outcome router :=
  let* _ := assert_ (negb (String.eqb name "default")) in
  let* g := standard_channel name in
  Ok (mk_router (ro_channels r) g).
(* lines 29-31 *)
Definition new_router : outcome router := set_default (mk_router [] Default) "debug".
(* lines 63-65; channels_[alias] = ... *)
Fixpoint route (alias : string) (g : getter) (l : list (string * getter)) : list (string * getter) :=
  match l with
  | [] => [(alias, g)]
  | (k, h) :: r => if String.eqb alias k then (k, g) :: r else (k, h) :: route alias g r
  end.
(* lines 50-61: the routes set before an exception stay; [logging]: the entries, None if there is no such key *)
Fixpoint configure_entries (l : list (string * string)) (r : router) : router * outcome unit :=
  match l with
  | [] => (r, Ok tt)
  | (alias, value) :: rest =>
      match standard_channel (lower value) with
      | Ok g => configure_entries rest (mk_router (route alias g (ro_channels r)) (ro_default r))
      | Throw e => (r, Throw e)
      | UB => (r, UB)
      end
  end.
Definition configure (logging : option (list (string * string))) (r : router) : router * outcome unit :=
  match logging with None => (r, Ok tt) | Some l => configure_entries l r end.
(* lines 72-78; the default's own lambda would call itself *)
Definition call_getter (r : router) (g : getter) : outcome channel :=
  match g with
  | Fixed c => Ok c
  | Default => match ro_default r with Fixed c => Ok c | Default => UB end
  end.
Definition get_channel (r : router) (name : string) : outcome channel :=
  match sfind name (ro_channels r) with Some g => call_getter r g | None => call_getter r (ro_default r) end.

(* a process: the configuration is loaded (Config.cc:45), then a server sets its default channel
   (gribjump-server.cc:40, GribJumpServer.h:34); an exception ends the attempt *)
Definition process_router (server : bool) (logging : option (list (string * string))) : outcome router :=
  let* r := new_router in
  let (r, o) := configure logging r in
  let* _ := o in
  if server then set_default r "info" else Ok r.

(* ---- progress ---- *)

(* the members of Task.h:148-153 that matter *)
Record counters := mk_counters { p_complete : N; p_logcounter : N; p_increment : N; p_waiting : bool }.
Definition new_counters : counters := mk_counters 0 1 1 false.

Inductive group_call := Notified | NotifiedError | NotifiedCancelled | Waits.
(* what a call prints: the number of completed tasks; [n]: the number of tasks *)
Definition group_step (n : N) (s : counters) (c : group_call) : counters * option N :=
  match c with
  | Notified =>                                                  (* lines 76-91 *)
      let k := (p_complete s + 1)%N in
      if p_waiting s && (k =? p_logcounter s)%N
      then (mk_counters k (p_logcounter s + p_increment s)%N (p_increment s) (p_waiting s), Some k)
      else (mk_counters k (p_logcounter s) (p_increment s) (p_waiting s), None)
  | NotifiedError | NotifiedCancelled =>                         (* lines 93-111 *)
      (mk_counters (p_complete s + 1)%N (p_logcounter s) (p_increment s) (p_waiting s), None)
  | Waits =>                                                     (* lines 141-145 *)
      let i := (n / 10)%N in
      (mk_counters (p_complete s) (p_logcounter s) (if (i =? 0)%N then 1%N else i) true, None)
  end.
Fixpoint group_run (n : N) (s : counters) (l : list group_call) : counters * list N :=
  match l with
  | [] => (s, [])
  | c :: r =>
      let (s', o) := group_step n s c in
      let (s'', out) := group_run n s' r in
      (s'', match o with Some k => k :: out | None => out end)
  end.
