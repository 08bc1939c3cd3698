(* Model of src/gribjump/remote/GribJumpUser.cc (the server's side of a connection), Request.cc, and
   RemoteGribJump.cc (the client's side).

   A connection is two token streams: the client writes its whole request before it reads, so the server can be
   run on the complete request.  Simplifications: logs and timers are left out, metrics are in ModelContext.v; TCP delivers what was
   written; all exceptions are std::exceptions. *)
From Verif Require Import Base ModelRange ModelInfo ModelStream ModelJumper ModelStrings ModelEngine ModelProtocol.

Section Remote.
Context {F M : Type}.
Notation stream := (list (tok F)).
Variable error_title : N -> string.
Variable w_mars : M -> stream.
Variable r_mars : @reader F M.
Variable w_uri : uri -> stream.
Variable r_uri : @reader F uri.
(* std::exception::what *)
Variable what : error -> string.

Notation wire_files := (list (string * list (request * uri))).

(* Engine.h:36-51 EngineIface.  The engine's answer with the task errors of its report. *)
Record engine := mk_engine {
  (* the requests as rewritten by the engine, and the results map (null: moved out) *)
  e_extract : list request -> outcome (list request * list (string * option (result F)) * list string);
  e_scan : list M -> bool -> outcome (N * list string);
  e_axes : string -> Z -> outcome (list (string * list string));
  (* for every file the results of its items, in the order in which the task left them *)
  e_forward_extract : wire_files -> outcome (list (string * list (result F)) * list string);
  e_forward_scan : list (string * list Z) -> outcome (N * list string)
}.

(* Request.cc:99-110: results in the order of the requests; each pointer can be taken once *)
Fixpoint reply_results (keys : list string) (m : list (string * option (result F)))
  : outcome (list (result F)) :=
  match keys with
  | [] => Ok []
  | k :: t =>
      match sfind k m with
      | None => Throw EAssert
      | Some p =>
          let* rest := reply_results t (supdate k (fun _ => None) m) in
          match p with None => UB | Some r => Ok (r :: rest) end
      end
  end.

(* what the server has written, and how it ended: normally, with the unread rest of its input, or not *)
Notation served := (stream * outcome stream)%type.

(* GribJumpUser.cc:65-82: construct the request, execute, report the errors, reply *)
Definition process {A B} (construct : @reader F A) (execute : A -> outcome (list string * B))
                   (reply : B -> outcome stream) (s : stream) : served :=
  match construct s with
  | Throw e => ([], Throw e)
  | UB => ([], UB)
  | Ok (a, rest) =>
      match execute a with
      | Throw e => ([], Throw e)
      | UB => ([], UB)
      | Ok (errs, b) =>
          match reply b with
          | Ok t => (w_errors errs ++ t, Ok rest)
          | Throw e => (w_errors errs, Throw e)
          | UB => (w_errors errs, UB)
          end
      end
  end.

(* Request.cc:70-115 *)
Definition serve_extract (e : engine) : stream -> served :=
  process r_extract_request
    (fun l => let* (reqs, m, errs) := e_extract e l in Ok (errs, (reqs, m)))
    (fun b => let* rs := reply_results (map r_string (fst b)) (snd b) in Ok (w_extract_reply rs)).

(* Request.cc:183-205; there is no report *)
Definition serve_axes (e : engine) : stream -> served :=
  process (fun s => let* (q, s) := r_axes_request s in
                    let* _ := assert_ (negb (String.eqb (fst q) "")) in
                    Ok (q, s))
    (fun q => let* m := e_axes e (fst q) (snd q) in Ok ([], m))
    (fun m => Ok (w_axes_reply m)).

(* Request.cc:42-61 *)
Definition serve_scan (e : engine) : stream -> served :=
  process (r_scan_request r_mars)
    (fun q => let* (n, errs) := e_scan e (fst q) (snd q) in Ok (errs, n))
    (fun n => Ok (w_scan_reply n)).

(* Request.cc:123-146 *)
Definition item_count (m : wire_files) : N := fold_right (fun f n => (lenN (snd f) + n)%N) 0%N m.
Definition serve_forward_extract (e : engine) : stream -> served :=
  process (fun s => let* (m, s) := r_forward_extract_request r_uri s in
                    let* _ := assert_ (0 <? item_count m)%N in
                    Ok (m, s))
    (fun m => let* (res, errs) := e_forward_extract e m in Ok (errs, res))
    (fun res => Ok (w_forward_extract_reply res)).

(* Request.cc:154-176 *)
Definition serve_forward_scan (e : engine) : stream -> served :=
  process r_forward_scan_request
    (fun m => let* (n, errs) := e_forward_scan e m in Ok (errs, n))
    (fun n => Ok (w_scan_reply n)).

(* GribJumpUser.cc:84-114 *)
Definition dispatch (e : engine) (s : stream) : served :=
  match r_header s with
  | Throw x => ([], Throw x)
  | UB => ([], UB)
  | Ok (type, s) =>
      if (type =? t_extract)%N then serve_extract e s
      else if (type =? t_axes)%N then serve_axes e s
      else if (type =? t_scan)%N then serve_scan e s
      else if (type =? t_forward_extract)%N then serve_forward_extract e s
      else if (type =? t_forward_scan)%N then serve_forward_scan e s
      else ([], Throw ESeriousBug)
  end.

(* GribJumpUser.cc:33-63: the complete answer; an exception is appended to what was written *)
Definition serve (e : engine) (s : stream) : outcome stream :=
  match dispatch e s with
  | (t, Ok _) => Ok t
  | (t, Throw x) => Ok (t ++ [KExc (what x)])
  | (_, UB) => UB
  end.

(* ---- RemoteGribJump.cc ---- *)

Variable context : string.

(* lines 100-111: send, then read the errors and the reply; the rest is what was left unread.  The server is
   given as a function from what it receives to what it sends; its death (UB) is not survived here. *)
Definition call {A} (server : stream -> outcome stream) (request : stream) (reply : @reader F A)
  : outcome (A * stream) :=
  let* s := server request in
  let* (_, s) := r_errors error_title s in
  reply s.

Definition send_extract (l : list request) : stream := w_header t_extract context ++ w_extract_request l.
Definition send_axes (r : string) (level : Z) : stream := w_header t_axes context ++ w_axes_request r level.
Definition send_scan (l : list M) (byfiles : bool) : stream :=
  w_header t_scan context ++ w_scan_request w_mars l byfiles.
Definition send_forward_extract (m : wire_files) : stream :=
  w_header t_forward_extract context ++ w_forward_extract_request w_uri m.
Definition send_forward_scan (m : list (string * list Z)) : stream :=
  w_header t_forward_scan context ++ w_forward_scan_request m.

(* lines 89-114 *)
Definition remote_extract server (l : list request) : outcome (list (result F) * stream) :=
  call server (send_extract l) (r_extract_reply (lenN l)).
(* lines 145-166 *)
Definition remote_axes server (r : string) (level : Z) := call server (send_axes r level) r_axes_reply.
(* lines 42-65 *)
Definition remote_scan server (l : list M) (byfiles : bool) := call server (send_scan l byfiles) r_scan_reply.
(* lines 68-87 *)
Definition remote_forward_scan server (m : list (string * list Z)) :=
  call server (send_forward_scan m) r_scan_reply.
(* lines 121-143 *)
Definition remote_forward_extract server (m : wire_files) :=
  call server (send_forward_extract m)
       (r_forward_extract_reply (map (fun f => (fst f, lenN (snd f))) m)).
End Remote.
