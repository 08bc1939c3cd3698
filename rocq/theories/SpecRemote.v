(* What a remote call should give, and what is assumed of the codecs of other libraries. *)
From Verif Require Import Base ModelRange ModelInfo ModelStream SpecStream ModelJumper ModelStrings ModelEngine
  ModelProtocol ModelRemote.

(* text contains the messages one after the other, without overlap *)
Fixpoint mentions_in_order (es : list string) (text : string) : Prop :=
  match es with
  | [] => True
  | e :: r => exists before after, text = (before ++ e ++ after)%string /\ mentions_in_order r after
  end.

(* a library's stream operators read back what they wrote *)
Definition reads_back {F A} (r : @reader F A) (w : A -> list (tok F)) : Prop :=
  forall a, w a <> [] /\ exact r (w a) a.

(* what the caller of a remote operation should see of the engine's answer: the answer, or an exception with
   the engine's exception or task errors *)
Definition seen {A} (title : N -> string) (what : error -> string) (x : outcome (A * list string))
  : outcome A :=
  match x with
  | Ok (a, []) => Ok a
  | Ok (_, errs) => Throw (EMsg (error_text title errs))
  | Throw e => Throw (EMsg (what e))
  | UB => UB
  end.

(* the results of the requests, looked up under their rewritten strings; task errors come before a missing
   result *)
Definition results_of {F} (x : outcome (list request * list (string * option (result F)) * list string))
  : outcome (list (result F) * list string) :=
  let* (reqs, m, errs) := x in
  match reply_results (map r_string reqs) m with
  | Ok rs => Ok (rs, errs)
  | Throw e => match errs with [] => Throw e | _ => Ok ([], errs) end
  | UB => UB
  end.

(* the stream s is left after the answer *)
Definition and_unread {F A} (s : list (tok F)) (x : outcome A) : outcome (A * list (tok F)) :=
  omap (fun a => (a, s)) x.

(* what arrives of a forwarded item: ranges, hash and location, with the scheme of a local file *)
Definition received (i : request * uri) : request * uri :=
  (mk_request "" (r_ranges (fst i)) (r_hash (fst i)), as_file (snd i)).
Definition received_file (f : string * list (request * uri)) : string * list (request * uri) :=
  (fst f, map received (snd f)).

(* the names of the files and the number of results of each *)
Definition shape {A} (m : list (string * list A)) : list (string * N) := map (fun f => (fst f, lenN (snd f))) m.

(* [f] stops reading [s] before its end: it does the same whatever the last tokens are *)
Definition leaves_unread {F A} (f : list (tok F) -> A) (s : list (tok F)) : Prop :=
  exists p q, s = p ++ q /\ q <> [] /\ forall q', f (p ++ q') = f s.

(* the client's reading side of a call *)
Definition client_reads {F A} (title : N -> string) (reply : @reader F A) (s : list (tok F))
  : outcome (A * list (tok F)) :=
  call title (fun _ => Ok s) [] reply.

(* [w] is a complete request of one of the five kinds *)
Inductive a_request {F M} (w_mars : M -> list (tok F)) (w_uri : uri -> list (tok F)) (context : string)
  : list (tok F) -> Prop :=
| a_extract l : a_request w_mars w_uri context (send_extract context l)
| an_axes r z : r <> ""%string -> a_request w_mars w_uri context (send_axes context r z)
| a_scan l b : a_request w_mars w_uri context (send_scan w_mars context l b)
| a_forward_extract m : NoDup (map fst m) -> (0 < item_count m)%N ->
    a_request w_mars w_uri context (send_forward_extract w_uri context m)
| a_forward_scan m : NoDup (map fst m) -> a_request w_mars w_uri context (send_forward_scan context m).


Definition known_type (t : N) : Prop :=
  t = t_extract \/ t = t_axes \/ t = t_scan \/ t = t_forward_extract \/ t = t_forward_scan.

(* everything a client and a server share besides the engine *)
Record link F M := mk_link {
  k_title : N -> string;
  k_what : error -> string;
  k_context : string;
  k_w_mars : M -> list (tok F);
  k_r_mars : @reader F M;
  k_w_uri : uri -> list (tok F);
  k_r_uri : @reader F uri
}.
Arguments k_title {F M}. Arguments k_what {F M}. Arguments k_context {F M}. Arguments k_w_mars {F M}.
Arguments k_r_mars {F M}. Arguments k_w_uri {F M}. Arguments k_r_uri {F M}. Arguments mk_link {F M}.
Definition sound_link {F M} (k : link F M) : Prop :=
  reads_back (k_r_mars k) (k_w_mars k) /\ reads_back (k_r_uri k) (k_w_uri k).

Section Link.
Context {F M : Type}.
Variable k : link F M.
Definition server (e : @engine F M) : list (tok F) -> outcome (list (tok F)) :=
  serve (k_r_mars k) (k_r_uri k) (k_what k) e.
(* what the server wrote, and what it left unread or raised *)
Definition server_run (e : @engine F M) : list (tok F) -> list (tok F) * outcome (list (tok F)) :=
  dispatch (k_r_mars k) (k_r_uri k) e.
Definition request_of_kind : list (tok F) -> Prop := a_request (k_w_mars k) (k_w_uri k) (k_context k).
Definition client_extract srv l := remote_extract (F := F) (k_title k) (k_context k) srv l.
Definition client_axes srv r z := remote_axes (F := F) (k_title k) (k_context k) srv r z.
Definition client_scan srv l b := remote_scan (k_title k) (k_w_mars k) (k_context k) srv l b.
Definition client_forward_extract srv m :=
  remote_forward_extract (k_title k) (k_w_uri k) (k_context k) srv m.
Definition client_forward_scan srv m := remote_forward_scan (F := F) (k_title k) (k_context k) srv m.
End Link.

(* a link and an engine for examples *)
Definition demo_title (n : N) : string := "errors:".
Definition demo_what (e : error) : string := match e with ESeriousBug => "bug" | EAssert => "assert" | _ => "?" end.
(* a codec that keeps everything, also what is wrong with an offset *)
Definition error_code (e : error) : N * string :=
  match e with
  | EAssert => (0%N, ""%string) | EUser => (1%N, ""%string) | ESeriousBug => (2%N, ""%string) | EBadValue => (3%N, ""%string)
  | EBadParameter => (4%N, ""%string) | EOutOfRange => (5%N, ""%string) | ERead => (6%N, ""%string) | EBadAlloc => (7%N, ""%string)
  | EBadJumpInfo => (8%N, ""%string) | EDataNotFound => (9%N, ""%string) | EExtractionDisabled => (10%N, ""%string)
  | EGribJump => (11%N, ""%string) | ELibrary => (12%N, ""%string) | EStream => (13%N, ""%string) | EBadOptional => (14%N, ""%string)
  | EMsg m => (15%N, m)
  end.
Definition error_of (n : N) (m : string) : error :=
  match n with
  | 0 => EAssert | 1 => EUser | 2 => ESeriousBug | 3 => EBadValue | 4 => EBadParameter | 5 => EOutOfRange
  | 6 => ERead | 7 => EBadAlloc | 8 => EBadJumpInfo | 9 => EDataNotFound | 10 => EExtractionDisabled
  | 11 => EGribJump | 12 => ELibrary | 13 => EStream | 14 => EBadOptional | _ => EMsg m
  end%N.
Definition w_number {F} (x : outcome Z) : list (tok F) :=
  match x with
  | Ok z => [KULong 16; KStr ""; KLL z]
  | Throw e => [KULong (fst (error_code e)); KStr (snd (error_code e)); KLL 0]
  | UB => [KULong 17; KStr ""; KLL 0]
  end.
Definition r_number {F} : @reader F (outcome Z) := fun s =>
  let* (n, s) := r_ulong s in
  let* (m, s) := r_str s in
  let* (z, s) := r_ll s in
  Ok (if (n =? 16)%N then Ok z else if (n =? 17)%N then UB else Throw (error_of n m), s).
Definition w_demo_uri {F} (u : uri) : list (tok F) :=
  [KStr (u_scheme u)] ++ [KStr (u_path u)] ++ [KStr (u_host u)] ++ [KLL (u_port u)]
  ++ w_number (u_offset u) ++ w_number (u_length u).
Definition r_demo_uri {F} : @reader F uri := fun s =>
  let* (sch, s) := r_str s in
  let* (p, s) := r_str s in
  let* (h, s) := r_str s in
  let* (port, s) := r_ll s in
  let* (o, s) := r_number s in
  let* (l, s) := r_number s in
  Ok (mk_uri sch p h port o l, s).
Definition plain_link (F : Type) : link F Z :=
  mk_link demo_title demo_what "ctx" (fun z => [KLL z]) r_ll w_demo_uri r_demo_uri.
Definition demo_link : link Z Z := plain_link Z.
Definition demo_engine (errs : list string) : @engine Z Z :=
  mk_engine
    (fun l => Ok (l, map (fun r => (r_string r, Some ([map (fun _ => 5%Z) (r_ranges r)], [[1%N]]))) l, errs))
    (fun l b => if b then Throw ESeriousBug else Ok (lenN l, errs))
    (fun r z => Ok [(r, ["x"; "y"]%string)])
    (fun m => Ok (map (fun f => (fst f, map (fun i => ([[7%Z]], [[0%N]])) (snd f))) m, errs))
    (fun m => Ok (lenN m, errs)).
