(* Properties C46-C48 and C62: the protocol between clients and servers. *)
From Verif Require Import Base ModelRange ModelInfo ModelStream SpecStream ModelJumper ModelStrings ModelEngine
  ModelProtocol ModelRemote SpecRemote ProofsProtocol ProofsRemote ProofsRemote2.

(* C46.  Both directions: the reader returns what was written, leaves all that follows, and raises if the
   stream ends inside the message ([exact], SpecStream.v).  Values are of any type, so nothing is said to be
   different for NaNs. *)
Theorem C46_request_round_trip :
  forall (F : Type) (l : list request), exact (@r_extract_request F) (w_extract_request l) l.
Proof. exact (fun F => @exact_extract_request F). Qed.
Print Assumptions C46_request_round_trip.

Theorem C46_reply_round_trip :
  forall (F : Type) (l : list (result F)), exact (r_extract_reply (lenN l)) (w_extract_reply l) l.
Proof. exact (fun F => @exact_extract_reply F). Qed.
Print Assumptions C46_reply_round_trip.

(* the server hands to its engine exactly the batch that was sent, and has read nothing after it *)
Theorem C46_server_sees_the_batch :
  forall (F M : Type) (k : link F M) (e : engine) (l : list request) (rest : list (tok F)),
    server_run k e (send_extract (k_context k) l ++ rest) =
    match e_extract e l with
    | Ok (reqs, m, errs) =>
        match reply_results (map r_string reqs) m with
        | Ok rs => (w_errors errs ++ w_extract_reply rs, Ok rest)
        | Throw x => (w_errors errs, Throw x)
        | UB => (w_errors errs, UB)
        end
    | Throw x => ([], Throw x)
    | UB => ([], UB)
    end.
Proof. exact (fun F M k => extract_run (k_r_mars k) (k_r_uri k) (k_context k)). Qed.
Print Assumptions C46_server_sees_the_batch.

Example C46_example :
  r_extract_request (w_extract_request [mk_request "a=1" [(3, 9); (9, 9)]%N "h"; mk_request "" [] ""]
                     ++ [@KTorn Z])
  = Ok ([mk_request "a=1" [(3, 9); (9, 9)]%N "h"; mk_request "" [] ""], [KTorn]) /\
  r_extract_reply 2 (w_extract_reply [([[1; 2]; []; [3]]%Z, [[3]; []; [1]]%N); ([], [])] ++ [KBool true])
  = Ok ([([[1; 2]; []; [3]]%Z, [[3]; []; [1]]%N); ([], [])], [KBool true]).
Proof. vm_compute. auto. Qed.
(* not covered by the property: a peer that announces more than it sends is believed *)
Example C46_malicious_sizes :
  r_values [KULong 1; KWords [8]%N; KULong 2; KDoubles [1; 2]%Z] = UB.
Proof. vm_compute. reflexivity. Qed.

(* C47.  Every message, in order, in the text of the exception; without errors the reply is read. *)
Theorem C47_errors_reach_the_client :
  forall (F A : Type) (title : N -> string) (srv : list (tok F) -> outcome (list (tok F)))
         (req : list (tok F)) (es : list string) (t : list (tok F)) (reply : reader A),
    srv req = Ok (w_errors es ++ t) -> es <> [] ->
    exists text, call title srv req reply = Throw (EMsg text) /\ mentions_in_order es text.
Proof. exact (fun F A title => @errors_seen F title A). Qed.
Print Assumptions C47_errors_reach_the_client.

Theorem C47_no_errors :
  forall (F A : Type) (title : N -> string) (srv : list (tok F) -> outcome (list (tok F)))
         (req t : list (tok F)) (reply : reader A),
    srv req = Ok (w_errors [] ++ t) -> call title srv req reply = reply t.
Proof. exact (fun F A title => @no_errors_seen F title A). Qed.
Print Assumptions C47_no_errors.

(* exceptions of the server before it has written anything arrive as their text *)
Theorem C47_exceptions_reach_the_client :
  forall (F A : Type) (title : N -> string) (srv : list (tok F) -> outcome (list (tok F)))
         (req : list (tok F)) (m : string) (reply : reader A),
    srv req = Ok [KExc m] -> call title srv req reply = Throw (EMsg m).
Proof. exact (fun F A title => @refusal_seen F title A). Qed.
Print Assumptions C47_exceptions_reach_the_client.

(* the answer to a request that is executed is the block of errors and then the reply; cut short anywhere it
   raises at the client *)
Theorem C47_torn_answers_raise :
  forall (F A : Type) (title : N -> string) (srv : list (tok F) -> outcome (list (tok F)))
         (req w : list (tok F)) (v : A) (reply : reader A) (p q : list (tok F)),
    exact reply w v -> w_errors [] ++ w = p ++ q -> q <> [] ->
    srv req = Ok p \/ srv req = Ok (p ++ [KTorn]) -> call title srv req reply = Throw EStream.
Proof. exact (fun F A title => @torn_answer F title A). Qed.
Print Assumptions C47_torn_answers_raise.

Theorem C47_torn_errors_raise :
  forall (F A : Type) (title : N -> string) (srv : list (tok F) -> outcome (list (tok F)))
         (req : list (tok F)) (es : list string) (reply : reader A) (p q : list (tok F)),
    w_errors es = p ++ q -> q <> [] ->
    srv req = Ok p \/ srv req = Ok (p ++ [KTorn]) -> call title srv req reply = Throw EStream.
Proof. exact (fun F A title => @torn_errors F title A). Qed.
Print Assumptions C47_torn_errors_raise.

Example C47_example :
  client_scan demo_link (server demo_link (demo_engine ["disk a"; "disk b"]%string)) [4; 5]%Z false
  = Throw (EMsg ("errors:" ++ newline ++ "disk a" ++ newline ++ "disk b" ++ newline)%string) /\
  client_scan demo_link (server demo_link (demo_engine [])) [4; 5]%Z false = Ok (2%N, []) /\
  client_scan demo_link (server demo_link (demo_engine [])) [4; 5]%Z true = Throw (EMsg "bug").
Proof. vm_compute. auto. Qed.

(* C48.  Whatever arrives: it starts with this version and a known type, or the answer is one exception, which
   does not depend on the engine. *)
Theorem C48_acts_only_on_good_headers :
  forall (F M : Type) (k : link F M) (s : list (tok F)),
    (exists c t rest, s = KU16 remote_protocol_version :: KStr c :: KU16 t :: rest /\ known_type t) \/
    (exists m, forall e : engine, server k e s = Ok [KExc m]).
Proof. exact (fun F M k => acts_only_on_good_headers (k_title k) (k_r_mars k) (k_r_uri k) (k_what k)). Qed.
Print Assumptions C48_acts_only_on_good_headers.

Theorem C48_other_versions :
  forall (F M : Type) (k : link F M) (e : engine) (v : N) (s : list (tok F)),
    v <> remote_protocol_version -> server k e (KU16 v :: s) = Ok [KExc (k_what k ESeriousBug)].
Proof. exact (fun F M k => wrong_version (k_r_mars k) (k_r_uri k) (k_what k)). Qed.
Print Assumptions C48_other_versions.

Theorem C48_unknown_types :
  forall (F M : Type) (k : link F M) (e : engine) (c : string) (t : N) (s : list (tok F)),
    ~ known_type t ->
    server k e (KU16 remote_protocol_version :: KStr c :: KU16 t :: s) = Ok [KExc (k_what k ESeriousBug)].
Proof. exact (fun F M k => unknown_type (k_title k) (k_r_mars k) (k_r_uri k) (k_what k)). Qed.
Print Assumptions C48_unknown_types.

Example C48_example :
  server demo_link (demo_engine []) [KU16 2; KStr "ctx"; KU16 2; KBool false; KULong 0] = Ok [KExc "bug"] /\
  server demo_link (demo_engine []) [KU16 3; KStr "ctx"; KU16 7; KBool false; KULong 0] = Ok [KExc "bug"] /\
  server demo_link (demo_engine []) [KU16 3; KStr "ctx"; KU16 2; KBool false; KULong 0] = Ok [KULong 0; KULong 0].
Proof. vm_compute. auto. Qed.

(* C62.  For each kind: the client's outcome is the engine's answer, or an exception with the engine's errors,
   or with the text of the engine's exception; when it is an answer, nothing is left in the stream. *)
Theorem C62_extract :
  forall (F M : Type) (k : link F M) (e : engine) (l : list request),
    (forall reqs m errs, e_extract e l = Ok (reqs, m, errs) -> length reqs = length l) ->
    client_extract k (server k e) l = and_unread [] (seen (k_title k) (k_what k) (results_of (e_extract e l))).
Proof. exact (fun F M k => remote_extract_seen (k_title k) (k_r_mars k) (k_r_uri k) (k_what k) (k_context k)). Qed.
Print Assumptions C62_extract.

Theorem C62_axes :
  forall (F M : Type) (k : link F M) (e : engine) (r : string) (level : Z),
    r <> ""%string ->
    (forall m, e_axes e r level = Ok m -> NoDup (map fst m) /\ (forall a, In a m -> NoDup (snd a))) ->
    client_axes k (server k e) r level =
    and_unread [] (seen (k_title k) (k_what k) (let* m := e_axes e r level in Ok (in_key_order m, []))).
Proof. exact (fun F M k => remote_axes_seen (k_title k) (k_r_mars k) (k_r_uri k) (k_what k) (k_context k)). Qed.
Print Assumptions C62_axes.

Theorem C62_scan :
  forall (F M : Type) (k : link F M) (e : engine) (l : list M) (byfiles : bool),
    sound_link k ->
    client_scan k (server k e) l byfiles = and_unread [] (seen (k_title k) (k_what k) (e_scan e l byfiles)).
Proof. exact (fun F M k e l b S => remote_scan_seen (k_title k) (k_w_mars k) (k_r_mars k) (k_r_uri k) (k_what k)
                (k_context k) (proj1 S) e l b). Qed.
Print Assumptions C62_scan.

Theorem C62_forward_extract :
  forall (F M : Type) (k : link F M) (e : engine) (m : list (string * list (request * uri))),
    sound_link k -> NoDup (map fst m) -> (0 < item_count m)%N ->
    (forall res errs, e_forward_extract e (map received_file m) = Ok (res, errs) -> shape res = shape m) ->
    client_forward_extract k (server k e) m =
    and_unread [] (seen (k_title k) (k_what k) (e_forward_extract e (map received_file m))).
Proof. exact (fun F M k e m S => remote_forward_extract_seen (k_title k) (k_r_mars k) (k_w_uri k) (k_r_uri k)
                (k_what k) (k_context k) (proj2 S) e m). Qed.
Print Assumptions C62_forward_extract.

Theorem C62_forward_scan :
  forall (F M : Type) (k : link F M) (e : engine) (m : list (string * list Z)),
    NoDup (map fst m) ->
    client_forward_scan k (server k e) m =
    and_unread [] (seen (k_title k) (k_what k) (e_forward_scan e (in_key_order m))).
Proof. exact (fun F M k => remote_forward_scan_seen (k_title k) (k_r_mars k) (k_r_uri k) (k_what k) (k_context k)). Qed.
Print Assumptions C62_forward_scan.

(* the two requests which the server refuses before its engine sees them *)
Theorem C62_empty_axes :
  forall (F M : Type) (k : link F M) (e : engine) (level : Z),
    client_axes k (server k e) "" level = Throw (EMsg (k_what k EAssert)).
Proof. exact (fun F M k => empty_axes_refused (k_title k) (k_r_mars k) (k_r_uri k) (k_what k) (k_context k)). Qed.
Print Assumptions C62_empty_axes.

Theorem C62_empty_forward_extract :
  forall (F M : Type) (k : link F M) (e : engine) (m : list (string * list (request * uri))),
    sound_link k -> NoDup (map fst m) -> item_count m = 0%N ->
    client_forward_extract k (server k e) m = Throw (EMsg (k_what k EAssert)).
Proof. exact (fun F M k e m S => empty_forward_refused (k_title k) (k_r_mars k) (k_w_uri k) (k_r_uri k)
                (k_what k) (k_context k) (proj2 S) e m). Qed.
Print Assumptions C62_empty_forward_extract.

(* the server reads the request to its end and nothing beyond it, whatever the engine answers *)
Theorem C62_request_consumed :
  forall (F M : Type) (k : link F M) (e : engine) (w rest : list (tok F)),
    sound_link k -> request_of_kind k w ->
    server_run k e (w ++ rest) =
    (fst (server_run k e w), omap (fun u => u ++ rest) (snd (server_run k e w))) /\
    (forall u, snd (server_run k e w) = Ok u -> u = []).
Proof. exact (fun F M k e w rest S => request_consumed (k_w_mars k) (k_r_mars k) (k_w_uri k) (k_r_uri k)
                (k_context k) (proj1 S) (proj2 S) e w rest). Qed.
Print Assumptions C62_request_consumed.

(* a request that arrives in part is not acted upon *)
Theorem C62_torn_request :
  forall (F M : Type) (k : link F M) (e : engine) (w p q : list (tok F)),
    sound_link k -> request_of_kind k w -> w = p ++ q -> q <> [] ->
    server_run k e p = ([], Throw EStream) /\ server_run k e (p ++ [KTorn]) = ([], Throw EStream).
Proof. exact (fun F M k e w p q S => torn_request (k_w_mars k) (k_r_mars k) (k_w_uri k) (k_r_uri k)
                (k_context k) (proj1 S) (proj2 S) e w p q). Qed.
Print Assumptions C62_torn_request.

(* Missing above: data is left unread in two cases.  After task errors the client raises without reading the
   reply that the server sends nevertheless (GribJumpUser.cc:77-78, RemoteGribJump.cc:108). *)
Theorem C62_refuted :
  exists (e : @engine Z unit) (s : list (tok Z)),
    serve (fun s => Ok (tt, s)) (fun _ => Throw EStream) (fun _ => ""%string) e
          (send_scan (fun _ : unit => []) "" [] true) = Ok s /\
    leaves_unread (client_reads (fun _ => ""%string) r_scan_reply) s.
Proof. exact scan_reply_unread. Qed.
Print Assumptions C62_refuted.

Theorem C62_reply_after_errors_unread :
  forall (F A : Type) (title : N -> string) (es : list string) (t : list (tok F)) (reply : reader A),
    es <> [] -> t <> [] -> leaves_unread (client_reads title reply) (w_errors es ++ t).
Proof. exact (fun F A title => @errors_leave_reply F title A). Qed.
Print Assumptions C62_reply_after_errors_unread.

(* ... and a server of another version does not read the rest of the request *)
Theorem C62_request_of_other_version_unread :
  forall (F M : Type) (k : link F M) (e : engine) (v : N) (s : list (tok F)),
    v <> remote_protocol_version -> s <> [] -> leaves_unread (server k e) (KU16 v :: s).
Proof. exact (fun F M k => version_leaves_request (k_r_mars k) (k_r_uri k) (k_what k)). Qed.
Print Assumptions C62_request_of_other_version_unread.

(* the assumption about the libraries' stream operators can be met *)
Theorem C62_sound_links_exist : sound_link demo_link.
Proof. exact demo_link_sound. Qed.
Print Assumptions C62_sound_links_exist.

Example C62_example :
  client_extract demo_link (server demo_link (demo_engine []))
    [mk_request "b" [(0, 1); (4, 5)]%N "h"; mk_request "a" [] ""]
  = Ok ([([[5; 5]%Z], [[1]%N]); ([[]], [[1]%N])], []) /\
  client_axes demo_link (server demo_link (demo_engine [])) "class" 3 = Ok ([("class", ["x"; "y"])]%string, []) /\
  client_forward_extract demo_link (server demo_link (demo_engine []))
    [("/a", [(mk_request "q" [(0, 1)]%N "", mk_uri "fdb" "/a" "h" 1 (Ok 5%Z) (Ok 0%Z))])]%string
  = Ok ([("/a"%string, [([[7]]%Z, [[0]]%N)])], []) /\
  client_forward_scan demo_link (server demo_link (demo_engine ["e"%string])) [("/a"%string, [3]%Z)]
  = Throw (EMsg ("errors:" ++ newline ++ "e" ++ newline)%string).
Proof. vm_compute. auto. Qed.
