(* Remote calls with damaged streams, wrong headers, and unread data. *)
From Coq Require Import Lia Permutation.
From Verif Require Import Base BaseLemmas ModelRange ModelInfo ModelStream SpecStream ModelJumper ModelStrings
  ModelEngine ModelProtocol ModelRemote SpecRemote ProofsStream ProofsStrings ProofsProtocol ProofsRemote.
Local Open Scope nat_scope.

Section Proofs.
Context {F M : Type}.
Notation stream := (list (tok F)).
Variable title : N -> string.
Variable w_mars : M -> stream.
Variable r_mars : @reader F M.
Variable w_uri : uri -> stream.
Variable r_uri : @reader F uri.
Variable what : error -> string.
Variable context : string.
Hypothesis mars_ok : reads_back r_mars w_mars.
Hypothesis uri_ok : reads_back r_uri w_uri.
Notation engine := (@engine F M).

(* ---- torn requests ---- *)
Lemma exact_axes_construct r z : r <> ""%string ->
  exact (fun s => let* (q, s) := @r_axes_request F s in
                  let* _ := assert_ (negb (String.eqb (fst q) "")) in Ok (q, s)) (w_axes_request r z) (r, z).
Proof.
  intros N.
  apply (exact_ext (fun s => let* (q, s) := r_axes_request s in
                             let* y := (let* _ := assert_ (negb (String.eqb (fst q) "")) in Ok q) in Ok (y, s))).
  { intros s. destruct (r_axes_request s) as [[q s']| |]; cbn [obind]; [|reflexivity..].
    destruct (assert_ _); reflexivity. }
  apply (exact_post r_axes_request _ (r, z)
    (fun q => let* _ := assert_ (negb (String.eqb (fst q) "")) in Ok q) (r, z) (exact_axes_request r z)).
  cbn [fst]. destruct (String.eqb_spec r ""); [contradiction|reflexivity].
Qed.
Lemma exact_forward_construct m : NoDup (map fst m) -> (0 < item_count m)%N ->
  exact (fun s => let* (q, s) := r_forward_extract_request r_uri s in
                  let* _ := assert_ (0 <? item_count q)%N in Ok (q, s))
        (w_forward_extract_request w_uri m) (map received_file m).
Proof.
  intros N P.
  apply (exact_ext (fun s => let* (q, s) := r_forward_extract_request r_uri s in
                             let* y := (let* _ := assert_ (0 <? item_count q)%N in Ok q) in Ok (y, s))).
  { intros s. destruct (r_forward_extract_request r_uri s) as [[q s']| |]; cbn [obind]; [|reflexivity..].
    destruct (assert_ _); reflexivity. }
  apply (exact_post (r_forward_extract_request r_uri) _ (map received_file m)
    (fun q => let* _ := assert_ (0 <? item_count q)%N in Ok q)); [now apply exact_forward_extract_request|].
  rewrite item_count_received. apply N.ltb_lt in P. now rewrite P.
Qed.

(* a request cut short: nothing is executed, nothing is written, the server raises *)
Lemma process_torn_both {A B} (c : @reader F A) (ex : A -> outcome (list string * B)) re w a p q :
  exact c w a -> w = p ++ q -> q <> [] ->
  process c ex re p = ([], Throw EStream) /\ process c ex re (p ++ [KTorn]) = ([], Throw EStream).
Proof.
  intros [_ H] E N. unfold process. destruct (H p q E N) as [H1 H2]. now rewrite H1, H2.
Qed.

Lemma torn_request_after (e : engine) (h w p q : stream) ty (srv : stream -> stream * outcome stream) :
  h = w_header ty context ->
  (forall s, dispatch r_mars r_uri e (h ++ s) = srv s) ->
  (forall p q, w = p ++ q -> q <> [] -> srv p = ([], Throw EStream) /\ srv (p ++ [KTorn]) = ([], Throw EStream)) ->
  h ++ w = p ++ q -> q <> [] ->
  dispatch r_mars r_uri e p = ([], Throw EStream) /\
  dispatch r_mars r_uri e (p ++ [KTorn]) = ([], Throw EStream).
Proof.
  intros -> D T E N. destruct p as [|t1 p]; [split; reflexivity|].
  destruct p as [|t2 p]; [injection E as <- _; split; reflexivity|].
  destruct p as [|t3 p]; [injection E as <- <- _; split; reflexivity|].
  injection E as <- <- <- E.
  change (KU16 remote_protocol_version :: KStr context :: KU16 ty :: p) with (w_header (F := F) ty context ++ p).
  rewrite <- app_assoc, !D. exact (T p q E N).
Qed.

Theorem torn_request (e : engine) w p q :
  a_request w_mars w_uri context w -> w = p ++ q -> q <> [] ->
  dispatch r_mars r_uri e p = ([], Throw EStream) /\
  dispatch r_mars r_uri e (p ++ [KTorn]) = ([], Throw EStream).
Proof.
  intros A E N. destruct A as [l|r z R|l b|m N1 P|m N1].
  - apply (torn_request_after e (w_header t_extract context) (w_extract_request l) p q t_extract (serve_extract e));
      [reflexivity|reflexivity| |exact E|exact N].
    intros p' q' E' N'. eapply process_torn_both; [apply exact_extract_request|exact E'|exact N'].
  - apply (torn_request_after e (w_header t_axes context) (w_axes_request r z) p q t_axes (serve_axes e));
      [reflexivity|reflexivity| |exact E|exact N].
    intros p' q' E' N'. eapply process_torn_both; [apply exact_axes_construct, R|exact E'|exact N'].
  - apply (torn_request_after e (w_header t_scan context) (w_scan_request w_mars l b) p q t_scan (serve_scan r_mars e));
      [reflexivity|reflexivity| |exact E|exact N].
    intros p' q' E' N'. eapply process_torn_both; [apply exact_scan_request, mars_ok|exact E'|exact N'].
  - apply (torn_request_after e (w_header t_forward_extract context) (w_forward_extract_request w_uri m) p q
             t_forward_extract (serve_forward_extract r_uri e));
      [reflexivity|reflexivity| |exact E|exact N].
    intros p' q' E' N'. eapply process_torn_both; [apply (exact_forward_construct m N1 P)|exact E'|exact N'].
  - apply (torn_request_after e (w_header t_forward_scan context) (w_forward_scan_request m) p q
             t_forward_scan (serve_forward_scan e));
      [reflexivity|reflexivity| |exact E|exact N].
    intros p' q' E' N'. eapply process_torn_both; [apply exact_forward_scan_request, N1|exact E'|exact N'].
Qed.

(* the whole request is consumed, whatever the engine answers: what follows stays unread *)
Theorem request_consumed (e : engine) w rest :
  a_request w_mars w_uri context w ->
  dispatch r_mars r_uri e (w ++ rest) =
  (fst (dispatch r_mars r_uri e w),
   omap (fun u => u ++ rest) (snd (dispatch r_mars r_uri e w))) /\
  (forall u, snd (dispatch r_mars r_uri e w) = Ok u -> u = []).
Proof.
  assert (X : forall A B (ex : A -> outcome (list string * B)) re (a : A),
    answered ex re a rest = (fst (answered ex re a []), omap (fun u => u ++ rest) (snd (answered ex re a []))) /\
    (forall u, snd (answered (F := F) ex re a []) = Ok u -> u = [])).
  { intros A B ex re a. unfold answered, process. destruct (ex a) as [[errs b]| |]; [|split; [reflexivity|discriminate]..].
    destruct (re b); (split; [reflexivity|]); cbn [snd]; congruence. }
  intros A. assert (E : dispatch r_mars r_uri e w = dispatch r_mars r_uri e (w ++ [])) by now rewrite app_nil_r.
  rewrite E. clear E. destruct A as [l|r z R|l b|m N1 P|m N1].
  - rewrite !dispatch_extract. apply X.
  - rewrite !dispatch_axes by exact R. apply X.
  - rewrite !dispatch_scan by exact mars_ok. apply X.
  - rewrite !dispatch_forward_extract by first [exact mars_ok|exact uri_ok|exact N1|exact P]. apply X.
  - rewrite !dispatch_forward_scan by exact N1. apply X.
Qed.

(* requests that name nothing are refused by the server *)
Theorem empty_axes_refused (e : engine) z :
  remote_axes title context (serve r_mars r_uri what e) "" z = Throw (EMsg (what EAssert)).
Proof. reflexivity. Qed.
Theorem empty_forward_refused (e : engine) m : NoDup (map fst m) -> item_count m = 0%N ->
  remote_forward_extract title w_uri context (serve r_mars r_uri what e) m = Throw (EMsg (what EAssert)).
Proof.
  intros N P. unfold remote_forward_extract, call, serve, dispatch, send_forward_extract. rewrite header_read.
  cbn [N.eqb Pos.eqb t_axes t_extract t_scan t_forward_extract]. unfold serve_forward_extract, process.
  rewrite <- (app_nil_r (w_forward_extract_request _ _)).
  rewrite (proj1 (exact_forward_extract_request w_uri r_uri uri_ok m N)). cbn [obind].
  rewrite item_count_received, P. reflexivity.
Qed.

(* an extract request from beginning to end *)
Theorem extract_run (e : engine) l rest :
  dispatch r_mars r_uri e (send_extract context l ++ rest) =
  match e_extract e l with
  | Ok (reqs, m, errs) =>
      match reply_results (map r_string reqs) m with
      | Ok rs => (w_errors errs ++ w_extract_reply rs, Ok rest)
      | Throw x => (w_errors errs, Throw x)
      | UB => (w_errors errs, UB)
      end
  | Throw x => ([], Throw x)
  | UB => ([], UB)
  end.
Proof.
  rewrite dispatch_extract. unfold answered, process.
  destruct (e_extract e l) as [[[reqs m] errs]| |]; cbn [obind]; [|reflexivity..]. cbn [fst snd].
  destruct (reply_results (map r_string reqs) m); reflexivity.
Qed.

(* ---- headers ---- *)
Theorem wrong_version (e : engine) v s : v <> remote_protocol_version ->
  serve r_mars r_uri what e (KU16 v :: s) = Ok [KExc (what ESeriousBug)].
Proof.
  intros N. unfold serve, dispatch, r_header. cbn [r_u16 obind].
  destruct (N.eqb_spec v remote_protocol_version); [contradiction|]. reflexivity.
Qed.
Theorem unknown_type (e : engine) c t s : ~ known_type t ->
  serve r_mars r_uri what e (KU16 remote_protocol_version :: KStr c :: KU16 t :: s) = Ok [KExc (what ESeriousBug)].
Proof.
  intros N. unfold serve, dispatch, r_header. cbn [r_u16 r_str obind negb].
  rewrite N.eqb_refl. cbn [negb].
  destruct (N.eqb_spec t t_extract); [exfalso; apply N; unfold known_type; tauto|].
  destruct (N.eqb_spec t t_axes); [exfalso; apply N; unfold known_type; tauto|].
  destruct (N.eqb_spec t t_scan); [exfalso; apply N; unfold known_type; tauto|].
  destruct (N.eqb_spec t t_forward_extract); [exfalso; apply N; unfold known_type; tauto|].
  destruct (N.eqb_spec t t_forward_scan); [exfalso; apply N; unfold known_type; tauto|]. reflexivity.
Qed.
(* every stream: with the header of a known request of this version, or answered by one exception *)
Theorem acts_only_on_good_headers (s : stream) :
  (exists c t rest, s = KU16 remote_protocol_version :: KStr c :: KU16 t :: rest /\ known_type t) \/
  (exists m, forall e : engine, serve r_mars r_uri what e s = Ok [KExc m]).
Proof.
  assert (R : forall s : stream, exists x, refuse (A := N * stream) s = Throw x) by (intros [|[] ?]; eexists; reflexivity).
  assert (R' : forall s : stream, exists x, refuse (A := string * stream) s = Throw x)
    by (intros [|[] ?]; eexists; reflexivity).
  assert (H : forall x, r_header s = Throw x -> exists m, forall e : engine, serve r_mars r_uri what e s = Ok [KExc m]).
  { intros x Hx. exists (what x). intros e. unfold serve, dispatch. rewrite Hx. reflexivity. }
  destruct s as [|[] s]; try (right; eapply H; unfold r_header; cbn [r_u16 refuse obind]; reflexivity).
  destruct (N.eqb_spec n remote_protocol_version) as [->|N].
  2: { right. exists (what ESeriousBug). intros e. now apply wrong_version. }
  destruct s as [|[] s];
    try (right; eapply H; unfold r_header; cbn [r_u16 r_str refuse obind]; rewrite N.eqb_refl;
         cbn [negb r_str refuse obind]; reflexivity).
  destruct s as [|[] s];
    try (right; eapply H; unfold r_header; cbn [r_u16 r_str refuse obind]; rewrite N.eqb_refl;
         cbn [negb r_u16 r_str refuse obind]; reflexivity).
  destruct (N.eqb_spec n t_extract) as [->|N1]; [left; unfold known_type; eauto 10|].
  destruct (N.eqb_spec n t_axes) as [->|N2]; [left; unfold known_type; eauto 10|].
  destruct (N.eqb_spec n t_scan) as [->|N3]; [left; unfold known_type; eauto 10|].
  destruct (N.eqb_spec n t_forward_extract) as [->|N4]; [left; unfold known_type; eauto 10|].
  destruct (N.eqb_spec n t_forward_scan) as [->|N5]; [left; unfold known_type; eauto 10|].
  right. exists (what ESeriousBug). intros e. apply unknown_type. unfold known_type. tauto.
Qed.
(* what a client makes of such an answer *)
Theorem refusal_seen {A} (server : stream -> outcome stream) req m (reply : @reader F A) :
  server req = Ok [KExc m] -> call title server req reply = Throw (EMsg m).
Proof. intros S. unfold call. now rewrite S. Qed.

(* ---- errors ---- *)
Theorem errors_seen {A} (server : stream -> outcome stream) req es t (reply : @reader F A) :
  server req = Ok (w_errors es ++ t) -> es <> [] ->
  exists text, call title server req reply = Throw (EMsg text) /\ mentions_in_order es text.
Proof.
  intros S N. exists (error_text title es). split; [|apply error_text_mentions].
  unfold call. rewrite S. cbn [obind]. now rewrite errors_some.
Qed.
Theorem no_errors_seen {A} (server : stream -> outcome stream) req t (reply : @reader F A) :
  server req = Ok (w_errors [] ++ t) -> call title server req reply = reply t.
Proof. intros S. unfold call. now rewrite S. Qed.

(* an answer cut short is not taken for an answer *)
Theorem torn_answer {A} (server : stream -> outcome stream) req w (v : A) reply p q :
  exact reply w v -> w_errors [] ++ w = p ++ q -> q <> [] -> server req = Ok p \/ server req = Ok (p ++ [KTorn]) ->
  call title server req reply = Throw EStream.
Proof.
  intros [_ H] E N S. unfold call. destruct p as [|t p].
  - destruct S as [S|S]; now rewrite S.
  - cbn in E. injection E as <- E. destruct (H p q E N) as [H1 H2].
    destruct S as [S|S]; rewrite S; [exact H1|exact H2].
Qed.
Theorem torn_errors {A} (server : stream -> outcome stream) req es (reply : @reader F A) p q :
  w_errors es = p ++ q -> q <> [] -> server req = Ok p \/ server req = Ok (p ++ [KTorn]) ->
  call title server req reply = Throw EStream.
Proof.
  intros E N S. destruct (errors_torn title es p q E N) as [H1 H2]. unfold call.
  destruct S as [S|S]; rewrite S; cbn [obind]; [now rewrite H1|now rewrite H2].
Qed.

(* ---- unread data ---- *)
(* after task errors the client does not read the reply that follows them *)
Theorem errors_leave_reply {A} es t (reply : @reader F A) : es <> [] -> t <> [] ->
  leaves_unread (client_reads title reply) (w_errors es ++ t).
Proof.
  intros N T. exists (w_errors es), t. split; [reflexivity|]. split; [exact T|]. intros q'.
  unfold client_reads, call. cbn [obind]. now rewrite !errors_some.
Qed.
(* a server of another version does not read the request *)
Theorem version_leaves_request (e : engine) v s : v <> remote_protocol_version -> s <> [] ->
  leaves_unread (serve r_mars r_uri what e) (KU16 v :: s).
Proof.
  intros N S. exists [KU16 v], s. split; [reflexivity|]. split; [exact S|]. intros q'.
  change ([KU16 v] ++ q') with (@KU16 F v :: q'). now rewrite !wrong_version.
Qed.
End Proofs.

(* an engine whose scan reports an error, and the reply which the client does not read *)
Definition failing_scan : @engine Z unit :=
  mk_engine (fun _ => Throw EUser) (fun _ _ => Ok (3%N, ["bad file"%string])) (fun _ _ => Throw EUser)
            (fun _ => Throw EUser) (fun _ => Throw EUser).
Lemma scan_reply_unread :
  exists (e : @engine Z unit) (s : list (tok Z)),
    serve (fun s => Ok (tt, s)) (fun _ => Throw EStream) (fun _ => ""%string) e
          (send_scan (fun _ : unit => []) "" [] true) = Ok s /\
    leaves_unread (client_reads (fun _ => ""%string) r_scan_reply) s.
Proof.
  exists failing_scan, (w_errors ["bad file"%string] ++ [KULong 3]). split; [reflexivity|].
  apply errors_leave_reply; discriminate.
Qed.

(* the assumptions about the libraries' codecs can be met *)
Lemma exact_number {F} x : exact (F := F) r_number (w_number x) x.
Proof.
  assert (X : forall n m z, exact (F := F) r_number [KULong n; KStr m; KLL z]
    (if (n =? 16)%N then Ok z else if (n =? 17)%N then UB else Throw (error_of n m))).
  { intros n m z. unfold r_number.
    apply (exact_bind r_ulong (fun n s => _) [_] [_; _] _ _ (exact_ulong _)).
    apply (exact_bind r_str (fun n s => _) [_] [_] _ _ (exact_str _)).
    apply (exact_map r_ll _ z (fun z => if (n =? 16)%N then Ok z else if (n =? 17)%N then UB else Throw (error_of n m))).
    apply exact_ll. }
  destruct x as [z|e|]; [exact (X 16%N ""%string z)| |exact (X 17%N ""%string 0%Z)].
  unfold w_number. specialize (X (fst (error_code e)) (snd (error_code e)) 0%Z).
  destruct e; exact X.
Qed.
Theorem plain_link_sound F : sound_link (plain_link F).
Proof.
  split.
  - intros z. split; [discriminate|]. cbn. apply exact_ll.
  - intros u. split; [discriminate|]. destruct u as [sch p h port o l]. cbn [plain_link k_r_uri k_w_uri].
    unfold w_demo_uri, r_demo_uri. cbn [u_scheme u_path u_host u_port u_offset u_length].
    apply (exact_bind r_str (fun n s => _) [_] _ _ _ (exact_str _)).
    apply (exact_bind r_str (fun n s => _) [_] _ _ _ (exact_str _)).
    apply (exact_bind r_str (fun n s => _) [_] _ _ _ (exact_str _)).
    apply (exact_bind r_ll (fun n s => _) [_] _ _ _ (exact_ll _)).
    apply (exact_bind r_number (fun n s => _) _ _ _ _ (exact_number _)).
    apply (exact_map r_number _ l (fun l => mk_uri sch p h port o l) (exact_number l)).
Qed.
Theorem demo_link_sound : sound_link demo_link.
Proof. exact (plain_link_sound Z). Qed.
