(* Remote calls (ModelRemote.v). *)
From Coq Require Import Lia Permutation.
From Verif Require Import Base BaseLemmas ModelRange ModelInfo ModelStream SpecStream ModelJumper ModelStrings
  ModelEngine ModelProtocol ModelRemote SpecRemote ProofsStream ProofsStrings ProofsProtocol.
Local Open Scope nat_scope.

Section Proofs.
Context {F M : Type}.
Notation stream := (list (tok F)).
Variable title : N -> string.
Variable w_mars : M -> stream.
Variable r_mars : @reader F M.
Variable w_uri : uri -> stream.
Variable r_uri : @reader F uri.
Variable what : error -> string.
Variable context : string.
Hypothesis mars_ok : reads_back r_mars w_mars.
Hypothesis uri_ok : reads_back r_uri w_uri.
Notation engine := (@engine F M).

(* the rest of [process] once the request is there *)
Definition answered {A B} (execute : A -> outcome (list string * B)) (reply : B -> outcome stream)
                    (a : A) (rest : stream) : stream * outcome stream :=
  process (fun s => Ok (a, s)) execute reply rest.

Lemma process_exact {A B} (c : @reader F A) (ex : A -> outcome (list string * B)) re w a rest :
  exact c w a -> process c ex re (w ++ rest) = answered ex re a rest.
Proof. intros [H _]. unfold process, answered. rewrite H. reflexivity. Qed.
Lemma process_torn {A B} (c : @reader F A) (ex : A -> outcome (list string * B)) re w a p q :
  exact c w a -> w = p ++ q -> q <> [] -> process c ex re p = ([], Throw EStream).
Proof. intros [_ H] E N. unfold process. rewrite (proj1 (H p q E N)). reflexivity. Qed.

(* what is sent when [process] is over *)
Definition sent (x : stream * outcome stream) : outcome stream :=
  match x with
  | (t, Ok _) => Ok t
  | (t, Throw e) => Ok (t ++ [KExc (what e)])
  | (_, UB) => UB
  end.
Lemma serve_sent (e : engine) s : serve r_mars r_uri what e s = sent (dispatch r_mars r_uri e s).
Proof. unfold serve, sent. destruct (dispatch _ _ e s) as [t [x| |]]; reflexivity. Qed.

Lemma errors_exc m : r_errors title [@KExc F m] = Throw (EMsg m).
Proof. reflexivity. Qed.

(* the client's view of an answer whose reply cannot fail *)
Lemma call_total {A B C} (ex : A -> outcome (list string * B)) (w : B -> stream) (a : A)
    (reply : @reader F C) (v : B -> C) (server : stream -> outcome stream) req :
  server req = sent (answered ex (fun b => Ok (w b)) a []) ->
  (forall b, ex a = Ok ([], b) -> reply (w b) = Ok (v b, [])) ->
  call title server req reply = and_unread [] (seen title what (let* (errs, b) := ex a in Ok (v b, errs))).
Proof.
  intros S H. unfold call. rewrite S. unfold answered, process.
  destruct (ex a) as [[errs b]|e|]; cbn [obind sent app]; [|reflexivity..].
  destruct errs as [|e errs].
  - rewrite errors_none. cbn [obind seen and_unread]. now rewrite (H b eq_refl).
  - rewrite errors_some by discriminate. reflexivity.
Qed.

(* ---- the five kinds ---- *)

Lemma dispatch_extract e l rest :
  dispatch r_mars r_uri e (send_extract context l ++ rest) =
  answered (fun l => let* (reqs, m, errs) := e_extract e l in Ok (errs, (reqs, m)))
           (fun b => let* rs := reply_results (map r_string (fst b)) (snd b) in Ok (w_extract_reply rs)) l rest.
Proof.
  unfold dispatch, send_extract. rewrite <- app_assoc, header_read. cbn [N.eqb t_extract].
  unfold serve_extract. apply process_exact, exact_extract_request.
Qed.
Lemma dispatch_axes e r z rest : r <> ""%string ->
  dispatch r_mars r_uri e (send_axes context r z ++ rest) =
  answered (fun q => let* m := e_axes e (fst q) (snd q) in Ok ([], m)) (fun m => Ok (w_axes_reply m)) (r, z) rest.
Proof.
  intros N. unfold dispatch, send_axes. rewrite <- app_assoc, header_read. cbn [N.eqb Pos.eqb t_axes t_extract].
  unfold serve_axes. apply process_exact.
  apply (exact_ext (fun s => let* (q, s) := r_axes_request s in
                             let* y := (let* _ := assert_ (negb (String.eqb (fst q) "")) in Ok q) in Ok (y, s))).
  { intros s. destruct (r_axes_request s) as [[q s']| |]; cbn [obind]; [|reflexivity..].
    destruct (assert_ _); reflexivity. }
  apply (exact_post r_axes_request _ (r, z)
    (fun q => let* _ := assert_ (negb (String.eqb (fst q) "")) in Ok q) (r, z) (exact_axes_request r z)).
  cbn [fst]. destruct (String.eqb_spec r ""); [contradiction|reflexivity].
Qed.
Lemma dispatch_scan e l b rest :
  dispatch r_mars r_uri e (send_scan w_mars context l b ++ rest) =
  answered (fun q => let* (n, errs) := e_scan e (fst q) (snd q) in Ok (errs, n)) (fun n => Ok (w_scan_reply n)) (l, b) rest.
Proof.
  unfold dispatch, send_scan. rewrite <- app_assoc, header_read. cbn [N.eqb Pos.eqb t_axes t_extract t_scan].
  unfold serve_scan. apply process_exact, exact_scan_request, mars_ok.
Qed.
Lemma dispatch_forward_scan e m rest : NoDup (map fst m) ->
  dispatch r_mars r_uri e (send_forward_scan context m ++ rest) =
  answered (fun m => let* (n, errs) := e_forward_scan e m in Ok (errs, n)) (fun n => Ok (w_scan_reply n))
           (in_key_order m) rest.
Proof.
  intros N. unfold dispatch, send_forward_scan. rewrite <- app_assoc, header_read.
  cbn [N.eqb Pos.eqb t_axes t_extract t_scan t_forward_extract t_forward_scan].
  unfold serve_forward_scan. now apply process_exact, exact_forward_scan_request.
Qed.
Lemma item_count_received m : item_count (map received_file m) = item_count m.
Proof.
  induction m as [|f m IH]; [reflexivity|]. cbn [map item_count fold_right]. fold (item_count m).
  change (fold_right _ 0%N (map received_file m)) with (item_count (map received_file m)). rewrite IH.
  unfold received_file. cbn [snd]. unfold lenN. now rewrite map_length.
Qed.
Lemma dispatch_forward_extract e m rest : NoDup (map fst m) -> (0 < item_count m)%N ->
  dispatch r_mars r_uri e (send_forward_extract w_uri context m ++ rest) =
  answered (fun m => let* (res, errs) := e_forward_extract e m in Ok (errs, res))
           (fun res => Ok (w_forward_extract_reply res)) (map received_file m) rest.
Proof.
  intros N P. unfold dispatch, send_forward_extract. rewrite <- app_assoc, header_read.
  cbn [N.eqb Pos.eqb t_axes t_extract t_scan t_forward_extract].
  unfold serve_forward_extract. apply process_exact.
  apply (exact_ext (fun s => let* (q, s) := r_forward_extract_request r_uri s in
                             let* y := (let* _ := assert_ (0 <? item_count q)%N in Ok q) in Ok (y, s))).
  { intros s. destruct (r_forward_extract_request r_uri s) as [[q s']| |]; cbn [obind]; [|reflexivity..].
    destruct (assert_ _); reflexivity. }
  apply (exact_post (r_forward_extract_request r_uri) _ (map received_file m)
    (fun q => let* _ := assert_ (0 <? item_count q)%N in Ok q)); [now apply exact_forward_extract_request|].
  rewrite item_count_received. apply N.ltb_lt in P. now rewrite P.
Qed.

(* the client's results *)
Theorem remote_scan_seen e l b :
  remote_scan title w_mars context (serve r_mars r_uri what e) l b = and_unread [] (seen title what (e_scan e l b)).
Proof.
  unfold remote_scan.
  rewrite (call_total (fun q => let* (n, errs) := e_scan e (fst q) (snd q) in Ok (errs, n))
    (fun n => w_scan_reply n) (l, b) r_scan_reply (fun n => n)).
  - cbn [fst snd]. destruct (e_scan e l b) as [[n errs]| |]; reflexivity.
  - rewrite serve_sent. f_equal. rewrite <- (app_nil_r (send_scan _ _ _ _)). apply dispatch_scan.
  - reflexivity.
Qed.
Theorem remote_forward_scan_seen e m : NoDup (map fst m) ->
  remote_forward_scan title context (serve r_mars r_uri what e) m
  = and_unread [] (seen title what (e_forward_scan e (in_key_order m))).
Proof.
  intros N. unfold remote_forward_scan.
  rewrite (call_total (fun m => let* (n, errs) := e_forward_scan e m in Ok (errs, n))
    (fun n => w_scan_reply n) (in_key_order m) r_scan_reply (fun n => n)).
  - destruct (e_forward_scan e _) as [[n errs]| |]; reflexivity.
  - rewrite serve_sent. f_equal. rewrite <- (app_nil_r (send_forward_scan _ _)). now apply dispatch_forward_scan.
  - reflexivity.
Qed.
Theorem remote_axes_seen e r z : r <> ""%string ->
  (forall m, e_axes e r z = Ok m -> NoDup (map fst m) /\ forall a, In a m -> NoDup (snd a)) ->
  remote_axes title context (serve r_mars r_uri what e) r z
  = and_unread [] (seen title what (let* m := e_axes e r z in Ok (in_key_order m, []))).
Proof.
  intros N W. unfold remote_axes.
  rewrite (call_total (fun q => let* m := e_axes e (fst q) (snd q) in Ok ([], m))
    (fun m => w_axes_reply m) (r, z) r_axes_reply in_key_order).
  - cbn [fst snd]. destruct (e_axes e r z) as [m| |]; reflexivity.
  - rewrite serve_sent. f_equal. rewrite <- (app_nil_r (send_axes _ _ _)). now apply dispatch_axes.
  - cbn [fst snd]. intros b Hb. destruct (e_axes e r z) as [m| |]; cbn [obind] in Hb; try discriminate.
    injection Hb as ->. destruct (W b eq_refl) as [W1 W2].
    pose proof (exact_axes_reply (F := F) b W1 W2) as [X _]. specialize (X []). now rewrite app_nil_r in X.
Qed.
Lemma shape_find {A} (m : list (string * list A)) f : NoDup (map fst m) -> In f m ->
  sfind (fst f) (shape m) = Some (lenN (snd f)).
Proof.
  induction m as [|g m IH]; intros N I; [contradiction|]. cbn [map] in N. inversion N as [|? ? N1 N2]; subst.
  cbn [shape map sfind]. destruct I as [->|I].
  - now rewrite String.eqb_refl.
  - destruct (String.eqb_spec (fst f) (fst g)) as [E|_]; [|now apply IH].
    exfalso. apply N1. rewrite <- E. now apply in_map.
Qed.
Lemma shape_names {A} (m : list (string * list A)) : map fst (shape m) = map fst m.
Proof. unfold shape. now rewrite map_map. Qed.
Lemma shape_received m : shape (map received_file m) = shape m.
Proof.
  unfold shape. rewrite map_map. apply map_ext. intros [f l]. unfold received_file, lenN. cbn [fst snd].
  now rewrite map_length.
Qed.
Theorem remote_forward_extract_seen e m : NoDup (map fst m) -> (0 < item_count m)%N ->
  (forall res errs, e_forward_extract e (map received_file m) = Ok (res, errs) -> shape res = shape m) ->
  remote_forward_extract title w_uri context (serve r_mars r_uri what e) m
  = and_unread [] (seen title what (e_forward_extract e (map received_file m))).
Proof.
  intros N P W. unfold remote_forward_extract. fold (shape m).
  rewrite (call_total (fun m => let* (res, errs) := e_forward_extract e m in Ok (errs, res))
    (fun m => w_forward_extract_reply m) (map received_file m) (r_forward_extract_reply (shape m)) (fun n => n)).
  - destruct (e_forward_extract e _) as [[n errs]| |]; reflexivity.
  - rewrite serve_sent. f_equal. rewrite <- (app_nil_r (send_forward_extract _ _ _)).
    now apply dispatch_forward_extract.
  - intros b Hb. destruct (e_forward_extract e _) as [[res errs]| |]; cbn [obind] in Hb; try discriminate.
    injection Hb as -> ->. specialize (W b [] eq_refl).
    assert (Nb : NoDup (map fst b)) by (rewrite <- shape_names, W, shape_names; exact N).
    assert (X : exact (r_forward_extract_reply (shape m)) (w_forward_extract_reply b) b).
    { apply exact_forward_extract_reply.
      - rewrite <- W. unfold shape. now rewrite map_length.
      - intros f I. rewrite <- W. now apply shape_find. }
    destruct X as [X _]. specialize (X []). now rewrite app_nil_r in X.
Qed.

Lemma reply_results_length keys : forall (m : list (string * option (result F))) rs,
  reply_results keys m = Ok rs -> length rs = length keys.
Proof.
  induction keys as [|k keys IH]; intros m rs H; cbn [reply_results] in H; [injection H as <-; reflexivity|].
  destruct (sfind k m) as [p|]; [|discriminate].
  destruct (reply_results keys _) as [rest| |] eqn:E; cbn [obind] in H; try discriminate.
  destruct p as [r|]; [|discriminate]. injection H as <-. cbn [length]. f_equal. eapply IH, E.
Qed.

Lemma extract_reply_exc n m : (0 < n)%N -> r_extract_reply n [@KExc F m] = Throw (EMsg m).
Proof.
  intros P. unfold r_extract_reply, r_count. unfold lenN. cbn [length].
  destruct (N.leb_spec n (N.of_nat 1)) as [L|L].
  - replace n with 1%N by lia. reflexivity.
  - reflexivity.
Qed.

Theorem remote_extract_seen e l :
  (forall reqs m errs, e_extract e l = Ok (reqs, m, errs) -> length reqs = length l) ->
  remote_extract title context (serve r_mars r_uri what e) l
  = and_unread [] (seen title what (results_of (e_extract e l))).
Proof.
  intros W. unfold remote_extract, call. rewrite serve_sent.
  rewrite <- (app_nil_r (send_extract _ _)), dispatch_extract. unfold answered, process, results_of.
  destruct (e_extract e l) as [[[reqs m] errs]|x|]; cbn [obind sent app]; [|reflexivity..].
  specialize (W reqs m errs eq_refl). cbn [fst snd].
  destruct (reply_results (map r_string reqs) m) as [rs|x|] eqn:R; cbn [obind sent].
  - destruct errs as [|x errs].
    + rewrite errors_none. cbn [obind seen and_unread]. unfold omap. cbn [obind].
      assert (L : lenN l = lenN rs).
      { unfold lenN. apply reply_results_length in R. rewrite map_length in R. congruence. }
      rewrite L. pose proof (exact_extract_reply (F := F) rs) as [X _]. specialize (X []).
      now rewrite app_nil_r in X.
    + rewrite errors_some by discriminate. reflexivity.
  - destruct errs as [|y errs].
    + rewrite errors_none. cbn [obind seen]. unfold and_unread, omap. cbn [obind].
      apply extract_reply_exc. destruct l; [|unfold lenN; cbn [length]; lia].
      destruct reqs; [discriminate R|discriminate W].
    + rewrite errors_some by discriminate. reflexivity.
  - reflexivity.
Qed.
End Proofs.
