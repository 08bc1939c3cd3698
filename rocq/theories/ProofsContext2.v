(* The metrics of a connection, for C91. *)
From Verif Require Import Base BaseLemmas ModelInfo ModelStream ModelStrings ModelEngine ModelQueue ModelTask ModelProtocol ModelRemote ModelContext SpecQueue SpecContext ProofsContext ProofsForward.
From Coq Require Import Lia.

Lemma sfind_set k k' v l : sfind k (set_metric k' v l) = if String.eqb k k' then Some v else sfind k l.
Proof.
  induction l as [|[a b] l IH]; cbn [set_metric sfind].
  - reflexivity.
  - destruct (String.eqb_spec k' a) as [->|N]; cbn [sfind].
    + destruct (String.eqb k a); reflexivity.
    + rewrite IH. destruct (String.eqb_spec k a) as [->|N']; [|reflexivity].
      destruct (String.eqb_spec a k'); [congruence|reflexivity].
Qed.

Lemma sets_app a b o : set_metrics (a ++ b) o = set_metrics b (set_metrics a o).
Proof. apply fold_left_app. Qed.

Lemma sets_other k l : (forall v, ~ In (k, v) l) -> forall o, sfind k (set_metrics l o) = sfind k o.
Proof.
  induction l as [|[a b] l IH]; intros H o; [reflexivity|]. unfold set_metrics in *. cbn [fold_left fst snd].
  rewrite IH by (intros v K; apply (H v); now right). rewrite sfind_set.
  destruct (String.eqb_spec k a) as [->|N]; [|reflexivity]. exfalso. apply (H b). now left.
Qed.

Section Line.
Context {F M : Type}.
Notation stream := (list (tok F)).
Variable r_mars : @reader F M.
Variable r_uri : @reader F uri.
Variable what : error -> string.
Variable json : string -> bool.
Variable engine_sets : stream -> list (string * metric).
Hypothesis ES : forall s k v, In (k, v) (engine_sets s) -> ~ In k server_names.
Variable e : engine (F := F) (M := M).
Notation metrics_of := (connection_metrics r_mars r_uri what json engine_sets e).
Notation dispatch_ := (dispatch r_mars r_uri e).
Notation psets := (process_sets engine_sets).

Lemma engine_keeps k s o : In k server_names -> sfind k (set_metrics (engine_sets s) o) = sfind k o.
Proof. intro H. apply sets_other. intros v K. exact (ES _ _ _ K H). Qed.

(* one kind of request: how it ends, and what is set *)
Lemma process_end {A B} named (construct : @reader F A) counted checked (execute : A -> outcome (list string * B)) reply id s construct' :
  (forall s, construct' s = (let* (a, r) := construct s in let* _ := assert_ (checked a) in Ok (a, r))) ->
  match snd (process construct' execute reply s), snd (psets named construct counted checked execute reply id s) with
  | Ok _, Ok _ => True | Throw x, Throw y => x = y | UB, UB => True | _, _ => False
  end.
Proof.
  intro H. unfold process, process_sets. rewrite H. destruct (construct s) as [[a r]|x|]; cbn [obind snd]; try tauto.
  unfold assert_. destruct (checked a); cbn [obind snd]; [|reflexivity].
  destruct (execute a) as [[errs b]|x|]; cbn [snd]; try tauto. destruct (reply b); cbn [snd]; tauto.
Qed.

Definition counts (k : string) : Prop := k = "count_extraction_requests"%string \/ k = "count_scan_requests"%string \/ k = "count_received_offsets"%string.

Lemma process_values {A B} named (construct : @reader F A) counted checked (execute : A -> outcome (list string * B)) reply id s :
  (forall a k v, In (k, v) (counted a) -> counts k) ->
  let l := set_metrics (fst (psets named construct counted checked execute reply id s)) [] in
  sfind "error" l = None /\ sfind "action" l = Some (MText named) /\ sfind "gribjump_request_id" l = Some (MCount id) /\
  (forall k, counts k -> sfind k l = match construct s with Ok (a, _) => sfind k (set_metrics (counted a) []) | _ => None end).
Proof.
  intro C.
  assert (CN : forall k a, ~ counts k -> forall o, sfind k (set_metrics (counted a) o) = sfind k o).
  { intros k a N o. apply sets_other. intros v K. apply N. eapply C, K. }
  assert (CK : forall k a o, counts k -> sfind k o = None -> sfind k (set_metrics (counted a) o) = sfind k (set_metrics (counted a) [])).
  { intros k a. clear. generalize (counted a) as l. intro l.
    assert (X : forall o o', sfind k o = sfind k o' -> sfind k (set_metrics l o) = sfind k (set_metrics l o')).
    { induction l as [|[x y] l IH]; intros o o' H; [exact H|]. unfold set_metrics in *. cbn [fold_left fst snd]. apply IH.
      rewrite !sfind_set. now rewrite H. }
    intros o _ H. apply X. rewrite H. reflexivity. }
  assert (NC : forall k, In k ["error"; "action"; "gribjump_request_id"]%string -> ~ counts k).
  { intros k H. unfold counts. intros [->|[->| ->]]; cbn in H; intuition discriminate. }
  assert (SN : forall k, counts k -> In k server_names).
  { intros k [->|[->| ->]]; cbn; tauto. }
  assert (SM : forall k k' v o, counts k -> In k' ["error"; "action"; "gribjump_request_id"; "elapsed_receive"; "elapsed_execute"; "elapsed_reply"]%string ->
      sfind k (set_metrics [(k', v)] o) = sfind k o).
  { intros k k' v o H K. apply sets_other. intros v' [X|[]]. injection X as -> ->. unfold counts in H.
    destruct H as [->|[->| ->]]; cbn in K; intuition discriminate. }
  unfold process_sets. cbv zeta.
  destruct (construct s) as [[a r]|x|]; cbn [fst].
  2,3: (split; [reflexivity|]; split; [reflexivity|]; split; [reflexivity|]; intros k [->|[->| ->]]; reflexivity).
  assert (R : forall l, (forall k v, In (k, v) l -> In k ["elapsed_receive"; "elapsed_execute"; "elapsed_reply"]%string \/ ~ In k server_names) ->
     let m := set_metrics (([("gribjump_request_id", MCount id); ("action", MText named)]%string ++ counted a) ++ l) [] in
     sfind "error" m = None /\ sfind "action" m = Some (MText named) /\ sfind "gribjump_request_id" m = Some (MCount id) /\
     (forall k, counts k -> sfind k m = sfind k (set_metrics (counted a) []))).
  { intros l H m. unfold m. rewrite !sets_app.
    assert (L : forall k, In k server_names -> ~ In k ["elapsed_receive"; "elapsed_execute"; "elapsed_reply"]%string ->
       forall o, sfind k (set_metrics l o) = sfind k o).
    { intros k K1 K2 o. apply sets_other. intros v K. destruct (H _ _ K); tauto. }
    assert (ND : forall k, counts k -> ~ In k ["elapsed_receive"; "elapsed_execute"; "elapsed_reply"]%string).
    { intros k [->|[->| ->]]; cbn; intuition discriminate. }
    split; [|split; [|split]].
    - rewrite L by (cbn; intuition discriminate). rewrite CN by (apply NC; cbn; tauto). reflexivity.
    - rewrite L by (cbn; intuition discriminate). rewrite CN by (apply NC; cbn; tauto). reflexivity.
    - rewrite L by (cbn; intuition discriminate). rewrite CN by (apply NC; cbn; tauto). reflexivity.
    - intros k K. rewrite L by (auto). apply CK; [exact K|]. destruct K as [->|[->| ->]]; reflexivity. }
  destruct (checked a); cbn [fst].
  2:{ specialize (R []). rewrite app_nil_r in R. apply R. intros k v []. }
  destruct (execute a) as [[errs b]|x|]; cbn [fst]; [destruct (reply b); cbn [fst]|..];
    rewrite <- ?app_assoc, ?(app_assoc _ (counted a)); apply R; intros k v H;
    repeat (apply in_app_iff in H; destruct H as [H|H]);
    try (right; eapply ES; exact H); left;
    destruct H as [H|[]]; injection H as <- <-; cbn; tauto.
Qed.

Lemma request_values type id s :
  let l := set_metrics (fst (request_sets r_mars r_uri engine_sets e type id s)) [] in
  sfind "error" l = None /\
  sfind "action" l = option_map MText (action_name type) /\
  sfind "gribjump_request_id" l = option_map (fun _ => MCount id) (action_name type) /\
  (type = t_extract -> forall q r, r_extract_request s = Ok (q, r) -> sfind "count_extraction_requests" l = Some (MCount (lenN q))) /\
  (type = t_scan -> forall q r, r_scan_request r_mars s = Ok (q, r) -> sfind "count_scan_requests" l = Some (MCount (lenN (fst q)))) /\
  (type = t_forward_extract -> forall q r, r_forward_extract_request r_uri s = Ok (q, r) ->
     sfind "count_extraction_requests" l = Some (MCount (item_count q))) /\
  (type = t_forward_scan -> forall q r, r_forward_scan_request s = Ok (q, r) ->
     sfind "count_received_offsets" l = Some (MCount (fold_right (fun f n => (lenN (snd f) + n)%N) 0%N q))).
Proof.
  unfold request_sets, action_name.
  destruct (N.eqb_spec type t_extract) as [->|N1].
  { match goal with |- context [process_sets _ ?nm ?c ?k ?ch ?x ?y _ _] =>
      destruct (process_values nm c k ch x y id s) as (A & B & C & D) end.
    { intros a k v [H|[]]. injection H as <- _. now left. }
    cbv zeta. split; [exact A|]. split; [exact B|]. split; [exact C|].
    split; [intros _ q r H; rewrite D by (now left); rewrite H; reflexivity|]. repeat split; discriminate. }
  destruct (N.eqb_spec type t_axes) as [->|N2].
  { match goal with |- context [process_sets _ ?nm ?c ?k ?ch ?x ?y _ _] =>
      destruct (process_values nm c k ch x y id s) as (A & B & C & D) end.
    { intros a k v []. }
    cbv zeta. split; [exact A|]. split; [exact B|]. split; [exact C|]. repeat split; discriminate. }
  destruct (N.eqb_spec type t_scan) as [->|N3].
  { match goal with |- context [process_sets _ ?nm ?c ?k ?ch ?x ?y _ _] =>
      destruct (process_values nm c k ch x y id s) as (A & B & C & D) end.
    { intros a k v [H|[]]. injection H as <- _. right. now left. }
    cbv zeta. split; [exact A|]. split; [exact B|]. split; [exact C|]. split; [discriminate|].
    split; [intros _ q r H; rewrite D by (right; now left); rewrite H; reflexivity|]. repeat split; discriminate. }
  destruct (N.eqb_spec type t_forward_extract) as [->|N4].
  { match goal with |- context [process_sets _ ?nm ?c ?k ?ch ?x ?y _ _] =>
      destruct (process_values nm c k ch x y id s) as (A & B & C & D) end.
    { intros a k v [H|[]]. injection H as <- _. now left. }
    cbv zeta. split; [exact A|]. split; [exact B|]. split; [exact C|]. split; [discriminate|]. split; [discriminate|].
    split; [intros _ q r H; rewrite D by (now left); rewrite H; reflexivity|]. discriminate. }
  destruct (N.eqb_spec type t_forward_scan) as [->|N5].
  { match goal with |- context [process_sets _ ?nm ?c ?k ?ch ?x ?y _ _] =>
      destruct (process_values nm c k ch x y id s) as (A & B & C & D) end.
    { intros a k v [H|[]]. injection H as <- _. right. now right. }
    cbv zeta. split; [exact A|]. split; [exact B|]. split; [exact C|]. split; [discriminate|]. split; [discriminate|]. split; [discriminate|].
    intros _ q r H; rewrite D by (right; now right); rewrite H; reflexivity. }
  cbv zeta. cbn [fst set_metrics fold_left sfind option_map]. repeat split; try reflexivity; congruence.
Qed.

Lemma request_end type id s : forall c, c = w_header (F := F) type "" ++ s ->
  match snd (dispatch_ c), snd (request_sets r_mars r_uri engine_sets e type id s) with
  | Ok _, Ok _ => True | Throw x, Throw y => x = y | UB, UB => True | _, _ => False
  end.
Proof.
  intros c ->. unfold dispatch, request_sets. cbn [w_header app r_header r_u16 r_str obind].
  replace (remote_protocol_version =? remote_protocol_version)%N with true by reflexivity. cbn [negb].
  assert (T : forall A (construct : @reader F A) s, construct s = (let* (a, r) := construct s in let* _ := assert_ true in Ok (a, r))).
  { intros A cst x. destruct (cst x) as [[a r]|y|]; reflexivity. }
  destruct (N.eqb_spec type t_extract) as [->|N1]; [apply process_end; intro; apply T|].
  destruct (N.eqb_spec type t_axes) as [->|N2]; [apply process_end; intro x; destruct (r_axes_request x) as [[a r]|y|]; reflexivity|].
  destruct (N.eqb_spec type t_scan) as [->|N3]; [apply process_end; intro; apply T|].
  destruct (N.eqb_spec type t_forward_extract) as [->|N4]; [apply process_end; intro x; destruct (r_forward_extract_request r_uri x) as [[a r]|y|]; reflexivity|].
  destruct (N.eqb_spec type t_forward_scan) as [->|N5]; [apply process_end; intro; apply T|].
  reflexivity.
Qed.

(* the line of a connection whose header has been read *)
Lemma connection_line id type c body :
  let s := w_header (F := F) type c ++ body in
  json c = true -> snd (dispatch_ s) <> UB ->
  exists m, metrics_of id s = Ok m /\ me_context m = c /\
    sfind "action" (me_values m) = option_map MText (action_name type) /\
    sfind "gribjump_request_id" (me_values m) = option_map (fun _ => MCount id) (action_name type) /\
    sfind "error" (me_values m) = match snd (dispatch_ s) with Throw x => Some (MText (what x)) | _ => None end /\
    (type = t_extract -> forall q r, r_extract_request body = Ok (q, r) -> sfind "count_extraction_requests" (me_values m) = Some (MCount (lenN q))) /\
    (type = t_scan -> forall q r, r_scan_request r_mars body = Ok (q, r) -> sfind "count_scan_requests" (me_values m) = Some (MCount (lenN (fst q)))) /\
    (type = t_forward_extract -> forall q r, r_forward_extract_request r_uri body = Ok (q, r) ->
       sfind "count_extraction_requests" (me_values m) = Some (MCount (item_count q))) /\
    (type = t_forward_scan -> forall q r, r_forward_scan_request body = Ok (q, r) ->
       sfind "count_received_offsets" (me_values m) = Some (MCount (fold_right (fun f n => (lenN (snd f) + n)%N) 0%N q))).
Proof.
  intros s J U. unfold s in *.
  assert (DC : dispatch_ (w_header type c ++ body) = dispatch_ (w_header type "" ++ body)) by reflexivity.
  rewrite DC in *. clear DC.
  pose proof (request_values type id body) as (A & B & C & D1 & D2 & D3 & D4). cbv zeta in *.
  pose proof (request_end type id body _ eq_refl) as E.
  unfold connection_metrics. cbn [w_header app header_context r_u16 r_str].
  replace (remote_protocol_version =? remote_protocol_version)%N with true by reflexivity. cbn [negb].
  cbn [w_header app] in E, U.
  destruct (request_sets r_mars r_uri engine_sets e type id body) as [sets end_]. cbn [fst snd] in *.
  unfold report. rewrite J.
  destruct (snd (dispatch_ (KU16 remote_protocol_version :: KStr "" :: KU16 type :: body))) as [o|x|]; destruct end_ as [o'|y|]; try tauto.
  - eexists. split; [reflexivity|]. cbn [me_context me_values]. repeat (split; [assumption || reflexivity|]). assumption.
  - subst y. eexists. split; [reflexivity|]. cbn [me_context me_values]. rewrite sets_app. cbn [set_metrics fold_left fst snd] in *.
    rewrite !sfind_set.
    change (String.eqb "action" "error") with false. change (String.eqb "gribjump_request_id" "error") with false.
    change (String.eqb "error" "error") with true. change (String.eqb "count_extraction_requests" "error") with false.
    change (String.eqb "count_scan_requests" "error") with false. change (String.eqb "count_received_offsets" "error") with false.
    cbv iota. repeat (split; [assumption || reflexivity|]). assumption.
Qed.

(* a header that cannot be read *)
Lemma connection_no_header id s : json no_context = true -> fst (header_context s) = no_context ->
  forall x, r_header s = Throw x -> exists m, metrics_of id s = Ok m /\ me_context m = no_context /\ me_values m = [("error"%string, MText (what x))].
Proof.
  intros J C x H. unfold connection_metrics, header_context, r_header in *. 
  destruct (r_u16 s) as [[v s1]|y|]; cbn [obind] in *; try discriminate.
  - destruct (negb (v =? remote_protocol_version)%N).
    + injection H as <-. unfold report. rewrite J. eexists. split; [reflexivity|]. auto.
    + destruct (r_str s1) as [[c s2]|y|]; cbn [obind fst] in *; try discriminate.
      * subst c. rewrite H. unfold report. rewrite J. eexists. split; [reflexivity|]. auto.
      * injection H as <-. unfold report. rewrite J. eexists. split; [reflexivity|]. auto.
  - injection H as <-. unfold report. rewrite J. eexists. split; [reflexivity|]. auto.
Qed.

(* a context that is not JSON: the request is served, the line is lost *)
Lemma malformed_lost id type c body :
  let s := w_header (F := F) type c ++ body in
  json c = false -> snd (dispatch_ s) <> UB -> metrics_of id s = Throw EBadValue /\ exists t, serve r_mars r_uri what e s = Ok t.
Proof.
  intros s J U. unfold s in *. split.
  - assert (DC : dispatch_ (w_header type c ++ body) = dispatch_ (w_header type "" ++ body)) by reflexivity.
    rewrite DC in *. clear DC.
    pose proof (request_end type id body _ eq_refl) as E.
    unfold connection_metrics. cbn [w_header app header_context r_u16 r_str].
    replace (remote_protocol_version =? remote_protocol_version)%N with true by reflexivity. cbn [negb].
    cbn [w_header app] in E, U.
    destruct (request_sets r_mars r_uri engine_sets e type id body) as [sets end_]. cbn [fst snd] in *.
    unfold report. rewrite J.
    destruct (snd (dispatch_ (KU16 remote_protocol_version :: KStr "" :: KU16 type :: body))) as [o|x|]; destruct end_ as [o'|y|]; tauto || reflexivity.
  - unfold serve. destruct (dispatch_ (w_header type c ++ body)) as [t [o|x|]]; cbn [snd] in U; eauto. now destruct U.
Qed.
End Line.

(* ---- contexts at the interfaces ---- *)
Lemma api_context json ctx c : c_context json ctx = Ok c -> json c = true /\ (ctx = Some c \/ ctx = None /\ c = no_context).
Proof.
  unfold c_context, new_context. destruct ctx as [s|].
  - destruct (json s) eqn:E; [|discriminate]. intros [= <-]. auto.
  - destruct (json no_context) eqn:E; [|discriminate]. intros [= <-]. auto.
Qed.
Lemma api_malformed json s : json s = false -> c_context json (Some s) = Throw EBadValue.
Proof. unfold c_context, new_context. now intros ->. Qed.

Lemma sfind_filter (p : string -> bool) k (d : list (string * string)) :
  sfind k (filter (fun x => p (fst x)) d) = if p k then sfind k d else None.
Proof.
  induction d as [|[a b] d IH]; cbn [filter fst sfind]; [now destruct (p k)|].
  destruct (p a) eqn:P; cbn [sfind]; destruct (String.eqb_spec k a) as [->|N]; rewrite ?IH, ?P; auto.
Qed.
Lemma sfind_app_ k (a b : list (string * string)) : sfind k (a ++ b) = match sfind k a with Some v => Some v | None => sfind k b end.
Proof. induction a as [|[x y] a IH]; cbn [app sfind]; [reflexivity|]. destruct (String.eqb k x); auto. Qed.

Lemma merge_sfind defaults ctx k :
  sfind k (merge_context defaults ctx) =
  match ctx with Some c => match sfind k c with Some v => Some v | None => sfind k defaults end | None => sfind k defaults end.
Proof.
  destruct ctx as [c|]; [|reflexivity]. cbn [merge_context]. rewrite sfind_app_.
  destruct (sfind k c) eqn:E; [reflexivity|].
  rewrite (sfind_filter (fun x => match sfind x c with None => true | Some _ => false end)). now rewrite E.
Qed.
Lemma merge_keys defaults ctx : NoDup (map fst defaults) -> (forall c, ctx = Some c -> NoDup (map fst c)) ->
  NoDup (map fst (merge_context defaults ctx)).
Proof.
  intros H K. destruct ctx as [c|]; [|exact H]. specialize (K c eq_refl). cbn [merge_context]. rewrite map_app.
  assert (D : forall x, In x (map fst c) -> sfind x c <> None).
  { clear. induction c as [|[a b] c IH]; cbn; intros x I; [tauto|]. destruct (String.eqb_spec x a); [discriminate|].
    apply IH. destruct I; congruence. }
  assert (FI : forall (d : list (string * string)) x, In x (map fst (filter (fun d => match sfind (fst d) c with None => true | Some _ => false end) d)) ->
     In x (map fst d) /\ sfind x c = None).
  { clear. induction d as [|[a b] d IH]; cbn [filter map]; intros x I; [destruct I|]. cbn [fst] in I.
    destruct (sfind a c) eqn:E; [destruct (IH _ I); cbn; tauto|]. cbn [map fst In] in I |- *. destruct I as [<-|I]; [tauto|]. destruct (IH _ I); tauto. }
  apply NoDup_app_iff_. split; [exact K|]. split.
  - clear K D. induction defaults as [|[a b] d IH]; cbn [filter]; [constructor|]. inversion H as [|x y Nx Hd]; subst. cbn [fst].
    destruct (sfind a c); [auto|]. cbn [map fst]. constructor; [|auto]. intro I. apply FI in I. tauto.
  - intros x I J. apply FI in J. now apply (D x I).
Qed.
