(* Proofs about scans through the engine. *)
From Coq Require Import Sorted Permutation.
From Verif Require Import Base BaseLemmas ModelInfo ModelStream ModelStrings ProofsStrings ModelEngine SpecEngine ModelCache
  ProofsCache2 ProofsEngine2 ModelProtocol ProofsProtocol ModelRemote SpecRemote ProofsRemote ModelForward SpecForward ProofsForward ProofsForward3
  SpecScanning.

(* ---- adding up ---- *)
Lemma add64_mod a b : add64 a (b mod two64) = ((a + b) mod two64)%N.
Proof. unfold add64, w64. rewrite N.add_mod_idemp_r; [reflexivity|discriminate]. Qed.

Lemma count_totals ts : count_tasks ts = totals ts.
Proof.
  unfold totals. induction ts as [|[n|e|] ts IH]; [reflexivity|..]; cbn [count_tasks existsb is_ub orb results_in errors_of fold_right].
  - rewrite IH. destruct (existsb is_ub ts); [reflexivity|]. cbn [obind]. now rewrite add64_mod.
  - rewrite IH. destruct (existsb is_ub ts); reflexivity.
  - reflexivity.
Qed.

(* ---- sorting ---- *)
Lemma zinsert_sorted z l : StronglySorted Z.le l -> StronglySorted Z.le (zinsert z l).
Proof.
  induction 1 as [|x l S IH A]; cbn [zinsert]; [repeat constructor|].
  destruct (Z.leb_spec z x).
  - constructor; [constructor; assumption|]. constructor; [assumption|]. eapply Forall_impl; [|exact A]. cbn. intros; lia.
  - constructor; [exact IH|]. apply Forall_forall. intros y I.
    assert (In y (z :: l)) as [<-|I']; [|lia|].
    { clear - I. revert I. induction l as [|a l IH]; cbn [zinsert]; [tauto|]. destruct (z <=? a)%Z; [tauto|].
      intros [->|I]; [right; now left|]. destruct (IH I); [now left|right; now right]. }
    rewrite Forall_forall in A. now apply A.
Qed.
Lemma zsort_sorted l : StronglySorted Z.le (zsort l).
Proof. induction l; [constructor|]. now apply zinsert_sorted. Qed.

Definition tidy (m : list (string * list Z)) : list (string * list Z) :=
  map (fun f => (fst f, zsort (snd f))) (in_key_order m).

Lemma scan_entries_perm m m' : Permutation m m' -> Permutation (scan_entries m) (scan_entries m').
Proof. intros P. unfold scan_entries. now apply concat_perm, Permutation_map. Qed.
Lemma tidy_entries m : Permutation (scan_entries (tidy m)) (scan_entries m).
Proof.
  rewrite (scan_entries_perm m (in_key_order m)) by apply in_key_order_perm.
  unfold tidy, scan_entries. induction (in_key_order m) as [|[p l] r IH]; [reflexivity|]. cbn [map concat fst snd].
  apply Permutation_app; [|exact IH]. apply Permutation_map, zsort_perm.
Qed.
Lemma tidy_ok m : NoDup (map fst m) -> Forall (fun f => snd f <> []) m ->
  NoDup (map fst (tidy m)) /\ Forall (fun c => snd c <> [] /\ StronglySorted Z.le (snd c)) (tidy m).
Proof.
  intros N E. split.
  - unfold tidy. rewrite map_map. cbn [fst]. eapply Permutation_NoDup; [apply Permutation_map, in_key_order_perm|exact N].
  - unfold tidy. apply Forall_forall. intros c I. apply in_map_iff in I. destruct I as ([p l] & <- & I). cbn [fst snd].
    split; [|apply zsort_sorted]. intros Z. rewrite Forall_forall in E.
    apply (Permutation_in _ (Permutation_sym (in_key_order_perm m))) in I. apply (E _ I). cbn [snd].
    apply Permutation_nil. rewrite <- Z. apply zsort_perm.
Qed.

Definition lists_ok (m : list (string * list Z)) := NoDup (map fst m) /\ Forall (fun f => snd f <> []) m.
Lemma spush_ok p o m : lists_ok m -> lists_ok (spush p o m).
Proof.
  intros [N E]. split; [now apply spush_keys_nodup|]. unfold spush. destruct (sfind p m) eqn:Ef.
  - clear - E. induction E as [|[p' l'] m Hl Hm IH]; cbn [supdate]; [constructor|].
    destruct (String.eqb p p'); constructor; try assumption. cbn [snd]. now destruct l'.
  - apply Forall_app. split; [exact E|]. constructor; [discriminate|constructor].
Qed.

(* ---- one site ---- *)
Lemma files_offsets_map us : forall acc l, Forall2 is_at us l -> lists_ok acc ->
  exists m, files_offsets_ us acc = Ok m /\ lists_ok m /\ Permutation (scan_entries acc ++ l) (scan_entries m).
Proof.
  induction us as [|u us IH]; intros acc l H G; inversion H as [|? [p o] ? l' [Ep Eo] Hl]; subst; cbn [files_offsets_].
  - exists acc. rewrite app_nil_r. auto.
  - cbn [fst snd] in Ep, Eo. rewrite Eo. cbn [obind]. destruct (IH _ _ Hl (spush_ok (u_path u) o acc G)) as (m & E & G' & P).
    exists m. split; [exact E|]. split; [exact G'|]. rewrite <- P, spush_entries, <- app_assoc, Ep. reflexivity.
Qed.

Lemma map_nonempty {A B} (f : A -> B) l : l <> [] -> negb (lenN (map f l) =? 0)%N = true.
Proof. destruct l; [contradiction|]. reflexivity. Qed.

Lemma schedule_totals scan m : m <> [] ->
  schedule_scan scan m = totals (scans_with scan (tidy m)).
Proof.
  intros N. unfold schedule_scan. rewrite map_nonempty.
  - cbn [assert_ obind]. rewrite count_totals. unfold scans_with, tidy. now rewrite map_map.
  - intros E. apply N. apply Permutation_nil. rewrite <- E. symmetry. apply in_key_order_perm.
Qed.

Section Local.
Context {M : Type}.
Variable scan : string -> list Z -> outcome N.
Variable list_uris : list M -> outcome (list uri).

Theorem local_scan_totals reqs us l : list_uris reqs = Ok us -> us <> [] -> Forall2 is_at us l ->
  exists calls, one_scan_per_file l calls /\
    local_scan scan list_uris reqs false = totals (scans_with scan calls) /\
    local_scan scan list_uris reqs true = totals (scans_with scan (map (fun c => (fst c, [])) calls)).
Proof.
  intros El Nu Hl. destruct (files_offsets_map us [] l Hl) as (m & Em & (N & E) & P); [split; constructor|].
  exists (tidy m). destruct (tidy_ok m N E) as [N' E'].
  assert (Nm : m <> []).
  { intros ->. cbn in P. apply Permutation_sym, Permutation_nil in P. inversion Hl; subst; [now apply Nu|discriminate]. }
  split; [split; [exact N'|]; split; [|exact E']; rewrite tidy_entries; exact P|].
  unfold local_scan, engine_scan, files_offsets. rewrite El. cbn [obind]. destruct us as [|u us]; [contradiction|].
  rewrite Em. cbn [obind]. split; [now apply schedule_totals|].
  rewrite schedule_totals by (intros Z; apply Nm; now apply map_eq_nil in Z). f_equal. f_equal. unfold tidy.
  rewrite map_map. cbn [fst].
  assert (X : forall r : list (string * list Z), in_key_order (map (fun f => (fst f, [])) r) = map (fun f => (fst f, @nil Z)) (in_key_order r)).
  { clear. intros r. unfold in_key_order, ssort. induction r as [|[p o] r IH]; [reflexivity|]. cbn [map fold_right]. rewrite IH.
    set (q := fold_right _ [] r). clearbody q. clear. induction q as [|[p' o'] q IH]; [reflexivity|].
    cbn [map sinsert fst]. destruct (_ p p'); [|cbn [map fst]; now f_equal]. reflexivity. }
  rewrite X, map_map. reflexivity.
Qed.

Theorem scan_nothing reqs byfiles : list_uris reqs = Ok [] ->
  local_scan scan list_uris reqs byfiles = Ok (0%N, []).
Proof. intros E. unfold local_scan, engine_scan. rewrite E. reflexivity. Qed.

Theorem scan_names names : names <> [] ->
  exists calls, NoDup calls /\ (forall p, In p calls <-> In p names) /\
    engine_scan_files scan names = totals (map (fun p => scan p []) calls).
Proof.
  intros N. exists (map fst (in_key_order (map (fun f => (f, @nil Z)) (nodup string_dec names)))).
  assert (P : Permutation (nodup string_dec names) (map fst (in_key_order (map (fun f => (f, @nil Z)) (nodup string_dec names))))).
  { rewrite <- (in_key_order_perm (map (fun f => (f, @nil Z)) _)), map_map. cbn [fst]. now rewrite map_id. }
  split; [eapply Permutation_NoDup; [exact P|apply NoDup_nodup]|].
  split. { intros p. rewrite <- (nodup_In string_dec names). split; apply Permutation_in; [symmetry|]; exact P. }
  unfold engine_scan_files. rewrite schedule_totals.
  - unfold scans_with, tidy. rewrite !map_map. f_equal. apply map_ext_in. intros [p l] I. cbn [fst snd].
    apply (Permutation_in _ (Permutation_sym (in_key_order_perm _))) in I. apply in_map_iff in I.
    destruct I as (q & [= <- <-] & _). reflexivity.
  - intros Z. apply map_eq_nil in Z. destruct names as [|a names]; [contradiction|].
    assert (I : In a (nodup string_dec (a :: names))) by (apply nodup_In; now left). rewrite Z in I. destruct I.
Qed.
End Local.

(* ---- several sites ---- *)
Section Forward.
Context {F M : Type}.
Variable k : link F M.
Variable sm : list (endpoint * endpoint).
Variable sites : endpoint -> site F M.
Variable connect : endpoint -> list (tok F) -> outcome (list (tok F)).
Hypothesis connected : forall ep, connect ep = site_server k (sites ep).

Lemma server_scan_map_ok us : forall acc l, Forall2 (scans sm) us l -> NoDup (map fst acc) ->
  Forall (fun s => snd s <> [] /\ lists_ok (snd s)) acc ->
  exists subs, server_scan_map_ sm us acc = Ok subs /\ NoDup (map fst subs) /\
    Forall (fun s => snd s <> [] /\ lists_ok (snd s)) subs /\ Permutation (flat acc ++ l) (flat subs).
Proof.
  induction us as [|u us IH]; intros acc l H N G; inversion H as [|? [ep [p o]] ? l' (Es & Ep & Eo) Hl]; subst; cbn [server_scan_map_].
  - exists acc. rewrite app_nil_r. auto.
  - cbn [fst snd] in *. unfold server_for. unfold location in Es. rewrite Es. cbn [obind]. rewrite Eo. cbn [obind].
    destruct (IH (ep_update ep [] (spush (u_path u) o) acc) _ Hl) as (subs & E & N' & G' & P).
    + now apply ep_update_nodup.
    + clear - G. induction G as [|[e v] acc [Gn Gv] Hm IH]; cbn [ep_update].
      * constructor; [|constructor]. cbn [snd]. split; [discriminate|]. apply (spush_ok _ _ []). split; constructor.
      * destruct (ep_eqb ep e); constructor; cbn [snd] in *; auto. split; [|now apply spush_ok].
        unfold spush. destruct (sfind (u_path u) v); [|destruct v; discriminate]. destruct v as [|[a b] v]; [contradiction|].
        cbn [supdate]. destruct (String.eqb _ _); discriminate.
    + exists subs. split; [exact E|]. split; [exact N'|]. split; [exact G'|].
      rewrite <- P, flat_update, <- app_assoc, Ep. reflexivity.
Qed.

Lemma one_server_scan ep m : lists_ok m -> m <> [] ->
  forward_scan_task (k_title k) (k_context k) connect ep m = reported k (totals (scans_at (sites ep) (tidy m))).
Proof.
  intros [N E] Nm. unfold forward_scan_task. rewrite connected.
  unfold site_server, server. rewrite (remote_forward_scan_seen (k_title k) (k_r_mars k) (k_r_uri k) (k_what k)) by exact N.
  unfold site_engine, the_engine. cbn [e_forward_scan]. rewrite schedule_totals.
  - assert (X : tidy (in_key_order m) = tidy m).
    { unfold tidy. f_equal. apply ssort_fix; [apply ssort_sorted|]. intros x y Ix Iy Ek. apply (map_inj_in fst m); auto using ordered_in. }
    rewrite X. unfold scans_at. destruct (totals _) as [[n [|e es]]| |]; reflexivity.
  - intros Z. apply Nm. apply Permutation_nil. rewrite <- Z. symmetry. apply in_key_order_perm.
Qed.

Theorem forwarded_scan_totals scan list_uris reqs us l byfiles : list_uris reqs = Ok us -> us <> [] ->
  Forall2 (scans sm) us l ->
  exists subs, NoDup (map fst subs) /\ Permutation l (flat subs) /\
    Forall (fun s => one_scan_per_file (scan_entries (snd s)) (snd s)) subs /\
    client_scans k sm connect scan list_uris reqs byfiles =
      totals (map (fun s => reported k (totals (scans_at (sites (fst s)) (snd s)))) subs).
Proof.
  intros El Nu Hl. destruct (server_scan_map_ok us [] l Hl) as (subs & E & N & G & P); [constructor..|].
  exists (map (fun s => (fst s, tidy (snd s))) subs).
  split; [rewrite map_map; exact N|].
  split. { rewrite P. unfold flat. rewrite map_map. cbn [fst snd]. clear. induction subs as [|s subs IH]; [reflexivity|].
    cbn [map concat]. apply Permutation_app; [|exact IH]. apply Permutation_map. symmetry. apply tidy_entries. }
  split. { apply Forall_forall. intros s I. apply in_map_iff in I. destruct I as (s' & <- & I). cbn [fst snd].
    rewrite Forall_forall in G. destruct (G _ I) as [_ [A B]]. destruct (tidy_ok _ A B) as [C D].
    split; [exact C|]. split; [reflexivity|exact D]. }
  unfold client_scans, engine_scan. rewrite El. cbn [obind]. destruct us as [|u us]; [contradiction|].
  unfold forward_scan. cbn [lenN length N.of_nat N.eqb negb assert_ obind]. unfold server_scan_map. rewrite E. cbn [obind].
  rewrite count_totals, map_map. f_equal. apply map_ext_in. intros s I. cbn [fst snd].
  rewrite Forall_forall in G. destruct (G _ I) as [A B]. now apply one_server_scan.
Qed.
End Forward.

(* whole files are not scanned by a client that forwards *)
Theorem byfiles_ignored :
  let us := [demo_place "h1" "/a" 5] in
  client_scans demo_link demo_servermap (fun ep => site_server demo_link (demo_scan_sites ep)) demo_scan (fun _ => Ok us) [] true
    = Ok (1%N, []) /\
  local_scan (M := Z) demo_scan (fun _ => Ok us) [] true = Ok (3%N, []).
Proof. vm_compute. auto. Qed.
