(* Path requests, completeness, order of a file's requests, remote reads: C36, C39, C40, C43-C45 *)
From Coq Require Import Lia Permutation Sorted.
From Verif Require Import Base BaseLemmas ModelRange ModelInfo ModelSimple ModelCcsds ModelJumper ModelStrings
  ModelEngine SpecEngine ProofsStrings ProofsEngine ProofsEngine2 ProofsCache.

(* ---- C45 ---- *)

Lemma read_loop_single : forall fresh ps msg,
  length fresh = length msg -> filter (fun p => negb (lenN p =? 0)%N) ps = [msg] ->
  read_loop fresh ps = msg.
Proof.
  intros fresh ps msg L H. unfold read_loop.
  assert (G : forall ps buf, filter (fun p : list N => negb (lenN p =? 0)%N) ps = [] ->
              fold_left (fun b p => p ++ skipn (length p) b) ps buf = buf).
  { induction ps0 as [|p ps0 IH]; intros buf Hp; [reflexivity|]. cbn in Hp.
    destruct p as [|x p]; [|discriminate]. cbn. apply IH. exact Hp. }
  revert fresh L. induction ps as [|p ps IH]; intros fresh L; [discriminate|]. cbn in H.
  destruct p as [|x p].
  - cbn in *. apply IH; assumption.
  - cbn [lenN length] in H. change (negb (lenN (x :: p) =? 0)%N) with true in H. cbn iota in H.
    injection H as <- H. cbn [fold_left]. rewrite (G ps _ H).
    rewrite skipn_all2 by lia. apply app_nil_r.
Qed.

Section Engine.
Context {F : Type}.
Notation items := (list (string * @item F)).
Notation filemap := (list (string * list string)).

(* ---- path requests ---- *)

Notation pentry := (fun r => (p_string r, set_uri (p_uri r) (new_item (F := F) (p_request r)))).
Notation pfold := (fold_left (fun (m : items) r =>
  semplace (p_string r) (set_uri (p_uri r) (new_item (F := F) (p_request r))) m)).

Lemma pfold_bound : forall l (m : items), length (pfold l m) <= length m + length l.
Proof.
  induction l as [|r l IH]; intro m; cbn; [lia|]. specialize (IH (semplace (p_string r) (set_uri (p_uri r) (new_item (p_request r))) m)).
  unfold semplace in *. destruct (sfind (p_string r) m); [lia|]. rewrite app_length in IH. cbn in IH. lia.
Qed.

Lemma pfold_full : forall l (m : items), length (pfold l m) = length m + length l ->
  NoDup (map fst m) ->
  pfold l m = m ++ map pentry l /\ NoDup (map fst m ++ map p_string l).
Proof.
  induction l as [|r l IH]; intros m L ND; cbn.
  - rewrite !app_nil_r. auto.
  - cbn in L. destruct (sfind (p_string r) m) as [i|] eqn:E.
    + rewrite (semplace_old _ _ _ _ E) in L. pose proof (pfold_bound l m). lia.
    + rewrite (semplace_new _ _ _ E) in *.
      destruct (IH (m ++ [pentry r])) as [E2 ND2].
      * rewrite app_length. cbn. etransitivity; [exact L|lia].
      * apply keys_snoc; assumption.
      * rewrite E2, <- app_assoc. split; [reflexivity|].
        rewrite map_app, <- app_assoc in ND2. exact ND2.
Qed.

Lemma pfold_wf : forall l (m : items), wf_items m -> wf_items (pfold l m).
Proof.
  induction l as [|r l IH]; intros m W; [exact W|]. cbn [fold_left]. apply IH.
  unfold semplace. destruct (sfind (p_string r) m) eqn:E; [exact W|]. destruct W as [ND W].
  split; [apply keys_snoc; assumption|]. intros k i. rewrite sfind_app. cbn.
  destruct (sfind k m) eqn:Ek; [intros [= <-]; apply W, Ek|].
  destruct (String.eqb_spec k (p_string r)) as [->|N]; [intros [= <-]; reflexivity|discriminate].
Qed.

Lemma paths_groups_ok : forall its : items, NoDup (map fst its) ->
  groups_ok its (file_map_from_paths its) /\
  Permutation (map fst its) (concat (map snd (file_map_from_paths its))).
Proof.
  intros its ND. rewrite file_map_from_paths_map.
  pose proof (paths_partition its) as (NDg & P & G).
  set (m := fold_left _ _ _) in *.
  assert (Pk : Permutation (map fst its) (concat (map snd (map (fun g : string * list (string * @item F) => (fst g, map fst (snd g))) m)))).
  { rewrite map_map. cbn [snd]. rewrite <- (map_map snd (map fst)), <- concat_map. apply Permutation_map, P. }
  split; [split|exact Pk].
  - eapply Permutation_NoDup; [exact Pk|exact ND].
  - intros p ks k I Ik. apply in_map_iff in I. destruct I as ([g xs] & [= <- <-] & I).
    cbn in Ik. apply in_map_iff in Ik. destruct Ik as ([k' i] & Ek & Ix). cbn in Ek. subst k'.
    exists i. split.
    + apply in_sfind; [exact ND|]. eapply Permutation_in; [symmetry; exact P|].
      apply in_concat. exists xs. split; [|exact Ix]. apply in_map_iff. exists (g, xs). auto.
    + exact (proj2 (G _ _ I) _ Ix).
Qed.

Variable A : farith F.
Variable aec : aec_oracle.
Variable cache_get : string -> list Z -> outcome (list (info F)).
Variable files : string -> option (list N).
Variable sorter : list (string * @item F * Z) -> list (string * @item F * Z).
Variable build_info : list N -> outcome (info F).
Variable pieces : uri -> Z -> outcome (list (list N)).
Variable fresh : Z -> list N.
Variable forward_extract : filemap -> items -> outcome (list error * items).
Variable fdb_list : string -> outcome (list listed).
Variable true_info : string -> Z -> info F -> Prop.

Notation answer_ := (answer A aec files true_info build_info (buffer_of pieces fresh)).
Notation sched := (schedule A aec cache_get files sorter build_info pieces fresh forward_extract).
Notation local := (local_extract A aec cache_get files sorter build_info pieces fresh forward_extract fdb_list).
Notation local_paths := (local_extract_paths A aec cache_get files sorter build_info pieces fresh forward_extract).

Lemma pfold_items_ : forall l (m : items) k i, sfind k (pfold l m) = Some i ->
  sfind k m = Some i \/ exists r, In r l /\ k = p_string r /\ i = set_uri (p_uri r) (new_item (p_request r)).
Proof.
  induction l as [|r l IH]; intros m k i E; [now left|]. cbn [fold_left] in E. apply IH in E.
  destruct E as [E|(r' & I & X)]; [|right; exists r'; split; [now right|exact X]].
  unfold semplace in E. destruct (sfind (p_string r) m) eqn:Er; [now left|]. rewrite sfind_app in E. cbn in E.
  destruct (sfind k m) eqn:Ek; [now left|].
  destruct (String.eqb_spec k (p_string r)) as [->|N]; [|discriminate]. injection E as <-.
  right. exists r. split; [now left|auto].
Qed.
Lemma pfold_items : forall l k i, sfind k (build_uris_map (F := F) l) = Some i ->
  exists r, In r l /\ k = p_string r /\ i = set_uri (p_uri r) (new_item (p_request r)).
Proof. intros l k i E. destruct (pfold_items_ l [] k i E) as [X|X]; [discriminate|exact X]. Qed.

(* whatever carries out the extraction *)
Theorem local_paths_through : forall (ANS : uri -> request -> result F -> Prop) cfg r0 rest res,
  (forall its2, let its := build_uris_map (r0 :: rest) in NoDup (map fst its) ->
     (forall k i, sfind k its = Some i -> exists r, In r (r0 :: rest) /\ k = p_string r /\
        i = set_uri (p_uri r) (new_item (p_request r))) ->
     sched cfg (negb (String.eqb (p_host r0) "" && (p_port r0 =? 0)%Z)) (file_map_from_paths its) its = Ok ([], its2) ->
     leaves ANS (file_map_from_paths its) its its2) ->
  local_paths cfg (r0 :: rest) = Ok res ->
  NoDup (map p_string (r0 :: rest)) /\
  Forall2 (fun r x => ANS (p_uri r) (p_request r) x) (r0 :: rest) res.
Proof.
  intros ANS cfg r0 rest res HS H. unfold local_extract_paths in H.
  set (fwd := negb _) in *. set (reqs := r0 :: rest) in *.
  set (its := build_uris_map reqs) in *.
  assert (W : wf_items its).
  { apply (pfold_wf reqs []). split; [constructor|discriminate]. }
  destruct (paths_groups_ok its (proj1 W)) as [Gok Pk].
  destruct (sched cfg fwd (file_map_from_paths its) its) as [[es its2]| |] eqn:Es; try discriminate.
  cbn [obind] in H. destruct es as [|e es]; [|discriminate]. cbn [raise_errors obind] in H.
  destruct (HS its2 (proj1 W) (pfold_items reqs) Es) as (K2 & S).
  assert (S1 : forall k i, sfind k its = Some i -> exists x, sfind k its2 = Some (set_result x i) /\
                           ANS (it_uri i) (it_request i) x).
  { intros k i E. apply (proj1 (S k i E)). eapply Permutation_in; [exact Pk|]. eapply sfind_key, E. }
  assert (W2 : wf_items its2).
  { apply (wf_set _ _ W K2). intros k i' E.
    assert (Ik : In k (map fst its)) by (rewrite <- K2; eapply sfind_key, E).
    destruct (sfind_some _ _ Ik) as (i & Ei). exists i. split; [exact Ei|].
    destruct (S1 k i Ei) as (x & Ex & _). rewrite Ex in E. injection E as <-. reflexivity. }
  unfold collect_results in H.
  destruct (lenN (collect_items its2) =? lenN (map p_string reqs))%N eqn:El; [|discriminate].
  cbn [assert_ obind] in H. apply N.eqb_eq in El.
  assert (Lr : length its = length reqs).
  { rewrite collect_items_perm in El by exact W2. unfold lenN in El.
    rewrite <- (Permutation_length (in_key_order_perm its2)) in El.
    rewrite <- (map_length fst its2), K2, map_length, map_length in El. lia. }
  destruct (pfold_full reqs [] Lr (NoDup_nil _)) as [Ei ND]. cbn [map app] in ND.
  split; [exact ND|]. destruct (take_all_inv _ _ _ H) as [_ Fa].
  apply (Forall2_map_in _ _ _ _ _ Fa). intros r Ir x (i2 & E2 & R2).
  rewrite collect_items_find in E2 by exact W2.
  assert (E0 : sfind (p_string r) its = Some (set_uri (p_uri r) (new_item (p_request r)))).
  { change its with (pfold reqs []). rewrite Ei. apply in_sfind.
    - cbn [app]. rewrite map_map. exact ND.
    - apply (in_map pentry) in Ir. exact Ir. }
  destruct (S1 _ _ E0) as (x' & Ex & An). rewrite Ex in E2. injection E2 as <-.
  cbn in R2. injection R2 as ->. exact An.
Qed.

Theorem local_paths_answers : forall cfg r0 rest res,
  sorts sorter ->
  (forall p offs infos, cache_get p offs = Ok infos -> Forall2 (true_info p) offs infos) ->
  p_host r0 = ""%string -> p_port r0 = 0%Z ->
  local_paths cfg (r0 :: rest) = Ok res ->
  NoDup (map p_string (r0 :: rest)) /\
  Forall2 (fun r x => answer_ cfg (p_uri r) (p_request r) x) (r0 :: rest) res.
Proof.
  intros cfg r0 rest res Hs Hc Hh Hp H. apply (local_paths_through (answer_ cfg) cfg); [|exact H].
  cbn zeta. intros its2 ND _ Es. rewrite Hh, Hp in Es. cbn [String.eqb andb Z.eqb negb] in Es.
  destruct (schedule_inv A aec cache_get files sorter build_info pieces fresh forward_extract fdb_list true_info
              Hs Hc cfg _ _ _ (proj1 (paths_groups_ok _ ND)) Es) as (_ & X). exact X.
Qed.

(* one result per request, whatever the listing, the tasks or the forwarder did *)
Theorem local_extract_length : forall cfg reqs res, local cfg reqs = Ok res -> length res = length reqs.
Proof.
  intros cfg reqs res H. unfold local_extract in H.
  destruct (build_request_map (c_ignore_ym cfg) reqs) as [[[u rs] its]| |] eqn:Eb; try discriminate.
  cbn [obind] in H. destruct (fdb_list u) as [listing| |] eqn:El; try discriminate. cbn [obind] in H.
  destruct (file_map (c_ignore_ym cfg) (c_allow_missing cfg) listing its) as [[fm its1]| |]; try discriminate.
  cbn [obind] in H. destruct (sched cfg (c_forward cfg) fm its1) as [[es its2]| |]; try discriminate.
  cbn [obind] in H. destruct (raise_errors es); try discriminate. cbn [obind] in H.
  unfold collect_results in H. destruct (assert_ _); try discriminate. cbn [obind] in H.
  apply take_all_length in H. rewrite H, map_length.
  destruct (build_map_inv _ _ _ _ _ Eb) as (-> & _ & _). apply canon_requests_length.
Qed.
Theorem local_paths_length : forall cfg reqs res, local_paths cfg reqs = Ok res -> length res = length reqs.
Proof.
  intros cfg reqs res H. unfold local_extract_paths in H. destruct reqs as [|r0 rest]; [discriminate|].
  destruct (sched cfg _ _ _) as [[es its2]| |]; try discriminate.
  cbn [obind] in H. destruct (raise_errors es); try discriminate. cbn [obind] in H.
  unfold collect_results in H. destruct (assert_ _); try discriminate. cbn [obind] in H.
  apply take_all_length in H. rewrite H, map_length. reflexivity.
Qed.

(* ---- duplicates ---- *)

Theorem local_duplicates : forall cfg reqs,
  ~ NoDup (map r_string (canon_requests (c_ignore_ym cfg) false reqs)) ->
  local cfg reqs = Throw ESeriousBug.
Proof.
  intros cfg reqs N. unfold local_extract. rewrite (build_map_clash _ _ N). reflexivity.
Qed.

Lemma same_tokens_clash : forall ignore reqs i j ri rj,
  (ignore = true -> (exists r, In r reqs /\ triggers (r_string r) = true) ->
   forall r, In r reqs -> triggers (r_string r) = true \/ no_year_month (r_string r)) ->
  nth_error reqs i = Some ri -> nth_error reqs j = Some rj -> i <> j ->
  Permutation (split ","%char (r_string ri)) (split ","%char (r_string rj)) ->
  ~ NoDup (map r_string (canon_requests ignore false reqs)).
Proof.
  intros ignore reqs i j ri rj H Hi Hj N P ND.
  assert (E : map r_string (canon_requests ignore false reqs) = map (fun r => single ignore (r_string r)) reqs).
  { destruct (build_map_ok (F := F) ignore reqs ND) as (u & Eb).
    apply (batch_independent F ignore reqs _ H). unfold batch_canonical. rewrite Eb. reflexivity. }
  rewrite E in ND. apply N. eapply (proj1 (NoDup_nth_error _) ND).
  - rewrite map_length. apply nth_error_Some. congruence.
  - rewrite !nth_error_map, Hi, Hj. cbn. f_equal. apply single_perm, P.
Qed.

Theorem paths_duplicates : forall cfg reqs res,
  (forall fm its es its', forward_extract fm its = Ok (es, its') ->
     map fst its' = map fst its /\
     forall k i', sfind k its' = Some i' -> exists i, sfind k its = Some i /\ it_request i' = it_request i) ->
  local_paths cfg reqs = Ok res -> NoDup (map p_string reqs).
Proof.
  intros cfg reqs res Hf H. unfold local_extract_paths in H. destruct reqs as [|r0 rest]; [discriminate|].
  set (reqs := r0 :: rest) in *. set (its := build_uris_map reqs) in *.
  assert (W : wf_items its).
  { apply (pfold_wf reqs []). split; [constructor|discriminate]. }
  destruct (sched cfg _ _ _) as [[es its2]| |] eqn:Es; try discriminate.
  cbn [obind] in H. destruct es as [|e es]; [|discriminate]. cbn [raise_errors obind] in H.
  assert (X : map fst its2 = map fst its /\
     forall k i', sfind k its2 = Some i' -> exists i, sfind k its = Some i /\ it_request i' = it_request i).
  { unfold schedule in Es. destruct (negb _); [exact (Hf _ _ _ _ Es)|].
    destruct (mapM _ _) as [ts| |]; try discriminate. cbn [obind] in Es.
    destruct (assert_ _); try discriminate. cbn [obind] in Es.
    destruct (run_tasks_ok _ _ _ Es) as (outs & _ & ->). split; [apply apply_results_keys|].
    clear. generalize its as m. generalize (concat outs) as rs.
    induction rs as [|[k0 r] rs IH]; intros m k i' E; cbn in E; [eauto|].
    destruct (IH _ _ _ E) as (i & E1 & E2). rewrite sfind_supdate in E1.
    destruct (String.eqb k k0); [|eauto]. destruct (sfind k m) as [i0|]; [|discriminate].
    injection E1 as <-. exists i0. auto. }
  destruct X as [K2 R2]. assert (W2 : wf_items its2) by (apply (wf_set _ _ W K2 R2)).
  unfold collect_results in H.
  destruct (lenN (collect_items its2) =? lenN (map p_string reqs))%N eqn:El; [|discriminate].
  apply N.eqb_eq in El.
  assert (Lr : length its = length reqs).
  { rewrite collect_items_perm in El by exact W2. unfold lenN in El.
    rewrite <- (Permutation_length (in_key_order_perm its2)) in El.
    rewrite <- (map_length fst its2), K2, map_length, map_length in El. lia. }
  exact (proj2 (pfold_full reqs [] Lr (NoDup_nil _))).
Qed.

(* ---- C40 ---- *)

Theorem missing_is_detected : forall cfg reqs listing,
  c_allow_missing cfg = false ->
  NoDup (map r_string (canon_requests (c_ignore_ym cfg) false reqs)) ->
  (forall u, fdb_list u = Ok listing) -> duplicate_free (c_ignore_ym cfg) listing ->
  (exists r, In r (canon_requests (c_ignore_ym cfg) false reqs) /\
             entry_of (c_ignore_ym cfg) listing (r_string r) = None) ->
  local cfg reqs = Throw EDataNotFound.
Proof.
  intros cfg reqs listing Ha ND Hl D (r & Ir & En). unfold local_extract.
  destruct (build_map_ok (F := F) _ _ ND) as (u & ->). cbn [obind]. rewrite Hl. cbn [obind]. rewrite Ha.
  rewrite (some_missing _ _ listing (r_string r) D); [reflexivity| | |exact En].
  - rewrite map_map. exact ND.
  - rewrite map_map. cbn. apply in_map, Ir.
Qed.

(* completeness: missing requests do not disturb the others *)
Section Complete.
Variable cfg : config.
Variable reqs : list request.
Variable listing : list listed.
Variable inf : string -> Z -> info F.
Let rs := canon_requests (c_ignore_ym cfg) false reqs.

Definition servable (r : request) (e : listed) : Prop :=
  is_remote (l_uri e) = false /\
  exists bytes off x,
    files (u_path (l_uri e)) = Some bytes /\ u_offset (l_uri e) = Ok off /\
    (c_ignore_grid cfg = false -> r_hash r <> ""%string /\ r_hash r = i_md5 (inf (u_path (l_uri e)) off)) /\
    extract A aec bytes off (inf (u_path (l_uri e)) off) (r_ranges r) = Ok x.

Lemma extract_loop_ok : forall bytes path js,
  (forall j, In j js -> let i := snd (fst j) in
     (c_ignore_grid cfg = false -> r_hash (it_request i) <> ""%string /\
                                   r_hash (it_request i) = i_md5 (inf path (snd j))) /\
     exists x, extract A aec bytes (snd j) (inf path (snd j)) (r_ranges (it_request i)) = Ok x) ->
  exists out, extract_loop A aec (c_ignore_grid cfg) bytes js (map (inf path) (map snd js)) = Ok out.
Proof.
  intros bytes path js. induction js as [|[[k i] o] js IH]; intro H; cbn; [eauto|].
  destruct (H (k, i, o) (or_introl eq_refl)) as [Hg (x & Hx)]. cbn in Hg, Hx.
  assert (E1 : negb (c_ignore_grid cfg) && String.eqb (r_hash (it_request i)) "" = false).
  { destruct (c_ignore_grid cfg); [reflexivity|]. destruct (Hg eq_refl) as [N _]. cbn.
    apply String.eqb_neq, N. }
  assert (E2 : negb (c_ignore_grid cfg) && negb (String.eqb (r_hash (it_request i)) (i_md5 (inf path o))) = false).
  { destruct (c_ignore_grid cfg); [reflexivity|]. destruct (Hg eq_refl) as [_ E]. cbn.
    rewrite E, String.eqb_refl. reflexivity. }
  rewrite E1, E2, Hx. cbn [obind].
  destruct IH as (out & ->). { intros j I. apply H. right. exact I. }
  cbn. eauto.
Qed.

Lemma nodup_by {X Y Z} (f : X -> Y) (h : X -> Z) l : NoDup (map f l) ->
  (forall x y, In x l -> In y l -> h x = h y -> f x = f y) -> NoDup (map h l).
Proof.
  induction l as [|x l IH]; intros ND H; cbn in *; [constructor|]. inversion ND as [|? ? N ND']; subst. constructor.
  - intro I. apply in_map_iff in I. destruct I as (y & E & Iy). apply N. rewrite <- (H y x); auto. apply in_map, Iy.
  - apply IH; [exact ND'|]. intros y z Iy Iz. apply H; auto.
Qed.
Lemma nodup_concat {X} (ls : list (list X)) l : NoDup (concat ls) -> In l ls -> NoDup l.
Proof.
  induction ls as [|l' ls IH]; intros ND I; [contradiction|]. cbn in ND. destruct I as [->|I].
  - clear -ND. induction l as [|x l IH]; [constructor|]. cbn in ND. inversion ND as [|? ? N ND']; subst.
    constructor; [|auto]. intro I. apply N, in_or_app. auto.
  - apply IH; [|exact I]. clear -ND. induction l' as [|x l' IH]; [exact ND|]. cbn in ND. inversion ND; auto.
Qed.

Notation located := (located cfg reqs listing).

Theorem found_are_served :
  sorts sorter ->
  c_forward cfg = false ->
  NoDup (map r_string rs) ->
  (forall u, fdb_list u = Ok listing) -> duplicate_free (c_ignore_ym cfg) listing ->
  (c_allow_missing cfg = true \/ forall r, In r rs -> exists e, located r e) ->
  own_places cfg reqs listing ->
  (forall p offs, offs <> [] -> NoDup offs ->
     (forall off, In off offs -> exists r e, located r e /\ u_path (l_uri e) = p /\ u_offset (l_uri e) = Ok off) ->
     cache_get p offs = Ok (map (inf p) offs)) ->
  (forall r e, located r e -> servable r e) ->
  (exists r e, located r e) ->
  exists res, local cfg reqs = Ok res.
Proof.
  intros Hs Hf ND Hl D Ha Hd Hc Hserv0 (r0 & e0 & Ir0 & Ee0).
  assert (Hserv : forall r e, In r rs -> entry_of (c_ignore_ym cfg) listing (r_string r) = Some e -> servable r e)
    by (intros; apply Hserv0; split; assumption).
  unfold local_extract.
  destruct (build_map_ok (F := F) _ _ ND) as (u & ->). cbn [obind]. rewrite Hl. cbn [obind].
  fold rs in ND |- *. set (its := map (fun r => (r_string r, new_item r)) rs).
  pose proof (wf_entries (F := F) rs ND) as W0. fold its in W0.
  assert (exists fm its1, file_map (c_ignore_ym cfg) (c_allow_missing cfg) listing its = Ok (fm, its1)) as (fm & its1 & Em).
  { apply all_found; [exact D|exact (proj1 W0)|]. destruct Ha as [Ha|Ha]; [left; exact Ha|right]. intros k Ik.
    unfold its in Ik. rewrite map_map in Ik. apply in_map_iff in Ik. destruct Ik as (r & <- & Ir).
    destruct (Ha r Ir) as (e & _ & Ee). eauto. }
  rewrite Em. cbn [obind]. rewrite Hf.
  destruct (file_map_inv _ _ _ _ _ _ Em) as (c & L & _).
  pose proof (file_map_groups_ok _ _ _ _ _ _ D (proj1 W0) Em) as Gok.
  destruct (file_map_partitions _ _ _ _ _ _ D Em) as [NDl (NDf & P & G)].
  (* every key of a group is a located request *)
  assert (Hk : forall p ks k, In (p, ks) fm -> In k ks -> exists r e,
            In r rs /\ r_string r = k /\ entry_of (c_ignore_ym cfg) listing k = Some e /\
            sfind k its1 = Some (set_uri (l_uri e) (new_item r)) /\ u_path (l_uri e) = p).
  { intros p ks k Ip Ik. destruct (proj2 Gok p ks k Ip Ik) as (i & Ei & Ep).
    pose proof (li_find _ _ _ _ _ _ L k) as E1. rewrite Ei in E1.
    unfold its in E1. rewrite sfind_entries in E1 by exact ND.
    destruct (find (fun r => String.eqb (r_string r) k) rs) as [r|] eqn:Er; [|discriminate].
    apply find_some in Er. destruct Er as [Ir Er]. apply String.eqb_eq in Er.
    rewrite (last_entry_of _ _ _ D) in E1.
    assert (Il : In k (map (listed_as (c_ignore_ym cfg)) (filter (known (c_ignore_ym cfg) its) listing))).
    { eapply Permutation_in; [symmetry; exact P|]. apply in_concat. exists ks. split; [|exact Ik].
      apply in_map_iff. exists (p, ks). auto. }
    apply in_map_iff in Il. destruct Il as (e' & Ek' & Ie'). apply filter_In in Ie'.
    destruct (entry_of (c_ignore_ym cfg) listing k) as [e|] eqn:Ee.
    - injection E1 as ->. exists r, e. repeat split; auto.
    - exfalso. pose proof (find_none _ _ Ee e' (proj1 Ie')) as X. cbn in X.
      rewrite Ek', String.eqb_refl in X. discriminate. }
  assert (Hfm : fm <> []).
  { intros ->. cbn in P. apply Permutation_sym, Permutation_nil in P.
    destruct (entry_of_some _ _ _ _ Ee0) as [Ie Ek].
    assert (I : In (r_string r0) (map (listed_as (c_ignore_ym cfg)) (filter (known (c_ignore_ym cfg) its) listing))).
    { apply in_map_iff. exists e0. split; [exact Ek|]. apply filter_In. split; [exact Ie|].
      unfold known. rewrite Ek. unfold its. rewrite sfind_entries, find_request by assumption. reflexivity. }
    rewrite P in I. contradiction. }
  (* every task succeeds *)
  assert (Ht : forall g, In g (in_key_order fm) -> exists out,
            task_for A aec cache_get files sorter build_info pieces fresh cfg its1 g = Ok (Ok out)).
  { intros [p ks] Ig. apply (Permutation_in _ (Permutation_sym (in_key_order_perm fm))) in Ig.
    destruct (G _ _ Ig) as [Ne _]. destruct ks as [|k0 ks]; [congruence|].
    unfold task_for. cbn [snd fst]. unfold get_item.
    destruct (Hk p (k0 :: ks) k0 Ig (or_introl eq_refl)) as (r1 & e1 & Ir1 & Ek1 & Ee1 & Ef1 & Ep1).
    rewrite Ef1. cbn [obind it_uri set_uri].
    subst k0. rewrite (proj1 (Hserv r1 e1 Ir1 Ee1)).
    unfold file_task.
    assert (exists js, jobs its1 (r_string r1 :: ks) = Ok js) as (js & Ej).
    { apply mapM_all_ok. intros k Ik. destruct (Hk p _ k Ig Ik) as (r & e & Ir & Ek & Ee & Ef & Ep).
      subst k. destruct (Hserv r e Ir Ee) as (_ & bytes & off & x & _ & Eo & _).
      exists (r_string r, set_uri (l_uri e) (new_item r), off).
      unfold get_item. rewrite Ef. cbn [obind it_uri set_uri]. rewrite Eo. reflexivity. }
    rewrite Ej. cbn [obind].
    assert (Jall : forall j, In j js -> exists r e, located r e /\ r_string r = fst (fst j) /\ u_path (l_uri e) = p /\
                                                     u_offset (l_uri e) = Ok (snd j)).
    { intros j Ij. assert (Jk : In (fst (fst j)) (r_string r1 :: ks)).
      { rewrite <- (jobs_keys _ _ _ Ej). apply (in_map (fun j => fst (fst j))) in Ij. exact Ij. }
      destruct (proj1 (Forall_forall _ _) (jobs_ok _ _ _ Ej) j Ij) as [J1 J2].
      destruct (Hk p _ _ Ig Jk) as (r & e & Ir & Ek & Ee & Ef & Ep).
      rewrite Ef in J1. injection J1 as J1. rewrite <- J1 in J2. cbn [it_uri set_uri] in J2.
      exists r, e. repeat split; auto. rewrite Ek. exact Ee. }
    assert (Pj : Permutation (map snd js) (map snd (sorter js))) by (apply Permutation_map, (proj1 (Hs js))).
    rewrite Hc; [| | |intros off' Ioff].
    2:{ intro X. rewrite X in Pj. apply Permutation_sym, Permutation_nil, map_eq_nil in Pj. subst js.
        pose proof (jobs_keys _ _ _ Ej) as Y. discriminate. }
    2:{ eapply Permutation_NoDup; [exact Pj|]. apply (nodup_by (fun j => fst (fst j)) snd).
        - rewrite (jobs_keys _ _ _ Ej). eapply nodup_concat; [eapply Permutation_NoDup; [exact P|exact NDl]|].
          apply (in_map snd) in Ig. exact Ig.
        - intros j j' Ij Ij' E. destruct (Jall j Ij) as (r & e & L1 & <- & Ep & Eo).
          destruct (Jall j' Ij') as (r' & e' & L2 & <- & Ep' & Eo'). rewrite E in Eo.
          apply (Hd r e r' e' (snd j')); auto. congruence. }
    2:{ apply (Permutation_in _ (Permutation_sym Pj)) in Ioff. apply in_map_iff in Ioff. destruct Ioff as (j & <- & Ij).
        destruct (Jall j Ij) as (r & e & L1 & _ & Ep & Eo). eauto. }
    cbn [obind].
    destruct (Hserv r1 e1 Ir1 Ee1) as (_ & bytes & off & x & Efile & _). rewrite Ep1 in Efile.
    rewrite Efile.
    destruct (extract_loop_ok bytes p (sorter js)) as (out & ->); [|eauto].
    intros j Ij. apply (Permutation_in _ (Permutation_sym (proj1 (Hs js)))) in Ij.
    assert (Jk : In (fst (fst j)) (r_string r1 :: ks)).
    { rewrite <- (jobs_keys _ _ _ Ej). apply (in_map (fun j => fst (fst j))) in Ij. exact Ij. }
    destruct (proj1 (Forall_forall _ _) (jobs_ok _ _ _ Ej) j Ij) as [J1 J2].
    destruct (Hk p _ _ Ig Jk) as (r & e & Ir & Ek & Ee & Ef & Ep).
    rewrite Ef in J1. injection J1 as J1. rewrite <- J1 in *. cbn [it_uri it_request set_uri new_item] in *.
    rewrite <- Ek in Ee. destruct (Hserv r e Ir Ee) as (_ & bytes' & off' & x' & Eb' & Eo' & Hg & Hx).
    rewrite Ep in *. assert (bytes' = bytes) by congruence. assert (off' = snd j) by congruence. subst.
    split; [exact Hg|eauto]. }
  assert (exists outs, mapM (task_for A aec cache_get files sorter build_info pieces fresh cfg its1)
             (in_key_order fm) = Ok (map Ok outs) /\ length outs = length fm) as (outs & Eo & Lo).
  { rewrite (Permutation_length (in_key_order_perm fm)).
    clear -Ht forward_extract fdb_list true_info. induction (in_key_order fm) as [|g l IH]; cbn.
    - exists []. auto.
    - destruct (Ht g (or_introl eq_refl)) as (out & ->). cbn.
      destruct IH as (outs & -> & Lo). { intros g' I. apply Ht. right. exact I. }
      exists (out :: outs). cbn. auto. }
  assert (Es : sched cfg false fm its1 = Ok ([], fold_left (fun m p => supdate (fst p) (set_result (snd p)) m) (concat outs) its1)).
  { unfold schedule. rewrite Eo. cbn [obind]. rewrite run_tasks_all_ok.
    replace (negb (lenN (map Ok outs) =? 0)%N) with true; [reflexivity|].
    symmetry. apply negb_true_iff, N.eqb_neq. unfold lenN. rewrite map_length, Lo.
    destruct fm; [congruence|]. cbn. lia. }
  rewrite Es. cbn [obind raise_errors].
  set (its2 := fold_left _ _ _) in *.
  assert (K2 : map fst its2 = map fst its) by (unfold its2; rewrite apply_results_keys; exact (li_keys _ _ _ _ _ _ L)).
  assert (R2 : forall k i', sfind k its2 = Some i' -> exists i, sfind k its = Some i /\ it_request i' = it_request i
                 /\ exists x, it_result i' = Some x).
  { assert (Q : forall rs' (m : items) k i', (forall k i', sfind k m = Some i' ->
        exists i, sfind k its = Some i /\ it_request i' = it_request i /\ exists x, it_result i' = Some x) ->
        sfind k (fold_left (fun m p => supdate (fst p) (set_result (F := F) (snd p)) m) rs' m) = Some i' ->
        exists i, sfind k its = Some i /\ it_request i' = it_request i /\ exists x, it_result i' = Some x).
    { induction rs' as [|[k0 r] rs' IH]; intros m k i' Hm E; cbn in E; [eauto|].
      eapply IH; [|exact E]. intros k1 i1 E1. rewrite sfind_supdate in E1.
      destruct (String.eqb k1 k0); [|eauto]. destruct (sfind k1 m) as [i2|] eqn:E2; [|discriminate].
      injection E1 as <-. destruct (Hm _ _ E2) as (i & Ei & Er & _). exists i. cbn. eauto. }
    intros k i'. apply Q. intros k1 i1 E1. rewrite (li_find _ _ _ _ _ _ L k1) in E1.
    destruct (sfind k1 its) as [i|] eqn:Ei; [|discriminate]. exists i. split; [reflexivity|].
    unfold its in Ei. rewrite sfind_entries in Ei by exact ND.
    destruct (find _ rs) as [r|]; [|discriminate]. injection Ei as <-. injection E1 as <-.
    destruct (last_entry _ listing k1); cbn; eauto. }
  assert (W2 : wf_items its2).
  { apply (wf_set _ _ W0 K2). intros k i' E. destruct (R2 k i' E) as (i & Ei & Er & _). eauto. }
  unfold collect_results.
  replace (lenN (collect_items its2) =? lenN (map r_string rs))%N with true.
  - cbn [assert_ obind]. apply take_all_ok; [exact ND|]. intros k Ik.
    rewrite collect_items_find by exact W2.
    assert (Ik2 : In k (map fst its2)) by (rewrite K2; unfold its; rewrite map_map; exact Ik).
    destruct (sfind_some _ _ Ik2) as (i & Ei). destruct (R2 k i Ei) as (_ & _ & _ & x & Ex). eauto.
  - symmetry. apply N.eqb_eq. rewrite collect_items_perm by exact W2. unfold lenN.
    rewrite <- (Permutation_length (in_key_order_perm its2)).
    rewrite <- (map_length fst its2), K2. unfold its. rewrite !map_map, !map_length. reflexivity.
Qed.
End Complete.

(* all missing, missing allowed: the empty task group trips an assertion *)
Theorem all_missing_fails : forall cfg reqs listing,
  c_forward cfg = false -> c_allow_missing cfg = true ->
  NoDup (map r_string (canon_requests (c_ignore_ym cfg) false reqs)) ->
  (forall u, fdb_list u = Ok listing) -> duplicate_free (c_ignore_ym cfg) listing ->
  (forall r, In r (canon_requests (c_ignore_ym cfg) false reqs) ->
             entry_of (c_ignore_ym cfg) listing (r_string r) = None) ->
  local cfg reqs = Throw EAssert.
Proof.
  intros cfg reqs listing Hf Ha ND Hl D Hn. unfold local_extract.
  destruct (build_map_ok (F := F) _ _ ND) as (u & ->). cbn [obind]. rewrite Hl. cbn [obind].
  set (rs := canon_requests (c_ignore_ym cfg) false reqs) in *.
  destruct (file_map (c_ignore_ym cfg) (c_allow_missing cfg) listing (map (fun r => (r_string r, new_item (F := F) r)) rs))
    as [[fm its1]|er|] eqn:Em.
  - cbn [obind]. rewrite Hf. destruct (file_map_partitions _ _ _ _ _ _ D Em) as [_ (_ & P & G)].
    assert (fm = []) as ->.
    { destruct fm as [|[p ks] fm]; [reflexivity|]. exfalso.
      destruct (G p ks (or_introl eq_refl)) as [Ne _]. destruct ks as [|k ks]; [congruence|].
      assert (I : In k (concat (map snd ((p, k :: ks) :: fm)))) by (left; reflexivity).
      apply (Permutation_in _ (Permutation_sym P)) in I. apply in_map_iff in I.
      destruct I as (e & Ek & Ie). apply filter_In in Ie. destruct Ie as [Ie Kn]. unfold known in Kn.
      rewrite Ek, sfind_entries in Kn by exact ND.
      destruct (find _ rs) as [r|] eqn:Er; [|discriminate]. apply find_some in Er. destruct Er as [Ir Er].
      apply String.eqb_eq in Er. specialize (Hn r Ir).
      pose proof (find_none _ _ Hn e Ie) as X. cbn in X. rewrite Ek, Er, String.eqb_refl in X. discriminate. }
    reflexivity.
  - unfold file_map in Em. rewrite Ha in Em. destruct (fold_left _ _ _) as [[? ?] ?].
    rewrite andb_false_r in Em. discriminate.
  - unfold file_map in Em. rewrite Ha in Em. destruct (fold_left _ _ _) as [[? ?] ?].
    rewrite andb_false_r in Em. discriminate.
Qed.

(* ---- C44 ---- *)

Lemma zsorted_unique : forall {X} (l l' : list (X * Z)),
  StronglySorted (fun a b => (snd a <= snd b)%Z) l -> StronglySorted (fun a b => (snd a <= snd b)%Z) l' ->
  Permutation l l' -> NoDup (map snd l) -> l = l'.
Proof.
  intros X. induction l as [|x r IH]; intros l' S S' P ND.
  - symmetry. apply Permutation_nil. exact P.
  - destruct l' as [|y r']; [exfalso; symmetry in P; exact (Permutation_nil_cons P)|].
    inversion S as [|? ? Sr Hx]; subst. inversion S' as [|? ? Sr' Hy]; subst.
    assert (E : x = y).
    { assert (Iy : In y (x :: r)) by (eapply Permutation_in; [symmetry; exact P|left; reflexivity]).
      assert (Ix : In x (y :: r')) by (eapply Permutation_in; [exact P|left; reflexivity]).
      destruct Iy as [E|Iy]; [exact E|]. destruct Ix as [E|Ix]; [symmetry; exact E|].
      pose proof (proj1 (Forall_forall _ _) Hx y Iy) as L1.
      pose proof (proj1 (Forall_forall _ _) Hy x Ix) as L2. cbn in L1, L2.
      exfalso. cbn in ND. inversion ND as [|? ? Nx _]; subst. apply Nx.
      replace (snd x) with (snd y) by lia. apply in_map, Iy. }
    subst y. f_equal. apply IH; auto.
    + eapply Permutation_cons_inv; exact P.
    + cbn in ND. inversion ND; assumption.
Qed.

Lemma mapM_perm : forall {X Y} (f : X -> outcome Y) l l' r, Permutation l l' -> mapM f l = Ok r ->
  exists r', mapM f l' = Ok r' /\ Permutation r r'.
Proof.
  intros X Y f l l' r P. revert r. induction P; intros r E.
  - cbn in E. injection E as <-. exists []. auto.
  - cbn in E. destruct (f x) as [y| |] eqn:Ex; try discriminate. cbn in E.
    destruct (mapM f l) as [ys| |]; try discriminate. injection E as <-.
    destruct (IHP ys eq_refl) as (ys' & E' & P'). exists (y :: ys'). cbn. rewrite Ex, E'. cbn. auto.
  - cbn in E. destruct (f y) as [b| |] eqn:Ey; try discriminate. cbn in E.
    destruct (f x) as [a| |] eqn:Ex; try discriminate. cbn in E.
    destruct (mapM f l) as [ys| |] eqn:El; try discriminate. injection E as <-.
    exists (a :: b :: ys). cbn. rewrite Ex, Ey, El. cbn. split; [reflexivity|apply perm_swap].
  - destruct (IHP1 r E) as (r1 & E1 & P1'). destruct (IHP2 r1 E1) as (r2 & E2 & P2'). exists r2.
    split; [exact E2|]. etransitivity; eassumption.
Qed.

Theorem file_task_order : forall ignore_grid (its : items) path keys keys' js,
  sorts sorter -> Permutation keys keys' ->
  jobs its keys = Ok js -> NoDup (map snd js) ->
  file_task A aec cache_get files sorter ignore_grid its path keys' =
  file_task A aec cache_get files sorter ignore_grid its path keys.
Proof.
  intros ignore_grid its path keys keys' js Hs P Ej ND. unfold file_task.
  destruct (mapM_perm _ _ _ _ P Ej) as (js' & Ej' & Pj). unfold jobs at 1. rewrite Ej', Ej. cbn [obind].
  replace (sorter js') with (sorter js); [reflexivity|].
  destruct (Hs js) as [P1 S1]. destruct (Hs js') as [P2 S2].
  apply zsorted_unique; auto.
  - etransitivity; [symmetry; exact P1|]. etransitivity; [exact Pj|exact P2].
  - eapply Permutation_NoDup; [apply Permutation_map, P1|exact ND].
Qed.
End Engine.
