From Verif Require Import Base BaseLemmas ModelStrings ModelIndex ModelCache ModelLRU ModelForward ModelQueue ModelTask ModelConfig SpecQueue SpecConfig ProofsLRU ProofsForward3.

Local Open Scope nat_scope.

Section Options.
Variable to_bool : string -> outcome bool.
Variable to_int : string -> outcome Z.
Variable to_size : string -> outcome N.

Lemma resource_promised {A} (conv : string -> outcome A) env res key (look : string -> outcome (option A)) vals (d : A) a v :
  well_typed look vals ->
  (resource conv env res (match key with Some k => or_default d (look k) | None => Ok d end) a = v <->
   promised conv vals a (mk_doc env res key d) v).
Proof.
  intros W. set (doc := mk_doc env res key d).
  assert (E : (match key with Some k => or_default d (look k) | None => Ok d end) = Ok (match looked vals key with Some x => x | None => d end)).
  { destruct key as [k|]; [|reflexivity]. unfold or_default. rewrite W. reflexivity. }
  rewrite E. clear E. unfold resource. cbn [obind].
  change (match env with Some n => a_env a n | None => None end) with (looked (a_env a) (d_env doc)).
  change (match res with Some n => a_res a n | None => None end) with (looked (a_res a) (d_res doc)).
  destruct (looked (a_env a) (d_env doc)) as [s|] eqn:Ee.
  { split; [intros <-; now constructor|]. intros H. inversion H; congruence. }
  destruct (looked (a_res a) (d_res doc)) as [s|] eqn:Er.
  { split; [intros <-; now apply P_res|]. intros H. inversion H; congruence. }
  destruct (looked vals key) as [x|] eqn:Ek.
  { split; [intros <-; apply P_key; auto|]. intros H. inversion H; try congruence; cbn in *; congruence. }
  split; [intros <-; apply (P_default conv vals a doc); auto|]. intros H. inversion H; try congruence; cbn in *; congruence.
Qed.

Lemma bool_promised o y a vals v : well_typed (y_bool y) vals -> (get_bool to_bool o y a = v <-> promised to_bool vals a (doc_bool o) v).
Proof.
  intros W. unfold get_bool. destruct o;
    try exact (resource_promised to_bool _ _ (Some _) _ vals _ a v W);
    try exact (resource_promised to_bool _ _ None _ vals _ a v W);
    cbn [doc_bool]; rewrite <- (resource_promised to_bool None None (Some _) _ vals _ a v W); unfold resource, or_default; rewrite W; reflexivity.
Qed.

Lemma int_promised o y a vals v : well_typed (y_int y) vals -> (get_int to_int o y a = v <-> promised to_int vals a (doc_int o) v).
Proof. intros W. destruct o; exact (resource_promised to_int _ _ (Some _) _ vals _ a v W). Qed.

Lemma string_promised o y a vals v : well_typed (y_string y) vals -> (get_string o y = v <-> promised (fun s => Ok s) vals a (doc_string o) v).
Proof.
  intros W. destruct o; cbn [doc_string]; rewrite <- (resource_promised (fun s => Ok s) None None (Some _) _ vals _ a v W); unfold get_string, resource, or_default;
    rewrite W; reflexivity.
Qed.

Lemma threads_promised y a vals v : well_typed (y_int y) vals ->
  (get_threads to_size y a = v <-> promised to_size (fun k => option_map size_of (vals k)) a doc_threads v).
Proof.
  intros W. unfold doc_threads. rewrite <- (resource_promised to_size _ _ (Some _) (fun k => Ok (option_map size_of (vals k))) _ _ a v (fun k => eq_refl)).
  unfold get_threads, or_default. rewrite W. cbn [obind omap]. destruct (vals "threads"%string); reflexivity.
Qed.

(* ---- stability ---- *)
Lemma same_read_eq r r' : same_read r r' = true <-> r = r'.
Proof.
  split; [|intros <-; destruct r as [[]|[]| |[]|]; reflexivity].
  destruct r as [[]|[]| |[]|], r' as [[]|[]| |[]|]; cbn; intros; congruence.
Qed.

Lemma get_free r y a a' : is_static r = false -> get to_bool to_int to_size r y a = get to_bool to_int to_size r y a'.
Proof. destruct r as [[]|[]| |[]|]; cbn [is_static]; intros; try discriminate; reflexivity. Qed.

Lemma free_needs r : is_static r = false -> needs_config r = true.
Proof. destruct r as [[]|[]| |[]|]; cbn; congruence. Qed.

Notation rd := (read_option to_bool to_int to_size).

(* the process has committed to value v for r *)
Definition fixed (p : proc) (r : read) (v : value) : Prop :=
  if is_static r then find_static r (pr_statics p) = Some v
  else exists y, pr_config p = Some y /\ forall a, get to_bool to_int to_size r y a = Ok v.

Lemma config_keeps p m y : pr_config p = Some y -> config_of p m = (Ok y, p).
Proof. unfold config_of. now intros ->. Qed.

Lemma config_after p m y p' : config_of p m = (y, p') ->
  pr_statics p' = pr_statics p /\ (forall z, pr_config p = Some z -> pr_config p' = Some z) /\ (forall z, y = Ok z -> pr_config p' = Some z).
Proof.
  unfold config_of. destruct (pr_config p) as [z|] eqn:E.
  - intros [= <- <-]. split; auto. split; [congruence|]. intros w [= <-]. auto.
  - destruct (load_config (m_parse m) (m_default m) (m_around m)); intros [= <- <-]; split; auto; split; try congruence.
    intros w [= <-]. auto.
Qed.

Lemma read_fixed p m r v p' : rd p m r = (Ok v, p') -> fixed p' r v.
Proof.
  unfold read_option, fixed. destruct (is_static r) eqn:S.
  - destruct (find_static r (pr_statics p)) as [w|] eqn:E; [intros [= <- <-]; exact E|].
    destruct (if needs_config r then config_of p m else (Ok no_yaml, p)) as [y q].
    destruct (obind y _) as [w| |]; intros [= <- <-]; cbn [pr_statics find_static]. now rewrite (proj2 (same_read_eq r r) eq_refl).
  - rewrite (free_needs r S). destruct (config_of p m) as [y q] eqn:Ec.
    destruct y as [y| |]; cbn [obind]; try discriminate.
    destruct (get to_bool to_int to_size r y (m_around m)) as [w| |] eqn:G; intros [= <- <-].
    exists y. split; [now apply (config_after _ _ _ _ Ec)|]. intros a. now rewrite (get_free r y a (m_around m) S).
Qed.

Lemma fixed_same p m r v v' p' : fixed p r v -> rd p m r = (Ok v', p') -> v' = v.
Proof.
  unfold read_option, fixed. destruct (is_static r) eqn:S.
  - intros ->. congruence.
  - intros (y & Hy & G). rewrite (free_needs r S), (config_keeps p m y Hy). cbn [obind]. rewrite G. congruence.
Qed.

Lemma fixed_kept p m q r v x p' : fixed p r v -> rd p m q = (x, p') -> fixed p' r v.
Proof.
  intros Hf. unfold read_option.
  destruct (if is_static q then find_static q (pr_statics p) else None) as [w|] eqn:Ew; [intros [= _ <-]; exact Hf|].
  destruct (if needs_config q then config_of p m else (Ok no_yaml, p)) as [y p1] eqn:Ec.
  assert (K : pr_statics p1 = pr_statics p /\ (forall z, pr_config p = Some z -> pr_config p1 = Some z)).
  { destruct (needs_config q); [|injection Ec as _ <-; auto]. now destruct (config_after _ _ _ _ Ec) as (A & B & _). }
  destruct K as [K1 K2].
  assert (F1 : fixed p1 r v).
  { unfold fixed in *. destruct (is_static r); [congruence|]. destruct Hf as (z & Hz & G). exists z. auto. }
  destruct (obind y _) as [w| |]; intros [= _ <-]; auto.
  destruct (is_static q) eqn:Sq; auto. unfold fixed in *. destruct (is_static r) eqn:Sr; [|exact F1].
  cbn [pr_statics find_static]. destruct (same_read r q) eqn:E; [|exact F1].
  apply same_read_eq in E. subst q. congruence.
Qed.

Lemma run_fixed l : forall p r v, fixed p r v -> forall j m v', nth_error l j = Some (m, r) ->
  nth_error (run_reads to_bool to_int to_size p l) j = Some (Ok v') -> v' = v.
Proof.
  induction l as [|[m q] l IH]; intros p r v Hf [|j] m' v'; try discriminate; cbn [nth_error run_reads].
  - intros [= -> ->]. destruct (rd p m' r) as [x p'] eqn:E. cbn [nth_error]. intros [= ->]. eapply fixed_same; eauto.
  - intros Hj. destruct (rd p m q) as [x p'] eqn:E. cbn [nth_error]. eapply IH; eauto using fixed_kept.
Qed.

Lemma reads_stable l : forall p, stable l (run_reads to_bool to_int to_size p l).
Proof.
  assert (G : forall l p i j m m' r v v', i <= j -> nth_error l i = Some (m, r) -> nth_error l j = Some (m', r) ->
    nth_error (run_reads to_bool to_int to_size p l) i = Some (Ok v) -> nth_error (run_reads to_bool to_int to_size p l) j = Some (Ok v') -> v = v').
  { clear l. induction l as [|[m0 q] l IH]; intros p [|i] [|j] m m' r v v' Hij; try discriminate; try lia; cbn [nth_error run_reads].
    - destruct (rd p m0 q) as [x p'] eqn:E. cbn [nth_error]. congruence.
    - intros [= -> ->]. destruct (rd p m r) as [x p'] eqn:E. cbn [nth_error]. intros Hj [= ->] Hv. symmetry.
      eapply run_fixed; eauto using read_fixed.
    - destruct (rd p m0 q) as [x p'] eqn:E. cbn [nth_error]. intros. eapply (IH p' i j); eauto. lia. }
  intros p i j m m' r v v' Hi Hj Vi Vj. destruct (Nat.le_ge_cases i j).
  - eapply (G l p i j); eauto.
  - symmetry. eapply (G l p j i); eauto.
Qed.

(* the first reading decides, under the environment and the files of that moment *)
Lemma fresh_value m r : fst (rd fresh_proc m r) =
  (let* y := if in_file r then match config_file (m_default m) (m_around m) with Some f => m_parse m f | None => Ok no_yaml end else Ok no_yaml in
   get to_bool to_int to_size r y (m_around m)).
Proof.
  replace (in_file r) with (needs_config r) by (destruct r as [[]|[]| |[]|]; reflexivity).
  assert (L : load_config (m_parse m) (m_default m) (m_around m) = match config_file (m_default m) (m_around m) with Some f => m_parse m f | None => Ok no_yaml end).
  { unfold load_config, config_file. destruct (a_env (m_around m) "GRIBJUMP_CONFIG_FILE"); [reflexivity|]. now destruct (m_default m). }
  rewrite <- L. clear L.
  unfold read_option, fresh_proc. cbn [pr_statics find_static]. destruct (is_static r); cbn [fst];
    (destruct (needs_config r); [unfold config_of; cbn [pr_config]; destruct (load_config (m_parse m) (m_default m) (m_around m))|]);
    cbn [obind]; try reflexivity; destruct (get to_bool to_int to_size r _ (m_around m)); reflexivity.
Qed.

(* ---- the location of index files ---- *)
Lemma shadow_value y bools strs : well_typed (y_bool y) bools -> well_typed (y_string y) strs ->
  get_shadow y = Ok (match bools "cache.shadowfdb"%string with Some b => b | None => String.eqb (match strs "cache.directory"%string with Some d => d | None => ""%string end) "" end).
Proof. intros Wb Ws. unfold get_shadow, get_string, or_default. rewrite Ws. cbn [obind]. rewrite Wb. reflexivity. Qed.

Lemma location_iff y a exists_ bools strs size lazy :
  well_typed (y_bool y) bools -> well_typed (y_string y) strs ->
  get_int to_int CacheSize y a = Ok size -> get_bool to_bool CacheLazy y a = Ok lazy -> bools "cache.enabled"%string <> Some false ->
  let dir := match strs "cache.directory"%string with Some d => d | None => ""%string end in
  match location (bools "cache.shadowfdb"%string) dir with
  | Some f =>
      if needed_directory (bools "cache.shadowfdb"%string) dir && negb (exists_ dir)
      then info_cache to_bool to_int y a exists_ = Throw EBadValue
      else exists g, info_cache to_bool to_int y a exists_ = Ok (size_of size, g) /\ g_lazy g = lazy /\ forall p, cache_file_path g p = f p
  | None => info_cache to_bool to_int y a exists_ = Throw EBadValue
  end.
Proof.
  intros Wb Ws Hs Hl He dir. unfold info_cache. rewrite Hs. cbn [obind]. rewrite Hl. cbn [obind].
  assert (Ee : get_bool to_bool CacheEnabled y a = Ok true).
  { unfold get_bool, or_default. rewrite Wb. cbn [obind]. destruct (bools "cache.enabled"%string) as [[]|]; congruence. }
  rewrite Ee. cbn [obind negb]. rewrite (shadow_value y bools strs Wb Ws).
  assert (Ed : get_string CacheDirectory y = Ok dir) by (unfold get_string, or_default; rewrite Ws; reflexivity).
  rewrite Ed. cbn [obind]. fold dir. unfold location, needed_directory.
  destruct (bools "cache.shadowfdb"%string) as [[]|].
  - cbn [andb]. eexists. split; [reflexivity|]. split; [reflexivity|]. intros p. reflexivity.
  - destruct (String.eqb dir "") eqn:E; auto. cbn [negb andb]. destruct (exists_ dir); cbn [negb]; auto.
    eexists. split; [reflexivity|]. split; [reflexivity|]. intros p. reflexivity.
  - destruct (String.eqb dir "") eqn:E; cbn [negb andb].
    + eexists. split; [reflexivity|]. split; [reflexivity|]. intros p. reflexivity.
    + destruct (exists_ dir); cbn [negb]; auto. eexists. split; [reflexivity|]. split; [reflexivity|]. intros p. reflexivity.
Qed.

(* a disabled cache still has index files, all of them in the root directory *)
Lemma disabled_uses_root y a exists_ bools size lazy :
  well_typed (y_bool y) bools -> get_int to_int CacheSize y a = Ok size -> get_bool to_bool CacheLazy y a = Ok lazy ->
  bools "cache.enabled"%string = Some false ->
  exists g, info_cache to_bool to_int y a exists_ = Ok (size_of size, g) /\
    forall p, cache_file_path g p = ("/" ++ base_name p ++ file_ext)%string.
Proof.
  intros Wb Hs Hl He. unfold info_cache. rewrite Hs. cbn [obind]. rewrite Hl. cbn [obind].
  assert (Ee : get_bool to_bool CacheEnabled y a = Ok false).
  { unfold get_bool, or_default. rewrite Wb. cbn [obind]. now rewrite He. }
  rewrite Ee. cbn [obind negb]. eexists. split; [reflexivity|]. reflexivity.
Qed.

(* a cache of size zero: the first insertion is undefined *)
Lemma size_zero y a exists_ n g {K V} (dec : forall a b : K, {a = b} + {a <> b}) (k : K) (v : V) :
  get_int to_int CacheSize y a = Ok 0%Z -> info_cache to_bool to_int y a exists_ = Ok (n, g) -> lru_put dec (lru_new (N.to_nat n)) k v = UB.
Proof.
  intros Hs H. unfold info_cache in H. rewrite Hs in H. cbn [obind] in H.
  destruct (get_bool to_bool CacheLazy y a) as [lazy| |]; cbn [obind] in H; try discriminate.
  destruct (get_bool to_bool CacheEnabled y a) as [[]| |]; cbn [obind negb] in H; try discriminate.
  2:{ injection H as <- _. apply capacity_zero. }
  destruct (get_string CacheDirectory y) as [dir| |]; cbn [obind] in H; try discriminate.
  destruct (get_shadow y) as [[]| |]; cbn [obind] in H; try discriminate; [injection H as <- _; apply capacity_zero|].
  destruct (String.eqb dir ""); try discriminate. destruct (exists_ dir); try discriminate. injection H as <- _. apply capacity_zero.
Qed.

(* ---- workers ---- *)
Lemma workers_positive y a n : get_threads to_size y a = Ok n -> (1 <= n < 2147483648)%N -> workers to_size y a = Ok (N.to_nat n).
Proof.
  intros H Hn. unfold workers. rewrite H. cbn [omap obind]. unfold int_of_size. rewrite N.mod_small by lia.
  rewrite (proj2 (N.ltb_lt _ _)) by lia. f_equal. lia.
Qed.

Lemma workers_wrapped y a q r : get_threads to_size y a = Ok (q * 4294967296 + r)%N -> (r < 4294967296)%N ->
  workers to_size y a = Ok (if (r <? 2147483648)%N then N.to_nat r else 0).
Proof.
  intros H Hr. unfold workers. rewrite H. cbn [omap obind]. unfold int_of_size.
  rewrite N.add_comm, N.mod_add, N.mod_small by lia. f_equal. destruct (N.ltb_spec r 2147483648); lia.
Qed.

Lemma workers_none y vals z : well_typed (y_int y) vals -> vals "threads"%string = Some z -> (-2147483648 <= z <= 0)%Z ->
  workers to_size y quiet = Ok 0.
Proof.
  intros W Hv Hz. unfold workers, get_threads, resource, or_default. rewrite W, Hv. cbn [obind omap quiet a_env a_res].
  f_equal. unfold size_of, int_of_size.
  destruct (Z.eq_dec z 0) as [->|N0]; [reflexivity|].
  assert (E : Z.to_N (z mod Z.of_N two64) = (18446744073709551616 - Z.to_N (- z))%N).
  { unfold two64. rewrite <- (Z.mod_unique z (Z.of_N 18446744073709551616) (-1) (z + 18446744073709551616)); lia. }
  rewrite E. rewrite <- (N.mod_unique (18446744073709551616 - Z.to_N (- z)) 4294967296 4294967295 (4294967296 - Z.to_N (- z))) by lia.
  destruct (N.ltb_spec (4294967296 - Z.to_N (- z)) 2147483648); lia.
Qed.
End Options.

(* without a worker nothing is ever executed *)
Definition idle_group (s : sys) (g : nat) : Prop :=
  g_complete (s_groups s g) = 0 /\
  match s_clients s g with
  | CWait | CBlocked => g_status (s_groups s g) <> []
  | CReturned _ | CDone _ => False
  | _ => True
  end.

Lemma idle_step cf s s' : cf_workers cf = 0 -> (forall g, idle_group s g) -> step cf s s' -> forall g, idle_group s' g.
Proof.
  intros W0 I St. destruct St; try (exfalso; lia); intros h; pose proof (I h) as Ih; unfold idle_group in *;
    cbn [upd_c upd_g upd_q upd_w s_groups s_clients]; unfold wupd;
    match goal with |- context [Nat.eqb h ?k] => destruct (Nat.eqb_spec h k) as [->|Nh] end; auto; cbn [add_task destroy g_complete g_status];
    try (destruct Ih as [Ic _]; split; auto; fail).
  - destruct Ih as [Ic _]. split; auto. intros E. rewrite E in *. cbn [length] in *. congruence.
  - destruct Ih as [Ic Is]. rewrite Ic in *. exfalso. match goal with H : s_clients s g = CWait |- _ => rewrite H in Is end.
    destruct (g_status (s_groups s g)); [congruence|discriminate].
  - destruct Ih as [Ic Is]. match goal with H : s_clients s g = CWait |- _ => rewrite H in Is end. auto.
  - destruct Ih as [Ic Is]. match goal with H : s_clients s g = CReturned _ |- _ => rewrite H in Is end. destruct Is.
Qed.

Lemma no_worker_no_answer cf : cf_workers cf = 0 -> forall s g e, reachable cf s -> ~ returned s g e.
Proof.
  intros W0 s g e R.
  assert (I : forall g, idle_group s g).
  { unfold reachable in R. remember sys_init as s0 eqn:E0. revert E0. induction R as [s|s1 s2 s3 R IH St|s1 s2 s3 R IH St]; intros ->.
    - intros h. split; [reflexivity|exact Logic.I].
    - apply (idle_step cf s2); auto.
    - specialize (IH eq_refl). destruct St as [s h Hh E|s w Hw E]; [|exact IH]. intros h'. specialize (IH h').
      unfold idle_group in *. cbn [upd_c s_groups s_clients]. unfold wupd. destruct (Nat.eqb_spec h' h) as [->|Nh]; [|exact IH].
      now rewrite E in IH. }
  destruct (I g) as [_ Ig]. intros [H|H]; rewrite H in Ig; destruct Ig.
Qed.

(* ---- the server map ---- *)
Lemma ep_find_update e k v m : @ep_find endpoint e (ep_update k v (fun _ => v) m) = if ep_eqb e k then Some v else ep_find e m.
Proof.
  induction m as [|[k' v'] m IH]; cbn [ep_update ep_find]; [reflexivity|].
  destruct (ep_eqb_spec k k') as [<-|N]; cbn [ep_find]; [now destruct (ep_eqb e k)|].
  rewrite IH. destruct (ep_eqb_spec e k') as [->|N']; auto. now destruct (ep_eqb_spec k' k) as [->|].
Qed.

Lemma server_map_last y e : ep_find e (server_map y) = last_entry e (y_servers y).
Proof.
  unfold server_map.
  assert (G : forall l m, ep_find e (fold_left (fun m p => ep_update (fst p) (snd p) (fun _ => snd p) m) l m) =
    match last_entry e l with Some x => Some x | None => ep_find e m end).
  { induction l as [|[k v] l IH]; intros m; cbn [fold_left last_entry fst snd]; [reflexivity|]. rewrite IH, ep_find_update.
    destruct (last_entry e l); auto. now destruct (ep_eqb e k). }
  rewrite G. now destruct (last_entry e (y_servers y)).
Qed.

(* ---- the implementation ---- *)
Lemma implementation_chosen pe y strs : well_typed (y_string y) strs ->
  (build_implementation pe y = Ok Local <-> strs "type"%string = None \/ strs "type"%string = Some "local"%string) /\
  (forall e, build_implementation pe y = Ok (Remote e) <->
     strs "type"%string = Some "remote"%string /\ exists u, strs "uri"%string = Some u /\ u <> ""%string /\ pe u = Ok e).
Proof.
  intros W. unfold build_implementation, get_string, or_default. rewrite !W. cbn [obind].
  destruct (strs "type"%string) as [t|].
  2:{ cbn. split; [tauto|]. intros e. split; [discriminate|]. intros [X _]. discriminate. }
  destruct (String.eqb_spec t "local") as [->|N1].
  { split; [split; auto|]. intros e. split; [discriminate|]. intros [X _]. discriminate. }
  destruct (String.eqb_spec t "remote") as [->|N2].
  - split.
    + split; [|intros [X|X]; discriminate]. destruct (String.eqb _ ""); [discriminate|]. destruct (pe _); discriminate.
    + intros e. destruct (strs "uri"%string) as [u|].
      * destruct (String.eqb_spec u "") as [->|N3].
        -- split; [discriminate|]. intros (_ & u & [= <-] & X & _). congruence.
        -- split.
           ++ destruct (pe u) as [e'| |] eqn:E; try discriminate. cbn [obind]. intros [= <-]. split; auto. exists u. auto.
           ++ intros (_ & u' & [= <-] & _ & ->). reflexivity.
      * cbn. split; [discriminate|]. intros (_ & u & X & _). discriminate.
  - split; [split; [discriminate|intros [X|[= X]]; congruence]|]. intros e. split; [discriminate|]. intros [[= X] _]. congruence.
Qed.

(* the key named in the comment of Config.cc is not the one that is read *)
Lemma enable_ignored tb ti a exists_ :
  info_cache tb ti (ex_disabled "cache.enable") a exists_ = info_cache tb ti no_yaml a exists_.
Proof. reflexivity. Qed.

Lemma two_files_one_index : exists g,
  info_cache ex_to_bool ex_to_int (ex_disabled "cache.enabled") quiet (fun _ => false) = Ok (1024%N, g) /\
  cache_file_path g "/fdb/a/x.data" = "/x.data.gribjump"%string /\ cache_file_path g "/fdb/b/x.data" = "/x.data.gribjump"%string.
Proof. eexists. vm_compute. auto. Qed.

(* the plugin is active if it is enabled and not disabled *)
Lemma plugin_promised to_bool y a vals e d : well_typed (y_bool y) vals ->
  promised to_bool vals a (doc_bool FdbEnable) (Ok e) -> promised to_bool vals a (doc_bool FdbDisable) (Ok d) ->
  (plugin_active to_bool y a = Ok true <-> e = true /\ d = false).
Proof.
  intros W He Hd. apply (bool_promised to_bool FdbEnable y a vals _ W) in He. apply (bool_promised to_bool FdbDisable y a vals _ W) in Hd.
  unfold plugin_active. rewrite He, Hd. cbn [obind]. destruct e, d; cbn; split; try discriminate; auto; intros [X Y]; discriminate.
Qed.
