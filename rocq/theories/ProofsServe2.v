From Coq Require Import Permutation Sorted QArith.
From Verif Require Import Base BaseLemmas ModelInfo ModelSimple ModelCcsds ModelJumper ModelScan ModelStream ModelIndex SpecIndex ModelLRU ModelCache
     ModelBuild ModelEngine SpecCache SpecJumper SpecScan SpecBuild SpecEngine SpecForward SpecScanning SpecSystem SpecServe ProofsIndex ProofsScan ProofsCache ProofsCache2
     ProofsEngine ProofsEngine2 ProofsEngine3 ProofsEngine4 ProofsBuild ProofsBuild2 ProofsBuild3 ProofsSystem ProofsServe ModelFloat.
Open Scope nat_scope.

(* ---- a lookup with extraction on demand switched off does not look at the data ---- *)
Lemma get_without_data {F} (data data' : string -> Z -> outcome (info F)) g c p offs : g_lazy g = false ->
  c_get data g c p offs = c_get data' g c p offs.
Proof. intros Hz. unfold c_get, get_rest. rewrite Hz. reflexivity. Qed.

Lemma mapM_ext_in {X Y} (f f' : X -> outcome Y) l : (forall x, In x l -> f x = f' x) -> mapM f l = mapM f' l.
Proof.
  intros H. induction l as [|x l IH]; cbn [mapM]; [reflexivity|]. rewrite (H x) by now left.
  rewrite IH; [reflexivity|]. intros y Hy. apply H. now right.
Qed.

Lemma extract_without_eccodes {F} (o : outside F) g P state cfg reqs full grib_at offsets :
  g_lazy g = false -> c_inefficient cfg = false ->
  extract_requests (world_of (other_eccodes o full grib_at offsets) g P state) cfg reqs =
  extract_requests (world_of o g P state) cfg reqs.
Proof.
  intros Hz Hi. unfold extract_requests, local_extract.
  cbn [w_arith w_aec w_cache_get w_files w_sorter w_build_info w_pieces w_fresh w_forward w_list world_of other_eccodes
       o_arith o_aec o_aec_full o_grib_at o_files o_codes_offsets o_scan_corrupted o_buffer_size o_fresh o_uniq o_sorter
       o_pieces o_forward o_list].
  destruct (build_request_map (c_ignore_ym cfg) reqs) as [[[u reqs'] its]|e|]; cbn [obind]; [|reflexivity|reflexivity].
  destruct (o_list o u) as [listing|e|]; cbn [obind]; [|reflexivity|reflexivity].
  destruct (file_map (c_ignore_ym cfg) (c_allow_missing cfg) listing its) as [[fm its1]|e|]; cbn [obind]; [|reflexivity|reflexivity].
  match goal with |- obind ?x _ = obind ?y _ => assert (E : x = y); [|rewrite E; reflexivity] end.
  unfold schedule. destruct (c_forward cfg); [reflexivity|].
  match goal with |- obind ?x _ = obind ?y _ => assert (E : x = y); [|rewrite E; reflexivity] end.
  apply mapM_ext_in. intros [p keys] _. unfold task_for. cbn [snd fst]. destruct keys as [|k keys]; [reflexivity|].
  destruct (get_item its1 k) as [i|e|]; cbn [obind]; [|reflexivity|reflexivity]. rewrite Hi.
  destruct (is_remote (it_uri i)); [reflexivity|].
  match goal with |- Ok ?x = Ok ?y => assert (E : x = y); [|rewrite E; reflexivity] end.
  unfold file_task. destruct (jobs its1 (k :: keys)) as [js|e|]; cbn [obind]; [|reflexivity|reflexivity].
  rewrite (get_without_data (describe (other_eccodes o full grib_at offsets)) (describe o)) by exact Hz. reflexivity.
Qed.

Section System.
Context {F : Type}.
Variable o : outside F.
Variable g : ModelCache.config.
Variable P : string -> Prop.
Hypothesis Hs : sound_outside o g P.
Notation calls_of := (c_calls (o_uniq o) (describe o) (find_offsets o) g).

Lemma records_kept d cap calls c log : 1 <= cap -> true_disk (describe o) g P d ->
  Forall (true_call (describe o) P) calls -> Forall keeps_records calls -> calls_of (cache_new d cap) calls = (c, log) ->
  true_disk (describe o) g P (c_disk c) /\
  (forall p off, P p -> recorded g d p off -> recorded g (c_disk c) p off) /\
  (forall p offs n, In (CScan p offs, Ok n) log -> forall off, In off offs -> recorded g (c_disk c) p off) /\
  (forall p m n, In (CScanFile p m, Ok n) log ->
     exists offs, find_offsets o p = Ok offs /\ forall off, In off offs -> recorded g (c_disk c) p off).
Proof.
  intros Hc Hd Ht Hk E. pose proof Hs as (_ & _ & _ & _ & _ & _ & Hna & Hfn).
  destruct (calls_keep (o_uniq o) (describe o) (find_offsets o) g P (describe_defined o g P Hs) (offsets_defined o g P Hs) Hna Hfn
              calls _ _ _ (inv_new (describe o) g P d cap Hc Hd) Ht Hk E) as (Hi & H). split; [exact (inv_disk _ _ _ _ Hi)|exact H].
Qed.

(* a recorded message is found, extraction on demand or not *)
Lemma recorded_answers c p offs : reachable o g P c -> P p -> NoDup offs ->
  (forall off, In off offs -> recorded g (c_disk c) p off) ->
  exists infos, snd (c_get (describe o) g c p offs) = Ok infos.
Proof.
  intros Hr Hp ND Hall. pose proof (reachable_capacity o g P Hs _ Hr) as Hcap.
  destruct offs as [|o1 offs'] eqn:Eoffs.
  { exists []. reflexivity. }
  rewrite <- Eoffs in *. destruct (Hall o1) as (m & i1 & L & _); [rewrite Eoffs; now left|].
  destruct (c_get_complete (o_uniq o) (describe o) (find_offsets o) g (describe_defined o g P Hs) c p offs m Hcap L ND) as (c' & vec & E).
  - intros off Io. right. left. destruct (Hall off Io) as (m' & i & L' & Hi). rewrite L in L'. injection L' as <-. eauto.
  - rewrite E. exists vec. reflexivity.
Qed.

Section Served.
Variable state : string -> list Z -> @cache F.
Hypothesis Hstate : forall p offs, reachable o g P (state p offs).
Notation w := (world_of o g P state).

Theorem recorded_complete_extraction cfg reqs listing :
  c_forward cfg = false -> c_inefficient cfg = false ->
  NoDup (map r_string (canon_requests (c_ignore_ym cfg) false reqs)) ->
  (forall u, o_list o u = Ok listing) -> duplicate_free (c_ignore_ym cfg) listing ->
  own_places cfg reqs listing ->
  (forall r e, located cfg reqs listing r e -> fine_request o P cfg r e) ->
  (forall r e off p offs, located cfg reqs listing r e -> u_path (l_uri e) = p -> u_offset (l_uri e) = Ok off ->
     recorded g (c_disk (state p offs)) p off) ->
  (c_allow_missing cfg = true \/
   forall r, In r (canon_requests (c_ignore_ym cfg) false reqs) -> exists e, located cfg reqs listing r e) ->
  (exists r e, located cfg reqs listing r e) ->
  exists res, extract_requests w cfg reqs = Ok res /\ right_results o P cfg reqs listing res.
Proof.
  intros Hf Hi ND Hl D Hown Hfine Hrec Hall (r0 & e0 & L0).
  assert (Hdesc : forall r e off, located cfg reqs listing r e -> u_offset (l_uri e) = Ok off ->
            P (u_path (l_uri e)) /\ exists i, describe o (u_path (l_uri e)) off = Ok i).
  { intros r e off L Ho. destruct (Hfine r e L) as (_ & m & S & bytes & off' & (Hp & Hfile & Hoff & Hm) & _).
    rewrite Ho in Hoff. injection Hoff as <-. split; [exact Hp|].
    destruct (describe_message o g P Hs _ _ _ _ _ Hfile Hm) as (i & Hd & _). eauto. }
  assert (exists i0 : info F, True) as (i0 & _).
  { destruct (Hfine r0 e0 L0) as (_ & m & S & bytes & off' & (Hp & Hfile & Hoff & Hm) & _).
    destruct (Hdesc r0 e0 off' L0 Hoff) as (_ & i & _). eauto. }
  set (inf := fun p off => match describe o p off with Ok i => i | _ => i0 end).
  assert (Hex : exists res, extract_requests w cfg reqs = Ok res).
  { apply (found_are_served (w_arith w) (w_aec w) (w_cache_get w) (w_files w) (w_sorter w)
             (w_build_info w) (w_pieces w) (w_fresh w) (w_forward w) (w_list w) (w_true_info w) cfg reqs listing inf); auto.
    - exact (proj1 (sound_system o g P Hs state Hstate)).
    - intros p offs _ NDo Hin. cbn [w_cache_get world_of].
      destruct offs as [|o1 offs'] eqn:Eoffs.
      { cbn [map]. destruct (c_get (describe o) g (state p []) p []) as [c' r] eqn:Ec. cbn [snd].
        unfold c_get in Ec. cbn in Ec. now injection Ec as <- <-. }
      rewrite <- Eoffs in *.
      assert (Hp : P p).
      { destruct (Hin o1) as (r & e & L & Ep & Eo); [rewrite Eoffs; left; auto|]. rewrite <- Ep. exact (proj1 (Hdesc r e o1 L Eo)). }
      destruct (recorded_answers (state p offs) p offs (Hstate p offs) Hp NDo) as (infos & Hg).
      { intros off Io. destruct (Hin off Io) as (r & e & L & Ep & Eo). eapply Hrec; eauto. }
      rewrite Hg. f_equal.
      pose proof (lookup_true o g P Hs _ _ _ _ (Hstate p offs) Hp Hg) as HF. clear -HF. induction HF as [|x y l l' H _ IH]; cbn; auto.
      unfold inf at 1. now rewrite H, IH.
    - intros r e L. destruct (Hfine r e L) as (Hrem & m & S & bytes & off & (Hp & Hfile & Hoff & Hm) & Hgr & Hh).
      destruct (describe_message o g P Hs _ _ _ _ _ Hfile Hm) as (i & Hd & Hmd & Hx). destruct (Hx _ Hgr) as (x & Ex).
      split; [exact Hrem|]. exists bytes, off, x. unfold inf. rewrite Hd. cbn [w_files w_arith w_aec world_of].
      repeat split; auto; destruct (Hh H) as [H1 H2]; congruence.
    - eauto. }
  destruct Hex as (res & He). exists res. split; [exact He|].
  destruct (system_values o g P Hs state Hstate cfg reqs res) as (u & listing' & Hl' & Hr); auto.
  - intros u l' Hl'. cbn [w_list world_of] in Hl'. rewrite Hl in Hl'. now injection Hl' as <-.
  - rewrite Hl in Hl'. now injection Hl' as <-.
Qed.
End Served.

(* ---- scans ---- *)
Lemma jobs_true jobs : Forall P (map fst jobs) ->
  Forall (true_call (describe o) P) (map scan_call jobs) /\ Forall (@keeps_records F) (map scan_call jobs).
Proof.
  induction jobs as [|[p offs] jobs IH]; cbn [map fst]; intros H; [split; constructor|].
  inversion H as [|? ? H1 H2]; subst. destruct (IH H2) as [I1 I2].
  split; constructor; auto; unfold scan_call; cbn [snd fst]; destruct offs; cbn; auto.
Qed.

Lemma log_calls calls : forall c c' log, calls_of c calls = (c', log) -> map fst log = calls.
Proof.
  induction calls as [|q calls IH]; intros c c' log; cbn [c_calls]; [now intros [= <- <-]|].
  destruct (c_call _ _ _ g c q) as [c1 a]. destruct (calls_of c1 calls) as [c2 rest] eqn:E. intros [= <- <-].
  cbn [map fst]. now rewrite (IH _ _ _ E).
Qed.

Theorem scans_record d cap jobs c log : 1 <= cap -> true_disk (describe o) g P d -> Forall P (map fst jobs) ->
  calls_of (cache_new d cap) (map scan_call jobs) = (c, log) -> Forall (fun e => exists n, snd e = Ok n) log ->
  true_disk (describe o) g P (c_disk c) /\
  (forall p off, P p -> recorded g d p off -> recorded g (c_disk c) p off) /\
  (forall job off, In job jobs -> job_covers (find_offsets o) job off -> recorded g (c_disk c) (fst job) off).
Proof.
  intros Hc Hd Hp E Hok. destruct (jobs_true jobs Hp) as [J1 J2].
  destruct (records_kept d cap _ c log Hc Hd J1 J2 E) as (K0 & K1 & K2 & K3). split; [exact K0|]. split; [exact K1|].
  intros [p offs] off Hin Hcov. pose proof (log_calls _ _ _ _ E) as El.
  assert (In (scan_call (p, offs)) (map fst log)) as Hin' by (rewrite El; now apply in_map).
  apply in_map_iff in Hin' as ([q a] & Eq & Hin'). cbn [fst] in Eq. subst q.
  rewrite Forall_forall in Hok. destruct (Hok _ Hin') as (n & En). cbn [snd] in En. subst a.
  unfold scan_call, job_covers in *. cbn [snd fst] in *. destruct offs as [|o1 offs].
  - destruct (K3 _ _ _ Hin') as (offs & Ho & H). destruct Hcov as (offs' & Ho' & I). rewrite Ho in Ho'. injection Ho' as <-. auto.
  - eapply K2; [exact Hin'|]. eapply Permutation_in; [symmetry; apply zsort_perm|exact Hcov].
Qed.

(* scans succeed on messages that can be described *)
Lemma scan_runs d p offs : P p -> true_disk (describe o) g P d ->
  (forall off, In off offs -> exists i, describe o p off = Ok i) ->
  exists x, scan_offsets (o_uniq o) (describe o) g d p offs = Ok x.
Proof.
  intros Hp Hd Hall. pose proof Hs as (_ & _ & _ & _ & _ & _ & Hna & Hfn).
  destruct (true_load (describe o) g P d p Hp Hd) as (l & El & Hsl & Ht). unfold scan_offsets.
  rewrite (load_inv _ _ _ _ El). cbn [obind].
  destruct (filter _ offs) as [|a r] eqn:Ef; [eauto|].
  destruct (mapM_all_ok (describe o p) (zsort (a :: r))) as (infos & Em).
  { intros off Io. apply Hall. apply (Permutation_in _ (zsort_perm _)) in Io. rewrite <- Ef in Io. apply filter_In in Io. tauto. }
  rewrite Em. cbn [obind]. rewrite insert_all_eq.
  destruct (true_write (o_uniq o) (describe o) g P Hna Hfn d p (ins_all l (combine (zsort (a :: r)) infos)) true Hp Hd) as (ops & E & _).
  { apply Forall_ins_all; auto. apply combine_true. now apply mapM_ok_inv. }
  rewrite E. cbn [obind]. eauto.
Qed.

Theorem scans_succeed jobs : forall c, inv (describe o) g P c -> Forall P (map fst jobs) ->
  (forall job, In job jobs ->
     (snd job = [] -> exists offs, find_offsets o (fst job) = Ok offs) /\
     (forall off, job_covers (find_offsets o) job off -> exists i, describe o (fst job) off = Ok i)) ->
  exists c' log, calls_of c (map scan_call jobs) = (c', log) /\ Forall (fun e => exists n, snd e = Ok n) log.
Proof.
  pose proof Hs as (_ & _ & _ & _ & _ & _ & Hna & Hfn).
  induction jobs as [|[p offs] jobs IH]; intros c Hi Hp Hall; cbn [map c_calls]; [eauto|].
  inversion Hp as [|? ? Hp1 Hp2]; subst. cbn [fst] in Hp1.
  destruct (c_call (o_uniq o) (describe o) (find_offsets o) g c (scan_call (p, offs))) as [c1 a] eqn:E1.
  assert (Ht : true_call (describe o) P (scan_call (p, offs))) by (unfold scan_call; cbn [snd fst]; destruct offs; exact Hp1).
  destruct (inv_step (o_uniq o) (describe o) (find_offsets o) g (describe_defined o g P Hs) P Hna Hfn (offsets_defined o g P Hs) c _ c1 a Hi Ht E1) as (Hi1 & _).
  destruct (IH c1 Hi1 Hp2) as (c' & log & E2 & Hok). { intros job Hj. apply Hall. now right. }
  rewrite E2. do 2 eexists. split; [reflexivity|]. constructor; [|exact Hok]. cbn [snd].
  destruct (Hall (p, offs) (or_introl eq_refl)) as [A1 A2]. unfold scan_call, job_covers in *. cbn [snd fst] in *.
  destruct offs as [|o1 offs]; cbn [c_call] in E1.
  - destruct (A1 eq_refl) as (offs & Ho). unfold scan_file in E1. rewrite Ho in E1. cbn [obind] in E1.
    destruct (scan_runs (c_disk c) p offs Hp1 (inv_disk _ _ _ _ Hi)) as ([ops n] & Ex).
    { intros off Io. apply A2. eauto. }
    rewrite Ex in E1. cbn [c_scan omap obind] in E1. injection E1 as <- <-. eauto.
  - destruct (scan_runs (c_disk c) p (zsort (o1 :: offs)) Hp1 (inv_disk _ _ _ _ Hi)) as ([ops n] & Ex).
    { intros off Io. apply A2. apply (Permutation_in _ (zsort_perm _)). exact Io. }
    rewrite Ex in E1. cbn [c_scan omap obind] in E1. injection E1 as <- <-. eauto.
Qed.

(* serving states *)
Lemma serving_reachable d c : true_disk (describe o) g P d -> serving g o P d c -> reachable o g P c.
Proof. intros Hd (cap & calls & log & Hc & Ht & _ & E). exists d, cap, calls, log. auto. Qed.
Lemma serving_recorded d c p off : true_disk (describe o) g P d -> serving g o P d c -> P p ->
  recorded g d p off -> recorded g (c_disk c) p off.
Proof.
  intros Hd (cap & calls & log & Hc & Ht & Hk & E) Hp R. destruct (records_kept d cap calls c log Hc Hd Ht Hk E) as (_ & K & _). auto.
Qed.

(* C100: with the records of all listed messages on disk *)
Theorem served d state cfg reqs listing : true_disk (describe o) g P d -> (forall p offs, serving g o P d (state p offs)) ->
  c_forward cfg = false -> c_inefficient cfg = false ->
  NoDup (map r_string (canon_requests (c_ignore_ym cfg) false reqs)) ->
  (forall u, o_list o u = Ok listing) -> duplicate_free (c_ignore_ym cfg) listing ->
  own_places cfg reqs listing ->
  (forall r e, located cfg reqs listing r e -> fine_request o P cfg r e) ->
  (forall r e off, located cfg reqs listing r e -> u_offset (l_uri e) = Ok off -> recorded g d (u_path (l_uri e)) off) ->
  (c_allow_missing cfg = true \/
   forall r, In r (canon_requests (c_ignore_ym cfg) false reqs) -> exists e, located cfg reqs listing r e) ->
  (exists r e, located cfg reqs listing r e) ->
  exists res, extract_requests (world_of o g P state) cfg reqs = Ok res /\ right_results o P cfg reqs listing res /\
    (g_lazy g = false -> forall full grib_at offsets,
       extract_requests (world_of (other_eccodes o full grib_at offsets) g P state) cfg reqs = Ok res).
Proof.
  intros Hd Hst Hf Hi ND Hl D Hown Hfine Hrec Hall Hsome.
  destruct (recorded_complete_extraction state (fun p offs => serving_reachable d _ Hd (Hst p offs)) cfg reqs listing
              Hf Hi ND Hl D Hown Hfine) as (res & E & R); auto.
  - intros r e off p offs L <- Ho. apply (serving_recorded d); auto; [|eauto].
    destruct (Hfine r e L) as (_ & m & S & bytes & off' & (Hp & _) & _). exact Hp.
  - exists res. split; [exact E|]. split; [exact R|]. intros Hz full grib_at offsets. now rewrite extract_without_eccodes.
Qed.

(* C100: scan, then serve *)
Theorem scan_then_serve d0 cap jobs c log state cfg reqs listing :
  1 <= cap -> true_disk (describe o) g P d0 -> Forall P (map fst jobs) ->
  calls_of (cache_new d0 cap) (map scan_call jobs) = (c, log) -> Forall (fun e => exists n, snd e = Ok n) log ->
  (forall r e off, located cfg reqs listing r e -> u_offset (l_uri e) = Ok off ->
     exists job, In job jobs /\ fst job = u_path (l_uri e) /\ job_covers (find_offsets o) job off) ->
  (forall p offs, serving g o P (c_disk c) (state p offs)) ->
  c_forward cfg = false -> c_inefficient cfg = false ->
  NoDup (map r_string (canon_requests (c_ignore_ym cfg) false reqs)) ->
  (forall u, o_list o u = Ok listing) -> duplicate_free (c_ignore_ym cfg) listing ->
  own_places cfg reqs listing ->
  (forall r e, located cfg reqs listing r e -> fine_request o P cfg r e) ->
  (c_allow_missing cfg = true \/
   forall r, In r (canon_requests (c_ignore_ym cfg) false reqs) -> exists e, located cfg reqs listing r e) ->
  (exists r e, located cfg reqs listing r e) ->
  exists res, extract_requests (world_of o g P state) cfg reqs = Ok res /\ right_results o P cfg reqs listing res /\
    (g_lazy g = false -> forall full grib_at offsets,
       extract_requests (world_of (other_eccodes o full grib_at offsets) g P state) cfg reqs = Ok res).
Proof.
  intros Hc Hd Hp E Hok Hcov Hst Hf Hi ND Hl D Hown Hfine Hall Hsome.
  destruct (scans_record d0 cap jobs c log Hc Hd Hp E Hok) as (K0 & _ & K2).
  apply (served (c_disk c) state cfg reqs listing); auto.
  intros r e off L Ho. destruct (Hcov r e off L Ho) as (job & Hj & <- & Hcv). auto.
Qed.
End System.

(* the scan of what a catalogue lists (C74) covers every listed message *)
Lemma listed_covered found (listing : list listed) l jobs : Forall2 is_at (map l_uri listing) l -> one_scan_per_file l jobs ->
  forall e off, In e listing -> u_offset (l_uri e) = Ok off ->
    (exists job, In job jobs /\ fst job = u_path (l_uri e) /\ job_covers found job off) /\
    ((exists offs, found (u_path (l_uri e)) = Ok offs /\ In off offs) ->
     exists job, In job (map (fun c => (fst c, [])) jobs) /\ fst job = u_path (l_uri e) /\ job_covers found job off).
Proof.
  intros H (_ & Hperm & Hne) e off He Ho.
  assert (Hin : In (u_path (l_uri e), off) l).
  { apply (in_map l_uri) in He. clear -H He Ho. induction H as [|u x us l [H1 H2] _ IH]; cbn in *; [tauto|].
    destruct He as [->|He]; [left|right; auto]. rewrite H2 in Ho. injection Ho as <-. rewrite H1. now destruct x. }
  apply (Permutation_in _ Hperm) in Hin. unfold scan_entries in Hin. apply in_concat in Hin as (ys & Hys & Hin).
  apply in_map_iff in Hys as ([p offs] & <- & Hj). cbn [fst snd] in Hin. apply in_map_iff in Hin as (off' & Eq & Hoff).
  injection Eq as -> ->. split.
  - exists (u_path (l_uri e), offs). split; [exact Hj|]. split; [reflexivity|]. unfold job_covers. cbn [snd fst].
    destruct offs; [contradiction|exact Hoff].
  - intros Hf. exists (u_path (l_uri e), []). split; [|split; [reflexivity|exact Hf]].
    apply in_map_iff. exists (u_path (l_uri e), offs). auto.
Qed.

Theorem scans_from_start {F} (o : outside F) g P d cap jobs : sound_outside o g P -> 1 <= cap -> true_disk (describe o) g P d ->
  Forall P (map fst jobs) ->
  (forall job, In job jobs ->
     (snd job = [] -> exists offs, find_offsets o (fst job) = Ok offs) /\
     (forall off, job_covers (find_offsets o) job off -> exists i, describe o (fst job) off = Ok i)) ->
  exists c log, c_calls (o_uniq o) (describe o) (find_offsets o) g (cache_new d cap) (map scan_call jobs) = (c, log) /\
    Forall (fun e => exists n, snd e = Ok n) log.
Proof. intros Hs Hc Hd Hp Hall. apply (scans_succeed o g P Hs jobs _ (inv_new _ _ _ _ _ Hc Hd) Hp Hall). Qed.
