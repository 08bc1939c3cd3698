(* Comparing and showing infos. *)
From Coq Require Import Sorted Lia.
From Verif Require Import Base ModelStrings ModelInfo ModelStream ModelIndex ModelCache ModelBuild ModelInspect
     SpecIndex SpecBuild SpecInspect ProofsStream ProofsIndex ProofsBuild2.

Lemma list_eqb_spec (a b : list N) : list_eqb N.eqb a b = true <-> a = b.
Proof.
  revert b. induction a as [|x a IH]; intros [|y b]; cbn; try (split; [discriminate|discriminate]); [tauto|].
  rewrite andb_true_iff, N.eqb_eq, IH. split; [intros [-> ->]; reflexivity|intros H; injection H; auto].
Qed.
Lemma list_eqb_sym (a b : list N) : list_eqb N.eqb a b = list_eqb N.eqb b a.
Proof. apply eq_true_iff_eq. rewrite !list_eqb_spec. split; congruence. Qed.

Section Equals.
Context {F : Type}.
Variable feq : F -> F -> bool.

Lemma base_equals_spec (a b : info F) : base_equals feq a b = true <->
  feq (i_reference a) (i_reference b) = true /\ with_class a SimpleInfo = with_class (with_reference b (i_reference a)) SimpleInfo.
Proof.
  unfold base_equals. rewrite !andb_true_iff, !N.eqb_eq, !Z.eqb_eq, !String.eqb_eq. destruct a, b. cbn.
  split; [|intros [R E]; injection E as -> -> -> -> -> -> -> -> -> -> -> -> -> ->; repeat split; auto].
  intros H. repeat match goal with H : _ /\ _ |- _ => destruct H end. subst. auto.
Qed.
Lemma same_info_split (a b : info F) : same_info feq a b <->
  feq (i_reference a) (i_reference b) = true /\ with_class a SimpleInfo = with_class (with_reference b (i_reference a)) SimpleInfo /\ i_class a = i_class b.
Proof.
  unfold same_info. destruct a, b. cbn. split.
  - intros [E R]. injection E as -> -> -> -> -> -> -> -> -> -> -> -> -> -> ->. auto.
  - intros (R & E & C). injection E as -> -> -> -> -> -> -> -> -> -> -> -> -> ->. subst. auto.
Qed.
Lemma base_packing (a b : info F) : base_equals feq a b = true -> i_packing a = i_packing b.
Proof. unfold base_equals. rewrite !andb_true_iff, !String.eqb_eq. tauto. Qed.

Theorem equals_compares (a b : info F) : proper_class a -> proper_class b ->
  exists v, info_equals feq a b = Ok v /\ (v = true <-> same_info feq a b).
Proof.
  unfold proper_class, info_equals. intros Pa Pb. setoid_rewrite same_info_split.
  destruct (base_equals feq a b) eqn:B; cbn [negb].
  - pose proof (base_packing a b B) as E. apply base_equals_spec in B. assert (K : kind_of (i_class a) = kind_of (i_class b)) by congruence.
    destruct (i_class a) as [|f bs r o|] eqn:Ca, (i_class b) as [|f' bs' r' o'|] eqn:Cb; try discriminate K; eexists; (split; [reflexivity|]).
    + tauto.
    + rewrite !andb_true_iff, !N.eqb_eq, list_eqb_spec. split.
      * intros [[[-> ->] ->] ->]. tauto.
      * intros (_ & _ & H). injection H as -> -> -> ->. auto.
    + tauto.
  - assert (X : forall P : Prop, (false = true <-> P) <-> ~ P) by (intros P; split; [intros [_ H] K; discriminate (H K)|intros N; split; [discriminate|tauto]]).
    exists false. split; [destruct (i_class a); reflexivity|]. apply X. intros (R & E & _).
    assert (base_equals feq a b = true) by (apply base_equals_spec; auto). congruence.
Qed.
Theorem equals_symmetric (a b : info F) : (forall x y, feq x y = feq y x) -> proper_class a -> proper_class b ->
  info_equals feq a b = info_equals feq b a.
Proof.
  intros S Pa Pb.
  destruct (equals_compares a b Pa Pb) as (v & -> & Hv). destruct (equals_compares b a Pb Pa) as (v' & -> & Hv').
  f_equal. apply eq_true_iff_eq. rewrite Hv, Hv', !same_info_split, S. destruct a, b. cbn. split.
  - intros (R & E & C). injection E as -> -> -> -> -> -> -> -> -> -> -> -> -> ->. auto.
  - intros (R & E & C). injection E as -> -> -> -> -> -> -> -> -> -> -> -> -> ->. auto.
Qed.
Theorem equals_itself (a : info F) : info_equals feq a a = Ok (feq (i_reference a) (i_reference a)).
Proof.
  assert (B : base_equals feq a a = feq (i_reference a) (i_reference a)).
  { unfold base_equals. rewrite !N.eqb_refl, !Z.eqb_refl, !String.eqb_refl. destruct (feq _ _); reflexivity. }
  unfold info_equals. rewrite B. destruct (i_class a) as [|f bs r o|]; [reflexivity| |reflexivity].
  destruct (feq (i_reference a) (i_reference a)); cbn [negb]; [|reflexivity].
  rewrite !N.eqb_refl. replace (list_eqb N.eqb o o) with true; [reflexivity|]. symmetry. now apply list_eqb_spec.
Qed.
Theorem written_equals (a : info F) rest : exists b, r_info (w_info a ++ rest) = Ok (Some b, rest) /\
  info_equals feq b a = Ok (feq (i_reference a) (i_reference a)).
Proof. exists a. split; [apply info_roundtrip|apply equals_itself]. Qed.
End Equals.

Lemma told_proper {F} (k : codes F) (i : info F) : told_class k (i_packing i) (i_class i) -> proper_class i.
Proof.
  unfold told_class, proper_class, kind_of_packing. destruct (i_class i); cbn.
  - intros ->. reflexivity.
  - intros [-> _]. reflexivity.
  - intros [N1 N2]. destruct (String.eqb_spec (i_packing i) "grid_simple"); [contradiction|].
    destruct (String.eqb_spec (i_packing i) "grid_ccsds"); [contradiction|reflexivity].
Qed.
Theorem built_proper {F} aec fresh (grib_at : list N -> Z -> outcome (option (codes F))) bytes off i :
  build aec fresh grib_at bytes off = Ok i -> proper_class i.
Proof.
  intros H. destruct (build_told _ _ _ _ _ _ H) as (_ & k & _ & T). unfold told_by in T. do 14 (destruct T as [_ T]).
  eapply told_proper. exact T.
Qed.
Lemma message_packing {F} (k : codes F) c i p : k_string k "packingType" = Ok p -> jump_info_of_message k c = Ok i ->
  i_packing i = p /\ i_class i = c.
Proof.
  intros P H. unfold jump_info_of_message, edition_and_packing in H. rewrite P in H.
  destruct (k_long k "editionNumber") as [z| |]; cbn [obind] in H; try discriminate. cbv zeta in H.
  destruct (negb (u64_of_Z z =? 1)%N && negb (u64_of_Z z =? 2)%N)%bool; cbn [obind] in H; try discriminate.
  repeat match type of H with
  | obind ?x _ = Ok _ => destruct x as [?| |]; cbn [obind] in H; try discriminate
  end.
  injection H as <-. auto.
Qed.
Theorem built_of_message_proper {F} aec fresh (k : codes F) bytes i : build_of_message aec fresh bytes k = Ok i -> proper_class i.
Proof.
  unfold build_of_message. destruct (k_string k "packingType") as [p| |] eqn:P; cbn [obind]; try discriminate.
  unfold proper_class, kind_of_packing, get_builder, builders, find_builder.
  rewrite (String.eqb_sym "grid_ccsds" p), (String.eqb_sym "grid_simple" p).
  destruct (String.eqb_spec p "grid_ccsds") as [E|N1]; [|destruct (String.eqb_spec p "grid_simple") as [E|N2]].
  - cbn [obind]. unfold ccsds_info_of_message. intros H.
    destruct (jump_info_of_message k _) as [i0| |] eqn:J; cbn [obind] in H; try discriminate.
    destruct (message_packing k _ i0 p P J) as [E1 _].
    repeat match type of H with
    | obind ?x _ = Ok _ => destruct x as [?| |]; cbn [obind] in H; try discriminate
    end.
    match type of H with (let (_, _) := ?x in _) = _ => destruct x as [? [|? ?]] end; [discriminate|]. injection H as <-. cbn. rewrite E1, E. reflexivity.
  - cbn [obind]. intros J. destruct (message_packing k _ i p P J) as [E1 ->]. rewrite E1, E. reflexivity.
  - intros J. assert (J' : jump_info_of_message k UnsupportedInfo = Ok i) by (destruct (String.eqb "unsupported" p); exact J).
    destruct (message_packing k _ i p P J') as [-> ->].
    destruct (String.eqb_spec p "grid_simple"); [contradiction|]. destruct (String.eqb_spec p "grid_ccsds"); [contradiction|reflexivity].
Qed.

(* ---- dumping ---- *)
Section Dump.
Context {F : Type}.
Variable show : F -> string.

Lemma text_assoc (a b c : string) : ((a ++ b) ++ c = a ++ b ++ c)%string.
Proof. induction a as [|x a IH]; cbn; [reflexivity|now rewrite IH]. Qed.
Lemma print_info_text (i : info F) : print_info show i = info_text show i.
Proof.
  unfold print_info, info_text, print_base, facts_of, show_n. destruct (i_class i); cbn [app map fst snd String.concat class_name];
  rewrite !text_assoc; reflexivity.
Qed.
Lemma print_lift (l : list (Z * info F)) : print_entries show (lift l) = (map (record_line show) l, Ok tt).
Proof. induction l as [|[o i] l IH]; cbn; [reflexivity|]. unfold lift in IH. rewrite IH, print_info_text. reflexivity. Qed.
Lemma load_path (d : @disk F) f x : x_load d (new_index f) = Ok x -> x_path x = f.
Proof.
  unfold x_load. cbn. destruct (d f) as [s|]; [|intros H; injection H as <-; reflexivity].
  destruct (r_index [] s); cbn; [intros H; injection H as <-; reflexivity|discriminate..].
Qed.
Lemma dump_one (d : @disk F) f l : index_file_with d (f, l) -> exists x,
  x_load d (new_index f) = Ok x /\ print_index show x = (dump_lines show (f, l), Ok tt).
Proof.
  intros [N L]. cbn [fst snd] in *. unfold load_index in L.
  destruct (x_load d (new_index f)) as [x| |] eqn:E; cbn in L; try discriminate. injection L as L.
  exists x. split; [reflexivity|]. unfold print_index. rewrite (load_path d f x E), L, print_lift. unfold dump_lines, lenN, lift.
  cbn [fst snd]. rewrite map_length. reflexivity.
Qed.
Theorem dump_shows (d : @disk F) fs rest : Forall (index_file_with d) fs ->
  dump_tool show d (map fst fs ++ rest) =
  (concat (map (dump_lines show) fs) ++ fst (dump_tool show d rest), snd (dump_tool show d rest)).
Proof.
  induction 1 as [|[f l] fs H _ IH]; cbn [map app concat fst]; [now destruct (dump_tool show d rest)|].
  cbn [dump_tool]. destruct (dump_one d f l H) as (x & E & P). destruct (d f) as [s|] eqn:D; [|destruct (proj1 H D)].
  rewrite E, P, IH. now rewrite app_assoc.
Qed.
Theorem dump_all (d : @disk F) fs : Forall (index_file_with d) fs ->
  dump_tool show d (map fst fs) = (concat (map (dump_lines show) fs), Ok tt).
Proof. intros H. rewrite <- (app_nil_r (map fst fs)), (dump_shows d fs [] H). cbn. now rewrite app_nil_r. Qed.
Theorem dump_missing (d : @disk F) fs f rest : Forall (index_file_with d) fs -> d f = None ->
  dump_tool show d (map fst fs ++ f :: rest) = (concat (map (dump_lines show) fs), Throw EUser).
Proof. intros H N. rewrite (dump_shows d fs (f :: rest) H). cbn. rewrite N. cbn. now rewrite app_nil_r. Qed.

Lemma entries_sorted fuel : forall (m m' : list (Z * option (info F))) s, sorted_keys m -> r_entries fuel m s = Ok m' -> sorted_keys m'.
Proof.
  induction fuel as [|fuel IH]; intros m m' s S H; cbn in H; [discriminate|].
  destruct (s_next s) as [[[|] s1]| |]; cbn [obind] in H; try discriminate; [|injection H as <-; exact S].
  destruct (r_ll s1) as [[o s2]| |]; cbn [obind] in H; try discriminate.
  destruct (r_info s2) as [[p s3]| |]; cbn [obind] in H; try discriminate.
  eapply IH; [|exact H]. now apply minsert_sorted.
Qed.
Theorem dump_in_order (d : @disk F) f l : index_file_with d (f, l) -> StronglySorted Z.lt (map fst l).
Proof.
  intros [N L]. cbn [fst snd] in *. unfold load_index, x_load in L. cbn in L.
  assert (S : sorted_keys (lift l)).
  { destruct (d f) as [s|]; cbn in L.
    - unfold r_index in L. destruct (r_u8 s) as [[v s1]| |]; cbn [obind] in L; try discriminate.
      destruct (v =? index_version)%N; cbn [assert_ obind] in L; try discriminate.
      destruct (r_entries (Datatypes.S (length s1)) [] s1) as [m| |] eqn:E; cbn in L; try discriminate. injection L as <-.
      eapply entries_sorted; [|exact E]. constructor.
    - injection L as <-. constructor. }
  clear -S. unfold sorted_keys, lift in S. induction l as [|[o i] l IH]; cbn in *; [constructor|].
  inversion S as [|? ? S1 S2]; subst. constructor; [now apply IH|]. clear -S2.
  induction l as [|[o' i'] l IH]; cbn in *; [constructor|]. inversion S2; subst. constructor; auto.
Qed.
Lemma print_null (m : list (Z * option (info F))) o : In (o, None) m -> snd (print_entries show m) = UB.
Proof.
  induction m as [|[o' [i|]] m IH]; intros I; cbn; [destruct I| |reflexivity].
  destruct I as [I|I]; [discriminate|]. specialize (IH I). destruct (print_entries show m). exact IH.
Qed.
Theorem dump_torn (d : @disk F) p l0 e b : index_path p -> d p <> None -> complete_file d p l0 -> mfind (fst e) l0 = None ->
  exists ops d', append_to_file d (lift (e :: b)) p = Ok ops /\ crashed d ops d' /\ snd (dump_tool show d' [p]) = UB.
Proof.
  intros Hp Hn Hc Hf. destruct (append_crash_null d p l0 e b Hp Hn Hc) as (ops & d' & E & Hcr & El).
  exists ops, d'. split; [exact E|]. split; [exact Hcr|].
  assert (I : In (fst e, None) (minsert (fst e) None (ins_all [] (lift l0)))).
  { apply mfind_in. rewrite mfind_minsert by (apply ins_all_sorted; constructor).
    rewrite mfind_ins_all by constructor. cbn [mfind]. rewrite mfind_lift, Hf. cbn [option_map]. now rewrite Z.eqb_refl. }
  unfold load_index in El. destruct (x_load d' (new_index p)) as [x| |] eqn:L; cbn in El; try discriminate. injection El as El.
  cbn [dump_tool]. destruct (d' p) eqn:D.
  - rewrite L. unfold print_index. rewrite El. pose proof (print_null _ _ I) as U.
    destruct (print_entries show _) as [ls r]. cbn in U. subst r. reflexivity.
  - exfalso. unfold x_load in L. cbn in L. rewrite D in L. injection L as <-. cbn in El. rewrite <- El in I. exact I.
Qed.
End Dump.

(* ---- gribjump-info ---- *)
Theorem info_tool_lines f a :
  info_tool f a =
  let path := if String.eqb (ab_config a) "" then "No config file found (use default config)"%string else ab_config a in
  if fl_all f || negb (fl_version f || fl_sha1 f || fl_home f || fl_library f || fl_config f)
  then ["Version: " ++ ab_version a; "gitsha1: " ++ ab_sha1 a; "Home: " ++ ab_home a; "Library path: " ++ ab_library a; "Config: " ++ path]%string
  else map snd (filter fst [(fl_version f, ab_version a); (fl_sha1 f, ab_sha1 a); (fl_home f, ab_home a); (fl_library f, ab_library a); (fl_config f, path)]).
Proof.
  unfold info_tool, log_info. destruct f as [all v s h l c]. cbn [fl_all fl_version fl_sha1 fl_home fl_library fl_config].
  destruct all, v, s, h, l, c; reflexivity.
Qed.

(* ---- gribjump-scan ---- *)
Section Scan.
Context {M : Type}.
Variable content : string -> option string.
Variable parse_file : string -> outcome (list M).
Variable expand : list M -> outcome (list M).
Variable requests_from : bool -> string -> outcome (list M).
Variable scan : list M -> bool -> outcome N.
Notation tool := (scan_tool content parse_file expand requests_from scan).
Notation then_scanned := (then_scanned scan).

Lemma on_default b : or_default b false = on b.
Proof. destruct b as [[|]|]; reflexivity. Qed.
Lemma mapM_Forall2 {A B} (f : A -> outcome B) l l' : Forall2 (fun x y => f x = Ok y) l l' -> mapM f l = Ok l'.
Proof. induction 1 as [|x y l l' E _ IH]; cbn; [reflexivity|]. rewrite E. cbn. now rewrite IH. Qed.
Lemma tool_scans raw byfiles file args rs :
  scan_requests content parse_file expand requests_from (on raw) (or_default file ""%string) args = Ok rs ->
  tool raw byfiles file args = then_scanned rs byfiles.
Proof.
  intros H. unfold scan_tool. rewrite !on_default, H. cbn [obind]. unfold gj_scan, SpecInspect.then_scanned. destruct rs; [reflexivity|].
  destruct (scan _ _); reflexivity.
Qed.
Theorem scan_of_args raw byfiles args rss : Forall2 (fun a r => requests_from (on raw) a = Ok r) args rss ->
  tool raw byfiles None args = then_scanned (concat rss) byfiles.
Proof.
  intros H. apply tool_scans. unfold scan_requests. cbn [or_default]. rewrite andb_false_r. cbn [String.eqb negb].
  rewrite (mapM_Forall2 _ _ _ H). reflexivity.
Qed.
Theorem scan_of_file raw byfiles f text parsed rs : f <> ""%string -> content f = Some text -> parse_file text = Ok parsed ->
  (if on raw then Ok parsed else expand parsed) = Ok rs -> tool raw byfiles (Some f) [] = then_scanned rs byfiles.
Proof.
  intros N C P E. apply tool_scans. unfold scan_requests. cbn [or_default]. destruct (String.eqb_spec f ""); [contradiction|].
  cbn. rewrite C. cbn. rewrite P. exact E.
Qed.
Theorem scan_of_both raw byfiles f a args : f <> ""%string -> tool raw byfiles (Some f) (a :: args) = Throw EUser.
Proof.
  intros N. unfold scan_tool, scan_requests. cbn [or_default]. destruct (String.eqb_spec f ""); [contradiction|].
  replace (lenN (a :: args) =? 0)%N with false; [reflexivity|]. symmetry. apply N.eqb_neq. unfold lenN. cbn. lia.
Qed.
Theorem scan_of_missing_file raw byfiles f : f <> ""%string -> content f = None -> parse_file "" = Ok [] -> expand [] = Ok [] ->
  tool raw byfiles (Some f) [] = Throw EUser.
Proof.
  intros N C P E. rewrite (tool_scans raw byfiles (Some f) [] []); [reflexivity|]. unfold scan_requests. cbn [or_default].
  destruct (String.eqb_spec f ""); [contradiction|]. cbn. rewrite C. cbn. rewrite P. cbn. destruct (on raw); [reflexivity|exact E].
Qed.
End Scan.
Lemma byfiles_default :
  exists (scan : list string -> bool -> outcome N) args,
    scan_tool (fun _ => None) (fun _ => Ok []) (fun l => Ok l) (fun _ a => Ok [a]) scan None None None args <>
    scan_tool (fun _ => None) (fun _ => Ok []) (fun l => Ok l) (fun _ a => Ok [a]) scan None (Some true) None args.
Proof.
  exists (fun (_ : list string) (b : bool) => Ok (if b then 2 else 1)%N), ["class=od"]%string. vm_compute. discriminate.
Qed.
