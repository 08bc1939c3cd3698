(* Further facts about index files, the info cache, the accessors and the views (C20, C25, C53, C55, C57, C58). *)
From Coq Require Import Sorted.
From Verif Require Import Base BaseLemmas ModelInfo ModelStream ModelLRU ModelIndex ModelCache SpecIndex SpecCache ProofsIndex
  ProofsCache ProofsCache2 ModelStrings ModelSimple ModelJumper ModelEngine ModelApi SpecApi ModelPython SpecPython
  SpecJumper ProofsApi ProofsPython2 ModelPlugin.

(* ---- index objects that already hold records ---- *)
Section Index.
Context {F : Type}.

Theorem load_keeps (d : @disk F) p (l l0 : list (Z * info F)) : sorted_keys l -> complete_file d p l0 ->
  exists x, x_load d (mk_index p false (lift l)) = Ok x /\ x_path x = p /\ x_loaded x = true /\
    sorted_keys (x_map x) /\ forall o, x_find x o = mfind o (l ++ l0).
Proof.
  intros S C. unfold x_load. cbn [x_loaded x_path x_map].
  assert (E : forall o, match mfind o (ins_all (lift l) (lift l0)) with Some p => p | None => None end = mfind o (l ++ l0)).
  { intros o. rewrite mfind_ins_all by now apply lift_sorted. rewrite !mfind_lift, mfind_app.
    destruct (mfind o l); [reflexivity|]. cbn [option_map]. destruct (mfind o l0); reflexivity. }
  destruct C as [[N ->]|(s & W & N)]; rewrite N.
  - eexists. split; [reflexivity|]. cbn [x_path x_loaded x_map]. repeat split; [now apply lift_sorted|].
    intros o. rewrite <- E. unfold x_find. cbn [x_map]. reflexivity.
  - rewrite w_index_lift in W. injection W as <-.
    rewrite r_index_ok. cbn [obind]. eexists. split; [reflexivity|]. cbn [x_path x_loaded x_map].
    repeat split; [now apply ins_all_sorted, lift_sorted|]. intros o. rewrite <- E. reflexivity.
Qed.

Theorem merge_keeps (x other : @index F) : sorted_keys (x_map x) ->
  x_path (x_merge x other) = x_path x /\ x_loaded (x_merge x other) = x_loaded x /\
  sorted_keys (x_map (x_merge x other)) /\
  forall o, mfind o (x_map (x_merge x other)) = mfind o (x_map x ++ x_map other).
Proof.
  intros S. unfold x_merge. cbn [x_path x_loaded x_map]. repeat split.
  - now apply (ins_all_sorted (x_map other)).
  - intros o. rewrite mfind_app. now apply (mfind_ins_all (x_map other)).
Qed.
End Index.

(* ---- lookups and clears between inserts ---- *)
Section Between.
Context {F : Type}.
Variable uniq : string -> string.
Variable data : string -> Z -> outcome (info F).
Variable data_offsets : string -> outcome (list Z).
Variable g : ModelCache.config.
Notation call := (@call F).

Notation run c l := (fst (c_calls uniq data data_offsets g c l)).

Lemma get_disk_staged c p offs : c_disk (fst (c_get data g c p offs)) = c_disk c /\
                                 c_staged (fst (c_get data g c p offs)) = c_staged c.
Proof.
  unfold c_get. destruct (get_cached p offs (c_lru c) []) as [[res l1]| |]; [|split; reflexivity..].
  destruct (obind _ _) as [[vec l2]| |]; split; reflexivity.
Qed.

Lemma run_app c a b : run c (a ++ b) = run (run c a) b.
Proof.
  revert c. induction a as [|q a IH]; intros c; [reflexivity|]. cbn [app c_calls].
  destruct (c_call uniq data data_offsets g c q) as [c1 r]. specialize (IH c1).
  destruct (c_calls uniq data data_offsets g c1 (a ++ b)) as [c2 rest].
  destruct (c_calls uniq data data_offsets g c1 a) as [c3 rest3]. cbn [fst] in *. exact IH.
Qed.

Lemma same_staged l : Forall no_write l -> forall c c', c_disk c = c_disk c' -> c_staged c = c_staged c' ->
  c_disk (run c l) = c_disk (run c' (filter is_insert l)) /\
  c_staged (run c l) = c_staged (run c' (filter is_insert l)).
Proof.
  induction 1 as [|q l Hq _ IH]; intros c c' Ed Es; [split; assumption|].
  change (q :: l) with ([q] ++ l). rewrite run_app.
  assert (E : filter is_insert ([q] ++ l) = filter is_insert [q] ++ filter is_insert l)
    by (cbn [app filter]; destruct (is_insert q); reflexivity).
  rewrite E, run_app. apply IH; destruct q; try contradiction; cbn.
  - destruct (get_disk_staged c path offs) as [D _]. destruct (c_get data g c path offs). cbn [fst] in *. congruence.
  - exact Ed.
  - exact Ed.
  - destruct (get_disk_staged c path offs) as [_ D]. destruct (c_get data g c path offs). cbn [fst] in *. congruence.
  - now rewrite Es.
  - exact Es.
Qed.

Theorem reads_between l d cap a : Forall no_write l ->
  c_disk (run (cache_new d cap) (l ++ [CFlush a])) = c_disk (run (cache_new d cap) (filter is_insert l ++ [CFlush a])).
Proof.
  intros H. rewrite !run_app. destruct (same_staged l H (cache_new d cap) (cache_new d cap) eq_refl eq_refl) as [Ed Es].
  set (c := run _ l) in *. set (c' := run _ (filter _ _)) in *. cbn [c_calls c_call].
  unfold c_flush. rewrite Ed, Es. destruct (flush_all uniq a (c_staged c') (c_disk c')); cbn [fst c_disk]; congruence.
Qed.
End Between.

(* ---- the accessors and views ---- *)
Theorem axes_sizes (m : axes_map) :
  c_axes_keys_size (Some m) = Ok (CSuccess, Some (lenN m)) /\
  forall k, c_axes_values_size (Some m) (Some k) =
    Ok (CSuccess, Some (lenN (match sfind k m with Some vs => vs | None => [] end))).
Proof.
  split; [reflexivity|]. intros k. unfold c_axes_values_size, not_null. cbn. destruct (sfind k m); reflexivity.
Qed.

Theorem python_legacy {F} (zero : F) l vals present masks :
  l <> [] -> Forall (fun i => fst i <= snd i)%N l ->
  Forall2 (fun i v => length v = size_of i) l vals ->
  Forall2 (fun i p => length p = size_of i) l present ->
  Forall2 is_mask present masks ->
  (N.of_nat (total vals) < two64)%N ->
  exists pairs, py_legacy zero (vals, masks) (shape_of l) = Ok pairs /\ map fst pairs = vals /\ map snd pairs = masks.
Proof.
  intros Hne Hr Hv Hp Hm Ht. destruct (python_views zero l vals present masks Hne Hr Hv Hp Hm Ht) as (E1 & E2 & _).
  unfold py_legacy. rewrite E1, E2. cbn [obind]. eexists. split; [reflexivity|].
  assert (L : length vals = length masks).
  { rewrite <- (Forall2_length _ _ _ Hv), (Forall2_length _ _ _ Hp). exact (Forall2_length _ _ _ Hm). }
  clear - L. revert masks L. induction vals as [|v vals IH]; destruct masks as [|m masks]; try discriminate; [split; reflexivity|].
  intros [= L]. destruct (IH _ L) as [A B]. cbn [combine map fst snd]. split; f_equal; assumption.
Qed.

Theorem rust_range_accepts a b :
  ((a < b)%N -> rust_range a b = Ok (a, b)) /\ ((b <= a)%N -> rust_range a b = Throw EBadParameter).
Proof.
  unfold rust_range. destruct (N.leb_spec b a); split; intros; try reflexivity; exfalso; apply (N.lt_irrefl a);
    eapply N.lt_le_trans; eassumption.
Qed.

Theorem grib_magic (bytes : list N) : is_grib bytes = true <-> exists rest, bytes = [71; 82; 73; 66]%N ++ rest.
Proof.
  split.
  - destruct bytes as [|a [|b [|c [|d rest]]]]; try discriminate. cbn [is_grib]. rewrite !Bool.andb_true_iff, !N.eqb_eq.
    intros [[[-> ->] ->] ->]. exists rest. reflexivity.
  - intros [rest ->]. reflexivity.
Qed.
