(* Proofs about the views of results in the Python layer. *)
From Verif Require Import Base BaseLemmas ModelSimple ModelInfo ModelJumper ModelEngine ModelApi SpecApi SpecJumper
  ModelPython SpecPython ProofsApi ProofsPython ProofsJumper.
From Coq Require Import Lia Arith.

Definition zlen {A} (l : list A) : Z := Z.of_nat (length l).

(* ---- sums and splitting ---- *)
Lemma zsum_acc l : forall t, fold_left Z.add l t = (t + zsum l)%Z.
Proof.
  unfold zsum. induction l as [|x l IH]; intros t; cbn [fold_left]; [lia|].
  rewrite IH, (IH (0 + x)%Z). lia.
Qed.
Lemma zsum_cons x l : zsum (x :: l) = (x + zsum l)%Z.
Proof. unfold zsum at 1. cbn [fold_left]. rewrite zsum_acc. lia. Qed.

Lemma zsum_lengths {A} (vs : list (list A)) : zsum (map zlen vs) = Z.of_nat (total vs).
Proof.
  unfold total. induction vs as [|v vs IH]; [reflexivity|]. cbn [map concat].
  rewrite zsum_cons, IH, app_length. unfold zlen. lia.
Qed.

Lemma clip_ok n i : i <= n -> clip n (Z.of_nat i) = i.
Proof.
  intros H. unfold clip. destruct (Z.ltb_spec (Z.of_nat i) 0); [lia|]. rewrite Nat2Z.id. lia.
Qed.

Lemma py_slice_mid {A} (a b c : list A) :
  py_slice (a ++ b ++ c) (zlen a) (zlen a + zlen b) = b.
Proof.
  unfold py_slice, zlen. rewrite <- Nat2Z.inj_add. rewrite !clip_ok by (rewrite !app_length; lia).
  unfold slice. rewrite skipn_app, skipn_all, Nat.sub_diag. cbn [skipn app].
  replace (length a + length b - length a) with (length b) by lia.
  rewrite firstn_app, firstn_all, Nat.sub_diag. cbn [firstn]. apply app_nil_r.
Qed.

Lemma split_pieces {A} (vs : list (list A)) : vs <> [] -> forall pre,
  split_from (pre ++ concat vs) (zlen pre) (removelast (accumulate (zlen pre) (map zlen vs))) = vs.
Proof.
  induction vs as [|v vs IH]; intros H pre; [contradiction|]. clear H.
  destruct vs as [|v' vs].
  - cbn [map accumulate removelast split_from concat]. f_equal.
    pose proof (py_slice_mid pre v []) as Q. unfold zlen in *.
    replace (Z.of_nat (length (pre ++ v ++ []))) with (Z.of_nat (length pre) + Z.of_nat (length v))%Z
      by (rewrite !app_length; cbn [length]; lia).
    exact Q.
  - specialize (IH ltac:(discriminate) (pre ++ v)).
    cbn [map accumulate] in *. cbn [removelast]. cbn [split_from].
    assert (E : (zlen (pre ++ v) = zlen pre + zlen v)%Z) by (unfold zlen; rewrite app_length; lia).
    rewrite E in IH. f_equal.
    + cbn [concat]. apply py_slice_mid.
    + cbn [concat] in *. rewrite <- app_assoc in IH. exact IH.
Qed.

Lemma np_split_pieces {A} (vs : list (list A)) : vs <> [] ->
  np_split (concat vs) (removelast (accumulate 0 (map zlen vs))) = vs.
Proof. intros H. exact (split_pieces vs H []). Qed.

(* ---- loading ---- *)
Section Views.
Context {F : Type}.
Variable zero : F.

Theorem py_values_ok (vals : list (list F)) (masks : list (list N)) :
  vals <> [] -> (N.of_nat (total vals) < two64)%N ->
  py_values_flat zero (vals, masks) (map zlen vals) = Ok (concat vals) /\
  py_values zero (vals, masks) (map zlen vals) = Ok vals.
Proof.
  intros Hne Ht.
  assert (E : py_values_flat zero (vals, masks) (map zlen vals) = Ok (concat vals)).
  { unfold py_values_flat, load. rewrite zsum_lengths.
    destruct (Z.ltb_spec (Z.of_nat (total vals)) 0); [lia|]. rewrite Nat2Z.id. cbn [fst].
    rewrite result_values_exact; [|exact Ht| |unfold lenN; rewrite repeat_length; lia].
    - replace (Z.to_N (Z.of_nat (total vals))) with (N.of_nat (total vals)) by lia.
      rewrite N.eqb_refl. reflexivity.
    - replace (Z.to_N (Z.of_nat (total vals))) with (N.of_nat (total vals)) by lia. exact Ht. }
  split; [exact E|]. unfold py_values. rewrite E. cbn [obind]. rewrite np_split_pieces by exact Hne. reflexivity.
Qed.

(* a result with another number of values is refused *)
Theorem py_values_mismatch (vals : list (list F)) (masks : list (list N)) (shape : list Z) :
  (N.of_nat (total vals) < two64)%N -> (0 <= zsum shape < Z.of_N two64)%Z ->
  Z.of_nat (total vals) <> zsum shape ->
  py_values zero (vals, masks) shape = Throw EGribJump.
Proof.
  intros Ht Hs Hne. unfold py_values, py_values_flat, load.
  destruct (Z.ltb_spec (zsum shape) 0); [lia|]. cbn [fst].
  rewrite result_values_exact; [|exact Ht|lia|unfold lenN; rewrite repeat_length; lia].
  destruct (N.eqb_spec (N.of_nat (total vals)) (Z.to_N (zsum shape))); [lia|]. reflexivity.
Qed.

Lemma mask_shape_words (present : list (list bool)) (masks : list (list N)) :
  Forall2 is_mask present masks -> mask_shape (map zlen present) = map zlen masks.
Proof.
  intros H. unfold mask_shape. rewrite map_map. induction H as [|p w present masks [H _] Hr IH]; [reflexivity|].
  cbn [map]. rewrite IH. f_equal. unfold zlen. rewrite H.
  rewrite Nat2Z.inj_div, Nat2Z.inj_add. reflexivity.
Qed.

Theorem py_masks_ok (vals : list (list F)) (present : list (list bool)) (masks : list (list N)) :
  present <> [] -> Forall2 is_mask present masks -> (N.of_nat (total masks) < two64)%N ->
  py_masks (vals, masks) (map zlen present) = Ok masks.
Proof.
  intros Hne H Ht. unfold py_masks, py_masks_flat, load. rewrite (mask_shape_words present masks H).
  assert (Hm : masks <> []) by (inversion H; subst; congruence).
  rewrite zsum_lengths. destruct (Z.ltb_spec (Z.of_nat (total masks)) 0); [lia|]. rewrite Nat2Z.id. cbn [snd].
  replace (Z.to_N (Z.of_nat (total masks))) with (N.of_nat (total masks)) by lia.
  rewrite result_mask_spec; [|exact Ht|unfold lenN; rewrite repeat_length; reflexivity].
  rewrite N.leb_refl, N.eqb_refl. cbn [checked obind].
  rewrite skipn_all2 by (rewrite repeat_length; lia). rewrite app_nil_r, np_split_pieces by exact Hm. reflexivity.
Qed.

(* ---- boolean masks ---- *)
Section Bits.
Variable present : list bool.
Notation n := (length present).

(* the array when the first q points are done *)
Definition upto (q : nat) : list bool := firstn q present ++ repeat false (n - q).

Lemma upto_set q b : q < n -> nth q present false = b ->
  set_at (upto q) (N.of_nat q) b = Ok (upto (S q)).
Proof.
  intros Hq Hb. unfold upto.
  replace (n - q) with (S (n - S q)) by lia. cbn [repeat].
  assert (Hl : length (firstn q present) = q) by (rewrite firstn_length; lia).
  pose proof (set_at_ok (firstn q present) false b (repeat false (n - S q))) as Q. rewrite Hl in Q. rewrite Q. clear Q.
  f_equal.
  replace (firstn (S q) present) with (firstn q present ++ [b]).
  - rewrite <- app_assoc. reflexivity.
  - clear -Hq Hb. revert q Hq Hb. induction present as [|x l IH]; intros [|q] Hq Hb; cbn in *; try lia.
    + subst. reflexivity.
    + f_equal. apply IH; [lia|exact Hb].
Qed.

Lemma bit_value w k : negb (N.land (N.shiftr w (N.of_nat k)) 1 =? 0)%N = N.testbit w (N.of_nat k).
Proof.
  change 1%N with (N.ones 1). rewrite N.land_ones. change (2 ^ 1)%N with 2%N.
  replace (N.testbit w (N.of_nat k)) with (N.testbit (N.shiftr w (N.of_nat k)) 0)
    by (rewrite N.shiftr_spec'; f_equal).
  rewrite N.bit0_odd.
  pose proof (N.bit0_mod (N.shiftr w (N.of_nat k))) as Q. rewrite N.bit0_odd in Q. rewrite <- Q.
  destruct (N.odd _); reflexivity.
Qed.

Lemma bit_loop_ok todo w j : forall k count,
  k + todo = 64 -> j * 64 + k <= n \/ n <= j * 64 ->
  (forall i, i < 64 -> N.testbit w (N.of_nat i) = nth (j * 64 + i) present false) ->
  bit_loop todo w n j k (upto (Nat.min n (j * 64 + k))) count =
    Ok (upto (Nat.min n (j * 64 + 64)), count + (Nat.min n (j * 64 + 64) - Nat.min n (j * 64 + k))).
Proof.
  induction todo as [|todo IH]; intros k count Hk Hn Hw.
  - cbn [bit_loop]. replace k with 64 by lia. do 2 f_equal. lia.
  - cbn [bit_loop]. destruct (Nat.leb_spec n (j * 64 + k)) as [L|L].
    + replace (Nat.min n (j * 64 + 64)) with n by lia. replace (Nat.min n (j * 64 + k)) with n by lia.
      do 2 f_equal. lia.
    + rewrite bit_value, Hw by lia.
      replace (Nat.min n (j * 64 + k)) with (j * 64 + k) by lia.
      rewrite (upto_set _ _ L eq_refl). cbn [obind].
      specialize (IH (S k) (S count) ltac:(lia)).
      replace (Nat.min n (j * 64 + S k)) with (S (j * 64 + k)) in IH by lia.
      rewrite IH; [|lia|exact Hw]. do 2 f_equal. lia.
Qed.

Lemma word_loop_ok ws : forall j count,
  (forall i w, nth_error ws i = Some w ->
     forall k, k < 64 -> N.testbit w (N.of_nat k) = nth ((j + i) * 64 + k) present false) ->
  word_loop ws n j (upto (Nat.min n (j * 64))) count =
    Ok (upto (Nat.min n ((j + length ws) * 64)), count + (Nat.min n ((j + length ws) * 64) - Nat.min n (j * 64))).
Proof.
  induction ws as [|w ws IH]; intros j count H; cbn [word_loop length].
  - rewrite Nat.add_0_r. do 2 f_equal. lia.
  - pose proof (bit_loop_ok 64 w j 0 count eq_refl) as B. rewrite Nat.add_0_r in B. rewrite B.
    + cbn [obind]. specialize (IH (S j)). replace (S j * 64) with (j * 64 + 64) in IH by lia.
      rewrite IH.
      * replace (S j + length ws) with (j + S (length ws)) by lia. do 2 f_equal. lia.
      * intros i w' Hi k Hk. replace (S j + i) with (j + S i) by lia. apply H; [exact Hi|exact Hk].
    + lia.
    + intros i Hi. specialize (H 0 w eq_refl i Hi). rewrite Nat.add_0_r in H. exact H.
Qed.

Lemma word_loop_mask ws count : is_mask present ws ->
  word_loop ws n 0 (repeat false n) count = Ok (present, count + n).
Proof.
  intros [Hl H]. pose proof (word_loop_ok ws 0 count) as W. cbn [Nat.mul Nat.add] in W.
  rewrite Nat.min_0_r in W.
  unfold upto in W. cbn [firstn app] in W. rewrite Nat.sub_0_r in W. rewrite W.
  - assert (E : Nat.min n (length ws * 64) = n).
    { apply Nat.min_l. rewrite Hl.
      pose proof (Nat.div_mod (n + 63) 64 ltac:(lia)). pose proof (Nat.mod_upper_bound (n + 63) 64 ltac:(lia)). lia. }
    rewrite E, firstn_all, Nat.sub_diag. cbn [repeat]. rewrite app_nil_r, Nat.sub_0_r. reflexivity.
  - intros i w Hi k Hk. destruct (H i w Hi) as [_ Hb]. apply Hb. exact Hk.
Qed.
End Bits.

Lemma mask_loop_ok (present : list (list bool)) (masks : list (list N)) : Forall2 is_mask present masks ->
  forall count, mask_loop masks (map zlen present) count = Ok (present, count + total present).
Proof.
  unfold total. induction 1 as [|p w present masks Hm H IH]; intros count; cbn [map mask_loop concat].
  - cbn. rewrite Nat.add_0_r. reflexivity.
  - unfold zlen at 1. destruct (Z.ltb_spec (Z.of_nat (length p)) 0); [lia|].
    unfold zlen at 1 2. rewrite Nat2Z.id. rewrite (word_loop_mask p w count Hm). cbn [obind].
    rewrite IH. cbn [obind]. rewrite app_length. do 2 f_equal. lia.
Qed.

Theorem py_bool_masks_ok (vals : list (list F)) (present : list (list bool)) (masks : list (list N)) :
  present <> [] -> Forall2 is_mask present masks -> (N.of_nat (total masks) < two64)%N ->
  py_bool_masks (vals, masks) (map zlen present) = Ok present.
Proof.
  intros Hne H Ht. unfold py_bool_masks. rewrite (py_masks_ok vals present masks Hne H Ht). cbn [obind].
  rewrite (mask_loop_ok present masks H). cbn [obind Nat.add]. rewrite zsum_lengths, Z.eqb_refl. reflexivity.
Qed.

(* ---- the whole view of a result of the requested shape ---- *)
Lemma shape_lengths {A} (l : list (N * N)) (vs : list (list A)) :
  Forall (fun i => fst i <= snd i)%N l -> Forall2 (fun i v => length v = size_of i) l vs ->
  shape_of l = map zlen vs.
Proof.
  intros H1 H. induction H as [|i v l vs Hv H IH]; [reflexivity|]. inversion H1; subst.
  unfold shape_of in *. cbn [map]. rewrite IH by assumption. f_equal. unfold zlen. rewrite Hv. unfold size_of. lia.
Qed.

Theorem python_views (l : list (N * N)) (vals : list (list F)) (present : list (list bool)) (masks : list (list N)) :
  l <> [] -> Forall (fun i => fst i <= snd i)%N l ->
  Forall2 (fun i v => length v = size_of i) l vals ->
  Forall2 (fun i p => length p = size_of i) l present ->
  Forall2 is_mask present masks ->
  (N.of_nat (total vals) < two64)%N ->
  py_values zero (vals, masks) (shape_of l) = Ok vals /\
  py_masks (vals, masks) (shape_of l) = Ok masks /\
  py_bool_masks (vals, masks) (shape_of l) = Ok present.
Proof.
  intros Hne Hr Hv Hp Hm Ht.
  assert (Hvne : vals <> []) by (inversion Hv; subst; congruence).
  assert (Hpne : present <> []) by (inversion Hp; subst; congruence).
  assert (Htm : (N.of_nat (total masks) < two64)%N).
  { assert (Q : total masks <= total vals); [|lia].
    assert (Q1 : total present = total vals).
    { pose proof (shape_lengths l vals Hr Hv) as S1. pose proof (shape_lengths l present Hr Hp) as S2.
      apply Nat2Z.inj. rewrite <- !zsum_lengths, <- S1, <- S2. reflexivity. }
    rewrite <- Q1. clear -Hm. unfold total. induction Hm as [|p w present masks [H _] Hr IH]; [reflexivity|].
    cbn [concat]. rewrite !app_length, H.
    assert ((length p + 63) / 64 <= length p); [|lia].
    destruct (length p) as [|q]; [cbn; lia|]. apply Nat.div_le_upper_bound; lia. }
  rewrite (shape_lengths l vals Hr Hv) at 1. rewrite (shape_lengths l present Hr Hp).
  split; [apply py_values_ok; assumption|]. split; [apply py_masks_ok|apply py_bool_masks_ok]; assumption.
Qed.

(* what the extraction of a field looks like in Python *)
Theorem python_views_of_field (A : farith F) aec file offset inf field present (l : list (N * N)) :
  field_of_message A aec file offset inf field present -> i_spherical inf = 0%Z ->
  good_request (lenN field) l ->
  (lenN field < two64)%N ->
  exists res, extract A aec file offset inf l = Ok res /\
    py_values zero res (shape_of l) = Ok (map (cut field) l) /\
    py_bool_masks res (shape_of l) = Ok (map (cut present) l).
Proof.
  intros Hf Hs Hg Hl.
  assert (Hlp : length field = length present).
  { destruct Hf; [rewrite !repeat_length; reflexivity|rewrite repeat_length; reflexivity|].
    unfold masked_field. rewrite map_length, seq_length. reflexivity. }
  eexists. split; [apply (extract_field A aec file offset inf field present l Hf Hs Hg)|].
  destruct Hg as [Hne [Hin Hso]].
  assert (Hcut : forall (X : Type) (f : list X), length f = length field ->
             Forall2 (fun i v => length v = size_of i) l (map (cut f) l)).
  { intros X f Ef. clear Hso Hne. induction l as [|i l IH]; [constructor|]. inversion Hin; subst.
    cbn [map]. constructor; [|apply IH; assumption]. unfold cut, slice, size_of. rewrite firstn_length, skipn_length.
    unfold lenN in *. lia. }
  assert (Ht : total (map (cut field) l) <= length field).
  { unfold total. clear -Hin Hso.
    assert (Q : forall lo, Forall (fun i => (lo <= fst i)%N) l -> (lo <= lenN field)%N ->
              length (concat (map (cut field) l)) <= length field - N.to_nat lo).
    { induction Hso as [|i l Hso IH Hall]; intros lo Hlo Hle; cbn [map concat length]; [lia|].
      inversion Hin as [|? ? Hi Hin']; subst. inversion Hlo; subst. rewrite app_length.
      specialize (IH Hin' (snd i) Hall ltac:(lia)).
      unfold cut at 1, slice. rewrite firstn_length, skipn_length. unfold lenN in *. lia. }
    specialize (Q 0%N). cbn in Q. rewrite Nat.sub_0_r in Q. apply Q; [|lia].
    apply Forall_forall. intros. lia. }
  destruct (python_views l (map (cut field) l) (map (cut present) l) (map to_bitset (map (cut present) l)))
    as [H1 [_ H2]].
  - exact Hne.
  - eapply Forall_impl; [|exact Hin]. cbn. lia.
  - apply Hcut. reflexivity.
  - apply Hcut. congruence.
  - clear. rewrite map_map. induction l as [|i l IH]; [constructor|]. cbn [map]. constructor; [|exact IH].
    apply to_bitset_mask.
  - unfold lenN in Hl. lia.
  - split; [exact H1|exact H2].
Qed.
End Views.

(* ---- iteration ---- *)
Section Iteration.
Context {F : Type}.
Variable rs : list (result F).
Hypothesis fits : (lenN rs < two64)%N.

Lemma py_iterate_after (shapes : list (list Z)) f : forall k,
  length rs <= length shapes -> length rs <= k + f -> 
  (k <= length rs) ->
  py_iterate (S f) (skipn k shapes) (Some (after rs k)) = Ok (combine (skipn k rs) (skipn k shapes)).
Proof.
  induction f as [|f IH]; intros k Hs Hf Hk.
  - cbn [py_iterate c_next]. rewrite next_after by exact fits. cbn [obind].
    assert (E : nth_error rs k = None) by (apply nth_error_None; lia). rewrite E. cbn [obind].
    rewrite (skipn_all2 rs) by lia. reflexivity.
  - remember (S f) as g. cbn [py_iterate c_next]. rewrite next_after by exact fits. cbn [obind].
    destruct (nth_error rs k) as [r|] eqn:E; cbn [obind].
    + assert (Hlt : k < length rs) by (apply nth_error_Some; congruence).
      assert (Hr : skipn k rs = r :: skipn (S k) rs).
      { rewrite <- skipn_tl. rewrite <- skipn_hd in E. destruct (skipn k rs); cbn in *; [discriminate|]. congruence. }
      destruct (skipn k shapes) as [|s sh] eqn:Es.
      * assert (length (skipn k shapes) = 0) by (rewrite Es; reflexivity). rewrite skipn_length in *. lia.
      * assert (Hs2 : sh = skipn (S k) shapes) by (rewrite <- skipn_tl, Es; reflexivity).
        rewrite Hs2. subst g. rewrite IH by lia. cbn [obind]. rewrite Hr. reflexivity.
    + apply nth_error_None in E. rewrite (skipn_all2 rs) by lia. reflexivity.
Qed.

Theorem python_iteration (shapes : list (list Z)) : length shapes = length rs ->
  py_iterate (S (length rs)) shapes (Some (source_new (map Some rs))) = Ok (combine rs shapes).
Proof.
  intros H. rewrite <- after_0. apply (py_iterate_after shapes (length rs) 0); lia.
Qed.
End Iteration.
