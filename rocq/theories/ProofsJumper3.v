From Verif Require Import Base BaseLemmas ModelRange ModelSimple ModelCcsds ModelInfo ModelJumper
     SpecRange SpecSimple SpecCcsds SpecJumper ProofsRange ProofsSimple ProofsCcsds ProofsJumper ProofsJumper2.
Open Scope nat_scope.

(* ---- C07: reads stay in the section ---- *)
Lemma gj_read_inside file section o s d :
  section_of file section -> (o < two63)%N -> (s < two64)%N ->
  gj_read file section (o, s) = Ok d ->
  (o + s <= snd section)%N /\
  d = slice (slice file (N.to_nat (fst section)) (N.to_nat (snd section))) (N.to_nat o) (N.to_nat s).
Proof.
  intros [H1 H2] Ho Hs. unfold gj_read, alloc. cbn [fst snd]. rewrite N.mul_1_r.
  destruct (s <? 1152921504606846976)%N eqn:E; [|discriminate]. cbn [obind].
  unfold lenN, two63 in *.
  rewrite !s64_small by (unfold two63; lia).
  destruct (Z.of_N o + Z.of_N s >? Z.of_N (snd section))%Z eqn:E2; [discriminate|].
  destruct (Z.of_N (fst section) + Z.of_N o <? 0)%Z eqn:E3; [lia|].
  destruct (_ <=? _)%Z eqn:E4; [|discriminate].
  intros H. injection H as <-. split; [lia|].
  rewrite slice_slice by lia. f_equal; lia.
Qed.

(* two accessors that agree on every request with a byte offset below 2^61 *)
Definition agree (a1 a2 : accessor) : Prop :=
  acc_eof a1 = acc_eof a2 /\
  forall o s, (o < 2305843009213693952)%N -> (s < two64)%N -> acc_read a1 (o, s) = acc_read a2 (o, s).

Lemma gj_agree f1 s1 f2 s2 : section_of f1 s1 -> section_of f2 s2 -> snd s1 = snd s2 ->
  slice f1 (N.to_nat (fst s1)) (N.to_nat (snd s1)) = slice f2 (N.to_nat (fst s2)) (N.to_nat (snd s2)) ->
  agree (gj_accessor f1 s1) (gj_accessor f2 s2).
Proof.
  intros H1 H2 Hs Hd. split; auto. intros o s Ho Hsz. unfold gj_accessor. cbn [acc_read].
  rewrite !gj_read_spec by auto. rewrite Hd, Hs. reflexivity.
Qed.

Lemma simple_agree {V} (scale : N -> V) ref bpv a1 a2 r : agree a1 a2 ->
  simple_decode scale ref bpv a1 r = simple_decode scale ref bpv a2 r.
Proof.
  intros [_ H]. unfold simple_decode. destruct r as [o n]. rewrite H; auto.
  - unfold mul64. pose proof (w64_lt (o * bpv)) as Hw. unfold two64 in *. set (x := w64 (o * bpv)) in *. clearbody x. lia.
  - apply sub64_lt.
Qed.

Lemma ccsds_agree {V} aec (scale : N -> V) flags bits bs rsi offs a1 a2 r : agree a1 a2 ->
  Forall (fun o => o < two64)%N offs ->
  ccsds_decode aec scale flags bits bs rsi offs a1 r = ccsds_decode aec scale flags bits bs rsi offs a2 r.
Proof.
  intros [He H] Ho. unfold ccsds_decode. destruct (snd r =? 0)%N; [reflexivity|]. destruct (_ || _)%bool; [|reflexivity].
  f_equal. unfold aec_decode. destruct (validate_bits _ _); [|reflexivity|reflexivity]; cbn [obind].
  destruct (assert_ _); [|reflexivity|reflexivity]; cbn [obind]. destruct r as [ro rs].
  destruct (alloc _ _); [|reflexivity|reflexivity]; cbn [obind].
  destruct (div_ _ _) as [si|e|]; [|reflexivity|reflexivity]; cbn [obind].
  destruct (div_ _ _) as [ei|e|]; [|reflexivity|reflexivity]; cbn [obind].
  destruct (assert_ _); [|reflexivity|reflexivity]; cbn [obind]. destruct (assert_ _); [|reflexivity|reflexivity]; cbn [obind].
  unfold at_ at 1 3. destruct (nth_error offs (N.to_nat si)) as [so|] eqn:Es; [|reflexivity]. cbn [obind].
  rewrite He.
  match goal with |- obind ?x _ = _ => destruct x as [eb|e|]; [|reflexivity|reflexivity] end; cbn [obind].
  destruct (assert_ _); [|reflexivity|reflexivity]; cbn [obind]. rewrite H; auto.
  - apply nth_error_In in Es. rewrite Forall_forall in Ho. apply Ho in Es. unfold two64 in Es. clear -Es. lia.
  - apply sub64_lt.
Qed.

Lemma decode_ranges_ext {V} (d1 d2 : N * N -> outcome (list V)) rs :
  (forall r, d1 r = d2 r) -> decode_ranges d1 rs = decode_ranges d2 rs.
Proof.
  intros H. unfold decode_ranges. destruct (bucket_all [] rs) as [bs|e|]; auto. cbn [obind].
  assert (Hb : forall bs m, decode_buckets d1 bs m = decode_buckets d2 bs m).
  { clear -H. induction bs as [|[br subs] r IH]; intros m; simpl; auto. rewrite H. destruct (d2 br); simpl; auto. }
  rewrite Hb. reflexivity.
Qed.

Definition info_offsets_fit {F} (inf : info F) : Prop :=
  match i_class inf with CcsdsInfo _ _ _ offs => Forall (fun o => o < two64)%N offs | _ => True end.

Theorem extract_local {F} (A : farith F) aec f1 o1 f2 o2 (inf : info F) l :
  info_offsets_fit inf ->
  data_in_file f1 o1 inf -> data_in_file f2 o2 inf -> data_bytes f1 o1 inf = data_bytes f2 o2 inf ->
  (i_offset_before_bitmap inf = 0%Z \/
   bitmap_in_file f1 o1 inf /\ bitmap_in_file f2 o2 inf /\ bitmap f1 o1 inf = bitmap f2 o2 inf) ->
  extract A aec f1 o1 inf l = extract A aec f2 o2 inf l.
Proof.
  intros Hfit H1 H2 Hd Hbm.
  destruct (section_ok f1 o1 inf H1) as (S1 & D1 & L1). destruct (section_ok f2 o2 inf H2) as (S2 & D2 & L2).
  assert (Ha : agree (gj_accessor f1 (data_section o1 inf)) (gj_accessor f2 (data_section o2 inf))).
  { apply gj_agree; auto; congruence. }
  assert (Hr : forall l, read_values A aec f1 o1 inf l = read_values A aec f2 o2 inf l).
  { intros l'. unfold read_values, simple_read_values, ccsds_read_values. unfold info_offsets_fit in Hfit.
    destruct (i_class inf) as [|fl bs rsi offs|]; [| |reflexivity].
    - rewrite (decode_ranges_ext _ _ (to_ranges l') (fun r => simple_agree _ _ _ _ _ r Ha)). reflexivity.
    - destruct (assert_ _); cbn [obind]; [|reflexivity|reflexivity].
      rewrite (decode_ranges_ext _ _ (to_ranges l') (fun r => ccsds_agree aec _ _ _ _ _ _ _ _ r Ha Hfit)). reflexivity. }
  unfold extract. apply obind_ext; intros _. apply obind_ext; intros ok.
  apply obind_ext; intros _. apply obind_ext; intros _. destruct (i_bits_per_value inf =? 0)%N eqn:E; [reflexivity|].
  destruct (i_offset_before_bitmap inf =? 0)%Z eqn:E2.
  - unfold extract_no_mask. now rewrite Hr.
  - destruct Hbm as [Hbm|(B1 & B2 & B3)]; [lia|].
    unfold extract_masked. rewrite !read_bitmap_ok by (auto; lia). rewrite B3. cbn [obind].
    apply obind_ext; intros new. now rewrite Hr.
Qed.

(* ---- C08, C09 in the form of the property files ---- *)
Section Message.
  Context {F : Type}.
  Variable A : farith F.
  Variable aec_samples : aec_oracle.
  Variable file : list N.
  Variable offset : Z.
  Variable inf : info F.
  Notation ext_ := (extract A aec_samples file offset inf).

  Lemma cut_true n i : (fst i <= snd i <= n)%N ->
    cut (repeat true (N.to_nat n)) i = repeat true (N.to_nat (snd i) - N.to_nat (fst i)).
  Proof. intros H. unfold cut. apply slice_repeat. lia. Qed.

  Theorem extract_plain vs l :
    i_bits_per_value inf <> 0%N -> i_offset_before_bitmap inf = 0%Z -> i_spherical inf = 0%Z ->
    packed_field A aec_samples file offset inf vs -> good_request (lenN vs) l ->
    exists masks, ext_ l = Ok (map (cut vs) l, masks) /\
      Forall2 (fun i m => is_mask (repeat true (N.to_nat (snd i) - N.to_nat (fst i))) m) l masks.
  Proof.
    intros H1 H2 H3 H4 H5. eexists. split.
    - eapply extract_field; eauto. eapply plain_field; eauto.
    - destruct H5 as (_ & H5 & _). rewrite map_map. apply Forall2_map_r. apply Forall2_same.
      eapply Forall_impl; [|apply H5]. intros i Hi. cbv beta in Hi. replace (length vs) with (N.to_nat (lenN vs)) by (unfold lenN; lia).
      rewrite cut_true by auto. apply to_bitset_mask.
  Qed.

  Theorem extract_bitmap vs l :
    i_bits_per_value inf <> 0%N -> i_offset_before_bitmap inf <> 0%Z -> i_spherical inf = 0%Z ->
    bitmap_in_file file offset inf -> packed_field A aec_samples file offset inf vs ->
    present_before (bitmap file offset inf) (length (bitmap file offset inf)) <= length vs ->
    good_request (i_number_of_points inf) l ->
    exists vals masks, ext_ l = Ok (vals, masks) /\
      Forall2 (fun i v => v = map (masked_point (f_nan A) (bitmap file offset inf) vs)
                                  (seq (N.to_nat (fst i)) (N.to_nat (snd i) - N.to_nat (fst i)))) l vals /\
      Forall2 (fun i m => is_mask (cut (bitmap file offset inf) i) m) l masks.
  Proof.
    intros H1 H2 H3 Hb Hp Hn Hg. set (bm := bitmap file offset inf) in *.
    pose proof (bitmap_length file offset inf Hb) as Hl.
    assert (Hlf : lenN (masked_field (f_nan A) bm vs) = i_number_of_points inf).
    { unfold lenN, masked_field. rewrite map_length, seq_length. unfold bm. lia. }
    eexists _, _. split; [|split].
    - eapply extract_field; eauto. { eapply bitmap_field; eauto. } fold bm. rewrite Hlf. auto.
    - apply Forall2_map_r. apply Forall2_same. destruct Hg as (_ & Hg & _). eapply Forall_impl; [|apply Hg].
      intros i Hi. cbv beta in Hi. unfold masked_field, cut. rewrite slice_map, slice_seq; auto. fold bm. fold bm in Hl. rewrite Hl. lia.
    - rewrite map_map. apply Forall2_map_r. apply Forall2_same. apply Forall_forall. intros i _. apply to_bitset_mask.
  Qed.

  (* ---- C15 ---- *)
  Lemma cut_split {V} (f : list V) a b c : (a <= b <= c)%N -> (c <= lenN f)%N -> cut f (a, c) = cut f (a, b) ++ cut f (b, c).
  Proof.
    intros H Hc. unfold cut. cbn [fst snd]. unfold lenN in Hc. apply nth_error_ext'.
    - rewrite app_length, !slice_length by lia. lia.
    - rewrite slice_length by lia. intros i Hi. rewrite nth_error_slice by lia.
      destruct (Nat.lt_ge_cases i (N.to_nat b - N.to_nat a)).
      + rewrite nth_error_app1 by (rewrite slice_length; lia). rewrite nth_error_slice by lia. reflexivity.
      + rewrite nth_error_app2 by (rewrite slice_length; lia). rewrite slice_length by lia.
        rewrite nth_error_slice by lia. f_equal. lia.
  Qed.

  Lemma split_request n l1 l2 a b c : (a <= b <= c)%N -> good_request n (l1 ++ (a, c) :: l2) ->
    good_request n (l1 ++ (a, b) :: (b, c) :: l2).
  Proof.
    intros H (G0 & G1 & G2). split; [destruct l1; discriminate|]. split.
    - apply Forall_app in G1. destruct G1 as [G1 G1']. inversion G1' as [|? ? G3 G4]; subst. cbn [fst snd] in G3.
      apply Forall_app. split; auto. constructor; [cbn; lia|]. constructor; [cbn; lia|auto].
    - apply StronglySorted_app_inv in G2. destruct G2 as (S1 & S2 & S3). inversion S2 as [|? ? S4 S5]; subst.
      apply StronglySorted_app; auto.
      + constructor; [constructor; auto|]. constructor; [cbn; lia|]. eapply Forall_impl; [|apply S5]. cbn. intros; lia.
      + intros x y Hx [Hy|[Hy|Hy]].
        * subst y. apply (S3 x (a, c) Hx). left; auto.
        * subst y. cbn. specialize (S3 x (a, c) Hx (or_introl eq_refl)). cbn in S3. lia.
        * apply S3; auto. right; auto.
  Qed.

  Theorem extract_split field present l1 l2 a b c :
    field_of_message A aec_samples file offset inf field present -> i_spherical inf = 0%Z ->
    (a <= b <= c)%N -> good_request (lenN field) (l1 ++ (a, c) :: l2) ->
    exists v1 v x y v2 m m', length v1 = length l1 /\ length v2 = length l2 /\
      ext_ (l1 ++ (a, c) :: l2) = Ok (v1 ++ v :: v2, m) /\
      ext_ (l1 ++ (a, b) :: (b, c) :: l2) = Ok (v1 ++ x :: y :: v2, m') /\ v = x ++ y.
  Proof.
    intros Hf Hs Habc Hg. pose proof (split_request _ _ _ _ _ _ Habc Hg) as Hg'.
    exists (map (cut field) l1), (cut field (a, c)), (cut field (a, b)), (cut field (b, c)), (map (cut field) l2).
    eexists _, _. rewrite !map_length. split; [auto|]. split; [auto|]. split; [|split].
    - rewrite (extract_field A aec_samples file offset inf field present) by auto. rewrite map_app. reflexivity.
    - rewrite (extract_field A aec_samples file offset inf field present) by auto. rewrite map_app. reflexivity.
    - apply cut_split; auto. destruct Hg as (_ & Hg & _). apply Forall_app in Hg. destruct Hg as [_ Hg]. inversion Hg; subst. cbn in *. lia.
  Qed.

  (* ---- constant fields: the bitmap and the number of points are ignored ---- *)
  Theorem constant_ignores n l :
    i_bits_per_value inf = 0%N -> i_spherical inf = 0%Z ->
    (i_packing inf = "grid_simple" \/ i_packing inf = "grid_ccsds")%string ->
    (n < 144115188075855872)%N -> good_request n l ->
    exists masks,
    ext_ l = Ok (map (fun i => repeat (i_reference inf) (N.to_nat (snd i) - N.to_nat (fst i))) l, masks) /\
      Forall2 (fun i m => is_mask (repeat true (N.to_nat (snd i) - N.to_nat (fst i))) m) l masks.
  Proof.
    intros Hb Hs Hp Hn Hg.
    rewrite extract_prefix; auto. 2:{ eapply good_weaken; [|apply Hg]. unfold two64; lia. }
    rewrite Hb. cbn [N.eqb]. unfold extract_constant. destruct Hg as (G0 & G1 & G2).
    rewrite mapM_ok_ext with (g := fun i => repeat (i_reference inf) (N.to_nat (snd i) - N.to_nat (fst i))).
    2:{ eapply Forall_impl; [|apply G1]. intros [b e] Hi. cbn [fst snd] in *.
        rewrite sub64_small by (unfold two64; lia). unfold alloc.
        destruct ((e - b) * 8 <? 1152921504606846976)%N eqn:E; [|lia]. cbn [obind]. f_equal. f_equal. lia. }
    cbn [obind]. rewrite true_masks with (n := n) by auto. cbn [obind].
    eexists. split; [reflexivity|]. rewrite map_map. apply Forall2_map_r. apply Forall2_same.
    eapply Forall_impl; [|apply G1]. intros i Hi. cbv beta in Hi. rewrite cut_true by auto. apply to_bitset_mask.
  Qed.
End Message.

(* ---- concrete messages used by the examples ---- *)
(* integer "floating point": enough to see which values are returned *)
Definition z_arith : farith Z := mk_farith Z Z.of_N (fun z => z) Z.add Z.mul Z.div (-999)%Z.

Definition ex_info (bpv : N) (before after bitmap_at : Z) (npoints : N) : info Z :=
  mk_info Z 4 100%Z 0 0 2 bpv before after bitmap_at npoints npoints 8 0 "md5" "grid_simple" SimpleInfo.

Definition no_aec (_ : aec_params) (_ : list N) (_ _ : N) : option (list N) := None.

(* bitmap byte 180 = 10110100 at position 1, data bytes 10 20 30 40 at positions 2..5 *)
Definition ex_file : list N := [7; 180; 10; 20; 30; 40; 9; 9]%N.

Lemma ex_packed : packed_field z_arith no_aec ex_file 0 (ex_info 8 2 6 1 6) [110; 120; 130; 140]%Z.
Proof.
  assert (H := packed_simple z_arith no_aec ex_file 0 (ex_info 8 2 6 1 6) 4).
  apply H; clear H; try reflexivity.
  - repeat constructor.
  - unfold data_in_file. repeat split; vm_compute; solve [discriminate | reflexivity].
  - cbv zeta. split; [left|]; vm_compute; lia.
Qed.

Lemma ex_bitmap_in_file : bitmap_in_file ex_file 0 (ex_info 8 2 6 1 6).
Proof. unfold bitmap_in_file. repeat split; vm_compute; solve [discriminate | reflexivity]. Qed.
