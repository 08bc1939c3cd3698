From Verif Require Import Base BaseLemmas ModelSimple SpecSimple.

Local Open Scope N_scope.

(* ---- numbers of bit strings ---- *)
Definition nb_acc (a : N) (bits : list bool) : N :=
  fold_left (fun (acc : N) (b : bool) => 2 * acc + (if b then 1 else 0)) bits a.

Lemma nb_acc_eq bits : forall a, nb_acc a bits = a * 2 ^ lenN bits + number_of_bits bits.
Proof.
  induction bits as [|b r IH]; intros a.
  - change (lenN (@nil bool)) with 0. change (number_of_bits []) with 0. change (nb_acc a []) with a.
    change (2 ^ 0) with 1. lia.
  - change (nb_acc a (b :: r)) with (nb_acc (2 * a + (if b then 1 else 0)) r).
    change (number_of_bits (b :: r)) with (nb_acc (2 * 0 + (if b then 1 else 0)) r).
    rewrite !IH. replace (lenN (b :: r)) with (N.succ (lenN r)) by (unfold lenN; simpl length; lia).
    rewrite N.pow_succ_r'. lia.
Qed.

Lemma number_of_bits_app l1 l2 :
  number_of_bits (l1 ++ l2) = number_of_bits l1 * 2 ^ lenN l2 + number_of_bits l2.
Proof.
  unfold number_of_bits at 1. rewrite fold_left_app. apply (nb_acc_eq l2).
Qed.

Lemma number_of_bits_lt l : number_of_bits l < 2 ^ lenN l.
Proof.
  induction l as [|b r IH]; [reflexivity|].
  change (b :: r) with ([b] ++ r). rewrite number_of_bits_app.
  assert (number_of_bits [b] <= 1) by (destruct b; compute; discriminate).
  unfold lenN in *. simpl length. rewrite Nat2N.inj_succ, N.pow_succ_r'. nia.
Qed.

(* ---- bytes ---- *)
Definition be_num (bytes : list N) : N := fold_left (fun a b => a * 256 + b) bytes 0.

Lemma byte_bits_length b : length (byte_bits b) = 8%nat.
Proof. reflexivity. Qed.

Lemma all_bytes (P : N -> bool) :
  forallb P (map N.of_nat (seq 0 256)) = true -> forall b, b < 256 -> P b = true.
Proof.
  intros H b Hb. rewrite forallb_forall in H. apply H.
  apply in_map_iff. exists (N.to_nat b). split; [lia|]. apply in_seq. lia.
Qed.

Lemma byte_bits_num b : b < 256 -> number_of_bits (byte_bits b) = b.
Proof.
  intros H. apply N.eqb_eq.
  apply (all_bytes (fun b => number_of_bits (byte_bits b) =? b)); auto.
Qed.

Lemma bits_of_app a b : bits_of (a ++ b) = bits_of a ++ bits_of b.
Proof. unfold bits_of. apply flat_map_app. Qed.

Lemma bits_of_length buf : length (bits_of buf) = (8 * length buf)%nat.
Proof.
  unfold bits_of. induction buf; simpl; auto. rewrite IHbuf. lia.
Qed.

Lemma bits_of_num buf : is_bytes buf -> number_of_bits (bits_of buf) = be_num buf.
Proof.
  induction buf as [|x l IH] using rev_ind; intros H; auto.
  unfold is_bytes in H. apply Forall_app in H. destruct H as [H1 H2]. inversion H2; subst.
  rewrite bits_of_app, number_of_bits_app.
  rewrite IH by auto.
  replace (bits_of [x]) with (byte_bits x) by (unfold bits_of; cbn [flat_map]; now rewrite app_nil_r).
  rewrite byte_bits_num by auto.
  change (lenN (byte_bits x)) with 8. change (2 ^ 8) with 256.
  unfold be_num. rewrite fold_left_app. reflexivity.
Qed.

Lemma skipn_bits buf : forall k, skipn (8 * k) (bits_of buf) = bits_of (skipn k buf).
Proof.
  induction buf; intros k.
  - simpl. now rewrite !skipn_nil.
  - destruct k; [reflexivity|]. simpl skipn at 2. rewrite <- IHbuf.
    replace (8 * S k)%nat with (8 + 8 * k)%nat by lia.
    rewrite <- skipn_skipn'. f_equal.
Qed.

Lemma firstn_bits buf : forall k, firstn (8 * k) (bits_of buf) = bits_of (firstn k buf).
Proof.
  induction buf; intros k.
  - simpl. now rewrite !firstn_nil.
  - destruct k; [reflexivity|]. simpl firstn at 2.
    replace (8 * S k)%nat with (8 + 8 * k)%nat by lia.
    change (bits_of (a :: buf)) with (byte_bits a ++ bits_of buf).
    rewrite firstn_app. rewrite byte_bits_length.
    replace (8 + 8 * k - 8)%nat with (8 * k)%nat by lia.
    rewrite firstn_all2 by (rewrite byte_bits_length; lia).
    rewrite IHbuf. reflexivity.
Qed.

Lemma slice_bits buf a n : slice (bits_of buf) (8 * a) (8 * n) = bits_of (slice buf a n).
Proof. unfold slice. rewrite skipn_bits. apply firstn_bits. Qed.

Lemma is_bytes_slice buf a n : is_bytes buf -> is_bytes (slice buf a n).
Proof.
  unfold is_bytes, slice. intros H. apply Forall_forall. intros x Hx.
  rewrite Forall_forall in H. apply H.
  assert (In x (skipn a buf)).
  { rewrite <- (firstn_skipn n (skipn a buf)). apply in_or_app. auto. }
  rewrite <- (firstn_skipn a buf). apply in_or_app. auto.
Qed.

(* ---- at_ ---- *)
Lemma at_ok {A} (l : list A) i x : nth_error l (N.to_nat i) = Some x -> at_ l i = Ok x.
Proof. unfold at_. intros ->. reflexivity. Qed.

Lemma slice_S_snoc {A} (l : list A) o n x :
  nth_error l (o + n) = Some x -> slice l o (S n) = slice l o n ++ [x].
Proof.
  intros H. assert (o + n < length l)%nat by (apply nth_error_Some; congruence).
  apply nth_error_ext'.
  - rewrite app_length, !slice_length by lia. simpl. lia.
  - rewrite slice_length by lia. intros i Hi.
    destruct (Nat.eq_dec i n).
    + subst. rewrite nth_error_slice by lia.
      rewrite nth_error_app2; rewrite slice_length by lia; try lia.
      rewrite Nat.sub_diag. auto.
    + rewrite nth_error_slice by lia.
      rewrite nth_error_app1 by (rewrite slice_length by lia; lia).
      now rewrite nth_error_slice by lia.
Qed.

Lemma be_num_snoc l x : be_num (l ++ [x]) = be_num l * 256 + x.
Proof. unfold be_num. now rewrite fold_left_app. Qed.

Lemma w64_mul_add a x : w64 (w64 (w64 a * 256) + x) = w64 (a * 256 + x).
Proof.
  unfold w64, two64.
  rewrite N.add_mod_idemp_l by lia.
  rewrite <- (N.add_mod_idemp_l (a * 256)) by lia.
  rewrite <- (N.mul_mod_idemp_l a 256) by lia.
  rewrite N.add_mod_idemp_l by lia. reflexivity.
Qed.

(* ---- the inner loop ---- *)
(* cp: current bit position, T: bit position of the end of the sample *)
Lemma read_bits_spec p T : forall fuel cp lv b0,
  is_bytes p -> (T <= 8 * length p)%nat ->
  (T - cp < fuel)%nat -> (b0 <= cp / 8)%nat ->
  lv = w64 (be_num (slice p b0 (cp / 8 - b0))) ->
  exists cp', (T <= cp')%nat /\ (cp < T -> cp' < T + 8 /\ Nat.modulo cp' 8 = 0)%nat /\ (T <= cp -> cp' = cp)%nat /\
    (cp' / 8 <= length p \/ T <= cp)%nat /\ (cp <= cp')%nat /\
    read_bits p fuel (N.of_nat (cp / 8)) lv (Z.of_nat T - Z.of_nat cp) (N.of_nat (8 - cp mod 8)) =
    Ok (N.of_nat (cp' / 8), w64 (be_num (slice p b0 (cp' / 8 - b0))), (Z.of_nat T - Z.of_nat cp')%Z).
Proof.
  induction fuel as [|f IH]; intros cp lv b0 Hp HT Hf Hb Hlv; [lia|].
  cbn [read_bits]. destruct (0 <? Z.of_nat T - Z.of_nat cp)%Z eqn:E.
  - assert (Hlt : (cp < T)%nat) by lia.
    destruct (nth_error p (cp / 8)) as [x|] eqn:Ex.
    2:{ apply nth_error_None in Ex. lia. }
    rewrite (at_ok p (N.of_nat (cp / 8)) x) by (now rewrite Nat2N.id). cbn [obind].
    set (cp1 := (8 * (cp / 8 + 1))%nat).
    assert (Hcp1 : (cp1 / 8 = cp / 8 + 1)%nat) by (unfold cp1; lia).
    assert (Hm1 : (cp1 mod 8 = 0)%nat) by (unfold cp1; lia).
    destruct (IH cp1 (add64 (w64 (N.shiftl lv 8)) x) b0) as (cp' & A & B & C & D & D2 & Eq); auto; try lia.
    { rewrite Hcp1. replace (cp / 8 + 1 - b0)%nat with (S (cp / 8 - b0)) by lia.
      rewrite (slice_S_snoc _ _ _ x) by (replace (b0 + (cp / 8 - b0))%nat with (cp / 8)%nat by lia; auto).
      rewrite be_num_snoc. subst lv. unfold add64. rewrite N.shiftl_mul_pow2. change (2 ^ 8) with 256.
      apply w64_mul_add. }
    exists cp'. split; [auto|]. split; [|split; [lia|split; [|split]]].
    + intros _. destruct (Nat.lt_ge_cases cp1 T) as [H1|H1].
      * apply B. auto.
      * rewrite C by auto. unfold cp1 in *. split; lia.
    + left. destruct D as [D|D]; auto. rewrite C by auto. rewrite Hcp1.
      assert (cp / 8 < length p)%nat by (apply nth_error_Some; congruence). lia.
    + unfold cp1 in D2. lia.
    + rewrite <- Eq. f_equal; try lia.
  - exists cp. split; [lia|]. split; [lia|]. split; [auto|]. split; [right; lia|]. split; [lia|].
    subst. reflexivity.
Qed.

Lemma land_bitmask x b : b < 64 -> N.land x (bitmask b) = x mod 2 ^ b.
Proof.
  intros. unfold bitmask. destruct (b =? 64) eqn:E; [lia|].
  rewrite N.shiftl_1_l, N.sub_1_r, <- N.ones_equiv. apply N.land_ones.
Qed.

(* extraction of the middle of three bit fields from a 64-bit accumulator *)
Lemma mid_field pre mid post b r X :
  X = (pre * 2 ^ b + mid) * 2 ^ r + post -> mid < 2 ^ b -> post < 2 ^ r -> r <= 64 ->
  (N.shiftr (w64 X) r) mod 2 ^ b = mid mod 2 ^ (N.min b (64 - r)).
Proof.
  intros HX Hm Hp Hr.
  rewrite N.shiftr_div_pow2.
  assert (H0 : forall k, 2 ^ k <> 0) by (intro; apply N.pow_nonzero; lia).
  assert (HXr : X / 2 ^ r = pre * 2 ^ b + mid).
  { subst X. rewrite N.div_add_l by auto. rewrite N.div_small by auto. lia. }
  assert (Hw : w64 X / 2 ^ r = (X / 2 ^ r) mod 2 ^ (64 - r)).
  { unfold w64. replace two64 with (2 ^ (64 - r) * 2 ^ r).
    2:{ rewrite <- N.pow_add_r. replace (64 - r + r) with 64 by lia. reflexivity. }
    rewrite (N.mul_comm (2 ^ (64 - r))).
    rewrite N.mod_mul_r by auto.
    rewrite N.mul_comm, N.div_add by auto.
    rewrite (N.div_small (X mod 2 ^ r)) by (apply N.mod_lt; auto). lia. }
  rewrite Hw, HXr.
  clear HX HXr Hw.
  destruct (N.le_ge_cases b (64 - r)) as [Hc|Hc].
  - rewrite (N.min_l _ _ Hc).
    replace (64 - r) with (b + (64 - r - b)) by (clear -Hc; lia). rewrite N.pow_add_r.
    rewrite N.mod_mul_r by auto.
    rewrite (N.mul_comm (2 ^ b) (_ mod _)), N.mod_add by auto. rewrite N.mod_mod by auto.
    rewrite N.add_comm, N.mod_add by auto. auto.
  - rewrite (N.min_r _ _ Hc).
    rewrite (N.mod_small ((pre * 2 ^ b + mid) mod 2 ^ (64 - r))).
    2:{ eapply N.lt_le_trans; [apply N.mod_lt; auto|]. apply N.pow_le_mono_r; [discriminate|exact Hc]. }
    replace b with (b - (64 - r) + (64 - r)) by (clear -Hc; lia).
    rewrite N.pow_add_r, N.mul_assoc, N.add_comm, N.mod_add by auto. reflexivity.
Qed.

(* number of padding bits after a sample that ends at bit T *)
Definition tail_bits (T : nat) : N := N.of_nat ((8 - T mod 8) mod 8).

(* what the loop extracts for one sample *)
Lemma decode_one p pos b : is_bytes p -> (1 <= b < 64)%nat -> (pos + b <= 8 * length p)%nat ->
  exists pi' acc cp',
   read_bits p (S b) (N.of_nat (pos / 8)) 0 (Z.of_nat b) (N.of_nat (8 - pos mod 8)) =
     Ok (pi', acc, (Z.of_nat (pos + b) - Z.of_nat cp')%Z) /\
   (cp' mod 8 = 0)%nat /\ (pos + b <= cp' < pos + b + 8)%nat /\ pi' = N.of_nat (cp' / 8) /\
   N.land (N.shiftr acc (N.of_nat (cp' - (pos + b)))) (bitmask (N.of_nat b)) =
     number_of_bits (slice (bits_of p) pos b) mod 2 ^ (N.min (N.of_nat b) (64 - tail_bits (pos + b))).
Proof.
  intros Hp Hb HT.
  destruct (read_bits_spec p (pos + b) (S b) pos 0 (pos / 8)) as (cp' & A & B & C & D & D2 & Eq); auto; try lia.
  { rewrite Nat.sub_diag. reflexivity. }
  replace (Z.of_nat (pos + b) - Z.of_nat pos)%Z with (Z.of_nat b) in Eq by lia.
  assert (Hlt : (pos < pos + b)%nat) by lia.
  specialize (B Hlt). destruct B as [B1 B2].
  destruct D as [D|D]; [|lia].
  eexists _, _, cp'. split; [exact Eq|]. split; [auto|]. split; [lia|]. split; [auto|].
  rewrite land_bitmask by lia.
  set (r := (cp' - (pos + b))%nat).
  assert (Htail : tail_bits (pos + b) = N.of_nat r).
  { unfold tail_bits, r. f_equal. clear -A B1 B2. lia. }
  rewrite Htail.
  set (q := (pos mod 8)%nat).
  assert (Hcut : bits_of (slice p (pos / 8) (cp' / 8 - pos / 8)) =
    slice (bits_of p) (8 * (pos / 8)) q ++ slice (bits_of p) pos b ++ slice (bits_of p) (pos + b) r).
  { rewrite <- slice_bits.
    set (bs := bits_of p).
    assert (Hl : length bs = (8 * length p)%nat) by apply bits_of_length.
    assert (H8 : (8 * (cp' / 8) = cp')%nat) by lia.
    assert (Hq : (8 * (pos / 8) + q = pos)%nat) by (unfold q; lia).
    replace (8 * (cp' / 8 - pos / 8))%nat with (q + (b + r))%nat by (unfold r; lia).
    unfold slice.
    assert (Hsplit : forall (l : list bool) i j, firstn (i + j) l = firstn i l ++ firstn j (skipn i l)).
    { induction l; intros i j; [now rewrite skipn_nil, !firstn_nil|]. destruct i; simpl; auto. now rewrite IHl. }
    rewrite Hsplit. f_equal. rewrite skipn_skipn', Hq, Hsplit. f_equal.
    now rewrite skipn_skipn'. }
  eapply mid_field.
  - rewrite <- bits_of_num by (apply is_bytes_slice; auto).
    rewrite Hcut, !number_of_bits_app.
    assert (L1 : lenN (slice (bits_of p) pos b) = N.of_nat b).
    { unfold lenN. rewrite slice_length; auto. rewrite bits_of_length. lia. }
    assert (L2 : lenN (slice (bits_of p) (pos + b) r) = N.of_nat r).
    { unfold lenN. rewrite slice_length; auto. rewrite bits_of_length. unfold r. lia. }
    assert (L3 : lenN (slice (bits_of p) pos b ++ slice (bits_of p) (pos + b) r) = N.of_nat b + N.of_nat r).
    { unfold lenN in *. rewrite app_length. lia. }
    rewrite L3, L2, N.pow_add_r.
    instantiate (1 := number_of_bits (slice (bits_of p) (pos + b) r)).
    instantiate (1 := number_of_bits (slice (bits_of p) (8 * (pos / 8)) q)).
    lia.
  - eapply N.lt_le_trans; [apply number_of_bits_lt|]. apply N.pow_le_mono_r; [lia|].
    unfold lenN, slice. rewrite firstn_length. lia.
  - eapply N.lt_le_trans; [apply number_of_bits_lt|]. apply N.pow_le_mono_r; [lia|].
    unfold lenN, slice. rewrite firstn_length. lia.
  - unfold r. lia.
Qed.

Section Arr.
  Context {V : Type}.
  Variable scale : N -> V.

  (* the i-th sample as the code computes it: the true sample with the bits that fall off the
     64-bit accumulator removed *)
  Definition lossy_sample (bits : list bool) (skip b k : nat) : N :=
    sample_at bits skip b k mod 2 ^ (N.min (N.of_nat b) (64 - tail_bits (skip + k * b + b))).

  Lemma decode_bitwise_spec p b : is_bytes p -> (1 <= b < 64)%nat ->
    forall n pos, (pos + n * b <= 8 * length p)%nat ->
    decode_bitwise scale p n (N.of_nat b) (N.of_nat (pos / 8)) (N.of_nat (8 - pos mod 8)) =
    Ok (map (fun i => scale (lossy_sample (bits_of p) pos b i)) (seq 0 n)).
  Proof.
    intros Hp Hb. induction n as [|n IH]; intros pos Hpos; [reflexivity|].
    cbn [decode_bitwise]. rewrite Nat2N.id.
    destruct (decode_one p pos b Hp Hb) as (pi' & acc & cp' & E & M & Hcp & -> & Hv); [lia|].
    replace (Z.of_N (N.of_nat b)) with (Z.of_nat b) by lia.
    rewrite E. cbn [obind].
    replace (Z.to_N (- (Z.of_nat (pos + b) - Z.of_nat cp'))) with (N.of_nat (cp' - (pos + b))) by (clear -Hcp; lia).
    assert (Hnext : (if 0 <? N.of_nat (cp' - (pos + b))
        then decode_bitwise scale p n (N.of_nat b) (N.of_nat (cp' / 8) - 1) (N.of_nat (cp' - (pos + b)))
        else decode_bitwise scale p n (N.of_nat b) (N.of_nat (cp' / 8)) 8) =
        decode_bitwise scale p n (N.of_nat b) (N.of_nat ((pos + b) / 8)) (N.of_nat (8 - (pos + b) mod 8))).
    { clear -M Hcp. destruct (0 <? N.of_nat (cp' - (pos + b))) eqn:Ez; f_equal; lia. }
    rewrite Hnext, IH by lia. cbn [obind].
    rewrite Hv. cbn [seq map]. f_equal. f_equal.
    - unfold lossy_sample, sample_at. f_equal. f_equal.
      + f_equal. f_equal. lia.
      + f_equal. f_equal. f_equal. f_equal. lia.
    - rewrite <- seq_shift, map_map. apply map_ext. intros i.
      unfold lossy_sample, sample_at. f_equal. f_equal.
      + f_equal. f_equal. lia.
      + f_equal. f_equal. f_equal. f_equal. lia.
  Qed.

  Lemma lossy_exact bits skip b k : (b <= 57)%nat -> (0 < b)%nat ->
    lossy_sample bits skip b k = sample_at bits skip b k.
  Proof.
    intros. unfold lossy_sample. apply N.mod_small.
    assert (tail_bits (skip + k * b + b) <= 7) by (unfold tail_bits; lia).
    replace (N.min (N.of_nat b) (64 - tail_bits (skip + k * b + b))) with (N.of_nat b) by lia.
    eapply N.lt_le_trans; [apply number_of_bits_lt|]. apply N.pow_le_mono_r; [lia|].
    unfold lenN, slice. rewrite firstn_length. lia.
  Qed.

  (* whole-byte widths *)
  Lemma or_bytes_spec p cnt : is_bytes p -> forall o lv b0,
    (b0 <= o)%nat -> (o + cnt <= length p)%nat -> (o + cnt - b0 <= 8)%nat ->
    lv = be_num (slice p b0 (o - b0)) ->
    or_bytes p cnt (N.of_nat o) lv = Ok (N.of_nat (o + cnt), be_num (slice p b0 (o + cnt - b0))).
  Proof.
    intros Hp. induction cnt as [|c IH]; intros o lv b0 Ho Hl H8 ->; simpl.
    - rewrite Nat.add_0_r. reflexivity.
    - destruct (nth_error p o) as [x|] eqn:Ex. 2:{ apply nth_error_None in Ex. lia. }
      rewrite (at_ok p (N.of_nat o) x) by (now rewrite Nat2N.id). cbn [obind].
      assert (Hx : x < 256).
      { unfold is_bytes in Hp. rewrite Forall_forall in Hp. apply Hp. eapply nth_error_In; eauto. }
      replace (N.of_nat o + 1) with (N.of_nat (o + 1)) by lia.
      rewrite (IH (o + 1)%nat _ b0); try lia.
      + f_equal. f_equal; [lia|]. f_equal. f_equal. lia.
      + replace (o + 1 - b0)%nat with (S (o - b0)) by lia.
        rewrite (slice_S_snoc _ _ _ x) by (replace (b0 + (o - b0))%nat with o by lia; auto).
        rewrite be_num_snoc.
        assert (Hsmall : be_num (slice p b0 (o - b0)) < 2 ^ 56).
        { rewrite <- bits_of_num by (apply is_bytes_slice; auto).
          eapply N.lt_le_trans; [apply number_of_bits_lt|]. apply N.pow_le_mono_r; [lia|].
          unfold lenN. rewrite bits_of_length. unfold slice. rewrite firstn_length. lia. }
        rewrite N.shiftl_mul_pow2. change (2 ^ 8) with 256 in *.
        rewrite w64_small by (unfold two64; change (2 ^ 56) with 72057594037927936 in Hsmall; lia).
        set (v := be_num (slice p b0 (o - b0))) in *. clearbody v. clear -Hx.
        assert (Hand : N.land (v * 256) x = 0).
        { apply N.bits_inj_0. intros k. rewrite N.land_spec. change 256 with (2 ^ 8).
          destruct (N.lt_ge_cases k 8).
          - rewrite N.mul_pow2_bits_low by auto. reflexivity.
          - replace (N.testbit x k) with false; [apply andb_false_r|].
            destruct (N.eq_dec x 0); [subst; now rewrite N.bits_0|].
            symmetry. apply N.bits_above_log2.
            assert (N.log2 x < 8) by (apply N.log2_lt_pow2; [lia|exact Hx]). lia. }
        rewrite <- (N.lxor_lor _ _ Hand), <- (N.add_nocarry_lxor _ _ Hand). reflexivity.
  Qed.

  Lemma decode_bytewise_spec p l : is_bytes p -> (1 <= l <= 8)%nat ->
    forall n o, (o + n * l <= length p)%nat ->
    decode_bytewise scale p n (N.of_nat l) (N.of_nat o) =
    Ok (map (fun i => scale (sample_at (bits_of p) (8 * o) (8 * l) i)) (seq 0 n)).
  Proof.
    intros Hp Hl. induction n as [|n IH]; intros o Ho; [reflexivity|].
    cbn [decode_bytewise].
    destruct (nth_error p o) as [x|] eqn:Ex. 2:{ apply nth_error_None in Ex. lia. }
    rewrite (at_ok p (N.of_nat o) x) by (now rewrite Nat2N.id). cbn [obind].
    replace (N.of_nat o + 1) with (N.of_nat (o + 1)) by lia.
    rewrite (or_bytes_spec p _ Hp (o + 1)%nat _ o); try lia.
    2:{ replace (o + 1 - o)%nat with 1%nat by lia. rewrite (slice_S_snoc _ _ _ x) by (rewrite Nat.add_0_r; auto).
        unfold slice. simpl firstn. simpl app. unfold be_num. simpl. reflexivity. }
    cbn [obind].
    replace (o + 1 + (N.to_nat (N.of_nat l) - 1))%nat with (o + l)%nat by lia.
    rewrite IH by lia. cbn [obind seq map]. f_equal. f_equal.
    - f_equal. unfold sample_at. replace (8 * o + 0 * (8 * l))%nat with (8 * o)%nat by lia.
      rewrite slice_bits, bits_of_num by (apply is_bytes_slice; auto). f_equal. f_equal. lia.
    - rewrite <- seq_shift, map_map. apply map_ext. intros i. f_equal.
      unfold sample_at. f_equal. f_equal. lia.
  Qed.

  Lemma number_of_slice_lt bits o b : number_of_bits (slice bits o b) < 2 ^ N.of_nat b.
  Proof.
    eapply N.lt_le_trans; [apply number_of_bits_lt|]. apply N.pow_le_mono_r; [lia|].
    unfold lenN, slice. rewrite firstn_length. lia.
  Qed.

  (* a sample whose last byte ends within the 64-bit accumulator is read exactly *)
  Lemma lossy_fits bits skip b k : (N.of_nat b + tail_bits (skip + k * b + b) <= 64) ->
    lossy_sample bits skip b k = sample_at bits skip b k.
  Proof.
    intros. unfold lossy_sample. apply N.mod_small.
    replace (N.min (N.of_nat b) (64 - tail_bits (skip + k * b + b))) with (N.of_nat b) by lia.
    apply number_of_slice_lt.
  Qed.

  Lemma lossy_whole_bytes bits skip b k : (b <= 64)%nat -> (b mod 8 = 0)%nat -> (skip mod 8 = 0)%nat ->
    lossy_sample bits skip b k = sample_at bits skip b k.
  Proof.
    intros Hb Hm Hs. apply lossy_fits.
    replace (tail_bits (skip + k * b + b)) with 0; [lia|].
    unfold tail_bits.
    assert (exists c, b = 8 * c)%nat as [c ->] by (exists (b / 8)%nat; clear -Hm; lia).
    assert (exists d, skip = 8 * d)%nat as [d ->] by (exists (skip / 8)%nat; lia).
    replace (8 * d + k * (8 * c) + 8 * c)%nat with ((d + k * c + c) * 8)%nat by lia.
    rewrite Nat.mod_mul by lia. reflexivity.
  Qed.

  Lemma decode_array_lossy p b n skip : is_bytes p -> (1 <= b <= 64)%nat ->
    (b mod 8 = 0 -> skip = 0)%nat ->
    (skip + n * b <= 8 * length p)%nat ->
    decode_array scale p (N.of_nat b) (N.of_nat n) (N.of_nat skip) =
    Ok (map (fun i => scale (lossy_sample (bits_of p) skip b i)) (seq 0 n)).
  Proof.
    intros Hp Hb Hs Hl. unfold decode_array.
    destruct (N.of_nat b mod 8 =? 0) eqn:E.
    - assert (Hm : (b mod 8 = 0)%nat) by lia. rewrite (Hs Hm) in *.
      replace (N.of_nat b / 8) with (N.of_nat (b / 8)) by lia.
      rewrite Nat2N.id. change 0 with (N.of_nat 0).
      rewrite (decode_bytewise_spec p (b / 8)); auto; try nia.
      f_equal. apply map_ext. intros i. f_equal.
      rewrite lossy_whole_bytes by (auto; lia). f_equal; lia.
    - rewrite Nat2N.id.
      replace (N.of_nat skip / 8) with (N.of_nat (skip / 8)) by lia.
      replace (8 - N.land (N.of_nat skip) 7) with (N.of_nat (8 - skip mod 8)).
      + apply decode_bitwise_spec; auto; lia.
      + change 7 with (N.ones 3). rewrite N.land_ones. change (2 ^ 3) with 8. lia.
  Qed.

  Lemma decode_array_exact p b n skip : is_bytes p ->
    ((1 <= b <= 57) \/ (b mod 8 = 0 /\ 1 <= b <= 64))%nat ->
    (b mod 8 = 0 -> skip = 0)%nat ->
    (skip + n * b <= 8 * length p)%nat ->
    decode_array scale p (N.of_nat b) (N.of_nat n) (N.of_nat skip) =
    Ok (map scale (samples (bits_of p) skip b n)).
  Proof.
    intros Hp Hb Hs Hl. rewrite decode_array_lossy; auto; try lia.
    f_equal. unfold samples. rewrite map_map. apply map_ext. intros i. f_equal.
    destruct Hb as [Hb|[Hm Hb]].
    - apply lossy_exact; lia.
    - apply lossy_whole_bytes; auto; try lia; rewrite (Hs Hm); reflexivity.
  Qed.
End Arr.

(* ---- the accessor ---- *)
Lemma s64_small x : x < two63 -> s64 x = Z.of_N x.
Proof.
  intros H. unfold s64, w64, two64 in *. unfold two63 in *.
  rewrite N.mod_small by lia. destruct (x <? 9223372036854775808) eqn:E; lia.
Qed.

(* a data section of a file: both fit in signed 64-bit offsets *)
Definition section_of (file : list N) (section : N * N) : Prop :=
  fst section + snd section <= lenN file /\ lenN file < two63.

Lemma gj_read_spec file section o s :
  section_of file section -> o < 2305843009213693952 -> s < two64 ->
  gj_read file section (o, s) =
    if s <? 1152921504606846976 then
      if o + s <=? snd section
      then Ok (slice (slice file (N.to_nat (fst section)) (N.to_nat (snd section))) (N.to_nat o) (N.to_nat s))
      else Throw EOutOfRange
    else Throw EBadAlloc.
Proof.
  intros [H1 H2] Ho Hs. unfold gj_read, alloc. cbn [fst snd]. rewrite N.mul_1_r.
  destruct (s <? 1152921504606846976) eqn:E; [|reflexivity]. cbn [obind].
  unfold two63, lenN in *.
  rewrite !s64_small by (unfold two63; lia).
  destruct (o + s <=? snd section) eqn:E2.
  - destruct (Z.gtb_spec (Z.of_N o + Z.of_N s) (Z.of_N (snd section))); [lia|].
    destruct (Z.ltb_spec (Z.of_N (fst section) + Z.of_N o) 0); [lia|].
    destruct (Z.leb_spec (Z.of_N (fst section) + Z.of_N o + Z.of_N s) (Z.of_nat (length file))); [|lia].
    f_equal. rewrite slice_slice by lia. f_equal; lia.
  - destruct (Z.gtb_spec (Z.of_N o + Z.of_N s) (Z.of_N (snd section))); [reflexivity|lia].
Qed.

(* a bit window of whole bytes of a larger buffer *)
Lemma lossy_shift data o s skip b i :
  (o + s <= length data)%nat -> (skip + i * b + b <= 8 * s)%nat ->
  lossy_sample (bits_of (slice data o s)) skip b i = lossy_sample (bits_of data) (8 * o + skip) b i.
Proof.
  intros Ho Hs. unfold lossy_sample, sample_at. f_equal.
  - rewrite <- slice_bits. f_equal. rewrite slice_slice by lia. f_equal. lia.
  - f_equal. f_equal. f_equal. unfold tail_bits. f_equal.
    replace (8 * o + skip + i * b + b)%nat with (skip + i * b + b + o * 8)%nat by lia.
    now rewrite Nat.mod_add by lia.
Qed.

Section SimpleDecode.
  Context {V : Type}.
  Variable scale : N -> V.
  Variable reference : V.

  (* the complete behaviour of a single-range simple-packing decode: the byte-range arithmetic
     wraps, the result is a throw or a window of the data section's bit string *)
  Lemma simple_decode_total file section b o n :
    is_bytes file -> section_of file section -> (1 <= b <= 64)%nat -> o < two64 -> n < two64 ->
    let data := slice file (N.to_nat (fst section)) (N.to_nat (snd section)) in
    let start := (o * N.of_nat b) mod two64 in
    let r := simple_decode scale reference (N.of_nat b) (gj_accessor file section) (o, n) in
    if (n * 8 <? 1152921504606846976) && (start + n * N.of_nat b + 7 <? two64)
       && (start + n * N.of_nat b <=? 8 * snd section)
    then r = Ok (map (fun i => scale (lossy_sample (bits_of data) (N.to_nat start) b i)) (seq 0 (N.to_nat n)))
    else exists e, r = Throw e.
  Proof.
    intros Hf Hsec Hb Ho Hn data start r.
    assert (Hdl : length data = N.to_nat (snd section)).
    { destruct Hsec as [H1 H2]. unfold data. apply slice_length. unfold lenN in *. lia. }
    assert (Hdb : is_bytes data) by (apply is_bytes_slice; auto).
    assert (Hss : snd section < two63) by (destruct Hsec; unfold lenN in *; lia).
    assert (Hst : start < two64) by (unfold start, two64; lia).
    subst r. unfold simple_decode, gj_accessor. cbn [acc_read].
    change (mul64 o (N.of_nat b)) with start.
    set (e0 := mul64 (add64 o n) (N.of_nat b)).
    assert (He0 : e0 = (start + n * N.of_nat b) mod two64).
    { unfold e0, mul64, add64, w64, start.
      rewrite N.mul_mod_idemp_l by (unfold two64; lia).
      rewrite N.add_mod_idemp_l by (unfold two64; lia). f_equal. lia. }
    set (eb := add64 e0 7 / 8).
    set (sz := sub64 eb (start / 8)).
    assert (Hsz : sz < two64) by (unfold sz, sub64, w64, two64; lia).
    rewrite gj_read_spec; [|assumption|unfold two64 in Hst; lia|assumption].
    fold data.
    assert (Hmul : (b mod 8 = 0)%nat -> start mod 8 = 0).
    { intros Hm. assert (exists c, b = 8 * c)%nat as [c ->] by (exists (b / 8)%nat; clear -Hm; lia).
      unfold start, two64. replace (N.of_nat (8 * c)) with (8 * N.of_nat c) by lia.
      clear. set (x := o * (8 * N.of_nat c)). assert (x mod 8 = 0).
      { unfold x. replace (o * (8 * N.of_nat c)) with (o * N.of_nat c * 8) by lia. now apply N.mod_mul. }
      lia. }
    clearbody start. clear Ho.
    destruct (n * 8 <? 1152921504606846976) eqn:E1; cbn [andb].
    2:{ (* the result vector cannot be allocated *)
      destruct (sz <? 1152921504606846976); [ |solve [cbn; eauto]].
      destruct (start / 8 + sz <=? snd section); [ |solve [cbn; eauto]].
      cbn [obind]. unfold unpack. destruct (64 <? N.of_nat b) eqn:E2; [eauto|].
      destruct (n =? 0) eqn:E3; [lia|]. unfold alloc. rewrite E1. cbn [obind]. eauto. }
    assert (Hnb : n * N.of_nat b <= 9223372036854775744).
    { transitivity (n * 64); [apply N.mul_le_mono_l; clear -Hb; lia|clear -E1; lia]. }
    set (nb := n * N.of_nat b) in *.
    assert (Hnb' : nb = N.of_nat (N.to_nat n * b)) by (unfold nb; lia).
    clearbody nb.
    destruct (start + nb + 7 <? two64) eqn:E2; cbn [andb].
    2:{ assert (Hhuge : (sz <? 1152921504606846976) = false).
        { unfold sz, eb, sub64, add64, w64. rewrite He0. unfold two64 in *.
          apply N.ltb_ge. clear -Hst Hnb E2. lia. }
        rewrite Hhuge. cbn [obind]. eauto. }
    assert (Hebv : eb = (start + nb + 7) / 8).
    { unfold eb, add64, w64. rewrite He0. unfold two64 in *. clear -E2 Hst Hnb. lia. }
    assert (Hszv : sz = (start + nb + 7) / 8 - start / 8).
    { unfold sz, sub64, w64. rewrite Hebv. unfold two64 in *. clear -E2 Hst Hnb. lia. }
    clearbody sz eb.
    assert (Hfit : (sz <? 1152921504606846976) = true) by (clear -Hszv Hnb; lia).
    rewrite Hfit.
    destruct (start + nb <=? 8 * snd section) eqn:E3; cbn [andb].
    2:{ assert (Hout : (start / 8 + sz <=? snd section) = false) by (clear -Hszv E3; lia).
        rewrite Hout. cbn [obind]. eauto. }
    assert (Hin : (start / 8 + sz <=? snd section) = true) by (clear -Hszv E3; lia).
    rewrite Hin. cbn [obind]. unfold unpack.
    destruct (64 <? N.of_nat b) eqn:E4; [lia|].
    destruct (n =? 0) eqn:E5.
    { assert (n = 0) by lia. subst n. reflexivity. }
    unfold alloc. rewrite E1. cbn [obind].
    destruct (N.of_nat b =? 0) eqn:E6; [lia|].
    replace n with (N.of_nat (N.to_nat n)) at 1 by lia.
    replace (start mod 8) with (N.of_nat (N.to_nat start mod 8)) by (clear; lia).
    assert (Hlen : length (slice data (N.to_nat (start / 8)) (N.to_nat sz)) = N.to_nat sz).
    { apply slice_length. rewrite Hdl. clear -Hin. lia. }
    rewrite decode_array_lossy.
    - f_equal. apply map_ext_in. intros i Hi. apply in_seq in Hi. f_equal.
      rewrite lossy_shift.
      + f_equal. clear. lia.
      + rewrite Hdl. clear -Hin. lia.
      + assert (Hib : (i * b + b <= N.to_nat n * b)%nat) by (clear -Hi; nia).
        clear -Hib Hnb' Hszv. lia.
    - apply is_bytes_slice. auto.
    - lia.
    - intros Hm. specialize (Hmul Hm). lia.
    - rewrite Hlen. clear -Hnb' Hszv. lia.
  Qed.

  (* with zero bits per value the reference value is returned for every point *)
  Lemma simple_decode_zero_width file section o n :
    section_of file section -> o < two64 -> n * 8 < 1152921504606846976 ->
    simple_decode scale reference 0 (gj_accessor file section) (o, n) = Ok (repeat reference (N.to_nat n)).
  Proof.
    intros Hsec Ho Hn. unfold simple_decode, gj_accessor. cbn [acc_read].
    unfold mul64, add64, sub64. rewrite !N.mul_0_r. change (w64 0) with 0. change (0 / 8) with 0.
    change (w64 (0 + 7) / 8) with 0. change (w64 (w64 0 + (two64 - w64 0))) with 0.
    rewrite gj_read_spec by (auto; unfold two64; lia). cbn -[N.to_nat N.mul N.add unpack].
    destruct (0 + 0 <=? snd section) eqn:E; [|lia]. cbn [obind]. unfold unpack.
    cbn [N.ltb N.compare]. destruct (n =? 0) eqn:E0.
    { assert (n = 0) by lia. subst. reflexivity. }
    unfold alloc. destruct (n * 8 <? 1152921504606846976) eqn:E1; [|lia]. reflexivity.
  Qed.
End SimpleDecode.

(* ---- statements used by the property files ---- *)
Lemma lossy_abs bits k b i : lossy_sample bits (k * b) b i = lossy_sample bits 0 b (k + i).
Proof.
  unfold lossy_sample, sample_at.
  replace (k * b + i * b)%nat with (0 + (k + i) * b)%nat by lia. reflexivity.
Qed.

Lemma unpack_lossy {V} (scale : N -> V) reference p b k n :
  is_bytes p -> (1 <= b <= 64)%nat -> ((k + n) * b <= 8 * length p)%nat -> N.of_nat n * 8 < 1152921504606846976 ->
  unpack scale (skipn (k * b / 8) p) reference (N.of_nat b) (N.of_nat n) (N.of_nat ((k * b) mod 8)) =
  Ok (map (fun i => scale (lossy_sample (bits_of p) 0 b (k + i))) (seq 0 n)).
Proof.
  intros Hp Hb Hl Hn. unfold unpack, alloc.
  destruct (64 <? N.of_nat b) eqn:E1; [lia|].
  destruct (N.of_nat n =? 0) eqn:E2.
  { assert (n = 0)%nat by lia. subst. reflexivity. }
  destruct (N.of_nat n * 8 <? 1152921504606846976) eqn:E3; [|lia]. cbn [obind].
  destruct (N.of_nat b =? 0) eqn:E4; [lia|].
  set (kb := (k * b)%nat) in *.
  assert (Hkn : (kb + n * b <= 8 * length p)%nat) by (unfold kb; lia).
  assert (Hsk : skipn (kb / 8) p = slice p (kb / 8) (length p - kb / 8)).
  { unfold slice. rewrite firstn_all2; auto. rewrite skipn_length. lia. }
  assert (Hdiv : (8 * (kb / 8) + kb mod 8 = kb)%nat) by (clear; lia).
  rewrite Hsk. rewrite decode_array_lossy.
  - f_equal. apply map_ext_in. intros i Hi. apply in_seq in Hi. f_equal.
    assert (i * b + b <= n * b)%nat by (clear -Hi; nia).
    rewrite lossy_shift by lia.
    rewrite Hdiv. unfold kb. apply lossy_abs.
  - apply is_bytes_slice. auto.
  - auto.
  - intros Hm. assert (exists c, b = 8 * c)%nat as [c ->] by (exists (b / 8)%nat; clear -Hm; lia).
    unfold kb. replace (k * (8 * c))%nat with (k * c * 8)%nat by lia. apply Nat.mod_mul. lia.
  - rewrite slice_length by lia. lia.
Qed.

Definition exact_width (b : nat) : Prop := ((1 <= b <= 58) \/ b = 60 \/ b = 64)%nat.

Lemma exact_width_lossless bits b k : exact_width b ->
  lossy_sample bits 0 b k = number_of_bits (slice bits (k * b) b).
Proof.
  intros Hb. rewrite lossy_fits; [reflexivity|].
  replace (0 + k * b + b)%nat with ((k + 1) * b)%nat by lia.
  destruct Hb as [Hb|[Hb|Hb]]; [|subst b|subst b].
  - destruct (Nat.eq_dec b 58) as [->|Hne].
    + unfold tail_bits. lia.
    + assert (tail_bits ((k + 1) * b) <= 7) by (unfold tail_bits; set (x := ((k + 1) * b)%nat); clearbody x; clear; lia).
      lia.
  - unfold tail_bits. lia.
  - unfold tail_bits. lia.
Qed.

Lemma slice_map {A B} (f : A -> B) l o n : slice (map f l) o n = map f (slice l o n).
Proof. unfold slice. now rewrite skipn_map, firstn_map. Qed.

Lemma slice_seq o n N : (o + n <= N)%nat -> slice (seq 0 N) o n = seq o n.
Proof.
  intros H. apply nth_error_ext'.
  - rewrite slice_length, seq_length; auto. rewrite seq_length. lia.
  - intros i Hi. rewrite slice_length in Hi by (rewrite seq_length; lia).
    rewrite nth_error_slice by lia.
    rewrite !nth_error_nth' with (d := 0%nat) by (rewrite seq_length; lia).
    rewrite !seq_nth by lia. f_equal.
Qed.

Lemma map_seq_shift {A} (f : nat -> A) k m : map (fun i => f (k + i)%nat) (seq 0 m) = map f (seq k m).
Proof.
  replace (seq k m) with (seq (k + 0) m) by (now rewrite Nat.add_0_r). generalize 0%nat as s.
  induction m as [|m IH]; intros s; simpl; auto. f_equal. rewrite IH. f_equal. f_equal. lia.
Qed.

Lemma simple_decode_in_bounds {V} (scale : N -> V) reference file section b N_ o n :
  is_bytes file -> section_of file section -> (1 <= b <= 64)%nat ->
  N.of_nat N_ * 8 < 1152921504606846976 -> N.of_nat (N_ * b) <= 8 * snd section ->
  o + n <= N.of_nat N_ ->
  simple_decode scale reference (N.of_nat b) (gj_accessor file section) (o, n) =
  Ok (map (fun i => scale (lossy_sample (bits_of (slice file (N.to_nat (fst section)) (N.to_nat (snd section)))) 0 b i))
          (seq (N.to_nat o) (N.to_nat n))).
Proof.
  intros Hf Hsec Hb HN HNb Hon.
  pose proof (simple_decode_total scale reference file section b o n Hf Hsec Hb) as T.
  cbv zeta in T.
  assert (Hob : (o + n) * N.of_nat b <= N.of_nat (N_ * b)) by (rewrite Nat2N.inj_mul; apply N.mul_le_mono_r; auto).
  assert (HNb2 : N.of_nat (N_ * b) <= N.of_nat N_ * 64) by (rewrite Nat2N.inj_mul; apply N.mul_le_mono_l; lia).
  rewrite N.mul_add_distr_r in Hob.
  set (nb := n * N.of_nat b) in *.
  assert (Hw : (o * N.of_nat b) mod two64 = o * N.of_nat b) by (apply N.mod_small; unfold two64; lia).
  rewrite Hw in T.
  destruct (n * 8 <? 1152921504606846976) eqn:E1; [|lia].
  destruct (o * N.of_nat b + nb + 7 <? two64) eqn:E2; [|unfold two64 in E2; lia].
  destruct (o * N.of_nat b + nb <=? 8 * snd section) eqn:E3; [|lia].
  cbn [andb] in T. rewrite T by (unfold two64; lia). f_equal.
  replace (N.to_nat (o * N.of_nat b)) with (N.to_nat o * b)%nat by lia.
  etransitivity; [|apply map_seq_shift]. apply map_ext. intros i. now rewrite lossy_abs.
Qed.

Lemma simple_random_access {V} (scale : N -> V) reference file section b N_ o n :
  is_bytes file -> section_of file section -> (b <= 64)%nat ->
  N.of_nat N_ * 8 < 1152921504606846976 -> N.of_nat (N_ * b) <= 8 * snd section ->
  o + n <= N.of_nat N_ ->
  exists all, simple_decode scale reference (N.of_nat b) (gj_accessor file section) (0, N.of_nat N_) = Ok all /\
    length all = N_ /\
    simple_decode scale reference (N.of_nat b) (gj_accessor file section) (o, n) =
      Ok (slice all (N.to_nat o) (N.to_nat n)).
Proof.
  intros Hf Hsec Hb HN HNb Hon.
  destruct (Nat.eq_dec b 0) as [->|Hb0].
  - exists (repeat reference N_). split; [|split].
    + change (N.of_nat 0) with 0. rewrite simple_decode_zero_width; auto; try (unfold two64; lia).
      now rewrite Nat2N.id.
    + apply repeat_length.
    + change (N.of_nat 0) with 0. rewrite simple_decode_zero_width; auto; try (unfold two64; lia).
      f_equal. apply nth_error_ext'.
      * rewrite repeat_length, slice_length; auto. rewrite repeat_length. lia.
      * rewrite repeat_length. intros i Hi. rewrite nth_error_slice by lia.
        rewrite !nth_error_repeat by lia. reflexivity.
  - rewrite (simple_decode_in_bounds scale reference file section b N_ 0 (N.of_nat N_)); auto; try lia.
    rewrite (simple_decode_in_bounds scale reference file section b N_ o n); auto; try lia.
    eexists. split; [reflexivity|]. split.
    + rewrite map_length, seq_length. lia.
    + rewrite slice_map. rewrite Nat2N.id. change (N.to_nat 0) with 0%nat. now rewrite slice_seq by lia.
Qed.

Lemma wide_samples_wrong : forall b, In b [59; 61; 62; 63]%nat ->
  exists p n, is_bytes p /\ (n * b <= 8 * length p)%nat /\
    exists got, unpack (fun x => x) p 0%N (N.of_nat b) (N.of_nat n) 0%N = Ok got /\
      got <> map (fun i => number_of_bits (slice (bits_of p) (i * b) b)) (seq 0 n).
Proof.
  intros b Hb. exists (repeat 255 64), 8%nat.
  split; [repeat constructor|].
  repeat (destruct Hb as [<-|Hb]; [split; [vm_compute; repeat constructor|];
    eexists; split; [vm_compute; reflexivity|vm_compute; discriminate]|]).
  destruct Hb.
Qed.

Lemma unpack_exact {V} (scale : N -> V) reference p b k n :
  is_bytes p -> exact_width b -> ((k + n) * b <= 8 * length p)%nat -> N.of_nat n * 8 < 1152921504606846976 ->
  unpack scale (skipn (k * b / 8) p) reference (N.of_nat b) (N.of_nat n) (N.of_nat ((k * b) mod 8)) =
  Ok (map (fun i => scale (number_of_bits (slice (bits_of p) ((k + i) * b) b))) (seq 0 n)).
Proof.
  intros Hp Hb Hl Hn. rewrite unpack_lossy; auto.
  - f_equal. apply map_ext. intros i. f_equal. now apply exact_width_lossless.
  - unfold exact_width in Hb. lia.
Qed.
