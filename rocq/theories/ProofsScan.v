From Coq Require Import Lia Sorted.
From Verif Require Import Base BaseLemmas ModelScan SpecScan.
Local Open Scope nat_scope.

Lemma bytes_eqb_eq a b : bytes_eqb a b = true <-> a = b.
Proof.
  revert b; induction a; destruct b; simpl; split; intros H; try discriminate; auto.
  - apply andb_true_iff in H as [H1 H2]. apply N.eqb_eq in H1. apply IHa in H2. congruence.
  - injection H as -> ->. rewrite N.eqb_refl. simpl. now apply IHa.
Qed.

Definition occb (file : list N) (p : nat) : bool := bytes_eqb (slice file p 4) grib_word.

Lemma occb_occurs file p : occb file p = true <-> occurs file p.
Proof. apply bytes_eqb_eq. Qed.

Lemma occurs_inside file p : occurs file p -> p + 4 <= length file.
Proof.
  unfold occurs, slice. intros H. apply (f_equal (@length N)) in H.
  rewrite firstn_length, skipn_length in H. cbn [length] in H. lia.
Qed.

(* hits at positions a .. a+n-1 *)
Definition hits (file : list N) (a n : nat) : list nat := filter (occb file) (seq a n).

Lemma hits_app file a n m : hits file a (n + m) = hits file a n ++ hits file (a + n) m.
Proof. unfold hits. rewrite seq_app, filter_app. reflexivity. Qed.

Lemma hits_none file a n : length file <= a + 3 -> hits file a n = [].
Proof.
  unfold hits. revert a; induction n; simpl; intros a H; auto.
  destruct (occb file a) eqn:E.
  - apply occb_occurs, occurs_inside in E. lia.
  - apply IHn. lia.
Qed.

Lemma buf_write_inv buf o d buf' : buf_write buf o d = Ok buf' ->
  o + length d <= length buf /\ length buf' = length buf /\ slice buf' o (length d) = d /\
  firstn o buf' = firstn o buf.
Proof.
  unfold buf_write. destruct (Nat.leb_spec (o + length d) (length buf)); [|discriminate].
  intros [= <-]. assert (Hf : length (firstn o buf) = o) by (rewrite firstn_length; lia).
  split; [auto|]. split.
  - rewrite !app_length, Hf, skipn_length. lia.
  - split.
    + unfold slice. rewrite skipn_app, Hf, skipn_all2 by lia. rewrite Nat.sub_diag. simpl.
      rewrite firstn_app, Nat.sub_diag, firstn_all. simpl. now rewrite app_nil_r.
    + rewrite firstn_app, Hf, Nat.sub_diag. simpl. rewrite app_nil_r. apply firstn_all2. lia.
Qed.

Lemma buf_write_ok buf o d : o + length d <= length buf -> exists buf', buf_write buf o d = Ok buf'.
Proof. intros. unfold buf_write. apply Nat.leb_le in H. rewrite H. eauto. Qed.

Lemma firstn_add_split {A} (l : list A) a b : firstn (a + b) l = firstn a l ++ slice l a b.
Proof.
  unfold slice. revert l; induction a; simpl; intros; auto.
  destruct l; simpl. { now destruct b. } now rewrite IHa.
Qed.

Section Search.
Variable file : list N.
Hypothesis file_small : (lenN file < two63)%N.

(* the buffer window: three carried bytes followed by [b] bytes of the file at [pos];
   when pos = 0 the carried bytes are zero *)
Definition window (buf : list N) (pos b : nat) : Prop :=
  firstn (3 + b) buf = firstn (3 + b) (skipn pos (repeat 0%N 3 ++ file)) /\
  3 + b <= length buf /\ pos + b <= length file.

(* shifted positions: i in the window is file position pos + i - 3 *)
Lemma window_match buf pos b i : window buf pos b -> i < b ->
  match_at buf i = Ok (bytes_eqb (slice (repeat 0%N 3 ++ file) (pos + i) 4) grib_word).
Proof.
  intros (Hw & Hl & Hf) Hi. unfold match_at, plen.
  destruct (Nat.leb_spec (i + 4) (length buf)); [|lia].
  do 2 f_equal. unfold slice.
  assert (E : forall l : list N, firstn 4 (skipn i l) = skipn i (firstn (i + 4) l))
    by (intros; apply firstn_skipn_comm).
  rewrite E. replace (firstn (i + 4) buf) with (firstn (i + 4) (firstn (3 + b) buf)).
  2:{ rewrite firstn_firstn. f_equal. lia. }
  rewrite Hw, firstn_firstn. replace (Nat.min (i + 4) (3 + b)) with (i + 4) by lia.
  rewrite <- E, skipn_skipn'. reflexivity.
Qed.

Lemma padded_slice p : slice (repeat 0%N 3 ++ file) (p + 3) 4 = slice file p 4.
Proof.
  unfold slice. rewrite skipn_app. rewrite skipn_all2; [|rewrite repeat_length; clear; lia].
  rewrite repeat_length. replace (p + 3 - 3) with p by (clear; lia). reflexivity.
Qed.

Lemma padded_zero p : p < 3 -> bytes_eqb (slice (repeat 0%N 3 ++ file) p 4) grib_word = false.
Proof.
  intros H. destruct p as [|[|[|p]]]; unfold slice; simpl; try reflexivity. exfalso. clear - H. lia.
Qed.

(* positions of hits, shifted by three *)
Definition phits (a n : nat) : list N :=
  map (fun p => N.of_nat (p - 3)) (filter (fun p => bytes_eqb (slice (repeat 0%N 3 ++ file) p 4) grib_word) (seq a n)).

Lemma phits_app a n m : phits a (n + m) = phits a n ++ phits (a + n) m.
Proof. unfold phits. rewrite seq_app, filter_app, map_app. reflexivity. Qed.

Lemma phits_S a n : phits a (S n) =
  (if bytes_eqb (slice (repeat 0%N 3 ++ file) a 4) grib_word then [N.of_nat (a - 3)] else []) ++ phits (S a) n.
Proof. unfold phits. cbn [seq filter]. destruct (bytes_eqb _ _); reflexivity. Qed.

Lemma search_ok buf pos b i n : window buf pos b -> i + n <= b ->
  search buf (N.of_nat pos) i n = Ok (phits (pos + i) n).
Proof.
  intros Hw. revert i; induction n; intros i Hi; cbn [search]; auto.
  rewrite (window_match buf pos b i Hw) by lia. cbn [obind].
  rewrite IHn by lia. cbn [obind]. rewrite phits_S.
  replace (pos + S i) with (S (pos + i)) by lia.
  destruct (bytes_eqb _ _) eqn:E; auto. cbn [app]. do 2 f_equal.
  assert (3 <= pos + i). { destruct (Nat.le_gt_cases 3 (pos + i)); auto. rewrite padded_zero in E by lia. discriminate. }
  destruct Hw as (_ & _ & Hf). unfold lenN, two63 in file_small.
  unfold overlap. rewrite add64_small, sub64_small; unfold two64; clear - file_small Hf Hi H; lia.
Qed.

Lemma chunks_ok B fuel buf carry rest pos :
  3 <= B -> length buf = B + 3 -> rest = skipn pos file -> pos <= length file ->
  carry = firstn 3 (skipn pos (repeat 0%N 3 ++ file)) -> length rest < fuel ->
  chunks fuel B buf carry rest (N.of_nat pos) = Ok (phits pos (length file - pos)).
Proof.
  revert buf carry rest pos; induction fuel; intros buf carry rest pos HB Hbuf Hrest Hpos Hcarry Hfuel; [lia|].
  cbn [chunks].
  assert (Lc : length carry = 3).
  { rewrite Hcarry, firstn_length, skipn_length, app_length, repeat_length. lia. }
  destruct (buf_write_ok buf 0 carry) as [b1 E1]; [lia|]. rewrite E1. cbn [obind].
  apply buf_write_inv in E1 as (_ & L1 & S1 & _).
  assert (Lr : length rest = length file - pos) by (rewrite Hrest, skipn_length; auto).
  assert (Lp : length (firstn B rest) = Nat.min B (length file - pos)) by (rewrite firstn_length; lia).
  destruct (buf_write_ok b1 overlap (firstn B rest)) as [b2 E2]; [unfold overlap; lia|].
  rewrite E2. cbn [obind].
  apply buf_write_inv in E2 as (_ & L2 & S2 & P2).
  remember (length (firstn B rest)) as n eqn:En.
  destruct (Nat.eqb_spec n 0) as [Z|NZ].
  - replace (length file - pos) with 0 by lia. reflexivity.
  - assert (W : window b2 pos n).
    { repeat split; try lia.
      rewrite firstn_add_split. rewrite firstn_add_split.
      unfold overlap in P2, S2. rewrite P2. rewrite S2. f_equal.
      - unfold slice in S1. simpl in S1. rewrite Lc in S1. rewrite S1. exact Hcarry.
      - unfold slice. rewrite skipn_skipn', skipn_app, skipn_all2 by (rewrite repeat_length; lia).
        rewrite repeat_length. replace (pos + 3 - 3) with pos by lia. rewrite <- Hrest. simpl.
        rewrite En at 1. rewrite firstn_length.
        destruct (Nat.le_gt_cases B (length rest)).
        + rewrite Nat.min_l by lia. reflexivity.
        + rewrite Nat.min_r by lia. rewrite !firstn_all2 by lia. reflexivity. }
    replace (n + overlap - plen + 1) with n by (unfold overlap, plen; lia).
    rewrite (search_ok b2 pos n 0 n W) by lia. cbn [obind]. rewrite Nat.add_0_r.
    destruct (Nat.leb_spec overlap n) as [Hov|Hov].
    + destruct (Nat.leb_spec (n + overlap) (length b2)) as [Hin|Hin]; [|unfold overlap in *; lia].
      assert (Hadd : add64 (N.of_nat pos) (N.of_nat n) = N.of_nat (pos + n)).
      { unfold lenN, two63 in file_small. rewrite add64_small; unfold two64; lia. }
      rewrite Hadd.
      rewrite IHfuel; try lia.
      * cbn [obind]. rewrite <- phits_app. do 2 f_equal. lia.
      * rewrite Hrest, skipn_skipn'. destruct (Nat.le_gt_cases B (length file - pos)).
        -- f_equal. lia.
        -- rewrite !skipn_all2 by lia. reflexivity.
      * destruct W as (W & _). unfold slice, overlap in *.
        rewrite <- skipn_skipn'.
        rewrite (firstn_skipn_comm 3 n b2), (firstn_skipn_comm 3 n (skipn pos _)).
        rewrite (Nat.add_comm n 3), W. reflexivity.
      * rewrite skipn_length. lia.
    + (* fewer than three bytes: this was the end of the file *)
      unfold overlap in Hov. replace (length file - pos) with n by lia. reflexivity.
Qed.

Lemma phits_hits : phits 0 (length file) = map N.of_nat (hits file 0 (length file - 3)).
Proof.
  unfold phits, hits.
  destruct (Nat.le_gt_cases 3 (length file)) as [H|H].
  - replace (length file) with (3 + (length file - 3)) at 1 by lia.
    generalize (length file - 3) as m. intros m. rewrite seq_app, filter_app, map_app.
    replace (filter _ (seq 0 3)) with (@nil nat).
    2:{ symmetry. cbn [seq filter]. rewrite !padded_zero by lia. reflexivity. }
    cbn [map app].
    assert (E : forall m a, filter (fun p => bytes_eqb (slice (repeat 0%N 3 ++ file) p 4) grib_word) (seq (a + 3) m)
        = map (fun p => p + 3) (filter (occb file) (seq a m))).
    { clear. induction m; intros a; cbn [seq filter map]; auto.
      rewrite padded_slice. unfold occb at 1. change (S (a + 3)) with (S a + 3). rewrite (IHm (S a)).
      destruct (bytes_eqb _ _); reflexivity. }
    rewrite (E m 0), map_map. apply map_ext. intros. f_equal. lia.
  - replace (length file - 3) with 0 by lia. simpl.
    destruct (length file) as [|[|[|n]]]; try lia; cbn [seq filter]; rewrite ?padded_zero by lia; reflexivity.
Qed.

Lemma find_hits B : 3 <= B ->
  find_grib_offsets B file = Ok (map N.of_nat (removelast (hits file 0 (length file - 3)))).
Proof.
  intros HB. unfold find_grib_offsets.
  rewrite (chunks_ok B (S (length file)) _ _ file 0); auto; try lia.
  - rewrite Nat.sub_0_r, phits_hits. cbn [obind]. f_equal.
    induction (hits file 0 (length file - 3)) as [|a [|b l] IH]; auto.
    cbn [map removelast] in *. now rewrite IH.
  - rewrite repeat_length. reflexivity.
Qed.
End Search.

Lemma seq_sorted n : forall a, StronglySorted lt (seq a n).
Proof.
  induction n; intros a; simpl; constructor; auto. apply Forall_forall. intros x H. apply in_seq in H. lia.
Qed.

Lemma filter_sorted {A} (R : A -> A -> Prop) f l : StronglySorted R l -> StronglySorted R (filter f l).
Proof.
  induction 1; simpl; [constructor|]. destruct (f a); auto. constructor; auto.
  rewrite Forall_forall in *. intros x Hx. apply filter_In in Hx as [Hx _]. auto.
Qed.

Lemma removelast_sorted l : StronglySorted lt l ->
  StronglySorted lt (removelast l) /\ forall p, In p (removelast l) <-> In p l /\ exists q, p < q /\ In q l.
Proof.
  intros H. induction H as [|a l Hs IH Ha].
  - simpl. split; [constructor|]. firstorder.
  - destruct l as [|b l].
    + simpl. split; [constructor|]. intros p. split; [tauto|]. intros [[->|[]] (q & Hq & [->|[]])]. lia.
    + change (removelast (a :: b :: l)) with (a :: removelast (b :: l)). destruct IH as [IH1 IH2].
      rewrite Forall_forall in Ha. split.
      * constructor; auto. apply Forall_forall. intros x Hx. apply IH2 in Hx as [Hx _]. auto.
      * intros p. split.
        -- intros [->|Hp].
           ++ split; [now left|]. exists b. split; [apply Ha; now left|]. right; now left.
           ++ apply IH2 in Hp as (Hp & q & Hq & Hin). split; [now right|]. exists q. split; auto. now right.
        -- intros ([->|Hp] & q & Hq & Hin); [now left|]. right. apply IH2. split; auto. exists q. split; auto.
           destruct Hin as [<-|]; auto. apply Ha in Hp. lia.
Qed.

Lemma hits_lists file : lists_exactly (occurs file) (hits file 0 (length file - 3)).
Proof.
  split; [apply filter_sorted, seq_sorted|].
  intros p. unfold hits. rewrite filter_In, in_seq, occb_occurs. split; [tauto|].
  intros H. split; auto. apply occurs_inside in H. lia.
Qed.

Lemma find_all file B : 3 <= B -> (lenN file < two63)%N ->
  exists l, find_grib_offsets B file = Ok (map N.of_nat l) /\ lists_exactly (complete_start file) l.
Proof.
  intros HB Hs. exists (removelast (hits file 0 (length file - 3))).
  split; [now apply find_hits|].
  destruct (hits_lists file) as [H1 H2].
  destruct (removelast_sorted _ H1) as [R1 R2]. split; auto.
  intros p. rewrite R2. unfold complete_start. rewrite H2. split; intros [Hp (q & Hq & Ho)]; split; auto; exists q; split; auto; apply H2; auto.
Qed.
