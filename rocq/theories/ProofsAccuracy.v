(* Accuracy of the decoded values in IEEE binary64. *)
From Coq Require Import QArith Qabs Qpower Lia Lqa ZArith List Bool Floats.SpecFloat.
From Verif Require Import Base SpecSimple ModelSimple ModelCcsds ModelFloat ModelInfo ModelJumper ModelBuild SpecCcsds SpecJumper SpecBuild SpecAccuracy ProofsRound ProofsRoundOps ProofsBuild ProofsBuild2 ProofsBuild3 BaseLemmas.
Local Open Scope Q_scope.

(* ---- powers of two: exact ---- *)
Definition two_lit (E : Z) : spec_float := S754_finite false 4503599627370496 (E - 52).
Definition sf_eqb (a b : spec_float) : bool :=
  match a, b with
  | S754_finite s m e, S754_finite s' m' e' => Bool.eqb s s' && Pos.eqb m m' && Z.eqb e e'
  | _, _ => false
  end.
Lemma sf_eqb_eq a b : sf_eqb a b = true -> a = b.
Proof.
  destruct a, b; cbn; try discriminate. rewrite !andb_true_iff. intros [[A B] C].
  apply Bool.eqb_prop in A. apply Pos.eqb_eq in B. apply Z.eqb_eq in C. congruence.
Qed.
Lemma twos_up : forallb (fun n => sf_eqb (f_mul b64_arith (two_lit (Z.of_nat n)) (b64_of_Z 2)) (two_lit (Z.of_nat n + 1))) (seq 0 1023) = true.
Proof. vm_compute. reflexivity. Qed.
Lemma twos_down : forallb (fun n => sf_eqb (f_div b64_arith (two_lit (- Z.of_nat n)) (b64_of_Z 2)) (two_lit (- Z.of_nat n - 1))) (seq 0 1022) = true.
Proof. vm_compute. reflexivity. Qed.
Lemma iter_up n : (n <= 1023)%nat -> Nat.iter n (fun d => f_mul b64_arith d (f_of_Z b64_arith 2)) (f_of_Z b64_arith 1) = two_lit (Z.of_nat n).
Proof.
  induction n as [|n IH]; intros H; [reflexivity|]. cbn [Nat.iter nat_rect]. unfold Nat.iter in IH. rewrite IH by lia.
  pose proof twos_up as T. rewrite forallb_forall in T. specialize (T n ltac:(apply in_seq; lia)). apply sf_eqb_eq in T.
  change (f_of_Z b64_arith 2) with (b64_of_Z 2). rewrite T. f_equal. lia.
Qed.
Lemma iter_down n : (n <= 1022)%nat -> Nat.iter n (fun d => f_div b64_arith d (f_of_Z b64_arith 2)) (f_of_Z b64_arith 1) = two_lit (- Z.of_nat n).
Proof.
  induction n as [|n IH]; intros H; [reflexivity|]. cbn [Nat.iter nat_rect]. unfold Nat.iter in IH. rewrite IH by lia.
  pose proof twos_down as T. rewrite forallb_forall in T. specialize (T n ltac:(apply in_seq; lia)). apply sf_eqb_eq in T.
  change (f_of_Z b64_arith 2) with (b64_of_Z 2). rewrite T. f_equal. lia.
Qed.
Lemma twos E : (-1022 <= E <= 1023)%Z -> codes_power b64_arith E 2 = two_lit E.
Proof.
  intros H. unfold codes_power. destruct (Z.eqb_spec E 0) as [->|N0]; [reflexivity|]. destruct (Z.eqb_spec E 1) as [->|N1]; [reflexivity|].
  destruct (Z.ltb_spec E 0).
  - rewrite iter_down by lia. f_equal. lia.
  - rewrite iter_up by lia. f_equal. lia.
Qed.
Lemma two_number E : number (two_lit E) == p2 E.
Proof.
  cbn [number two_lit sign]. change (inject_Z 4503599627370496) with (p2 52). rewrite Qmult_1_l, <- p2_plus.
  now replace (52 + (E - 52))%Z with E by lia.
Qed.
Lemma two_valid E : (-1022 <= E <= 1023)%Z -> valid (two_lit E).
Proof. intros H. apply valid_finite. change (Zpos (digits2_pos 4503599627370496)) with 53%Z. rewrite fe_def. lia. Qed.

(* ---- powers of ten: all of them computed ---- *)
Definition ten_ok (D : Z) (d : spec_float) : bool :=
  let T := (10 # 1) ^ (- D) in
  match d with
  | S754_finite false _ _ => valid_binary 53 1024 d && Qle_bool (Qabs (number d - T)) (inject_Z (tens_error D) * u * T)
  | _ => false
  end.
Fixpoint check_iter (step : spec_float -> spec_float) (ok : Z -> spec_float -> bool) (n : nat) (k : Z) (d : spec_float) : bool :=
  match n with O => true | S n' => ok k d && check_iter step ok n' (k + 1)%Z (step d) end.
Lemma iter_r {A} (f : A -> A) n x : Nat.iter (S n) f x = Nat.iter n f (f x).
Proof. induction n as [|n IH]; [reflexivity|]. cbn [Nat.iter nat_rect] in *. unfold Nat.iter in IH. now rewrite IH. Qed.
Lemma check_iter_ok step ok n : forall k d j, check_iter step ok n k d = true -> (j < n)%nat -> ok (k + Z.of_nat j)%Z (Nat.iter j step d) = true.
Proof.
  induction n as [|n IH]; intros k d j H L; [lia|]. cbn [check_iter] in H. apply andb_true_iff in H. destruct H as [H1 H2].
  destruct j as [|j]; [now rewrite Z.add_0_r|]. rewrite iter_r. replace (k + Z.of_nat (S j))%Z with (k + 1 + Z.of_nat j)%Z by lia. apply IH; [exact H2|lia].
Qed.
Lemma tens_up : check_iter (fun d => f_mul b64_arith d (f_of_Z b64_arith 10)) (fun k => ten_ok (- k)) 301 0 (f_of_Z b64_arith 1) = true.
Proof. vm_compute. reflexivity. Qed.
Lemma tens_down : check_iter (fun d => f_div b64_arith d (f_of_Z b64_arith 10)) ten_ok 301 0 (f_of_Z b64_arith 1) = true.
Proof. vm_compute. reflexivity. Qed.
Lemma tens_ok D : (-300 <= D <= 300)%Z -> ten_ok D (codes_power b64_arith (- D) 10) = true.
Proof.
  intros H. unfold codes_power. destruct (Z.eqb_spec (- D) 0) as [E|N0]; [replace D with 0%Z by lia; vm_compute; reflexivity|].
  destruct (Z.eqb_spec (- D) 1) as [E|N1]; [replace D with (-1)%Z by lia; vm_compute; reflexivity|].
  destruct (Z.ltb_spec (- D) 0).
  - pose proof (check_iter_ok _ _ _ _ _ (Z.to_nat D) tens_down ltac:(lia)) as T. cbn beta in T.
    replace (0 + Z.of_nat (Z.to_nat D))%Z with D in T by lia. replace (- - D)%Z with D by lia. exact T.
  - pose proof (check_iter_ok _ _ _ _ _ (Z.to_nat (- D)) tens_up ltac:(lia)) as T. cbn beta in T.
    replace (- (0 + Z.of_nat (Z.to_nat (- D))))%Z with D in T by lia. exact T.
Qed.
Lemma tens D : (-300 <= D <= 300)%Z -> exists m e, codes_power b64_arith (- D) 10 = S754_finite false m e /\ valid (S754_finite false m e) /\
  Qabs (number (S754_finite false m e) - (10 # 1) ^ (- D)) <= inject_Z (tens_error D) * u * (10 # 1) ^ (- D).
Proof.
  intros H. pose proof (tens_ok D H) as T. unfold ten_ok in T.
  destruct (codes_power b64_arith (- D) 10) as [|[]| |[] m e]; try discriminate T. apply andb_true_iff in T. destruct T as [T1 T2].
  exists m, e. split; [reflexivity|]. split; [exact T1|]. apply Qle_bool_iff, T2.
Qed.

(* ---- composing the errors ---- *)
(* v is within k units of C, relative to M >= |C|; k may be a fraction *)
Definition near (k : Q) (v C M : Q) : Prop := Qabs (v - C) <= k * u * M /\ Qabs C <= M.
Lemma near_abs k v C M : near k v C M -> Qabs v <= (1 + k * u) * M.
Proof.
  intros [A B]. setoid_replace v with ((v - C) + C) by ring. eapply Qle_trans; [apply Qabs_triangle|]. lra.
Qed.
Lemma near_round k v w C M : 0 <= k -> near k v C M -> Qabs (w - v) <= u * Qabs v -> near (k + 1 + k * u) w C M.
Proof.
  intros K H R. pose proof (near_abs _ _ _ _ H) as V. destruct H as [A B]. split; [|exact B].
  setoid_replace (w - C) with ((w - v) + (v - C)) by ring. eapply Qle_trans; [apply Qabs_triangle|].
  assert (u * Qabs v <= u * ((1 + k * u) * M)) as Q by (rewrite !(Qmult_comm u); apply Qmult_le_compat_r; [exact V|discriminate]).
  apply Qle_trans with (u * ((1 + k * u) * M) + k * u * M); [lra|]. apply Qle_lteq. right. ring.
Qed.
Lemma near_mul j k v w C T M : 0 <= j -> near j v C M -> 0 <= T -> Qabs (w - T) <= k * u * T ->
  near (j + k + j * k * u) (v * w) (C * T) (M * T).
Proof.
  intros J H T0 W. pose proof (near_abs _ _ _ _ H) as V. destruct H as [A B].
  split; [|rewrite Qabs_Qmult, (Qabs_pos T) by exact T0; apply Qmult_le_compat_r; assumption].
  setoid_replace (v * w - C * T) with (v * (w - T) + (v - C) * T) by ring. eapply Qle_trans; [apply Qabs_triangle|].
  rewrite !Qabs_Qmult, (Qabs_pos T) by exact T0.
  assert (0 <= M) as M0 by (eapply Qle_trans; [apply Qabs_nonneg|exact B]).
  assert (Qabs v * Qabs (w - T) <= (1 + j * u) * M * (k * u * T)) as P1.
  { apply Qle_trans with ((1 + j * u) * M * Qabs (w - T)); [apply Qmult_le_compat_r; [exact V|apply Qabs_nonneg]|].
    rewrite !(Qmult_comm ((1 + j * u) * M)). apply Qmult_le_compat_r; [exact W|].
    eapply Qle_trans; [apply Qabs_nonneg|exact V]. }
  assert (Qabs (v - C) * T <= j * u * M * T) as P2 by (apply Qmult_le_compat_r; assumption).
  apply Qle_trans with ((1 + j * u) * M * (k * u * T) + j * u * M * T); [lra|]. apply Qle_lteq. right. ring.
Qed.
Lemma near_eq j k v w C D M L : j == k -> v == w -> C == D -> M == L -> near j v C M -> near k w D L.
Proof. intros E1 E2 E3 E4 [A B]. split; [now rewrite <- E1, <- E2, <- E3, <- E4|now rewrite <- E3, <- E4]. Qed.
Lemma near_add k v C M r : 0 <= k -> near k v C M -> near k (v + r) (C + r) (M + Qabs r).
Proof.
  intros K [A B]. pose proof (Qabs_nonneg r). split.
  - setoid_replace (v + r - (C + r)) with (v - C) by ring. eapply Qle_trans; [exact A|].
    setoid_replace (k * u * (M + Qabs r)) with (k * u * M + k * u * Qabs r) by ring.
    assert (0 <= k * u * Qabs r) by (apply Qmult_le_0_compat; [apply Qmult_le_0_compat; [exact K|discriminate]|assumption]). lra.
  - eapply Qle_trans; [apply Qabs_triangle|]. lra.
Qed.
Lemma near_weaken j k v C M : j <= k -> near j v C M -> near k v C M.
Proof.
  intros H [A B]. split; [|exact B]. eapply Qle_trans; [exact A|]. apply Qmult_le_compat_r.
  - apply Qmult_le_compat_r; [exact H|discriminate].
  - eapply Qle_trans; [apply Qabs_nonneg|exact B].
Qed.

Lemma of_N_zero : b64_of_Z (Z.of_N 0) = S754_zero false. Proof. reflexivity. Qed.
Lemma of_N_near X : finite (b64_of_Z (Z.of_N X)) -> near 1 (number (b64_of_Z (Z.of_N X))) (inject_Z (Z.of_N X)) (inject_Z (Z.of_N X)).
Proof.
  intros Fi. destruct (normalize_err (Z.of_N X) 0 ltac:(lia) Fi) as [_ B]. rewrite p2_0, Qmult_1_r in B.
  assert (Qabs (inject_Z (Z.of_N X)) == inject_Z (Z.of_N X)) as P.
  { apply Qabs_pos. change 0 with (inject_Z 0). rewrite <- Zle_Qle. lia. }
  rewrite P in B. split; [rewrite Qmult_1_l; exact B|lra].
Qed.

Section Scale.
Variables (R : spec_float) (E D : Z) (X : N).
Hypothesis HR : a_double R.
Hypothesis HS : scales_in_range E D.
Let a := b64_of_Z (Z.of_N X).
Let b := SFmul 53 1024 a (two_lit E).
Let c := SFadd 53 1024 b R.
Let d := codes_power b64_arith (- D) 10.
Let v := SFmul 53 1024 c d.

Lemma scale_steps : simple_scale b64_arith R E D X = v.
Proof. unfold simple_scale. rewrite twos by (destruct HS; lia). reflexivity. Qed.

Lemma a_valid : valid a. Proof. apply normalize_good. Qed.
Lemma b_valid : valid b. Proof. apply mul_valid; [exact a_valid|apply two_valid; destruct HS; lia]. Qed.
Lemma c_valid : valid c. Proof. apply add_valid; [exact b_valid|apply HR]. Qed.
Lemma v_valid : valid v.
Proof. apply mul_valid; [exact c_valid|]. unfold d. destruct (tens D ltac:(apply HS)) as (m & e & -> & V & _). exact V. Qed.

Lemma X_nonneg : 0 <= inject_Z (Z.of_N X).
Proof. change 0 with (inject_Z 0). rewrite <- Zle_Qle. lia. Qed.

Lemma b_near : finite b -> near (2 + u) (number b) (inject_Z (Z.of_N X) * p2 E) (inject_Z (Z.of_N X) * p2 E).
Proof.
  intros Fi. unfold b in *. destruct (mul_err _ _ Fi) as (Fa & _ & _ & _ & B). rewrite two_number in B.
  pose proof (of_N_near X Fa) as A. fold a in A.
  assert (0 <= p2 E) as P by apply Qlt_le_weak, p2_pos.
  pose proof (near_mul 1 0 _ (p2 E) _ (p2 E) _ ltac:(discriminate) A P ltac:(setoid_replace (p2 E - p2 E) with 0 by ring; change (Qabs 0) with 0; lra)) as Q.
  destruct (N.eq_dec X 0) as [Z|N].
  - assert (inject_Z (Z.of_N X) == 0) as X0 by (rewrite Z; reflexivity).
    assert (SFmul 53 1024 a (two_lit E) = S754_zero false) as -> by (unfold a; rewrite Z; reflexivity).
    cbn [number]. split; rewrite X0; [setoid_replace (0 - 0 * p2 E) with 0 by ring|setoid_replace (0 * p2 E) with 0 by ring; discriminate].
    discriminate.
  - eapply near_eq; [| | | |eapply (near_round _ _ _ _ _ _ Q); apply B]; try reflexivity.
    destruct A as [A _]. rewrite Qabs_Qmult, (Qabs_pos (p2 E)) by exact P.
    assert (1 <= inject_Z (Z.of_N X)) as X1 by (change 1 with (inject_Z 1); rewrite <- Zle_Qle; lia).
    apply Qabs_Qle_condition in A. assert (1 # 2 <= number a) as A2.
    { assert (1 * u * inject_Z (Z.of_N X) <= (1 # 2) * inject_Z (Z.of_N X)); [|lra].
      apply Qmult_le_compat_r; [discriminate|exact X_nonneg]. }
    rewrite (Qabs_pos (number a)) by lra. apply Qle_trans with ((1 # 2) * p2 E).
    + change (1 # 2) with (p2 (-1)). rewrite <- p2_plus. apply p2_le. destruct HS. lia.
    + apply Qmult_le_compat_r; assumption.
  Unshelve. discriminate.
Qed.

Lemma c_near : finite c -> near (3 + 3 * u + u * u) (number c) (inject_Z (Z.of_N X) * p2 E + number R) (inject_Z (Z.of_N X) * p2 E + Qabs (number R)).
Proof.
  intros Fi. unfold c in *. destruct (add_err b R (valid_ranged _ b_valid) (valid_ranged _ (proj2 HR)) Fi) as (Fb & _ & _ & B).
  eapply near_eq; [| | | |eapply near_round; [|apply near_add; [|apply (b_near Fb)]|exact B]]; try reflexivity; try discriminate.
Qed.

Lemma value_abs : grib_value (Qabs (number R)) E D X == (inject_Z (Z.of_N X) * p2 E + Qabs (number R)) * (10 # 1) ^ (- D).
Proof. unfold grib_value, p2. ring. Qed.

Lemma tens_cases : tens_error D = 0%Z \/ tens_error D = 3%Z \/ tens_error D = 22%Z.
Proof. unfold tens_error. destruct (_ && _); [auto|]. destruct (_ <=? _)%Z; auto. Qed.

Lemma cd_near : finite c -> exists k, 0 <= k /\ k + 1 + k * u <= inject_Z (tens_error D + 5) /\
  near k (number c * number d) (grib_value (number R) E D X) (grib_value (Qabs (number R)) E D X).
Proof.
  intros Fc. destruct (tens D ltac:(apply HS)) as (m & e & Ed & _ & Bd). unfold d. rewrite Ed.
  assert (0 <= (10 # 1) ^ (- D)) as P by (apply Qlt_le_weak, Qpower_0_lt; reflexivity).
  pose proof (near_mul (3 + 3 * u + u * u) _ _ _ _ _ _ ltac:(discriminate) (c_near Fc) P Bd) as Q.
  exists (3 + 3 * u + u * u + inject_Z (tens_error D) + (3 + 3 * u + u * u) * inject_Z (tens_error D) * u).
  split; [|split].
  - destruct tens_cases as [->|[->| ->]]; discriminate.
  - destruct tens_cases as [->|[->| ->]]; vm_compute; discriminate.
  - eapply near_eq; [| | | |exact Q]; [reflexivity|reflexivity| |]; [unfold grib_value, p2; ring|rewrite value_abs; reflexivity].
Qed.

Lemma value_accurate : finite v -> accurate R E D X v.
Proof.
  intros Fi. unfold v in *. destruct (mul_err _ _ Fi) as (Fc & Fd & _ & B & _). unfold accurate.
  destruct (cd_near Fc) as (k & K0 & K1 & Q).
  assert (0 < eta) as E0 by apply p2_pos.
  pose proof (near_abs _ _ _ _ Q) as V. destruct Q as [Q1 Q2].
  set (C := grib_value (number R) E D X) in *. set (M := grib_value (Qabs (number R)) E D X) in *.
  assert (0 <= M) as M0 by (eapply Qle_trans; [apply Qabs_nonneg|exact Q2]).
  setoid_replace (number (SFmul 53 1024 c d) - C) with ((number (SFmul 53 1024 c d) - number c * number d) + (number c * number d - C)) by ring.
  eapply Qle_trans; [apply Qabs_triangle|].
  assert (u * Qabs (number c * number d) <= u * ((1 + k * u) * M)) as P1 by (rewrite !(Qmult_comm u); apply Qmult_le_compat_r; [exact V|discriminate]).
  assert ((k + 1 + k * u) * u * M <= inject_Z (tens_error D + 5) * u * M) as P2.
  { apply Qmult_le_compat_r; [|exact M0]. apply Qmult_le_compat_r; [exact K1|discriminate]. }
  setoid_replace ((k + 1 + k * u) * u * M) with (u * ((1 + k * u) * M) + k * u * M) in P2 by ring. lra.
Qed.

Lemma value_finite : (X < two64)%N -> grib_value (Qabs (number R)) E 0 X <= p2 1022 -> grib_value (Qabs (number R)) E D X <= p2 1022 -> finite v.
Proof.
  intros HX H1 H2.
  assert (0 < p2 1022) as P0 by apply p2_pos. assert (p2 1023 == p2 1022 * 2) as P1 by (change 1023%Z with (1022 + 1)%Z; apply p2_double).
  pose proof X_nonneg as X0.
  assert (0 <= p2 E) as PE by apply Qlt_le_weak, p2_pos.
  assert (0 <= inject_Z (Z.of_N X) * p2 E) as XE0 by (apply Qmult_le_0_compat; assumption).
  assert (inject_Z (Z.of_N X) * p2 E + Qabs (number R) <= p2 1022) as S1.
  { unfold grib_value in H1. change ((10 # 1) ^ (- 0)) with 1 in H1. unfold p2 in *. lra. }
  pose proof (Qabs_nonneg (number R)) as R0.
  assert (Big : forall k x C M, 0 <= k -> k <= 100 -> near k x C M -> M <= p2 1022 -> Qabs x < p2 1023).
  { intros k x C M K0 K1 Q L. pose proof (near_abs _ _ _ _ Q) as V. destruct Q as [_ Q].
    assert (0 <= M) as M0 by (eapply Qle_trans; [apply Qabs_nonneg|exact Q]).
    assert ((1 + k * u) * M <= (3 # 2) * M) as W.
    { apply Qmult_le_compat_r; [|exact M0]. assert (k * u <= 100 * u) as KU by (apply Qmult_le_compat_r; [exact K1|discriminate]).
      assert (100 * u <= 1 # 2) by discriminate. lra. }
    lra. }
  assert (finite a) as Fa.
  { apply normalize_good. rewrite p2_0, Qmult_1_r, Qabs_pos by exact X0. change (p2 1023) with (p2 (64 + 959)).
    apply Qlt_le_trans with (p2 64).
    - rewrite p2_Z by lia. rewrite <- Zlt_Qlt. change (2 ^ 64)%Z with (Z.of_N two64). lia.
    - apply p2_le. lia. }
  assert (finite b) as Fb.
  { apply mul_valid; [exact a_valid|apply two_valid; destruct HS; lia|exact Fa|exact I|]. rewrite two_number.
    pose proof (near_mul 1 0 _ (p2 E) _ (p2 E) _ ltac:(discriminate) (of_N_near X Fa) PE ltac:(setoid_replace (p2 E - p2 E) with 0 by ring; change (Qabs 0) with 0; lra)) as Q.
    eapply (Big _ _ _ _ _ _ Q). lra. Unshelve. all: discriminate. }
  assert (finite c) as Fc.
  { apply add_valid; [exact b_valid|apply HR|exact Fb|apply HR|].
    pose proof (near_add (2 + u) _ _ _ (number R) ltac:(discriminate) (b_near Fb)) as Q. eapply (Big _ _ _ _ _ _ Q). exact S1. Unshelve. all: discriminate. }
  destruct (tens D ltac:(apply HS)) as (m & e & Ed & Vd & _).
  apply mul_valid; [exact c_valid|unfold d; rewrite Ed; exact Vd|exact Fc|unfold d; rewrite Ed; exact I|].
  destruct (cd_near Fc) as (k & K0 & K1 & Q). eapply (Big _ _ _ _ K0 _ Q). exact H2. Unshelve.
  assert (inject_Z (tens_error D + 5) <= 27) as T by (destruct tens_cases as [->|[->| ->]]; discriminate).
  assert (0 <= k * u) by (apply Qmult_le_0_compat; [exact K0|discriminate]). lra.
Qed.

(* present points never get the missing value *)
Lemma round_not_nan sx m e : binary_round_aux 53 1024 sx (Zpos m) e loc_Exact <> S754_nan.
Proof. exact (proj1 (round_aux sx (Zpos m) e loc_Exact (inject_Z (Zpos m)) ltac:(lia) ltac:(reflexivity))). Qed.
Lemma normalize_not_nan z e : binary_normalize 53 1024 z e false <> S754_nan.
Proof.
  destruct z; cbn [binary_normalize]; [discriminate| |]; unfold binary_round; destruct (shl_align _ _ _); apply round_not_nan.
Qed.
Lemma not_missing : v <> S754_nan.
Proof.
  assert (a <> S754_nan) as Na by apply normalize_not_nan.
  assert (b <> S754_nan) as Nb.
  { unfold b, two_lit. destruct a; cbn [SFmul]; try discriminate; [congruence|apply round_not_nan]. }
  assert (c <> S754_nan) as Nc.
  { unfold c. destruct HR as [Fr _]. destruct b, R; cbn [SFadd]; try discriminate; try contradiction; try congruence; [destruct (Bool.eqb _ _); discriminate|apply normalize_not_nan]. }
  unfold v, d. destruct (tens D ltac:(apply HS)) as (m & e & -> & _ & _). destruct c; cbn [SFmul]; try discriminate; [congruence|apply round_not_nan].
Qed.
End Scale.

Theorem scale_accurate R E D X : a_double R -> scales_in_range E D ->
  finite (simple_scale b64_arith R E D X) -> accurate R E D X (simple_scale b64_arith R E D X).
Proof. intros HR HS. rewrite scale_steps by assumption. apply value_accurate; assumption. Qed.
Theorem scale_finite R E D X : a_double R -> scales_in_range E D -> (X < two64)%N ->
  grib_value (Qabs (number R)) E 0 X <= p2 1022 -> grib_value (Qabs (number R)) E D X <= p2 1022 ->
  a_double (simple_scale b64_arith R E D X).
Proof. intros HR HS HX H1 H2. rewrite scale_steps by assumption. split; [apply value_finite|apply v_valid]; assumption. Qed.
Theorem scale_not_missing R E D X : a_double R -> scales_in_range E D -> simple_scale b64_arith R E D X <> f_nan b64_arith.
Proof. intros HR HS. rewrite scale_steps by assumption. apply not_missing; assumption. Qed.
Lemma ccsds_is_simple R E X : ccsds_scale b64_arith R E 0 X = simple_scale b64_arith R E 0 X.
Proof. reflexivity. Qed.

Lemma constant_accurate R E : accurate R E 0 0 R.
Proof.
  unfold accurate, grib_value. change (inject_Z (Z.of_N 0)) with 0. change ((10 # 1) ^ (- 0)) with 1.
  setoid_replace (number R - (number R + 0 * 2 ^ E) * 1) with 0 by ring. change (Qabs 0) with 0.
  setoid_replace ((Qabs (number R) + 0 * 2 ^ E) * 1) with (Qabs (number R)) by ring.
  assert (0 < eta) by apply p2_pos. assert (0 <= inject_Z (tens_error 0 + 5) * u * Qabs (number R)); [|lra].
  apply Qmult_le_0_compat; [discriminate|apply Qabs_nonneg].
Qed.

Lemma message_value (m : grib spec_float) (X : N) :
  a_double (m_reference m) -> scales_in_range (m_binary m) (m_decimal m) -> formula_holds m ->
  (m_packing m = "grid_simple" \/ m_packing m = "grid_ccsds")%string -> (m_bits m = 0%Z -> X = 0%N) ->
  near_point m (Some X) (code_value m b64_arith X).
Proof.
  intros HR HS Hf Hp Hx. cbn [near_point]. unfold code_value. destruct (Z.eqb_spec (m_bits m) 0) as [Eb|Eb].
  - rewrite (Hx Eb). destruct Hf as [->|[_ Hf]]; [|congruence]. split; [|intros _; apply constant_accurate].
    destruct HR as [Fr _]. intros Q. rewrite Q in Fr. exact Fr.
  - destruct (String.eqb_spec (m_packing m) "grid_simple") as [E|E].
    + split; [apply scale_not_missing; assumption|apply scale_accurate; assumption].
    + destruct Hf as [Hd|[Hf _]]; [|congruence]. rewrite Hd in *. rewrite ccsds_is_simple.
      split; [apply scale_not_missing; assumption|apply scale_accurate; assumption].
Qed.

Theorem near_values libaec full fresh grib_at : libaec_consistent full libaec -> (forall n, length (fresh n) = Z.to_nat n) ->
  forall bytes off (m : grib spec_float) S l, message_at full grib_at bytes off m S -> formula_holds m ->
  a_double (m_reference m) -> scales_in_range (m_binary m) (m_decimal m) -> good_request (Z.to_N (m_points m)) l ->
  exists inf x, build full fresh grib_at bytes off = Ok inf /\ extract b64_arith libaec bytes off inf l = Ok x /\
                near_result m bytes off S l x.
Proof.
  intros Hc Hfl bytes off m S l Hm Hf HR Hsc Hg.
  destruct (stored_values b64_arith libaec full fresh grib_at Hc Hfl bytes off m S l Hm Hg) as (inf & x & Eb & Ee & [Hv Hk]).
  exists inf, x. split; auto. split; auto. destruct Hm as (_ & Sup & HS). split; [|exact Hk].
  eapply Forall2_impl; [|exact Hv]. cbv beta. intros i v ->.
  apply Forall2_map_r. apply Forall2_same. apply Forall_forall. intros p _. unfold m_point.
  destruct (nth p (m_present m bytes off) false); [|reflexivity]. cbn [or_missing]. apply message_value; auto.
  - destruct Sup as (_ & _ & _ & _ & _ & _ & _ & _ & [(_ & _ & H)|(_ & _ & [[H _]|[H _]])]); auto.
  - intros Hz. inversion HS as [Hb|Hb Hp|S' offs native Hb Hp Hn Haec]; [|lia|lia].
    generalize (present_before (m_present m bytes off) p). generalize (Z.to_nat (m_values m)).
    clear. induction n; intros [|j]; cbn; auto.
Qed.

Lemma three_double : a_double three. Proof. split; [exact I|reflexivity]. Qed.
Lemma ex_simple64_at : message_at raw_full ex_eccodes64 gribs 12 ex_simple64 [1; 9; 3]%N.
Proof.
  split; [exists (codes_of ex_simple64); split; [reflexivity|apply codes_of_reports]|]. split.
  - split; [unfold wf_grib, natural; cbn; intuition lia|]. split; [apply ex_bytes|]. split; [reflexivity|].
    split; [reflexivity|]. split; [lia|]. split; [reflexivity|]. split; [reflexivity|]. split; [cbn; lia|].
    right. cbn. split; [lia|]. split; [lia|]. left. split; [reflexivity|]. split; [left; lia|lia].
  - apply (simple_samples ex_simple64 gribs 12 raw_full); reflexivity.
Qed.

Lemma twos_exact E : (-1022 <= E <= 1023)%Z -> number (codes_power b64_arith E 2) == p2 E.
Proof. intros H. rewrite twos by exact H. apply two_number. Qed.
Lemma tens_accurate D : (-300 <= D <= 300)%Z ->
  Qabs (number (codes_power b64_arith (- D) 10) - (10 # 1) ^ (- D)) <= inject_Z (tens_error D) * u * (10 # 1) ^ (- D).
Proof. intros H. destruct (tens D H) as (m & e & -> & _ & B). exact B. Qed.
