From Verif Require Import Base BaseLemmas ModelSimple ModelCcsds ModelFloat SpecSimple.
From Coq Require Import QArith Qpower Qfield.

Local Open Scope Q_scope.

Lemma iter_mul_power (q : Q) n : Nat.iter n (fun d => d * q) 1 == Qpower q (Z.of_nat n).
Proof.
  induction n as [|n IH]; [reflexivity|].
  rewrite Nat2Z.inj_succ. unfold Z.succ.
  destruct (Qeq_dec q 0) as [Hz|Hz].
  - cbn [Nat.iter nat_rect]. rewrite Hz.
    replace (Z.of_nat n + 1)%Z with (Z.pos (Pos.of_succ_nat n)) by lia.
    rewrite Qpower_0 by discriminate. ring.
  - rewrite Qpower_plus by auto. cbn [Nat.iter nat_rect].
    change (nat_rect (fun _ => Q) 1 (fun _ d => d * q) n) with (Nat.iter n (fun d => d * q) 1).
    rewrite IH. simpl (q ^ 1). ring.
Qed.

Lemma iter_div_power (q : Q) n : ~ q == 0 -> Nat.iter n (fun d => d / q) 1 == Qpower q (- Z.of_nat n).
Proof.
  intros Hz. induction n as [|n IH]; [reflexivity|].
  rewrite Nat2Z.inj_succ. replace (- Z.succ (Z.of_nat n))%Z with (- Z.of_nat n + (-1))%Z by lia.
  rewrite Qpower_plus by auto. cbn [Nat.iter nat_rect].
  change (nat_rect (fun _ => Q) 1 (fun _ d => d / q) n) with (Nat.iter n (fun d => d / q) 1).
  rewrite IH. simpl (q ^ (-1)). unfold Qdiv. reflexivity.
Qed.

Lemma codes_power_q s n : n <> 0%Z -> codes_power q_arith s n == Qpower (inject_Z n) s.
Proof.
  intros Hn.
  assert (Hz : ~ inject_Z n == 0).
  { intros H. apply Hn. unfold Qeq in H. simpl in H. lia. }
  unfold codes_power. cbn [f_of_Z f_div f_mul q_arith].
  destruct (s =? 0)%Z eqn:E0; [replace s with 0%Z by lia; reflexivity|].
  destruct (s =? 1)%Z eqn:E1; [replace s with 1%Z by lia; reflexivity|].
  change (inject_Z 1) with 1.
  destruct (s <? 0)%Z eqn:E2.
  - rewrite iter_div_power by auto. replace (- Z.of_nat (Z.to_nat (- s)))%Z with s by lia. reflexivity.
  - rewrite iter_mul_power. replace (Z.of_nat (Z.to_nat s)) with s by lia. reflexivity.
Qed.

Lemma simple_scale_formula R E D X : simple_scale q_arith R E D X == grib_value R E D X.
Proof.
  unfold simple_scale, grib_value. cbn [f_mul f_add f_of_N q_arith].
  rewrite (codes_power_q E 2) by discriminate. rewrite (codes_power_q (- D) 10) by discriminate.
  change (inject_Z 2) with 2. change (inject_Z 10) with 10. ring.
Qed.

Lemma ccsds_scale_formula R E D X :
  ccsds_scale q_arith R E D X == (R + inject_Z (Z.of_N X) * Qpower 2 E) * Qpower (-10) D.
Proof.
  unfold ccsds_scale. cbn [f_mul f_add f_of_N q_arith].
  rewrite (codes_power_q E 2) by discriminate. rewrite (codes_power_q D (-10)) by discriminate.
  change (inject_Z 2) with 2. change (inject_Z (-10)) with (-10). ring.
Qed.

Lemma m100_pow_pos p : ~ Qpower (-100) (Zpos p) == 1.
Proof.
  intros H. change (-100) with (inject_Z (-100)) in H.
  rewrite <- Zpower_Qpower in H by lia.
  unfold Qeq in H. cbn [Qnum Qden inject_Z] in H.
  assert (H2 : ((-100) ^ Zpos p = 1)%Z) by lia.
  replace (Zpos p) with (Z.succ (Z.pred (Zpos p))) in H2 by lia.
  rewrite Z.pow_succ_r in H2 by lia.
  set (x := ((-100) ^ Z.pred (Zpos p))%Z) in *. clearbody x. lia.
Qed.

Lemma m100_pow D : D <> 0%Z -> ~ Qpower (-100) D == 1.
Proof.
  intros H. destruct D as [|p|p]; [congruence|apply m100_pow_pos|].
  intros Hp. apply (m100_pow_pos p).
  change (Zneg p) with (- Zpos p)%Z in Hp. rewrite Qpower_opp in Hp.
  rewrite <- (Qinv_involutive (Qpower (-100) (Zpos p))). rewrite Hp. reflexivity.
Qed.

Lemma decimal_scale_differs D : D <> 0%Z -> ~ Qpower (-10) D == Qpower 10 (- D).
Proof.
  intros HD H. apply (m100_pow D HD).
  change (-100) with (-10 * 10)%Q. 
  assert (E : Qpower (-10 * 10) D == Qpower (-10) D * Qpower 10 D) by apply Qmult_power.
  transitivity (Qpower (-10) D * Qpower 10 D); [exact E|].
  rewrite H, Qpower_opp. field.
  intros Hz. apply Qpower_not_0 in Hz; auto. discriminate.
Qed.

Lemma ccsds_scale_wrong R E D X : D <> 0%Z ->
  ~ R + inject_Z (Z.of_N X) * Qpower 2 E == 0 ->
  ~ ccsds_scale q_arith R E D X == grib_value R E D X.
Proof.
  intros HD Hnz H. rewrite ccsds_scale_formula in H. unfold grib_value in H.
  apply (decimal_scale_differs D HD). apply Qmult_inj_l in H; auto.
Qed.

Lemma ccsds_scale_right R E X : ccsds_scale q_arith R E 0 X == grib_value R E 0 X.
Proof. rewrite ccsds_scale_formula. unfold grib_value. simpl. ring. Qed.
