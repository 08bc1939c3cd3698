(* Rounding in Coq.Floats.SpecFloat: the result of an operation is within half a unit in the last place. *)
From Coq Require Import QArith Qabs Qpower Lia Lqa ZArith Floats.SpecFloat.
From Verif Require Import Base SpecAccuracy.
Local Open Scope Q_scope.

(* ---- powers of two ---- *)
Lemma p2_plus a b : p2 (a + b) == p2 a * p2 b.
Proof. unfold p2. apply Qpower_plus. discriminate. Qed.
Lemma p2_pos e : 0 < p2 e.
Proof. unfold p2. apply Qpower_0_lt. reflexivity. Qed.
Lemma p2_le a b : (a <= b)%Z -> p2 a <= p2 b.
Proof. intros H. unfold p2. apply Qpower_le_compat_l; [exact H|discriminate]. Qed.
Lemma p2_0 : p2 0 == 1. Proof. reflexivity. Qed.
Lemma p2_1 : p2 1 == 2. Proof. reflexivity. Qed.
Lemma p2_m1 : p2 (-1) == 1 # 2. Proof. reflexivity. Qed.
Lemma p2_half e : p2 (e - 1) == p2 e * (1 # 2).
Proof. unfold Z.sub. rewrite p2_plus. reflexivity. Qed.
Lemma p2_double e : p2 (e + 1) == p2 e * 2.
Proof. rewrite p2_plus. reflexivity. Qed.
Lemma p2_cancel a : p2 (- a) * p2 a == 1.
Proof. rewrite <- p2_plus. replace (- a + a)%Z with 0%Z by lia. reflexivity. Qed.
Lemma p2_Z n : (0 <= n)%Z -> p2 n == inject_Z (2 ^ n).
Proof. intros H. unfold p2. symmetry. apply (Zpower_Qpower 2 n H). Qed.

Lemma inject_xO p : inject_Z (Zpos (xO p)) == 2 * inject_Z (Zpos p).
Proof. reflexivity. Qed.
Lemma inject_xI p : inject_Z (Zpos (xI p)) == 2 * inject_Z (Zpos p) + 1.
Proof. unfold inject_Z, Qeq, Qplus, Qmult. cbn. lia. Qed.

Lemma digits_pos m : p2 (Zpos (digits2_pos m) - 1) <= inject_Z (Zpos m) /\ inject_Z (Zpos m) + 1 <= p2 (Zpos (digits2_pos m)).
Proof.
  induction m as [m [L U]|m [L U]|].
  - cbn [digits2_pos]. rewrite Pos2Z.inj_succ, inject_xI. unfold Z.succ. replace (Zpos (digits2_pos m) + 1 - 1)%Z with (Zpos (digits2_pos m) - 1 + 1)%Z by lia.
    rewrite !p2_double. split; lra.
  - cbn [digits2_pos]. rewrite Pos2Z.inj_succ, inject_xO. unfold Z.succ. replace (Zpos (digits2_pos m) + 1 - 1)%Z with (Zpos (digits2_pos m) - 1 + 1)%Z by lia.
    rewrite !p2_double. split; lra.
  - cbn. split; discriminate.
Qed.
Lemma digits_upper m : (0 <= m)%Z -> inject_Z m + 1 <= p2 (Zdigits2 m).
Proof. destruct m as [|m|m]; intros H; [discriminate| |lia]. apply digits_pos. Qed.

(* ---- where a number lies between two integers ---- *)
Definition inb (m : Z) (l : location) (x : Q) : Prop :=
  match l with
  | loc_Exact => x == inject_Z m
  | loc_Inexact Lt => inject_Z m < x /\ x < inject_Z m + (1 # 2)
  | loc_Inexact Eq => x == inject_Z m + (1 # 2)
  | loc_Inexact Gt => inject_Z m + (1 # 2) < x /\ x < inject_Z m + 1
  end.
Lemma inb_range m l x : inb m l x -> inject_Z m <= x /\ x < inject_Z m + 1.
Proof. destruct l as [|[]]; cbn; intros; lra. Qed.

Definition inr (r : shr_record) (x : Q) : Prop := (0 <= shr_m r)%Z /\ inb (shr_m r) (loc_of_shr_record r) x.
Lemma inr_loc m l x : (0 <= m)%Z -> inb m l x -> inr (shr_record_of_loc m l) x.
Proof. intros M H. split; destruct l as [|[]]; cbn; assumption. Qed.
Lemma inr_eq r x y : x == y -> inr r x -> inr r y.
Proof. intros E [M H]. split; [exact M|]. destruct (loc_of_shr_record r) as [|[]]; cbn in *; lra. Qed.

Lemma shr_1_in r x : inr r x -> inr (shr_1 r) (x * (1 # 2)).
Proof.
  destruct r as [m r s]. intros [M H]. cbn [shr_m] in M. unfold inr. destruct m as [|[p|p|]|p]; [| | | |lia]; cbn [shr_1 shr_m].
  all: split; [lia|].
  all: destruct r, s; cbn [loc_of_shr_record inb orb shr_m] in H |- *; rewrite ?inject_xO, ?inject_xI in H.
  all: change (inject_Z 0) with (0 # 1) in *; change (inject_Z 1) with (1 # 1) in *; lra.
Qed.
Lemma shr_iter p : forall r x, inr r x -> inr (SpecFloat.iter_pos shr_1 p r) (x * p2 (- Zpos p)).
Proof.
  induction p as [p IH|p IH|]; intros r x H; cbn [SpecFloat.iter_pos].
  - eapply inr_eq; [|apply IH, IH, shr_1_in, H].
    replace (- Zpos (xI p))%Z with (- Zpos p + - Zpos p + - (1))%Z by lia. rewrite !p2_plus. change (p2 (- (1))) with (1 # 2). ring.
  - eapply inr_eq; [|apply IH, IH, H].
    replace (- Zpos (xO p))%Z with (- Zpos p + - Zpos p)%Z by lia. rewrite !p2_plus. ring.
  - apply shr_1_in, H.
Qed.

Notation fe := (fexp 53 1024).
Lemma fe_def e : fe e = Z.max (e - 53) (-1074). Proof. reflexivity. Qed.

(* the first shift *)
Lemma shr_fexp_in m e l x : (0 <= m)%Z -> inb m l x ->
  let (r, e') := shr_fexp 53 1024 m e l in
  e' = Z.max e (fe (Zdigits2 m + e)) /\ inr r (x * p2 (e - e')) /\ (e' = e -> r = shr_record_of_loc m l).
Proof.
  intros M H. unfold shr_fexp. pose proof (inr_loc m l x M H) as R.
  destruct (fe (Zdigits2 m + e) - e)%Z as [|n|n] eqn:E; cbn [shr].
  - split; [lia|]. split; [|reflexivity]. eapply inr_eq; [|exact R]. rewrite Z.sub_diag. rewrite p2_0. ring.
  - split; [lia|]. split; [|lia]. replace (e - (e + Zpos n))%Z with (- Zpos n)%Z by lia. apply shr_iter, R.
  - split; [lia|]. split; [|reflexivity]. eapply inr_eq; [|exact R]. rewrite Z.sub_diag. rewrite p2_0. ring.
Qed.

Lemma rne_near m l x : inb m l x -> Qabs (inject_Z (round_nearest_even m l) - x) <= 1 # 2.
Proof.
  intros H. apply Qabs_Qle_condition. unfold round_nearest_even. destruct l as [|[]]; cbn in H; [lra| |lra|].
  - destruct (Z.even m); [|rewrite inject_Z_plus; change (inject_Z 1) with 1]; lra.
  - rewrite inject_Z_plus. change (inject_Z 1) with 1. lra.
Qed.
Lemma rne_range m l : (m <= round_nearest_even m l <= m + 1)%Z.
Proof. unfold round_nearest_even. destruct l as [|[]]; try lia. destruct (Z.even m); lia. Qed.

(* the second shift changes nothing but the form *)
Lemma shr_fexp_exact m e : (0 <= m <= 9007199254740992)%Z -> (-1074 <= e)%Z ->
  let (r, e') := shr_fexp 53 1024 m e loc_Exact in
  (0 <= shr_m r)%Z /\ inject_Z (shr_m r) * p2 e' == inject_Z m * p2 e /\ (e' = e \/ e' = e + 1 /\ shr_m r = 4503599627370496)%Z /\ (shr_m r < 9007199254740992)%Z.
Proof.
  intros M Em. destruct (Z.eq_dec m 9007199254740992) as [->|N].
  - unfold shr_fexp. change (Zdigits2 9007199254740992) with 54%Z. rewrite fe_def.
    replace (Z.max (54 + e - 53) (-1074) - e)%Z with 1%Z by lia. cbn [shr SpecFloat.iter_pos shr_record_of_loc shr_1 shr_m].
    split; [lia|]. split; [|lia]. rewrite p2_double. change (inject_Z 9007199254740992) with (inject_Z 4503599627370496 * 2). ring.
  - assert (Zdigits2 m <= 53)%Z as D.
    { destruct m as [|m|m]; [cbn; lia| |lia]. destruct (digits_pos m) as [L _]. cbn [Zdigits2].
      assert (2 ^ (Zpos (digits2_pos m) - 1) <= Zpos m)%Z.
      { rewrite p2_Z in L by lia. rewrite <- Zle_Qle in L. exact L. }
      assert (2 ^ (Zpos (digits2_pos m) - 1) < 2 ^ 53)%Z by (change (2 ^ 53)%Z with 9007199254740992%Z; lia).
      apply Z.pow_lt_mono_r_iff in H0; lia. }
    unfold shr_fexp. rewrite fe_def. destruct (Z.max (Zdigits2 m + e - 53) (-1074) - e)%Z eqn:E; [|lia|]; cbn [shr shr_record_of_loc shr_m]; (split; [lia|]); (split; [reflexivity|lia]).
Qed.

(* ---- rounding ---- *)
Definition final_exp (m e : Z) : Z := Z.max e (fe (Zdigits2 m + e)).
Lemma round_aux sx m e l x : (0 <= m)%Z -> inb m l x ->
  let f := binary_round_aux 53 1024 sx m e l in
  let E := final_exp m e in
  (f <> S754_nan) /\ (finite f -> Qabs (number f - sign sx * (x * p2 e)) <= p2 (E - 1) /\ (l = loc_Exact -> E = e -> number f == sign sx * (x * p2 e))) /\
  (match f with S754_finite s _ e => s = sx /\ -1074 <= e | S754_infinity s => s = sx | S754_zero s => s = sx | S754_nan => True end)%Z.
Proof.
  intros M H f E. unfold f, binary_round_aux.
  pose proof (shr_fexp_in m e l x M H) as S1. destruct (shr_fexp 53 1024 m e l) as [r e'].
  destruct S1 as (E1 & [R0 R1] & Ex). set (m1 := round_nearest_even (shr_m r) (loc_of_shr_record r)).
  pose proof (rne_near _ _ _ R1) as Nr. fold m1 in Nr. pose proof (rne_range (shr_m r) (loc_of_shr_record r)) as Rg. fold m1 in Rg.
  assert (-1074 <= e')%Z as Em by (rewrite E1, fe_def; lia).
  assert (shr_m r < 9007199254740992)%Z as B.
  { destruct (inb_range _ _ _ R1) as [L _]. destruct (inb_range _ _ _ H) as [_ U]. pose proof (digits_upper m M) as D.
    rewrite Zlt_Qlt. eapply Qle_lt_trans; [exact L|]. change (inject_Z 9007199254740992) with (p2 53).
    apply Qlt_le_trans with (p2 (Zdigits2 m) * p2 (e - e')).
    - apply Qmult_lt_compat_r; [apply p2_pos|]. lra.
    - rewrite <- p2_plus. apply p2_le. rewrite E1, fe_def. lia. }
  pose proof (shr_fexp_exact m1 e' ltac:(lia) Em) as S2.
  destruct (shr_fexp 53 1024 m1 e' loc_Exact) as [r2 e2]. destruct S2 as (P2 & V2 & G2 & _).
  assert (V : inject_Z m1 * p2 e' - x * p2 e == (inject_Z m1 - x * p2 (e - e')) * p2 e').
  { assert (p2 e == p2 (e - e') * p2 e') as -> by (rewrite <- p2_plus; replace (e - e' + e')%Z with e by lia; reflexivity). ring. }
  assert (A : Qabs (inject_Z m1 * p2 e' - x * p2 e) <= p2 (E - 1)).
  { rewrite V, Qabs_Qmult, (Qabs_pos (p2 e')) by (apply Qlt_le_weak, p2_pos). unfold E, final_exp. rewrite <- E1, p2_half.
    rewrite (Qmult_comm (p2 e')). apply Qmult_le_compat_r; [exact Nr|apply Qlt_le_weak, p2_pos]. }
  assert (X : l = loc_Exact -> E = e -> inject_Z m1 * p2 e' == x * p2 e).
  { intros L1 Ee. assert (e' = e) as Q by (rewrite E1; exact Ee). specialize (Ex Q). rewrite Q. unfold m1. rewrite Ex, L1. cbn.
    rewrite L1 in H. cbn in H. now rewrite H. }
  assert (SS : forall v y, Qabs (sign sx * v - sign sx * y) == Qabs (v - y)).
  { intros v y. destruct sx; cbn [sign]; [|setoid_replace (1 * v - 1 * y) with (v - y) by ring; reflexivity].
    setoid_replace (-(1) * v - -(1) * y) with (- (v - y)) by ring. apply Qabs_opp. }
  destruct (shr_m r2) as [|p|p] eqn:Er; [| |lia].
  - split; [discriminate|]. split; [|reflexivity]. intros _. cbn [number].
    assert (inject_Z m1 * p2 e' == 0) as Z0 by (rewrite <- V2; change (inject_Z 0) with 0; ring).
    split.
    + setoid_replace (0 - sign sx * (x * p2 e)) with (sign sx * (inject_Z m1 * p2 e') - sign sx * (x * p2 e)) by (rewrite Z0; ring).
      rewrite SS. exact A.
    + intros L1 Ee. rewrite <- (X L1 Ee), Z0. ring.
  - change (1024 - 53)%Z with 971%Z. destruct (Zle_bool e2 971) eqn:O.
    + split; [discriminate|]. split; [|split; [reflexivity|]; lia]. intros _. cbn [number].
      assert (sign sx * inject_Z (Zpos p) * p2 e2 == sign sx * (inject_Z m1 * p2 e')) as Q by (rewrite <- V2; ring).
      split; [rewrite Q, SS; exact A|]. intros L1 Ee. rewrite Q, (X L1 Ee). reflexivity.
    + split; [discriminate|]. split; [intros []|reflexivity].
Qed.
