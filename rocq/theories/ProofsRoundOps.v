(* The operations of binary64: relative error at most u, and an absolute one below the normal numbers. *)
From Coq Require Import QArith Qabs Qpower Lia Lqa ZArith Floats.SpecFloat.
From Verif Require Import Base SpecAccuracy ProofsRound.
Local Open Scope Q_scope.

Definition ranged (f : spec_float) : Prop := match f with S754_finite _ _ e => (-1074 <= e)%Z | _ => True end.

Lemma u_p2 : u == p2 (-53). Proof. reflexivity. Qed.
Lemma sign_abs s y : Qabs (sign s * y) == Qabs y.
Proof.
  destruct s; cbn [sign]; [|now rewrite Qmult_1_l]. setoid_replace (-(1) * y) with (- y) by ring. apply Qabs_opp.
Qed.
Lemma Qabs_zero : Qabs 0 == 0. Proof. reflexivity. Qed.
Lemma u_pos : 0 < u. Proof. reflexivity. Qed.

Lemma round_err sx m e l x : (0 <= m)%Z -> inb m l x -> (l = loc_Exact \/ (e <= fe (Zdigits2 m + e))%Z) ->
  let f := binary_round_aux 53 1024 sx m e l in
  let y := sign sx * (x * p2 e) in
  finite f -> ranged f /\ Qabs (number f - y) <= u * Qabs y + eta /\
    (p2 (-1022) <= Qabs y \/ (l = loc_Exact /\ (-1074 <= e)%Z) -> Qabs (number f - y) <= u * Qabs y).
Proof.
  intros M H C f y Fi. destruct (round_aux sx m e l x M H) as (_ & B & R). fold f in B, R.
  destruct (B Fi) as [B1 B2]. clear B. fold y in B1, B2. set (E := final_exp m e) in *.
  split. { unfold ranged. destruct f; auto. tauto. }
  destruct (inb_range _ _ _ H) as [xl xu].
  assert (0 <= x) as x0. { eapply Qle_trans; [|exact xl]. change 0 with (inject_Z 0). rewrite <- Zle_Qle. exact M. }
  assert (Qabs y == x * p2 e) as Ya.
  { unfold y. rewrite sign_abs. apply Qabs_pos. apply Qmult_le_0_compat; [exact x0|apply Qlt_le_weak, p2_pos]. }
  assert (0 <= u * Qabs y) as U0 by (apply Qmult_le_0_compat; [discriminate|apply Qabs_nonneg]).
  assert (0 < eta) as E0 by apply p2_pos.
  assert (Hx : number f == y -> Qabs (number f - y) <= u * Qabs y).
  { intros Q. rewrite Q. setoid_replace (y - y) with 0 by ring. exact U0. }
  assert (E = e /\ l = loc_Exact \/ E = fe (Zdigits2 m + e) /\ (e <= E)%Z) as [[Ee Le]|[Ef Eg]].
  { unfold E, final_exp. destruct (Z.max_spec e (fe (Zdigits2 m + e))) as [[]|[]]; [right; lia|]. destruct C; [left; auto|right; lia]. }
  - pose proof (Hx (B2 Le Ee)) as Q. split; [|intros _; exact Q]. lra.
  - rewrite fe_def in Ef. destruct (Z_le_dec (-1074) (Zdigits2 m + e - 53)) as [G|G].
    + assert (E = Zdigits2 m + e - 53)%Z as Ef' by lia.
      assert (Qabs (number f - y) <= u * Qabs y) as Q; [|split; [lra|intros _; exact Q]].
      destruct m as [|m|m]; [cbn in Ef', G; lia| |lia]. destruct (digits_pos m) as [L _].
      eapply Qle_trans; [exact B1|]. rewrite Ya, u_p2. cbn [Zdigits2] in Ef'.
      replace (E - 1)%Z with (-53 + ((Zpos (digits2_pos m) - 1) + e))%Z by lia. rewrite !p2_plus.
      rewrite !(Qmult_comm (p2 (-53))). apply Qmult_le_compat_r; [|apply Qlt_le_weak, p2_pos].
      apply Qmult_le_compat_r; [|apply Qlt_le_weak, p2_pos]. lra.
    + assert (E = -1074)%Z as Ef' by lia. rewrite Ef' in B1. change (p2 (-1074 - 1)) with eta in B1.
      split; [lra|]. intros [K|[K1 K2]].
      * exfalso. pose proof (digits_upper m M) as D. rewrite Ya in K.
        assert (x * p2 e < p2 (Zdigits2 m + e)) as K2.
        { rewrite p2_plus. apply Qmult_lt_compat_r; [apply p2_pos|]. lra. }
        pose proof (p2_le (Zdigits2 m + e) (-1022) ltac:(lia)). lra.
      * apply Hx. apply B2; [exact K1|lia].
Qed.

Lemma sign_xor a b : sign (xorb a b) == sign a * sign b.
Proof. destruct a, b; reflexivity. Qed.

Lemma mul_err x y : finite (SFmul 53 1024 x y) ->
  finite x /\ finite y /\ ranged (SFmul 53 1024 x y) /\
  Qabs (number (SFmul 53 1024 x y) - number x * number y) <= u * Qabs (number x * number y) + eta /\
  (p2 (-1022) <= Qabs (number x * number y) -> Qabs (number (SFmul 53 1024 x y) - number x * number y) <= u * Qabs (number x * number y)).
Proof.
  assert (0 < eta) as E0 by apply p2_pos.
  assert (Z0 : forall a, a == 0 -> Qabs (0 - a) <= u * Qabs a + eta /\ (p2 (-1022) <= Qabs a -> Qabs (0 - a) <= u * Qabs a)).
  { intros a ->. change (Qabs (0 - 0)) with 0. change (Qabs 0) with 0. split; [lra|intros _; lra]. }
  destruct x as [sx|sx| |sx mx ex], y as [sy|sy| |sy my ey]; cbn [SFmul finite]; intros Fi; try contradiction.
  1-3: (split; [exact I|]; split; [exact I|]; split; [exact I|]); cbn [number]; apply Z0; ring.
  destruct (round_err (xorb sx sy) (Zpos (mx * my)) (ex + ey) loc_Exact (inject_Z (Zpos (mx * my))) ltac:(lia) ltac:(reflexivity) ltac:(left; reflexivity) Fi)
    as (R & B1 & B2).
  assert (sign (xorb sx sy) * (inject_Z (Zpos (mx * my)) * p2 (ex + ey)) == sign sx * inject_Z (Zpos mx) * p2 ex * (sign sy * inject_Z (Zpos my) * p2 ey)) as V.
  { rewrite sign_xor, p2_plus, Pos2Z.inj_mul, inject_Z_mult. ring. }
  rewrite V in B1, B2. cbn [number finite] in *. split; [exact I|]. split; [exact I|]. split; [exact R|]. split; [exact B1|].
  intros K. apply B2. left. exact K.
Qed.

(* ---- addition ---- *)
Lemma shl_align_value m e e' : let (m', e2) := shl_align m e e' in
  inject_Z (Zpos m') * p2 e2 == inject_Z (Zpos m) * p2 e /\ (e2 = Z.min e e')%Z.
Proof.
  unfold shl_align. destruct (e' - e)%Z as [|d|d] eqn:E.
  - split; [reflexivity|lia].
  - split; [reflexivity|lia].
  - split; [|lia]. rewrite shift_pos_correct, inject_Z_mult, Z.pow_pos_fold. rewrite <- p2_Z by lia.
    replace e with (Zpos d + e')%Z at 1 by lia. rewrite p2_plus. ring.
Qed.

Lemma binary_round_err s m e : (-1074 <= e)%Z -> let f := binary_round 53 1024 s m e in
  let y := sign s * (inject_Z (Zpos m) * p2 e) in
  finite f -> ranged f /\ Qabs (number f - y) <= u * Qabs y.
Proof.
  intros Em. unfold binary_round. pose proof (shl_align_value m e (fe (Zpos (digits2_pos m) + e))) as V.
  destruct (shl_align m e (fe (Zpos (digits2_pos m) + e))) as [mz ez]. destruct V as [V Ez]. cbn zeta. intros Fi.
  destruct (round_err s (Zpos mz) ez loc_Exact (inject_Z (Zpos mz)) ltac:(lia) ltac:(reflexivity) ltac:(left; reflexivity) Fi) as (R & _ & B).
  split; [exact R|]. rewrite V in B. apply B. right. split; [reflexivity|]. rewrite Ez, fe_def. lia.
Qed.

Lemma normalize_err z e : (-1074 <= e)%Z -> let f := binary_normalize 53 1024 z e false in
  finite f -> ranged f /\ Qabs (number f - inject_Z z * p2 e) <= u * Qabs (inject_Z z * p2 e).
Proof.
  intros Em. destruct z as [|m|m]; cbn [binary_normalize]; cbn zeta; intros Fi.
  - split; [exact I|]. cbn [number]. setoid_replace (inject_Z 0 * p2 e) with 0 by (change (inject_Z 0) with 0; ring). discriminate.
  - destruct (binary_round_err false m e Em Fi) as [R B]. split; [exact R|]. cbn [sign] in B. now rewrite Qmult_1_l in B.
  - destruct (binary_round_err true m e Em Fi) as [R B]. split; [exact R|]. cbn [sign] in B.
    setoid_replace (inject_Z (Zneg m) * p2 e) with (-(1) * (inject_Z (Zpos m) * p2 e)); [exact B|].
    change (Zneg m) with (- Zpos m)%Z. rewrite inject_Z_opp. ring.
Qed.

Lemma cond_value s m : inject_Z (cond_Zopp s (Zpos m)) == sign s * inject_Z (Zpos m).
Proof. destruct s; cbn [cond_Zopp sign]; [rewrite inject_Z_opp|]; ring. Qed.

Lemma add_err x y : ranged x -> ranged y -> finite (SFadd 53 1024 x y) ->
  finite x /\ finite y /\ ranged (SFadd 53 1024 x y) /\
  Qabs (number (SFadd 53 1024 x y) - (number x + number y)) <= u * Qabs (number x + number y).
Proof.
  assert (Z0 : forall a b, a == b -> Qabs (a - b) <= u * Qabs b).
  { intros a b ->. setoid_replace (b - b) with 0 by ring. apply Qmult_le_0_compat; [discriminate|apply Qabs_nonneg]. }
  destruct x as [sx|sx| |sx mx ex], y as [sy|sy| |sy my ey]; cbn [SFadd ranged]; intros Rx Ry Fi; try contradiction.
  - destruct (Bool.eqb sx sy); (split; [exact I|]; split; [exact I|]; split; [exact I|]); cbn [number]; apply Z0; ring.
  - split; [exact I|]. split; [exact I|]. split; [exact Ry|]. cbn [number]. apply Z0. ring.
  - exfalso. revert Fi. destruct (Bool.eqb sx sy); intros [].
  - split; [exact I|]. split; [exact I|]. split; [exact Rx|]. cbn [number]. apply Z0. ring.
  - pose proof (shl_align_value mx ex (Z.min ex ey)) as Vx. pose proof (shl_align_value my ey (Z.min ex ey)) as Vy.
    destruct (shl_align mx ex (Z.min ex ey)) as [m1 e1]. destruct (shl_align my ey (Z.min ex ey)) as [m2 e2].
    destruct Vx as [Vx Ex], Vy as [Vy Ey]. cbn [fst] in *. replace e1 with (Z.min ex ey) in * by lia. replace e2 with (Z.min ex ey) in * by lia.
    destruct (normalize_err _ (Z.min ex ey) ltac:(lia) Fi) as [R B].
    split; [exact I|]. split; [exact I|]. split; [exact R|].
    assert (inject_Z (cond_Zopp sx (Zpos m1) + cond_Zopp sy (Zpos m2)) * p2 (Z.min ex ey) == number (S754_finite sx mx ex) + number (S754_finite sy my ey)) as V.
    { rewrite inject_Z_plus, !cond_value. cbn [number].
      setoid_replace (sign sx * inject_Z (Zpos mx) * p2 ex) with (sign sx * (inject_Z (Zpos mx) * p2 ex)) by ring. rewrite <- Vx.
      setoid_replace (sign sy * inject_Z (Zpos my) * p2 ey) with (sign sy * (inject_Z (Zpos my) * p2 ey)) by ring. rewrite <- Vy. ring. }
    rewrite V in B. exact B.
Qed.

(* ---- division ---- *)
Lemma new_location_inb m2 q r : (0 < m2)%Z -> (0 <= r < m2)%Z -> inb q (new_location m2 r) (inject_Z q + inject_Z r / inject_Z m2).
Proof.
  intros M R. assert (0 < inject_Z m2) as M0 by (change 0 with (inject_Z 0); rewrite <- Zlt_Qlt; exact M).
  assert (D : inject_Z r / inject_Z m2 * inject_Z m2 == inject_Z r) by (field; lra).
  set (d := inject_Z r / inject_Z m2) in *.
  assert (Cmp : forall c, Z.compare (2 * r) m2 = c -> match c with Lt => d < 1 # 2 | Eq => d == 1 # 2 | Gt => (1 # 2) < d end).
  { intros c Hc. assert (inject_Z (2 * r) == 2 * d * inject_Z m2) as E by (rewrite inject_Z_mult, <- D; change (inject_Z 2) with 2; ring).
    destruct c.
    - apply Z.compare_eq in Hc. rewrite Hc in E. assert (2 * d == 1); [|lra]. apply (Qmult_inj_r _ _ (inject_Z m2)); [lra|]. lra.
    - assert (2 * r < m2)%Z as Hd by (destruct (Z.compare_spec (2 * r) m2); congruence || assumption). rewrite Zlt_Qlt, E in Hd. apply Qnot_le_lt. intros K.
      pose proof (Qmult_le_compat_r (1 # 2) d (inject_Z m2) K ltac:(lra)). lra.
    - assert (m2 < 2 * r)%Z as Hd by (destruct (Z.compare_spec (2 * r) m2); congruence || assumption). rewrite Zlt_Qlt, E in Hd. apply Qnot_le_lt. intros K.
      pose proof (Qmult_le_compat_r d (1 # 2) (inject_Z m2) K ltac:(lra)). lra. }
  assert (d < 1) as D1.
  { apply Qnot_le_lt. intros K. pose proof (Qmult_le_compat_r 1 d (inject_Z m2) K ltac:(lra)) as Q. rewrite D in Q.
    assert (inject_Z r < inject_Z m2) by (rewrite <- Zlt_Qlt; lia). lra. }
  assert (r <> 0%Z -> 0 < d) as D0.
  { intros N. apply Qnot_le_lt. intros K. pose proof (Qmult_le_compat_r d 0 (inject_Z m2) K ltac:(lra)) as Q. rewrite D in Q.
    assert (inject_Z 0 < inject_Z r) as Q2 by (rewrite <- Zlt_Qlt; lia). change (inject_Z 0) with 0 in Q2. lra. }
  assert (r = 0%Z -> d == 0) as Dz.
  { intros ->. unfold d. change (inject_Z 0) with 0. field. lra. }
  unfold new_location. destruct (Z.even m2) eqn:Ev.
  - unfold new_location_even. destruct (Zeq_bool r 0) eqn:Z; [apply Zeq_bool_eq in Z; cbn; specialize (Dz Z); lra|].
    apply Zeq_bool_neq in Z. specialize (D0 Z). specialize (Cmp _ eq_refl). destruct (2 * r ?= m2)%Z; cbn; lra.
  - unfold new_location_odd. destruct (Zeq_bool r 0) eqn:Z; [apply Zeq_bool_eq in Z; cbn; specialize (Dz Z); lra|].
    apply Zeq_bool_neq in Z. specialize (D0 Z).
    assert (2 * r <> m2)%Z as N by (intros <-; rewrite Z.even_mul in Ev; discriminate).
    destruct (Z.compare_spec (2 * r + 1) m2) as [C|C|C].
    + specialize (Cmp Lt ltac:(apply Z.compare_lt_iff; lia)). cbn in *. lra.
    + specialize (Cmp Lt ltac:(apply Z.compare_lt_iff; lia)). cbn in *. lra.
    + specialize (Cmp Gt ltac:(apply Z.compare_gt_iff; lia)). cbn in *. lra.
Qed.

Lemma div_core m1 e1 m2 e2 : let '(q, e, l) := SFdiv_core_binary 53 1024 (Zpos m1) e1 (Zpos m2) e2 in
  exists x, (0 <= q)%Z /\ inb q l x /\ (e <= fe (Zdigits2 q + e))%Z /\ x * p2 e == inject_Z (Zpos m1) * p2 e1 / (inject_Z (Zpos m2) * p2 e2).
Proof.
  unfold SFdiv_core_binary. set (e := Z.min (fe (Zdigits2 (Zpos m1) + e1 - (Zdigits2 (Zpos m2) + e2))) (e1 - e2)).
  set (s := (e1 - e2 - e)%Z). assert (0 <= s)%Z as S0 by (unfold s, e; lia).
  set (m' := match s with Zpos _ => Z.shiftl (Zpos m1) s | Z0 => Zpos m1 | Zneg _ => 0%Z end).
  assert (m' = Zpos m1 * 2 ^ s)%Z as Em.
  { unfold m'. destruct s as [|p|p]; [now rewrite Z.mul_1_r|apply Z.shiftl_mul_pow2; lia|lia]. }
  pose proof (Z_div_mod m' (Zpos m2) ltac:(lia)) as Dm. destruct (Z.div_eucl m' (Zpos m2)) as [q r]. destruct Dm as [Dm Rr].
  assert (0 < m')%Z as Mp. { rewrite Em. apply Z.mul_pos_pos; [lia|]. apply Z.pow_pos_nonneg; lia. }
  assert (0 <= q)%Z as Q0.
  { destruct (Z_lt_le_dec q 0); [|assumption]. exfalso. assert (Zpos m2 * q <= - Zpos m2)%Z by nia. lia. }
  exists (inject_Z q + inject_Z r / inject_Z (Zpos m2)). split; [exact Q0|].
  assert (0 < inject_Z (Zpos m2)) as M2 by reflexivity.
  assert (X : inject_Z q + inject_Z r / inject_Z (Zpos m2) == inject_Z (Zpos m1) * p2 s / inject_Z (Zpos m2)).
  { rewrite (p2_Z s S0), <- inject_Z_mult, <- Em, Dm, inject_Z_plus, inject_Z_mult. field. lra. }
  split; [apply new_location_inb; lia|]. split.
  - rewrite fe_def. destruct (Z_le_dec e (-1074)) as [K|K]; [lia|].
    assert (e <= Zpos (digits2_pos m1) + e1 - (Zpos (digits2_pos m2) + e2) - 53)%Z as Ee.
    { unfold e in K |- *. cbn [Zdigits2] in *. rewrite fe_def in *. lia. }
    enough (53 <= Zdigits2 q)%Z by lia.
    destruct (digits_pos m1) as [L1 _]. destruct (digits_pos m2) as [_ U2].
    assert (p2 52 * inject_Z (Zpos m2) < inject_Z (Zpos m1) * p2 s) as B.
    { apply Qlt_le_trans with (p2 52 * p2 (Zpos (digits2_pos m2))).
      - rewrite !(Qmult_comm (p2 52)). apply Qmult_lt_compat_r; [apply p2_pos|]. lra.
      - rewrite <- p2_plus. apply Qle_trans with (p2 (Zpos (digits2_pos m1) - 1) * p2 s).
        + rewrite <- p2_plus. apply p2_le. unfold s. lia.
        + apply Qmult_le_compat_r; [exact L1|apply Qlt_le_weak, p2_pos]. }
    assert (2 ^ 52 * Zpos m2 < m')%Z as B2.
    { rewrite Zlt_Qlt, Em, !inject_Z_mult, <- !p2_Z by lia. exact B. }
    assert (2 ^ 52 <= q)%Z as B3.
    { destruct (Z_lt_le_dec q (2 ^ 52)) as [K2|K2]; [|assumption]. exfalso.
      assert (Zpos m2 * q <= Zpos m2 * (2 ^ 52 - 1))%Z by (apply Z.mul_le_mono_nonneg_l; lia). lia. }
    pose proof (digits_upper q Q0) as D. destruct (Z_le_dec 53 (Zdigits2 q)) as [|K2]; [assumption|]. exfalso.
    pose proof (p2_le (Zdigits2 q) 52 ltac:(lia)) as P. rewrite Zle_Qle in B3. rewrite <- (p2_Z 52) in B3 by lia. lra.
  - rewrite X. replace e1 with (s + (e + e2))%Z by (unfold s; lia). rewrite !p2_plus. pose proof (p2_pos e2). field. split; lra.
Qed.

Lemma div_err x y : finite (SFdiv 53 1024 x y) -> finite y -> 
  finite x /\ ranged (SFdiv 53 1024 x y) /\
  Qabs (number (SFdiv 53 1024 x y) - number x / number y) <= u * Qabs (number x / number y) + eta /\
  (p2 (-1022) <= Qabs (number x / number y) -> Qabs (number (SFdiv 53 1024 x y) - number x / number y) <= u * Qabs (number x / number y)).
Proof.
  assert (0 < eta) as E0 by apply p2_pos.
  assert (Z0 : forall a, a == 0 -> Qabs (0 - a) <= u * Qabs a + eta /\ (p2 (-1022) <= Qabs a -> Qabs (0 - a) <= u * Qabs a)).
  { intros a ->. change (Qabs (0 - 0)) with 0. change (Qabs 0) with 0. split; [lra|intros _; lra]. }
  destruct x as [sx|sx| |sx mx ex], y as [sy|sy| |sy my ey]; cbn [SFdiv]; intros Fi Fy; try contradiction.
  - (split; [exact I|]; split; [exact I|]); cbn [number]. apply Z0. unfold Qdiv. ring.
  - pose proof (div_core mx ex my ey) as C. destruct (SFdiv_core_binary 53 1024 (Zpos mx) ex (Zpos my) ey) as [[q e] l].
    destruct C as (v & Q0 & B & G & V). destruct (round_err (xorb sx sy) q e l v Q0 B (or_intror G) Fi) as (R & B1 & B2).
    assert (sign (xorb sx sy) * (v * p2 e) == number (S754_finite sx mx ex) / number (S754_finite sy my ey)) as V2.
    { rewrite V, sign_xor. cbn [number]. pose proof (p2_pos ey). assert (0 < inject_Z (Zpos my)) by reflexivity.
      destruct sy; cbn [sign]; field; repeat split; lra. }
    rewrite V2 in B1, B2. split; [exact I|]. split; [exact R|]. split; [exact B1|]. intros K. apply B2. now left.
Qed.

(* ---- results are doubles again, and finite if they are not too large ---- *)
Definition valid (f : spec_float) : Prop := valid_binary 53 1024 f = true.
Lemma valid_finite s m e : valid (S754_finite s m e) <-> (fe (Zpos (digits2_pos m) + e) = e /\ e <= 971)%Z.
Proof.
  unfold valid, valid_binary, bounded, canonical_mantissa. change (1024 - 53)%Z with 971%Z. rewrite andb_true_iff, Z.leb_le.
  split; intros [A B]; (split; [|exact B]); [now apply Zeq_bool_eq|rewrite A; apply Zeq_is_eq_bool; reflexivity].
Qed.
Lemma valid_ranged f : valid f -> ranged f.
Proof. destruct f; cbn; auto. rewrite valid_finite, fe_def. lia. Qed.
Lemma digits_ge n m : (0 <= n)%Z -> (2 ^ n <= Zpos m)%Z -> (n + 1 <= Zpos (digits2_pos m))%Z.
Proof.
  intros N H. destruct (digits_pos m) as [_ U]. rewrite Zle_Qle, <- (p2_Z n N) in H.
  destruct (Z_le_dec (n + 1) (Zpos (digits2_pos m))) as [|K]; [assumption|]. exfalso.
  pose proof (p2_le (Zpos (digits2_pos m)) n ltac:(lia)). lra.
Qed.
Lemma digits_le n m : (0 <= n)%Z -> (Zpos m < 2 ^ n)%Z -> (Zpos (digits2_pos m) <= n)%Z.
Proof.
  intros N H. destruct (digits_pos m) as [L _]. rewrite Zlt_Qlt, <- (p2_Z n N) in H.
  destruct (Z_le_dec (Zpos (digits2_pos m)) n) as [|K]; [assumption|]. exfalso.
  pose proof (p2_le n (Zpos (digits2_pos m) - 1) ltac:(lia)). lra.
Qed.

Lemma round_good sx m e l x : (0 <= m)%Z -> inb m l x -> (e <= fe (Zdigits2 m + e))%Z ->
  let f := binary_round_aux 53 1024 sx m e l in valid f /\ ((Zdigits2 m + e <= 1023)%Z -> finite f).
Proof.
  intros M H C f. unfold f, binary_round_aux.
  pose proof (shr_fexp_in m e l x M H) as S1. destruct (shr_fexp 53 1024 m e l) as [r e'].
  destruct S1 as (E1 & [R0 R1] & _). replace (Z.max e (fe (Zdigits2 m + e))) with (fe (Zdigits2 m + e)) in E1 by lia. rewrite fe_def in E1.
  set (m1 := round_nearest_even (shr_m r) (loc_of_shr_record r)).
  pose proof (rne_range (shr_m r) (loc_of_shr_record r)) as Rg. fold m1 in Rg.
  destruct (inb_range _ _ _ R1) as [Lr Ur]. destruct (inb_range _ _ _ H) as [Lx Ux]. pose proof (digits_upper m M) as D.
  assert (shr_m r < 9007199254740992)%Z as B.
  { rewrite Zlt_Qlt. eapply Qle_lt_trans; [exact Lr|]. change (inject_Z 9007199254740992) with (p2 53).
    apply Qlt_le_trans with (p2 (Zdigits2 m) * p2 (e - e')).
    - apply Qmult_lt_compat_r; [apply p2_pos|]. lra.
    - rewrite <- p2_plus. apply p2_le. lia. }
  assert (-1074 < e' -> 4503599627370496 <= shr_m r)%Z as B2.
  { intros K. rewrite fe_def in C. destruct m as [|m|m]; [cbn in C, E1; lia| |lia]. cbn [Zdigits2] in *.
    destruct (digits_pos m) as [L _]. apply Z.lt_succ_r. unfold Z.succ. rewrite Zlt_Qlt, inject_Z_plus. change (inject_Z 1) with 1.
    eapply Qle_lt_trans; [|exact Ur]. change (inject_Z 4503599627370496) with (p2 52).
    apply Qle_trans with (p2 (Zpos (digits2_pos m) - 1) * p2 (e - e')).
    - rewrite <- p2_plus. apply p2_le. lia.
    - apply Qmult_le_compat_r; [lra|apply Qlt_le_weak, p2_pos]. }
  pose proof (shr_fexp_exact m1 e' ltac:(lia) ltac:(lia)) as S2.
  destruct (shr_fexp 53 1024 m1 e' loc_Exact) as [r2 e2]. destruct S2 as (P2 & V2 & G2 & T2).
  destruct (shr_m r2) as [|p|p] eqn:Er; [split; [reflexivity|intros; exact I]| |lia].
  change (1024 - 53)%Z with 971%Z. destruct (Z.leb e2 971) eqn:O.
  - apply Z.leb_le in O. split; [|intros; exact I]. apply valid_finite. split; [|exact O]. rewrite fe_def.
    destruct G2 as [->|[-> Ep]].
    + assert (Zpos p = m1) as Ep.
      { assert (inject_Z (Zpos p) == inject_Z m1) as Q by (apply (Qmult_inj_r _ _ (p2 e')); [pose proof (p2_pos e'); lra|exact V2]).
        now apply (proj1 (inject_Z_injective _ _)) in Q. }
      pose proof (digits_le 53 p ltac:(lia) T2) as Dp. destruct (Z.eq_dec e' (-1074)) as [K|K]; [lia|].
      pose proof (digits_ge 52 p ltac:(lia) ltac:(change (2 ^ 52)%Z with 4503599627370496%Z; lia)). lia.
    + injection Ep as ->. change (Zpos (digits2_pos 4503599627370496)) with 53%Z. lia.
  - split; [reflexivity|]. intros K. apply Z.leb_gt in O. lia.
Qed.

(* from a bound on the number to the bound on its digits *)
Lemma digits_small m e : 0 < inject_Z (Zpos m) * p2 e -> inject_Z (Zpos m) * p2 e < p2 1023 -> (Zpos (digits2_pos m) + e <= 1023)%Z.
Proof.
  intros _ U. destruct (digits_pos m) as [L _]. destruct (Z_le_dec (Zpos (digits2_pos m) + e) 1023) as [|K]; [assumption|]. exfalso.
  pose proof (p2_le 1023 (Zpos (digits2_pos m) - 1 + e) ltac:(lia)) as Q. rewrite p2_plus in Q.
  pose proof (Qmult_le_compat_r _ _ (p2 e) L ltac:(apply Qlt_le_weak, p2_pos)). lra.
Qed.
Lemma number_abs s m e : Qabs (number (S754_finite s m e)) == inject_Z (Zpos m) * p2 e.
Proof.
  cbn [number]. rewrite <- Qmult_assoc, sign_abs. apply Qabs_pos. apply Qmult_le_0_compat; [discriminate|apply Qlt_le_weak, p2_pos].
Qed.

Lemma mul_valid x y : valid x -> valid y -> valid (SFmul 53 1024 x y) /\
  (finite x -> finite y -> Qabs (number x * number y) < p2 1023 -> finite (SFmul 53 1024 x y)).
Proof.
  destruct x as [sx|sx| |sx mx ex], y as [sy|sy| |sy my ey]; intros Vx Vy; cbn [SFmul finite];
    try (split; [reflexivity|intros; tauto]).
  rewrite valid_finite, fe_def in Vx, Vy.
  assert (Zdigits2 (Zpos (mx * my)) + (ex + ey) <= Zpos (digits2_pos mx) + Zpos (digits2_pos my) + (ex + ey))%Z as Du.
  { apply Z.add_le_mono_r. cbn [Zdigits2]. apply digits_le; [lia|]. rewrite Pos2Z.inj_mul, Z.pow_add_r by lia.
    destruct (digits_pos mx) as [_ Ux], (digits_pos my) as [_ Uy]. rewrite p2_Z in Ux, Uy by lia.
    assert (Zpos mx < 2 ^ Zpos (digits2_pos mx))%Z by (rewrite Zlt_Qlt; lra).
    assert (Zpos my < 2 ^ Zpos (digits2_pos my))%Z by (rewrite Zlt_Qlt; lra).
    apply Z.mul_lt_mono_nonneg; lia. }
  assert (Zpos (digits2_pos mx) - 1 + (Zpos (digits2_pos my) - 1) + 1 <= Zpos (digits2_pos (mx * my)))%Z as Dl.
  { apply digits_ge; [lia|]. rewrite Pos2Z.inj_mul, Z.pow_add_r by lia.
    destruct (digits_pos mx) as [Ux _], (digits_pos my) as [Uy _]. rewrite p2_Z in Ux, Uy by lia. rewrite <- Zle_Qle in Ux, Uy.
    apply Z.mul_le_mono_nonneg; try lia; apply Z.pow_nonneg; lia. }
  destruct (round_good (xorb sx sy) (Zpos (mx * my)) (ex + ey) loc_Exact (inject_Z (Zpos (mx * my))) ltac:(lia) ltac:(reflexivity)
              ltac:(rewrite fe_def; cbn [Zdigits2] in *; lia)) as [G1 G2].
  split; [exact G1|]. intros _ _ K. apply G2. cbn [Zdigits2]. rewrite Qabs_Qmult, !number_abs in K.
  apply digits_small.
  - apply Qmult_lt_0_compat; [reflexivity|apply p2_pos].
  - rewrite Pos2Z.inj_mul, inject_Z_mult, p2_plus.
    setoid_replace (inject_Z (Zpos mx) * inject_Z (Zpos my) * (p2 ex * p2 ey)) with (inject_Z (Zpos mx) * p2 ex * (inject_Z (Zpos my) * p2 ey)) by ring.
    exact K.
Qed.

Lemma align_digits m e e' : let (m', e2) := shl_align m e e' in (Zpos (digits2_pos m') + e2 = Zpos (digits2_pos m) + e)%Z.
Proof.
  pose proof (shl_align_value m e e') as V. destruct (shl_align m e e') as [m' e2] eqn:Q. destruct V as [V E].
  assert (inject_Z (Zpos m') == inject_Z (Zpos m) * p2 (e - e2)) as W.
  { apply (Qmult_inj_r _ _ (p2 e2)); [pose proof (p2_pos e2); lra|]. rewrite V, <- Qmult_assoc, <- p2_plus. now replace (e - e2 + e2)%Z with e by lia. }
  rewrite p2_Z, <- inject_Z_mult in W by lia. apply (proj1 (inject_Z_injective _ _)) in W.
  destruct (digits_pos m) as [L U]. rewrite p2_Z in L, U by lia. rewrite <- Zle_Qle in L.
  assert (Zpos m < 2 ^ Zpos (digits2_pos m))%Z as U' by (rewrite Zlt_Qlt; lra).
  assert (0 < 2 ^ (e - e2))%Z as P by (apply Z.pow_pos_nonneg; lia).
  assert (Zpos (digits2_pos m') <= Zpos (digits2_pos m) + (e - e2))%Z.
  { apply digits_le; [lia|]. rewrite W, Z.pow_add_r by lia. apply Z.mul_lt_mono_pos_r; lia. }
  assert (Zpos (digits2_pos m) - 1 + (e - e2) + 1 <= Zpos (digits2_pos m'))%Z; [|lia].
  apply digits_ge; [lia|]. rewrite W, Z.pow_add_r by lia. apply Z.mul_le_mono_nonneg_r; lia.
Qed.

Lemma binary_round_good s m e : valid (binary_round 53 1024 s m e) /\
  (inject_Z (Zpos m) * p2 e < p2 1023 -> finite (binary_round 53 1024 s m e)).
Proof.
  unfold binary_round. pose proof (shl_align_value m e (fe (Zpos (digits2_pos m) + e))) as V.
  pose proof (align_digits m e (fe (Zpos (digits2_pos m) + e))) as A.
  destruct (shl_align m e (fe (Zpos (digits2_pos m) + e))) as [mz ez]. destruct V as [V Ez].
  destruct (round_good s (Zpos mz) ez loc_Exact (inject_Z (Zpos mz)) ltac:(lia) ltac:(reflexivity) ltac:(cbn [Zdigits2]; rewrite A; lia)) as [G1 G2].
  split; [exact G1|]. intros K. apply G2. cbn [Zdigits2]. apply digits_small; rewrite V; [|exact K].
  apply Qmult_lt_0_compat; [reflexivity|apply p2_pos].
Qed.
Lemma normalize_good z e : valid (binary_normalize 53 1024 z e false) /\
  (Qabs (inject_Z z * p2 e) < p2 1023 -> finite (binary_normalize 53 1024 z e false)).
Proof.
  rewrite Qabs_Qmult, (Qabs_pos (p2 e)) by apply Qlt_le_weak, p2_pos.
  destruct z as [|m|m]; cbn [binary_normalize]; [split; [reflexivity|intros; exact I]| |]; apply binary_round_good.
Qed.

Lemma add_valid x y : valid x -> valid y -> valid (SFadd 53 1024 x y) /\
  (finite x -> finite y -> Qabs (number x + number y) < p2 1023 -> finite (SFadd 53 1024 x y)).
Proof.
  destruct x as [sx|sx| |sx mx ex], y as [sy|sy| |sy my ey]; intros Vx Vy; cbn [SFadd finite];
    try (destruct (Bool.eqb sx sy); (split; [reflexivity|intros; cbn [finite]; tauto]));
    try (split; [first [exact Vx|exact Vy|reflexivity]|intros; tauto]).
  pose proof (shl_align_value mx ex (Z.min ex ey)) as Ax. pose proof (shl_align_value my ey (Z.min ex ey)) as Ay.
  destruct (shl_align mx ex (Z.min ex ey)) as [m1 e1]. destruct (shl_align my ey (Z.min ex ey)) as [m2 e2].
  destruct Ax as [Ax Ex], Ay as [Ay Ey]. cbn [fst] in *. replace e1 with (Z.min ex ey) in * by lia. replace e2 with (Z.min ex ey) in * by lia.
  destruct (normalize_good (cond_Zopp sx (Zpos m1) + cond_Zopp sy (Zpos m2)) (Z.min ex ey)) as [G1 G2].
  split; [exact G1|]. intros _ _ K. apply G2.
  assert (inject_Z (cond_Zopp sx (Zpos m1) + cond_Zopp sy (Zpos m2)) * p2 (Z.min ex ey) == number (S754_finite sx mx ex) + number (S754_finite sy my ey)) as V.
  { rewrite inject_Z_plus, !cond_value. cbn [number].
    setoid_replace (sign sx * inject_Z (Zpos mx) * p2 ex) with (sign sx * (inject_Z (Zpos mx) * p2 ex)) by ring. rewrite <- Ax.
    setoid_replace (sign sy * inject_Z (Zpos my) * p2 ey) with (sign sy * (inject_Z (Zpos my) * p2 ey)) by ring. rewrite <- Ay. ring. }
  rewrite V. exact K.
Qed.
