(** Proofs for C80: variogram functions in binary64. *)
From Flocq Require Import Core.
From Verif Require Import Base Sums Matrix M_Init M_Float M_Float2 S_Float P_Float.

Lemma b64_0 : b64 0. Proof. apply generic_format_0. Qed.
Lemma b64_bpow_nat e : (-1074 <= e)%Z -> b64 (bpow radix2 e). Proof. apply bpow_b64. Qed.
Lemma b64_1 : b64 1. Proof. change 1 with (bpow radix2 0). apply bpow_b64. lia. Qed.
Lemma b64_double x : b64 x -> b64 (2 * x).
Proof.
  intros H. apply FLT_format_generic in H; [|exact prec53]. destruct H as [f Hx Hm He].
  apply generic_format_FLT. exists (Float radix2 (Fnum f) (Fexp f + 1)); cbn.
  - rewrite Hx. unfold F2R. cbn. rewrite bpow_plus. cbn. ring.
  - exact Hm.
  - lia.
Qed.
Lemma b64_opp x : b64 x -> b64 (- x). Proof. apply generic_format_opp. Qed.
Lemma rnd_double x : b64 x -> rnd64 (2 * x) = 2 * x. Proof. intros H. apply rnd_id, b64_double, H. Qed.
Lemma rnd_1 : rnd64 1 = 1. Proof. apply rnd_id, b64_1. Qed.
Lemma rnd_opp x : rnd64 (- x) = - rnd64 x. Proof. apply round_NE_opp. Qed.
Lemma rnd_nonpos x : x <= 0 -> rnd64 x <= 0. Proof. intros H. rewrite <- rnd_0. apply rnd_le, H. Qed.
Lemma rnd_le_id x y : b64 y -> x <= y -> rnd64 x <= y.
Proof. intros B H. rewrite <- (rnd_id y B). apply rnd_le, H. Qed.
Lemma rnd_ge_id x y : b64 x -> x <= y -> x <= rnd64 y.
Proof. intros B H. rewrite <- (rnd_id x B) at 1. apply rnd_le, H. Qed.

Lemma div_nonneg a b : 0 <= a -> 0 <= b -> 0 <= a / b.
Proof.
  intros H1 [H|H]; unfold Rdiv; [|rewrite <- H, Rinv_0; lra].
  apply Rmult_le_pos; [exact H1|]. left. apply Rinv_0_lt_compat, H.
Qed.
Lemma div_mono a b c : a <= b -> 0 <= c -> a / c <= b / c.
Proof.
  intros H1 [H|H]; unfold Rdiv; [|rewrite <- H, Rinv_0; lra].
  apply Rmult_le_compat_r; [|exact H1]. left. apply Rinv_0_lt_compat, H.
Qed.

Section VG.
Context (L : libm) (OK : libm_ok L).

Lemma exp_le1 x : x <= 0 -> m_exp L x <= 1.
Proof. intros H. rewrite <- (lm_exp_zero L OK). apply (lm_exp_mono L OK), H. Qed.

(** the tail of every function: psill * w + nugget *)
Lemma tail_mono p c w w' : 0 <= p -> w <= w' -> rnd64 (rnd64 (p * w) + c) <= rnd64 (rnd64 (p * w') + c).
Proof. intros Hp H. apply rnd_le, Rplus_le_compat_r, rnd_le, Rmult_le_compat_l; assumption. Qed.
Lemma tail_zero p c : b64 c -> rnd64 (rnd64 (p * 0) + c) = c.
Proof. intros H. rewrite Rmult_0_r, rnd_0, Rplus_0_l. apply rnd_id, H. Qed.
Lemma tail_lower p c w : b64 c -> 0 <= p -> 0 <= w -> c <= rnd64 (rnd64 (p * w) + c).
Proof. intros B Hp H. rewrite <- (tail_zero p c B) at 1. apply tail_mono; assumption. Qed.
Lemma tail_upper p c w : b64 p -> 0 <= p -> w <= 1 -> rnd64 (rnd64 (p * w) + c) <= rnd64 (p + c).
Proof.
  intros B Hp H. replace p with (rnd64 (p * 1)) at 2 by (rewrite Rmult_1_r; apply rnd_id, B).
  apply tail_mono; assumption.
Qed.

Lemma neg_div d s : 0 <= d -> 0 <= s -> rnd64 (- d / s) <= 0.
Proof.
  intros H1 H2. apply rnd_nonpos. replace (- d / s) with (- (d / s)) by (unfold Rdiv; ring).
  pose proof (div_nonneg d s H1 H2). lra.
Qed.
Lemma one_minus e : 0 <= e <= 1 -> 0 <= rnd64 (1 - e) <= 1.
Proof. intros H. split; [apply rnd_nonneg; lra|]. apply rnd_le_id; [apply b64_1|lra]. Qed.

Section Exponential.
Variables p r c : R.
Hypothesis (Hp : 0 <= p) (Hr : 0 <= r) (Fp : b64 p) (Fc : b64 c).
Lemma r3 : 0 <= rnd64 (r / 3). Proof. apply rnd_nonneg, div_nonneg; lra. Qed.
Lemma exponential_zero : f_exponential64 L p r c 0 = c.
Proof.
  unfold f_exponential64. replace (- 0 / rnd64 (r / 3)) with 0 by (unfold Rdiv; ring).
  rewrite rnd_0, (lm_exp_zero L OK), Rminus_diag_eq, rnd_0 by reflexivity. apply tail_zero, Fc.
Qed.
Lemma exponential_mono d e : 0 <= d <= e -> f_exponential64 L p r c d <= f_exponential64 L p r c e.
Proof.
  intros H. apply tail_mono; [exact Hp|]. apply rnd_le. apply Rplus_le_compat_l, Ropp_le_contravar.
  apply (lm_exp_mono L OK), rnd_le, div_mono; [lra|apply r3].
Qed.
Lemma exponential_range d : 0 <= d -> c <= f_exponential64 L p r c d <= rnd64 (p + c).
Proof.
  intros H. assert (0 <= rnd64 (1 - m_exp L (rnd64 (- d / rnd64 (r / 3)))) <= 1).
  { apply one_minus. split; [apply (lm_exp_nonneg L OK)|]. apply exp_le1, neg_div; [exact H|apply r3]. }
  split; [apply tail_lower|apply tail_upper]; tauto.
Qed.
Lemma hole_zero : f_hole64 L p r c 0 = c.
Proof.
  unfold f_hole64. replace (- 0 / rnd64 (r / 3)) with 0 by (unfold Rdiv; ring).
  replace (0 / rnd64 (r / 3)) with 0 by (unfold Rdiv; ring).
  rewrite rnd_0, (lm_exp_zero L OK), Rminus_0_r, rnd_1, Rmult_1_r, rnd_1, Rminus_diag_eq, rnd_0 by reflexivity.
  apply tail_zero, Fc.
Qed.
Lemma hole_lower d : 0 <= d -> c <= f_hole64 L p r c d.
Proof.
  intros H. apply tail_lower; [exact Fc|exact Hp|]. apply rnd_nonneg.
  set (t := rnd64 (d / rnd64 (r / 3))).
  assert (T : 0 <= t) by (apply rnd_nonneg, div_nonneg; [exact H|apply r3]).
  assert (U : rnd64 (1 - t) <= 1) by (apply rnd_le_id; [apply b64_1|lra]).
  set (e := m_exp L (rnd64 (- d / rnd64 (r / 3)))).
  assert (E : 0 <= e <= 1) by (split; [apply (lm_exp_nonneg L OK)|apply exp_le1, neg_div; [exact H|apply r3]]).
  assert (rnd64 (rnd64 (1 - t) * e) <= 1); [|lra].
  apply rnd_le_id; [apply b64_1|]. destruct E as [E0 E1]. destruct (Rle_or_lt 0 (rnd64 (1 - t))) as [Y|Y].
  2: { pose proof (Rmult_le_compat_r e (rnd64 (1 - t)) 0 E0 (Rlt_le _ _ Y)) as Z. rewrite Rmult_0_l in Z.
       apply Rle_trans with 0; [exact Z|lra]. }
  apply Rle_trans with (1 * 1); [|lra]. apply Rmult_le_compat; assumption.
Qed.
End Exponential.

Section Gaussian.
Variables p r c : R.
Hypothesis (Hp : 0 <= p) (Hr : 0 <= r) (Fp : b64 p) (Fc : b64 c).
Let s := rnd64 (rnd64 (r * 4) / 7).
Lemma s_nonneg : 0 <= s. Proof. apply rnd_nonneg, div_nonneg; [apply rnd_nonneg; lra|lra]. Qed.
Lemma s2 : 0 <= m_pow L s 2. Proof. apply (lm_pow_nonneg L OK), s_nonneg. Qed.
Lemma gaussian_zero : f_gaussian64 L p r c 0 = c.
Proof.
  unfold f_gaussian64. fold s. rewrite Rmult_0_r, rnd_0.
  replace (- 0 / m_pow L s 2) with 0 by (unfold Rdiv; ring).
  rewrite rnd_0, (lm_exp_zero L OK), Rminus_diag_eq, rnd_0 by reflexivity. apply tail_zero, Fc.
Qed.
Lemma gaussian_mono d e : 0 <= d <= e -> f_gaussian64 L p r c d <= f_gaussian64 L p r c e.
Proof.
  intros H. apply tail_mono; [exact Hp|]. apply rnd_le. apply Rplus_le_compat_l, Ropp_le_contravar.
  apply (lm_exp_mono L OK), rnd_le, div_mono; [|apply s2].
  apply Ropp_le_contravar, rnd_le. apply Rmult_le_compat; lra.
Qed.
Lemma gaussian_range d : 0 <= d -> c <= f_gaussian64 L p r c d <= rnd64 (p + c).
Proof.
  intros H. assert (0 <= rnd64 (1 - m_exp L (rnd64 (- rnd64 (d * d) / m_pow L s 2))) <= 1).
  { apply one_minus. split; [apply (lm_exp_nonneg L OK)|]. apply exp_le1, neg_div; [|apply s2].
    apply rnd_nonneg. apply Rmult_le_pos; assumption. }
  split; [apply tail_lower|apply tail_upper]; tauto.
Qed.
Lemma cgaussian_zero : c_gaussian64 L p r c 0 = c.
Proof.
  unfold c_gaussian64. fold s. replace (0 / s) with 0 by (unfold Rdiv; ring).
  rewrite rnd_0, (lm_pow_zero L OK) by lra. rewrite Ropp_0, (lm_exp_zero L OK), Rminus_diag_eq, rnd_0 by reflexivity.
  apply tail_zero, Fc.
Qed.
Lemma cgaussian_mono d e : 0 <= d <= e -> c_gaussian64 L p r c d <= c_gaussian64 L p r c e.
Proof.
  intros H. apply tail_mono; [exact Hp|]. apply rnd_le. apply Rplus_le_compat_l, Ropp_le_contravar.
  apply (lm_exp_mono L OK), Ropp_le_contravar, (lm_pow_mono L OK); [lra|].
  split; [apply rnd_nonneg, div_nonneg; [lra|apply s_nonneg]|]. apply rnd_le, div_mono; [lra|apply s_nonneg].
Qed.
Lemma cgaussian_range d : 0 <= d -> c <= c_gaussian64 L p r c d <= rnd64 (p + c).
Proof.
  intros H. assert (0 <= rnd64 (1 - m_exp L (- m_pow L (rnd64 (d / s)) 2)) <= 1).
  { apply one_minus. split; [apply (lm_exp_nonneg L OK)|]. apply exp_le1.
    assert (0 <= m_pow L (rnd64 (d / s)) 2); [|lra].
    apply (lm_pow_nonneg L OK), rnd_nonneg, div_nonneg; [exact H|apply s_nonneg]. }
  split; [apply tail_lower|apply tail_upper]; tauto.
Qed.
End Gaussian.

Section Spherical.
Variables p r c : R.
Hypothesis (Hp : 0 <= p) (Hr : bpow radix2 (-300) <= r) (Fp : b64 p) (Fr : b64 r) (Fc : b64 c).
Lemma r_pos : 0 < r. Proof. pose proof (bpow_gt_0 radix2 (-300)). lra. Qed.
Lemma spherical_zero : f_spherical64 L p r c 0 = c.
Proof.
  unfold f_spherical64. pose proof r_pos as Hr'. replace (Rleb 0 r) with true by (symmetry; apply Rleb_true; lra).
  rewrite Rmult_0_r, rnd_0, (lm_pow_zero L OK) by lra. unfold Rdiv. rewrite !Rmult_0_l, !rnd_0, Rminus_0_r, rnd_0.
  apply tail_zero, Fc.
Qed.
Lemma spherical_beyond d : r < d -> f_spherical64 L p r c d = rnd64 (p + c).
Proof. intros H. unfold f_spherical64. replace (Rleb d r) with false; [reflexivity|]. symmetry. apply Rleb_false. lra. Qed.
Lemma half_ulp50 : bpow radix2 (-50) <= / 8. Proof. cbn. lra. Qed.
Lemma spherical_weight d : b64 d -> bpow radix2 (-300) <= d <= r ->
  0 <= rnd64 (rnd64 (rnd64 (3 * d) / rnd64 (2 * r)) - rnd64 (m_pow L d 3 / rnd64 (2 * m_pow L r 3))).
Proof.
  intros Fd H. apply rnd_nonneg. apply Rge_le, Rge_minus, Rle_ge, rnd_le.
  pose proof r_pos as R0. assert (D0 : 0 < d) by (pose proof (bpow_gt_0 radix2 (-300)); lra).
  rewrite !rnd_double by (assumption || apply (lm_pow_format L OK)).
  pose proof (lm_cube L OK d ltac:(lra)) as Cd. pose proof (lm_cube L OK r ltac:(lra)) as Cr.
  pose proof half_ulp50 as U. set (u := bpow radix2 (-50)) in *.
  assert (U0 : 0 <= u) by (apply bpow_ge_0).
  set (Pd := m_pow L d 3) in *. set (Pr := m_pow L r 3) in *.
  assert (Kd : 0 < d * d * d) by (apply Rmult_lt_0_compat; [apply Rmult_lt_0_compat|]; assumption).
  assert (Kr : 0 < r * r * r) by (apply Rmult_lt_0_compat; [apply Rmult_lt_0_compat|]; assumption).
  assert (Pd' : Pd <= d * d * d * (9 / 8)).
  { pose proof (Rle_abs (Pd - d * d * d)). nra. }
  assert (Pr' : r * r * r * (7 / 8) <= Pr).
  { pose proof (Rle_abs (- (Pr - r * r * r))) as A. rewrite Rabs_Ropp in A. nra. }
  assert (PP : 0 < Pr) by lra.
  apply Rle_trans with (d / r).
  - apply Rle_trans with (d * d * d * (9 / 8) / (2 * (r * r * r * (7 / 8)))).
    + unfold Rdiv. apply Rmult_le_compat; [|left; apply Rinv_0_lt_compat; lra|exact Pd'|apply Rinv_le_contravar; lra].
      subst Pd. apply (lm_pow_nonneg L OK). lra.
    + replace (d * d * d * (9 / 8) / (2 * (r * r * r * (7 / 8)))) with (d / r * ((d * d) / (r * r) * (9 / 14))) by (field; lra).
      rewrite <- (Rmult_1_r (d / r)) at 2. apply Rmult_le_compat_l; [apply div_nonneg; lra|].
      assert ((d * d) / (r * r) <= 1); [|lra]. apply Rmult_le_reg_r with (r * r); [nra|].
      replace (d * d / (r * r) * (r * r)) with (d * d) by (field; lra). nra.
  - assert (2 * d <= rnd64 (3 * d)) by (apply rnd_ge_id; [apply b64_double, Fd|lra]).
    replace (d / r) with (2 * d / (2 * r)) by (field; lra). apply div_mono; lra.
Qed.
Lemma spherical_lower d : b64 d -> d = 0 \/ bpow radix2 (-300) <= d -> c <= f_spherical64 L p r c d.
Proof.
  intros Fd [->|H].
  - rewrite spherical_zero. lra.
  - destruct (Rle_dec d r) as [Hd|Hd].
    + unfold f_spherical64. replace (Rleb d r) with true by (symmetry; apply Rleb_true; lra).
      apply tail_lower; [exact Fc|exact Hp|]. apply spherical_weight; [exact Fd|lra].
    + rewrite spherical_beyond by lra. apply rnd_ge_id; [exact Fc|lra].
Qed.
End Spherical.

Lemma power_zero a e c : 0 < e -> b64 c -> f_power64 L a e c 0 = c.
Proof. intros He Fc. unfold f_power64. rewrite (lm_pow_zero L OK) by exact He. apply tail_zero, Fc. Qed.
Lemma power_mono a e c d d' : 0 <= a -> 0 < e -> 0 <= d <= d' -> f_power64 L a e c d <= f_power64 L a e c d'.
Proof. intros Ha He H. apply tail_mono; [exact Ha|]. apply (lm_pow_mono L OK); assumption. Qed.
Lemma linear_zero a c : b64 c -> f_linear64 a c 0 = c.
Proof. apply tail_zero. Qed.
Lemma linear_mono a c d d' : 0 <= a -> 0 <= d <= d' -> f_linear64 a c d <= f_linear64 a c d'.
Proof. intros Ha H. apply tail_mono; tauto. Qed.
End VG.
