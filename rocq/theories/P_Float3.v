(** Proofs for C80: counterexamples in binary64, and a library that satisfies the
    specification. *)
From Flocq Require Import Core Relative.
From Verif Require Import Base Sums Matrix M_Variogram M_Init M_Float M_Float2 S_Float P_Variogram P_Float P_Float2.

(** rounding of a number given by its nearest significand *)
Lemma rnd_eq m e x : (-1074 <= e)%Z ->
  bpow radix2 52 <= x * bpow radix2 (- e) < bpow radix2 53 ->
  Rabs (x * bpow radix2 (- e) - IZR m) < / 2 -> rnd64 x = IZR m * bpow radix2 e.
Proof.
  intros He [H1 H2] Hm.
  assert (X : x = x * bpow radix2 (- e) * bpow radix2 e).
  { rewrite Rmult_assoc, <- bpow_plus. replace (- e + e)%Z with 0%Z by lia. cbn. ring. }
  assert (G : bpow radix2 (52 + e) <= x < bpow radix2 (53 + e)).
  { rewrite X, !bpow_plus. split; [apply Rmult_le_compat_r|apply Rmult_lt_compat_r]; try assumption.
    - apply bpow_ge_0. - apply bpow_gt_0. }
  assert (P : 0 < x) by (apply Rlt_le_trans with (2 := proj1 G), bpow_gt_0).
  assert (M : mag radix2 x = (53 + e)%Z :> Z).
  { apply mag_unique. rewrite Rabs_right by lra. replace (53 + e - 1)%Z with (52 + e)%Z by lia. exact G. }
  unfold rnd64, round, scaled_mantissa, cexp, F2R. rewrite M. cbn [Fnum Fexp].
  replace (FLT_exp (-1074) 53 (53 + e)) with e by (unfold FLT_exp; lia).
  rewrite (Znearest_imp _ _ m Hm). reflexivity.
Qed.

Lemma rnd_tie m e x : (-1074 <= e)%Z -> Z.even m = false ->
  bpow radix2 52 <= x * bpow radix2 (- e) < bpow radix2 53 ->
  x * bpow radix2 (- e) = IZR m + / 2 -> rnd64 x = IZR (m + 1) * bpow radix2 e.
Proof.
  intros He Om [H1 H2] Hm.
  assert (X : x = x * bpow radix2 (- e) * bpow radix2 e).
  { rewrite Rmult_assoc, <- bpow_plus. replace (- e + e)%Z with 0%Z by lia. cbn. ring. }
  assert (G : bpow radix2 (52 + e) <= x < bpow radix2 (53 + e)).
  { rewrite X, !bpow_plus. split; [apply Rmult_le_compat_r|apply Rmult_lt_compat_r]; try assumption.
    - apply bpow_ge_0. - apply bpow_gt_0. }
  assert (P : 0 < x) by (apply Rlt_le_trans with (2 := proj1 G), bpow_gt_0).
  assert (M : mag radix2 x = (53 + e)%Z :> Z).
  { apply mag_unique. rewrite Rabs_right by lra. replace (53 + e - 1)%Z with (52 + e)%Z by lia. exact G. }
  unfold rnd64, round, scaled_mantissa, cexp, F2R. rewrite M. cbn [Fnum Fexp].
  replace (FLT_exp (-1074) 53 (53 + e)) with e by (unfold FLT_exp; lia). rewrite Hm.
  f_equal. f_equal. unfold Znearest.
  assert (Fl : Zfloor (IZR m + / 2) = m) by (apply Zfloor_imp; rewrite plus_IZR; lra).
  assert (Ce : Zceil (IZR m + / 2) = (m + 1)%Z).
  { apply Zceil_imp. replace (m + 1 - 1)%Z with m by lia. rewrite plus_IZR. lra. }
  rewrite Fl, Ce. replace (IZR m + / 2 - IZR m) with (/ 2) by ring.
  rewrite Rcompare_Eq by reflexivity. rewrite Om. reflexivity.
Qed.

(** ---- correctly rounded library ---- *)
Definition crlibm : libm := {| m_exp := fun x => rnd64 (exp x); m_pow := fun x e => rnd64 (npow x e) |}.

Lemma npow_nonneg' x e : 0 <= npow x e.
Proof.
  unfold npow. destruct (Reqb_spec x 0); [destruct (Reqb_spec e 0); lra|]. unfold Rpower. left. apply exp_pos.
Qed.
Lemma npow_cube x : 0 <= x -> npow x 3 = x * x * x.
Proof.
  intros H. unfold npow. destruct (Reqb_spec x 0) as [->|N]; [destruct (Reqb_spec 3 0); lra|].
  replace 3 with (INR 3) by (cbn; lra). rewrite Rpower_pow by lra. cbn. ring.
Qed.
Lemma npow_square x : 0 <= x -> npow x 2 = x * x.
Proof.
  intros H. unfold npow. destruct (Reqb_spec x 0) as [->|N]; [destruct (Reqb_spec 2 0); lra|].
  replace 2 with (INR 2) by (cbn; lra). rewrite Rpower_pow by lra. cbn. ring.
Qed.
Lemma rel_err x : bpow radix2 (-1000) <= x -> Rabs (rnd64 x - x) <= bpow radix2 (-50) * x.
Proof.
  intros H. assert (0 < x) by (pose proof (bpow_gt_0 radix2 (-1000)); lra).
  pose proof (relative_error_N_FLT radix2 (-1074) 53 ltac:(reflexivity) (fun n => negb (Z.even n)) x) as E.
  change (round radix2 (FLT_exp (-1074) 53) (Znearest (fun n => negb (Z.even n))) x) with (rnd64 x) in E.
  rewrite (Rabs_right x) in E by lra.
  apply Rle_trans with (1 := E (Rle_trans _ _ _ (bpow_le radix2 (-1074 + 53 - 1) (-1000) ltac:(lia)) H)).
  apply Rmult_le_compat_r; [lra|]. change (/ 2) with (bpow radix2 (-1)). rewrite <- bpow_plus. apply bpow_le. lia.
Qed.
Lemma bpow_cube k : bpow radix2 k * bpow radix2 k * bpow radix2 k = bpow radix2 (k + k + k).
Proof. rewrite !bpow_plus. reflexivity. Qed.

Theorem crlibm_ok : libm_ok crlibm.
Proof.
  constructor; cbn [m_exp m_pow crlibm].
  - intros. apply rnd_format.
  - rewrite exp_0. apply rnd_1.
  - intros. apply rnd_nonneg. left. apply exp_pos.
  - intros x y H. apply rnd_le. destruct H as [H|H]; [left; apply exp_increasing, H|rewrite H; lra].
  - intros. apply rnd_format.
  - intros e He. unfold npow. rewrite Reqb_refl. destruct (Reqb_spec e 0); [lra|]. apply rnd_0.
  - intros. apply rnd_nonneg, npow_nonneg'.
  - intros x y e He [H0 H]. apply rnd_le. unfold npow.
    destruct (Reqb_spec x 0) as [X|X].
    + destruct (Reqb_spec e 0); [lra|]. pose proof (npow_nonneg' y e) as Y. unfold npow in Y.
      destruct (Reqb_spec e 0); [lra|]. exact Y.
    + destruct (Reqb_spec y 0); [lra|]. apply Rle_Rpower_l; lra.
  - intros x H. assert (X : 0 < x) by (pose proof (bpow_gt_0 radix2 (-500)); lra). rewrite npow_square by lra.
    apply Rlt_le_trans with (bpow radix2 (-1000)); [apply bpow_gt_0|].
    apply rnd_ge_id; [apply bpow_b64; lia|].
    change (-1000)%Z with (-500 + -500)%Z. rewrite bpow_plus. apply Rmult_le_compat; try apply bpow_ge_0; assumption.
  - intros x H. assert (X : 0 < x) by (pose proof (bpow_gt_0 radix2 (-300)); lra). rewrite npow_cube by lra.
    apply rel_err. apply Rle_trans with (bpow radix2 (-900)); [apply bpow_le; lia|].
    change (-900)%Z with (-300 + -300 + -300)%Z. rewrite <- bpow_cube.
    apply Rmult_le_compat; try (apply Rmult_le_compat); try apply Rmult_le_pos; try apply bpow_ge_0; assumption.
Qed.

Lemma b64_dyadic m e : (Z.abs m < 2 ^ 53)%Z -> (-1074 <= e)%Z -> b64 (IZR m * bpow radix2 e).
Proof. intros Hm He. apply generic_format_FLT. exists (Float radix2 m e); cbn; [reflexivity|exact Hm|exact He]. Qed.

Lemma bp52 : bpow radix2 (-52) = / 4503599627370496. Proof. reflexivity. Qed.

(** the spherical model at its range: r = 0x1.d81faf8130c42p+0 *)
Definition bad_range : R := IZR 0x1d81faf8130c42 * bpow radix2 (-52).
Lemma bad_range_b64 : b64 bad_range. Proof. apply b64_dyadic; [reflexivity|lia]. Qed.

Lemma bad_three : rnd64 (3 * bad_range) = IZR 6229266921310514 * bpow radix2 (-50).
Proof.
  unfold bad_range. rewrite (rnd_tie 6229266921310513 (-50)); [reflexivity|lia|reflexivity|cbn; lra|].
  cbn. lra.
Qed.
Lemma bad_quot : rnd64 (rnd64 (3 * bad_range) / rnd64 (2 * bad_range)) = IZR 6755399441055745 * bpow radix2 (-52).
Proof.
  rewrite bad_three, (rnd_double _ bad_range_b64). unfold bad_range.
  apply rnd_eq; [lia| |]; cbn.
  - lra.
  - apply Rabs_def1; lra.
Qed.
Lemma half_quot x : b64 x -> x <> 0 -> rnd64 (x / rnd64 (2 * x)) = / 2.
Proof.
  intros F N. rewrite (rnd_double x F). replace (x / (2 * x)) with (/ 2) by (field; exact N).
  apply rnd_id. change (/ 2) with (bpow radix2 (-1)). apply bpow_b64. lia.
Qed.
(** for every library that does not return 0: the value at the range exceeds the sill *)
Theorem spherical_exceeds L : libm_ok L ->
  f_spherical64 L 1 bad_range 0 bad_range = 1 + bpow radix2 (-52).
Proof.
  intros OK. unfold f_spherical64. replace (Rleb bad_range bad_range) with true by (symmetry; apply Rleb_true; lra).
  rewrite bad_quot, half_quot; [|apply (lm_pow_format L OK)|].
  - assert (F : b64 (1 + bpow radix2 (-52))).
    { replace (1 + bpow radix2 (-52)) with (IZR 4503599627370497 * bpow radix2 (-52)) by (cbn; lra).
      apply b64_dyadic; [reflexivity|lia]. }
    replace (IZR 6755399441055745 * bpow radix2 (-52) - / 2) with (1 + bpow radix2 (-52)) by (cbn; lra).
    rewrite (rnd_id _ F), Rmult_1_l, (rnd_id _ F), Rplus_0_r, (rnd_id _ F). reflexivity.
  - assert (B : bpow radix2 (-300) <= bad_range).
    { apply Rle_trans with (bpow radix2 0); [apply bpow_le; lia|]. unfold bad_range. cbn. lra. }
    assert (B1 : 1 <= bad_range) by (unfold bad_range; cbn; lra).
    pose proof (lm_cube L OK bad_range B) as Q. pose proof half_ulp50 as U.
    set (u := bpow radix2 (-50)) in *. intros Z. rewrite Z in Q.
    replace (0 - bad_range * bad_range * bad_range) with (- (bad_range * bad_range * bad_range)) in Q by ring.
    rewrite Rabs_Ropp in Q. set (k := bad_range * bad_range * bad_range) in *.
    assert (1 <= k). { subst k. rewrite <- (Rmult_1_r 1), <- (Rmult_1_r 1) at 1. apply Rmult_le_compat; try lra.
      rewrite <- (Rmult_1_r 1) at 1. apply Rmult_le_compat; lra. }
    rewrite Rabs_right in Q by lra. nra.
Qed.

(** Gaussian model: the two expressions differ *)
Definition g_range : R := IZR 8897819322613760 * bpow radix2 (-52).
Definition g_lag : R := IZR 8806557224762928 * bpow radix2 (-79).
Lemma g_range_b64 : b64 g_range. Proof. apply b64_dyadic; [reflexivity|lia]. Qed.
Lemma g_lag_b64 : b64 g_lag. Proof. apply b64_dyadic; [reflexivity|lia]. Qed.
Lemma g_s : rnd64 (rnd64 (g_range * 4) / 7) = IZR 5084468184350720 * bpow radix2 (-52).
Proof.
  unfold g_range. rewrite (rnd_eq 8897819322613760 (-50) (_ * 4)); [|lia|cbn; lra|cbn; apply Rabs_def1; lra]. apply rnd_eq; [lia| |]; cbn; [lra|apply Rabs_def1; lra].
Qed.
Lemma g_s2 : rnd64 (npow (IZR 5084468184350720 * bpow radix2 (-52)) 2) = IZR 5740256429670400 * bpow radix2 (-52).
Proof.
  rewrite npow_square by (cbn; lra). apply rnd_eq; [lia| |]; cbn; [lra|apply Rabs_def1; lra].
Qed.
Lemma g_d2 : rnd64 (g_lag * g_lag) = IZR 8610384644505600 * bpow radix2 (-105).
Proof. unfold g_lag. apply rnd_eq; [lia| |]; cbn; [lra|apply Rabs_def1; lra]. Qed.
Lemma g_tp : rnd64 (- (IZR 8610384644505600 * bpow radix2 (-105)) / (IZR 5740256429670400 * bpow radix2 (-52)))
  = - (3 * bpow radix2 (-54)).
Proof.
  match goal with |- rnd64 (- ?a / ?b) = _ => replace (- a / b) with (- (a / b)) by (unfold Rdiv; ring) end.
  rewrite rnd_opp. f_equal.
  rewrite (rnd_eq 6755399441055744 (-105)); [cbn; lra|lia| |]; cbn; [lra|apply Rabs_def1; lra].
Qed.
Lemma g_q : rnd64 (g_lag / (IZR 5084468184350720 * bpow radix2 (-52))) = IZR 7800463371553963 * bpow radix2 (-79).
Proof. unfold g_lag. apply rnd_eq; [lia| |]; cbn; [lra|apply Rabs_def1; lra]. Qed.
Lemma g_tc : rnd64 (npow (IZR 7800463371553963 * bpow radix2 (-79)) 2) = IZR 6755399441055745 * bpow radix2 (-105).
Proof.
  rewrite npow_square by (cbn; lra). apply rnd_eq; [lia| |]; cbn; [lra|apply Rabs_def1; lra].
Qed.

Lemma exp_neg_lower t : t <> 0 -> 1 - t < exp (- t).
Proof. intros H. replace (1 - t) with (1 + - t) by ring. apply exp_ineq1. lra. Qed.
Lemma exp_neg_upper t : 0 <= t -> exp (- t) <= 1 - t + 3 / 4 * (t * t).
Proof.
  intros H. pose proof (exp_ineq1_le (t / 2)) as E. rewrite exp_Ropp.
  replace t with (t / 2 + t / 2) at 1 by field. rewrite exp_plus.
  apply Rle_trans with (/ ((1 + t / 2) * (1 + t / 2))).
  - apply Rinv_le_contravar; [nra|]. apply Rmult_le_compat; lra.
  - apply Rmult_le_reg_r with ((1 + t / 2) * (1 + t / 2)); [nra|]. rewrite Rinv_l by nra.
    assert (0 <= t * t * t) by (apply Rmult_le_pos; [apply Rmult_le_pos|]; assumption).
    assert (0 <= t * t * t * t) by (apply Rmult_le_pos; assumption). lra.
Qed.

Lemma g_ep : rnd64 (exp (- (3 * bpow radix2 (-54)))) = 1 - bpow radix2 (-53).
Proof.
  pose proof (exp_neg_lower (3 * bpow radix2 (-54)) ltac:(cbn; lra)) as A.
  pose proof (exp_neg_upper (3 * bpow radix2 (-54)) ltac:(cbn; lra)) as B.
  set (x := exp (- (3 * bpow radix2 (-54)))) in *. clearbody x. cbn in A, B.
  rewrite (rnd_eq 9007199254740991 (-53)); [cbn; lra|lia| |]; cbn; [lra|apply Rabs_def1; lra].
Qed.
Lemma g_ec : rnd64 (exp (- (IZR 6755399441055745 * bpow radix2 (-105)))) = 1 - bpow radix2 (-52).
Proof.
  pose proof (exp_neg_lower (IZR 6755399441055745 * bpow radix2 (-105)) ltac:(cbn; lra)) as A.
  pose proof (exp_neg_upper (IZR 6755399441055745 * bpow radix2 (-105)) ltac:(cbn; lra)) as B.
  set (x := exp (- (IZR 6755399441055745 * bpow radix2 (-105)))) in *. clearbody x. cbn in A, B.
  rewrite (rnd_eq 9007199254740990 (-53)); [cbn; lra|lia| |]; cbn; [lra|apply Rabs_def1; lra].
Qed.
Lemma tail_one x : b64 x -> rnd64 (rnd64 (1 * x) + 0) = x.
Proof. intros F. rewrite Rmult_1_l, (rnd_id x F), Rplus_0_r. apply rnd_id, F. Qed.
Theorem gaussian_py : f_gaussian64 crlibm 1 g_range 0 g_lag = bpow radix2 (-53).
Proof.
  unfold f_gaussian64. cbn [m_exp m_pow crlibm]. rewrite g_s, g_s2, g_d2, g_tp, g_ep.
  replace (1 - (1 - bpow radix2 (-53))) with (bpow radix2 (-53)) by ring.
  assert (F : b64 (bpow radix2 (-53))) by (apply bpow_b64; lia). rewrite (rnd_id _ F). apply tail_one, F.
Qed.
Theorem gaussian_c : c_gaussian64 crlibm 1 g_range 0 g_lag = bpow radix2 (-52).
Proof.
  unfold c_gaussian64. cbn [m_exp m_pow crlibm]. rewrite g_s, g_q, g_tc, g_ec.
  replace (1 - (1 - bpow radix2 (-52))) with (bpow radix2 (-52)) by ring.
  assert (F : b64 (bpow radix2 (-52))) by (apply bpow_b64; lia). rewrite (rnd_id _ F). apply tail_one, F.
Qed.
