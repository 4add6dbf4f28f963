(** Proofs for C34 in binary64. *)
From Flocq Require Import Core.
From Verif Require Import Base Sums M_Init M_Float P_Binning P_Fit.

Notation fexp := (FLT_exp (-1074) 53).
Global Instance prec53 : Prec_gt_0 53. Proof. reflexivity. Qed.

Lemma rnd_le x y : x <= y -> rnd64 x <= rnd64 y.
Proof. apply round_le; auto with typeclass_instances. Qed.
Lemma rnd_id x : b64 x -> rnd64 x = x.
Proof. apply round_generic; auto with typeclass_instances. Qed.
Lemma rnd_0 : rnd64 0 = 0.
Proof. apply round_0; auto with typeclass_instances. Qed.
Lemma rnd_nonneg x : 0 <= x -> 0 <= rnd64 x.
Proof. intros H. rewrite <- rnd_0. apply rnd_le, H. Qed.
Lemma rnd_format x : b64 (rnd64 x).
Proof. apply generic_format_round; auto with typeclass_instances. Qed.

Lemma fops_amax l : amax_gen Fops l = amax_gen Rops l. Proof. reflexivity. Qed.
Lemma fops_amin l : amin_gen Fops l = amin_gen Rops l. Proof. reflexivity. Qed.

Lemma bpow_b64 e : (-1074 <= e)%Z -> b64 (bpow radix2 e).
Proof. intros H. apply generic_format_bpow. unfold FLT_exp. lia. Qed.

Lemma bp (p : positive) : bpow radix2 (Z.neg p) = / IZR (Z.pow_pos 2 p). Proof. reflexivity. Qed.

(** 0.001 is rounded to something above 2^-10 and below 2^-9 *)
Lemma milli_bounds : bpow radix2 (-10) < rnd64 (/ 1000) < bpow radix2 (-9).
Proof.
  assert (F1 : b64 (F2R (Float radix2 1025 (-20)))).
  { apply generic_format_F2R. intros _. unfold cexp, FLT_exp.
    assert (M : (mag radix2 (F2R (Float radix2 1025 (-20))) <= -9)%Z).
    { apply mag_le_bpow; [unfold F2R; cbn; rewrite ?bp; cbn; lra|]. unfold F2R. cbn -[Rabs]. rewrite Rabs_right by lra. lra. }
    cbn [Fexp]. lia. }
  assert (F2 : b64 (F2R (Float radix2 1027 (-20)))).
  { apply generic_format_F2R. intros _. unfold cexp, FLT_exp.
    assert (M : (mag radix2 (F2R (Float radix2 1027 (-20))) <= -9)%Z).
    { apply mag_le_bpow; [unfold F2R; cbn; lra|]. unfold F2R. cbn -[Rabs]. rewrite Rabs_right by lra. lra. }
    cbn [Fexp]. lia. }
  split.
  - apply Rlt_le_trans with (F2R (Float radix2 1025 (-20))).
    + unfold F2R. cbn. lra.
    + rewrite <- (rnd_id _ F1). apply rnd_le. unfold F2R. cbn. lra.
  - apply Rle_lt_trans with (bpow radix2 (-10) + bpow radix2 (-11)).
    + assert (F3 : b64 (bpow radix2 (-10) + bpow radix2 (-11))).
      { replace (bpow radix2 (-10) + bpow radix2 (-11)) with (F2R (Float radix2 3 (-11))) by (unfold F2R; cbn; lra).
        apply generic_format_F2R. intros _. unfold cexp, FLT_exp.
        assert (M : (mag radix2 (F2R (Float radix2 3 (-11))) <= -9)%Z).
        { apply mag_le_bpow; [unfold F2R; cbn; lra|]. unfold F2R. cbn -[Rabs]. rewrite Rabs_right by lra. lra. }
        cbn [Fexp]. lia. }
      rewrite <- (rnd_id _ F3). apply rnd_le. cbn. lra.
    + cbn. lra.
Qed.

Lemma ulp_small x : 0 <= x -> x < bpow radix2 44 -> ulp radix2 fexp x <= bpow radix2 (-9).
Proof.
  intros H0 H. destruct (Req_dec x 0) as [->|NZ].
  - rewrite ulp_FLT_0 by reflexivity. apply bpow_le. lia.
  - rewrite ulp_neq_0 by exact NZ. apply bpow_le. unfold cexp, FLT_exp.
    assert (M : (mag radix2 x <= 44)%Z) by (apply mag_le_bpow; [exact NZ|rewrite Rabs_right by lra; exact H]). lia.
Qed.

Theorem last_limit_above x : b64 x -> 0 <= x -> x < bpow radix2 44 -> x < rnd64 (x + rnd64 (/ 1000)).
Proof.
  intros F H0 H. pose proof milli_bounds as MB.
  assert (S1 : succ radix2 fexp x = x + ulp radix2 fexp x) by (apply succ_eq_pos; exact H0).
  assert (U : 0 < ulp radix2 fexp x).
  { destruct (Req_dec x 0) as [->|NZ]; [rewrite ulp_FLT_0 by reflexivity; apply bpow_gt_0|]. rewrite ulp_neq_0 by exact NZ. apply bpow_gt_0. }
  apply Rlt_le_trans with (succ radix2 fexp x); [rewrite S1; lra|].
  apply round_N_ge_midp.
  - auto with typeclass_instances.
  - apply generic_format_succ; auto with typeclass_instances.
  - rewrite pred_succ by (auto with typeclass_instances). rewrite S1. pose proof (ulp_small x H0 H) as US.
    assert (B : bpow radix2 (-9) = 2 * bpow radix2 (-10)) by (cbn; lra). lra.
Qed.

Section bins.
Variables (dmin dmax : R) (nlags : nat).
Hypothesis Fmin : b64 dmin.
Hypothesis Hmm : dmin <= dmax.

Lemma limit_0 : (1 <= nlags)%nat -> bin_limit Fops dmin dmax nlags 0 = dmin.
Proof.
  intros H. unfold bin_limit. destruct (Nat.ltb_spec 0 nlags); [|lia]. cbn [n_add n_mul n_of_nat Fops]. cbn [INR].
  rewrite rnd_0, Rmult_0_l, rnd_0, Rplus_0_r. apply rnd_id, Fmin.
Qed.
Lemma limit_mono k : (S k < nlags)%nat -> bin_limit Fops dmin dmax nlags k <= bin_limit Fops dmin dmax nlags (S k).
Proof.
  intros H. unfold bin_limit. destruct (Nat.ltb_spec k nlags); [|lia]. destruct (Nat.ltb_spec (S k) nlags); [|lia].
  cbn [n_add n_mul n_of_nat n_div n_sub Fops]. apply rnd_le, Rplus_le_compat_l, rnd_le, Rmult_le_compat_r.
  - apply rnd_nonneg. unfold Rdiv. apply Rmult_le_pos; [apply rnd_nonneg; lra|]. 
    assert (1 <= rnd64 (INR nlags)).
    { rewrite <- (rnd_id 1). 2: { replace 1 with (bpow radix2 0) by reflexivity. apply bpow_b64. lia. }
      apply rnd_le. change 1 with (INR 1). apply le_INR. lia. }
    left. apply Rinv_0_lt_compat. lra.
  - apply rnd_le. apply le_INR. lia.
Qed.
Lemma limit_last : bin_limit Fops dmin dmax nlags nlags = rnd64 (dmax + rnd64 (/ 1000)).
Proof. unfold bin_limit. rewrite Nat.ltb_irrefl. reflexivity. Qed.

Theorem float_bin_once d : (1 <= nlags)%nat -> b64 dmax -> 0 <= dmin -> dmax < bpow radix2 44 -> dmin <= d <= dmax ->
  exists k, (k < nlags)%nat /\ in_bin Fops dmin dmax nlags k d = true /\
    forall k', (k' < nlags)%nat -> in_bin Fops dmin dmax nlags k' d = true -> k' = k.
Proof.
  intros Hn Fmax H0 HB Hd.
  assert (IB : forall k, in_bin Fops dmin dmax nlags k d = true <-> bin_limit Fops dmin dmax nlags k <= d /\ d < bin_limit Fops dmin dmax nlags (S k)).
  { intros k. unfold in_bin. rewrite andb_true_iff. cbn [n_leb n_ltb Fops]. rewrite Rleb_true, Rltb_true. reflexivity. }
  destruct (class_exists (bin_limit Fops dmin dmax nlags) d nlags) as (k & Hk & H1 & H2).
  - rewrite limit_0 by exact Hn. lra.
  - rewrite limit_last. apply Rle_lt_trans with dmax; [lra|]. apply last_limit_above; [exact Fmax|lra|exact HB].
  - exists k. split; [exact Hk|]. split; [apply IB; split; assumption|].
    intros k' Hk' Hin. apply IB in Hin. destruct Hin as [H3 H4].
    apply (class_unique (bin_limit Fops dmin dmax nlags) d nlags k' k); try assumption. apply limit_mono.
Qed.
End bins.

(** the last limit is absorbed *)
Lemma absorbed : rnd64 (bpow radix2 44 + rnd64 (/ 1000)) = bpow radix2 44.
Proof.
  pose proof milli_bounds as MB.
  assert (F : b64 (bpow radix2 44)) by (apply bpow_b64; lia).
  apply Rle_antisym.
  - apply round_N_le_midp; [auto with typeclass_instances|exact F|].
    rewrite succ_eq_pos by (apply bpow_ge_0). rewrite ulp_bpow.
    replace (fexp (44 + 1)%Z) with (-8)%Z by reflexivity.
    assert (bpow radix2 (-8) = 2 * bpow radix2 (-9)) by (cbn; lra). lra.
  - rewrite <- (rnd_id _ F) at 1. apply rnd_le. pose proof (bpow_gt_0 radix2 (-10)). lra.
Qed.

Theorem lone_pair_lost nlags g : experimental_gen Fops nlags [(bpow radix2 44, g)] = Ok [].
Proof.
  set (D := bpow radix2 44). unfold experimental_gen. cbn [map fst amax_gen amin_gen fold_left].
  assert (LIM : forall k, bin_limit Fops D D nlags k = D).
  { intros k. unfold bin_limit. destruct (Nat.ltb k nlags); cbn [n_add n_mul n_of_nat n_div n_sub n_milli Fops].
    - rewrite Rminus_diag_eq by reflexivity. rewrite rnd_0. unfold Rdiv. rewrite Rmult_0_l, rnd_0, Rmult_0_r, rnd_0, Rplus_0_r.
      apply rnd_id, bpow_b64. lia.
    - apply absorbed. }
  f_equal. induction (seq 0 nlags) as [|k ks IH]; [reflexivity|]. cbn [map drop_nan flat_map].
  assert (BE : bin_entry Fops D D nlags [(D, g)] k = None).
  { unfold bin_entry, bin_members. cbn [filter fst]. unfold in_bin. rewrite !LIM. cbn [n_leb n_ltb Fops].
    destruct (Rltb_spec D D) as [L|_]; [lra|]. rewrite andb_false_r. reflexivity. }
  rewrite BE. exact IH.
Qed.
