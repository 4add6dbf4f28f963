(** Proofs for C42. *)
From Verif Require Import Base Sums Matrix M_Ilr.

Definition hd (k : nat) : R := sqrt (INR (S k) * INR (S (S k))).
Lemma INRS_pos k : 0 < INR (S k). Proof. apply lt_0_INR. lia. Qed.
Lemma hd_pos k : 0 < hd k.
Proof. apply sqrt_lt_R0. apply Rmult_lt_0_compat; apply INRS_pos. Qed.
Lemma hd_sq k : hd k * hd k = INR (S k) * INR (S (S k)).
Proof. apply sqrt_sqrt. left. apply Rmult_lt_0_compat; apply INRS_pos. Qed.
Lemma h_low k j : (j < S k)%nat -> helmert k j = / hd k.
Proof. intros H. unfold helmert. fold (hd k). destruct (Nat.ltb_spec j (S k)); [|lia]. unfold Rdiv. ring. Qed.
Lemma h_diag k : helmert k (S k) = - INR (S k) / hd k.
Proof. unfold helmert. fold (hd k). rewrite Nat.ltb_irrefl, Nat.eqb_refl. reflexivity. Qed.
Lemma h_high k j : (S k < j)%nat -> helmert k j = 0.
Proof. intros H. unfold helmert. destruct (Nat.ltb_spec j (S k)); [lia|]. destruct (Nat.eqb_spec j (S k)); [lia|]. unfold Rdiv. ring. Qed.


Lemma bsumS n f : bsum (S n) f = bsum n f + f n. Proof. reflexivity. Qed.
(** a row is supported on its first k+2 entries *)
Lemma row_split k f K : (S k < K)%nat -> bsum K (fun j => helmert k j * f j) = / hd k * (bsum (S k) f - INR (S k) * f (S k)).
Proof.
  intros H. induction K as [|K IH]; [lia|]. rewrite (bsumS K). destruct (Nat.eq_dec K (S k)) as [->|].
  - rewrite h_diag. rewrite (bsum_ext (S k) _ (fun j => / hd k * f j)) by (intros j Hj; rewrite h_low by exact Hj; reflexivity).
    rewrite bsum_scal. unfold Rdiv. ring.
  - rewrite IH by lia. rewrite (h_high k K) by lia. ring.
Qed.
Lemma row_sum k K : (S k < K)%nat -> bsum K (helmert k) = 0.
Proof.
  intros H. rewrite (bsum_ext K _ (fun j => helmert k j * 1)) by (intros; ring). rewrite (row_split k (fun _ => 1) K H), bsum_const. ring.
Qed.
Lemma rows_orthonormal k l K : (S k < K)%nat -> (S l < K)%nat -> bsum K (fun j => helmert k j * helmert l j) = if Nat.eqb k l then 1 else 0.
Proof.
  assert (D : forall k l K, (k < l)%nat -> (S l < K)%nat -> bsum K (fun j => helmert k j * helmert l j) = 0).
  { intros k' l' K' H1 H2. rewrite (row_split k' (helmert l') K') by lia.
    rewrite (bsum_ext (S k') _ (fun _ => / hd l')) by (intros j Hj; apply h_low; lia). rewrite bsum_const, h_low by lia. ring. }
  intros Hk Hl. destruct (Nat.eqb_spec k l) as [->|NE].
  - rewrite (row_split l (helmert l) K Hl), h_diag. rewrite (bsum_ext (S l) _ (fun _ => / hd l)) by (intros j Hj; apply h_low; lia). rewrite bsum_const.
    pose proof (hd_pos l) as P. pose proof (hd_sq l) as Q. replace 1 with ((hd l * hd l) / (hd l * hd l)) by (field; lra).
    rewrite Q at 1. rewrite (S_INR (S l)). field. lra.
  - destruct (Nat.lt_ge_cases k l); [apply D; assumption|].
    rewrite (bsum_ext K _ (fun j => helmert l j * helmert k j)) by (intros; ring). apply D; [lia|assumption].
Qed.

(** columns *)
Lemma col_prod j : forall m i, (i < j <= m)%nat -> bsum m (fun k => helmert k i * helmert k j) = - / INR (S m).
Proof.
  intros m i H. induction m as [|m IH]; [lia|]. cbn [bsum]. destruct (Nat.eq_dec j (S m)) as [->|].
  - rewrite bsum_0 by (intros k Hk; rewrite (h_high k (S m)) by lia; ring).
    rewrite h_low by lia. rewrite h_diag. pose proof (hd_sq m) as Q. pose proof (hd_pos m).
    replace (/ hd m * (- INR (S m) / hd m)) with (- INR (S m) / (hd m * hd m)) by (field; lra). rewrite Q.
    pose proof (INRS_pos m). pose proof (INRS_pos (S m)). field. split; lra.
  - rewrite IH by lia. rewrite !h_low by lia. pose proof (hd_sq m) as Q. pose proof (hd_pos m).
    replace (/ hd m * / hd m) with (/ (hd m * hd m)) by (field; lra). rewrite Q.
    pose proof (INRS_pos m). pose proof (INRS_pos (S m)). rewrite (S_INR (S m)) in *. field. split; lra.
Qed.
Lemma col_sq j : forall m, (j <= m)%nat -> bsum m (fun k => helmert k j * helmert k j) = 1 - / INR (S m).
Proof.
  intros m H. induction m as [|m IH]; [assert (j = 0)%nat as -> by lia; cbn; field|]. cbn [bsum]. destruct (Nat.eq_dec j (S m)) as [->|].
  - rewrite bsum_0 by (intros k Hk; rewrite (h_high k (S m)) by lia; ring).
    rewrite h_diag. pose proof (hd_sq m) as Q. pose proof (hd_pos m).
    replace (- INR (S m) / hd m * (- INR (S m) / hd m)) with (INR (S m) * INR (S m) / (hd m * hd m)) by (field; lra). rewrite Q.
    pose proof (INRS_pos m). pose proof (INRS_pos (S m)). rewrite (S_INR (S m)) in *. field. split; lra.
  - rewrite IH by lia. rewrite !h_low by lia. pose proof (hd_sq m) as Q. pose proof (hd_pos m).
    replace (/ hd m * / hd m) with (/ (hd m * hd m)) by (field; lra). rewrite Q.
    pose proof (INRS_pos m). pose proof (INRS_pos (S m)). rewrite (S_INR (S m)) in *. field. split; lra.
Qed.
(** the projection off the constants *)
Lemma col_proj m i j : (i <= m)%nat -> (j <= m)%nat -> bsum m (fun k => helmert k i * helmert k j) = (if Nat.eqb i j then 1 else 0) - / INR (S m).
Proof.
  intros Hi Hj. destruct (Nat.eqb_spec i j) as [->|NE]; [apply col_sq, Hj|].
  destruct (Nat.lt_ge_cases i j).
  - rewrite col_prod by lia. ring.
  - rewrite (bsum_ext m _ (fun k => helmert k j * helmert k i)) by (intros; ring). rewrite col_prod by lia. ring.
Qed.

Lemma feps_pos : 0 < feps. Proof. unfold feps. apply Rinv_0_lt_compat. lra. Qed.

Lemma closure_sum K k d : bsum K d <> 0 -> bsum K (closure K k d) = k.
Proof.
  intros H. unfold closure. rewrite (bsum_ext K _ (fun j => k / bsum K d * d j)) by (intros; field; exact H). rewrite bsum_scal. field. exact H.
Qed.
Lemma bsum_exp_pos K f : (0 < K)%nat -> 0 < bsum K (fun j => exp (f j)).
Proof.
  intros H. destruct K as [|K]; [lia|]. clear H. induction K as [|K IH]; [cbn; pose proof (exp_pos (f 0%nat)); lra|].
  change (0 < bsum (S K) (fun j => exp (f j)) + exp (f (S K))). pose proof (exp_pos (f (S K))). lra.
Qed.

Theorem inverse_ilr_simplex m v : (forall j, 0 < inverse_ilr m v j) /\ bsum (m + 1) (inverse_ilr m v) = 1.
Proof.
  unfold inverse_ilr. set (e := fun j => exp (bsum m (fun k => v k * - helmert k j))).
  assert (P : 0 < bsum (m + 1) e) by (apply bsum_exp_pos; lia). split.
  - intros j. unfold closure. unfold Rdiv. apply Rmult_lt_0_compat; [rewrite Rmult_1_l; apply exp_pos|apply Rinv_0_lt_compat, P].
  - apply closure_sum. lra.
Qed.

(** composition with the logarithm *)
Lemma inverse_ilr_of m (y : vec) : (forall j, (j <= m)%nat -> 0 < y j) ->
  forall j, (j <= m)%nat -> inverse_ilr m (fun k => bsum (m + 1) (fun l => ln (y l) * - helmert k l)) j = y j / bsum (m + 1) y.
Proof.
  intros HY j Hj. set (c := bsum (m + 1) (fun l => ln (y l)) * / INR (S m)).
  assert (EX : forall j, (j <= m)%nat -> exp (bsum m (fun k => bsum (m + 1) (fun l => ln (y l) * - helmert k l) * - helmert k j)) = y j * exp (- c)).
  { intros i Hi. rewrite (bsum_ext m _ (fun k => bsum (m + 1) (fun l => ln (y l) * (helmert k l * helmert k i)))).
    2: { intros k Hk. rewrite <- bsum_scal_r. apply bsum_ext. intros; ring. }
    rewrite bsum_swap. rewrite (bsum_ext (m + 1) _ (fun l => (if Nat.eqb l i then 1 else 0) * ln (y l) - / INR (S m) * ln (y l))).
    2: { intros l Hl. rewrite bsum_scal, col_proj by lia. ring. }
    rewrite bsum_minus, bsum_delta by lia. rewrite bsum_scal. rewrite <- (exp_ln (y i)) at 2 by (apply HY, Hi). rewrite <- exp_plus. f_equal. unfold c. ring. }
  unfold inverse_ilr, closure. rewrite EX by exact Hj.
  rewrite (bsum_ext (m + 1) _ (fun j => exp (- c) * y j)) by (intros i Hi; rewrite EX by lia; ring). rewrite bsum_scal.
  assert (P : 0 < bsum (m + 1) y).
  { rewrite (bsum_ext (m + 1) _ (fun j => exp (ln (y j)))) by (intros i Hi; symmetry; apply exp_ln, HY; lia). apply bsum_exp_pos. lia. }
  pose proof (exp_pos (- c)). field. split; lra.
Qed.

Theorem ilr_inverse_round_trip m p : (forall j, (j <= m)%nat -> feps <= p j) -> bsum (m + 1) p = 1 ->
  forall j, (j <= m)%nat -> inverse_ilr m (ilr (m + 1) p) j = p j.
Proof.
  intros HP HS j Hj. pose proof feps_pos as FP.
  assert (MX : forall i, (i <= m)%nat -> Rmax (p i) feps = p i) by (intros i Hi; apply Rmax_left, HP, Hi).
  pose proof (inverse_ilr_of m (fun i => Rmax (p i) feps)) as K. cbv beta in K. unfold ilr. rewrite K; [|intros i Hi; rewrite MX by exact Hi; specialize (HP i Hi); lra|exact Hj].
  rewrite MX by exact Hj. rewrite (bsum_ext (m + 1) _ p) by (intros i Hi; apply MX; lia). rewrite HS. field.
Qed.
(** entries below the floor are lifted to it *)
Theorem ilr_inverse_clipped m p : forall j, (j <= m)%nat ->
  inverse_ilr m (ilr (m + 1) p) j = Rmax (p j) feps / bsum (m + 1) (fun i => Rmax (p i) feps).
Proof.
  intros j Hj. pose proof feps_pos as FP.
  apply (inverse_ilr_of m (fun i => Rmax (p i) feps)); [|exact Hj]. intros i _. pose proof (Rmax_r (p i) feps). lra.
Qed.

Theorem inverse_ilr_round_trip m v : (forall j, (j <= m)%nat -> feps <= inverse_ilr m v j) ->
  forall k, (k < m)%nat -> ilr (m + 1) (inverse_ilr m v) k = v k.
Proof.
  intros HV k Hk. unfold ilr.
  set (y := fun j => bsum m (fun k => v k * - helmert k j)). set (S0 := bsum (m + 1) (fun j => exp (y j))).
  assert (P : 0 < S0) by (apply bsum_exp_pos; lia).
  rewrite (bsum_ext (m + 1) _ (fun j => helmert k j * - y j - - ln S0 * helmert k j)).
  2: { intros j Hj. rewrite Rmax_left by (apply HV; lia). replace (inverse_ilr m v j) with (exp (y j) * / S0) by (unfold inverse_ilr, closure, S0, y, Rdiv; rewrite Rmult_1_l; reflexivity).
        rewrite ln_mult; [|apply exp_pos|apply Rinv_0_lt_compat, P]. rewrite ln_exp, ln_Rinv by exact P. ring. }
  rewrite bsum_minus, bsum_scal, row_sum by lia. rewrite Rmult_0_r, Rminus_0_r.
  rewrite (bsum_ext (m + 1) _ (fun j => bsum m (fun l => v l * (helmert k j * helmert l j)))).
  2: { intros j Hj. unfold y. rewrite <- bsum_opp, <- bsum_scal. apply bsum_ext. intros; ring. }
  rewrite bsum_swap. rewrite (bsum_ext m _ (fun l => (if Nat.eqb l k then 1 else 0) * v l)).
  2: { intros l Hl. rewrite bsum_scal, rows_orthonormal by lia. rewrite Nat.eqb_sym. ring. }
  apply bsum_delta. exact Hk.
Qed.
