(** Proofs for C80, C81: collected statements. *)
From Flocq Require Import Core.
From Verif Require Import Base Sums Matrix M_Init M_Float M_Float2 S_Float P_Binning P_Float P_Float2 P_Float3 P_Float4.

Lemma pos_of k r : bpow radix2 k <= r -> 0 < r.
Proof. pose proof (bpow_gt_0 radix2 k). lra. Qed.
Lemma all_backends L p r e c d :
    c_linear64 p c d = f_linear64 p c d /\ c_power64 L p e c d = f_power64 L p e c d /\
    c_exponential64 L p r c d = f_exponential64 L p r c d /\
    (d <> r -> c_spherical64 L p r c d = f_spherical64 L p r c d).
Proof.
  repeat split. intros N. unfold c_spherical64, f_spherical64.
  destruct (Rltb d r) eqn:E1, (Rleb d r) eqn:E2; try reflexivity.
  - apply Rltb_true in E1. apply Rleb_false in E2. lra.
  - apply Rltb_false in E1. apply Rleb_true in E2. lra.
Qed.
Lemma all_zero L : libm_ok L -> forall p r e c, b64 r -> b64 c -> bpow radix2 (-300) <= r -> 0 < e ->
    f_linear64 p c 0 = c /\ f_power64 L p e c 0 = c /\ f_gaussian64 L p r c 0 = c /\
    f_exponential64 L p r c 0 = c /\ f_spherical64 L p r c 0 = c /\ f_hole64 L p r c 0 = c /\
    c_linear64 p c 0 = c /\ c_power64 L p e c 0 = c /\ c_gaussian64 L p r c 0 = c /\
    c_exponential64 L p r c 0 = c /\ c_spherical64 L p r c 0 = c.
Proof.
  intros OK p r e c Fr Fc Hr He. pose proof (pos_of _ _ Hr) as R0.
  destruct (all_backends L p r e c 0) as (B1 & B2 & B3 & B4). specialize (B4 ltac:(lra)).
  rewrite B1, B2, B3, B4.
  pose proof (linear_zero p c Fc). pose proof (power_zero L OK p e c He Fc).
  pose proof (gaussian_zero L OK p r c Fc). pose proof (exponential_zero L OK p r c Fc).
  pose proof (spherical_zero L OK p r c Hr Fc). pose proof (hole_zero L OK p r c Fc).
  pose proof (cgaussian_zero L OK p r c Fc). tauto.
Qed.
Lemma all_monotone L : libm_ok L -> forall p r e c d d', 0 <= p -> bpow radix2 (-500) <= r -> 0 < e -> 0 <= d <= d' ->
    f_linear64 p c d <= f_linear64 p c d' /\ f_power64 L p e c d <= f_power64 L p e c d' /\
    f_gaussian64 L p r c d <= f_gaussian64 L p r c d' /\ f_exponential64 L p r c d <= f_exponential64 L p r c d' /\
    c_gaussian64 L p r c d <= c_gaussian64 L p r c d'.
Proof.
  intros OK p r e c d d' Hp Hr He Hd. pose proof (Rlt_le _ _ (pos_of _ _ Hr)) as R0.
  pose proof (linear_mono p c d d' Hp Hd). pose proof (power_mono L OK p e c d d' Hp He Hd).
  pose proof (gaussian_mono L OK p r c Hp R0 d d' Hd). pose proof (exponential_mono L OK p r c Hp R0 d d' Hd).
  pose proof (cgaussian_mono L OK p r c Hp R0 d d' Hd). tauto.
Qed.
Lemma all_nugget L : libm_ok L -> forall p r e c d, 0 <= p -> b64 p -> b64 r -> b64 c -> b64 d -> bpow radix2 (-300) <= r -> 0 < e ->
    d = 0 \/ bpow radix2 (-300) <= d ->
    c <= f_linear64 p c d /\ c <= f_power64 L p e c d /\ c <= f_gaussian64 L p r c d /\
    c <= f_exponential64 L p r c d /\ c <= f_spherical64 L p r c d /\ c <= f_hole64 L p r c d /\
    c <= c_gaussian64 L p r c d /\ c <= c_spherical64 L p r c d.
Proof.
  intros OK p r e c d Hp Fp Fr Fc Fd Hr He Hd.
  assert (D0 : 0 <= d) by (destruct Hd as [->|Hd]; [lra|apply pos_of in Hd; lra]).
  pose proof (Rlt_le _ _ (pos_of _ _ Hr)) as R0.
  destruct (all_zero L OK p r e c Fr Fc Hr He) as (Z1 & Z2 & _).
  pose proof (linear_mono p c 0 d Hp ltac:(lra)) as A1. rewrite Z1 in A1.
  pose proof (power_mono L OK p e c 0 d Hp He ltac:(lra)) as A2. rewrite Z2 in A2.
  pose proof (gaussian_range L OK p r c Hp R0 Fp Fc d D0). pose proof (exponential_range L OK p r c Hp R0 Fp Fc d D0).
  pose proof (spherical_lower L OK p r c Hp Hr Fr Fc d Fd Hd) as A5. pose proof (hole_lower L OK p r c Hp R0 Fc d D0).
  pose proof (cgaussian_range L OK p r c Hp R0 Fp Fc d D0).
  repeat (split; [tauto|]).
  unfold c_spherical64. destruct (Rltb d r) eqn:E.
  - apply Rltb_true in E. unfold f_spherical64 in A5. replace (Rleb d r) with true in A5 by (symmetry; apply Rleb_true; lra).
    exact A5.
  - apply rnd_ge_id; [exact Fc|lra].
Qed.
Lemma all_sill L : libm_ok L -> forall p r c d, 0 <= p -> b64 p -> b64 c -> bpow radix2 (-500) <= r -> 0 <= d ->
    f_gaussian64 L p r c d <= rnd64 (p + c) /\ f_exponential64 L p r c d <= rnd64 (p + c) /\
    c_gaussian64 L p r c d <= rnd64 (p + c) /\
    (r < d -> f_spherical64 L p r c d = rnd64 (p + c)) /\ (r <= d -> c_spherical64 L p r c d = rnd64 (p + c)).
Proof.
  intros OK p r c d Hp Fp Fc Hr Hd. pose proof (Rlt_le _ _ (pos_of _ _ Hr)) as R0.
  pose proof (gaussian_range L OK p r c Hp R0 Fp Fc d Hd). pose proof (exponential_range L OK p r c Hp R0 Fp Fc d Hd).
  pose proof (cgaussian_range L OK p r c Hp R0 Fp Fc d Hd).
  repeat (split; [tauto|]). split; intros H2.
  - unfold f_spherical64. replace (Rleb d r) with false; [reflexivity|]. symmetry. apply Rleb_false. lra.
  - unfold c_spherical64. replace (Rltb d r) with false; [reflexivity|]. symmetry. apply Rltb_false. lra.
Qed.
Lemma spherical_bad L : libm_ok L -> exists r d, b64 r /\ b64 d /\ 1 < r < d /\
    f_spherical64 L 1 r 0 r = 1 + bpow radix2 (-52) /\ f_spherical64 L 1 r 0 d = 1 /\ c_spherical64 L 1 r 0 r = 1.
Proof.
  intros OK. exists bad_range, 2. split; [apply bad_range_b64|].
  split; [change 2 with (bpow radix2 1); apply bpow_b64; lia|].
  assert (1 < bad_range < 2) by (unfold bad_range; cbn; lra). split; [assumption|].
  split; [apply spherical_exceeds, OK|]. split.
  - unfold f_spherical64. replace (Rleb 2 bad_range) with false by (symmetry; apply Rleb_false; lra).
    rewrite Rplus_0_r. apply rnd_1.
  - unfold c_spherical64. replace (Rltb bad_range bad_range) with false by (symmetry; apply Rltb_false; lra).
    rewrite Rplus_0_r. apply rnd_1.
Qed.
Lemma gaussian_bad : exists L r d, libm_ok L /\ b64 r /\ b64 d /\ 1 < r /\ 0 < d /\
    f_gaussian64 L 1 r 0 d = bpow radix2 (-53) /\ c_gaussian64 L 1 r 0 d = bpow radix2 (-52).
Proof.
  exists crlibm, g_range, g_lag. split; [apply crlibm_ok|]. split; [apply g_range_b64|]. split; [apply g_lag_b64|].
  split; [unfold g_range; cbn; lra|]. split; [unfold g_lag; cbn; lra|]. split; [apply gaussian_py|apply gaussian_c].
Qed.
Lemma order_error dot ndim center p q B j : exact_on_units dot -> (j < ndim)%nat ->
    (p j <= q j -> adjust64 dot ndim id_mat id_mat center p j <= adjust64 dot ndim id_mat id_mat center q j) /\
    (bpow radix2 (-1022) <= B -> Rabs (center j) <= B -> Rabs (p j) <= B ->
     Rabs (adjust64 dot ndim id_mat id_mat center p j - p j) <= bpow radix2 (-51) * B).
Proof.
  intros D Hj. rewrite !adjust_recentred by assumption. split; [apply recentred_mono|apply recentred_error].
Qed.
Lemma factor_three_adjust dot ndim center p j l m : exact_on_units dot -> (j < ndim)%nat -> Forall b64 l -> center64 l = Some (center j) ->
    bpow radix2 (-900) <= m -> (forall x, List.In x l -> m <= x <= 3 * m) -> List.In (p j) l ->
    adjust64 dot ndim id_mat id_mat center p j = p j.
Proof. intros D Hj F C Hm HL Hp. rewrite adjust_recentred by assumption. apply (factor_three l _ m); assumption. Qed.
Lemma lattice_adjust dot ndim center p j l k : exact_on_units dot -> (j < ndim)%nat -> (-1073 <= k)%Z -> center64 l = Some (center j) ->
    (forall x, List.In x l -> multiple k x /\ Rabs x < bpow radix2 (51 + k)) ->
    multiple (k - 1) (p j) -> Rabs (p j) < bpow radix2 (51 + k) ->
    adjust64 dot ndim id_mat id_mat center p j = p j.
Proof.
  intros D Hj Hk C HL M B. rewrite adjust_recentred by assumption. apply (on_lattice l _ k Hk C HL); assumption.
Qed.
Lemma distinct_bad : exists X center, (forall i j, b64 (X i j)) /\
    (forall j, (j < 2)%nat -> center64 [X 0%nat j; X 1%nat j; X 2%nat j] = Some (center j)) /\
    (forall i k, (i < 3)%nat -> (k < 3)%nat -> i <> k -> X i 0%nat <> X k 0%nat) /\
    forall dot vg, exact_on_units dot -> vg 0 = 0 ->
      let X' i := adjust64 dot 2 id_mat id_mat center (X i) in
      forall r, (r <= 3)%nat -> matrix64 2 3 vg X' r 0%nat = matrix64 2 3 vg X' r 1%nat.
Proof.
  exists close_points, close_centre.
  assert (L1 : bpow radix2 (-60) < bpow radix2 (-59)) by (apply bpow_lt; lia).
  assert (L2 : bpow radix2 (-59) < 1) by (change 1 with (bpow radix2 0); apply bpow_lt; lia).
  split; [|split; [|split]].
  - intros i j. unfold close_points. destruct (Nat.eqb j 0); [|apply b64_0]. unfold rnth, close_xs.
    destruct i as [|[|[|[|i]]]]; cbn [nth]; try (apply bpow_b64; lia); try apply b64_1; apply b64_0.
  - intros j Hj. assert (j = 0 \/ j = 1)%nat as [-> | ->] by lia.
    + exact close_center.
    + exact close_zeros.
  - intros i k Hi Hk N. unfold close_points, rnth, close_xs. cbn [Nat.eqb].
    destruct i as [|[|[|i]]], k as [|[|[|k]]]; cbn [nth]; try lia; try (exfalso; apply N; reflexivity); lra.
  - intros dot vg D Z X' r Hr. apply equal_columns; try lia; [exact Z|].
    intros k Hk. destruct (close_merge dot k D Hk) as [E1 E2]. subst X'. cbv beta. rewrite E1, E2. reflexivity.
Qed.
Lemma system_bits ndim n vg X : (ndim = 2 \/ ndim = 3)%nat ->
    (forall i j, matrix64 ndim n vg X i j = matrix64 ndim n vg X j i) /\
    (forall i, (i <= n)%nat -> matrix64 ndim n vg X i i = 0) /\
    forall p i, (i < n)%nat -> (forall k, (k < ndim)%nat -> p k = X i k) ->
      (forall j, (j < n)%nat -> j <> i -> rnd64 (1 / 10000000000) < dist64 ndim (X i) (X j)) ->
      forall j, (j <= n)%nat -> rhs64 ndim n vg true X p j = matrix64 ndim n vg X j i.
Proof.
  intros N. split; [apply matrix64_sym|]. split.
  - intros i Hi. unfold matrix64. rewrite Nat.eqb_refl. destruct (Nat.eqb i n); reflexivity.
  - intros p i Hi Hp Far. apply rhs64_column; assumption.
Qed.
(** without exact_values *)
Lemma inexact_bits ndim n vg X : (ndim = 2 \/ ndim = 3)%nat ->
    (forall p i, (i < n)%nat -> (forall k, (k < ndim)%nat -> p k = X i k) ->
      rhs64 ndim n vg false X p i = - vg 0 /\
      forall j, (j <= n)%nat -> j <> i -> rhs64 ndim n vg false X p j = matrix64 ndim n vg X j i) /\
    (forall p, (forall j, (j < n)%nat -> rnd64 (1 / 10000000000) < dist64 ndim p (X j)) ->
      forall exact j, (j <= n)%nat -> rhs64 ndim n vg exact X p j = rhs64 ndim n vg false X p j).
Proof.
  intros N. split.
  - intros p i Hi Hp. split.
    + unfold rhs64. destruct (Nat.eqb_spec i n); [lia|]. cbn [andb]. rewrite (dist64_agree ndim p (X i) (X i) N Hp), dist64_same; [reflexivity|exact N|reflexivity].
    + intros j Hj Hji. unfold rhs64, matrix64. cbn [andb]. destruct (Nat.eqb_spec i n); [lia|]. destruct (Nat.eqb_spec j n); [reflexivity|].
      destruct (Nat.eqb_spec j i); [contradiction|]. rewrite (dist64_agree ndim p (X i) (X j) N Hp), (dist64_sym ndim (X j)). reflexivity.
  - intros p Far exact j Hj. unfold rhs64. cbn [andb]. destruct (Nat.eqb_spec j n); [reflexivity|].
    specialize (Far j ltac:(lia)). rewrite Rabs_right by (apply Rle_ge, dist64_nonneg).
    replace (Rleb (dist64 ndim p (X j)) (rnd64 (1 / 10000000000))) with false; [rewrite andb_false_r; reflexivity|].
    symmetry. apply Rleb_false. exact Far.
Qed.
Lemma metres : exists c, center64 [0; 5000; 12345] = Some c /\
  forall x, List.In x [0; 5000; 12345] -> multiple 0 x /\ Rabs x < bpow radix2 (51 + 0).
Proof.
  destruct (center_some [0; 5000; 12345] ltac:(discriminate)) as [c Hc]. exists c. split; [exact Hc|].
  assert (A : forall z : Z, (0 <= z < 20000)%Z -> multiple 0 (IZR z) /\ Rabs (IZR z) < bpow radix2 (51 + 0)).
  { intros z Hz. split; [exists z; cbn; ring|]. rewrite Rabs_right by (apply Rle_ge, IZR_le; lia).
    cbn [Z.add]. change (bpow radix2 51) with (IZR (2 ^ 51)). apply IZR_lt. lia. }
  intros x [<-|[<-|[<-|[]]]]; apply A; lia.
Qed.
Lemma eastings : exists c, center64 [300000; 500000; 700000] = Some c /\ Forall b64 [300000; 500000; 700000] /\
  forall x, List.In x [300000; 500000; 700000] -> 300000 <= x <= 3 * 300000.
Proof.
  destruct (center_some [300000; 500000; 700000] ltac:(discriminate)) as [c Hc]. exists c. split; [exact Hc|].
  assert (A : forall z : Z, (0 <= z < 2 ^ 53)%Z -> b64 (IZR z)).
  { intros z Hz. replace (IZR z) with (IZR z * bpow radix2 0) by (cbn; ring). apply b64_dyadic; lia. }
  split; [repeat constructor; apply A; lia|]. intros x [<-|[<-|[<-|[]]]]; lra.
Qed.
