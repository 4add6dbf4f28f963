(** Great-circle distance is conditionally negative definite: arcsine of a Gram
    matrix of unit vectors is positive semidefinite, with what is needed for
    strictness. *)
From Verif Require Import Base Sums Matrix S_Kriging M_Variogram P_Psd P_Psd2 P_Psd3 P_Valid.
From Coquelicot Require Import Coquelicot.

Lemma psd_ext n K K' : (forall i j, (i < n)%nat -> (j < n)%nat -> K i j = K' i j) -> psd n K -> psd n K'.
Proof. intros E H c. rewrite <- (qf_ext n c c K K') by auto. apply H. Qed.
Lemma psd_scal n a K : 0 <= a -> psd n K -> psd n (fun i j => a * K i j).
Proof. intros Ha H c. rewrite qf_scal. apply Rmult_le_pos; [exact Ha|apply H]. Qed.
Lemma psd_plus n K L : psd n K -> psd n L -> psd n (fun i j => K i j + L i j).
Proof. intros HK HL c. rewrite qf_plus. pose proof (HK c). pose proof (HL c). lra. Qed.
Lemma psd_sum n m (F : nat -> mat) : (forall k, psd n (F k)) -> psd n (fun i j => bsum m (fun k => F k i j)).
Proof. intros H c. rewrite (qf_sum n c m F). apply bsum_nonneg. intros k _. apply H. Qed.
Lemma psd_pow n K k : symmetric n K -> psd n K -> psd n (fun i j => K i j ^ k).
Proof.
  intros Hs HK. destruct (psd_gram n K Hs HK) as [x Hx].
  apply (psd_ext n (fun i j => gram n x i j ^ k)); [intros; rewrite Hx by assumption; reflexivity|apply gram_pow_psd].
Qed.
Lemma psd_int n (F : R -> mat) (L : mat) p q : p <= q ->
  (forall i j, (i < n)%nat -> (j < n)%nat -> is_RInt (fun u => F u i j) p q (L i j)) ->
  (forall u, p < u < q -> psd n (F u)) -> psd n L.
Proof.
  intros Hpq HI HP c. pose proof (is_RInt_qf n c F L p q HI) as H.
  apply (is_RInt_le (fun _ => 0) (fun u => qf n c (F u)) p q 0 (qf n c L) Hpq).
  - pose proof (@is_RInt_const R_NormedModule p q 0) as H0. unfold scal in H0; simpl in H0; unfold mult in H0; simpl in H0.
    rewrite Rmult_0_r in H0. exact H0.
  - exact H.
  - intros u Hu. apply HP. exact Hu.
Qed.
Lemma sym_map n K (f : R -> R) : symmetric n K -> symmetric n (fun i j => f (K i j)).
Proof. intros H i j Hi Hj. unfold trm. f_equal. apply (H i j Hi Hj). Qed.

(** x / (1 - u x) is a limit of polynomials with non-negative coefficients *)
Definition geo (u x : R) (m : nat) : R := bsum m (fun k => u ^ k * x ^ S k).
Lemma geo_closed u x m : (1 - u * x) * geo u x m = x - u ^ m * x ^ S m.
Proof.
  unfold geo. induction m as [|m IH]; [cbn; ring|]. cbn [bsum]. rewrite Rmult_plus_distr_l, IH. cbn [pow]. ring.
Qed.
Lemma geo_cv u x : 0 <= u <= 1 -> Rabs x < 1 -> Un_cv (geo u x) (x / (1 - u * x)).
Proof.
  intros Hu Hx. assert (Hd : 0 < 1 - u * x) by (apply Rabs_def2 in Hx; nra).
  assert (E : forall m, / (1 - u * x) * (x - x * (u * x) ^ m) = geo u x m).
  { intros m. pose proof (geo_closed u x m) as H. rewrite Rpow_mult_distr.
    replace (x - x * (u ^ m * x ^ m)) with ((1 - u * x) * geo u x m) by (rewrite H; cbn [pow]; ring). field. lra. }
  apply (cv_ext _ _ _ E).
  replace (x / (1 - u * x)) with (/ (1 - u * x) * (x - x * 0)) by (field; lra).
  apply cv_scal. apply (CV_minus (fun _ => x) (fun m => x * (u * x) ^ m)); [apply cv_const|]. apply cv_scal.
  assert (Hux : Rabs (u * x) < 1).
  { rewrite Rabs_mult, (Rabs_right u) by lra. pose proof (Rabs_pos x). nra. }
  intros e He. destruct (pow_lt_1_zero (u * x) Hux e He) as [N HN]. exists N. intros m Hm. unfold R_dist.
  rewrite Rminus_0_r. apply HN. exact Hm.
Qed.
Lemma psd_frac n X u : symmetric n X -> psd n X -> (forall i j, (i < n)%nat -> (j < n)%nat -> Rabs (X i j) < 1) -> 0 <= u <= 1 ->
  psd n (fun i j => X i j / (1 - u * X i j)).
Proof.
  intros Hs HX Hb Hu. apply (psd_cv n (fun m i j => geo u (X i j) m)).
  - intros m. apply (psd_sum n m (fun k i j => u ^ k * X i j ^ S k)). intros k.
    apply (psd_scal n (u ^ k) (fun i j => X i j ^ S k)); [apply pow_le; lra|]. apply psd_pow; assumption.
  - intros i j Hi Hj. apply geo_cv; auto.
Qed.
Lemma log_int x : Rabs x < 1 -> is_RInt (fun u => x / (1 - u * x)) 0 1 (- ln (1 - x)).
Proof.
  intros Hx. apply Rabs_def2 in Hx.
  replace (- ln (1 - x)) with (minus (- ln (1 - 1 * x)) (- ln (1 - 0 * x))).
  2:{ rewrite Rmult_0_l, Rminus_0_r, ln_1, Rmult_1_l. unfold minus, plus, opp; simpl. ring. }
  assert (Hp : forall u, Rmin 0 1 <= u <= Rmax 0 1 -> 0 < 1 - u * x).
  { intros u Hu. rewrite Rmin_left, Rmax_right in Hu by lra. nra. }
  apply (is_RInt_derive (fun u => - ln (1 - u * x)) (fun u => x / (1 - u * x))).
  - intros u Hu. specialize (Hp u Hu). auto_derive; [lra|]. field. lra.
  - intros u Hu. specialize (Hp u Hu). apply (@ex_derive_continuous R_AbsRing R_NormedModule). auto_derive. lra.
Qed.
Lemma psd_log n X : symmetric n X -> psd n X -> (forall i j, (i < n)%nat -> (j < n)%nat -> Rabs (X i j) < 1) ->
  psd n (fun i j => - ln (1 - X i j)).
Proof.
  intros Hs HX Hb. apply (psd_int n (fun u i j => X i j / (1 - u * X i j)) _ 0 1); [lra| |].
  - intros i j Hi Hj. apply log_int. auto.
  - intros u Hu. apply psd_frac; auto. lra.
Qed.
Lemma inv_sqrt_exp x : 0 < x -> / sqrt x = exp (/ 2 * - ln x).
Proof.
  intros Hx. rewrite <- Rpower_sqrt by exact Hx. unfold Rpower. rewrite <- exp_Ropp. f_equal. ring.
Qed.
Lemma psd_inv_sqrt n X : symmetric n X -> psd n X -> (forall i j, (i < n)%nat -> (j < n)%nat -> Rabs (X i j) < 1) ->
  psd n (fun i j => / sqrt (1 - X i j) - 1).
Proof.
  intros Hs HX Hb. pose proof (psd_log n X Hs HX Hb) as HL.
  assert (H2 : psd n (fun i j => / 2 * - ln (1 - X i j))) by (apply (psd_scal n (/ 2) (fun i j => - ln (1 - X i j))); [lra|exact HL]).
  assert (Hs2 : symmetric n (fun i j => / 2 * - ln (1 - X i j))) by (apply (sym_map n X (fun x => / 2 * - ln (1 - x))); exact Hs).
  apply (psd_ext n (fun i j => exp (/ 2 * - ln (1 - X i j)) + -1)).
  - intros i j Hi Hj. rewrite inv_sqrt_exp; [reflexivity|]. pose proof (Hb i j Hi Hj) as H. apply Rabs_def2 in H. lra.
  - intros c. pose proof (psd_exp_ge n _ c Hs2 H2) as H. cbv beta in H.
    rewrite (qf_plus n c (fun i j => exp (/ 2 * - ln (1 - X i j))) (fun _ _ => -1)), qf_const. pose proof (H2 c). lra.
Qed.

(** asin (r t) - r t *)
Lemma is_derive_asin x : -1 < x < 1 -> is_derive asin x (/ sqrt (1 - x * x)).
Proof.
  intros Hx. apply is_derive_Reals.
  assert (E : derive_pt asin x (derivable_pt_asin x Hx) = / sqrt (1 - x * x)) by (rewrite derive_pt_asin; unfold Rdiv, Rsqr; ring).
  rewrite <- E. apply (proj2_sig (derivable_pt_asin x Hx)).
Qed.
Lemma asin_int t r : Rabs t <= 1 -> 0 <= r < 1 ->
  is_RInt (fun s => t * (/ sqrt (1 - (s * t) * (s * t)) - 1)) 0 r (asin (r * t) - r * t).
Proof.
  intros Ht Hr. assert (Ht' : -1 <= t <= 1) by (apply Rabs_le_between; exact Ht).
  replace (asin (r * t) - r * t) with (minus (asin (r * t) - r * t) (asin (0 * t) - 0 * t)).
  2:{ rewrite !Rmult_0_l, asin_0. unfold minus, plus, opp; simpl. ring. }
  assert (Hp : forall u, Rmin 0 r <= u <= Rmax 0 r -> -1 < u * t < 1).
  { intros u Hu. rewrite Rmin_left, Rmax_right in Hu by lra. nra. }
  apply (is_RInt_derive (fun u => asin (u * t) - u * t) (fun s => t * (/ sqrt (1 - (s * t) * (s * t)) - 1))).
  - intros u Hu. specialize (Hp u Hu).
    replace (t * (/ sqrt (1 - u * t * (u * t)) - 1)) with (t * / sqrt (1 - u * t * (u * t)) - t) by ring.
    apply (@is_derive_minus R_AbsRing R_NormedModule (fun u => asin (u * t)) (fun u => u * t)).
    + apply (is_derive_comp asin (fun u => u * t) u); [apply is_derive_asin; exact Hp|]. auto_derive; [exact I|ring].
    + auto_derive; [exact I|ring].
  - intros u Hu. specialize (Hp u Hu). apply (@ex_derive_continuous R_AbsRing R_NormedModule). 
    assert (0 < 1 - u * t * (u * t)) by nra. auto_derive. split; [|split; [|exact I]].
    + lra.
    + apply Rgt_not_eq. apply sqrt_lt_R0. lra.
Qed.
Lemma psd_asin_r n T r : symmetric n T -> psd n T -> (forall i j, (i < n)%nat -> (j < n)%nat -> Rabs (T i j) <= 1) -> 0 <= r < 1 ->
  psd n (fun i j => asin (r * T i j) - r * T i j).
Proof.
  intros Hs HT Hb Hr. apply (psd_int n (fun s i j => T i j * (/ sqrt (1 - (s * T i j) * (s * T i j)) - 1)) _ 0 r); [lra| |].
  - intros i j Hi Hj. apply asin_int; auto.
  - intros s Hs'. apply (psd_schur n T (fun i j => / sqrt (1 - (s * T i j) * (s * T i j)) - 1) Hs HT).
    apply (psd_inv_sqrt n (fun i j => (s * T i j) * (s * T i j))).
    + apply (sym_map n T (fun t => s * t * (s * t))). exact Hs.
    + apply (psd_ext n (fun i j => (s * s) * T i j ^ 2)); [intros; ring|].
      apply (psd_scal n (s * s) (fun i j => T i j ^ 2)); [nra|]. apply psd_pow; assumption.
    + intros i j Hi Hj. specialize (Hb i j Hi Hj). apply Rabs_le_between in Hb. apply Rabs_def1.
      * assert (T i j * T i j <= 1) by nra. assert (0 <= T i j * T i j) by nra. nra.
      * assert (0 <= (s * T i j) * (s * T i j)) by apply Rle_0_sqr. lra.
Qed.

(** the limit r -> 1 *)
Definition rm (m : nat) : R := 1 - / (INR m + 1).
Lemma rm_range m : 0 <= rm m < 1.
Proof.
  unfold rm. pose proof (pos_INR m). assert (0 < / (INR m + 1)) by (apply Rinv_0_lt_compat; lra).
  assert (/ (INR m + 1) <= 1) by (rewrite <- Rinv_1; apply Rinv_le_contravar; lra). lra.
Qed.
Lemma rm_cv : Un_cv rm 1.
Proof.
  replace 1 with (1 - 0) by ring. unfold rm. apply (CV_minus (fun _ => 1)); [apply cv_const|].
  intros e He. destruct (archimed_cor1 e He) as (N & HN & HN0). exists N. intros m Hm. unfold R_dist. rewrite Rminus_0_r.
  pose proof (pos_INR m). assert (0 < / (INR m + 1)) by (apply Rinv_0_lt_compat; lra). rewrite Rabs_right by lra.
  apply Rle_lt_trans with (/ INR N); [|exact HN]. apply Rinv_le_contravar; [apply lt_0_INR; exact HN0|].
  assert (INR N <= INR m) by (apply le_INR; lia). lra.
Qed.
Lemma asin_le x y : -1 <= x <= 1 -> -1 <= y <= 1 -> x <= y -> asin x <= asin y.
Proof.
  intros Hx Hy H. destruct (Rle_lt_dec (asin x) (asin y)) as [?|L]; [assumption|exfalso].
  pose proof (asin_bound x). pose proof (asin_bound y).
  assert (sin (asin y) < sin (asin x)) by (apply sin_increasing_1; lra).
  rewrite !sin_asin in H2 by lra. lra.
Qed.
Lemma asin_cv_1 : Un_cv (fun m => asin (rm m)) (asin 1).
Proof.
  intros e He. rewrite asin_1. pose proof PI_RGT_0.
  pose (d := Rmin (e / 2) (PI / 2)). assert (0 < d /\ d <= e / 2 /\ d <= PI / 2) as (Hd1 & Hd2 & Hd3).
  { unfold d. split; [apply Rmin_glb_lt; lra|]. split; [apply Rmin_l|apply Rmin_r]. }
  assert (Hs : sin (PI / 2 - d) < 1) by (rewrite <- sin_PI2; apply sin_increasing_1; lra).
  destruct (rm_cv (1 - sin (PI / 2 - d)) ltac:(lra)) as [N HN]. exists N. intros m Hm. specialize (HN m Hm).
  unfold R_dist in *. pose proof (rm_range m). rewrite Rabs_left in HN by lra.
  pose proof (asin_bound (rm m)).
  assert (PI / 2 - d <= asin (rm m)).
  { rewrite <- (asin_sin (PI / 2 - d)) by lra. pose proof (SIN_bound (PI / 2 - d)). apply asin_le; lra. }
  rewrite Rabs_left1 by lra. lra.
Qed.
Lemma asin_cv t : Rabs t <= 1 -> Un_cv (fun m => asin (rm m * t)) (asin t).
Proof.
  intros Ht. apply Rabs_le_between in Ht. destruct (Req_dec t 1) as [->|H1].
  { apply (cv_ext _ _ _ (fun m => f_equal asin (eq_sym (Rmult_1_r (rm m))))). exact asin_cv_1. }
  destruct (Req_dec t (-1)) as [->|H2].
  { replace (asin (-1)) with (- asin 1) by (rewrite <- asin_opp; f_equal; lra).
    apply (cv_ext (fun m => - asin (rm m))). { intros m. rewrite <- asin_opp. f_equal. ring. }
    apply (CV_opp (fun m => asin (rm m))). exact asin_cv_1. }
  assert (Hc : continuity_pt asin t). { apply derivable_continuous_pt. apply derivable_pt_asin. lra. }
  apply (continuity_seq asin (fun m => rm m * t) t Hc).
  replace t with (1 * t) at 1 by ring. apply (CV_mult rm (fun _ => t)); [exact rm_cv|apply cv_const].
Qed.

Section Unit.
Variables (n : nat) (T : mat).
Hypothesis Hs : symmetric n T.
Hypothesis HT : psd n T.
Hypothesis Hb : forall i j, (i < n)%nat -> (j < n)%nat -> Rabs (T i j) <= 1.

Lemma psd_asin_minus : psd n (fun i j => asin (T i j) - T i j).
Proof.
  apply (psd_cv n (fun m i j => asin (rm m * T i j) - rm m * T i j)).
  - intros m. apply psd_asin_r; auto. apply rm_range.
  - intros i j Hi Hj. apply (CV_minus (fun m => asin (rm m * T i j)) (fun m => rm m * T i j)).
    + apply asin_cv. auto.
    + replace (T i j) with (1 * T i j) at 1 by ring. apply (CV_mult rm (fun _ => T i j)); [exact rm_cv|apply cv_const].
Qed.
Lemma psd_asin : psd n (fun i j => asin (T i j)).
Proof.
  apply (psd_ext n (fun i j => (asin (T i j) - T i j) + T i j)); [intros; ring|].
  apply (psd_plus n (fun i j => asin (T i j) - T i j) T psd_asin_minus HT).
Qed.
(** the angle is conditionally negative definite *)
Lemma acos_cnd : cond_neg_def n (fun i j => acos (T i j)).
Proof.
  intros c Hc. change (qf n c (fun i j => acos (T i j)) <= 0).
  rewrite (qf_ext n c c _ (fun i j => PI / 2 + -1 * asin (T i j))).
  - rewrite (qf_plus n c (fun _ _ => PI / 2) (fun i j => -1 * asin (T i j))), qf_const, (qf_scal n c (-1) (fun i j => asin (T i j))), Hc.
    pose proof (psd_asin c). lra.
  - reflexivity.
  - intros i j Hi Hj. specialize (Hb i j Hi Hj). apply Rabs_le_between in Hb. rewrite acos_asin by exact Hb. ring.
Qed.
Lemma acos_exp k : 0 <= k -> psd n (fun i j => exp (- (k * acos (T i j)))).
Proof.
  intros Hk. apply (schoenberg n (fun i j => k * acos (T i j))).
  - apply (sym_map n T (fun t => k * acos t)). exact Hs.
  - apply cnd_scal; [exact Hk|exact acos_cnd].
Qed.
(** exp (k asin t) = exp (k t) exp (k (asin t - t)) dominates exp (k t) *)
Lemma acos_exp_ge k c : 0 <= k ->
  exp (- (k * (PI / 2))) * qf n c (fun i j => exp (k * T i j)) <= qf n c (fun i j => exp (- (k * acos (T i j)))).
Proof.
  intros Hk.
  assert (E : qf n c (fun i j => exp (- (k * acos (T i j))))
    = exp (- (k * (PI / 2))) * (qf n c (fun i j => exp (k * T i j)) + qf n c (fun i j => exp (k * T i j) * (exp (k * (asin (T i j) - T i j)) - 1)))).
  { rewrite <- (qf_plus n c (fun i j => exp (k * T i j)) (fun i j => exp (k * T i j) * (exp (k * (asin (T i j) - T i j)) - 1))).
    rewrite <- (qf_scal n c (exp (- (k * (PI / 2))))). apply qf_ext; [reflexivity|]. intros i j Hi Hj.
    specialize (Hb i j Hi Hj). apply Rabs_le_between in Hb. rewrite acos_asin by exact Hb.
    replace (exp (k * T i j) + exp (k * T i j) * (exp (k * (asin (T i j) - T i j)) - 1)) with (exp (k * T i j) * exp (k * (asin (T i j) - T i j))) by ring.
    rewrite <- !exp_plus. f_equal. ring. }
  rewrite E.
  assert (Hk1 : symmetric n (fun i j => k * T i j)) by (apply (sym_map n T (fun t => k * t)); exact Hs).
  assert (H1 : psd n (fun i j => exp (k * T i j))).
  { apply (psd_exp n (fun i j => k * T i j)); [exact Hk1|]. apply psd_scal; assumption. }
  assert (Hk2 : symmetric n (fun i j => k * (asin (T i j) - T i j))) by (apply (sym_map n T (fun t => k * (asin t - t))); exact Hs).
  assert (H2 : psd n (fun i j => k * (asin (T i j) - T i j))) by (apply (psd_scal n k (fun i j => asin (T i j) - T i j)); [exact Hk|exact psd_asin_minus]).
  assert (H3 : psd n (fun i j => exp (k * (asin (T i j) - T i j)) - 1)).
  { apply (psd_ext n (fun i j => exp (k * (asin (T i j) - T i j)) + -1)); [intros; ring|]. intros d.
    rewrite (qf_plus n d (fun i j => exp (k * (asin (T i j) - T i j))) (fun _ _ => -1)), qf_const.
    pose proof (psd_exp_ge n _ d Hk2 H2) as H. cbv beta in H. pose proof (H2 d). lra. }
  assert (Hk3 : symmetric n (fun i j => exp (k * T i j))) by (apply (sym_map n T (fun t => exp (k * t))); exact Hs).
  pose proof (psd_schur n _ _ Hk3 H1 H3 c) as H4. pose proof (exp_pos (- (k * (PI / 2)))). nra.
Qed.
End Unit.

(** unit vectors *)
Definition unit_gram (D : nat) (x : nat -> vec) : Prop := forall i j, Rabs (gram D x i j) <= 1.
Lemma gram_sym n D x : symmetric n (gram D x).
Proof. intros i j _ _. unfold trm, gram, dot. apply bsum_ext. intros; ring. Qed.
Lemma exp_scaled_gram_pd n D x k : 0 < k -> separated n D x -> pd n (fun i j => exp (k * gram D x i j)).
Proof.
  intros Hk Hsep. assert (Hr : sqrt k * sqrt k = k) by (apply sqrt_sqrt; lra). assert (0 < sqrt k) by (apply sqrt_lt_R0; exact Hk).
  pose proof (exp_gram_pd n D (fun i a => sqrt k * x i a)) as H0.
  intros c Hc. apply H0.
  - intros i j Hi Hj Hne. destruct (Hsep i j Hi Hj Hne) as (a & Ha & Hx). exists a. split; [exact Ha|]. intros E. apply Hx. nra.
  - rewrite (qf_ext n c c _ (fun i j => exp (k * gram D x i j))); [exact Hc|reflexivity|].
    intros i j Hi Hj. f_equal. unfold gram, dot. rewrite <- bsum_scal. apply bsum_ext. intros a Ha.
    transitivity (sqrt k * sqrt k * (x i a * x j a)); [ring|rewrite Hr; reflexivity].
Qed.
Lemma acos_exp_pd n D x k : 0 < k -> unit_gram D x -> separated n D x -> pd n (fun i j => exp (- (k * acos (gram D x i j)))).
Proof.
  intros Hk Hu Hsep c Hc. apply (exp_scaled_gram_pd n D x k Hk Hsep).
  pose proof (acos_exp_ge n (gram D x) (gram_sym n D x) (gram_psd n D x) (fun i j _ _ => Hu i j) k c ltac:(lra)) as H.
  pose proof (exp_pos (- (k * (PI / 2)))).
  destruct (Rle_lt_dec (qf n c (fun i j => exp (k * gram D x i j))) 0) as [L|L]; [exact L|exfalso]. nra.
Qed.
