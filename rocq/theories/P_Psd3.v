(** Powers x^b (0 < b < 1) of a conditionally negative definite kernel, as a
    mixture of the functions 1 - exp (- t x) (Schoenberg), with strictness. *)
From Verif Require Import Base Sums Matrix S_Kriging M_Variogram P_Psd P_Psd2.
From Coquelicot Require Import Coquelicot.

Section Pow.
Variable b : R.
Hypothesis Hb : 0 < b < 1.

Definition mixf (x u : R) : R := exp (b * u) * (1 - exp (- (exp (- u) * x))).
Definition mix (m x : R) : R := RInt (mixf x) (- m) m.

Lemma mixf_cont x u : continuous (mixf x) u.
Proof. apply @ex_derive_continuous. unfold mixf. auto_derive. auto. Qed.
Lemma mixf_int x p q : ex_RInt (mixf x) p q.
Proof. apply (@ex_RInt_continuous R_CompleteNormedModule). intros; apply mixf_cont. Qed.
Lemma mixf_nonneg x u : 0 <= x -> 0 <= mixf x u.
Proof.
  intros Hx. unfold mixf. apply Rmult_le_pos; [left; apply exp_pos|].
  assert (H : exp (- (exp (- u) * x)) <= exp 0).
  { destruct (Req_dec (exp (- u) * x) 0) as [->|E]; [rewrite Ropp_0; right; reflexivity|].
    left. apply exp_increasing. pose proof (exp_pos (- u)). assert (0 <= exp (- u) * x) by nra. lra. }
  rewrite exp_0 in H. lra.
Qed.
Lemma mixf_le1 u : mixf 1 u <= exp (b * u).
Proof. unfold mixf. pose proof (exp_pos (b * u)). pose proof (exp_pos (- (exp (- u) * 1))). nra. Qed.
Lemma mixf_le2 u : mixf 1 u <= exp (- (1 - b) * u).
Proof.
  unfold mixf. replace (- (1 - b) * u) with (b * u + - u) by ring. rewrite exp_plus.
  pose proof (exp_pos (b * u)). pose proof (exp_pos (- u)) as Hp.
  assert (1 - exp (- (exp (- u) * 1)) <= exp (- u)); [|nra].
  rewrite Rmult_1_r. pose proof (exp_ineq1 (- exp (- u)) ltac:(lra)). lra.
Qed.
Lemma mixf_shift v u : mixf (exp v) u = exp (b * v) * mixf 1 (1 * u + - v).
Proof.
  unfold mixf.
  replace (exp (b * u)) with (exp (b * v) * exp (b * (1 * u + - v))) by (rewrite <- exp_plus; f_equal; ring).
  replace (exp (- u) * exp v) with (exp (- (1 * u + - v)) * 1) by (rewrite Rmult_1_r, <- exp_plus; f_equal; ring). ring.
Qed.
Lemma mix_shift v m : mix m (exp v) = exp (b * v) * RInt (mixf 1) (- m - v) (m - v).
Proof.
  unfold mix. apply is_RInt_unique.
  apply (is_RInt_ext (fun u => exp (b * v) * (1 * mixf 1 (1 * u + - v)))).
  { intros u _. change (exp (b * v) * (1 * mixf 1 (1 * u + - v)) = mixf (exp v) u). rewrite mixf_shift. ring. }
  apply (@is_RInt_scal R_NormedModule (fun u => 1 * mixf 1 (1 * u + - v)) (- m) m (exp (b * v)) (RInt (mixf 1) (- m - v) (m - v))).
  apply (@is_RInt_comp_lin R_NormedModule (mixf 1) 1 (- v) (- m) m).
  replace (1 * - m + - v) with (- m - v) by ring. replace (1 * m + - v) with (m - v) by ring.
  apply (@RInt_correct R_CompleteNormedModule), mixf_int.
Qed.
Lemma RInt_bound (F : R -> R) (p q M : R) : (forall r s, ex_RInt F r s) ->
  (forall t, Rmin p q <= t <= Rmax p q -> Rabs (F t) <= M) -> Rabs (RInt F p q) <= M * Rabs (q - p).
Proof.
  intros HI H. destruct (Rle_dec p q) as [Hpq|Hpq].
  - rewrite Rmin_left, Rmax_right in H by lra. rewrite (Rabs_right (q - p)) by lra. rewrite Rmult_comm.
    apply (abs_RInt_le_const F p q M Hpq); auto.
  - assert (Hqp : q <= p) by lra. rewrite Rmin_right, Rmax_left in H by lra.
    rewrite <- (opp_RInt_swap F q p) by apply HI. unfold opp; simpl. rewrite Rabs_Ropp.
    rewrite (Rabs_left1 (q - p)) by lra. replace (M * - (q - p)) with ((p - q) * M) by ring.
    apply (abs_RInt_le_const F q p M Hqp); auto.
Qed.
Lemma exp_le x y : x <= y -> exp x <= exp y.
Proof. intros [H| ->]; [left; apply exp_increasing; exact H|right; reflexivity]. Qed.
Lemma mix_diff v m : 0 <= m ->
  Rabs (RInt (mixf 1) (- m - v) (m - v) - mix m 1) <= Rabs v * (exp (- (b * (m - Rabs v))) + exp (- ((1 - b) * (m - Rabs v)))).
Proof.
  intros Hm. unfold mix.
  assert (E : RInt (mixf 1) (- m - v) (m - v) - RInt (mixf 1) (- m) m = RInt (mixf 1) (- m - v) (- m) - RInt (mixf 1) (m - v) m).
  { pose proof (RInt_Chasles (mixf 1) (- m - v) (- m) m (mixf_int _ _ _) (mixf_int _ _ _)) as H1.
    pose proof (RInt_Chasles (mixf 1) (- m - v) (m - v) m (mixf_int _ _ _) (mixf_int _ _ _)) as H2.
    unfold plus in H1, H2; simpl in H1, H2. lra. }
  rewrite E. clear E.
  assert (Hv : - Rabs v <= v <= Rabs v).
  { pose proof (Rle_abs v). pose proof (Rle_abs (- v)). rewrite Rabs_Ropp in *. lra. }
  assert (H1 : Rabs (RInt (mixf 1) (- m - v) (- m)) <= exp (- (b * (m - Rabs v))) * Rabs v).
  { replace (Rabs v) with (Rabs (- m - (- m - v))) at 2 by (f_equal; ring).
    apply RInt_bound; [intros; apply mixf_int|]. intros t Ht.
    rewrite Rabs_right by (apply Rle_ge, mixf_nonneg; lra). eapply Rle_trans; [apply mixf_le1|]. apply exp_le.
    assert (t <= - m + Rabs v).
    { destruct Ht as [_ Ht]. eapply Rle_trans; [exact Ht|]. apply Rmax_lub; lra. }
    nra. }
  assert (H2 : Rabs (RInt (mixf 1) (m - v) m) <= exp (- ((1 - b) * (m - Rabs v))) * Rabs v).
  { replace (Rabs v) with (Rabs (m - (m - v))) at 2 by (f_equal; ring).
    apply RInt_bound; [intros; apply mixf_int|]. intros t Ht.
    rewrite Rabs_right by (apply Rle_ge, mixf_nonneg; lra). eapply Rle_trans; [apply mixf_le2|]. apply exp_le.
    assert (m - Rabs v <= t).
    { destruct Ht as [Ht _]. eapply Rle_trans; [|exact Ht]. apply Rmin_glb; lra. }
    nra. }
  unfold Rminus at 1. eapply Rle_trans; [apply Rabs_triang|]. rewrite Rabs_Ropp. lra.
Qed.
Lemma mix1_mono m : 1 <= m -> mix 1 1 <= mix m 1.
Proof.
  intros Hm. unfold mix.
  rewrite <- (RInt_Chasles (mixf 1) (- m) (- (1)) m) by apply mixf_int.
  rewrite <- (RInt_Chasles (mixf 1) (- (1)) 1 m) by apply mixf_int. unfold plus; simpl.
  assert (0 <= RInt (mixf 1) (- m) (- (1))) by (apply RInt_ge_0; [lra|apply mixf_int|intros; apply mixf_nonneg; lra]).
  assert (0 <= RInt (mixf 1) 1 m) by (apply RInt_ge_0; [lra|apply mixf_int|intros; apply mixf_nonneg; lra]).
  lra.
Qed.
Lemma mixf1_pos u : 0 < mixf 1 u.
Proof.
  unfold mixf. apply Rmult_lt_0_compat; [apply exp_pos|].
  rewrite Rmult_1_r. pose proof (exp_pos (- u)). pose proof (exp_increasing (- exp (- u)) 0 ltac:(lra)) as H1. rewrite exp_0 in H1. lra.
Qed.
Lemma mix1_pos : 0 < mix 1 1.
Proof. unfold mix. apply RInt_gt_0; [lra|intros; apply mixf1_pos|intros; apply mixf_cont]. Qed.
Lemma exp_int k p q : k <> 0 -> is_RInt (fun u => exp (k * u)) p q (exp (k * q) / k - exp (k * p) / k).
Proof.
  intros Hk. apply (is_RInt_derive (fun u => exp (k * u) / k) (fun u => exp (k * u))).
  - intros u _. auto_derive; auto. field. exact Hk.
  - intros u _. apply @ex_derive_continuous. auto_derive. auto.
Qed.
Lemma mix1_bound m : 0 <= m -> mix m 1 <= / b + / (1 - b).
Proof.
  intros Hm. unfold mix. rewrite <- (RInt_Chasles (mixf 1) (- m) 0 m) by apply mixf_int. unfold plus; simpl.
  pose proof (exp_int b (- m) 0 ltac:(lra)) as H1. pose proof (exp_int (- (1 - b)) 0 m ltac:(lra)) as H2.
  assert (L1 : RInt (mixf 1) (- m) 0 <= RInt (fun u => exp (b * u)) (- m) 0).
  { apply RInt_le; [lra|apply mixf_int|eexists; exact H1|intros; apply mixf_le1]. }
  assert (L2 : RInt (mixf 1) 0 m <= RInt (fun u => exp (- (1 - b) * u)) 0 m).
  { apply RInt_le; [lra|apply mixf_int|eexists; exact H2|intros; apply mixf_le2]. }
  rewrite (is_RInt_unique _ _ _ _ H1) in L1. rewrite (is_RInt_unique _ _ _ _ H2) in L2.
  rewrite Rmult_0_r, exp_0 in L1, L2.
  pose proof (exp_pos (b * - m)). pose proof (exp_pos (- (1 - b) * m)).
  assert (0 < / b) by (apply Rinv_0_lt_compat; lra). assert (0 < / (1 - b)) by (apply Rinv_0_lt_compat; lra).
  unfold Rdiv in *. rewrite Rinv_opp in L2. nra.
Qed.

Lemma exp_neg_cv a : 0 < a -> Un_cv (fun m => exp (- (a * INR m))) 0.
Proof.
  intros Ha. apply (cv_ext (fun m => (exp (- a)) ^ m)).
  - intros m. induction m as [|m IH]; [simpl; rewrite Rmult_0_r, Ropp_0, exp_0; reflexivity|].
    rewrite <- tech_pow_Rmult, IH, <- exp_plus. f_equal. rewrite S_INR. ring.
  - intros e He. destruct (pow_lt_1_zero (exp (- a))) with (y := e) as [N HN]; [|exact He|].
    + rewrite Rabs_right by (left; apply exp_pos). rewrite <- exp_0. apply exp_increasing. lra.
    + exists N. intros m Hm. unfold R_dist. rewrite Rminus_0_r. apply HN. lia.
Qed.
Lemma squeeze (u v : nat -> R) l : Un_cv v 0 -> (exists N, forall m, (N <= m)%nat -> Rabs (u m - l) <= v m) -> Un_cv u l.
Proof.
  intros Hv [N HN] e He. destruct (Hv e He) as [M HM]. exists (Nat.max N M). intros m Hm. unfold R_dist in *.
  specialize (HN m ltac:(lia)). specialize (HM m ltac:(lia)). rewrite Rminus_0_r in HM. pose proof (Rle_abs (v m)). lra.
Qed.

Lemma mix_cv x : 0 <= x -> Un_cv (fun m => mix (INR m) x / mix (INR m) 1) (npow x b).
Proof.
  intros [Hx|Hx].
  - unfold npow. destruct (Reqb_spec x 0) as [E|_]; [lra|].
    unfold Rpower. set (v := ln x). replace x with (exp v) by (apply exp_ln; exact Hx).
    pose (K := exp (b * v) * Rabs v / mix 1 1).
    apply (squeeze _ (fun m => K * (exp (b * Rabs v) * exp (- (b * INR m)) + exp ((1 - b) * Rabs v) * exp (- ((1 - b) * INR m))))).
    + replace 0 with (K * (exp (b * Rabs v) * 0 + exp ((1 - b) * Rabs v) * 0)) by ring.
      apply cv_scal. apply (CV_plus (fun m => exp (b * Rabs v) * exp (- (b * INR m))) (fun m => exp ((1 - b) * Rabs v) * exp (- ((1 - b) * INR m))));
        apply cv_scal; apply exp_neg_cv; lra.
    + exists 1%nat. intros m Hm. apply le_INR in Hm. simpl in Hm.
      pose proof (mix1_mono (INR m) Hm) as Hmono. pose proof mix1_pos as Hpos.
      rewrite mix_shift.
      replace (exp (b * v) * RInt (mixf 1) (- INR m - v) (INR m - v) / mix (INR m) 1 - exp (b * v))
        with (exp (b * v) * (RInt (mixf 1) (- INR m - v) (INR m - v) - mix (INR m) 1) / mix (INR m) 1) by (field; lra).
      unfold Rdiv. rewrite !Rabs_mult. rewrite (Rabs_right (exp (b * v))) by (left; apply exp_pos).
      rewrite (Rabs_right (/ mix (INR m) 1)) by (left; apply Rinv_0_lt_compat; lra).
      pose proof (mix_diff v (INR m) ltac:(lra)) as HD.
      replace (exp (- (b * (INR m - Rabs v)))) with (exp (b * Rabs v) * exp (- (b * INR m))) in HD by (rewrite <- exp_plus; f_equal; ring).
      replace (exp (- ((1 - b) * (INR m - Rabs v)))) with (exp ((1 - b) * Rabs v) * exp (- ((1 - b) * INR m))) in HD by (rewrite <- exp_plus; f_equal; ring).
      set (Z := exp (b * Rabs v) * exp (- (b * INR m)) + exp ((1 - b) * Rabs v) * exp (- ((1 - b) * INR m))) in *.
      assert (HI : / mix (INR m) 1 <= / mix 1 1) by (apply Rinv_le_contravar; lra).
      assert (0 < / mix (INR m) 1) by (apply Rinv_0_lt_compat; lra).
      unfold K, Rdiv. pose proof (exp_pos (b * v)).
      set (d := Rabs (RInt (mixf 1) (- INR m - v) (INR m - v) - mix (INR m) 1)) in *.
      assert (0 <= d) by apply Rabs_pos.
      replace (exp (b * v) * Rabs v * / mix 1 1 * Z) with (exp (b * v) * (Rabs v * Z) * / mix 1 1) by ring.
      apply Rmult_le_compat; [apply Rmult_le_pos; lra|lra| |exact HI].
      apply Rmult_le_compat_l; lra.
  - subst x. unfold npow. destruct (Reqb_spec 0 0) as [_|E]; [|lra]. destruct (Reqb_spec b 0) as [E|_]; [lra|].
    apply (cv_ext (fun _ => 0)); [|apply cv_const]. intros m. unfold mix.
    rewrite (RInt_ext (mixf 0) (fun _ => 0)).
    + rewrite RInt_const. unfold scal; simpl; unfold mult; simpl. unfold Rdiv. ring.
    + intros u _. change (mixf 0 u = 0). unfold mixf. rewrite Rmult_0_r, Ropp_0, exp_0. ring.
Qed.

Lemma is_RInt_bsum n (F : nat -> R -> R) (l : nat -> R) p q :
  (forall i, (i < n)%nat -> is_RInt (F i) p q (l i)) -> is_RInt (fun u => bsum n (fun i => F i u)) p q (bsum n l).
Proof.
  induction n as [|n IH]; intros H; simpl.
  - pose proof (@is_RInt_const R_NormedModule p q 0) as H0. unfold scal in H0; simpl in H0; unfold mult in H0; simpl in H0.
    rewrite Rmult_0_r in H0. exact H0.
  - apply (@is_RInt_plus R_NormedModule (fun u => bsum n (fun i => F i u)) (F n)); [apply IH; intros; apply H; lia|apply H; lia].
Qed.
Lemma is_RInt_qf n c (F : R -> mat) (L : mat) p q :
  (forall i j, (i < n)%nat -> (j < n)%nat -> is_RInt (fun u => F u i j) p q (L i j)) ->
  is_RInt (fun u => qf n c (F u)) p q (qf n c L).
Proof.
  intros H. unfold qf.
  apply (is_RInt_bsum n (fun i u => bsum n (fun j => c i * c j * F u i j)) (fun i => bsum n (fun j => c i * c j * L i j))).
  intros i Hi. apply (is_RInt_bsum n (fun j u => c i * c j * F u i j) (fun j => c i * c j * L i j)).
  intros j Hj. apply (@is_RInt_scal R_NormedModule (fun u => F u i j) p q (c i * c j) (L i j)). auto.
Qed.

Variables (n : nat) (M : mat).
Hypothesis Hpos : forall i j, (i < n)%nat -> (j < n)%nat -> 0 <= M i j.
Hypothesis Hpsd : forall t, 0 < t -> psd n (fun i j => exp (- (t * M i j))).

Lemma mixf_qf c u : bsum n c = 0 -> qf n c (fun i j => mixf (M i j) u) = - (exp (b * u) * qf n c (fun i j => exp (- (exp (- u) * M i j)))).
Proof.
  intros Hc. unfold mixf. rewrite (qf_scal n c (exp (b * u)) (fun i j => 1 - exp (- (exp (- u) * M i j)))).
  rewrite (qf_ext n c c (fun i j => 1 - exp (- (exp (- u) * M i j))) (fun i j => (fun _ _ => 1) i j + (-1) * exp (- (exp (- u) * M i j)))) by (intros; auto; ring).
  rewrite (qf_plus n c (fun _ _ => 1)), (qf_scal n c (-1) (fun i j => exp (- (exp (- u) * M i j)))), qf_const, Hc. ring.
Qed.
Lemma mix_qf_int c p q : is_RInt (fun u => qf n c (fun i j => mixf (M i j) u)) p q (qf n c (fun i j => RInt (mixf (M i j)) p q)).
Proof. apply (is_RInt_qf n c (fun u i j => mixf (M i j) u)). intros. apply (@RInt_correct R_CompleteNormedModule), mixf_int. Qed.

Lemma mix_qf_le c p q : bsum n c = 0 -> p <= q -> qf n c (fun i j => RInt (mixf (M i j)) p q) <= 0.
Proof.
  intros Hc Hpq. rewrite <- (is_RInt_unique _ _ _ _ (mix_qf_int c p q)).
  replace 0 with (RInt (fun _ : R => 0) p q) by (rewrite RInt_const; unfold scal; simpl; unfold mult; simpl; ring).
  apply RInt_le; [exact Hpq|eexists; apply mix_qf_int|apply (@ex_RInt_const R_NormedModule)|].
  intros u _. rewrite mixf_qf by exact Hc. pose proof (Hpsd (exp (- u)) (exp_pos _) c). pose proof (exp_pos (b * u)). cbv beta in *. nra.
Qed.

Lemma pow_cnd : cond_neg_def n (fun i j => npow (M i j) b).
Proof.
  intros c Hc. change (qf n c (fun i j => npow (M i j) b) <= 0).
  cut (0 <= - qf n c (fun i j => npow (M i j) b)); [lra|].
  apply (cv_ge (fun m => - qf n c (fun i j => mix (INR m) (M i j) / mix (INR m) 1))).
  - apply (CV_opp (fun m => qf n c (fun i j => mix (INR m) (M i j) / mix (INR m) 1))).
    apply (qf_cv n c (fun m i j => mix (INR m) (M i j) / mix (INR m) 1)). intros. apply mix_cv. auto.
  - exists 1%nat. intros m Hm. apply le_INR in Hm. simpl in Hm.
    rewrite (qf_ext n c c _ (fun i j => / mix (INR m) 1 * mix (INR m) (M i j))) by (intros; auto; unfold Rdiv; ring).
    rewrite (qf_scal n c (/ mix (INR m) 1) (fun i j => mix (INR m) (M i j))).
    pose proof (mix_qf_le c (- INR m) (INR m) Hc ltac:(lra)) as H. change (qf n c (fun i j => mix (INR m) (M i j)) <= 0) in H.
    pose proof (mix1_mono (INR m) Hm). pose proof mix1_pos.
    assert (0 < / mix (INR m) 1) by (apply Rinv_0_lt_compat; lra). nra.
Qed.

Hypothesis Hpd : forall t, 0 < t -> pd n (fun i j => exp (- (t * M i j))).
Lemma pow_scnd : scnd n (fun i j => npow (M i j) b).
Proof.
  intros c Hc Hq i Hi.
  destruct (Req_dec (c i) 0) as [|Hne]; [assumption|exfalso].
  pose (d := - qf n c (fun i j => RInt (mixf (M i j)) 0 1)).
  assert (Hd : 0 < d).
  { unfold d. rewrite <- (is_RInt_unique _ _ _ _ (mix_qf_int c 0 1)).
    change (0 < opp (RInt (fun u => qf n c (fun i j => mixf (M i j) u)) 0 1)).
    rewrite <- (@RInt_opp R_CompleteNormedModule (fun u => qf n c (fun i j => mixf (M i j) u)) 0 1) by (eexists; apply mix_qf_int).
    apply RInt_gt_0; [lra| |].
    - intros u _. unfold opp; simpl. rewrite mixf_qf by exact Hc. rewrite Ropp_involutive.
      apply Rmult_lt_0_compat; [apply exp_pos|].
      destruct (Rlt_le_dec 0 (qf n c (fun i j => exp (- (exp (- u) * M i j))))) as [?|Hle]; [assumption|exfalso].
      apply Hne. apply (Hpd (exp (- u)) (exp_pos _) c Hle i Hi).
    - intros u _. apply (@continuous_opp R_UniformSpace R_AbsRing R_NormedModule).
      unfold qf. clear. assert (G : forall (F : nat -> R -> R) m, (forall k, continuous (F k) u) -> continuous (fun u => bsum m (fun k => F k u)) u).
      { intros F m HF. induction m as [|m IH]; simpl; [apply continuous_const|].
        apply (@continuous_plus R_UniformSpace R_AbsRing R_NormedModule (fun u => bsum m (fun k => F k u)) (F m)); auto. }
      apply (G (fun i u => bsum n (fun j => c i * c j * mixf (M i j) u))). intros k.
      apply (G (fun j u => c k * c j * mixf (M k j) u)). intros j.
      apply (@continuous_scal_r R_UniformSpace R_AbsRing R_NormedModule (c k * c j) (mixf (M k j))). apply mixf_cont. }
  pose (C := / b + / (1 - b)).
  assert (HC : 0 < C) by (unfold C; assert (0 < / b) by (apply Rinv_0_lt_compat; lra); assert (0 < / (1 - b)) by (apply Rinv_0_lt_compat; lra); lra).
  assert (HG : d / C <= - qf n c (fun i j => npow (M i j) b)).
  { apply (cv_ge (fun m => - qf n c (fun i j => mix (INR m) (M i j) / mix (INR m) 1))).
    - apply (CV_opp (fun m => qf n c (fun i j => mix (INR m) (M i j) / mix (INR m) 1))).
      apply (qf_cv n c (fun m i j => mix (INR m) (M i j) / mix (INR m) 1)). intros. apply mix_cv. auto.
    - exists 1%nat. intros m Hm. apply le_INR in Hm. simpl in Hm.
      rewrite (qf_ext n c c _ (fun i j => / mix (INR m) 1 * mix (INR m) (M i j))) by (intros; auto; unfold Rdiv; ring).
      rewrite (qf_scal n c (/ mix (INR m) 1) (fun i j => mix (INR m) (M i j))).
      assert (H : d <= - qf n c (fun i j => mix (INR m) (M i j))).
      { rewrite (qf_ext n c c (fun i j => mix (INR m) (M i j))
           (fun i j => (fun i j => RInt (mixf (M i j)) (- INR m) 0) i j + ((fun i j => RInt (mixf (M i j)) 0 1) i j + RInt (mixf (M i j)) 1 (INR m)))).
        - rewrite (qf_plus n c (fun i j => RInt (mixf (M i j)) (- INR m) 0)), (qf_plus n c (fun i j => RInt (mixf (M i j)) 0 1)).
          pose proof (mix_qf_le c (- INR m) 0 Hc ltac:(lra)). pose proof (mix_qf_le c 1 (INR m) Hc ltac:(lra)). unfold d. lra.
        - reflexivity.
        - intros a e _ _. unfold mix. rewrite <- (RInt_Chasles (mixf (M a e)) (- INR m) 0 (INR m)) by apply mixf_int.
          rewrite <- (RInt_Chasles (mixf (M a e)) 0 1 (INR m)) by apply mixf_int. reflexivity. }
      pose proof (mix1_mono (INR m) Hm). pose proof mix1_pos. pose proof (mix1_bound (INR m) ltac:(lra)) as HB. fold C in HB.
      assert (/ C <= / mix (INR m) 1) by (apply Rinv_le_contravar; lra).
      assert (0 < / C) by (apply Rinv_0_lt_compat; lra). unfold Rdiv. nra. }
  assert (0 < d / C) by (apply Rdiv_lt_0_compat; assumption). lra.
Qed.
End Pow.
