(** C78, C79: models with a sill, far from the data; continuity of the built-in models. *)
From Coq Require Import String.
From Verif Require Import Base Sums Matrix M_Variogram P_Variogram M_Geometry S_Geometry P_Geometry M_Kriging S_Kriging
  P_Kriging P_OKSpec M_Init M_Object M_Execute S_Execute P_Object P_Execute P_Cells P_OK P_Exec2 P_Psd P_Psd2 P_Turn4 P_Valid S_Line P_Line P_Far.

Lemma psd_ext n K K' : (forall i j, (i < n)%nat -> (j < n)%nat -> K i j = K' i j) -> psd n K -> psd n K'.
Proof. intros E H c. rewrite <- (qf_ext n c c K K') by auto. apply H. Qed.

Lemma exp_small a x e : 0 <= a -> 0 < e -> 0 < x -> a / e <= x -> a * exp (- x) <= e.
Proof.
  intros Ha He Hx H. rewrite exp_Ropp. assert (1 + x < exp x) by (apply exp_ineq1; lra).
  assert (P := exp_pos x). apply (Rmult_le_reg_r (exp x)); [exact P|]. rewrite Rmult_assoc, Rinv_l, Rmult_1_r by lra.
  assert (a <= x * e). { apply (Rmult_le_compat_r e) in H; [|lra]. unfold Rdiv in H. rewrite Rmult_assoc, Rinv_l, Rmult_1_r in H by lra. exact H. }
  nra.
Qed.

Record sill_shape (o : obj) (rho : R -> R) : Prop := {
  sh_vg : forall d, 0 <= d -> o_vg o d = rnth (o_params o) 0 * (1 - rho d) + rnth (o_params o) 2;
  sh_psd : forall n (pts : nat -> vec3), psd n (fun i j => rho (separation o (pts i) (pts j)));
  sh_0 : rho 0 = 1;
  sh_lim : forall e, 0 < e -> exists D, forall d, 0 <= d -> D < d -> 0 <= rnth (o_params o) 0 * rho d <= e }.

Lemma sill_rho o : o_ct o = Euclidean -> sill_model o -> exists rho, sill_shape o rho.
Proof.
  intros HE (HF & Hp & Hr & Hn). set (m := o_params o) in *.
  assert (EC : forall (f : R -> R) n (pts : nat -> vec3), psd n (fun i j => f (sqrt (sqd 3 (fun i => euclid_coords o (pts i)) i j))) -> psd n (fun i j => f (separation o (pts i) (pts j)))).
  { intros f n pts. apply psd_ext. intros i j _ _. rewrite (separation_sqd o pts i j HE). reflexivity. }
  destruct HF as [HF|[HF|[HF|[]]]].
  - set (s := rnth m 1 * 4 / 7). assert (Hs : 0 < s) by (unfold s; lra).
    exists (fun d => exp (- (d * d) / (s * s))). constructor.
    + intros d _. unfold o_vg. rewrite <- HF. reflexivity.
    + intros n pts. apply (EC (fun d => exp (- (d * d) / (s * s)))).
      apply (psd_ext n (fun i j => exp (- (/ (s * s) * sqd 3 (fun i => euclid_coords o (pts i)) i j)))).
      * intros i j _ _. rewrite sqrt_sqrt by apply sqd_nonneg. f_equal. unfold Rdiv. ring.
      * apply gauss_psd. left. apply Rinv_0_lt_compat. nra.
    + rewrite Rmult_0_r, Ropp_0. unfold Rdiv. rewrite Rmult_0_l. apply exp_0.
    + intros e He. exists (Rmax s (s * (rnth m 0 / e))). intros d Hd HD.
      assert (M1 := Rmax_l s (s * (rnth m 0 / e))). assert (M2 := Rmax_r s (s * (rnth m 0 / e))). fold m.
      split; [apply Rmult_le_pos; [exact Hp|left; apply exp_pos]|].
      replace (- (d * d) / (s * s)) with (- (d / s * (d / s))) by (field; lra).
      assert (D1 : 1 <= d / s) by (apply (Rmult_le_reg_r s); [lra|]; unfold Rdiv; rewrite Rmult_assoc, Rinv_l by lra; lra).
      assert (D2 : rnth m 0 / e <= d / s) by (apply (Rmult_le_reg_r s); [lra|]; unfold Rdiv at 2; rewrite Rmult_assoc, Rinv_l by lra; lra).
      apply exp_small; [exact Hp|exact He|nra|nra].
  - set (s := rnth m 1 / 3). assert (Hs : 0 < s) by (unfold s; lra).
    exists (fun d => exp (- d / s)). constructor.
    + intros d _. unfold o_vg. rewrite <- HF. reflexivity.
    + intros n pts. apply (EC (fun d => exp (- d / s))).
      apply (psd_ext n (fun i j => exp (- (/ s * sqrt (sqd 3 (fun i => euclid_coords o (pts i)) i j))))).
      * intros i j _ _. f_equal. unfold Rdiv. ring.
      * apply (schoenberg n (fun i j => / s * sqrt (sqd 3 (fun i => euclid_coords o (pts i)) i j))).
        -- intros i j Hi Hj. unfold trm. f_equal. apply (sqrt_sqd_sym n 3 _ i j Hi Hj).
        -- apply cnd_scal; [left; apply Rinv_0_lt_compat, Hs|]. apply (proj1 (proj2 shape_linear)). lia.
    + rewrite Ropp_0. unfold Rdiv. rewrite Rmult_0_l. apply exp_0.
    + intros e He. exists (s * (rnth m 0 / e)). intros d Hd HD. fold m.
      split; [apply Rmult_le_pos; [exact Hp|left; apply exp_pos]|].
      replace (- d / s) with (- (d / s)) by (field; lra).
      assert (D2 : rnth m 0 / e < d / s) by (apply (Rmult_lt_reg_r s); [lra|]; unfold Rdiv at 2; rewrite Rmult_assoc, Rinv_l by lra; lra).
      assert (0 <= rnth m 0 / e) by (apply Rmult_le_pos; [exact Hp|left; apply Rinv_0_lt_compat, He]).
      apply exp_small; [exact Hp|exact He|lra|lra].
  - set (s := rnth m 1) in *. exists (fun d => c3 (d / s)). constructor.
    + intros d Hd. unfold o_vg. rewrite <- HF. cbn. unfold spherical_variogram_model, c3. cbv zeta. fold m. fold s.
      destruct (Rleb_spec d s) as [H|H], (Rle_dec (d / s) 1) as [K|K].
      * field. lra.
      * exfalso. apply K. apply (Rmult_le_reg_r s); [lra|]. unfold Rdiv. rewrite Rmult_assoc, Rinv_l; lra.
      * exfalso. apply (Rmult_le_compat_r s) in K; [|lra]. unfold Rdiv in K. rewrite Rmult_assoc, Rinv_l in K; lra.
      * ring.
    + intros n pts. apply (EC (fun d => c3 (d / s))).
      apply (psd_ext n (fun i j => c3 (sqrt (sqd 3 (fun i a => euclid_coords o (pts i) a / s) i j)))); [|apply c3_psd].
      intros i j _ _. f_equal. replace (sqd 3 (fun i a => euclid_coords o (pts i) a / s) i j) with (sqd 3 (fun i => euclid_coords o (pts i)) i j / (s * s)).
      * rewrite sqrt_div by (try apply sqd_nonneg; nra). rewrite sqrt_square by lra. reflexivity.
      * unfold sqd, Rdiv. rewrite <- bsum_scal_r. apply bsum_ext. intros a _. field. lra.
    + unfold c3. destruct (Rle_dec (0 / s) 1) as [K|K]; [field; lra|]. exfalso. apply K. unfold Rdiv. rewrite Rmult_0_l. lra.
    + intros e He. exists s. intros d Hd HD. unfold c3. destruct (Rle_dec (d / s) 1) as [K|K].
      * exfalso. apply (Rmult_le_compat_r s) in K; [|lra]. unfold Rdiv in K. rewrite Rmult_assoc, Rinv_l in K; lra.
      * fold m. lra.
Qed.

Lemma sill_form o rho w : sill_model o -> sill_shape o rho -> bsum (o_n o) w = 1 -> qf (o_n o) w (G_of o) <= sill o.
Proof.
  intros (_ & Hp & _ & Hn) HS HW. set (a := rnth (o_params o) 0) in *. set (b := rnth (o_params o) 2) in *.
  assert (E : qf (o_n o) w (G_of o) = sill o - a * qf (o_n o) w (fun i j => rho (separation o (datum o i) (datum o j))) - b * bsum (o_n o) (fun i => w i * w i)).
  { rewrite (qf_ext (o_n o) w w (G_of o) (fun i j => (fun _ _ => sill o) i j + ((- a) * rho (separation o (datum o i) (datum o j)) + (if Nat.eqb i j then (fun _ => - b) i else 0)))).
    - rewrite (qf_plus _ _ (fun _ _ => sill o)), (qf_plus _ _ (fun i j => (- a) * rho (separation o (datum o i) (datum o j)))), qf_scal, qf_const, qf_diag, bsum_scal, HW. ring.
    - reflexivity.
    - intros i j _ _. unfold G_of, data_semivariance, sill. fold a b. destruct (Nat.eqb_spec i j) as [->|_].
      + rewrite separation_refl', (sh_0 _ _ HS). ring.
      + rewrite (sh_vg _ _ HS) by apply P_Object.separation_nonneg. fold a b. ring. }
  rewrite E. pose proof (sh_psd _ _ HS (o_n o) (datum o) w). pose proof (bsum_nonneg (o_n o) (fun i => w i * w i) (fun i _ => Rle_0_sqr (w i))).
  pose proof (Rmult_le_pos _ _ Hp H). pose proof (Rmult_le_pos _ _ Hn H0). lra.
Qed.

Lemma far_variance o rho w mu : sill_model o -> sill_shape o rho -> OK_system (o_n o) (G_of o) (fun _ => sill o) w mu ->
  sill o <= bsum (o_n o) (fun i => w i * sill o) + mu.
Proof.
  intros HM HS (E1 & E2). rewrite bsum_scal_r, E2. pose proof (sill_form o rho w HM HS E2) as Q.
  assert (Q' : qf (o_n o) w (G_of o) + mu = sill o).
  { unfold qf. rewrite (bsum_ext (o_n o) _ (fun i => w i * (sill o - mu))).
    - rewrite bsum_scal_r, E2. ring.
    - intros i Hi. rewrite <- (E1 i Hi). replace (bsum (o_n o) (fun j => w j * G_of o i j) + mu - mu) with (bsum (o_n o) (fun j => w j * G_of o i j)) by ring.
      rewrite <- bsum_scal. apply bsum_ext. intros; ring. }
  lra.
Qed.

(** All far locations get nearly the same prediction and variance. *)
Theorem far_limit o : o_ct o = Euclidean -> sill_model o -> regular o ->
  exists v s, sill o <= s /\
    (exists w, bsum (o_n o) w = 1 /\ v = bsum (o_n o) (fun i => w i * o_values o i)) /\
    forall e, 0 < e -> exists D, forall E q r p pos, run E o q r -> q_window q = None -> shown o q p pos ->
      (forall i, (i < o_n o)%nat -> D < separation o pos (datum o i)) ->
      exists v' s', r_value r p = Some v' /\ r_variance r p = Some s' /\ Rabs (v' - v) < e /\ Rabs (s' - s) < e.
Proof.
  intros HE HM HReg. destruct (sill_rho o HE HM) as (rho & HS).
  destruct (HReg (fun _ => sill o)) as (w & mu & HW & _).
  exists (bsum (o_n o) (fun i => w i * o_values o i)), (bsum (o_n o) (fun i => w i * sill o) + mu).
  split; [apply (far_variance o rho); assumption|]. split; [exists w; split; [apply HW|reflexivity]|].
  intros e He.
  destruct (near_estimate (o_n o) (o_vg o) (fun i j => separation o (datum o i) (datum o j)) (o_values o) (fun _ => sill o) w mu HReg HW e He) as (dl & Hdl & HN).
  destruct (sh_lim _ _ HS dl Hdl) as (D & HD). exists (Rmax D eps). intros E q r p pos HR HQ Hsh Hfar.
  destruct (global_cell E o q r p pos HR Hsh HReg HQ) as (w' & mu' & H' & HV & HVar).
  destruct (HN (g_of o pos) w' mu' H') as [N1 N2].
  - intros i Hi. specialize (Hfar i Hi). assert (M1 := Rmax_l D eps). assert (M2 := Rmax_r D eps).
    rewrite g_plain by (intros _; lra). rewrite (sh_vg _ _ HS) by apply P_Object.separation_nonneg. unfold sill.
    replace (rnth (o_params o) 0 * (1 - rho (separation o pos (datum o i))) + rnth (o_params o) 2 - (rnth (o_params o) 0 + rnth (o_params o) 2)) with (- (rnth (o_params o) 0 * rho (separation o pos (datum o i)))) by ring.
    rewrite Rabs_Ropp. specialize (HD (separation o pos (datum o i)) (P_Object.separation_nonneg _ _ _) ltac:(lra)). rewrite Rabs_pos_eq; lra.
  - do 2 eexists. split; [exact HV|]. split; [exact HVar|]. split; assumption.
Qed.

(** Beyond the range of a spherical model exactly the same. *)
Theorem beyond_range E o q q' r r' p p' pos pos' : o_ct o = Euclidean -> o_fun o = f_spherical -> sill_model o -> regular_for o q ->
  run E o q r -> run E o q' r' -> q_window q = None -> q_window q' = None -> shown o q p pos -> shown o q' p' pos' ->
  (forall i, (i < o_n o)%nat -> Rmax eps (rnth (o_params o) 1) < separation o pos (datum o i) /\ Rmax eps (rnth (o_params o) 1) < separation o pos' (datum o i)) ->
  r_value r p = r_value r' p' /\ r_variance r p = r_variance r' p' /\ exists s, r_variance r p = Some s /\ sill o <= s.
Proof.
  intros HE HF HM Hreg HR HR' HW HW' HS HS' Hfar. pose proof (run_is_regular E o q r HR Hreg HW) as HReg.
  assert (Hg : forall x i, (i < o_n o)%nat -> Rmax eps (rnth (o_params o) 1) < separation o x (datum o i) -> g_of o x i = sill o).
  { intros x i Hi H. assert (M1 := Rmax_l eps (rnth (o_params o) 1)). assert (M2 := Rmax_r eps (rnth (o_params o) 1)).
    rewrite g_plain by (intros _; lra). unfold o_vg. rewrite HF. cbn. unfold spherical_variogram_model. cbv zeta. rewrite (proj2 (Rleb_false _ _)) by lra. reflexivity. }
  destruct (global_cell E o q r p pos HR HS HReg HW) as (w & mu & H & HV & HVar).
  destruct (global_cell E o q' r' p' pos' HR' HS' HReg HW') as (w' & mu' & H' & HV' & HVar').
  assert (C : forall g w mu, (forall i, (i < o_n o)%nat -> g i = sill o) -> OK_system (o_n o) (G_of o) g w mu -> OK_system (o_n o) (G_of o) (fun _ => sill o) w mu).
  { intros g u nu HG (A & B). split; [|exact B]. intros i Hi. rewrite (A i Hi). apply HG, Hi. }
  apply C in H; [|intros i Hi; apply Hg; [exact Hi|apply Hfar, Hi]]. apply C in H'; [|intros i Hi; apply Hg; [exact Hi|apply Hfar, Hi]].
  rewrite (bsum_ext (o_n o) (fun i => w i * g_of o pos i) (fun i => w i * sill o)) in HVar by (intros i Hi; rewrite Hg by (try exact Hi; apply Hfar, Hi); reflexivity).
  rewrite (bsum_ext (o_n o) (fun i => w' i * g_of o pos' i) (fun i => w' i * sill o)) in HVar' by (intros i Hi; rewrite Hg by (try exact Hi; apply Hfar, Hi); reflexivity).
  destruct (regular_unique' (o_n o) (G_of o) (fun _ => sill o) (o_values o) _ _ _ _ HReg (ex_intro _ w (ex_intro _ mu (conj H (conj eq_refl eq_refl)))) (ex_intro _ w' (ex_intro _ mu' (conj H' (conj eq_refl eq_refl))))) as [U1 U2].
  split; [rewrite HV, HV', U1; reflexivity|]. split; [rewrite HVar, HVar'; f_equal; exact U2|].
  eexists. split; [exact HVar|]. destruct (sill_rho o HE HM) as (rho & HSh). apply (far_variance o rho); assumption.
Qed.

(** continuity of the built-in models *)
Lemma cont_of f d : continuity_pt f d -> continuous_at f d.
Proof.
  intros H e He. destruct (H e He) as (a & Ha & HH). exists a. split; [exact Ha|]. intros x Hx.
  destruct (Req_dec d x) as [->|Hne]; [rewrite Rminus_diag_eq, Rabs_R0 by reflexivity; exact He|].
  apply HH. split; [split; [exact I|exact Hne]|exact Hx].
Qed.
Lemma cont_local f g d : 0 < d -> (forall x, 0 < x -> f x = g x) -> continuous_at g d -> continuous_at f d.
Proof.
  intros Hd HE HG e He. destruct (HG e He) as (a & Ha & H). exists (Rmin a d). split; [apply Rmin_glb_lt; assumption|].
  intros x Hx. assert (M1 := Rmin_l a d). assert (M2 := Rmin_r a d). pose proof (Rle_abs (- (x - d))) as Q. rewrite Rabs_Ropp in Q.
  rewrite !HE by lra. apply H. lra.
Qed.
Lemma rmin_abs x r : Rmin x r = (x + r - Rabs (x - r)) * / 2.
Proof. unfold Rmin, Rabs. destruct (Rle_dec x r), (Rcase_abs (x - r)); lra. Qed.

Theorem builtin_continuous f m d : In f (map snd variogram_dict) -> 0 < d -> (f <> f_linear -> f <> f_power -> 0 < rnth m 1) -> continuous_at (fcall f m) d.
Proof.
  intros HF Hd Hr. cbn in HF. destruct HF as [<-|[<-|[<-|[<-|[<-|[<-|[]]]]]]].
  - apply cont_of. change (continuity_pt (fun d => rnth m 0 * d + rnth m 1) d). reg.
  - apply (cont_local _ (fun d => rnth m 0 * exp (rnth m 1 * ln d) + rnth m 2)); [exact Hd| |].
    + intros x Hx. cbn. unfold power_variogram_model, npow. destruct (Reqb_spec x 0); [lra|]. reflexivity.
    + apply cont_of. apply derivable_continuous_pt. reg. exists (/ d). apply derivable_pt_lim_ln, Hd.
  - apply cont_of. change (continuity_pt (fun d => rnth m 0 * (1 - exp (- (d * d) * / (rnth m 1 * 4 / 7 * (rnth m 1 * 4 / 7)))) + rnth m 2) d). reg.
  - set (r := rnth m 1) in *. assert (0 < r) by (apply Hr; intros Q; apply (f_equal fname) in Q; discriminate).
    apply (cont_local _ (fun d => rnth m 0 * (3 * / (2 * r) * ((d + r - Rabs (d - r)) * / 2) - / (2 * (r * r * r)) * (((d + r - Rabs (d - r)) * / 2) * ((d + r - Rabs (d - r)) * / 2) * ((d + r - Rabs (d - r)) * / 2))) + rnth m 2)); [exact Hd| |].
    + intros x Hx. rewrite <- rmin_abs. cbn. unfold spherical_variogram_model. cbv zeta. fold r. unfold Rmin. destruct (Rleb_spec x r), (Rle_dec x r); try lra; field; lra.
    + apply cont_of.
      assert (A : continuity_pt (fun d => Rabs (d - r)) d) by (apply (continuity_pt_comp (fun d => d - r) Rabs); [reg|apply Rcontinuity_abs]).
      reg; exact A.
  - apply cont_of. change (continuity_pt (fun d => rnth m 0 * (1 - exp (- d * / (rnth m 1 / 3))) + rnth m 2) d). reg.
  - apply cont_of. change (continuity_pt (fun d => rnth m 0 * (1 - (1 - d * / (rnth m 1 / 3)) * exp (- d * / (rnth m 1 / 3))) + rnth m 2) d). reg.
Qed.
