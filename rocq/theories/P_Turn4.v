(** Turning bands, part 4: the spherical covariance is positive definite in three
    dimensions, strictly so on different points. *)
From Verif Require Import Base Sums Matrix P_Psd P_Psd2 P_Psd3 P_Turn1 P_Turn2 P_Turn3.
From Coquelicot Require Import Coquelicot.

Definition c3 (r : R) : R := if Rle_dec r 1 then 1 - 3 / 2 * r + r ^ 3 / 2 else 0.

(** c3 r is the mean of c1 over [0, r] *)
Lemma c1_mean r : 0 <= r -> is_RInt c1 0 r (r * c3 r).
Proof.
  intros Hr.
  assert (G : forall r, 0 <= r <= 1 -> is_RInt c1 0 r (r * (1 - 3 / 2 * r + r ^ 3 / 2))).
  { clear. intros r Hr. apply (is_RInt_ext (fun t => 1 - 3 * t + 2 * t ^ 3)).
    - intros t. rewrite Rmin_left, Rmax_right by lra. intros Ht. unfold c1. rewrite Rabs_right by lra. destruct (Rle_dec t 1); [reflexivity|lra].
    - pose (F := fun t => t - 3 / 2 * t ^ 2 + t ^ 4 / 2).
      replace (r * (1 - 3 / 2 * r + r ^ 3 / 2)) with (F r - F 0) by (unfold F; field).
      apply (is_RInt_derive F (fun t => 1 - 3 * t + 2 * t ^ 3)).
      + intros t _. unfold F. auto_derive; [auto|]. field.
      + intros t _. apply @ex_derive_continuous. auto_derive. auto. }
  unfold c3. destruct (Rle_dec r 1) as [H|H]; [apply G; lra|].
  pose proof (G 1 ltac:(lra)) as G1.
  assert (G2 : is_RInt c1 1 r 0) by (apply zero_int; [lra|]; intros t Ht; unfold c1; rewrite Rabs_right by lra; destruct (Rle_dec t 1); [lra|reflexivity]).
  pose proof (is_RInt_Chasles _ _ _ _ _ _ G1 G2) as G3. unfold plus in G3. cbn in G3.
  replace (r * 0) with (1 * (1 - 3 / 2 * 1 + 1 * (1 * (1 * 1)) / 2) + 0) by field. exact G3.
Qed.
Definition mean_poly (N : nat) (c : nat -> R) (Q : R) : R := bsum N (fun n => c n * (/ (2 * INR n + 1) * Q ^ n)).
Lemma poly_mean N c r : is_RInt (epoly N c) 0 r (r * mean_poly N c (r * r)).
Proof.
  unfold mean_poly. rewrite <- bsum_scal. apply (is_RInt_bsum N (fun n t => c n * (t * t) ^ n)). intros n _.
  replace (r * (c n * (/ (2 * INR n + 1) * (r * r) ^ n))) with (c n * ((r ^ S (2 * n) - 0 ^ S (2 * n)) / INR (S (2 * n)))).
  - apply (@is_RInt_scal R_NormedModule (fun t => (t * t) ^ n)). apply (is_RInt_ext (fun t => t ^ (2 * n))).
    + intros t _. rewrite pow_mult. f_equal. ring.
    + apply mono_int.
  - rewrite S_INR, mult_INR. change (INR 2) with 2. pose proof (pos_INR n).
    change (r ^ S (2 * n)) with (r * r ^ (2 * n)). change (0 ^ S (2 * n)) with (0 * 0 ^ (2 * n)). rewrite pow_mult. replace (r ^ 2) with (r * r) by ring. field. lra.
Qed.
Lemma mean_near N c B e r : 0 < e -> near B e c1 (epoly N c) -> 0 <= r <= B -> Rabs (c3 r - mean_poly N c (r * r)) <= e.
Proof.
  intros He HN Hr. destruct (Req_dec r 0) as [->|Hne].
  - specialize (HN 0). rewrite Rabs_R0 in HN. specialize (HN ltac:(lra)).
    replace (c3 0) with (c1 0) by (unfold c1, c3; rewrite Rabs_R0; destruct (Rle_dec 0 1); [field|lra]).
    replace (mean_poly N c (0 * 0)) with (epoly N c 0); [exact HN|]. unfold mean_poly, epoly. apply bsum_ext. intros n _. rewrite Rmult_0_r.
    destruct n; [change (INR 0) with 0; cbn; field|]. cbn [pow]. ring.
  - assert (0 < r) by lra.
    pose proof (@is_RInt_minus R_NormedModule _ _ _ _ _ _ (c1_mean r ltac:(lra)) (poly_mean N c r)) as HI.
    assert (U : r * c3 r - r * mean_poly N c (r * r) <= e * r).
    { apply (is_RInt_le (fun t => c1 t - epoly N c t) (fun _ => e) 0 r); [lra|exact HI| |].
      - pose proof (@is_RInt_const R_NormedModule 0 r e) as K. unfold scal in K. cbn in K. unfold mult in K. cbn in K. replace (e * r) with ((r - 0) * e) by ring. exact K.
      - intros t Ht. specialize (HN t). rewrite Rabs_right in HN by lra. specialize (HN ltac:(lra)). apply Rabs_le_between in HN. lra. }
    assert (V : - e * r <= r * c3 r - r * mean_poly N c (r * r)).
    { apply (is_RInt_le (fun _ => - e) (fun t => c1 t - epoly N c t) 0 r); [lra| |exact HI|].
      - pose proof (@is_RInt_const R_NormedModule 0 r (- e)) as K. unfold scal in K. cbn in K. unfold mult in K. cbn in K. replace (- e * r) with ((r - 0) * - e) by ring. exact K.
      - intros t Ht. specialize (HN t). rewrite Rabs_right in HN by lra. specialize (HN ltac:(lra)). apply Rabs_le_between in HN. lra. }
    apply Rabs_le. split; apply (Rmult_le_reg_l r); nra.
Qed.

Lemma bsum_abs_le n f : Rabs (bsum n f) <= bsum n (fun i => Rabs (f i)).
Proof. induction n as [|n IH]; cbn [bsum]; [rewrite Rabs_R0; lra|]. eapply Rle_trans; [apply Rabs_triang|]. lra. Qed.
Lemma qf_near n w K K' e : (forall i j, (i < n)%nat -> (j < n)%nat -> Rabs (K i j - K' i j) <= e) ->
  qf n w K <= qf n w K' + e * (bsum n (fun i => Rabs (w i)) * bsum n (fun i => Rabs (w i))).
Proof.
  intros H.
  assert (G : qf n w (fun i j => K i j + (-1) * K' i j) <= e * (bsum n (fun i => Rabs (w i)) * bsum n (fun i => Rabs (w i)))).
  { unfold qf. eapply Rle_trans; [apply Rle_abs|]. eapply Rle_trans; [apply bsum_abs_le|].
    rewrite <- bsum_scal_r, <- bsum_scal. apply bsum_le. intros i Hi. eapply Rle_trans; [apply bsum_abs_le|].
    rewrite <- bsum_scal, <- bsum_scal. apply bsum_le. intros j Hj. rewrite !Rabs_mult.
    specialize (H i j Hi Hj). replace (K i j + -1 * K' i j) with (K i j - K' i j) by ring.
    pose proof (Rabs_pos (w i)). pose proof (Rabs_pos (w j)). assert (0 <= Rabs (w i) * Rabs (w j)) by (apply Rmult_le_pos; assumption). nra. }
  rewrite (qf_plus n w K (fun i j => -1 * K' i j)), qf_scal in G. lra.
Qed.
Lemma proj_bound a b c z t : -1 <= z <= 1 -> (proj a b c z t) * (proj a b c z t) <= a * a + b * b + c * c.
Proof.
  intros Hz. unfold proj. set (s := sqrt (1 - z * z)). assert (Es : s * s = 1 - z * z) by (apply sqrt_sqrt; nra).
  pose proof (sin2_cos2 t) as E. unfold Rsqr in E.
  set (u := s * cos t). set (v := s * sin t). assert (Eu : u * u + v * v + z * z = 1).
  { unfold u, v. replace (s * cos t * (s * cos t) + s * sin t * (s * sin t) + z * z) with (s * s * (sin t * sin t + cos t * cos t) + z * z) by ring. rewrite E, Es. ring. }
  replace (s * (a * cos t + b * sin t) + c * z) with (a * u + b * v + c * z) by (unfold u, v; ring).
  replace (a * a + b * b + c * c) with ((a * a + b * b + c * c) * (u * u + v * v + z * z)) by (rewrite Eu; ring).
  pose proof (Rle_0_sqr (a * v - b * u)). pose proof (Rle_0_sqr (a * z - c * u)). pose proof (Rle_0_sqr (b * z - c * v)). unfold Rsqr in *. lra.
Qed.
Lemma proj_sub a b c a' b' c' z t : proj (a - a') (b - b') (c - c') z t = proj a b c z t - proj a' b' c' z t.
Proof. unfold proj. ring. Qed.
Lemma const_le_int (f : R -> R) p q k l : p <= q -> is_RInt f p q l -> (forall t, p < t < q -> k <= f t) -> (q - p) * k <= l.
Proof.
  intros Hpq HI H. apply (is_RInt_le (fun _ => k) f p q); [exact Hpq| |exact HI|exact H].
  exact (@is_RInt_const R_NormedModule p q k).
Qed.

Section PD.
Variables (n : nat) (x : nat -> vec).
Let q i j := sqd 3 x i j.
Lemma sqd_bounded : exists B, 0 <= B /\ forall i j, (i < n)%nat -> (j < n)%nat -> sqrt (q i j) <= B.
Proof.
  assert (G : forall i, exists B, 0 <= B /\ forall j, (j < n)%nat -> Rabs (sqrt (q i j)) <= B) by (intros i; apply bounded_by).
  assert (H : forall m, exists B, 0 <= B /\ forall i j, (i < m)%nat -> (j < n)%nat -> sqrt (q i j) <= B).
  { induction m as [|m (B & B0 & IH)]; [exists 0; split; [lra|intros; lia]|]. destruct (G m) as (B' & B0' & HB').
    exists (B + B'). split; [lra|]. intros i j Hi Hj. destruct (Nat.eq_dec i m) as [->|].
    - specialize (HB' j Hj). pose proof (Rle_abs (sqrt (q m j))). lra.
    - specialize (IH i j ltac:(lia) Hj). lra. }
  apply H.
Qed.
Lemma c3_psd : psd n (fun i j => c3 (sqrt (sqd 3 x i j))).
Proof.
  intros w. set (W := bsum n (fun i => Rabs (w i)) * bsum n (fun i => Rabs (w i))).
  assert (W0 : 0 <= W) by apply Rle_0_sqr.
  destruct sqd_bounded as (B & B0 & HB). unfold q in HB.
  assert (G : forall e, 0 < e -> - 2 * e * W <= qf n w (fun i j => c3 (sqrt (sqd 3 x i j)))).
  { intros e He. destruct (lp_c1 B e He) as (p & (N & c & Hp) & HN0).
    assert (HN : near B e c1 (epoly N c)) by (intros t Ht; rewrite <- Hp; now apply HN0). clear p Hp HN0.
    pose (pr := fun i j z t => proj (x i 0%nat - x j 0%nat) (x i 1%nat - x j 1%nat) (x i 2%nat - x j 2%nat) z t).
    assert (Hq : forall i j, (x i 0%nat - x j 0%nat) * (x i 0%nat - x j 0%nat) + (x i 1%nat - x j 1%nat) * (x i 1%nat - x j 1%nat) + (x i 2%nat - x j 2%nat) * (x i 2%nat - x j 2%nat) = sqd 3 x i j)
      by (intros; unfold sqd; cbn [bsum]; ring).
    assert (P1 : forall z t, -1 <= z <= 1 -> - e * W <= qf n w (fun i j => epoly N c (pr i j z t))).
    { intros z t Hz. pose (y := fun i => proj (x i 0%nat) (x i 1%nat) (x i 2%nat) z t).
      pose proof (c1_psd n y w) as H0.
      pose proof (qf_near n w (fun i j => c1 (y i - y j)) (fun i j => epoly N c (pr i j z t)) e) as H1. fold W in H1.
      cut (qf n w (fun i j => c1 (y i - y j)) <= qf n w (fun i j => epoly N c (pr i j z t)) + e * W); [lra|]. apply H1.
      intros i j Hi Hj. unfold pr. rewrite proj_sub. fold (y i) (y j). apply HN.
      pose proof (proj_bound (x i 0%nat - x j 0%nat) (x i 1%nat - x j 1%nat) (x i 2%nat - x j 2%nat) z t Hz) as HP. rewrite proj_sub, Hq in HP. fold (y i) (y j) in HP.
      eapply Rle_trans; [|exact (HB i j Hi Hj)]. rewrite <- sqrt_Rsqr_abs. apply sqrt_le_1_alt. unfold Rsqr. exact HP. }
    pose (inn := fun i j z => bsum N (fun m => c m * inner (x i 0%nat - x j 0%nat) (x i 1%nat - x j 1%nat) (x i 2%nat - x j 2%nat) m z)).
    assert (P2 : forall z, -1 <= z <= 1 -> (2 * PI) * (- e * W) <= qf n w (fun i j => inn i j z)).
    { intros z Hz. pose proof PI_RGT_0 as HPI.
      replace (2 * PI) with (2 * PI - 0) by ring.
      apply (const_le_int (fun t => qf n w (fun i j => epoly N c (pr i j z t))) 0 (2 * PI)); [lra| |intros t _; now apply P1].
      apply (is_RInt_qf n w (fun t i j => epoly N c (pr i j z t))). intros i j _ _. unfold epoly, inn.
      apply (is_RInt_bsum N (fun m t => c m * (pr i j z t * pr i j z t) ^ m)). intros m _.
      apply (@is_RInt_scal R_NormedModule (fun t => (pr i j z t * pr i j z t) ^ m)).
      apply (is_RInt_ext (fun t => pr i j z t ^ (2 * m))); [intros t _; rewrite pow_mult; f_equal; ring|]. now apply inner_int. }
    assert (P3 : (1 - -1) * (2 * PI * (- e * W)) <= qf n w (fun i j => 4 * PI * mean_poly N c (sqd 3 x i j))).
    { apply (const_le_int (fun z => qf n w (fun i j => inn i j z)) (-1) 1); [lra| |intros z Hz; apply P2; lra].
      apply (is_RInt_qf n w (fun z i j => inn i j z)). intros i j _ _. unfold inn, mean_poly. rewrite <- bsum_scal.
      apply (is_RInt_bsum N (fun m z => c m * inner (x i 0%nat - x j 0%nat) (x i 1%nat - x j 1%nat) (x i 2%nat - x j 2%nat) m z)). intros m _.
      replace (4 * PI * (c m * (/ (2 * INR m + 1) * sqd 3 x i j ^ m))) with (c m * (4 * PI / (2 * INR m + 1) * sqd 3 x i j ^ m)) by (unfold Rdiv; ring).
      rewrite <- Hq. apply (@is_RInt_scal R_NormedModule). apply outer_int. }
    rewrite qf_scal in P3. pose proof PI_RGT_0 as HPI.
    assert (P4 : - e * W <= qf n w (fun i j => mean_poly N c (sqd 3 x i j))) by (apply (Rmult_le_reg_l (4 * PI)); lra).
    pose proof (qf_near n w (fun i j => mean_poly N c (sqd 3 x i j)) (fun i j => c3 (sqrt (sqd 3 x i j))) e) as P5. fold W in P5.
    cut (qf n w (fun i j => mean_poly N c (sqd 3 x i j)) <= qf n w (fun i j => c3 (sqrt (sqd 3 x i j))) + e * W); [lra|]. apply P5.
    intros i j Hi Hj. rewrite <- (sqrt_sqrt (sqd 3 x i j)) at 1 by apply sqd_nonneg. rewrite Rabs_minus_sym. apply (mean_near N c B e); try assumption.
    split; [apply sqrt_pos|now apply HB]. }
  destruct (Rle_or_lt 0 (qf n w (fun i j => c3 (sqrt (sqd 3 x i j))))) as [H|H]; [exact H|exfalso].
  set (v := qf n w (fun i j => c3 (sqrt (sqd 3 x i j)))) in *. pose proof (G (- v / (4 * (W + 1))) ltac:(apply Rdiv_lt_0_compat; lra)) as K.
  assert (- 2 * (- v / (4 * (W + 1))) * W = v * (W / (2 * (W + 1)))) by (field; lra).
  assert (W / (2 * (W + 1)) <= 1 / 2). { apply (Rmult_le_reg_r (2 * (W + 1))); [lra|]. unfold Rdiv at 1. rewrite Rmult_assoc, Rinv_l by lra. lra. }
  nra.
Qed.
End PD.

(** ---- strictly: a combination that vanishes would cancel the kink at one of the points ---- *)
Lemma xabsx_derive x : ex_derive (fun y => y * Rabs y) x.
Proof.
  destruct (Rtotal_order x 0) as [H|[->|H]].
  - apply (ex_derive_ext_loc (fun y => - (y * y))); [|auto_derive; auto].
    exists (mkposreal (- x) ltac:(lra)). intros y Hy. apply Rabs_lt_between' in Hy. cbn in Hy. rewrite Rabs_left by lra. change (- (y * y) = y * - y). ring.
  - exists 0. apply is_derive_Reals. intros e He. exists (mkposreal e He). intros h Hh Hd. cbn in Hd. rewrite Rplus_0_l, Rmult_0_l.
    replace ((h * Rabs h - 0) / h - 0) with (Rabs h) by (field; exact Hh). rewrite Rabs_Rabsolu. exact Hd.
  - apply (ex_derive_ext_loc (fun y => y * y)); [|auto_derive; auto].
    exists (mkposreal x H). intros y Hy. apply Rabs_lt_between' in Hy. cbn in Hy. rewrite Rabs_right by lra. reflexivity.
Qed.
Lemma c3_smooth r : 0 <= r -> c3 r = / 2 * ((1 - r) * (1 - r) + (1 - r) * Rabs (1 - r)) * (1 + r / 2).
Proof.
  intros Hr. unfold c3. destruct (Rle_dec r 1).
  - rewrite Rabs_right by lra. field.
  - rewrite Rabs_left by lra. field.
Qed.
Lemma c3_path_derive Q b : 0 < Q -> (forall s, 0 <= Q + 2 * b * s + s * s) -> ex_derive (fun s => c3 (sqrt (Q + 2 * b * s + s * s))) 0.
Proof.
  intros HQ Hw. pose (f := fun r => / 2 * ((1 - r) * (1 - r) + (1 - r) * Rabs (1 - r)) * (1 + r / 2)).
  apply (ex_derive_ext (fun s => f (sqrt (Q + 2 * b * s + s * s)))).
  { intros s. symmetry. apply c3_smooth. apply sqrt_pos. }
  apply (ex_derive_comp f (fun s => sqrt (Q + 2 * b * s + s * s)) 0).
  - unfold f. apply ex_derive_mult.
    + apply ex_derive_scal. apply (@ex_derive_plus R_AbsRing R_NormedModule); [auto_derive; auto|].
      apply (ex_derive_comp (fun y => y * Rabs y) (fun r => 1 - r)); [apply xabsx_derive|auto_derive; auto].
    + auto_derive; auto.
  - auto_derive. rewrite !Rmult_0_r, !Rplus_0_r. repeat split; auto.
Qed.
Lemma kink k : ex_derive (fun s => k * c3 (Rabs s)) 0 -> k = 0.
Proof.
  intros (l & Hl). destruct (Req_dec k 0) as [|Hk]; [assumption|exfalso].
  assert (H1 : is_derive (fun s => c3 (Rabs s)) 0 (/ k * l)).
  { apply (is_derive_ext (fun s => / k * (k * c3 (Rabs s)))); [intros s; change (/ k * (k * c3 (Rabs s)) = c3 (Rabs s)); field; exact Hk|]. now apply (is_derive_scal (fun s => k * c3 (Rabs s))). }
  set (m := / k * l) in *. clearbody m. apply is_derive_Reals in H1.
  destruct (H1 (1 / 2) ltac:(lra)) as (d & Hd). pose proof (cond_pos d) as d0.
  pose (h := Rmin (d / 2) (1 / 2)).
  assert (Hh : 0 < h <= 1 / 2) by (unfold h; split; [apply Rmin_pos; lra|apply Rmin_r]).
  assert (Hhd : h < d) by (pose proof (Rmin_l (d / 2) (1 / 2)); unfold h; lra).
  assert (C0 : c3 0 = 1) by (unfold c3; destruct (Rle_dec 0 1); [field|lra]).
  assert (Ch : c3 h = 1 - 3 / 2 * h + h ^ 3 / 2) by (unfold c3; destruct (Rle_dec h 1); [reflexivity|lra]).
  pose proof (Hd h ltac:(lra) ltac:(rewrite Rabs_right; lra)) as K1. pose proof (Hd (- h) ltac:(lra) ltac:(rewrite Rabs_Ropp, Rabs_right; lra)) as K2.
  rewrite !Rplus_0_l, Rabs_Ropp, Rabs_R0, C0 in K2. rewrite !Rplus_0_l, Rabs_R0, C0 in K1. rewrite (Rabs_right h) in K1, K2 by lra. rewrite Ch in K1, K2.
  replace ((1 - 3 / 2 * h + h ^ 3 / 2 - 1) / h - m) with (- 3 / 2 + h * h / 2 - m) in K1 by (field; lra).
  replace ((1 - 3 / 2 * h + h ^ 3 / 2 - 1) / - h - m) with (3 / 2 - h * h / 2 - m) in K2 by (field; lra).
  apply Rabs_lt_between in K1. apply Rabs_lt_between in K2. nra.
Qed.
Lemma ex_derive_bsum n (F : nat -> R -> R) t : (forall i, (i < n)%nat -> ex_derive (F i) t) -> ex_derive (fun s => bsum n (fun i => F i s)) t.
Proof.
  induction n as [|n IH]; intros H; cbn [bsum]; [apply ex_derive_const|].
  apply (@ex_derive_plus R_AbsRing R_NormedModule (fun s => bsum n (fun i => F i s)) (F n)); [apply IH; intros; apply H; lia|apply H; lia].
Qed.
Lemma c3_pd n x : separated n 3 x -> pd n (fun i j => c3 (sqrt (sqd 3 x i j))).
Proof.
  intros Hs c Hc k Hk. rewrite separated_sqd in Hs.
  assert (H0 : qf n c (fun i j => c3 (sqrt (sqd 3 x i j))) = 0) by (pose proof (c3_psd n x c); lra).
  (* the combination vanishes everywhere *)
  assert (HZ : forall y : vec, bsum n (fun i => c i * c3 (sqrt (bsum 3 (fun a => (x i a - y a) * (x i a - y a))))) = 0).
  { intros y. pose (x' := fun i => if Nat.eqb i n then y else x i).
    apply (linear_nonneg_zero (c3 (sqrt (sqd 3 x' n n)))). intros t.
    pose proof (c3_psd (S n) x' (fun i => if Nat.eqb i n then t else c i)) as HP.
    rewrite (qf_S n _ (fun i j => c3 (sqrt (sqd 3 x' i j)))) in HP.
    2:{ intros i Hi. cbv beta. f_equal. f_equal. apply (sqd_sym 3 x' (S n) n i); lia. }
    cbv beta in HP. rewrite Nat.eqb_refl in HP.
    rewrite (qf_ext n _ c _ (fun i j => c3 (sqrt (sqd 3 x i j)))) in HP.
    2:{ intros i Hi. destruct (Nat.eqb_spec i n); [lia|reflexivity]. }
    2:{ intros i j Hi Hj. unfold sqd, x'. destruct (Nat.eqb_spec i n); [lia|]. destruct (Nat.eqb_spec j n); [lia|]. reflexivity. }
    rewrite H0 in HP.
    rewrite (bsum_ext n (fun i => (if Nat.eqb i n then t else c i) * c3 (sqrt (sqd 3 x' i n))) (fun i => c i * c3 (sqrt (bsum 3 (fun a => (x i a - y a) * (x i a - y a)))))) in HP.
    2:{ intros i Hi. unfold sqd, x'. rewrite Nat.eqb_refl. destruct (Nat.eqb_spec i n); [lia|]. reflexivity. }
    lra. }
  (* along a line through point k *)
  pose (Q := fun i => sqd 3 x i k). pose (b := fun i => x k 0%nat - x i 0%nat).
  assert (HL : forall s, bsum n (fun i => c i * c3 (sqrt (Q i + 2 * b i * s + s * s))) = 0).
  { intros s. rewrite <- (HZ (fun a => match a with 0%nat => x k 0%nat + s | _ => x k a end)). apply bsum_ext. intros i Hi. f_equal. f_equal. f_equal.
    unfold Q, b, sqd. cbn [bsum]. ring. }
  assert (HQ : forall i s, 0 <= Q i + 2 * b i * s + s * s).
  { intros i s. unfold Q, b, sqd. cbn [bsum].
    pose proof (Rle_0_sqr (x k 0%nat - x i 0%nat + s)). pose proof (Rle_0_sqr (x i 1%nat - x k 1%nat)). pose proof (Rle_0_sqr (x i 2%nat - x k 2%nat)). unfold Rsqr in *. lra. }
  apply kink. 
  apply (ex_derive_ext (fun s => - bsum n (fun i => if Nat.eqb i k then 0 else c i * c3 (sqrt (Q i + 2 * b i * s + s * s))))).
  - intros s. specialize (HL s). rewrite (bsum_ext n _ (fun i => (if Nat.eqb i k then c k * c3 (Rabs s) else 0) + (if Nat.eqb i k then 0 else c i * c3 (sqrt (Q i + 2 * b i * s + s * s))))) in HL.
    + rewrite bsum_plus in HL. rewrite (bsum_single n k) in HL; [|exact Hk|intros i Hi Hne; destruct (Nat.eqb_spec i k); [lia|reflexivity]].
      rewrite Nat.eqb_refl in HL. lra.
    + intros i Hi. destruct (Nat.eqb_spec i k) as [->|Hne]; [|ring]. rewrite Rplus_0_r. f_equal. f_equal.
      unfold Q, b. rewrite sqd_diag. replace (0 + 2 * (x k 0%nat - x k 0%nat) * s + s * s) with (Rsqr s) by (unfold Rsqr; ring). apply sqrt_Rsqr_abs.
  - apply (@ex_derive_opp R_AbsRing R_NormedModule). apply (ex_derive_bsum n (fun i s => if Nat.eqb i k then 0 else c i * c3 (sqrt (Q i + 2 * b i * s + s * s)))).
    intros i Hi. destruct (Nat.eqb_spec i k) as [->|Hne]; [apply ex_derive_const|].
    apply ex_derive_scal. apply c3_path_derive; [|apply HQ].
    assert (0 <= Q i) by apply sqd_nonneg. assert (Q i <> 0) by (apply Hs; assumption). lra.
Qed.
