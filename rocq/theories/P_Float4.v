(** Proofs for C81: coordinates and the kriging system in binary64. *)
From Flocq Require Import Core Sterbenz Mult_error.
From Verif Require Import Base Sums Matrix M_Variogram M_Init M_Float M_Float2 S_Float P_Binning P_Float P_Float2 P_Float3.

Lemma id_row ndim i : unit_row ndim i (id_mat i).
Proof.
  split; unfold id_mat; [rewrite Nat.eqb_refl; reflexivity|]. intros j _ N.
  destruct (Nat.eqb_spec i j) as [E|E]; [congruence|reflexivity].
Qed.
Lemma adjust_recentred dot ndim center p j : exact_on_units dot -> (j < ndim)%nat ->
  adjust64 dot ndim id_mat id_mat center p j = recentred (center j) (p j).
Proof.
  intros D Hj. unfold adjust64, recentred. f_equal. f_equal.
  assert (Y : dot ndim (id_mat j) (fun k => rnd64 (p k - center k)) = rnd64 (p j - center j)).
  { apply (D ndim j (id_mat j)); [exact Hj|apply id_row|]. apply rnd_format. }
  rewrite (D ndim j (id_mat j)); [exact Y|exact Hj|apply id_row|]. cbv beta. rewrite Y. apply rnd_format.
Qed.

Lemma recentred_mono c x y : x <= y -> recentred c x <= recentred c y.
Proof. intros H. apply rnd_le, Rplus_le_compat_r, rnd_le. lra. Qed.
Lemma recentred_opp c x : recentred (- c) (- x) = - recentred c x.
Proof.
  unfold recentred. rewrite <- rnd_opp. f_equal. replace (- x - - c) with (- (x - c)) by ring.
  rewrite rnd_opp. ring.
Qed.

(** error *)
Lemma half_ulp x B : bpow radix2 (-1022) <= B -> Rabs x <= B -> Rabs (rnd64 x - x) <= bpow radix2 (-53) * B.
Proof.
  intros HB Hx. pose proof (error_le_half_ulp radix2 fexp (fun n => negb (Z.even n)) x) as E.
  change (round radix2 fexp (Znearest (fun n => negb (Z.even n))) x) with (rnd64 x) in E.
  apply Rle_trans with (1 := E).
  assert (U : ulp radix2 fexp x <= bpow radix2 (-52) * B).
  { destruct (Req_dec x 0) as [->|NZ].
    - rewrite ulp_FLT_0 by reflexivity. apply Rle_trans with (bpow radix2 (-52) * bpow radix2 (-1022)).
      + rewrite <- bpow_plus. apply bpow_le. lia.
      + apply Rmult_le_compat_l; [apply bpow_ge_0|exact HB].
    - rewrite ulp_neq_0 by exact NZ. unfold cexp, FLT_exp.
      destruct (Z.max_spec (mag radix2 x - 53) (-1074)) as [[_ ->]|[_ ->]].
      + apply Rle_trans with (bpow radix2 (-52) * bpow radix2 (-1022)).
        * rewrite <- bpow_plus. apply bpow_le. lia.
        * apply Rmult_le_compat_l; [apply bpow_ge_0|exact HB].
      + replace (mag radix2 x - 53)%Z with (-52 + (mag radix2 x - 1))%Z by lia. rewrite bpow_plus.
        apply Rmult_le_compat_l; [apply bpow_ge_0|]. apply Rle_trans with (2 := Hx). apply bpow_mag_le, NZ. }
  replace (bpow radix2 (-53)) with (/ 2 * bpow radix2 (-52)) by (cbn; lra). lra.
Qed.
Lemma recentred_error c x B : bpow radix2 (-1022) <= B -> Rabs c <= B -> Rabs x <= B ->
  Rabs (recentred c x - x) <= bpow radix2 (-51) * B.
Proof.
  intros HB Hc Hx. unfold recentred. assert (B0 : 0 < B) by (pose proof (bpow_gt_0 radix2 (-1022)); lra).
  assert (X1 : Rabs (x - c) <= 2 * B).
  { unfold Rminus. apply Rle_trans with (1 := Rabs_triang _ _). rewrite Rabs_Ropp. lra. }
  pose proof (half_ulp (x - c) (2 * B) ltac:(lra) X1) as E1.
  set (t := rnd64 (x - c)) in *.
  assert (X2 : Rabs (t + c) <= 2 * B).
  { replace (t + c) with ((t - (x - c)) + x) by ring. apply Rle_trans with (1 := Rabs_triang _ _).
    assert (bpow radix2 (-53) * (2 * B) <= B) by (cbn; lra). lra. }
  pose proof (half_ulp (t + c) (2 * B) ltac:(lra) X2) as E2.
  replace (rnd64 (t + c) - x) with ((rnd64 (t + c) - (t + c)) + (t - (x - c))) by ring.
  apply Rle_trans with (1 := Rabs_triang _ _).
  replace (bpow radix2 (-51) * B) with (bpow radix2 (-53) * (2 * B) + bpow radix2 (-53) * (2 * B)) by (cbn; lra). lra.
Qed.

(** the centre *)
Lemma center_spec l c : center64 l = Some c ->
  exists mx mn, List.In mx l /\ List.In mn l /\ (forall x, List.In x l -> mn <= x <= mx) /\
    c = rnd64 (rnd64 (mx + mn) / 2).
Proof.
  unfold center64. rewrite fops_amax, fops_amin.
  destruct (amax_gen Rops l) as [mx|] eqn:Ex; [|discriminate].
  destruct (amin_gen Rops l) as [mn|] eqn:En; [|discriminate].
  intros H. injection H as <-. apply amax_spec in Ex. apply amin_spec in En.
  exists mx, mn. repeat split; try tauto; [apply En|apply Ex]; assumption.
Qed.
Lemma center_some l : l <> [] -> exists c, center64 l = Some c.
Proof. destruct l; [congruence|]. intros _. eexists. reflexivity. Qed.

(** within a factor three of each other: Sterbenz *)
Lemma b64_half x : b64 x -> bpow radix2 (-1000) <= Rabs x -> b64 (x / 2).
Proof.
  intros H HB. unfold b64. replace (x / 2) with (x * bpow radix2 (-1)) by (cbn; lra).
  apply mult_bpow_exact_FLT; [exact H|].
  assert (M : (-999 <= mag radix2 x)%Z). { apply mag_ge_bpow. exact HB. } lia.
Qed.
Lemma recentred_sterbenz c x : b64 c -> b64 x -> c / 2 <= x <= 2 * c -> recentred c x = x.
Proof.
  intros Fc Fx H. unfold recentred.
  assert (F : b64 (x - c)) by (apply sterbenz; auto with typeclass_instances).
  rewrite (rnd_id _ F). replace (x - c + c) with x by ring. apply rnd_id, Fx.
Qed.
Lemma factor_three l c m : Forall b64 l -> center64 l = Some c -> bpow radix2 (-900) <= m ->
  (forall x, List.In x l -> m <= x <= 3 * m) -> forall x, List.In x l -> recentred c x = x.
Proof.
  intros Fl Ec Hm HL x Hx. destruct (center_spec l c Ec) as (mx & mn & I1 & I2 & HB & ->).
  rewrite Forall_forall in Fl. pose proof (HL _ I1). pose proof (HL _ I2). pose proof (HB _ Hx).
  pose proof (bpow_gt_0 radix2 (-900)).
  set (s := rnd64 (mx + mn)).
  assert (S1 : s <= 4 * mn).
  { subst s. apply rnd_le_id; [|lra]. replace (4 * mn) with (2 * (2 * mn)) by ring.
    apply b64_double, b64_double, Fl, I2. }
  assert (S2 : mx <= s) by (apply rnd_ge_id; [apply Fl, I1|lra]).
  assert (C : rnd64 (s / 2) = s / 2).
  { apply rnd_id, b64_half; [apply rnd_format|]. rewrite Rabs_right by lra.
    apply Rle_trans with (bpow radix2 (-900)); [apply bpow_le; lia|lra]. }
  assert (Fc : b64 (rnd64 (s / 2))) by apply rnd_format.
  rewrite C in *. apply recentred_sterbenz; [exact Fc|apply Fl, Hx|]. pose proof (HL _ Hx). lra.
Qed.

(** multiples of a power of two that are not too large *)
Lemma b64_multiple k x : (-1074 <= k)%Z -> multiple k x -> Rabs x < bpow radix2 (53 + k) -> b64 x.
Proof.
  intros Hk [m ->] H. apply b64_dyadic; [|exact Hk].
  rewrite Rabs_mult, (Rabs_right (bpow radix2 k)), bpow_plus in H by (apply Rle_ge, bpow_ge_0).
  apply Rmult_lt_reg_r in H; [|apply bpow_gt_0]. rewrite <- abs_IZR in H.
  change (bpow radix2 53) with (IZR (2 ^ 53)) in H. apply lt_IZR, H.
Qed.
Lemma multiple_sub k x y : multiple k x -> multiple k y -> multiple k (x - y).
Proof. intros [a ->] [b ->]. exists (a - b)%Z. rewrite minus_IZR. ring. Qed.
Lemma multiple_add k x y : multiple k x -> multiple k y -> multiple k (x + y).
Proof. intros [a ->] [b ->]. exists (a + b)%Z. rewrite plus_IZR. ring. Qed.
Lemma multiple_half k x : multiple k x -> multiple (k - 1) (x / 2).
Proof. intros [a ->]. exists a. unfold Zminus. rewrite bpow_plus. cbn. field. Qed.
Lemma multiple_finer k x : multiple k x -> multiple (k - 1) x.
Proof. intros [a ->]. exists (2 * a)%Z. unfold Zminus. rewrite bpow_plus, mult_IZR. cbn. field. Qed.
Lemma on_lattice l c k : (-1073 <= k)%Z -> center64 l = Some c ->
  (forall x, List.In x l -> multiple k x /\ Rabs x < bpow radix2 (51 + k)) ->
  multiple (k - 1) c /\ Rabs c < bpow radix2 (51 + k) /\
  (forall x, multiple (k - 1) x -> Rabs x < bpow radix2 (51 + k) -> recentred c x = x).
Proof.
  intros Hk Ec HL. destruct (center_spec l c Ec) as (mx & mn & I1 & I2 & _ & ->).
  destruct (HL _ I1) as [M1 B1]. destruct (HL _ I2) as [M2 B2].
  assert (D : bpow radix2 (52 + k) = 2 * bpow radix2 (51 + k)).
  { replace (52 + k)%Z with (1 + (51 + k))%Z by lia. rewrite bpow_plus. reflexivity. }
  assert (T : bpow radix2 (53 + k) = 2 * bpow radix2 (52 + k)).
  { replace (53 + k)%Z with (1 + (52 + k))%Z by lia. rewrite bpow_plus. reflexivity. }
  pose proof (bpow_gt_0 radix2 (51 + k)) as P.
  assert (A : Rabs (mx + mn) < bpow radix2 (52 + k)).
  { apply Rle_lt_trans with (1 := Rabs_triang _ _). lra. }
  rewrite (rnd_id (mx + mn)).
  2: { apply (b64_multiple k); [lia|apply multiple_add; assumption|lra]. }
  assert (H2 : Rabs ((mx + mn) / 2) < bpow radix2 (51 + k)).
  { unfold Rdiv. rewrite Rabs_mult, (Rabs_right (/ 2)) by lra. lra. }
  assert (M3 : multiple (k - 1) ((mx + mn) / 2)) by (apply multiple_half, multiple_add; assumption).
  assert (E52 : (53 + (k - 1) = 52 + k)%Z) by lia.
  rewrite (rnd_id ((mx + mn) / 2)).
  2: { apply (b64_multiple (k - 1)); [lia|exact M3|]. rewrite E52. lra. }
  set (c := (mx + mn) / 2) in *. split; [exact M3|]. split; [exact H2|]. intros x Mx Bx. unfold recentred.
  rewrite (rnd_id (x - c)).
  2: { apply (b64_multiple (k - 1)); [lia|apply multiple_sub; assumption|]. rewrite E52.
       unfold Rminus. apply Rle_lt_trans with (1 := Rabs_triang _ _). rewrite Rabs_Ropp. lra. }
  replace (x - c + c) with x by ring. apply rnd_id.
  apply (b64_multiple (k - 1)); [lia|exact Mx|rewrite E52; lra].
Qed.

(** distances and the system *)
Lemma sq_opp x y : rnd64 (rnd64 (x - y) * rnd64 (x - y)) = rnd64 (rnd64 (y - x) * rnd64 (y - x)).
Proof.
  replace (rnd64 (x - y)) with (- rnd64 (y - x)) by (rewrite <- rnd_opp; f_equal; ring). f_equal. ring.
Qed.
Lemma dist64_sym ndim p q : dist64 ndim p q = dist64 ndim q p.
Proof.
  unfold dist64, dist64_2, dist64_3. destruct (Nat.eqb ndim 3).
  - rewrite (sq_opp (p 0%nat)), (sq_opp (p 1%nat)), (sq_opp (p 2%nat)). reflexivity.
  - rewrite (sq_opp (p 0%nat)), (sq_opp (p 1%nat)). reflexivity.
Qed.
Lemma sq_zero x : rnd64 (rnd64 (x - x) * rnd64 (x - x)) = 0.
Proof. replace (x - x) with 0 by ring. rewrite rnd_0, Rmult_0_r. apply rnd_0. Qed.
Lemma dist64_same ndim p q : (ndim = 2 \/ ndim = 3)%nat -> (forall j, (j < ndim)%nat -> p j = q j) ->
  dist64 ndim p q = 0.
Proof.
  intros N H. unfold dist64, dist64_2, dist64_3. destruct N as [-> | ->]; cbn [Nat.eqb].
  - rewrite (H 0%nat), (H 1%nat) by lia. rewrite !sq_zero, !Rplus_0_r, rnd_0, sqrt_0. apply rnd_0.
  - rewrite (H 0%nat), (H 1%nat), (H 2%nat) by lia. rewrite !sq_zero, !Rplus_0_r, !rnd_0, sqrt_0. apply rnd_0.
Qed.
Lemma dist64_nonneg ndim p q : 0 <= dist64 ndim p q.
Proof. unfold dist64, dist64_2, dist64_3. destruct (Nat.eqb ndim 3); apply rnd_nonneg, sqrt_pos. Qed.
Lemma dist64_agree ndim p q r : (ndim = 2 \/ ndim = 3)%nat -> (forall j, (j < ndim)%nat -> p j = q j) ->
  dist64 ndim p r = dist64 ndim q r.
Proof.
  intros N H. unfold dist64, dist64_2, dist64_3. destruct N as [-> | ->]; cbn [Nat.eqb].
  - rewrite (H 0%nat), (H 1%nat) by lia. reflexivity.
  - rewrite (H 0%nat), (H 1%nat), (H 2%nat) by lia. reflexivity.
Qed.

Lemma matrix64_sym ndim n vg X i j : matrix64 ndim n vg X i j = matrix64 ndim n vg X j i.
Proof.
  unfold matrix64. rewrite (dist64_sym ndim (X i)).
  destruct (Nat.eqb_spec i n), (Nat.eqb_spec j n), (Nat.eqb_spec i j), (Nat.eqb_spec j i); congruence || reflexivity.
Qed.

Definition eps64 : R := rnd64 (1 / 10000000000).
Lemma eps64_pos : 0 <= eps64. Proof. apply rnd_nonneg. lra. Qed.
Lemma rhs64_column ndim n vg X p i : (ndim = 2 \/ ndim = 3)%nat -> (i < n)%nat ->
  (forall k, (k < ndim)%nat -> p k = X i k) ->
  (forall j, (j < n)%nat -> j <> i -> eps64 < dist64 ndim (X i) (X j)) ->
  forall j, (j <= n)%nat -> rhs64 ndim n vg true X p j = matrix64 ndim n vg X j i.
Proof.
  intros N Hi Hp Far j Hj. unfold rhs64, matrix64. cbn [andb].
  rewrite (dist64_agree ndim p (X i) (X j) N Hp). fold eps64.
  destruct (Nat.eqb_spec j n) as [E|E].
  - destruct (Nat.eqb_spec i n); [lia|reflexivity].
  - destruct (Nat.eqb_spec i n) as [E1|E1]; [lia|]. destruct (Nat.eqb_spec j i) as [E2|E2].
    + subst j. rewrite dist64_same; [|exact N|reflexivity]. rewrite Rabs_R0.
      replace (Rleb 0 eps64) with true; [reflexivity|]. symmetry. apply Rleb_true. apply eps64_pos.
    + specialize (Far j ltac:(lia) E2). rewrite Rabs_right by (apply Rle_ge, dist64_nonneg).
      replace (Rleb (dist64 ndim (X i) (X j)) eps64) with false.
      * rewrite (dist64_sym ndim (X j)). reflexivity.
      * symmetry. apply Rleb_false. exact Far.
Qed.

(** coordinates that become equal: equal columns *)
Lemma equal_columns ndim n vg X i j : (ndim = 2 \/ ndim = 3)%nat -> (i < n)%nat -> (j < n)%nat ->
  vg 0 = 0 -> (forall k, (k < ndim)%nat -> X i k = X j k) ->
  forall r, (r <= n)%nat -> matrix64 ndim n vg X r i = matrix64 ndim n vg X r j.
Proof.
  intros N Hi Hj Z E r Hr. unfold matrix64.
  destruct (Nat.eqb_spec r n) as [|Er].
  { destruct (Nat.eqb_spec i n), (Nat.eqb_spec j n); lia || reflexivity. }
  destruct (Nat.eqb_spec i n); [lia|]. destruct (Nat.eqb_spec j n); [lia|].
  assert (A : dist64 ndim (X r) (X i) = dist64 ndim (X r) (X j)).
  { rewrite (dist64_sym ndim (X r) (X i)), (dist64_sym ndim (X r) (X j)). apply dist64_agree; assumption. }
  assert (I0 : r = i -> vg (dist64 ndim (X r) (X j)) = 0).
  { intros ->. rewrite dist64_same; assumption. }
  assert (J0 : r = j -> vg (dist64 ndim (X r) (X i)) = 0).
  { intros ->. rewrite dist64_same; [assumption|assumption|]. intros k Hk. symmetry. apply E, Hk. }
  destruct (Nat.eqb_spec r i) as [Ei|Ei], (Nat.eqb_spec r j) as [Ej|Ej]; try reflexivity.
  - rewrite (I0 Ei). ring.
  - rewrite (J0 Ej). ring.
  - rewrite A. reflexivity.
Qed.

(** an example *)
Definition close_xs : list R := [bpow radix2 (-60); bpow radix2 (-59); 1].
Lemma close_center : center64 close_xs = Some (/ 2).
Proof.
  assert (L1 : bpow radix2 (-60) < bpow radix2 (-59)) by (apply bpow_lt; lia).
  assert (L2 : bpow radix2 (-59) < 1) by (change 1 with (bpow radix2 0); apply bpow_lt; lia).
  unfold center64. rewrite fops_amax, fops_amin.
  assert (Mx : amax_gen Rops close_xs = Some 1).
  { apply amax_spec. split; [right; right; left; reflexivity|]. intros v [<-|[<-|[<-|[]]]]; lra. }
  assert (Mn : amin_gen Rops close_xs = Some (bpow radix2 (-60))).
  { apply amin_spec. split; [left; reflexivity|]. intros v [<-|[<-|[<-|[]]]]; lra. }
  rewrite Mx, Mn. f_equal.
  rewrite (rnd_eq 4503599627370496 (-52) (1 + _)); [|lia|cbn; lra|cbn; apply Rabs_def1; lra].
  replace (4503599627370496 * bpow radix2 (-52) / 2) with (/ 2) by (cbn; lra).
  apply rnd_id. change (/ 2) with (bpow radix2 (-1)). apply bpow_b64. lia.
Qed.
Lemma merge_small x : 0 <= x <= bpow radix2 (-59) -> recentred (/ 2) x = 0.
Proof.
  intros H. unfold recentred.
  assert (E : rnd64 (x - / 2) = - / 2).
  { replace (x - / 2) with (- (/ 2 - x)) by ring. rewrite rnd_opp. f_equal.
    destruct H as [[H|H] H']; cbn in H'.
    - rewrite (rnd_eq 9007199254740992 (-54)); [cbn; lra|lia|cbn; lra|cbn; apply Rabs_def1; lra].
    - rewrite <- H, Rminus_0_r. apply rnd_id. change (/ 2) with (bpow radix2 (-1)). apply bpow_b64. lia. }
  rewrite E. replace (- / 2 + / 2) with 0 by ring. apply rnd_0.
Qed.

(** two ways of computing an inner product, without and with fused operations *)
Fixpoint plain_dot (n : nat) (r x : vec) : R :=
  match n with 0%nat => 0 | S k => rnd64 (plain_dot k r x + rnd64 (r k * x k)) end.
Fixpoint fused_dot (n : nat) (r x : vec) : R :=
  match n with 0%nat => 0 | S k => rnd64 (fused_dot k r x + r k * x k) end.
Lemma plain_dot_exact : exact_on_units plain_dot.
Proof.
  intros n i r x Hi [R1 R0] F.
  assert (G : forall m, (m <= n)%nat -> plain_dot m r x = if Nat.ltb i m then x i else 0).
  { induction m as [|m IH]; intros Hm; [reflexivity|]. cbn [plain_dot]. rewrite IH by lia.
    destruct (Nat.ltb_spec i m), (Nat.ltb_spec i (S m)); try lia.
    - rewrite (R0 m) by lia. rewrite Rmult_0_l, rnd_0, Rplus_0_r. apply rnd_id, F.
    - replace m with i by lia. rewrite R1, Rmult_1_l, (rnd_id _ F), Rplus_0_l. apply rnd_id, F.
    - rewrite (R0 m) by lia. rewrite Rmult_0_l, rnd_0, Rplus_0_r. apply rnd_0. }
  rewrite G by lia. destruct (Nat.ltb_spec i n); [reflexivity|lia].
Qed.
Lemma fused_dot_exact : exact_on_units fused_dot.
Proof.
  intros n i r x Hi [R1 R0] F.
  assert (G : forall m, (m <= n)%nat -> fused_dot m r x = if Nat.ltb i m then x i else 0).
  { induction m as [|m IH]; intros Hm; [reflexivity|]. cbn [fused_dot]. rewrite IH by lia.
    destruct (Nat.ltb_spec i m), (Nat.ltb_spec i (S m)); try lia.
    - rewrite (R0 m) by lia. rewrite Rmult_0_l, Rplus_0_r. apply rnd_id, F.
    - replace m with i by lia. rewrite R1, Rmult_1_l, Rplus_0_l. apply rnd_id, F.
    - rewrite (R0 m) by lia. rewrite Rmult_0_l, Rplus_0_r. apply rnd_0. }
  rewrite G by lia. destruct (Nat.ltb_spec i n); [reflexivity|lia].
Qed.

Lemma same_adjusted dot dot' ndim center p q : exact_on_units dot -> exact_on_units dot' ->
  (forall j, (j < ndim)%nat -> p j = q j) ->
  forall j, (j < ndim)%nat -> adjust64 dot ndim id_mat id_mat center p j = adjust64 dot' ndim id_mat id_mat center q j.
Proof. intros D D' H j Hj. rewrite !adjust_recentred by assumption. rewrite H by exact Hj. reflexivity. Qed.
Lemma same_distance dot dot' ndim center p q : (ndim = 2 \/ ndim = 3)%nat -> exact_on_units dot -> exact_on_units dot' ->
  (forall j, (j < ndim)%nat -> p j = q j) ->
  dist64 ndim (adjust64 dot ndim id_mat id_mat center p) (adjust64 dot' ndim id_mat id_mat center q) = 0.
Proof. intros N D D' H. apply dist64_same; [exact N|]. apply same_adjusted; assumption. Qed.

(** three distinct points, the first two of which become one *)
Definition close_points : mat := fun i j => if Nat.eqb j 0 then rnth close_xs i else 0.
Definition close_centre : vec := fun j => if Nat.eqb j 0 then / 2 else 0.
Lemma close_zeros : center64 [0; 0; 0] = Some 0.
Proof.
  assert (Mx : amax_gen Rops [0; 0; 0] = Some 0).
  { apply amax_spec. split; [left; reflexivity|]. intros v [<-|[<-|[<-|[]]]]; lra. }
  assert (Mn : amin_gen Rops [0; 0; 0] = Some 0).
  { apply amin_spec. split; [left; reflexivity|]. intros v [<-|[<-|[<-|[]]]]; lra. }
  unfold center64. rewrite fops_amax, fops_amin, Mx, Mn. f_equal.
  rewrite Rplus_0_r, rnd_0. unfold Rdiv. rewrite Rmult_0_l. apply rnd_0.
Qed.
Lemma close_merge dot j : exact_on_units dot -> (j < 2)%nat ->
  adjust64 dot 2 id_mat id_mat close_centre (close_points 0%nat) j = 0 /\
  adjust64 dot 2 id_mat id_mat close_centre (close_points 1%nat) j = 0.
Proof.
  intros D Hj. rewrite !adjust_recentred by assumption.
  assert (j = 0 \/ j = 1)%nat as [-> | ->] by lia; unfold close_centre, close_points, rnth, close_xs; cbn [Nat.eqb nth].
  - split; apply merge_small; (split; [apply bpow_ge_0|apply bpow_le; lia]).
  - unfold recentred. rewrite Rminus_0_r, rnd_0, Rplus_0_r, rnd_0. split; reflexivity.
Qed.
