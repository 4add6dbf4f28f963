(** Turning bands, part 2: the mean of <x,u>^(2n) over the unit sphere is |x|^(2n)/(2n+1). *)
From Verif Require Import Base Sums Matrix P_Psd P_Psd3 P_Turn1.
From Coquelicot Require Import Coquelicot.

(** ---- the circle ---- *)
Fixpoint wal (k : nat) : R := match k with O => 2 * PI | S k => (2 * INR k + 1) / (2 * INR k + 2) * wal k end.
Section Circle.
Variables a b : R.
Let q := a * a + b * b.
Let L t := a * cos t + b * sin t.
Lemma L_int m p r : ex_RInt (fun t => L t ^ m) p r.
Proof. apply (@ex_RInt_continuous R_CompleteNormedModule). intros t _. apply @ex_derive_continuous. unfold L. auto_derive. auto. Qed.
Lemma L_step m : (INR m + 2) * RInt (fun t => L t ^ (S (S m))) 0 (2 * PI) = (INR m + 1) * q * RInt (fun t => L t ^ m) 0 (2 * PI).
Proof.
  pose (D := fun t => (INR m + 1) * q * L t ^ m - (INR m + 2) * L t ^ (S (S m))).
  assert (H1 : is_RInt D 0 (2 * PI) 0).
  { pose (F := fun t => L t ^ (S m) * (- a * sin t + b * cos t)).
    replace 0 with (F (2 * PI) - F 0) at 2.
    - apply (is_RInt_derive F D).
      + intros t _. unfold F, D, L. auto_derive; [auto|]. change (match m with 0%nat => 1 | S _ => INR m + 1 end) with (INR (S m)). rewrite S_INR. unfold q.
        pose proof (sin2_cos2 t) as E. unfold Rsqr in E.
        replace ((a * a + b * b)) with ((a * a + b * b) * (sin t * sin t + cos t * cos t)) by (rewrite E; ring).
        cbn [pow]. ring.
      + intros t _. apply @ex_derive_continuous. unfold D, L. auto_derive. auto.
    - unfold F, L. rewrite sin_2PI, cos_2PI, sin_0, cos_0. ring. }
  assert (H2 : is_RInt D 0 (2 * PI) ((INR m + 1) * q * RInt (fun t => L t ^ m) 0 (2 * PI) - (INR m + 2) * RInt (fun t => L t ^ (S (S m))) 0 (2 * PI))).
  { apply (@is_RInt_minus R_NormedModule (fun t => (INR m + 1) * q * L t ^ m) (fun t => (INR m + 2) * L t ^ (S (S m)))).
    - apply (@is_RInt_scal R_NormedModule (fun t => L t ^ m)). apply (@RInt_correct R_CompleteNormedModule), L_int.
    - apply (@is_RInt_scal R_NormedModule (fun t => L t ^ (S (S m)))). apply (@RInt_correct R_CompleteNormedModule), L_int. }
  pose proof (is_RInt_unique _ _ _ _ H1). pose proof (is_RInt_unique _ _ _ _ H2). lra.
Qed.
Lemma circle_even k : is_RInt (fun t => L t ^ (2 * k)) 0 (2 * PI) (wal k * q ^ k).
Proof.
  assert (E : RInt (fun t => L t ^ (2 * k)) 0 (2 * PI) = wal k * q ^ k).
  { induction k as [|k IH].
    - change (RInt (fun _ => 1) 0 (2 * PI) = 2 * PI * 1). rewrite RInt_const. unfold scal. cbn. unfold mult. cbn. ring.
    - replace (2 * S k)%nat with (S (S (2 * k))) by lia. pose proof (L_step (2 * k)) as H. rewrite IH in H.
      rewrite mult_INR in H. change (INR 2) with 2 in H. pose proof (pos_INR k). cbn [wal].
      apply (Rmult_eq_reg_l (2 * INR k + 2)); [|lra]. rewrite H. cbn [pow]. field. lra. }
  rewrite <- E. apply (@RInt_correct R_CompleteNormedModule), L_int.
Qed.
Lemma circle_odd k : is_RInt (fun t => L t ^ (2 * k + 1)) 0 (2 * PI) 0.
Proof.
  assert (E : RInt (fun t => L t ^ (2 * k + 1)) 0 (2 * PI) = 0).
  { induction k as [|k IH].
    - apply is_RInt_unique. apply (is_RInt_ext L); [intros; change (2 * 0 + 1)%nat with 1%nat; symmetry; apply pow_1|].
      pose (F := fun t => a * sin t - b * cos t). replace 0 with (F (2 * PI) - F 0) at 2.
      + apply (is_RInt_derive F L).
        * intros t _. unfold F, L. auto_derive; [auto|]. ring.
        * intros t _. apply @ex_derive_continuous. unfold L. auto_derive. auto.
      + unfold F. rewrite sin_2PI, cos_2PI, sin_0, cos_0. ring.
    - replace (2 * S k + 1)%nat with (S (S (2 * k + 1))) by lia. pose proof (L_step (2 * k + 1)) as H. rewrite IH in H.
      pose proof (pos_INR (2 * k + 1)).
      apply (Rmult_eq_reg_l (INR (2 * k + 1) + 2)); [|lra]. rewrite H. ring. }
  pose proof (@RInt_correct R_CompleteNormedModule _ _ _ (L_int (2 * k + 1) 0 (2 * PI))) as K. rewrite E in K. exact K.
Qed.
End Circle.

(** ---- along the axis ---- *)
Fixpoint bet (k m : nat) : R :=
  match k with O => 2 / (2 * INR m + 1) | S k => (2 * (INR k + 1)) / (2 * INR m + 1) * bet k (S m) end.
Definition zf (k m : nat) (z : R) : R := (1 - z * z) ^ k * z ^ (2 * m).
Lemma zf_int k m p r : ex_RInt (zf k m) p r.
Proof. apply (@ex_RInt_continuous R_CompleteNormedModule). intros t _. apply @ex_derive_continuous. unfold zf. auto_derive. auto. Qed.
Lemma mono_int j p r : is_RInt (fun z => z ^ j) p r ((r ^ (S j) - p ^ (S j)) / INR (S j)).
Proof.
  assert (Hj : INR (S j) <> 0) by (apply not_0_INR; lia).
  replace ((r ^ (S j) - p ^ (S j)) / INR (S j)) with (r ^ (S j) / INR (S j) - p ^ (S j) / INR (S j)) by (field; exact Hj).
  apply (is_RInt_derive (fun z => z ^ (S j) / INR (S j)) (fun z => z ^ j)).
  - intros t _. auto_derive; [auto|]. change (match j with 0%nat => 1 | S _ => INR j + 1 end) with (INR (S j)). field. exact Hj.
  - intros t _. apply @ex_derive_continuous. auto_derive. auto.
Qed.
Lemma pow_2m1 m : (-1) ^ (2 * m + 1) = -1. Proof. rewrite pow_add, pow_mult. replace ((-1) ^ 2) with 1 by ring. rewrite pow1. ring. Qed.
Lemma zf_step k m : (2 * INR m + 1) * RInt (zf (S k) m) (-1) 1 = 2 * (INR k + 1) * RInt (zf k (S m)) (-1) 1.
Proof.
  pose (D := fun z => (2 * INR m + 1) * zf (S k) m z - 2 * (INR k + 1) * zf k (S m) z).
  assert (H1 : is_RInt D (-1) 1 0).
  { pose (F := fun z => (1 - z * z) ^ (S k) * z ^ (S (2 * m))).
    replace 0 with (F 1 - F (-1)) at 1.
    - apply (is_RInt_derive F D).
      + intros t _. unfold F, D, zf. assert (Hj : INR (2 * m) = 2 * INR m) by (rewrite mult_INR; reflexivity).
        replace (2 * S m)%nat with (S (S (2 * m))) by lia. rewrite <- Hj. generalize (2 * m)%nat. intros j. auto_derive; [auto|].
        change (match k with 0%nat => 1 | S _ => INR k + 1 end) with (INR (S k)).
        change (match j with 0%nat => 1 | S _ => INR j + 1 end) with (INR (S j)). rewrite !S_INR. cbn [pow]. unfold Rminus. ring.
      + intros t _. apply @ex_derive_continuous. unfold D, zf. auto_derive. auto.
    - unfold F. replace (1 - 1 * 1) with 0 by ring. replace (1 - -1 * -1) with 0 by ring. cbn [pow]. ring. }
  assert (H2 : is_RInt D (-1) 1 ((2 * INR m + 1) * RInt (zf (S k) m) (-1) 1 - 2 * (INR k + 1) * RInt (zf k (S m)) (-1) 1)).
  { apply (@is_RInt_minus R_NormedModule (fun z => (2 * INR m + 1) * zf (S k) m z) (fun z => 2 * (INR k + 1) * zf k (S m) z)).
    - apply (@is_RInt_scal R_NormedModule (zf (S k) m)). apply (@RInt_correct R_CompleteNormedModule), zf_int.
    - apply (@is_RInt_scal R_NormedModule (zf k (S m))). apply (@RInt_correct R_CompleteNormedModule), zf_int. }
  pose proof (is_RInt_unique _ _ _ _ H1). pose proof (is_RInt_unique _ _ _ _ H2). lra.
Qed.
Lemma axis_int k : forall m, is_RInt (zf k m) (-1) 1 (bet k m).
Proof.
  assert (E : forall m, RInt (zf k m) (-1) 1 = bet k m).
  { induction k as [|k IH]; intros m; pose proof (pos_INR m) as Hm.
    - apply is_RInt_unique. cbn [bet]. apply (is_RInt_ext (fun z => z ^ (2 * m))); [intros; unfold zf; cbn [pow]; symmetry; apply Rmult_1_l|].
      replace (2 / (2 * INR m + 1)) with ((1 ^ (S (2 * m)) - (-1) ^ (S (2 * m))) / INR (S (2 * m))); [apply mono_int|].
      rewrite S_INR, mult_INR. change (INR 2) with 2. replace (S (2 * m)) with (2 * m + 1)%nat by lia. rewrite pow1, pow_2m1. field. lra.
    - cbn [bet]. rewrite <- (IH (S m)). apply (Rmult_eq_reg_l (2 * INR m + 1)); [|lra]. rewrite zf_step. field. lra. }
  intros m. rewrite <- E. apply (@RInt_correct R_CompleteNormedModule), zf_int.
Qed.

(** ---- binomials ---- *)
Notation Cb := Binomial.C.
Lemma bsum_sum n f : bsum (S n) f = sum_f_R0 f n.
Proof. induction n as [|n IH]; [cbn; ring|]. cbn [bsum] in *. rewrite IH. reflexivity. Qed.
Lemma binom x y n : (x + y) ^ n = bsum (S n) (fun i => Cb n i * x ^ i * y ^ (n - i)).
Proof. rewrite bsum_sum. apply binomial. Qed.
Lemma bsum_even_odd n f : bsum (S (2 * n)) f = bsum (S n) (fun k => f (2 * k)%nat) + bsum n (fun k => f (2 * k + 1)%nat).
Proof.
  induction n as [|n IH]; [cbn; ring|].
  replace (S (2 * S n)) with (S (S (S (2 * n)))) by lia.
  change (bsum (S (S (S (2 * n)))) f) with (bsum (S (2 * n)) f + f (S (2 * n)) + f (S (S (2 * n)))). rewrite IH.
  change (bsum (S (S n)) (fun k => f (2 * k)%nat)) with (bsum (S n) (fun k => f (2 * k)%nat) + f (2 * S n)%nat).
  change (bsum (S n) (fun k => f (2 * k + 1)%nat)) with (bsum n (fun k => f (2 * k + 1)%nat) + f (2 * n + 1)%nat).
  replace (2 * S n)%nat with (S (S (2 * n))) by lia. replace (2 * n + 1)%nat with (S (2 * n)) by lia. ring.
Qed.

Lemma coefficient n : forall k, (k <= n)%nat -> Cb (2 * n) (2 * k) * wal k * bet k (n - k) = 4 * PI / (2 * INR n + 1) * Cb n k.
Proof.
  induction k as [|k IH]; intros Hk.
  - rewrite Nat.mul_0_r, Nat.sub_0_r. cbn [wal bet]. unfold Binomial.C. rewrite !Nat.sub_0_r. cbn [fact]. change (INR 1) with 1.
    pose proof (INR_fact_lt_0 n). pose proof (INR_fact_lt_0 (2 * n)). pose proof (pos_INR n). field. lra.
  - specialize (IH ltac:(lia)). destruct (Nat.le_exists_sub (S k) n Hk) as (m & -> & _).
    replace (m + S k - k)%nat with (S m) in IH by lia. replace (m + S k - S k)%nat with m by lia.
    cbn [wal bet]. pose proof (pos_INR k). pose proof (pos_INR m).
    set (N := 4 * PI / (2 * INR (m + S k) + 1)) in *.
    assert (E1 : Cb (2 * (m + S k)) (2 * S k) * ((2 * INR k + 1) * (2 * INR k + 2)) = Cb (2 * (m + S k)) (2 * k) * ((2 * INR m + 1) * (2 * INR m + 2))).
    { unfold Binomial.C. replace (2 * (m + S k) - 2 * S k)%nat with (2 * m)%nat by lia. replace (2 * (m + S k) - 2 * k)%nat with (S (S (2 * m))) by lia.
      replace (2 * S k)%nat with (S (S (2 * k))) by lia. rewrite !fact_simpl, !mult_INR, !S_INR, !mult_INR. change (INR 2) with 2.
      pose proof (INR_fact_lt_0 (2 * m)). pose proof (INR_fact_lt_0 (2 * k)). field. repeat split; try lra. }
    assert (E2 : Cb (m + S k) (S k) * (INR k + 1) = Cb (m + S k) k * (INR m + 1)).
    { unfold Binomial.C. replace (m + S k - S k)%nat with m by lia. replace (m + S k - k)%nat with (S m) by lia.
      rewrite !(fact_simpl k), !(fact_simpl m), !mult_INR, !S_INR.
      pose proof (INR_fact_lt_0 m). pose proof (INR_fact_lt_0 k). field. repeat split; try lra. }
    apply (Rmult_eq_reg_r (INR k + 1)); [|lra].
    transitivity (N * (Cb (m + S k) (S k) * (INR k + 1))); [|ring]. rewrite E2.
    transitivity (N * Cb (m + S k) k * (INR m + 1)); [|ring]. rewrite <- IH.
    apply (Rmult_eq_reg_r ((2 * INR k + 1) * (2 * INR k + 2))); [|nra].
    transitivity ((Cb (2 * (m + S k)) (2 * S k) * ((2 * INR k + 1) * (2 * INR k + 2))) * ((2 * INR k + 1) / (2 * INR k + 2) * wal k * (2 * (INR k + 1) / (2 * INR m + 1) * bet k (S m)) * (INR k + 1))); [ring|].
    rewrite E1. field. lra.
Qed.

(** ---- the sphere ---- *)
Section Sphere.
Variables a b c : R.
(** <x, u> for the direction u with height z and azimuth t *)
Definition proj (z t : R) : R := sqrt (1 - z * z) * (a * cos t + b * sin t) + c * z.
Definition inner (n : nat) (z : R) : R :=
  bsum (S n) (fun k => Cb (2 * n) (2 * k) * (wal k * (a * a + b * b) ^ k) * c ^ (2 * (n - k)) * zf k (n - k) z).
Lemma inner_int n z : -1 <= z <= 1 -> is_RInt (fun t => proj z t ^ (2 * n)) 0 (2 * PI) (inner n z).
Proof.
  intros Hz. set (s := sqrt (1 - z * z)). set (L := fun t => a * cos t + b * sin t).
  assert (Es : s * s = 1 - z * z) by (apply sqrt_sqrt; nra).
  pose (G := fun k t => Cb (2 * n) k * s ^ k * (c * z) ^ (2 * n - k) * L t ^ k).
  apply (is_RInt_ext (fun t => bsum (S (2 * n)) (fun k => G k t))).
  { intros t _. unfold proj. fold s. change (a * cos t + b * sin t) with (L t). rewrite binom. apply bsum_ext. intros k Hk. unfold G.
    rewrite (Rpow_mult_distr s (L t) k). ring. }
  assert (H : is_RInt (fun t => bsum (S (2 * n)) (fun k => G k t)) 0 (2 * PI)
     (bsum (S n) (fun k => Cb (2 * n) (2 * k) * s ^ (2 * k) * (c * z) ^ (2 * n - 2 * k) * (wal k * (a * a + b * b) ^ k)) + bsum n (fun _ => 0))).
  { apply (is_RInt_ext (fun t => bsum (S n) (fun k => G (2 * k)%nat t) + bsum n (fun k => G (2 * k + 1)%nat t))).
    { intros t _. symmetry. apply (bsum_even_odd n (fun k => G k t)). }
    apply (@is_RInt_plus R_NormedModule).
    - apply (is_RInt_bsum (S n) (fun k t => G (2 * k)%nat t)). intros k _. unfold G. apply (@is_RInt_scal R_NormedModule). apply circle_even.
    - apply (is_RInt_bsum n (fun k t => G (2 * k + 1)%nat t)). intros k _. unfold G.
      replace 0 with (Cb (2 * n) (2 * k + 1) * s ^ (2 * k + 1) * (c * z) ^ (2 * n - (2 * k + 1)) * 0) at 2 by ring.
      apply (@is_RInt_scal R_NormedModule). apply circle_odd. }
  rewrite (bsum_0 n (fun _ => 0)) in H by reflexivity. rewrite Rplus_0_r in H.
  assert (E : inner n z = bsum (S n) (fun k => Cb (2 * n) (2 * k) * s ^ (2 * k) * (c * z) ^ (2 * n - 2 * k) * (wal k * (a * a + b * b) ^ k))).
  { unfold inner. apply bsum_ext. intros k Hk. unfold zf. replace (2 * n - 2 * k)%nat with (2 * (n - k))%nat by lia.
    rewrite Rpow_mult_distr. rewrite (pow_mult s 2 k). replace (s ^ 2) with (1 - z * z) by (rewrite <- Es; ring). ring. }
  rewrite E. exact H.
Qed.
Lemma outer_int n : is_RInt (inner n) (-1) 1 (4 * PI / (2 * INR n + 1) * (a * a + b * b + c * c) ^ n).
Proof.
  assert (E : 4 * PI / (2 * INR n + 1) * (a * a + b * b + c * c) ^ n
    = bsum (S n) (fun k => Cb (2 * n) (2 * k) * (wal k * (a * a + b * b) ^ k) * c ^ (2 * (n - k)) * bet k (n - k))).
  { rewrite binom, <- bsum_scal. apply bsum_ext. intros k Hk.
    rewrite (pow_mult c 2). replace (c ^ 2) with (c * c) by ring.
    transitivity ((4 * PI / (2 * INR n + 1) * Cb n k) * ((a * a + b * b) ^ k * (c * c) ^ (n - k))); [ring|].
    rewrite <- coefficient by lia. ring. }
  rewrite E. unfold inner. apply (is_RInt_bsum (S n) (fun k z => Cb (2 * n) (2 * k) * (wal k * (a * a + b * b) ^ k) * c ^ (2 * (n - k)) * zf k (n - k) z)).
  intros k _. apply (@is_RInt_scal R_NormedModule (zf k (n - k))). apply axis_int.
Qed.
End Sphere.
