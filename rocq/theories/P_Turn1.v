(** The spherical covariance is positive definite in three dimensions (turning bands).
    Part 1: the covariance 1 - 3 h + 2 h^3 on the line is the autocorrelation of a ramp. *)
From Verif Require Import Base Sums Matrix P_Psd P_Psd3.
From Coquelicot Require Import Coquelicot.

Definition ramp (t : R) : R := if Rle_dec (Rabs t) (1 / 2) then t else 0.
Definition c1 (t : R) : R := if Rle_dec (Rabs t) 1 then 1 - 3 * Rabs t + 2 * (Rabs t) ^ 3 else 0.

Lemma ramp_in t : -1 / 2 <= t <= 1 / 2 -> ramp t = t.
Proof. intros H. unfold ramp. destruct (Rle_dec _ _) as [_|N]; [reflexivity|]. exfalso. apply N. apply Rabs_le. lra. Qed.
Lemma ramp_out t : t < -1 / 2 \/ 1 / 2 < t -> ramp t = 0.
Proof. intros H. unfold ramp. destruct (Rle_dec _ _) as [N|_]; [|reflexivity]. apply Rabs_le_between in N. lra. Qed.
Lemma zero_int (f : R -> R) p q : p <= q -> (forall t, p < t < q -> f t = 0) -> is_RInt f p q 0.
Proof.
  intros Hpq H. apply (is_RInt_ext (fun _ => 0)).
  - intros t. rewrite Rmin_left, Rmax_right by assumption. intros Ht. symmetry. apply H. exact Ht.
  - pose proof (@is_RInt_const R_NormedModule p q 0) as K. unfold scal in K. cbn in K. unfold mult in K. cbn in K. rewrite Rmult_0_r in K. exact K.
Qed.

Lemma overlap_ordered a b T : b <= a -> Rabs a + 1 <= T -> Rabs b + 1 <= T ->
  is_RInt (fun t => ramp (t + a) * ramp (t + b)) (- T) T (c1 (a - b) / 12).
Proof.
  intros Hab Ha Hb.
  assert (Ba : - (T - 1) <= a <= T - 1) by (apply Rabs_le_between; lra).
  assert (Bb : - (T - 1) <= b <= T - 1) by (apply Rabs_le_between; lra).
  unfold c1. rewrite (Rabs_right (a - b)) by lra. destruct (Rle_dec (a - b) 1) as [H|H].
  - set (lo := - 1 / 2 - b). set (hi := 1 / 2 - a).
    assert (L1 : is_RInt (fun t => ramp (t + a) * ramp (t + b)) (- T) lo 0).
    { apply zero_int; [unfold lo; lra|]. intros t Ht. rewrite (ramp_out (t + b)) by (unfold lo in Ht; lra). ring. }
    assert (L3 : is_RInt (fun t => ramp (t + a) * ramp (t + b)) hi T 0).
    { apply zero_int; [unfold hi; lra|]. intros t Ht. rewrite (ramp_out (t + a)) by (unfold hi in Ht; lra). ring. }
    pose (F := fun t => t ^ 3 / 3 + (a + b) * t ^ 2 / 2 + a * b * t).
    assert (L2 : is_RInt (fun t => ramp (t + a) * ramp (t + b)) lo hi (F hi - F lo)).
    { apply (is_RInt_ext (fun t => (t + a) * (t + b))).
      - intros t. rewrite Rmin_left, Rmax_right by (unfold lo, hi; lra). unfold lo, hi. intros Ht. rewrite !ramp_in by lra. reflexivity.
      - apply (is_RInt_derive F (fun t => (t + a) * (t + b))).
        + intros t _. unfold F. auto_derive; auto. field.
        + intros t _. apply @ex_derive_continuous. auto_derive. auto. }
    pose proof (is_RInt_Chasles _ _ _ _ _ _ L1 (is_RInt_Chasles _ _ _ _ _ _ L2 L3)) as L.
    unfold plus in L. cbn in L.
    replace ((1 - 3 * (a - b) + 2 * (a - b) ^ 3) / 12) with (0 + (F hi - F lo + 0)); [exact L|]. unfold F, lo, hi. field.
  - replace (0 / 12) with 0 by field. apply zero_int; [lra|]. intros t _.
    destruct (Rlt_dec (t + b) (-1 / 2)); [rewrite (ramp_out (t + b)) by lra; ring|]. rewrite (ramp_out (t + a)) by lra. ring.
Qed.
Lemma c1_sym t : c1 (- t) = c1 t. Proof. unfold c1. now rewrite Rabs_Ropp. Qed.
Lemma overlap a b T : Rabs a + 1 <= T -> Rabs b + 1 <= T ->
  is_RInt (fun t => ramp (t + a) * ramp (t + b)) (- T) T (c1 (a - b) / 12).
Proof.
  intros Ha Hb. destruct (Rle_dec b a) as [H|H]; [apply overlap_ordered; assumption|].
  replace (c1 (a - b)) with (c1 (b - a)) by (rewrite <- (c1_sym (b - a)); f_equal; ring).
  apply (is_RInt_ext (fun t => ramp (t + b) * ramp (t + a))); [intros; apply Rmult_comm|]. apply overlap_ordered; try assumption. lra.
Qed.

Lemma bounded_by n (x : nat -> R) : exists T, 0 <= T /\ forall i, (i < n)%nat -> Rabs (x i) <= T.
Proof.
  induction n as [|n (T & T0 & IH)]; [exists 0; split; [lra|intros; lia]|].
  exists (T + Rabs (x n)). pose proof (Rabs_pos (x n)). split; [lra|]. intros i Hi. destruct (Nat.eq_dec i n) as [->|]; [lra|].
  specialize (IH i ltac:(lia)). lra.
Qed.
Lemma c1_psd n (x : nat -> R) : psd n (fun i j => c1 (x i - x j)).
Proof.
  intros c. destruct (bounded_by n x) as (T & T0 & HT).
  assert (HI : is_RInt (fun t => qf n c (fun i j => ramp (t + x i) * ramp (t + x j))) (- (T + 1)) (T + 1) (qf n c (fun i j => c1 (x i - x j) / 12))).
  { apply (is_RInt_qf n c (fun t i j => ramp (t + x i) * ramp (t + x j))). intros i j Hi Hj.
    pose proof (HT i Hi). pose proof (HT j Hj). apply overlap; lra. }
  assert (H0 : 0 <= qf n c (fun i j => c1 (x i - x j) / 12)).
  { apply (is_RInt_le (fun _ => 0) (fun t => qf n c (fun i j => ramp (t + x i) * ramp (t + x j))) (- (T + 1)) (T + 1) 0 (qf n c (fun i j => c1 (x i - x j) / 12))); [lra|apply zero_int; [lra|reflexivity]|exact HI|].
    intros t _. rewrite qf_outer. apply Rle_0_sqr. }
  rewrite (qf_ext n c c _ (fun i j => / 12 * c1 (x i - x j))) in H0 by (intros; auto; unfold Rdiv; ring).
  rewrite qf_scal in H0. lra.
Qed.
