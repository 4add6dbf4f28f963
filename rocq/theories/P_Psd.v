(** Positive definite kernels on finite index sets, from first principles:
    quadratic forms, Schur products, exponentials, limits (Schoenberg). *)
From Verif Require Import Base Sums Matrix S_Kriging.

Definition qf (n : nat) (c : vec) (K : mat) : R :=
  bsum n (fun i => bsum n (fun j => c i * c j * K i j)).
Definition psd (n : nat) (K : mat) : Prop := forall c, 0 <= qf n c K.
(** strictly positive definite *)
Definition pd (n : nat) (K : mat) : Prop :=
  forall c, qf n c K <= 0 -> forall i, (i < n)%nat -> c i = 0.
(** strictly conditionally negative definite *)
Definition scnd (n : nat) (M : mat) : Prop :=
  forall c, bsum n c = 0 -> 0 <= qf n c M -> forall i, (i < n)%nat -> c i = 0.

Lemma cnd_qf n M : cond_neg_def n M <-> forall c, bsum n c = 0 -> qf n c M <= 0.
Proof. reflexivity. Qed.

Lemma qf_ext n c c' K K' : (forall i, (i < n)%nat -> c i = c' i) ->
  (forall i j, (i < n)%nat -> (j < n)%nat -> K i j = K' i j) -> qf n c K = qf n c' K'.
Proof.
  intros Hc HK. unfold qf. apply bsum_ext; intros i Hi. apply bsum_ext; intros j Hj.
  rewrite !Hc, HK by assumption. reflexivity.
Qed.
Lemma qf_plus n c K L : qf n c (fun i j => K i j + L i j) = qf n c K + qf n c L.
Proof.
  unfold qf. rewrite <- bsum_plus. apply bsum_ext; intros i Hi. rewrite <- bsum_plus.
  apply bsum_ext; intros; ring.
Qed.
Lemma qf_scal n c a K : qf n c (fun i j => a * K i j) = a * qf n c K.
Proof.
  unfold qf. rewrite <- bsum_scal. apply bsum_ext; intros i Hi. rewrite <- bsum_scal.
  apply bsum_ext; intros; ring.
Qed.
Lemma qf_sum n c m (F : nat -> mat) : qf n c (fun i j => bsum m (fun k => F k i j)) = bsum m (fun k => qf n c (F k)).
Proof.
  induction m as [|m IH].
  - simpl. unfold qf. apply bsum_0; intros i _; apply bsum_0; intros; ring.
  - simpl. rewrite <- IH. apply (qf_plus n c (fun i j => bsum m (fun k => F k i j)) (F m)).
Qed.
(** rank one *)
Lemma qf_outer n c u v : qf n c (fun i j => u i * v j) = bsum n (fun i => c i * u i) * bsum n (fun i => c i * v i).
Proof.
  unfold qf. rewrite <- bsum_scal_r. apply bsum_ext; intros i Hi. rewrite <- bsum_scal.
  apply bsum_ext; intros; ring.
Qed.
Lemma qf_rescale n c u K : qf n c (fun i j => u i * u j * K i j) = qf n (fun i => c i * u i) K.
Proof. unfold qf. apply bsum_ext; intros i Hi. apply bsum_ext; intros; ring. Qed.
Lemma qf_const n c a : qf n c (fun _ _ => a) = a * (bsum n c * bsum n c).
Proof.
  rewrite (qf_ext n c c (fun _ _ => a) (fun i j => (fun _ => a) i * (fun _ => 1) j)) by (intros; auto; ring).
  rewrite qf_outer, bsum_scal_r.
  rewrite (bsum_ext n (fun i => c i * 1) c) by (intros; ring). ring.
Qed.
Lemma qf_col n c u : qf n c (fun i _ => u i) = bsum n (fun i => c i * u i) * bsum n c.
Proof.
  rewrite (qf_ext n c c (fun i _ => u i) (fun i j => u i * (fun _ => 1) j)) by (intros; auto; ring).
  rewrite qf_outer. f_equal. apply bsum_ext; intros; ring.
Qed.
Lemma qf_row n c u : qf n c (fun _ j => u j) = bsum n (fun i => c i * u i) * bsum n c.
Proof.
  rewrite (qf_ext n c c (fun _ j => u j) (fun i j => (fun _ => 1) i * u j)) by (intros; auto; ring).
  rewrite qf_outer. rewrite (bsum_ext n (fun i => c i * 1) c) by (intros; ring). ring.
Qed.
Lemma qf_diag n c a : qf n c (fun i j => if Nat.eqb i j then a i else 0) = bsum n (fun i => a i * (c i * c i)).
Proof.
  unfold qf. apply bsum_ext; intros i Hi.
  rewrite (bsum_single n i _ Hi).
  - rewrite Nat.eqb_refl. ring.
  - intros j Hj Hne. destruct (Nat.eqb_spec i j); [congruence|ring].
Qed.

(** limits of quadratic forms *)
Lemma bsum_cv n (F : nat -> nat -> R) (l : nat -> R) :
  (forall i, (i < n)%nat -> Un_cv (fun m => F m i) (l i)) -> Un_cv (fun m => bsum n (F m)) (bsum n l).
Proof.
  induction n as [|n IH]; intros H; simpl.
  - intros e He. exists 0%nat. intros. unfold R_dist. rewrite Rminus_diag_eq, Rabs_R0; auto.
  - apply (CV_plus (fun m => bsum n (F m)) (fun m => F m n)).
    + apply IH. intros; apply H; lia.
    + apply H; lia.
Qed.
Lemma cv_const (a : R) : Un_cv (fun _ => a) a.
Proof. intros e He. exists 0%nat. intros. unfold R_dist. rewrite Rminus_diag_eq, Rabs_R0; auto. Qed.
Lemma cv_scal a (u : nat -> R) l : Un_cv u l -> Un_cv (fun m => a * u m) (a * l).
Proof. intros H. apply (CV_mult (fun _ => a) u a l); [apply cv_const|exact H]. Qed.
Lemma cv_ext (u v : nat -> R) l : (forall m, u m = v m) -> Un_cv u l -> Un_cv v l.
Proof. intros E H e He. destruct (H e He) as [N HN]. exists N. intros m Hm. rewrite <- E. auto. Qed.
Lemma qf_cv n c (F : nat -> mat) (K : mat) :
  (forall i j, (i < n)%nat -> (j < n)%nat -> Un_cv (fun m => F m i j) (K i j)) ->
  Un_cv (fun m => qf n c (F m)) (qf n c K).
Proof.
  intros H. unfold qf. apply bsum_cv. intros i Hi.
  apply (bsum_cv n (fun m j => c i * c j * F m i j)). intros j Hj. apply cv_scal. auto.
Qed.
Lemma cv_ge (u : nat -> R) l a : Un_cv u l -> (exists N, forall m, (N <= m)%nat -> a <= u m) -> a <= l.
Proof.
  intros H [N HN]. destruct (Rle_or_lt a l) as [?|Hlt]; [assumption|exfalso].
  destruct (H (a - l)) as [M HM]; [lra|].
  specialize (HM (Nat.max N M) ltac:(lia)). specialize (HN (Nat.max N M) ltac:(lia)).
  unfold R_dist in HM. apply Rabs_def2 in HM. lra.
Qed.
Lemma psd_cv n (F : nat -> mat) K : (forall m, psd n (F m)) ->
  (forall i j, (i < n)%nat -> (j < n)%nat -> Un_cv (fun m => F m i j) (K i j)) -> psd n K.
Proof.
  intros HF Hcv c. apply (cv_ge (fun m => qf n c (F m)) (qf n c K) 0); [apply qf_cv; exact Hcv|].
  exists 0%nat. intros m _. apply HF.
Qed.

(** Gram matrices and their entrywise powers *)
Definition gram (D : nat) (x : nat -> vec) : mat := fun i j => dot D (x i) (x j).
Lemma gram_pow_S n c D x k :
  qf n c (fun i j => gram D x i j ^ S k) = bsum D (fun a => qf n (fun i => c i * x i a) (fun i j => gram D x i j ^ k)).
Proof.
  rewrite (qf_ext n c c (fun i j => gram D x i j ^ S k)
     (fun i j => bsum D (fun a => x i a * x j a * gram D x i j ^ k))).
  - rewrite (qf_sum n c D (fun a i j => x i a * x j a * gram D x i j ^ k)).
    apply bsum_ext; intros a Ha. apply (qf_rescale n c (fun i => x i a)).
  - reflexivity.
  - intros i j Hi Hj. simpl. unfold gram at 1, dot. rewrite <- bsum_scal_r. reflexivity.
Qed.
Lemma gram_pow_0 n c D x : qf n c (fun i j => gram D x i j ^ 0) = bsum n c * bsum n c.
Proof. simpl. rewrite qf_const. ring. Qed.
Lemma gram_pow_psd n D x k : psd n (fun i j => gram D x i j ^ k).
Proof.
  induction k as [|k IH]; intros c.
  - rewrite gram_pow_0. nra.
  - rewrite gram_pow_S. apply bsum_nonneg. intros a _. apply IH.
Qed.
Lemma gram_psd n D x : psd n (gram D x).
Proof.
  intros c. rewrite (qf_ext n c c (gram D x) (fun i j => gram D x i j ^ 1)); [apply gram_pow_psd|auto|intros; ring].
Qed.

(** Cauchy-Schwarz in the form needed: the null vectors of a psd form are a subspace *)
Lemma qf_parallel n c d K : qf n (fun i => c i + d i) K + qf n (fun i => c i - d i) K = 2 * qf n c K + 2 * qf n d K.
Proof.
  unfold qf. rewrite <- !bsum_scal, <- !bsum_plus. apply bsum_ext; intros i Hi.
  rewrite <- !bsum_scal, <- !bsum_plus. apply bsum_ext; intros; ring.
Qed.
Lemma qf_homog n c a K : qf n (fun i => a * c i) K = a * a * qf n c K.
Proof. unfold qf. rewrite <- bsum_scal. apply bsum_ext; intros i Hi. rewrite <- bsum_scal. apply bsum_ext; intros; ring. Qed.
Lemma qf_null_add n c d a K : psd n K -> qf n c K = 0 -> qf n d K = 0 -> qf n (fun i => c i + a * d i) K = 0.
Proof.
  intros HK Hc Hd. pose proof (qf_parallel n c (fun i => a * d i) K) as HP.
  rewrite qf_homog, Hd, Hc in HP.
  pose proof (HK (fun i => c i + a * d i)). pose proof (HK (fun i => c i - a * d i)). cbv beta in *. lra.
Qed.

(** exp of a Gram matrix *)
Definition expsum (m : nat) (x : R) : R := bsum m (fun k => / INR (fact k) * x ^ k).
Lemma expsum_cv x : Un_cv (fun m => expsum m x) (exp x).
Proof.
  unfold exp. destruct (exist_exp x) as [l Hl]. cbn [proj1_sig].
  unfold exp_in, infinite_sum in Hl. intros e He. destruct (Hl e He) as [N HN].
  exists (S N). intros m Hm. destruct m as [|m]; [lia|].
  assert (HS : forall k, expsum (S k) x = sum_f_R0 (fun i => / INR (fact i) * x ^ i) k).
  { induction k as [|k IH]; [unfold expsum; simpl; ring|].
    unfold expsum in *. cbn [bsum] in *. rewrite IH. reflexivity. }
  rewrite HS. apply HN. lia.
Qed.
Lemma invfact_pos k : 0 < / INR (fact k).
Proof. apply Rinv_0_lt_compat, INR_fact_lt_0. Qed.
Lemma exp_gram_ge n c D x k :
  / INR (fact k) * qf n c (fun i j => gram D x i j ^ k) <= qf n c (fun i j => exp (gram D x i j)).
Proof.
  apply (cv_ge (fun m => qf n c (fun i j => expsum m (gram D x i j)))).
  - apply qf_cv. intros. apply expsum_cv.
  - exists (S k). intros m Hm. unfold expsum. rewrite (qf_sum n c m (fun k i j => / INR (fact k) * gram D x i j ^ k)).
    rewrite <- (bsum_delta m k (fun k => / INR (fact k) * qf n c (fun i j => gram D x i j ^ k))) by lia.
    apply bsum_le. intros i Hi. rewrite (qf_scal n c (/ INR (fact i)) (fun a b => gram D x a b ^ i)).
    pose proof (gram_pow_psd n D x i c). pose proof (invfact_pos i). destruct (Nat.eqb_spec i k); nra.
Qed.
(** two terms at once: the constant and the linear one *)
Lemma exp_gram_ge2 n c D x :
  bsum n c * bsum n c + qf n c (gram D x) <= qf n c (fun i j => exp (gram D x i j)).
Proof.
  apply (cv_ge (fun m => qf n c (fun i j => expsum m (gram D x i j)))).
  - apply qf_cv. intros. apply expsum_cv.
  - exists 2%nat. intros m Hm. unfold expsum. rewrite (qf_sum n c m (fun k i j => / INR (fact k) * gram D x i j ^ k)).
    replace m with (2 + (m - 2))%nat by lia. rewrite bsum_split.
    assert (0 <= bsum (m - 2) (fun i => qf n c (fun i0 j => / INR (fact (2 + i)) * gram D x i0 j ^ (2 + i)))).
    { apply bsum_nonneg. intros i _. rewrite (qf_scal n c (/ INR (fact (2 + i))) (fun a b => gram D x a b ^ (2 + i))).
      pose proof (gram_pow_psd n D x (2 + i) c). pose proof (invfact_pos (2 + i)). cbv beta in *. nra. }
    cbn [bsum].
    rewrite (qf_scal n c (/ INR (fact 0)) (fun a b => gram D x a b ^ 0)), (qf_scal n c (/ INR (fact 1)) (fun a b => gram D x a b ^ 1)).
    rewrite gram_pow_0. rewrite (qf_ext n c c (fun a b => gram D x a b ^ 1) (gram D x)) by (auto; intros; ring).
    change (INR (fact 0)) with 1. change (INR (fact 1)) with 1. rewrite Rinv_1. cbv beta in *. lra.
Qed.
Lemma exp_gram_psd n D x : psd n (fun i j => exp (gram D x i j)).
Proof.
  intros c. eapply Rle_trans; [|apply exp_gram_ge2].
  pose proof (gram_psd n D x c). nra.
Qed.

(** strict positivity of exp of a Gram matrix of distinct points *)
Definition null_all (n D : nat) (x : nat -> vec) (c : vec) : Prop :=
  forall k, qf n c (fun i j => gram D x i j ^ k) = 0.
Lemma null_all_mult n D x c a b : (a < D)%nat -> null_all n D x c -> null_all n D x (fun i => c i * (x i a - b)).
Proof.
  intros Ha Hc k.
  assert (H1 : qf n (fun i => c i * x i a) (fun i j => gram D x i j ^ k) = 0).
  { pose proof (Hc (S k)) as H. rewrite gram_pow_S in H.
    apply (bsum_nonneg_zero D (fun a => qf n (fun i => c i * x i a) (fun i j => gram D x i j ^ k))); auto.
    intros. apply gram_pow_psd. }
  rewrite <- (qf_null_add n (fun i => c i * x i a) c (- b) (fun i j => gram D x i j ^ k)); auto.
  - apply qf_ext; intros; auto; ring.
  - apply gram_pow_psd.
Qed.
(** the coefficients vanish wherever all other points are separated *)
Lemma null_all_prod n D x c (sep : nat -> nat) k m : null_all n D x c -> (forall j, (j < m)%nat -> j <> k -> (sep j < D)%nat) ->
  exists p : vec, null_all n D x (fun i => c i * p i) /\
    (forall i, (i < m)%nat -> i <> k -> p i = 0) /\
    ((forall j, (j < m)%nat -> j <> k -> x k (sep j) <> x j (sep j)) -> p k <> 0).
Proof.
  intros Hc. induction m as [|m IH]; intros Hs.
  - exists (fun _ => 1). split; [|split]; [|intros; lia|intros; lra].
    intros q. rewrite <- (Hc q). apply qf_ext; intros; auto; ring.
  - destruct IH as (p & H1 & H2 & H3); [intros; apply Hs; lia|].
    destruct (Nat.eq_dec m k) as [->|Hne].
    + exists p. split; [exact H1|split].
      * intros i Hi Hik. apply H2; lia.
      * intros H. apply H3. intros; apply H; lia.
    + exists (fun i => p i * (x i (sep m) - x m (sep m))). split; [|split].
      * intros q. rewrite <- (null_all_mult n D x (fun i => c i * p i) (sep m) (x m (sep m)) (Hs m ltac:(lia) Hne) H1 q).
        apply qf_ext; intros; auto; ring.
      * intros i Hi Hik. destruct (Nat.eq_dec i m) as [->|Him]; [ring|]. rewrite H2 by lia. ring.
      * intros H. apply Rmult_integral_contrapositive_currified.
        -- apply H3. intros; apply H; lia.
        -- specialize (H m ltac:(lia) Hne). lra.
Qed.
Lemma exp_gram_pd n D x : (forall i j, (i < n)%nat -> (j < n)%nat -> i <> j -> exists a, (a < D)%nat /\ x i a <> x j a) ->
  pd n (fun i j => exp (gram D x i j)).
Proof.
  intros Hd c Hc k Hk.
  assert (HN : null_all n D x c).
  { intros q. pose proof (exp_gram_ge n c D x q). pose proof (gram_pow_psd n D x q c). pose proof (invfact_pos q). nra. }
  assert (Hsep : exists sep : nat -> nat, forall j, (j < n)%nat -> j <> k -> (sep j < D)%nat /\ x k (sep j) <> x j (sep j)).
  { clear - Hd Hk.
    assert (G : forall m, (m <= n)%nat -> exists sep : nat -> nat, forall j, (j < m)%nat -> j <> k -> (sep j < D)%nat /\ x k (sep j) <> x j (sep j)).
    { induction m as [|m IH]; intros Hm.
      - exists (fun _ => 0%nat). intros; lia.
      - destruct (IH ltac:(lia)) as [sep Hs]. destruct (Nat.eq_dec m k) as [->|Hne].
        + exists sep. intros j Hj Hjk. apply Hs; lia.
        + destruct (Hd k m ltac:(lia) ltac:(lia) ltac:(lia)) as (a & Ha & Hx).
          exists (fun j => if Nat.eqb j m then a else sep j). intros j Hj Hjk.
          destruct (Nat.eqb_spec j m) as [->|Hjm]; [auto|]. apply Hs; lia. }
    apply (G n); lia. }
  destruct Hsep as [sep Hs].
  destruct (null_all_prod n D x c sep k n HN) as (p & H1 & H2 & H3).
  { intros; apply Hs; auto. }
  specialize (H3 ltac:(intros; apply Hs; auto)).
  specialize (H1 0%nat). rewrite gram_pow_0 in H1.
  rewrite (bsum_single n k) in H1 by (auto; intros; rewrite H2 by auto; ring).
  assert (c k * p k = 0) by nra. nra.
Qed.
