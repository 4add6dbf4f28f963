(** Cholesky factorisation and Schoenberg's theorem on finite sets. *)
From Verif Require Import Base Sums Matrix S_Kriging P_Psd.

Lemma qf_S n c K : (forall i, (i < n)%nat -> K i n = K n i) ->
  qf (S n) c K = qf n c K + 2 * c n * bsum n (fun i => c i * K i n) + c n * c n * K n n.
Proof.
  intros Hs. unfold qf. cbn [bsum]. rewrite bsum_plus. rewrite <- bsum_scal.
  rewrite (bsum_ext n (fun j => c n * c j * K n j) (fun i => c n * (c i * K i n))) by (intros i Hi; rewrite Hs by assumption; ring).
  rewrite (bsum_ext n (fun i => c i * c n * K i n) (fun i => c n * (c i * K i n))) by (intros; ring).
  rewrite (bsum_ext n (fun i => 2 * c n * (c i * K i n)) (fun i => c n * (c i * K i n) + c n * (c i * K i n))) by (intros; ring).
  rewrite bsum_plus. ring.
Qed.

Lemma psd_restrict n K : symmetric (S n) K -> psd (S n) K -> psd n K.
Proof.
  intros Hs HK c. specialize (HK (fun i => if Nat.eqb i n then 0 else c i)).
  rewrite qf_S in HK by (intros i Hi; apply (Hs n i); lia).
  rewrite Nat.eqb_refl in HK.
  rewrite (qf_ext n (fun i => if Nat.eqb i n then 0 else c i) c K K) in HK; [lra| |reflexivity].
  intros i Hi. destruct (Nat.eqb_spec i n); [lia|reflexivity].
Qed.
Lemma sym_restrict n K : symmetric (S n) K -> symmetric n K.
Proof. intros H i j Hi Hj. apply H; lia. Qed.

Lemma linear_nonneg_zero (a b : R) : (forall t, 0 <= t * t * a + 2 * t * b) -> b = 0.
Proof.
  intros H. destruct (Req_dec b 0) as [|Hb]; [assumption|exfalso].
  pose proof (H (- b / (Rabs a + 1))) as H1.
  pose proof (Rabs_pos a). assert (Hp : 0 < Rabs a + 1) by lra. pose proof (Rle_abs a).
  set (k := Rabs a + 1) in *.
  replace (- b / k * (- b / k) * a + 2 * (- b / k) * b) with ((b * b) * (a - 2 * k) / (k * k)) in H1 by (field; lra).
  assert (0 < b * b) by nra.
  assert ((b * b) * (a - 2 * k) < 0) by (unfold k in *; nra).
  assert (0 < / (k * k)) by (apply Rinv_0_lt_compat; nra). unfold Rdiv in H1. nra.
Qed.

Lemma psd_gram n K : symmetric n K -> psd n K -> exists x, forall i j, (i < n)%nat -> (j < n)%nat -> K i j = gram n x i j.
Proof.
  revert K. induction n as [|n IH]; intros K Hs HK.
  - exists (fun _ _ => 0). intros; lia.
  - assert (Hs' : forall i, (i < n)%nat -> K i n = K n i) by (intros i Hi; apply (Hs n i); lia).
    assert (Hnn : 0 <= K n n).
    { specialize (HK (fun i => if Nat.eqb i n then 1 else 0)). rewrite qf_S in HK by exact Hs'. rewrite Nat.eqb_refl in HK.
      rewrite (qf_ext n (fun i => if Nat.eqb i n then 1 else 0) (fun _ => 0) K K) in HK;
        [|intros i Hi; destruct (Nat.eqb_spec i n); [lia|reflexivity]|reflexivity].
      rewrite (bsum_0 n) in HK by (intros i Hi; destruct (Nat.eqb_spec i n); [lia|ring]).
      unfold qf in HK. rewrite (bsum_0 n) in HK; [lra|]. intros; apply bsum_0; intros; ring. }
    destruct (Req_dec (K n n) 0) as [H0|Hp].
    + assert (Hz : forall i, (i < n)%nat -> K i n = 0).
      { intros i Hi. apply (linear_nonneg_zero (K n n + K i i)). intros t.
        assert (HK' : forall t, 0 <= t * t * K i i + 2 * t * K i n).
        { clear t. intros t. specialize (HK (fun j => if Nat.eqb j n then 1 else if Nat.eqb j i then t else 0)).
          rewrite qf_S in HK by exact Hs'. rewrite Nat.eqb_refl in HK. rewrite H0 in HK.
          rewrite (bsum_single n i) in HK; [|exact Hi|].
          2:{ intros j Hj Hne. destruct (Nat.eqb_spec j n); [lia|]. destruct (Nat.eqb_spec j i); [lia|ring]. }
          rewrite (qf_ext n _ (fun j => t * (if Nat.eqb j i then 1 else 0)) K K) in HK;
            [|intros j Hj; destruct (Nat.eqb_spec j n); [lia|]; destruct (Nat.eqb_spec j i); ring|reflexivity].
          rewrite qf_homog in HK. unfold qf in HK.
          rewrite (bsum_single n i) in HK; [|exact Hi|].
          2:{ intros j Hj Hne. destruct (Nat.eqb_spec j i); [lia|]. apply bsum_0. intros; ring. }
          rewrite (bsum_single n i) in HK; [|exact Hi|].
          2:{ intros j Hj Hne. destruct (Nat.eqb_spec j i); [lia|]. ring. }
          destruct (Nat.eqb_spec i n); [lia|]. rewrite Nat.eqb_refl in HK. lra. }
        specialize (HK' t). rewrite H0. lra. }
      destruct (IH K (sym_restrict n K Hs) (psd_restrict n K Hs HK)) as [x Hx].
      exists (fun i a => if Nat.eqb i n then 0 else if Nat.eqb a n then 0 else x i a).
      intros i j Hi Hj. unfold gram, dot. cbn [bsum]. rewrite Nat.eqb_refl.
      destruct (Nat.eqb_spec i n) as [->|Hin].
      * rewrite bsum_0 by (intros; ring). destruct (Nat.eqb_spec j n) as [->|Hjn]; [rewrite H0; ring|].
        rewrite <- Hs' by lia. rewrite Hz by lia. ring.
      * destruct (Nat.eqb_spec j n) as [->|Hjn].
        -- rewrite bsum_0 by (intros; ring). rewrite Hz by lia. ring.
        -- rewrite (Hx i j) by lia. unfold gram, dot. rewrite Rmult_0_l, Rplus_0_r.
           apply bsum_ext. intros a Ha. destruct (Nat.eqb_spec a n); [lia|reflexivity].
    + assert (Hpos : 0 < K n n) by lra.
      pose (K' := fun i j => K i j + (- / K n n) * (K i n * K j n)).
      assert (Hpsd : psd n K').
      { intros c. pose (s := bsum n (fun i => c i * K i n)).
        specialize (HK (fun i => if Nat.eqb i n then - s / K n n else c i)).
        rewrite qf_S in HK by exact Hs'. rewrite Nat.eqb_refl in HK.
        rewrite (qf_ext n (fun i => if Nat.eqb i n then - s / K n n else c i) c K K) in HK;
          [|intros i Hi; destruct (Nat.eqb_spec i n); [lia|reflexivity]|reflexivity].
        rewrite (bsum_ext n (fun i => (if Nat.eqb i n then - s / K n n else c i) * K i n) (fun i => c i * K i n)) in HK
          by (intros i Hi; destruct (Nat.eqb_spec i n); [lia|reflexivity]).
        fold s in HK. unfold K'. rewrite (qf_plus n c K), (qf_scal n c (- / K n n)), (qf_outer n c (fun i => K i n) (fun j => K j n)).
        fold s. replace (qf n c K + - / K n n * (s * s)) with (qf n c K + 2 * (- s / K n n) * s + - s / K n n * (- s / K n n) * K n n)
          by (field; lra). exact HK. }
      destruct (IH K') as [x Hx].
      { intros i j Hi Hj. unfold trm, K'. pose proof (Hs i j ltac:(lia) ltac:(lia)) as E; unfold trm in E; rewrite E; ring. }
      { exact Hpsd. }
      pose (r := sqrt (K n n)). assert (Hr : r * r = K n n) by (apply sqrt_sqrt; lra).
      assert (Hr0 : r <> 0) by (intros E; rewrite E in Hr; lra).
      exists (fun i a => if Nat.eqb i n then (if Nat.eqb a n then r else 0) else if Nat.eqb a n then K i n / r else x i a).
      intros i j Hi Hj. unfold gram, dot. cbn [bsum]. rewrite Nat.eqb_refl.
      destruct (Nat.eqb_spec i n) as [->|Hin].
      * rewrite bsum_0 by (intros a Ha; destruct (Nat.eqb_spec a n); [lia|ring]).
        destruct (Nat.eqb_spec j n) as [->|Hjn]; [rewrite Hr; ring|].
        rewrite <- Hs' by lia. field; assumption.
      * destruct (Nat.eqb_spec j n) as [->|Hjn].
        -- rewrite bsum_0 by (intros a Ha; destruct (Nat.eqb_spec a n); [lia|ring]). field; assumption.
        -- pose proof (Hx i j ltac:(lia) ltac:(lia)) as HE. unfold K' in HE. unfold gram, dot in HE.
           rewrite (bsum_ext n _ (fun a => x i a * x j a)) by (intros a Ha; destruct (Nat.eqb_spec a n); [lia|reflexivity]).
           rewrite <- HE, <- Hr. field; assumption.
Qed.

(** Schur product theorem and entrywise exponential *)
Lemma psd_exp n K : symmetric n K -> psd n K -> psd n (fun i j => exp (K i j)).
Proof.
  intros Hs HK. destruct (psd_gram n K Hs HK) as [x Hx]. intros c.
  rewrite (qf_ext n c c _ (fun i j => exp (gram n x i j))) by (intros; auto; rewrite Hx by assumption; reflexivity).
  apply exp_gram_psd.
Qed.
Lemma psd_exp_ge n K c : symmetric n K -> psd n K ->
  bsum n c * bsum n c + qf n c K <= qf n c (fun i j => exp (K i j)).
Proof.
  intros Hs HK. destruct (psd_gram n K Hs HK) as [x Hx].
  rewrite (qf_ext n c c (fun i j => exp (K i j)) (fun i j => exp (gram n x i j))) by (intros; auto; rewrite Hx by assumption; reflexivity).
  rewrite (qf_ext n c c K (gram n x)) by (intros; auto). apply exp_gram_ge2.
Qed.
Lemma psd_schur n K L : symmetric n K -> psd n K -> psd n L -> psd n (fun i j => K i j * L i j).
Proof.
  intros Hs HK HL. destruct (psd_gram n K Hs HK) as [x Hx]. intros c.
  rewrite (qf_ext n c c _ (fun i j => bsum n (fun a => x i a * x j a * L i j))).
  - rewrite (qf_sum n c n (fun a i j => x i a * x j a * L i j)). apply bsum_nonneg. intros a _.
    rewrite (qf_rescale n c (fun i => x i a)). apply HL.
  - reflexivity.
  - intros i j Hi Hj. rewrite Hx by assumption. unfold gram, dot. rewrite <- bsum_scal_r. reflexivity.
Qed.

(** the kernel of a conditionally negative definite M, based at index 0 *)
Definition based (M : mat) : mat := fun i j => M i 0%nat + M 0%nat j - M i j - M 0%nat 0%nat.
Lemma qf_based n M c : (0 < n)%nat -> symmetric n M ->
  qf n c (based M) = - qf n (fun i => c i + (- bsum n c) * (if Nat.eqb i 0 then 1 else 0)) M.
Proof.
  intros Hn Hs. set (s := bsum n c).
  assert (E1 : qf n c (based M) = 2 * (bsum n (fun i => c i * M i 0%nat) * s) - qf n c M - M 0%nat 0%nat * (s * s)).
  { unfold based.
    rewrite (qf_ext n c c _ (fun i j => (fun i _ => M i 0%nat) i j + ((fun _ j => M 0%nat j) i j + ((-1) * M i j + (fun _ _ => - M 0%nat 0%nat) i j))))
      by (intros; auto; ring).
    rewrite (qf_plus n c (fun i _ => M i 0%nat)), (qf_plus n c (fun _ j => M 0%nat j)), (qf_plus n c (fun i j => -1 * M i j)).
    rewrite (qf_col n c (fun i => M i 0%nat)), (qf_row n c (fun j => M 0%nat j)), qf_scal, qf_const. fold s.
    rewrite (bsum_ext n (fun i => c i * M 0%nat i) (fun i => c i * M i 0%nat)) by (intros i Hi; rewrite <- (Hs i 0%nat) by lia; reflexivity).
    ring. }
  rewrite E1. clear E1.
  cut (qf n (fun i => c i + - s * (if Nat.eqb i 0 then 1 else 0)) M
       = qf n c M - 2 * (bsum n (fun i => c i * M i 0%nat) * s) + M 0%nat 0%nat * (s * s)); [intros ->; ring|].
  unfold qf at 1.
  rewrite (bsum_ext n _ (fun i => (bsum n (fun j => c i * c j * M i j) - s * (c i * M i 0%nat))
      + (- s) * ((if Nat.eqb i 0 then 1 else 0) * (bsum n (fun j => c j * M i j) - s * M i 0%nat)))).
  - rewrite bsum_plus, bsum_minus, !bsum_scal. rewrite bsum_delta by exact Hn.
    rewrite (bsum_ext n (fun j => c j * M 0%nat j) (fun j => c j * M j 0%nat)) by (intros j Hj; rewrite <- (Hs j 0%nat) by lia; reflexivity).
    unfold qf. ring.
  - intros i Hi.
    rewrite (bsum_ext n (fun j => (c i + - s * (if Nat.eqb i 0 then 1 else 0)) * (c j + - s * (if Nat.eqb j 0 then 1 else 0)) * M i j)
       (fun j => (c i + - s * (if Nat.eqb i 0 then 1 else 0)) * (c j * M i j) + (- s * (c i + - s * (if Nat.eqb i 0 then 1 else 0))) * ((if Nat.eqb j 0 then 1 else 0) * M i j)))
      by (intros; ring).
    rewrite bsum_plus, !bsum_scal, bsum_delta by exact Hn.
    rewrite (bsum_ext n (fun j => c i * c j * M i j) (fun j => c i * (c j * M i j))) by (intros; ring).
    rewrite bsum_scal. ring.
Qed.
Lemma based_sym n M : (0 < n)%nat -> symmetric n M -> symmetric n (based M).
Proof.
  intros Hn Hs i j Hi Hj. unfold trm, based. pose proof (Hs i j Hi Hj). pose proof (Hs 0%nat i Hn Hi). pose proof (Hs 0%nat j Hn Hj).
  unfold trm in *. lra.
Qed.
Lemma bsum_shift0 n c : (0 < n)%nat -> bsum n (fun i => c i + (- bsum n c) * (if Nat.eqb i 0 then 1 else 0)) = 0.
Proof.
  intros Hn. rewrite bsum_plus.
  rewrite (bsum_delta_r n 0 (fun _ => - bsum n c) Hn). ring.
Qed.
Lemma based_psd n M : (0 < n)%nat -> symmetric n M -> cond_neg_def n M -> psd n (based M).
Proof.
  intros Hn Hs HM c. rewrite qf_based by assumption.
  pose proof (HM _ (bsum_shift0 n c Hn)) as H.
  change (qf n (fun i => c i + - bsum n c * (if Nat.eqb i 0 then 1 else 0)) M <= 0) in H. lra.
Qed.
Lemma exp_based M i j : exp (- M i j) = exp (- M i 0%nat + M 0%nat 0%nat / 2) * exp (- M 0%nat j + M 0%nat 0%nat / 2) * exp (based M i j).
Proof. rewrite <- !exp_plus. f_equal. unfold based. field. Qed.
Lemma exp_based' n M i j : (0 < n)%nat -> symmetric n M -> (i < n)%nat -> (j < n)%nat ->
  exp (- M i j) = exp (- M i 0%nat + M 0%nat 0%nat / 2) * exp (- M j 0%nat + M 0%nat 0%nat / 2) * exp (based M i j).
Proof. intros Hn Hs Hi Hj. rewrite exp_based. rewrite <- (Hs 0%nat j) by assumption. reflexivity. Qed.

Lemma schoenberg n M : symmetric n M -> cond_neg_def n M -> psd n (fun i j => exp (- M i j)).
Proof.
  intros Hs HM c. destruct n as [|n]; [unfold qf; simpl; lra|].
  rewrite (qf_ext (S n) c c _ (fun i j => exp (- M i 0%nat + M 0%nat 0%nat / 2) * exp (- M j 0%nat + M 0%nat 0%nat / 2) * exp (based M i j)))
    by (intros; auto; apply (exp_based' (S n)); auto; lia).
  rewrite (qf_rescale (S n) c (fun i => exp (- M i 0%nat + M 0%nat 0%nat / 2))).
  apply psd_exp; [apply based_sym|apply based_psd]; auto; lia.
Qed.
Lemma schoenberg_strict n M : symmetric n M -> cond_neg_def n M -> scnd n M -> pd n (fun i j => exp (- M i j)).
Proof.
  intros Hs HM HS c Hc i Hi. assert (Hn : (0 < n)%nat) by lia.
  rewrite (qf_ext n c c _ (fun i j => exp (- M i 0%nat + M 0%nat 0%nat / 2) * exp (- M j 0%nat + M 0%nat 0%nat / 2) * exp (based M i j))) in Hc
    by (intros; auto; apply (exp_based' n); auto).
  rewrite (qf_rescale n c (fun i => exp (- M i 0%nat + M 0%nat 0%nat / 2))) in Hc.
  set (d := fun i => c i * exp (- M i 0%nat + M 0%nat 0%nat / 2)) in *.
  pose proof (psd_exp_ge n (based M) d (based_sym n M Hn Hs) (based_psd n M Hn Hs HM)) as H1.
  pose proof (based_psd n M Hn Hs HM d) as H2.
  assert (Hd0 : bsum n d = 0) by nra.
  assert (Hd : d i = 0).
  { apply (HS d Hd0); [|exact Hi]. rewrite qf_based in H1 by assumption.
    rewrite (qf_ext n _ d M M) in H1; [nra| |reflexivity]. intros j Hj. rewrite Hd0. ring. }
  unfold d in Hd. pose proof (exp_pos (- M i 0%nat + M 0%nat 0%nat / 2)). nra.
Qed.

(** squared distances *)
Definition sqd (D : nat) (x : nat -> vec) : mat := fun i j => bsum D (fun a => (x i a - x j a) * (x i a - x j a)).
Lemma sqd_gram D x i j : sqd D x i j = dot D (x i) (x i) + dot D (x j) (x j) - 2 * gram D x i j.
Proof.
  unfold sqd, gram, dot. rewrite <- bsum_scal, <- bsum_plus, <- bsum_minus. apply bsum_ext; intros; ring.
Qed.
Lemma sqd_sym D x n : symmetric n (sqd D x).
Proof. intros i j _ _. unfold trm, sqd. apply bsum_ext; intros; ring. Qed.
Lemma sqd_nonneg D x i j : 0 <= sqd D x i j.
Proof. apply bsum_nonneg. intros. cbv beta; apply Rle_0_sqr. Qed.
Lemma sqd_diag D x i : sqd D x i i = 0.
Proof. apply bsum_0. intros; ring. Qed.
Lemma sqd_cnd n D x : cond_neg_def n (sqd D x).
Proof.
  intros c Hc. change (qf n c (sqd D x) <= 0).
  rewrite (qf_ext n c c _ (fun i j => (fun i _ => dot D (x i) (x i)) i j + ((fun _ j => dot D (x j) (x j)) i j + (-2) * gram D x i j)))
    by (intros; auto; rewrite sqd_gram; ring).
  rewrite (qf_plus n c (fun i _ => dot D (x i) (x i))), (qf_plus n c (fun _ j => dot D (x j) (x j))), qf_scal, (qf_col n c (fun i => dot D (x i) (x i))), (qf_row n c (fun i => dot D (x i) (x i))), Hc.
  pose proof (gram_psd n D x c). lra.
Qed.
(** points that differ in a coordinate *)
Definition separated (n D : nat) (x : nat -> vec) : Prop :=
  forall i j, (i < n)%nat -> (j < n)%nat -> i <> j -> exists a, (a < D)%nat /\ x i a <> x j a.
Lemma separated_sqd n D x : separated n D x <-> forall i j, (i < n)%nat -> (j < n)%nat -> i <> j -> sqd D x i j <> 0.
Proof.
  split; intros H i j Hi Hj Hne.
  - destruct (H i j Hi Hj Hne) as (a & Ha & Hx). intros E. apply Hx.
    pose proof (bsum_nonneg_zero D (fun a => (x i a - x j a) * (x i a - x j a)) ltac:(intros; cbv beta; apply Rle_0_sqr) E a Ha) as H1.
    cbv beta in H1. apply Rmult_integral in H1. lra.
  - specialize (H i j Hi Hj Hne).
    assert (G : forall m, (exists a, (a < m)%nat /\ x i a <> x j a) \/ bsum m (fun a => (x i a - x j a) * (x i a - x j a)) = 0).
    { induction m as [|m [IH|IH]].
      - right; reflexivity.
      - left. destruct IH as (a & Ha & Hx). exists a. split; [lia|exact Hx].
      - destruct (Req_dec (x i m) (x j m)) as [E|E].
        + right. simpl. rewrite IH, E. ring.
        + left. exists m. split; [lia|exact E]. }
    destruct (G D) as [?|G0]; [assumption|]. contradiction.
Qed.
Lemma gauss_rescale D x t i j : 0 <= t ->
  exp (- (t * sqd D x i j)) = exp (- (t * dot D (x i) (x i))) * exp (- (t * dot D (x j) (x j))) * exp (gram D (fun i a => sqrt (2 * t) * x i a) i j).
Proof.
  intros Ht. rewrite <- !exp_plus. f_equal.
  assert (E : gram D (fun i a => sqrt (2 * t) * x i a) i j = 2 * t * gram D x i j).
  { unfold gram, dot. rewrite <- bsum_scal. apply bsum_ext. intros a Ha.
    rewrite <- (sqrt_sqrt (2 * t)) at 3 by lra. ring. }
  rewrite E, sqd_gram. ring.
Qed.
Lemma gauss_psd n D x t : 0 <= t -> psd n (fun i j => exp (- (t * sqd D x i j))).
Proof.
  intros Ht c. rewrite (qf_ext n c c _ (fun i j => exp (- (t * dot D (x i) (x i))) * exp (- (t * dot D (x j) (x j))) * exp (gram D (fun i a => sqrt (2 * t) * x i a) i j)))
    by (intros; auto; apply gauss_rescale; assumption).
  rewrite (qf_rescale n c (fun i => exp (- (t * dot D (x i) (x i))))). apply exp_gram_psd.
Qed.
Lemma gauss_pd n D x t : 0 < t -> separated n D x -> pd n (fun i j => exp (- (t * sqd D x i j))).
Proof.
  intros Ht Hd c Hc i Hi.
  rewrite (qf_ext n c c _ (fun i j => exp (- (t * dot D (x i) (x i))) * exp (- (t * dot D (x j) (x j))) * exp (gram D (fun i a => sqrt (2 * t) * x i a) i j))) in Hc
    by (intros; auto; apply gauss_rescale; lra).
  rewrite (qf_rescale n c (fun i => exp (- (t * dot D (x i) (x i))))) in Hc.
  assert (Hs : separated n D (fun i a => sqrt (2 * t) * x i a)).
  { intros j k Hj Hk Hne. destruct (Hd j k Hj Hk Hne) as (a & Ha & Hx). exists a. split; [exact Ha|].
    assert (0 < sqrt (2 * t)) by (apply sqrt_lt_R0; lra). intros E. apply Hx. nra. }
  pose proof (exp_gram_pd n D (fun i a => sqrt (2 * t) * x i a) Hs _ Hc i Hi) as H. cbv beta in H.
  pose proof (exp_pos (- (t * dot D (x i) (x i)))). nra.
Qed.
(** 1 - K for a positive definite K *)
Lemma one_minus_cnd n K : psd n K -> cond_neg_def n (fun i j => 1 - K i j).
Proof.
  intros HK c Hc. change (qf n c (fun i j => 1 - K i j) <= 0).
  rewrite (qf_ext n c c _ (fun i j => (fun _ _ => 1) i j + (-1) * K i j)) by (intros; auto; ring).
  rewrite (qf_plus n c (fun _ _ => 1)), qf_scal, qf_const, Hc. specialize (HK c). lra.
Qed.
Lemma one_minus_scnd n K : pd n K -> scnd n (fun i j => 1 - K i j).
Proof.
  intros HK c Hc Hq i Hi. apply (HK c); [|exact Hi].
  rewrite (qf_ext n c c _ (fun i j => (fun _ _ => 1) i j + (-1) * K i j)) in Hq by (intros; auto; ring).
  rewrite (qf_plus n c (fun _ _ => 1)), qf_scal, qf_const, Hc in Hq. lra.
Qed.
