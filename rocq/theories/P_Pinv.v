(** Every square real matrix has a Moore-Penrose pseudo-inverse.  Library file: this is what makes a
    singular-value decomposition that converges a consistent assumption. *)
From Coq Require Import Classical Setoid Morphisms.
From Verif Require Import Base Sums Matrix P_Cells P_Valid.

Section orthonormal.
Context (n : nat).

Definition orthonormal (m : nat) (v : nat -> vec) : Prop :=
  forall a b, (a < m)%nat -> (b < m)%nat -> dot n (v a) (v b) = if Nat.eqb a b then 1 else 0.

Definition proj (m : nat) (v : nat -> vec) (x : vec) : vec := fun i => bsum m (fun k => dot n (v k) x * v k i).

Lemma dot_comm x y : dot n x y = dot n y x.
Proof. apply bsum_ext; intros; ring. Qed.
Lemma dot_sub_r x y z : dot n x (fun i => y i - z i) = dot n x y - dot n x z.
Proof. unfold dot. rewrite <- bsum_minus. apply bsum_ext; intros; ring. Qed.
Lemma dot_sub_l x y z : dot n (fun i => y i - z i) x = dot n y x - dot n z x.
Proof. unfold dot. rewrite <- bsum_minus. apply bsum_ext; intros; ring. Qed.
Lemma dot_scal_r c x y : dot n x (fun i => c * y i) = c * dot n x y.
Proof. unfold dot. rewrite <- bsum_scal. apply bsum_ext; intros; ring. Qed.
Lemma dot_proj m v x y : dot n y (proj m v x) = bsum m (fun k => dot n (v k) x * dot n y (v k)).
Proof.
  unfold dot at 1, proj. rewrite (bsum_ext n _ (fun i => bsum m (fun k => dot n (v k) x * (y i * v k i)))).
  2:{ intros i _. rewrite <- bsum_scal. apply bsum_ext; intros; ring. }
  rewrite bsum_swap. apply bsum_ext; intros k _. rewrite bsum_scal. reflexivity.
Qed.
Lemma dot_self_nonneg x : 0 <= dot n x x.
Proof. apply bsum_nonneg; intros. apply Rle_0_sqr. Qed.
Lemma dot_self_zero x : dot n x x = 0 -> forall i, (i < n)%nat -> x i = 0.
Proof.
  intros H i Hi. apply Rsqr_0_uniq. change (Rsqr (x i)) with (x i * x i).
  refine (bsum_nonneg_zero n (fun k => x k * x k) _ H i Hi). intros; apply Rle_0_sqr.
Qed.

Context (m : nat) (v : nat -> vec) (HO : orthonormal m v).

Lemma residual_orthogonal x a : (a < m)%nat -> dot n (v a) (fun i => x i - proj m v x i) = 0.
Proof.
  intros Ha. rewrite dot_sub_r, dot_proj.
  rewrite (bsum_ext m _ (fun k => (if Nat.eqb k a then 1 else 0) * dot n (v k) x)).
  - rewrite (bsum_delta m a (fun k => dot n (v k) x) Ha). ring.
  - intros k Hk. rewrite HO by assumption. rewrite Nat.eqb_sym. ring.
Qed.

Lemma bessel x : bsum m (fun k => dot n (v k) x * dot n (v k) x) <= dot n x x.
Proof.
  set (r := fun i => x i - proj m v x i).
  assert (H : dot n r r = dot n x x - bsum m (fun k => dot n (v k) x * dot n (v k) x)).
  { unfold r at 2. rewrite dot_sub_r, dot_proj.
    rewrite (bsum_0 m (fun k => dot n (v k) x * dot n r (v k))).
    - rewrite Rminus_0_r. unfold r. rewrite dot_sub_l. f_equal. rewrite dot_comm, dot_proj.
      apply bsum_ext; intros. rewrite (dot_comm x). reflexivity.
    - intros k Hk. rewrite (dot_comm r). unfold r. rewrite residual_orthogonal by exact Hk. ring. }
  pose proof (dot_self_nonneg r). lra.
Qed.

Lemma orthonormal_count : (m <= n)%nat.
Proof.
  apply INR_le.
  assert (H : bsum n (fun i => bsum m (fun k => v k i * v k i)) = INR m).
  { rewrite bsum_swap. rewrite (bsum_ext m _ (fun _ => 1)).
    - rewrite bsum_const. ring.
    - intros k Hk. pose proof (HO k k Hk Hk) as HH. rewrite Nat.eqb_refl in HH. exact HH. }
  rewrite <- H. replace (INR n) with (bsum n (fun _ => 1)) by (rewrite bsum_const; ring).
  apply bsum_le; intros i Hi.
  pose proof (bessel (fun j => if Nat.eqb j i then 1 else 0)) as HB.
  assert (HD : forall k, dot n (v k) (fun j => if Nat.eqb j i then 1 else 0) = v k i).
  { intros k. unfold dot. rewrite (bsum_ext n _ (fun j => (if Nat.eqb j i then 1 else 0) * v k j)) by (intros; ring).
    apply (bsum_delta n i (v k) Hi). }
  assert (HE : dot n (fun j => if Nat.eqb j i then 1 else 0) (fun j => if Nat.eqb j i then 1 else 0) = 1).
  { unfold dot. rewrite (bsum_delta n i (fun j => if Nat.eqb j i then 1 else 0) Hi). rewrite Nat.eqb_refl. reflexivity. }
  rewrite HE in HB. refine (Rle_trans _ _ _ (Req_le _ _ _) HB). apply bsum_ext; intros. rewrite HD. reflexivity.
Qed.
End orthonormal.

Section kernel.
Context (n : nat) (A : mat).

Definition in_kernel (x : vec) : Prop := forall i, (i < n)%nat -> mulv n A x i = 0.

Lemma kernel_proj m v x : (forall k, (k < m)%nat -> in_kernel (v k)) -> in_kernel (proj n m v x).
Proof.
  intros H i Hi. unfold mulv, proj. rewrite (bsum_ext n _ (fun j => bsum m (fun k => dot n (v k) x * (A i j * v k j)))).
  2:{ intros j _. rewrite <- bsum_scal. apply bsum_ext; intros; ring. }
  rewrite bsum_swap. apply bsum_0; intros k Hk. rewrite bsum_scal. specialize (H k Hk i Hi). unfold mulv in H. rewrite H. ring.
Qed.

Lemma kernel_sub x y : in_kernel x -> in_kernel y -> in_kernel (fun i => x i - y i).
Proof.
  intros HX HY i Hi. specialize (HX i Hi). specialize (HY i Hi). unfold mulv in *.
  rewrite (bsum_ext n _ (fun j => A i j * x j - A i j * y j)) by (intros; ring). rewrite bsum_minus, HX, HY. ring.
Qed.
Lemma kernel_scal c x : in_kernel x -> in_kernel (fun i => c * x i).
Proof.
  intros HX i Hi. specialize (HX i Hi). unfold mulv in *.
  rewrite (bsum_ext n _ (fun j => c * (A i j * x j))) by (intros; ring). rewrite bsum_scal, HX. ring.
Qed.

Lemma kernel_basis_from d : forall m v, orthonormal n m v -> (forall k, (k < m)%nat -> in_kernel (v k)) -> (n <= m + d)%nat ->
  exists m' v', orthonormal n m' v' /\ (forall k, (k < m')%nat -> in_kernel (v' k)) /\
     forall x, in_kernel x -> veq n x (proj n m' v' x).
Proof.
  induction d as [|d IH]; intros m v HO HK Hd.
  all: destruct (classic (forall x, in_kernel x -> veq n x (proj n m v x))) as [H|H]; [exists m, v; tauto|].
  all: apply not_all_ex_not in H; destruct H as [x H]; apply imply_to_and in H; destruct H as [HX H].
  all: set (r := fun i => x i - proj n m v x i).
  all: assert (Hr : in_kernel r) by (apply kernel_sub; [exact HX|apply kernel_proj, HK]).
  all: assert (Hrr : 0 < dot n r r) by
    (destruct (dot_self_nonneg n r) as [|HZ]; [assumption|]; exfalso; apply H; intros i Hi;
     pose proof (dot_self_zero n r (eq_sym HZ) i Hi) as Hz; unfold r in Hz; lra).
  all: set (c := / sqrt (dot n r r)).
  all: set (v' := fun k => if Nat.eqb k m then (fun i => c * r i) else v k).
  all: assert (HO' : orthonormal n (S m) v').
  1,3: intros a b Ha Hb; unfold v'; destruct (Nat.eqb_spec a m) as [->|Ham]; destruct (Nat.eqb_spec b m) as [->|Hbm].
  1,5: rewrite Nat.eqb_refl, dot_scal_r, dot_comm, dot_scal_r; unfold c;
       pose proof (sqrt_lt_R0 _ Hrr); rewrite <- (sqrt_sqrt (dot n r r)) at 3 by lra; field; lra.
  1,4: rewrite dot_comm, dot_scal_r; unfold r; rewrite residual_orthogonal by (try exact HO; lia);
       destruct (Nat.eqb_spec m b); [lia|ring].
  1,3: rewrite dot_scal_r; unfold r; rewrite residual_orthogonal by (try exact HO; lia);
       destruct (Nat.eqb_spec a m); [lia|ring].
  1,2: apply HO; lia.
  - pose proof (orthonormal_count n (S m) v' HO'). lia.
  - apply (IH (S m) v' HO'); [|lia]. intros k Hk. unfold v'. destruct (Nat.eqb_spec k m); [apply kernel_scal, Hr|apply HK; lia].
Qed.

Lemma kernel_basis : exists m v, orthonormal n m v /\ (forall k, (k < m)%nat -> in_kernel (v k)) /\
     forall x, in_kernel x -> veq n x (proj n m v x).
Proof.
  apply (kernel_basis_from n 0 (fun _ _ => 0)); [intros a b Ha; lia|intros k Hk; lia|lia].
Qed.
End kernel.

#[local] Instance meq_equiv n : Equivalence (meq n).
Proof. split; [exact (meq_refl n)|exact (meq_sym n)|exact (meq_trans n)]. Qed.
#[local] Instance mulm_proper n : Proper (meq n ==> meq n ==> meq n) (mulm n).
Proof. intros A A' HA B B' HB. apply mulm_ext; assumption. Qed.
#[local] Instance trm_proper n : Proper (meq n ==> meq n) trm.
Proof. intros A A' HA i j Hi Hj. apply HA; assumption. Qed.

Definition subm (A B : mat) : mat := fun i j => A i j - B i j.
#[local] Instance subm_proper n : Proper (meq n ==> meq n ==> meq n) subm.
Proof. intros A A' HA B B' HB i j Hi Hj. unfold subm. rewrite HA, HB by assumption. reflexivity. Qed.
Lemma mulm_sub_r n A B C : meq n (mulm n A (subm B C)) (subm (mulm n A B) (mulm n A C)).
Proof. intros i j _ _. unfold mulm, subm. rewrite <- bsum_minus. apply bsum_ext; intros; ring. Qed.
Lemma mulm_sub_l n A B C : meq n (mulm n (subm B C) A) (subm (mulm n B A) (mulm n C A)).
Proof. intros i j _ _. unfold mulm, subm. rewrite <- bsum_minus. apply bsum_ext; intros; ring. Qed.

Theorem pinv_exists n A : exists P, is_pinv n A P.
Proof.
  destruct (kernel_basis n A) as (m & v & HO & HK & HB).
  set (Z := fun (_ _ : nat) => 0).
  set (Q := fun i j => bsum m (fun k => v k i * v k j)).
  set (M := mulm n (trm A) A). set (K := fun i j => M i j + Q i j).
  assert (HQv : forall x i, mulv n Q x i = proj n m v x i).
  { intros x i. unfold mulv, Q, proj, dot. rewrite (bsum_ext n _ (fun j => bsum m (fun k => v k i * (v k j * x j)))).
    2:{ intros j _. rewrite <- bsum_scal_r. apply bsum_ext; intros; ring. }
    rewrite bsum_swap. apply bsum_ext; intros k _. rewrite bsum_scal. ring. }
  assert (HAQ : meq n (mulm n A Q) Z).
  { intros i j Hi Hj. unfold mulm, Q, Z. rewrite (bsum_ext n _ (fun l => bsum m (fun k => v k j * (A i l * v k l)))).
    2:{ intros l _. rewrite <- bsum_scal. apply bsum_ext; intros; ring. }
    rewrite bsum_swap. apply bsum_0; intros k Hk. rewrite bsum_scal. pose proof (HK k Hk i Hi) as HH. unfold mulv in HH. rewrite HH. ring. }
  assert (HQs : meq n (trm Q) Q) by (intros i j _ _; unfold trm, Q; apply bsum_ext; intros; ring).
  assert (HQQ : meq n (mulm n Q Q) Q).
  { intros i j Hi Hj. pose proof (HB (fun l => Q l j)) as HH. change (mulm n Q Q i j) with (mulv n Q (fun l => Q l j) i).
    rewrite HQv. symmetry. apply HH; [|exact Hi]. intros l Hl. exact (HAQ l j Hl Hj). }
  assert (HMs : meq n (trm M) M) by (intros i j _ _; unfold trm, M, mulm, trm; apply bsum_ext; intros; ring).
  assert (HKs : symmetric n K).
  { intros i j Hi Hj. unfold trm, K. pose proof (HMs i j Hi Hj) as H1. pose proof (HQs i j Hi Hj) as H2. unfold trm in H1, H2. rewrite H1, H2. reflexivity. }
  assert (Hinj : forall x, (forall i, (i < n)%nat -> mulv n K x i = 0) -> forall i, (i < n)%nat -> x i = 0).
  { intros x Hx.
    assert (HS : dot n (mulv n A x) (mulv n A x) + bsum m (fun k => dot n (v k) x * dot n (v k) x) = 0).
    { assert (H0 : dot n x (mulv n K x) = 0) by (apply bsum_0; intros i Hi; rewrite Hx by exact Hi; ring).
      assert (H1 : dot n x (mulv n K x) = dot n x (mulv n M x) + dot n x (proj n m v x)).
      { unfold dot. rewrite <- bsum_plus. apply bsum_ext; intros i Hi. rewrite <- HQv. unfold K, mulv.
        rewrite <- Rmult_plus_distr_l, <- bsum_plus. f_equal. apply bsum_ext; intros; ring. }
      rewrite dot_proj in H1. rewrite H0 in H1. symmetry. rewrite H1. f_equal.
      - unfold dot. rewrite (bsum_ext n _ (fun i => x i * mulv n (trm A) (mulv n A x) i)).
        2:{ intros i Hi. unfold M. rewrite <- (mulv_mulm n (trm A) A x i Hi). reflexivity. }
        unfold mulv at 1. unfold trm. rewrite (bsum_ext n _ (fun i => bsum n (fun j => mulv n A x j * (A j i * x i)))).
        2:{ intros i _. rewrite <- bsum_scal. apply bsum_ext; intros; ring. }
        rewrite bsum_swap. apply bsum_ext; intros j _. rewrite bsum_scal. reflexivity.
      - apply bsum_ext; intros. rewrite (dot_comm n x). reflexivity. }
    assert (HS2 : 0 <= bsum m (fun k => dot n (v k) x * dot n (v k) x)) by (apply bsum_nonneg; intros; apply Rle_0_sqr).
    pose proof (dot_self_nonneg n (mulv n A x)) as HS1.
    assert (HKx : in_kernel n A x) by (intros i Hi; apply (dot_self_zero n (mulv n A x)); [lra|exact Hi]).
    assert (Hc : forall k, (k < m)%nat -> dot n (v k) x = 0).
    { intros k Hk. apply Rsqr_0_uniq. change (Rsqr (dot n (v k) x)) with (dot n (v k) x * dot n (v k) x).
      refine (bsum_nonneg_zero m (fun k => dot n (v k) x * dot n (v k) x) _ _ k Hk); [intros; apply Rle_0_sqr|lra]. }
    intros i Hi. rewrite (HB x HKx i Hi). apply bsum_0; intros k Hk. rewrite Hc by exact Hk. ring. }
  assert (HN : nonsingular n K).
  { apply solvable_nonsingular.
    - intros b. destruct (injective_surjective n K Hinj b) as [x Hx]. exists x. exact Hx.
    - intros x Hx i Hi. apply (Hinj x); [intros k Hk; apply Hx, Hk|exact Hi]. }
  destruct HN as [C HC]. pose proof (symmetric_inverse n K C HKs HC) as HCs. destruct HC as [HKC HCK]. unfold symmetric in HCs, HKs.
  assert (HMQ : meq n (mulm n M Q) Z).
  { unfold M. rewrite mulm_assoc, HAQ. intros i j _ _. unfold mulm, Z. apply bsum_0; intros; ring. }
  assert (HKQ : meq n (mulm n K Q) Q).
  { intros i j Hi Hj. rewrite <- (HQQ i j Hi Hj). pose proof (HMQ i j Hi Hj) as HH. unfold mulm, Z, K in *.
    rewrite (bsum_ext n _ (fun k => M i k * Q k j + Q i k * Q k j)) by (intros; ring). rewrite bsum_plus, HH. ring. }
  assert (HCQ : meq n (mulm n C Q) Q).
  { rewrite <- HKQ at 1. rewrite <- mulm_assoc, HCK. apply mulm_id_l. }
  assert (HM : meq n M (subm K Q)) by (intros i j _ _; unfold subm, K; ring).
  assert (HCM : meq n (mulm n C M) (subm idm Q)).
  { rewrite HM, mulm_sub_r, HCK, HCQ. reflexivity. }
  assert (HQC : meq n (mulm n Q C) Q).
  { rewrite <- HQs at 1. rewrite <- HCs at 1. rewrite <- trm_mulm, HCQ. exact HQs. }
  assert (HQA : meq n (mulm n Q (trm A)) Z).
  { rewrite <- HQs at 1. rewrite <- trm_mulm, HAQ. intros i j _ _. reflexivity. }
  assert (HPA : meq n (mulm n (mulm n C (trm A)) A) (subm idm Q)) by (rewrite mulm_assoc; exact HCM).
  assert (Hsz : forall X, meq n (subm X Z) X) by (intros X i j _ _; unfold subm, Z; ring).
  exists (mulm n C (trm A)). repeat split.
  - rewrite HPA, mulm_sub_r, HAQ, mulm_id_r. apply Hsz.
  - rewrite <- mulm_assoc, HPA, mulm_sub_l, mulm_id_l, <- (mulm_assoc n Q), HQC, HQA. apply Hsz.
  - rewrite trm_mulm, trm_mulm. change (trm (trm A)) with A. rewrite HCs, mulm_assoc. reflexivity.
  - rewrite HPA. intros i j Hi Hj. unfold trm, subm, idm. pose proof (HQs i j Hi Hj) as HH. unfold trm in HH. rewrite HH, Nat.eqb_sym. reflexivity.
Qed.
