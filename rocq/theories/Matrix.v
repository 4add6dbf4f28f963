(** Square matrices as functions, with explicit size.  Library file. *)
From Verif Require Import Base Sums.

Definition vec := nat -> R.
Definition mat := nat -> nat -> R.

Definition mulv (n : nat) (A : mat) (x : vec) : vec :=
  fun i => bsum n (fun j => A i j * x j).
Definition mulm (n : nat) (A B : mat) : mat :=
  fun i j => bsum n (fun k => A i k * B k j).
Definition dot (n : nat) (x y : vec) : R := bsum n (fun i => x i * y i).
Definition idm : mat := fun i j => if Nat.eqb i j then 1 else 0.
Definition trm (A : mat) : mat := fun i j => A j i.

(** Equality of matrices / vectors on their index range. *)
Definition meq (n : nat) (A B : mat) : Prop :=
  forall i j, (i < n)%nat -> (j < n)%nat -> A i j = B i j.
Definition veq (n : nat) (x y : vec) : Prop := forall i, (i < n)%nat -> x i = y i.

(** B is the two-sided inverse of A. *)
Definition is_inverse (n : nat) (A B : mat) : Prop :=
  meq n (mulm n A B) idm /\ meq n (mulm n B A) idm.

Definition nonsingular (n : nat) (A : mat) : Prop := exists B, is_inverse n A B.

(** The four Penrose equations: P is the Moore-Penrose pseudo-inverse of A. *)
Definition is_pinv (n : nat) (A P : mat) : Prop :=
  meq n (mulm n A (mulm n P A)) A /\
  meq n (mulm n P (mulm n A P)) P /\
  meq n (trm (mulm n A P)) (mulm n A P) /\
  meq n (trm (mulm n P A)) (mulm n P A).

Definition symmetric (n : nat) (A : mat) : Prop := meq n (trm A) A.

Lemma meq_refl n A : meq n A A. Proof. intros i j _ _; reflexivity. Qed.
Lemma meq_sym n A B : meq n A B -> meq n B A.
Proof. intros H i j Hi Hj; symmetry; apply H; assumption. Qed.
Lemma meq_trans n A B C : meq n A B -> meq n B C -> meq n A C.
Proof. intros H1 H2 i j Hi Hj; rewrite H1, H2 by assumption; reflexivity. Qed.

Lemma mulm_ext n A A' B B' : meq n A A' -> meq n B B' -> meq n (mulm n A B) (mulm n A' B').
Proof.
  intros HA HB i j Hi Hj. apply bsum_ext; intros k Hk. rewrite HA, HB by assumption. reflexivity.
Qed.

Lemma mulm_assoc n A B C : meq n (mulm n (mulm n A B) C) (mulm n A (mulm n B C)).
Proof.
  intros i j Hi Hj. unfold mulm.
  rewrite (bsum_ext n _ (fun k => bsum n (fun l => A i l * B l k * C k j))).
  2:{ intros; rewrite <- bsum_scal_r; reflexivity. }
  rewrite bsum_swap. apply bsum_ext; intros l Hl.
  rewrite <- bsum_scal. apply bsum_ext; intros; ring.
Qed.

Lemma mulm_id_l n A : meq n (mulm n idm A) A.
Proof.
  intros i j Hi Hj. unfold mulm, idm.
  rewrite (bsum_ext n _ (fun k => (if Nat.eqb k i then 1 else 0) * A k j)).
  - apply (bsum_delta n i (fun k => A k j) Hi).
  - intros k _. rewrite Nat.eqb_sym. reflexivity.
Qed.

Lemma mulm_id_r n A : meq n (mulm n A idm) A.
Proof. intros i j Hi Hj. unfold mulm, idm. apply (bsum_delta_r n j (fun k => A i k) Hj). Qed.

Lemma trm_mulm n A B : meq n (trm (mulm n A B)) (mulm n (trm B) (trm A)).
Proof. intros i j _ _. unfold trm, mulm. apply bsum_ext; intros; ring. Qed.

Lemma mulv_ext n A B x y : meq n A B -> veq n x y -> veq n (mulv n A x) (mulv n B y).
Proof.
  intros HA Hx i Hi. apply bsum_ext; intros k Hk. rewrite HA, Hx by assumption; reflexivity.
Qed.

Lemma mulv_mulm n A B x : veq n (mulv n A (mulv n B x)) (mulv n (mulm n A B) x).
Proof.
  intros i Hi. unfold mulv, mulm.
  rewrite (bsum_ext n _ (fun j => bsum n (fun k => A i j * B j k * x k))).
  2:{ intros; rewrite <- bsum_scal. apply bsum_ext; intros; ring. }
  rewrite bsum_swap. apply bsum_ext; intros k Hk.
  rewrite <- bsum_scal_r. reflexivity.
Qed.

Lemma mulv_id n x : veq n (mulv n idm x) x.
Proof.
  intros i Hi. unfold mulv, idm.
  rewrite (bsum_ext n _ (fun k => (if Nat.eqb k i then 1 else 0) * x k)).
  - apply (bsum_delta n i x Hi).
  - intros k _. rewrite Nat.eqb_sym. reflexivity.
Qed.

(** Ainv b solves A x = b, and the solution is unique. *)
Lemma inverse_solves n A B b : is_inverse n A B -> veq n (mulv n A (mulv n B b)) b.
Proof.
  intros [H _] i Hi. rewrite mulv_mulm by assumption.
  rewrite <- (mulv_id n b i Hi). apply mulv_ext; [exact H|intros j _; reflexivity|exact Hi].
Qed.

Lemma inverse_unique_solution n A B x b :
  is_inverse n A B -> veq n (mulv n A x) b -> veq n x (mulv n B b).
Proof.
  intros [_ H] Hx i Hi.
  rewrite <- (mulv_id n x i Hi).
  transitivity (mulv n (mulm n B A) x i).
  - symmetry. apply mulv_ext; [exact H|intros j _; reflexivity|exact Hi].
  - rewrite <- mulv_mulm by assumption. apply mulv_ext; [apply meq_refl|exact Hx|exact Hi].
Qed.

Lemma inverse_unique n A B C : is_inverse n A B -> is_inverse n A C -> meq n B C.
Proof.
  intros [HAB HBA] [HAC HCA].
  apply meq_trans with (mulm n B idm); [apply meq_sym, mulm_id_r|].
  apply meq_trans with (mulm n B (mulm n A C)).
  { apply mulm_ext; [apply meq_refl|apply meq_sym, HAC]. }
  apply meq_trans with (mulm n (mulm n B A) C); [apply meq_sym, mulm_assoc|].
  apply meq_trans with (mulm n idm C); [apply mulm_ext; [exact HBA|apply meq_refl]|apply mulm_id_l].
Qed.

Lemma is_inverse_ext n A A' B B' : meq n A A' -> meq n B B' -> is_inverse n A B -> is_inverse n A' B'.
Proof.
  intros HA HB [H1 H2]; split.
  - apply meq_trans with (mulm n A B); [apply meq_sym, mulm_ext; assumption|exact H1].
  - apply meq_trans with (mulm n B A); [apply meq_sym, mulm_ext; assumption|exact H2].
Qed.

Lemma is_inverse_nonsingular_kernel n A B x :
  is_inverse n A B -> veq n (mulv n A x) (fun _ => 0) -> veq n x (fun _ => 0).
Proof.
  intros H Hx i Hi. rewrite (inverse_unique_solution n A B x (fun _ => 0) H Hx i Hi).
  unfold mulv. apply bsum_0; intros; ring.
Qed.

(** Two equal rows (and a symmetric matrix, or equal columns) exclude an inverse. *)
Lemma equal_rows_singular n A i j :
  (i < n)%nat -> (j < n)%nat -> i <> j ->
  (forall k, (k < n)%nat -> A i k = A j k) -> ~ nonsingular n A.
Proof.
  intros Hi Hj Hij Heq [B [HAB _]].
  assert (E : mulm n A B i i = mulm n A B j i).
  { apply bsum_ext; intros k Hk. rewrite Heq by assumption; reflexivity. }
  rewrite !HAB in E by assumption. unfold idm in E.
  rewrite Nat.eqb_refl in E. destruct (Nat.eqb_spec j i); [congruence|lra].
Qed.

Lemma symmetric_inverse n A B : symmetric n A -> is_inverse n A B -> symmetric n B.
Proof.
  intros HA [H1 H2]. apply (inverse_unique n A); [|split; assumption].
  split.
  - apply meq_trans with (mulm n (trm A) (trm B)).
    { apply mulm_ext; [apply meq_sym, HA|apply meq_refl]. }
    apply meq_trans with (trm (mulm n B A)); [apply meq_sym, trm_mulm|].
    intros i j Hi Hj. unfold trm. rewrite H2 by assumption.
    unfold idm. rewrite Nat.eqb_sym. reflexivity.
  - apply meq_trans with (mulm n (trm B) (trm A)).
    { apply mulm_ext; [apply meq_refl|apply meq_sym, HA]. }
    apply meq_trans with (trm (mulm n A B)); [apply meq_sym, trm_mulm|].
    intros i j Hi Hj. unfold trm. rewrite H1 by assumption.
    unfold idm. rewrite Nat.eqb_sym. reflexivity.
Qed.

(** Conjugation by a permutation. *)
Definition permm (s : nat -> nat) (A : mat) : mat := fun i j => A (s i) (s j).

Lemma mulm_perm n s A B : perm_on n s ->
  meq n (mulm n (permm s A) (permm s B)) (permm s (mulm n A B)).
Proof.
  intros Hs i j Hi Hj. unfold mulm, permm.
  apply (bsum_perm n s (fun k => A (s i) k * B k (s j)) Hs).
Qed.

Lemma is_inverse_perm n s A B : perm_on n s -> is_inverse n A B ->
  is_inverse n (permm s A) (permm s B).
Proof.
  intros Hs [H1 H2].
  assert (G : meq n (permm s idm) idm).
  { intros i j Hi Hj. unfold permm, idm.
    destruct (Nat.eqb_spec (s i) (s j)) as [E|E], (Nat.eqb_spec i j) as [E'|E']; try reflexivity.
    - apply Hs in E; [contradiction|assumption|assumption].
    - subst; contradiction. }
  destruct Hs as [Hb Hi']. split.
  - apply meq_trans with (permm s (mulm n A B)); [apply mulm_perm; split; assumption|].
    intros i j Hi Hj. rewrite <- G by assumption. unfold permm. apply H1; apply Hb; assumption.
  - apply meq_trans with (permm s (mulm n B A)); [apply mulm_perm; split; assumption|].
    intros i j Hi Hj. rewrite <- G by assumption. unfold permm. apply H2; apply Hb; assumption.
Qed.

Lemma is_pinv_perm n s A P : perm_on n s -> is_pinv n A P -> is_pinv n (permm s A) (permm s P).
Proof.
  intros Hs (H1 & H2 & H3 & H4). pose proof Hs as [Hb _].
  assert (HAP : meq n (mulm n (permm s A) (permm s P)) (permm s (mulm n A P))) by (apply mulm_perm, Hs).
  assert (HPA : meq n (mulm n (permm s P) (permm s A)) (permm s (mulm n P A))) by (apply mulm_perm, Hs).
  split; [|split; [|split]].
  - apply meq_trans with (mulm n (permm s A) (permm s (mulm n P A))).
    { apply mulm_ext; [apply meq_refl|exact HPA]. }
    apply meq_trans with (permm s (mulm n A (mulm n P A))); [apply mulm_perm, Hs|].
    intros i j Hi Hj. unfold permm. apply H1; apply Hb; assumption.
  - apply meq_trans with (mulm n (permm s P) (permm s (mulm n A P))).
    { apply mulm_ext; [apply meq_refl|exact HAP]. }
    apply meq_trans with (permm s (mulm n P (mulm n A P))); [apply mulm_perm, Hs|].
    intros i j Hi Hj. unfold permm. apply H2; apply Hb; assumption.
  - intros i j Hi Hj. unfold trm. rewrite !HAP by assumption. unfold permm.
    apply (H3 (s i) (s j)); apply Hb; assumption.
  - intros i j Hi Hj. unfold trm. rewrite !HPA by assumption. unfold permm.
    apply (H4 (s i) (s j)); apply Hb; assumption.
Qed.

(** Uniqueness of the Moore-Penrose inverse. *)
Lemma pinv_unique n A P Q : is_pinv n A P -> is_pinv n A Q -> meq n P Q.
Proof.
  intros (P1 & P2 & P3 & P4) (Q1 & Q2 & Q3 & Q4).
  (* AP = AQ *)
  assert (HAP : meq n (mulm n A P) (mulm n A Q)).
  { (* AP = (AP)^T = ((A Q A) P)^T = (AP)^T (AQ)^T = AP AQ = A Q *)
    assert (E1 : meq n (mulm n A P) (mulm n (mulm n A Q) (mulm n A P))).
    { apply meq_trans with (mulm n (mulm n A (mulm n Q A)) P).
      { apply mulm_ext; [apply meq_sym, Q1|apply meq_refl]. }
      apply meq_trans with (mulm n (mulm n (mulm n A Q) A) P).
      { apply mulm_ext; [apply meq_sym, mulm_assoc|apply meq_refl]. }
      apply mulm_assoc. }
    assert (E2 : meq n (mulm n A Q) (mulm n (mulm n A P) (mulm n A Q))).
    { apply meq_trans with (mulm n (mulm n A (mulm n P A)) Q).
      { apply mulm_ext; [apply meq_sym, P1|apply meq_refl]. }
      apply meq_trans with (mulm n (mulm n (mulm n A P) A) Q).
      { apply mulm_ext; [apply meq_sym, mulm_assoc|apply meq_refl]. }
      apply mulm_assoc. }
    intros i j Hi Hj.
    rewrite <- (P3 i j Hi Hj). unfold trm at 1.
    rewrite (E1 j i Hj Hi).
    change (trm (mulm n (mulm n A Q) (mulm n A P)) i j = mulm n A Q i j).
    rewrite (trm_mulm n _ _ i j Hi Hj).
    rewrite (mulm_ext n _ (mulm n A P) _ (mulm n A Q) P3 Q3 i j Hi Hj).
    symmetry. apply E2; assumption. }
  assert (HPA : meq n (mulm n P A) (mulm n Q A)).
  { assert (E1 : meq n (mulm n P A) (mulm n (mulm n P A) (mulm n Q A))).
    { apply meq_trans with (mulm n P (mulm n A (mulm n Q A))).
      { apply mulm_ext; [apply meq_refl|apply meq_sym, Q1]. }
      apply meq_sym, mulm_assoc. }
    assert (E2 : meq n (mulm n Q A) (mulm n (mulm n Q A) (mulm n P A))).
    { apply meq_trans with (mulm n Q (mulm n A (mulm n P A))).
      { apply mulm_ext; [apply meq_refl|apply meq_sym, P1]. }
      apply meq_sym, mulm_assoc. }
    intros i j Hi Hj.
    rewrite <- (P4 i j Hi Hj). unfold trm at 1.
    rewrite (E1 j i Hj Hi).
    change (trm (mulm n (mulm n P A) (mulm n Q A)) i j = mulm n Q A i j).
    rewrite (trm_mulm n _ _ i j Hi Hj).
    rewrite (mulm_ext n _ (mulm n Q A) _ (mulm n P A) Q4 P4 i j Hi Hj).
    symmetry. apply E2; assumption. }
  apply meq_trans with (mulm n P (mulm n A P)); [apply meq_sym, P2|].
  apply meq_trans with (mulm n P (mulm n A Q)); [apply mulm_ext; [apply meq_refl|exact HAP]|].
  apply meq_trans with (mulm n (mulm n P A) Q); [apply meq_sym, mulm_assoc|].
  apply meq_trans with (mulm n (mulm n Q A) Q); [apply mulm_ext; [exact HPA|apply meq_refl]|].
  apply meq_trans with (mulm n Q (mulm n A Q)); [apply mulm_assoc|exact Q2].
Qed.

Lemma inverse_is_pinv n A B : is_inverse n A B -> is_pinv n A B.
Proof.
  intros [H1 H2].
  assert (Sid : forall C, meq n C idm -> meq n (trm C) C).
  { intros C H i j Hi Hj. unfold trm. rewrite !H by assumption. unfold idm.
    rewrite Nat.eqb_sym; reflexivity. }
  split; [|split; [|split]].
  - apply meq_trans with (mulm n A idm); [apply mulm_ext; [apply meq_refl|exact H2]|apply mulm_id_r].
  - apply meq_trans with (mulm n B idm); [apply mulm_ext; [apply meq_refl|exact H1]|apply mulm_id_r].
  - apply Sid, H1.
  - apply Sid, H2.
Qed.

Lemma pinv_of_nonsingular n A B P : is_inverse n A B -> is_pinv n A P -> meq n P B.
Proof. intros HB HP. apply (pinv_unique n A); [exact HP|apply inverse_is_pinv, HB]. Qed.

Lemma dot_ext n x y x' y' : veq n x x' -> veq n y y' -> dot n x y = dot n x' y'.
Proof. intros H1 H2. apply bsum_ext; intros i Hi. rewrite H1, H2 by assumption; reflexivity. Qed.

Lemma is_pinv_ext n A A' P : meq n A A' -> is_pinv n A P -> is_pinv n A' P.
Proof.
  intros HA (H1 & H2 & H3 & H4).
  assert (HAP : meq n (mulm n A P) (mulm n A' P)) by (apply mulm_ext; [exact HA|apply meq_refl]).
  assert (HPA : meq n (mulm n P A) (mulm n P A')) by (apply mulm_ext; [apply meq_refl|exact HA]).
  split; [|split; [|split]].
  - apply meq_trans with A; [|exact HA].
    apply meq_trans with (mulm n A (mulm n P A)); [|exact H1].
    apply meq_sym. apply mulm_ext; assumption.
  - apply meq_trans with (mulm n P (mulm n A P)); [|exact H2].
    apply meq_sym. apply mulm_ext; [apply meq_refl|exact HAP].
  - intros i j Hi Hj. unfold trm. rewrite <- !HAP by assumption. apply (H3 i j Hi Hj).
  - intros i j Hi Hj. unfold trm. rewrite <- !HPA by assumption. apply (H4 i j Hi Hj).
Qed.
