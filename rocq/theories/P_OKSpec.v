(** PROOFS about the kriging equations themselves (S_Kriging), no model code. *)
From Verif Require Import Base Sums Matrix S_Kriging.

Lemma est_constant n G g c v s : OK_estimate n G g (fun _ => c) v s -> v = c.
Proof.
  intros (w & mu & [_ H] & -> & _).
  rewrite (bsum_scal_r n c w), H. ring.
Qed.

Lemma est_affine n G g z a c v s : OK_estimate n G g z v s ->
  OK_estimate n G g (fun i => a * z i + c) (a * v + c) s.
Proof.
  intros (w & mu & [H1 H] & -> & ->). exists w, mu. split; [split; assumption|]. split; [|reflexivity].
  rewrite (bsum_ext n (fun i => w i * (a * z i + c)) (fun i => a * (w i * z i) + w i * c)) by (intros; ring).
  rewrite bsum_plus, bsum_scal, bsum_scal_r, H. ring.
Qed.

Lemma est_additive n G g z1 z2 v1 s1 v2 s2 : OK_regular n G ->
  OK_estimate n G g z1 v1 s1 -> OK_estimate n G g z2 v2 s2 ->
  OK_estimate n G g (fun i => z1 i + z2 i) (v1 + v2) s1.
Proof.
  intros HR (w1 & m1 & S1 & -> & ->) (w2 & m2 & S2 & -> & ->).
  destruct (HR g) as (w & m & _ & U). destruct (U _ _ S1) as [E1 ->], (U _ _ S2) as [E2 ->].
  exists w1, m. split; [exact S1|]. split; [|reflexivity].
  rewrite <- bsum_plus. apply bsum_ext; intros i Hi. rewrite E1, E2 by assumption. ring.
Qed.

Lemma unit_solution n G k : (k < n)%nat ->
  OK_system n G (fun i => G i k) (fun i => if Nat.eqb i k then 1 else 0) 0.
Proof.
  intros Hk. split.
  - intros i Hi. rewrite (bsum_delta n k (fun j => G i j) Hk). ring.
  - rewrite (bsum_ext n _ (fun i => (if Nat.eqb i k then 1 else 0) * 1)) by (intros; ring).
    apply (bsum_delta n k (fun _ => 1) Hk).
Qed.

Lemma OK_system_ext n G G' g g' w mu :
  (forall i j, (i < n)%nat -> (j < n)%nat -> G i j = G' i j) -> veq n g g' ->
  OK_system n G g w mu -> OK_system n G' g' w mu.
Proof.
  intros HG Hg [H1 H2]; split; [|exact H2]. intros i Hi. rewrite <- Hg by assumption.
  rewrite <- H1 by assumption. f_equal. apply bsum_ext; intros j Hj. rewrite HG by assumption. reflexivity.
Qed.

Lemma OK_estimate_ext n G G' g g' z z' v s :
  (forall i j, (i < n)%nat -> (j < n)%nat -> G i j = G' i j) -> veq n g g' -> veq n z z' ->
  OK_estimate n G g z v s -> OK_estimate n G' g' z' v s.
Proof.
  intros HG Hg Hz (w & mu & HS & -> & ->). exists w, mu.
  split; [apply (OK_system_ext n G G' g g'); assumption|].
  split; [|f_equal]; apply bsum_ext; intros i Hi; [rewrite Hz|rewrite Hg]; auto.
Qed.

Lemma regular_unique' n G g z v1 s1 v2 s2 : OK_regular n G ->
  OK_estimate n G g z v1 s1 -> OK_estimate n G g z v2 s2 -> v1 = v2 /\ s1 = s2.
Proof.
  intros HR (w1 & m1 & S1 & -> & ->) (w2 & m2 & S2 & -> & ->).
  destruct (HR g) as (w & m & _ & U). destruct (U _ _ S1) as [E1 ->], (U _ _ S2) as [E2 ->].
  split; [|f_equal]; apply bsum_ext; intros i Hi; rewrite E1, E2 by assumption; reflexivity.
Qed.

Lemma est_exact n G g z k v s : OK_regular n G -> (k < n)%nat -> G k k = 0 ->
  veq n g (fun i => G i k) -> OK_estimate n G g z v s -> v = z k /\ s = 0.
Proof.
  intros HR Hk Hkk Hg He.
  apply (regular_unique' n G g z); [exact HR|exact He|].
  exists (fun i => if Nat.eqb i k then 1 else 0), 0. split; [|split].
  - apply (OK_system_ext n G G (fun i => G i k)); [reflexivity|intros i Hi; symmetry; apply Hg, Hi|].
    apply unit_solution, Hk.
  - symmetry. apply (bsum_delta n k z Hk).
  - rewrite (bsum_delta n k g Hk), Hg, Hkk by assumption. ring.
Qed.

(** Optimality. *)
Lemma est_variance_value n G g z v s : OK_estimate n G g z v s ->
  exists w, bsum n w = 1 /\ v = bsum n (fun i => w i * z i) /\ s = est_variance n G g w.
Proof.
  intros (w & mu & [H1 H] & -> & ->). exists w. split; [exact H|]. split; [reflexivity|].
  unfold est_variance.
  assert (E : bsum n (fun i => bsum n (fun j => w i * w j * G i j)) = bsum n (fun i => w i * g i) - mu).
  { rewrite (bsum_ext n _ (fun i => w i * g i - mu * w i)).
    - rewrite bsum_minus, bsum_scal, H. ring.
    - intros i Hi. rewrite <- H1 by assumption.
      transitivity (w i * bsum n (fun j => w j * G i j)); [|ring].
      rewrite <- bsum_scal. apply bsum_ext; intros; ring. }
  rewrite E. ring.
Qed.

Lemma quad_expand n G (u d : vec) :
  (forall i j, (i < n)%nat -> (j < n)%nat -> G i j = G j i) ->
  bsum n (fun i => bsum n (fun j => (u i + d i) * (u j + d j) * G i j)) =
  bsum n (fun i => bsum n (fun j => u i * u j * G i j))
  + 2 * bsum n (fun i => d i * bsum n (fun j => u j * G i j))
  + bsum n (fun i => bsum n (fun j => d i * d j * G i j)).
Proof.
  intros HG.
  rewrite (bsum_ext n (fun i => bsum n (fun j => (u i + d i) * (u j + d j) * G i j))
     (fun i => bsum n (fun j => u i * u j * G i j) + bsum n (fun j => u i * d j * G i j)
             + bsum n (fun j => d i * u j * G i j) + bsum n (fun j => d i * d j * G i j))).
  2:{ intros i Hi. rewrite <- !bsum_plus. apply bsum_ext; intros; ring. }
  rewrite !bsum_plus.
  assert (E1 : bsum n (fun i => bsum n (fun j => d i * u j * G i j)) = bsum n (fun i => d i * bsum n (fun j => u j * G i j))).
  { apply bsum_ext; intros i Hi. rewrite <- bsum_scal. apply bsum_ext; intros; ring. }
  assert (E2 : bsum n (fun i => bsum n (fun j => u i * d j * G i j)) = bsum n (fun i => d i * bsum n (fun j => u j * G i j))).
  { rewrite bsum_swap. apply bsum_ext; intros i Hi. rewrite <- bsum_scal. apply bsum_ext; intros j Hj.
    rewrite (HG j i) by assumption. ring. }
  rewrite E1, E2. ring.
Qed.

Lemma est_optimal n G g z v s :
  (forall i j, (i < n)%nat -> (j < n)%nat -> G i j = G j i) ->
  cond_neg_def n G -> OK_estimate n G g z v s ->
  exists w, bsum n w = 1 /\ v = bsum n (fun i => w i * z i) /\ s = est_variance n G g w /\
    forall w', bsum n w' = 1 -> s <= est_variance n G g w'.
Proof.
  intros HG HC (w & mu & [H1 H] & Hv & Hs).
  destruct (est_variance_value n G g z v s) as (w2 & _ & _ & _).
  { exists w, mu. repeat split; assumption. }
  exists w. split; [exact H|]. split; [exact Hv|].
  assert (Es : s = est_variance n G g w).
  { rewrite Hs. unfold est_variance.
    assert (E : bsum n (fun i => bsum n (fun j => w i * w j * G i j)) = bsum n (fun i => w i * g i) - mu).
    { rewrite (bsum_ext n _ (fun i => w i * g i - mu * w i)).
      - rewrite bsum_minus, bsum_scal, H. ring.
      - intros i Hi. rewrite <- H1 by assumption.
        transitivity (w i * bsum n (fun j => w j * G i j)); [|ring].
        rewrite <- bsum_scal. apply bsum_ext; intros; ring. }
    rewrite E. ring. }
  split; [exact Es|]. intros w' Hw'.
  rewrite Es. unfold est_variance.
  set (d := fun i => w' i - w i).
  assert (Hd : bsum n d = 0) by (unfold d; rewrite bsum_minus, Hw', H; ring).
  rewrite (bsum_ext n (fun i => w' i * g i) (fun i => w i * g i + d i * g i)) by (intros; unfold d; ring).
  rewrite bsum_plus.
  rewrite (bsum_ext n (fun i => bsum n (fun j => w' i * w' j * G i j))
     (fun i => bsum n (fun j => (w i + d i) * (w j + d j) * G i j)))
    by (intros; apply bsum_ext; intros; unfold d; ring).
  rewrite quad_expand by assumption.
  assert (E : bsum n (fun i => d i * g i) = bsum n (fun i => d i * bsum n (fun j => w j * G i j))).
  { rewrite (bsum_ext n (fun i => d i * g i) (fun i => d i * bsum n (fun j => w j * G i j) + d i * mu)).
    - rewrite bsum_plus, bsum_scal_r, Hd. ring.
    - intros i Hi. rewrite <- H1 by assumption. ring. }
  rewrite E. specialize (HC d Hd). lra.
Qed.

Lemma est_nonneg n G g z v s : cond_neg_def_with n G g -> OK_estimate n G g z v s -> 0 <= s.
Proof.
  intros HC He. destruct (est_variance_value n G g z v s He) as (w & Hw & _ & ->).
  specialize (HC w (-1) ltac:(lra)). unfold est_variance. lra.
Qed.

(** data + query CND implies data CND *)
Lemma cnd_with_cnd n G g : cond_neg_def_with n G g -> cond_neg_def n G.
Proof. intros H c Hc. specialize (H c 0 ltac:(lra)). lra. Qed.

(** Permuting the data. *)
Lemma est_perm n p G g z v s : perm_on n p ->
  OK_estimate n G g z v s ->
  OK_estimate n (permm p G) (fun i => g (p i)) (fun i => z (p i)) v s.
Proof.
  intros Hp (w & mu & [H1 H2] & -> & ->).
  exists (fun i => w (p i)), mu. split; [split|split].
  - intros i Hi. unfold permm. rewrite (bsum_perm n p (fun j => w j * G (p i) j) Hp).
    apply H1. apply Hp, Hi.
  - rewrite (bsum_perm n p w Hp). exact H2.
  - symmetry. apply (bsum_perm n p (fun i => w i * z i) Hp).
  - f_equal. symmetry. apply (bsum_perm n p (fun i => w i * g i) Hp).
Qed.
