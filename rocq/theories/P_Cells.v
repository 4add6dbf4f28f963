(** Proofs: cells of a result are ordinary kriging estimates. *)
From Coq Require Import String.
From Verif Require Import Base Sums Matrix M_Variogram M_Geometry S_Geometry P_Geometry M_Kriging S_Kriging
  P_Kriging P_OKSpec M_Init M_Object M_Execute S_Execute P_Object P_Execute.

(** pseudo-inverse of a consistent system is a solution *)
Lemma pinv_solves n A P b x0 : is_pinv n A P -> veq n (mulv n A x0) b ->
  veq n (mulv n A (mulv n P b)) b.
Proof.
  intros (H1 & _) Hx i Hi.
  rewrite <- (Hx i Hi).
  rewrite (mulv_ext_r n A (mulv n P b) (mulv n P (mulv n A x0))).
  2:{ intros j Hj. apply mulv_ext_r. intros k Hk. symmetry. apply Hx, Hk. }
  rewrite (mulv_ext_r n A _ (mulv n (mulm n P A) x0)).
  2:{ intros j Hj. apply mulv_mulm. exact Hj. }
  rewrite (mulv_mulm n A (mulm n P A) x0 i Hi).
  apply (mulv_ext n _ A x0 x0 H1); [intros k _; reflexivity|exact Hi].
Qed.

(** finite choice *)
Lemma finite_choice {A} (P : nat -> A -> Prop) (d : A) n :
  (forall i, (i < n)%nat -> exists a, P i a) -> exists f, forall i, (i < n)%nat -> P i (f i).
Proof.
  induction n as [|n IH]; intros H; [exists (fun _ => d); intros; lia|].
  destruct IH as [f Hf]; [intros; apply H; lia|]. destruct (H n ltac:(lia)) as [a Ha].
  exists (fun i => if Nat.eqb i n then a else f i). intros i Hi.
  destruct (Nat.eqb_spec i n) as [->|]; [exact Ha|apply Hf; lia].
Qed.

(** every rhs uniquely solvable -> nonsingular *)
Lemma solvable_nonsingular n A :
  (forall b, exists x, veq n (mulv n A x) b) ->
  (forall x, veq n (mulv n A x) (fun _ => 0) -> veq n x (fun _ => 0)) -> nonsingular n A.
Proof.
  intros HS HU.
  destruct (finite_choice (fun j (x : vec) => veq n (mulv n A x) (fun i => idm i j)) (fun _ => 0) n) as [B HB].
  { intros j _. apply HS. }
  exists (trm B). unfold trm.
  assert (R : meq n (mulm n A (fun i j => B j i)) idm).
  { intros i j Hi Hj. apply (HB j Hj i Hi). }
  split; [exact R|].
  intros i j Hi Hj.
  enough (HZ : veq n (fun i => mulm n (fun i j => B j i) A i j - idm i j) (fun _ => 0)).
  { specialize (HZ i Hi). cbn in HZ. lra. }
  apply HU. intros k Hk. unfold mulv.
  rewrite (bsum_ext n _ (fun m => A k m * mulm n (fun i j => B j i) A m j - A k m * idm m j)) by (intros; ring).
  rewrite bsum_minus.
  pose proof (mulm_assoc n A (fun i j => B j i) A k j Hk Hj) as HA.
  change (bsum n (fun i0 => A k i0 * mulm n (fun i1 j0 => B j0 i1) A i0 j)) with (mulm n A (mulm n (fun i j => B j i) A) k j).
  rewrite <- HA.
  rewrite (mulm_ext n _ idm A A R (meq_refl n A) k j Hk Hj).
  rewrite (mulm_id_l n A k j Hk Hj).
  change (bsum n (fun i0 => A k i0 * idm i0 j)) with (mulm n A idm k j).
  rewrite (mulm_id_r n A k j Hk Hj). ring.
Qed.

Lemma regular_nonsingular n vg d : OK_regular n (data_semivariance vg d) -> nonsingular (n + 1) (kriging_matrix n vg d).
Proof.
  intros HR. apply solvable_nonsingular.
  - (* solution for sum 1 with g := -b, plus (b n - 1) times (sol - ...) *)
    intros b.
    destruct (HR (fun i => - b i)) as (w & mu & [H1 H2] & _).
    destruct (HR (fun i => 0)) as (w0 & mu0 & [H3 H4] & _).
    set (t := b n - 1).
    exists (fun k => if Nat.eqb k n then - (mu + t * mu0) else w k + t * w0 k).
    assert (E : forall f, bsum n (fun j => (if Nat.eqb j n then - (mu + t * mu0) else w j + t * w0 j) * f j)
              = bsum n (fun j => w j * f j) + t * bsum n (fun j => w0 j * f j)).
    { intros f. rewrite <- bsum_scal, <- bsum_plus. apply bsum_ext; intros j Hj.
      destruct (Nat.eqb_spec j n); [lia|ring]. }
    intros i Hi. destruct (Nat.eq_dec i n) as [->|Hne].
    + rewrite km_mulv_last.
      rewrite (bsum_ext n _ (fun j => (if Nat.eqb j n then - (mu + t * mu0) else w j + t * w0 j) * 1)) by (intros; ring).
      rewrite E, !bsum_scal_r, H2, H4. unfold t. ring.
    + rewrite km_mulv by lia. rewrite Nat.eqb_refl.
      rewrite E.
      specialize (H1 i ltac:(lia)). specialize (H3 i ltac:(lia)). cbn in H1, H3.
      assert (bsum n (fun j => w j * data_semivariance vg d i j) = - b i - mu) by lra.
      assert (bsum n (fun j => w0 j * data_semivariance vg d i j) = - mu0) by lra.
      rewrite H, H0. ring.
  - intros x Hx.
    destruct (HR (fun _ => 0)) as (w & mu & [H1 H2] & U).
    destruct (U (fun i => w i + x i) (mu - x n)) as [Uw Um].
    { split.
      - intros i Hi. specialize (Hx i ltac:(lia)). cbn in Hx. rewrite km_mulv in Hx by lia.
        rewrite (bsum_ext n _ (fun j => w j * data_semivariance vg d i j + x j * data_semivariance vg d i j)) by (intros; ring).
        rewrite bsum_plus. specialize (H1 i Hi). cbn in H1. lra.
      - rewrite bsum_plus, H2. specialize (Hx n ltac:(lia)). cbn in Hx. rewrite km_mulv_last in Hx. lra. }
    intros i Hi. cbn. destruct (Nat.eq_dec i n) as [->|]; [lra|].
    specialize (Uw i ltac:(lia)). cbn in Uw. lra.
Qed.

(** *** Semivariances of the model and of the specification *)
Lemma G_of_matrix o : coords_inv o -> forall i j,
  data_semivariance (o_vg o) (data_distances o) i j = G_of o i j.
Proof.
  intros H i j. unfold G_of, data_semivariance. destruct (Nat.eqb i j); [reflexivity|].
  rewrite data_distances_sep by exact H. reflexivity.
Qed.

Lemma G_of_sym o i j : G_of o i j = G_of o j i.
Proof.
  unfold G_of, data_semivariance. rewrite (Nat.eqb_sym j i). destruct (Nat.eqb i j); [reflexivity|].
  rewrite separation_sym. reflexivity.
Qed.

Lemma OK_regular_ext n G G' : (forall i j, (i < n)%nat -> (j < n)%nat -> G i j = G' i j) ->
  OK_regular n G -> OK_regular n G'.
Proof.
  intros HG HR g. destruct (HR g) as (w & mu & HS & U). exists w, mu.
  split; [apply (OK_system_ext n G G' g g); [exact HG|intros i _; reflexivity|exact HS]|].
  intros w' mu' HS'. apply U. apply (OK_system_ext n G' G g g); [|intros i _; reflexivity|exact HS'].
  intros; symmetry; apply HG; assumption.
Qed.

Lemma regular_iff_nonsingular o : coords_inv o ->
  regular o <-> nonsingular (o_n o + 1) (get_kriging_matrix o).
Proof.
  intros H. unfold regular, get_kriging_matrix. split.
  - intros HR. apply regular_nonsingular. apply (OK_regular_ext _ (G_of o)); [|exact HR].
    intros; symmetry; apply G_of_matrix, H.
  - intros HN. apply (OK_regular_ext _ (data_semivariance (o_vg o) (data_distances o))).
    + intros; apply G_of_matrix, H.
    + apply nonsingular_regular, HN.
Qed.

Lemma regular_solvable o pos : regular o -> solvable o pos.
Proof. intros H. destruct (H (g_of o pos)) as (w & mu & HS & _). exists w, mu. exact HS. Qed.

Lemma ref_ok_nopinv E o q r : linalg_ok (e_la E) -> coords_inv o -> o_pinv o = false -> ref E o q = Ok r -> regular o.
Proof.
  intros HL Hinv Hp H. unfold ref in H. bindok H. bindok H. bindok H.
  apply regular_iff_nonsingular; [exact Hinv|]. rewrite Hp in E2. exists a1. apply (invert_ok (e_la E) (o_pinv_type o)); assumption.
Qed.

(** The master lemma on cells *)
Lemma ref_cell E o q r p pos : linalg_ok (e_la E) -> coords_inv o -> ref E o q = Ok r -> cell (o_dim o) q p pos ->
  (p < shape_size (r_shape r))%nat /\
  exists l, locate (o_dim o) (q_style q) (q_pts q) (q_mask q) = Ok l /\
  if String.eqb (q_style q) "masked" && l_mask l p
  then r_value r p = None /\ r_variance r p = None
  else exists v s, r_value r p = Some v /\ r_variance r p = Some s /\
         (o_pinv o = false \/ solvable o pos ->
          OK_estimate (o_n o) (G_of o) (g_of o pos) (o_values o) v s).
Proof.
  intros HL Hinv H C. unfold ref in H. bindok H. bindok H. bindok H. rename a into l, a0 into pts, a1 into a_inv.
  injection H as <-. cbn [r_shape finish].
  destruct (locate_cell _ _ _ _ _ (o_dim_cases o) E0 C) as [Hp Hpos].
  destruct (locate_facts _ _ _ _ _ (o_dim_cases o) E0) as [Hn Hm].
  split; [rewrite <- Hn; exact Hp|]. exists l. split; [reflexivity|]. cbn [r_value r_variance finish fst snd].
  assert (HE : o_pinv o = false \/ solvable o pos ->
    OK_estimate (o_n o) (G_of o) (g_of o pos) (o_values o)
      (point_value (o_n o) a_inv (rhs_spec (o_n o) (g_of o pos)) (o_values o))
      (point_variance (o_n o) a_inv (rhs_spec (o_n o) (g_of o pos)))).
  { intros Hs.
    apply (OK_estimate_ext _ (data_semivariance (o_vg o) (data_distances o)) _ (g_of o pos) _ (o_values o));
      [intros; apply G_of_matrix, Hinv|intros i _; reflexivity|intros i _; reflexivity|].
    apply estimate_of_solution.
    destruct Hs as [Hs|(w & mu & Hs)].
    - rewrite Hs in E2. apply inverse_solves. apply (invert_ok _ _ _ _ _ HL E2).
    - set (x0 := fun k => if Nat.eqb k (o_n o) then - mu else w k).
      assert (Hx0 : veq (o_n o + 1) (mulv (o_n o + 1) (get_kriging_matrix o) x0) (rhs_spec (o_n o) (g_of o pos))).
      { apply system_iff.
        assert (Ee : forall f, bsum (o_n o) (fun j => x0 j * f j) = bsum (o_n o) (fun j => w j * f j)).
        { intros f. apply bsum_ext; intros j Hj. unfold x0. destruct (Nat.eqb_spec j (o_n o)); [lia|reflexivity]. }
        destruct Hs as [H1 H2]. split.
        - intros i Hi. rewrite Ee. unfold x0. rewrite Nat.eqb_refl, Ropp_involutive.
          rewrite <- (H1 i Hi). f_equal. apply bsum_ext; intros j Hj. f_equal. apply G_of_matrix, Hinv.
        - rewrite <- H2. apply bsum_ext; intros j Hj. unfold x0. destruct (Nat.eqb_spec j (o_n o)); [lia|reflexivity]. }
      destruct (o_pinv o) eqn:EPI.
      + apply (pinv_solves _ _ _ _ x0); [|exact Hx0]. apply (invert_pinv (e_la E) (o_pinv_type o)); [exact HL|exact E2].
      + apply inverse_solves. apply (invert_ok _ _ _ _ _ HL E2). }
  assert (Hloc : g_of o (loc_of (o_dim o) (l_at l) p) = g_of o pos) by (rewrite Hpos; reflexivity).
  destruct (String.eqb (q_style q) "masked"); cbn [andb].
  - destruct (l_mask l p); [auto|]. rewrite Hloc. eexists _, _. split; [reflexivity|]. split; [reflexivity|exact HE].
  - rewrite Hloc. eexists _, _. split; [reflexivity|]. split; [reflexivity|exact HE].
Qed.
