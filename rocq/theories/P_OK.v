(** Proofs for the ordinary kriging properties C11-C22. *)
From Coq Require Import String FunctionalExtensionality.
From Verif Require Import Base Sums Matrix M_Variogram P_Variogram M_Geometry S_Geometry P_Geometry M_Kriging S_Kriging
  P_Kriging P_OKSpec M_Init M_Object M_Execute S_Execute P_Object P_Execute P_Cells P_Window P_WindowExec P_Master P_Det.

(** A run in terms of the invariants *)
Lemma run_inv E o q r : run E o q r ->
  env_ok E /\ coords_inv o /\ ordinary o /\ faithful_backend E o q /\ execute E o q = Ok r.
Proof. intros (H1 & H2 & H3 & H4 & H5). split; [exact H1|]. split; [apply (reachable_inv E o H2)|]. auto. Qed.

Lemma run_cell E o q r p pos : run E o q r -> shown o q p pos ->
  exists v s, r_value r p = Some v /\ r_variance r p = Some s /\ (well_posed o q pos -> kriged o q pos v s).
Proof.
  intros HR [C Hh]. destruct (run_inv _ _ _ _ HR) as (HE & Hinv & Hord & HF & H).
  destruct (execute_cells E o q r p pos HE Hinv Hord HF H C) as (_ & _ & HS). apply HS, Hh.
Qed.

Lemma kriged_uses o q pos v s : kriged o q pos v s ->
  exists m sel, uses o q pos m sel /\ (forall a, (a < m)%nat -> (sel a < o_n o)%nat) /\
    (q_window q <> None -> local_regular o m sel) /\ local_estimate o m sel pos v s.
Proof.
  unfold kriged, uses. destruct (q_window q) as [k|].
  - intros (Hk & sel & HN & HR & HE). exists k, sel. split; [auto|]. split; [apply HN|]. auto.
  - intros HE. exists (o_n o), (fun a => a). split; [auto|]. split; [auto|]. split; [congruence|exact HE].
Qed.

(** *** C12: coinciding locations *)
Lemma dot3_sub_add v p q x : dot3 v (sub3 p x) = dot3 v (sub3 p q) + dot3 v (sub3 q x).
Proof. destruct v as [[? ?] ?], p as [[? ?] ?], q as [[? ?] ?], x as [[? ?] ?]. unfold dot3, sub3. ring. Qed.

Lemma sum_sq_zero a b : 0 <= a -> 0 <= b -> a + b = 0 -> a = 0 /\ b = 0.
Proof. intros. split; lra. Qed.

Lemma sq_shift s a b : s² * a² = 0 -> s² * (a + b)² = s² * b².
Proof.
  intros H. replace (s² * a²) with ((s * a)²) in H by (unfold Rsqr; ring). apply Rsqr_0_uniq in H.
  replace (s² * (a + b)²) with ((s * a + s * b)²) by (unfold Rsqr; ring). rewrite H. unfold Rsqr; ring.
Qed.

Ltac sqpos := repeat first [apply Rle_0_sqr | apply Rplus_le_le_0_compat | apply Rmult_le_pos].

Lemma coincide o p q x : separation o p q = 0 -> separation o p x = separation o q x.
Proof.
  unfold separation. destruct (o_ct o).
  - destruct (Nat.eqb (o_dim o) 3); unfold aniso3, aniso2; cbv zeta; intros H.
    + apply sqrt_eq_0 in H.
      2:{ sqpos. }
      rewrite !(dot3_sub_add _ p q x).
      set (a := dot3 (rotated_axis _ _ _ (1, 0, 0)) (sub3 p q)) in *.
      set (b := dot3 (rotated_axis _ _ _ (0, 1, 0)) (sub3 p q)) in *.
      set (c := dot3 (rotated_axis _ _ _ (0, 0, 1)) (sub3 p q)) in *.
      apply sum_sq_zero in H; [|sqpos|sqpos].
      destruct H as [H Hc]. apply sum_sq_zero in H; [|sqpos|sqpos].
      destruct H as [Ha Hb]. apply Rsqr_0_uniq in Ha. rewrite Ha, Rplus_0_l.
      rewrite (sq_shift _ b _ Hb), (sq_shift _ c _ Hc). reflexivity.
    + apply sqrt_eq_0 in H.
      2:{ sqpos. }
      rewrite !(dot3_sub_add _ p q x).
      apply sum_sq_zero in H; [|sqpos|sqpos].
      destruct H as [Ha Hb]. apply Rsqr_0_uniq in Ha. rewrite Ha, Rplus_0_l.
      rewrite (sq_shift _ _ _ Hb). reflexivity.
  - intros H. apply gc_zero in H. rewrite !gc_dot, H. reflexivity.
Qed.

Lemma run_local_regular E o q r pos m sel : run E o q r -> regular_for o q -> uses o q pos m sel ->
  (q_window q <> None -> local_regular o m sel) -> local_regular o m sel.
Proof.
  intros HR Hreg HU HL. destruct (run_inv _ _ _ _ HR) as (HE & Hinv & Hord & HF & H).
  destruct (q_window q) as [k|] eqn:HW; [apply HL; congruence|].
  unfold uses in HU. rewrite HW in HU. destruct HU as [-> Hs].
  unfold local_regular. apply (OK_regular_ext _ (G_of o)); [intros; rewrite !Hs; reflexivity|].
  destruct Hreg as [Hp|[Hp|Hp]]; [|contradiction|exact Hp].
  apply (execute_regular E o q r HE Hinv Hord HF HW Hp H).
Qed.

Lemma regular_for_well_posed o q pos : regular_for o q -> well_posed o q pos.
Proof. intros [H|[H|H]]; [left; exact H|right; left; exact H|right; right; apply regular_solvable, H]. Qed.

(** the datum at distance 0 is among the nearest *)
Lemma uses_contains o q pos m sel k0 : uses o q pos m sel -> (k0 < o_n o)%nat -> (0 < m)%nat ->
  (forall i, (i < o_n o)%nat -> i <> k0 -> separation o pos (datum o k0) < separation o pos (datum o i)) ->
  exists a, (a < m)%nat /\ sel a = k0.
Proof.
  intros HU Hk Hm Hsep. unfold uses in HU. destruct (q_window q) as [k|].
  - destruct HU as [-> (N1 & N2 & N3 & N4)].
    destruct (existsb (fun a => Nat.eqb (sel a) k0) (seq 0 k)) eqn:EX.
    + apply existsb_exists in EX. destruct EX as (a & Ha & HEq). apply in_seq in Ha. apply Nat.eqb_eq in HEq.
      exists a. split; [lia|exact HEq].
    + exfalso. assert (Hno : forall b, (b < k)%nat -> sel b <> k0).
      { intros b Hb He. rewrite <- not_true_iff_false in EX. apply EX. apply existsb_exists. exists b.
        split; [apply in_seq; lia|apply Nat.eqb_eq, He]. }
      pose proof (N4 0%nat k0 Hm Hk Hno). pose proof (Hsep (sel 0%nat) (N1 0%nat Hm) (Hno 0%nat Hm)). lra.
  - destruct HU as [-> Hs]. exists k0. auto.
Qed.

Lemma eps_pos : 0 < eps.
Proof. unfold eps. lra. Qed.

Lemma uses_pos o q pos m sel v s : kriged o q pos v s -> uses o q pos m sel -> (0 < o_n o)%nat -> (0 < m)%nat.
Proof.
  unfold kriged, uses. destruct (q_window q); [intros (Hk & _) [-> _]; lia|intros _ [-> _]; auto].
Qed.

Lemma uses_inj o q pos m sel : uses o q pos m sel ->
  forall a b, (a < m)%nat -> (b < m)%nat -> sel a = sel b -> a = b.
Proof.
  unfold uses. destruct (q_window q); [intros [-> (_ & H & _)]; exact H|intros [_ H] a b _ _; rewrite !H; auto].
Qed.

Lemma G_of_diag o i : G_of o i i = 0.
Proof. unfold G_of, data_semivariance. rewrite Nat.eqb_refl. reflexivity. Qed.

(** interpolation, with an abstract reason why g vanishes at the datum *)
Lemma exact_at E o q r p pos k0 : run E o q r -> shown o q p pos -> regular_for o q -> (k0 < o_n o)%nat ->
  separation o pos (datum o k0) = 0 ->
  (forall i, (i < o_n o)%nat -> i <> k0 -> 0 < separation o pos (datum o i)) ->
  (forall i, (i < o_n o)%nat -> i <> k0 -> g_of o pos i = o_vg o (separation o pos (datum o i))) ->
  g_of o pos k0 = 0 ->
  r_value r p = Some (o_values o k0) /\ r_variance r p = Some 0.
Proof.
  intros HR HS Hreg Hk H0 Hsep Hgo Hg0.
  destruct (run_cell E o q r p pos HR HS) as (v & s & -> & -> & HK).
  specialize (HK (regular_for_well_posed _ _ _ Hreg)).
  destruct (kriged_uses o q pos v s HK) as (m & sel & HU & Hlt & HLR & HEs).
  pose proof (run_local_regular E o q r pos m sel HR Hreg HU HLR) as HLR'.
  destruct (uses_contains o q pos m sel k0 HU Hk) as (a & Ha & Hsa).
  { apply (uses_pos o q pos m sel v s HK HU). lia. }
  { intros i Hi Hne. rewrite H0. apply Hsep; assumption. }
  destruct (est_exact m (fun a b => G_of o (sel a) (sel b)) (fun a => g_of o pos (sel a)) (fun a => o_values o (sel a)) a v s)
    as [-> ->]; try assumption.
  - apply G_of_diag.
  - intros b Hb. destruct (Nat.eq_dec (sel b) k0) as [Hbk|Hbk].
    + rewrite Hbk, Hsa, Hg0, G_of_diag. reflexivity.
    + rewrite Hgo by (try apply Hlt; assumption). unfold G_of, data_semivariance. rewrite Hsa.
      destruct (Nat.eqb_spec (sel b) k0); [contradiction|]. rewrite (coincide o pos (datum o k0)) by exact H0.
      rewrite separation_sym. reflexivity.
  - rewrite Hsa. auto.
Qed.

(** *** C13 (a): away from the data *)
Lemma g_of_far o pos : (forall i, (i < o_n o)%nat -> eps < separation o pos (datum o i)) ->
  forall i, (i < o_n o)%nat -> g_of o pos i = o_vg o (separation o pos (datum o i)).
Proof.
  intros H i Hi. unfold g_of, query_semivariance.
  rewrite Rabs_pos_eq by apply separation_nonneg. rewrite (proj2 (Rleb_false _ _) (H i Hi)), andb_false_r. reflexivity.
Qed.

(** *** Success of execute *)
Lemma invert_regular_ok L pi pit n a : linalg_ok L -> nonsingular n a -> pi = false -> exists b, invert L pi pit n a = Ok b.
Proof.
  intros HL HN ->. unfold invert. destruct (la_inv L n a) eqn:E; [eauto|]. exfalso. apply (inv_none L HL n a E HN).
Qed.
Lemma execute_succeeds E o q l : env_ok E -> coords_inv o -> ordinary o -> q_window q = None -> o_pinv o = false ->
  backend_ok E o (q_backend q) -> regular o ->
  locate (o_dim o) (q_style q) (q_pts q) (q_mask q) = Ok l ->
  (o_ct o = Euclidean -> forallb (fun b => b) (q_int q) = false) ->
  exists r, execute E o q = Ok r.
Proof.
  intros (HL & _) Hinv Hord HW Hp HB HR HLo HI.
  pose proof (execute_ref E o q Hinv Hord HW HB) as H. unfold ref in H. rewrite HLo in H. cbn [bind] in H.
  assert (HA : exists pts, adjust_query o (q_int q) (l_at l) = Ok pts).
  { unfold adjust_query. destruct (o_ct o); [|eauto]. rewrite (HI eq_refl).
    apply (adjust_supported (o_dim o) (l_at l) (o_center o) (o_scaling o) (o_angle o) (o_dim_cases o)). }
  destruct HA as [pts HA]. rewrite HA in H. cbn [bind] in H.
  destruct (invert_regular_ok (e_la E) (o_pinv o) (o_pinv_type o) (o_n o + 1) (get_kriging_matrix o) HL) as [b Hb].
  { apply regular_iff_nonsingular; assumption. }
  { exact Hp. }
  rewrite Hb in H. cbn [bind] in H. destruct H as (r & Hr & _). exists r. exact Hr.
Qed.
