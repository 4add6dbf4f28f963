(** Universal kriging: isometries of the coordinate system (C52). *)
From Coq Require Import String Permutation.
From Verif Require Import Base Sums Matrix M_Variogram M_Geometry S_Geometry P_Geometry M_Kriging S_Kriging M_Init M_Object
  M_Execute S_Execute P_Object P_Execute P_Cells P_Master P_Det P_OK P_Similar P_Binning P_Data P_Linear P_Exec2 P_Data2 P_Motion
  M_UK S_UK S_UK2 P_UK P_UK2 P_UK3 P_UK4 P_UK5
  S_State P_State P_State2 P_UK7 P_UK10 P_UK11 P_UK13 P_UK14 P_UK15.
From Verif Require Import Nz.

Definition delta (i j : nat) : R := if Nat.eqb i j then 1 else 0.

(** two maps with the same distances are related by an orthogonal affine map *)
Lemma isometry_affine {X} (d : nat) (P : X -> Prop) (a b : X -> vec) (x0 : X) (e : nat -> X) :
  (forall x y, P x -> P y -> bsum d (fun k => (b x k - b y k) * (b x k - b y k)) = bsum d (fun k => (a x k - a y k) * (a x k - a y k))) ->
  P x0 -> (forall j, (j < d)%nat -> P (e j)) ->
  (forall k, (k < d)%nat -> a x0 k = 0) -> (forall j k, (j < d)%nat -> (k < d)%nat -> a (e j) k = delta k j) ->
  let g j k := b (e j) k - b x0 k in
  (forall i j, (i < d)%nat -> (j < d)%nat -> bsum d (fun k => g i k * g j k) = delta i j) /\
  (forall x k, P x -> (k < d)%nat -> b x k = bsum d (fun j => g j k * a x j) + b x0 k).
Proof.
  intros H P0 Pe A0 Ae g.
  assert (HV : forall x, P x -> bsum d (fun k => (b x k - b x0 k) * (b x k - b x0 k)) = bsum d (fun k => a x k * a x k)).
  { intros x Px. rewrite H by assumption. apply bsum_ext; intros k Hk. rewrite A0 by exact Hk. ring. }
  assert (HD : forall x j, P x -> (j < d)%nat -> bsum d (fun k => (b x k - b x0 k) * g j k) = a x j).
  { intros x j Px Hj. pose proof (H x (e j) Px (Pe j Hj)) as Q1. pose proof (HV x Px) as Q2. pose proof (HV (e j) (Pe j Hj)) as Q3. fold (g j) in Q3.
    assert (E1 : bsum d (fun k => (b x k - b (e j) k) * (b x k - b (e j) k)) =
      bsum d (fun k => (b x k - b x0 k) * (b x k - b x0 k)) - 2 * bsum d (fun k => (b x k - b x0 k) * g j k) + bsum d (fun k => g j k * g j k)).
    { rewrite <- bsum_scal, <- bsum_minus, <- bsum_plus. apply bsum_ext; intros k Hk. unfold g. ring. }
    assert (E2 : bsum d (fun k => (a x k - a (e j) k) * (a x k - a (e j) k)) =
      bsum d (fun k => a x k * a x k) - 2 * a x j + bsum d (fun k => a (e j) k * a (e j) k)).
    { rewrite (bsum_ext d (fun k => (a x k - a (e j) k) * (a x k - a (e j) k)) (fun k => a x k * a x k - 2 * (delta k j * a x k) + a (e j) k * a (e j) k)).
      - rewrite bsum_plus, bsum_minus, bsum_scal. unfold delta. rewrite (bsum_delta d j (a x) Hj). reflexivity.
      - intros k Hk. rewrite Ae by assumption. ring. }
    rewrite E1, E2 in Q1. change (bsum d (fun k => g j k * g j k) = bsum d (fun k => a (e j) k * a (e j) k)) in Q3. lra. }
  assert (HO : forall i j, (i < d)%nat -> (j < d)%nat -> bsum d (fun k => g i k * g j k) = delta i j).
  { intros i j Hi Hj. change (bsum d (fun k => (b (e i) k - b x0 k) * g j k) = delta i j). rewrite HD, Ae by auto.
    unfold delta. rewrite Nat.eqb_sym. reflexivity. }
  split; [exact HO|]. intros x k Px Hk.
  set (v := fun k => b x k - b x0 k). set (s := fun k => bsum d (fun j => g j k * a x j)).
  assert (HZ : bsum d (fun k => (v k - s k) * (v k - s k)) = 0).
  { assert (E1 : bsum d (fun k => (v k - s k) * (v k - s k)) = bsum d (fun k => v k * v k) - 2 * bsum d (fun k => v k * s k) + bsum d (fun k => s k * s k)).
    { rewrite <- bsum_scal, <- bsum_minus, <- bsum_plus. apply bsum_ext; intros; ring. }
    assert (E2 : bsum d (fun k => v k * s k) = bsum d (fun j => a x j * a x j)).
    { rewrite (bsum_ext d _ (fun k => bsum d (fun j => a x j * (v k * g j k)))).
      2:{ intros k' _. unfold s. rewrite <- bsum_scal. apply bsum_ext; intros; ring. }
      rewrite bsum_swap. apply bsum_ext; intros j Hj. rewrite bsum_scal. unfold v. rewrite HD by assumption. reflexivity. }
    assert (E3 : bsum d (fun k => s k * s k) = bsum d (fun j => a x j * a x j)).
    { rewrite (bsum_ext d _ (fun k => bsum d (fun j => a x j * (g j k * s k)))).
      2:{ intros k' _. unfold s at 1. rewrite <- bsum_scal_r. apply bsum_ext; intros; ring. }
      rewrite bsum_swap. apply bsum_ext; intros j Hj. rewrite bsum_scal. f_equal.
      rewrite (bsum_ext d _ (fun k => bsum d (fun i => a x i * (g i k * g j k)))).
      2:{ intros k' _. unfold s. rewrite <- bsum_scal. apply bsum_ext; intros; ring. }
      rewrite bsum_swap. rewrite (bsum_ext d _ (fun i => delta i j * a x i)).
      - unfold delta. apply (bsum_delta d j (a x) Hj).
      - intros i Hi. rewrite bsum_scal, HO by assumption. ring. }
    rewrite E1, E2, E3. unfold v. rewrite HV by exact Px. ring. }
  assert (HN : forall k, (k < d)%nat -> 0 <= (v k - s k) * (v k - s k)) by (intros; apply Rle_0_sqr).
  pose proof (bsum_nonneg_zero d _ HN HZ k Hk) as HK. cbv beta in HK. apply Rsqr_0_uniq in HK. unfold v, s in HK. lra.
Qed.

Definition origin3 : vec3 := (0, 0, 0).
Definition unit3 (j : nat) : vec3 := match j with 0%nat => (1, 0, 0) | 1%nat => (0, 1, 0) | _ => (0, 0, 1) end.

Definition iso_frame (o : obj) : Prop := o_scaling o 0%nat = 1 /\ (o_dim o = 3%nat -> o_scaling o 1%nat = 1).

Lemma frame_dist o x y : iso_frame o -> in_dim (o_dim o) x -> in_dim (o_dim o) y ->
  bsum (o_dim o) (fun k => (coord k (frame o x) - coord k (frame o y)) * (coord k (frame o x) - coord k (frame o y))) =
  bsum (o_dim o) (fun k => (coord k x - coord k y) * (coord k x - coord k y)).
Proof.
  intros [I0 I1] Hx Hy. unfold frame. destruct (o_dim_cases o) as [E|E]; rewrite E in *; cbn [Nat.eqb].
  - rewrite I0. destruct x as [[x0 x1] x2], y as [[y0 y1] y2], (center3 o) as [[c0 c1] c2]. cbn. pose proof (sc1 (rad (o_angle o 0%nat))). nsz.
  - rewrite I0, (I1 eq_refl). set (e := rotated_axis _ _ _).
    pose proof (parseval3 (rad (o_angle o 0%nat)) (rad (o_angle o 1%nat)) (rad (o_angle o 2%nat)) (sub3 x y)) as HP. fold e in HP. cbv zeta in HP.
    destruct x as [[x0 x1] x2], y as [[y0 y1] y2], (center3 o) as [[c0 c1] c2], (e (1,0,0)) as [[p0 p1] p2], (e (0,1,0)) as [[q0 q1] q2], (e (0,0,1)) as [[r0 r1] r2].
    cbn in HP |- *. etransitivity; [|etransitivity; [exact HP|]]; ring.
Qed.

Lemma frame_onto o y : iso_frame o -> in_dim (o_dim o) y -> exists x, in_dim (o_dim o) x /\ forall k, (k < o_dim o)%nat -> coord k (frame o x) = coord k y.
Proof.
  intros [I0 I1] Hy. unfold frame, center3. destruct (o_dim_cases o) as [E|E]; rewrite E in *; unfold loc; cbn [Nat.eqb].
  - rewrite I0. set (C := cos (rad (o_angle o 0%nat))). set (S := sin (rad (o_angle o 0%nat))).
    pose proof (sc1 (rad (o_angle o 0%nat))) as H. fold C S in H. destruct y as [[y0 y1] y2]. set (c0 := o_center o 0%nat). set (c1 := o_center o 1%nat).
    exists (c0 + (C * (y0 - c0) - S * (y1 - c1)), c1 + (S * (y0 - c0) + C * (y1 - c1)), 0). split; [intros _; reflexivity|].
    clearbody C S c0 c1. intros [|[|k]] Hk; [| |lia]; cbn.
    + transitivity (c0 + (S * S + C * C) * (y0 - c0)); [ring|rewrite H; ring].
    + transitivity (c1 + (S * S + C * C) * (y1 - c1)); [ring|rewrite H; ring].
  - rewrite I0, (I1 eq_refl). set (e := rotated_axis _ _ _).
    destruct (rotated_axes_orthonormal (rad (o_angle o 0%nat)) (rad (o_angle o 1%nat)) (rad (o_angle o 2%nat))) as (O1 & O2 & O3 & O4 & O5 & O6).
    fold e in O1, O2, O3, O4, O5, O6. destruct y as [[y0 y1] y2]. set (c0 := o_center o 0%nat). set (c1 := o_center o 1%nat). set (c2 := o_center o 2%nat).
    destruct (e (1,0,0)) as [[p0 p1] p2], (e (0,1,0)) as [[q0 q1] q2], (e (0,0,1)) as [[r0 r1] r2].
    cbn in O1, O2, O3, O4, O5, O6.
    set (a0 := y0 - c0). set (a1 := y1 - c1). set (a2 := y2 - c2).
    exists (c0 + (a0 * p0 + a1 * q0 + a2 * r0), c1 + (a0 * p1 + a1 * q1 + a2 * r1), c2 + (a0 * p2 + a1 * q2 + a2 * r2)). split; [intros H; discriminate H|].
    intros [|[|[|k]]] Hk; [| | |lia]; cbn.
    + transitivity (c0 + (a0 * (p0 * p0 + p1 * p1 + p2 * p2) + a1 * (p0 * q0 + p1 * q1 + p2 * q2) + a2 * (p0 * r0 + p1 * r1 + p2 * r2))); [ring|].
      rewrite O1, O4, O5. unfold a0. ring.
    + transitivity (c1 + (a0 * (p0 * q0 + p1 * q1 + p2 * q2) + a1 * (q0 * q0 + q1 * q1 + q2 * q2) + a2 * (q0 * r0 + q1 * r1 + q2 * r2))); [ring|].
      rewrite O2, O4, O6. unfold a1. ring.
    + transitivity (c2 + (a0 * (p0 * r0 + p1 * r1 + p2 * r2) + a1 * (q0 * r0 + q1 * r1 + q2 * r2) + a2 * (r0 * r0 + r1 * r1 + r2 * r2))); [ring|].
      rewrite O3, O5, O6. unfold a2. ring.
Qed.

(** the regional_linear columns *)
Lemma linear_affine o o' (g : vec3 -> vec3) n p p' pos :
  iso_frame o -> iso_frame o' -> o_dim o' = o_dim o ->
  (forall x, in_dim (o_dim o) x -> in_dim (o_dim o) (g x)) ->
  (forall x y, in_dim (o_dim o) x -> in_dim (o_dim o) y ->
     bsum (o_dim o) (fun k => (coord k (g x) - coord k (g y)) * (coord k (g x) - coord k (g y))) =
     bsum (o_dim o) (fun k => (coord k x - coord k y) * (coord k x - coord k y))) ->
  (forall i, (i < n)%nat -> datum o' i = g (datum o i)) -> in_dim (o_dim o) pos ->
  affine_rel n (fun i => i) p p' pos (g pos)
    (map (fun k => spatial o (fun p => coord k (frame o p))) (seq 0 (o_dim o)))
    (map (fun k => spatial o' (fun p => coord k (frame o' p))) (seq 0 (o_dim o'))).
Proof.
  intros HI HI' Hd Hg2 Hg HD Hpos. set (d := o_dim o) in *.
  destruct (frame_onto o origin3 HI ltac:(intros _; reflexivity)) as (x0 & P0 & A0). fold d in P0, A0.
  assert (HE : exists e : nat -> vec3, forall j, (j < d)%nat -> in_dim d (e j) /\ forall k, (k < d)%nat -> coord k (frame o (e j)) = delta k j).
  { assert (HU : forall j, (j < d)%nat -> in_dim d (unit3 j)).
    { intros j Hj E2. destruct j as [|[|j]]; try reflexivity. lia. }
    assert (HJ : forall j, exists x, (j < d)%nat -> in_dim d x /\ forall k, (k < d)%nat -> coord k (frame o x) = delta k j).
    { intros j. destruct (Nat.lt_ge_cases j d) as [Hj|Hj]; [|exists origin3; lia].
      destruct (frame_onto o (unit3 j) HI (HU j Hj)) as (x & Px & Ax). exists x. intros _. split; [exact Px|]. intros k Hk. rewrite Ax by exact Hk.
      assert (Hd3 : (d <= 3)%nat) by (unfold d; destruct (o_dim_cases o); lia).
      destruct j as [|[|[|j]]], k as [|[|[|k]]]; try lia; reflexivity. }
    destruct (HJ 0%nat) as [e0 H0], (HJ 1%nat) as [e1 H1], (HJ 2%nat) as [e2 H2].
    exists (fun j => match j with 0%nat => e0 | 1%nat => e1 | _ => e2 end). intros j Hj.
    assert (Hd3 : (d <= 3)%nat) by (unfold d; destruct (o_dim_cases o); lia).
    destruct j as [|[|[|j]]]; try lia; auto. }
  destruct HE as [e He].
  destruct (isometry_affine d (in_dim d) (fun x k => coord k (frame o x)) (fun x k => coord k (frame o' (g x))) x0 e) as [HO HA].
  - intros x y Hx Hy. cbv beta. rewrite <- Hd. rewrite frame_dist; [|exact HI'|rewrite Hd; apply Hg2, Hx|rewrite Hd; apply Hg2, Hy].
    rewrite Hd. rewrite Hg by assumption. symmetry. unfold d. apply frame_dist; assumption.
  - exact P0.
  - intros j Hj. apply He, Hj.
  - intros k Hk. cbv beta. rewrite A0 by exact Hk. destruct k as [|[|k]]; reflexivity.
  - intros j k Hj Hk. apply He; assumption.
  - cbv zeta in HO, HA. set (G := fun j k => coord k (frame o' (g (e j))) - coord k (frame o' (g x0))) in *.
    rewrite Hd. split; [rewrite !map_length; reflexivity|]. rewrite map_length, seq_length.
    exists (fun c a => G c a), (fun a b => G b a), (fun a => coord a (frame o' (g x0))). split; [|split].
    + intros c b Hc Hb. etransitivity; [exact (HO c b Hc Hb)|]. unfold delta. rewrite Nat.eqb_sym. reflexivity.
    + intros a i Ha Hi. unfold F_of. 
      assert (HN : forall oo k, (k < d)%nat -> nth k (map (fun k => spatial oo (fun p => coord k (frame oo p))) (seq 0 d)) no_term = spatial oo (fun p => coord k (frame oo p))).
      { intros oo k Hk. rewrite (nth_indep _ no_term (spatial oo (fun p => coord 0 (frame oo p)))) by (rewrite map_length, seq_length; exact Hk).
        rewrite (map_nth (fun k => spatial oo (fun p => coord k (frame oo p)))), seq_nth by exact Hk. reflexivity. }
      rewrite HN by exact Ha. cbn [spatial t_data]. rewrite HD by exact Hi. rewrite (HA (datum o i) a (datum_in_dim o i) Ha). f_equal.
      apply bsum_ext; intros b Hb. rewrite HN by exact Hb. reflexivity.
    + intros a Ha. unfold f_of. 
      assert (HN : forall oo k, (k < d)%nat -> nth k (map (fun k => spatial oo (fun p => coord k (frame oo p))) (seq 0 d)) no_term = spatial oo (fun p => coord k (frame oo p))).
      { intros oo k Hk. rewrite (nth_indep _ no_term (spatial oo (fun p => coord 0 (frame oo p)))) by (rewrite map_length, seq_length; exact Hk).
        rewrite (map_nth (fun k => spatial oo (fun p => coord k (frame oo p)))), seq_nth by exact Hk. reflexivity. }
      rewrite HN by exact Ha. cbn [spatial t_query]. rewrite (HA pos a Hpos Ha). f_equal.
      apply bsum_ext; intros b Hb. rewrite HN by exact Hb. reflexivity.
Qed.

Lemma sqrt_eq a b : 0 <= a -> 0 <= b -> sqrt a = sqrt b -> a = b.
Proof. intros Ha Hb H. rewrite <- (sqrt_sqrt a Ha), <- (sqrt_sqrt b Hb), H. reflexivity. Qed.

Lemma dist_sum d x y : (d = 2 \/ d = 3)%nat -> in_dim d x -> in_dim d y ->
  dist3 x y = sqrt (bsum d (fun k => (coord k x - coord k y) * (coord k x - coord k y))).
Proof.
  intros Hd Hx Hy. destruct x as [[a b] c], y as [[u v] w]. unfold dist3. f_equal. destruct Hd as [-> | ->]; cbn.
  - specialize (Hx eq_refl). specialize (Hy eq_refl). cbn in Hx, Hy. subst. ring.
  - ring.
Qed.
Lemma sum_sq_nonneg d (f : nat -> R) : 0 <= bsum d (fun k => f k * f k).
Proof. apply bsum_nonneg. intros. apply Rle_0_sqr. Qed.

Theorem uk_isometry E c A coords D us (f : vec3 -> vec3) fs u u' q q' specs specs' r r' p p' pos :
  ubuilt E c A D us u -> ubuilt E c (with_data A coords (c_values A)) (carry f fs D) us u' ->
  (forall v, In v (c_v A :: us) -> isotropic c v) ->
  (forall x y, dist3 (f x) (f y) = dist3 x y) -> (cdim c = 2%nat -> forall x, snd x = 0 -> snd (f x) = 0) ->
  (forall i, (i < List.length (c_values A))%nat -> input c (with_data A coords (c_values A)) i = f (input c A i)) ->
  (c = UK2 -> asked D "external_Z" = false) ->
  (c = UK2 -> asked D "point_log" = true -> us = []) ->
  Forall2 (fun h h' => forall x, fun_at u' h' (f x) = fun_at u h x) (opt_list (d_fun D)) fs ->
  urun E u q specs r -> urun E u' q' specs' r' -> faithful_specs u q -> faithful_specs u' q' ->
  shown (u_obj u) q p pos -> shown (u_obj u') q' p' (f pos) -> uregular u q specs -> specs_agree u q q' specs specs' p p' ->
  r_value r p = r_value r' p' /\ r_variance r p = r_variance r' p'.
Proof.
  intros HU HU' HIso Hf Hf2 HI HX HWl HFun HR HR' HF HF' HS HS' Hreg HSA.
  pose proof (built_class _ _ _ _ _ (proj1 (ubuilt_obj _ _ _ _ _ _ HU))) as HC.
  assert (Hdim : o_dim (u_obj u) = cdim c) by (unfold o_dim; rewrite HC; reflexivity).
  set (Q := fun (sc : vec) (_ : vec) => sc 0%nat = 1 /\ (cdim c = 3%nat -> sc 1%nat = 1)).
  set (g := fun x : vec3 => if Nat.eqb (cdim c) 2 then (let '(a, b, _) := x in let '(u, v, _) := f (a, b, 0) in (u, v, 0)) else f x).
  assert (Hg : forall x, in_dim (cdim c) x -> g x = f x).
  { intros [[a b] c0] Hx. unfold g. destruct (Nat.eqb_spec (cdim c) 2) as [E2|E2]; [|reflexivity].
    specialize (Hx E2). cbn in Hx. subst c0. specialize (Hf2 E2 (a, b, 0) eq_refl).
    destruct (f (a, b, 0)) as [[u1 v1] w1]. cbn in Hf2. rewrite Hf2. reflexivity. }
  assert (Hg2 : forall x, in_dim (cdim c) x -> in_dim (cdim c) (g x)).
  { intros x Hx. rewrite Hg by exact Hx. intros E2. apply (Hf2 E2). apply Hx, E2. }
  assert (Hgd : forall x y, in_dim (cdim c) x -> in_dim (cdim c) y ->
     bsum (cdim c) (fun k => (coord k (g x) - coord k (g y)) * (coord k (g x) - coord k (g y))) =
     bsum (cdim c) (fun k => (coord k x - coord k y) * (coord k x - coord k y))).
  { intros x y Hx Hy. apply sqrt_eq; try apply sum_sq_nonneg. rewrite <- !dist_sum by auto using cdim_cases. rewrite !Hg by assumption. apply Hf. }
  assert (Hpos : in_dim (cdim c) pos) by (rewrite <- Hdim; apply (cell_in_dim _ q p), HS).
  assert (Hin : forall i, in_dim (cdim c) (input c A i)) by (intros i E2; unfold input, loc; rewrite E2; reflexivity).
  assert (HI' : forall i, (i < List.length (c_values A))%nat -> input c (with_data A coords (c_values A)) i = g (input c A i)).
  { intros i Hi. rewrite HI by exact Hi. symmetry. apply Hg, Hin. }
  rewrite <- Hg in HS' by exact Hpos.
  assert (HQ1 : Q (fun _ => 1) (fun _ => 0)) by (split; reflexivity).
  assert (HQU : forall us', incl us' us -> forall v, In v (c_v A :: us') -> update_Q E c Euclidean Q v).
  { intros us' Hinc v Hv. apply isotropic_Q, HIso. destruct Hv as [<-|Hv]; [left; reflexivity|right; apply Hinc, Hv]. }
  assert (Hsep : forall sc an, Q sc an -> forall x y, sep_gen Euclidean (cdim c) sc an (g x) (g y) = sep_gen Euclidean (cdim c) sc an x y).
  { intros sc an [H0 H1] x y. unfold sep_gen.
    destruct (cdim_cases c) as [Hc|Hc]; rewrite Hc in *; cbn [Nat.eqb].
    + destruct x as [[a b] c1], y as [[u1 v] w]. unfold g. rewrite Hc. cbn [Nat.eqb].
      pose proof (Hf (a, b, 0) (u1, v, 0)) as HFf.
      pose proof (Hf2 eq_refl (a, b, 0) eq_refl) as F1. pose proof (Hf2 eq_refl (u1, v, 0) eq_refl) as F2.
      destruct (f (a, b, 0)) as [[a' b'] c'], (f (u1, v, 0)) as [[u2 v'] w']. cbn in F1, F2. subst c' w'.
      rewrite (aniso2_iso _ _ (a', b', 0) (u2, v', 0) H0 eq_refl), HFf.
      rewrite <- (aniso2_iso _ (an 0%nat) (a, b, 0) (u1, v, 0) H0 eq_refl). unfold aniso2, sub3, dot3. f_equal. f_equal.
      * f_equal; ring.
      * f_equal; f_equal; ring.
    + unfold g. rewrite Hc. cbn [Nat.eqb]. rewrite !aniso3_iso by auto. apply Hf. }
  destruct (umoved E c A coords D (carry f fs D) us g Q u u' HU HU' (proj1 (proj2 HR)) HI' HQ1 (HQU us (incl_refl us)) Hsep) as [HM HD].
  apply (umotion E c A coords D (carry f fs D) us g Q u u' q q' specs specs' r r' p p' pos HU HU' HI' HQ1 (HQU us (incl_refl us)) Hsep HR HR' HF HF' HS HS' Hreg).
  assert (HFo : iso_frame (u_obj u)) by (unfold iso_frame; rewrite Hdim; apply (mv_Q _ _ _ _ HM)).
  assert (Hdim' : o_dim (u_obj u') = cdim c) by (rewrite (moved_dim _ _ _ _ HM); exact Hdim).
  assert (HFo' : iso_frame (u_obj u')) by (unfold iso_frame; rewrite Hdim', (mv_scaling _ _ _ _ HM); apply (mv_Q _ _ _ _ HM)).
  destruct (ubuilt_obj _ _ _ _ _ _ HU) as (_ & u0 & HC0 & Hd & HC0' & HIn). destruct (ubuilt_obj _ _ _ _ _ _ HU') as (_ & u0' & HD0 & Hd' & HD0' & HIn').
  set (o := u_obj u) in *. set (o' := u_obj u') in *.
  destruct (init_drift_fields _ _ _ _ HIn) as (L1 & E1 & W1 & S1 & F1). destruct (init_drift_fields _ _ _ _ HIn') as (L2 & E2 & W2 & S2 & F2).
  change (asked (carry f fs D)) with (asked D) in *. rewrite <- Hd in L1, E1, W1, S1, F1. rewrite <- Hd' in L2, E2, W2, S2, F2.
  assert (HB0 : ubuilt E c A D [] u0) by (split; [apply HU|exists u0; split; [exact HC0|reflexivity]]).
  assert (HB0' : ubuilt E c (with_data A coords (c_values A)) (carry f fs D) [] u0') by (split; [apply HU'|exists u0'; split; [exact HD0|reflexivity]]).
  assert (HUK : c = UK2 \/ c = UK3) by (rewrite <- HC; apply (ui_class u (ureachable_inv E u (proj1 (proj2 HR))))).
  pose proof (ubuilt_reachable E c A D [] u0 HUK HB0) as RE0. pose proof (ubuilt_reachable _ _ _ _ _ _ HUK HB0') as RE0'.
  assert (HM0 : moved Q (fun i => i) (u_obj u0) (u_obj u0')).
  { apply (umoved E c A coords D (carry f fs D) [] g Q u0 u0' HB0 HB0' RE0 HI' HQ1 (HQU [] (incl_nil_l us)) Hsep). }
  pose proof (built_class _ _ _ _ _ (proj1 (ubuilt_obj _ _ _ _ _ _ HB0))) as HCl0. pose proof (built_class _ _ _ _ _ (proj1 (ubuilt_obj _ _ _ _ _ _ HB0'))) as HCl0'.
  pose proof (uk_class_euclidean E u0 RE0) as Hct0. pose proof (uk_class_euclidean E u0' RE0') as Hct0'.
  (* frames preserve the mutual distances *)
  assert (HFD : forall x y, in_dim (cdim c) x -> in_dim (cdim c) y ->
     bsum (cdim c) (fun k => (coord k (frame o' (g x)) - coord k (frame o' (g y))) * (coord k (frame o' (g x)) - coord k (frame o' (g y)))) =
     bsum (cdim c) (fun k => (coord k (frame o x) - coord k (frame o y)) * (coord k (frame o x) - coord k (frame o y)))).
  { intros x y Hx Hy. pose proof (frame_dist o' (g x) (g y) HFo') as P1. rewrite Hdim' in P1. rewrite P1 by (apply Hg2; assumption).
    pose proof (frame_dist o x y HFo) as P2. rewrite Hdim in P2. rewrite P2 by assumption. apply Hgd; assumption. }
  unfold drift_terms. apply affine_rel_app; [|apply affine_rel_app; [|apply affine_rel_app; [|apply affine_rel_app]]].
  - unfold linear_terms. rewrite L1, L2. destruct (asked D "regional_linear"); [|apply affine_rel_nil]. fold o o'.
    apply linear_affine; try assumption; rewrite ?Hdim; try assumption.
  - unfold well_terms. unfold opt_drift in W1, W2. destruct (_ && asked D "point_log") eqn:EP.
    2:{ injection W1 as <-. injection W2 as <-. apply affine_rel_nil. }
    apply andb_true_iff in EP. destruct EP as [EP1 EP2]. destruct c; try discriminate EP1.
    specialize (HWl eq_refl EP2). subst us.
    assert (EU : u = u0) by (destruct HU as (_ & ux & Hux & ->); cbn; congruence). assert (EU' : u' = u0') by (destruct HU' as (_ & ux & Hux & ->); cbn; congruence).
    assert (Eo : u_obj u0 = o) by (unfold o; rewrite EU; reflexivity). assert (Eo' : u_obj u0' = o') by (unfold o'; rewrite EU'; reflexivity).
    rewrite Eo in W1, Hct0. rewrite Eo' in W2, Hct0'.
    destruct (init_wells D o) as [w1|] eqn:Q1; [|discriminate W1]. destruct (init_wells (carry f fs D) o') as [w2|] eqn:Q2; [|discriminate W2].
    cbn [bind] in W1, W2. injection W1 as <-. injection W2 as <-. cbn [opt_list].
    destruct (wells_frame D o w1 Hdim Hct0 Q1) as (rows & P1 & ->). destruct (wells_frame (carry f fs D) o' w2 Hdim' Hct0' Q2) as (rows' & P2 & ->).
    cbn [carry d_point] in P2. rewrite P1 in P2. cbn [option_map] in P2. injection P2 as <-. apply affine_rel_shift.
    clear P1 Q1 Q2. induction rows as [|[[x y] s] rows IHr]; cbn [map]; [constructor|constructor; [|exact IHr]].
    exists 0. cbn [spatial t_data t_query].
    assert (HP : forall z, in_dim 2 z -> plane_dist (frame o' (g z)) (coord 0 (frame o' (coord 0 (f (x, y, 0)), coord 1 (f (x, y, 0)), 0))) (coord 1 (frame o' (coord 0 (f (x, y, 0)), coord 1 (f (x, y, 0)), 0)))
      = plane_dist (frame o z) (coord 0 (frame o (x, y, 0))) (coord 1 (frame o (x, y, 0)))).
    { intros z Hz. unfold plane_dist. f_equal. replace (coord 0 (f (x, y, 0)), coord 1 (f (x, y, 0)), 0) with (g (x, y, 0)).
      2:{ rewrite Hg by (intros _; reflexivity). specialize (Hf2 eq_refl (x, y, 0) eq_refl). destruct (f (x, y, 0)) as [[a b] d0]. cbn in Hf2 |- *. rewrite Hf2. reflexivity. }
      pose proof (HFD z (x, y, 0) Hz ltac:(intros _; reflexivity)) as K. change (cdim UK2) with 2%nat in K. cbn [bsum] in K. unfold Rsqr. lra. }
    split.
    + intros i Hi. rewrite HD by exact Hi. rewrite HP by (pose proof (datum_in_dim o i) as K; rewrite Hdim in K; exact K). rewrite Rplus_0_r. reflexivity.
    + rewrite HP by exact Hpos. rewrite Rplus_0_r. reflexivity.
  - unfold ext_terms. unfold opt_drift in E1, E2. destruct (_ && asked D "external_Z") eqn:EP.
    + exfalso. apply andb_true_iff in EP. destruct EP as [EP1 EP2]. destruct c; try discriminate. rewrite (HX eq_refl) in EP2. discriminate.
    + injection E1 as <-. injection E2 as <-. apply affine_rel_nil.
  - apply affine_rel_shift, spec_shift; [|exact HSA]. unfold opt_drift in S1, S2. 
    replace (init_specified (carry f fs D) (u_obj u0')) with (init_specified D (u_obj u0)) in S2; [congruence|].
    unfold init_specified. cbn [carry d_spec]. rewrite (mv_n _ _ _ _ HM0). reflexivity.
  - apply affine_rel_shift. unfold fun_terms. unfold opt_drift, init_functional in F1, F2. cbn [carry d_fun] in F2. destruct (asked D "functional"); [|injection F1 as <-; injection F2 as <-; constructor].
    destruct (d_fun D) as [[|h hs]|]; cbn [bind] in F1, F2; try discriminate. destruct fs as [|h' hs']; cbn [bind] in F2; [discriminate|].
    injection F1 as <-. injection F2 as <-. cbn [opt_list] in HFun |- *. clear - HFun HD Hg Hpos Hdim.
    induction HFun as [|h1 h1' l l' H1 HFl IHl]; cbn [map]; [constructor|constructor; [|exact IHl]].
    exists 0. cbn [spatial t_data t_query]. split.
    + intros i Hi. rewrite HD by exact Hi. rewrite Hg by (pose proof (datum_in_dim o i) as K; rewrite Hdim in K; exact K).
      rewrite Rplus_0_r. apply H1.
    + rewrite Hg by exact Hpos. rewrite Rplus_0_r. apply H1.
Qed.
