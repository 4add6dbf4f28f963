(** PROPERTIES C07-C10: anisotropy and great-circle geometry.  Specification
    vocabulary (rad, sphere, dot3, dist3, rotated_axis) is in S_Geometry. *)
From Verif Require Import Base Sums Matrix M_Geometry S_Geometry P_Geometry.

(** C07.  Isotropic settings return the coordinates unchanged; the centre is
    fixed; pure rotations preserve all distances. *)
Theorem C07_isotropic_is_identity :
  forall ndim (X : mat) (center scaling angle : vec),
    (ndim = 2%nat \/ ndim = 3%nat) ->
    exists Y, adjust_for_anisotropy false ndim X center scaling angle = Ok Y /\
      ((forall k, scaling k = 1) -> (forall k, angle k = 0) ->
         forall i j, (j < ndim)%nat -> Y i j = X i j) /\
      (forall i, (forall j, (j < ndim)%nat -> X i j = center j) ->
         forall j, (j < ndim)%nat -> Y i j = center j) /\
      ((forall k, scaling k = 1) ->
         forall i j, bsum ndim (fun k => (Y i k - Y j k)²) = bsum ndim (fun k => (X i k - X j k)²)).
Proof.
  intros ndim X center scaling angle Hn.
  destruct (adjust_supported ndim X center scaling angle Hn) as [Y HY]. exists Y.
  split; [exact HY|].
  split; [intros Hs Ha; exact (adjust_identity ndim X center scaling angle Y Hn Hs Ha HY)|].
  split; [intros i; exact (adjust_center ndim X center scaling angle Y i Hn HY)|].
  intros Hs; exact (adjust_rotation_isometry ndim X center scaling angle Y Hn Hs HY).
Qed.
Print Assumptions C07_isotropic_is_identity.

(** C08, 2D. *)
Theorem C08_anisotropic_distance_2d :
  forall (X : mat) (center scaling angle : vec) Y,
    adjust_for_anisotropy false 2 X center scaling angle = Ok Y ->
    forall i j,
      let dx := X i 0%nat - X j 0%nat in let dy := X i 1%nat - X j 1%nat in
      let a := rad (angle 0%nat) in
      let u := dx * cos a + dy * sin a in let v := - dx * sin a + dy * cos a in
      (Y i 0%nat - Y j 0%nat)² + (Y i 1%nat - Y j 1%nat)² = u² + (scaling 0%nat)² * v².
Proof. exact adjust2_dist. Qed.
Print Assumptions C08_anisotropic_distance_2d.

(** C08, 3D: the frame consists of the axes rotated counter-clockwise about z,
    then y, then x; it is orthonormal. *)
Theorem C08_anisotropic_distance_3d :
  forall (X : mat) (center scaling angle : vec) Y,
    adjust_for_anisotropy false 3 X center scaling angle = Ok Y ->
    let e k := rotated_axis (rad (angle 0%nat)) (rad (angle 1%nat)) (rad (angle 2%nat)) k in
    (dot3 (e (1,0,0)) (e (1,0,0)) = 1 /\ dot3 (e (0,1,0)) (e (0,1,0)) = 1 /\ dot3 (e (0,0,1)) (e (0,0,1)) = 1 /\
     dot3 (e (1,0,0)) (e (0,1,0)) = 0 /\ dot3 (e (1,0,0)) (e (0,0,1)) = 0 /\ dot3 (e (0,1,0)) (e (0,0,1)) = 0) /\
    forall i j,
      let d := (X i 0%nat - X j 0%nat, X i 1%nat - X j 1%nat, X i 2%nat - X j 2%nat) in
      (Y i 0%nat - Y j 0%nat)² + (Y i 1%nat - Y j 1%nat)² + (Y i 2%nat - Y j 2%nat)² =
      (dot3 (e (1,0,0)) d)² + (scaling 0%nat)² * (dot3 (e (0,1,0)) d)²
      + (scaling 1%nat)² * (dot3 (e (0,0,1)) d)².
Proof.
  intros X center scaling angle Y H e.
  exact (conj (rotated_axes_orthonormal _ _ _) (adjust3_dist X center scaling angle Y H)).
Qed.
Print Assumptions C08_anisotropic_distance_3d.

(** C08, periodicity: 360 degrees for the coordinates (any whole number of
    turns, per angle), 180 degrees for 2D distances. *)
Theorem C08_angle_periodic :
  forall ndim (X : mat) (center scaling angle : vec) (turns : nat -> Z) Y Y',
    (ndim = 2%nat \/ ndim = 3%nat) ->
    adjust_for_anisotropy false ndim X center scaling angle = Ok Y ->
    adjust_for_anisotropy false ndim X center scaling (fun m => angle m + 360 * IZR (turns m)) = Ok Y' ->
    forall i j, (j < ndim)%nat -> Y' i j = Y i j.
Proof. intros ndim X c s a t Y Y' Hn. exact (adjust_periodic ndim X c s a 0 t Y Y' Hn eq_refl). Qed.
Print Assumptions C08_angle_periodic.

Theorem C08_half_turn_keeps_distances_2d :
  forall (X : mat) (center scaling angle : vec) Y Y',
    adjust_for_anisotropy false 2 X center scaling angle = Ok Y ->
    adjust_for_anisotropy false 2 X center scaling (fun m => angle m + 180) = Ok Y' ->
    forall i j, bsum 2 (fun k => (Y' i k - Y' j k)²) = bsum 2 (fun k => (Y i k - Y j k)²).
Proof. exact adjust2_period180. Qed.
Print Assumptions C08_half_turn_keeps_distances_2d.

(** Unsupported dimensions and integer arrays are errors, not wrong numbers. *)
Theorem C08_unsupported_inputs_raise :
  forall int_dtype ndim X center scaling angle,
    (int_dtype = true -> adjust_for_anisotropy int_dtype ndim X center scaling angle = Err TypeError) /\
    (adjust_for_anisotropy false 1 X center scaling angle = Err NotImplementedErr) /\
    ((3 < ndim)%nat -> adjust_for_anisotropy false ndim X center scaling angle = Err ValueError).
Proof. exact adjust_errors. Qed.
Print Assumptions C08_unsupported_inputs_raise.

(** C09.  The great-circle distance is a metric on the sphere. *)
Theorem C09_great_circle_metric :
  forall lon1 lat1 lon2 lat2 lon3 lat3,
    let d12 := great_circle_distance lon1 lat1 lon2 lat2 in
    d12 = great_circle_distance lon2 lat2 lon1 lat1 /\
    0 <= d12 <= 180 /\
    (d12 = 0 <-> sphere lon1 lat1 = sphere lon2 lat2) /\
    great_circle_distance lon1 lat1 lon3 lat3 <= d12 + great_circle_distance lon2 lat2 lon3 lat3 /\
    cos (rad d12) = dot3 (sphere lon1 lat1) (sphere lon2 lat2) /\
    (forall k, great_circle_distance (lon1 + 360 * IZR k) lat1 lon2 lat2 = d12).
Proof.
  intros lon1 lat1 lon2 lat2 lon3 lat3 d12.
  split; [exact (gc_sym _ _ _ _)|]. split; [exact (gc_range _ _ _ _)|].
  split; [exact (gc_zero _ _ _ _)|]. split; [exact (gc_triangle _ _ _ _ _ _)|].
  split; [exact (gc_cos _ _ _ _)|].
  intros k. unfold d12. rewrite !gc_dot, sphere_periodic. reflexivity.
Qed.
Print Assumptions C09_great_circle_metric.

(** Sanity: a quarter of the equator is 90 degrees, antipodes are 180 apart. *)
Example C09_examples :
  great_circle_distance 0 0 90 0 = 90 /\ great_circle_distance 10 0 190 0 = 180.
Proof.
  split; rewrite gc_dot, dot3_sphere, rad_0, sin_0, cos_0.
  - replace (rad (0 - 90)) with (- (PI / 2)) by (unfold rad; field).
    rewrite cos_neg, cos_PI2. replace (0 * 0 + 1 * 1 * 0) with 0 by ring.
    rewrite acos_0. field. apply PI_neq0.
  - replace (rad (10 - 190)) with (- PI) by (unfold rad; field).
    rewrite cos_neg, cos_PI. replace (0 * 0 + 1 * 1 * -1) with (-(1)) by ring.
    rewrite acos_opp, acos_1. field. apply PI_neq0.
Qed.

(** C10.  Chord lengths converted by euclid3_to_great_circle are great-circle
    distances, and the two distances order pairs of points identically. *)
Theorem C10_chord_great_circle_consistent :
  forall lon1 lat1 lon2 lat2,
    euclid3_to_great_circle (dist3 (sphere lon1 lat1) (sphere lon2 lat2))
    = Some (great_circle_distance lon1 lat1 lon2 lat2).
Proof. exact chord_to_gc. Qed.
Print Assumptions C10_chord_great_circle_consistent.

(** no distance gives nan, not even one that rounding put above 2 *)
Theorem C10_no_nan :
  forall d, 0 <= d -> exists g, euclid3_to_great_circle d = Some g /\ 0 <= g <= 180 /\ (2 <= d -> g = 180).
Proof.
  intros d H. destruct (chord_number d H) as (g & E & B). exists g. split; [exact E|]. split; [exact B|].
  intros H2. rewrite (chord_clipped d H2) in E. congruence.
Qed.
Print Assumptions C10_no_nan.

Theorem C10_chord_order_is_great_circle_order :
  forall lon1 lat1 lon2 lat2 lon3 lat3 lon4 lat4,
    dist3 (sphere lon1 lat1) (sphere lon2 lat2) <= dist3 (sphere lon3 lat3) (sphere lon4 lat4) <->
    great_circle_distance lon1 lat1 lon2 lat2 <= great_circle_distance lon3 lat3 lon4 lat4.
Proof. exact chord_order. Qed.
Print Assumptions C10_chord_order_is_great_circle_order.

(** Non-vacuity of C07/C08: an anisotropic 3D and 2D adjustment succeeds. *)
Example C08_inhabited :
  (exists Y, adjust_for_anisotropy false 3 (fun i j => INR (i + j)) (fun _ => 1)
    (fun k => INR (k + 2)) (fun k => 30) = Ok Y) /\
  (exists Y, adjust_for_anisotropy false 2 (fun i j => INR (i * j)) (fun _ => 1)
    (fun k => 3) (fun k => 45) = Ok Y).
Proof. split; eexists; reflexivity. Qed.
