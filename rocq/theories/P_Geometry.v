(** PROOFS about M_Geometry. *)
From Verif Require Import Base Sums Matrix M_Geometry S_Geometry.
From Verif Require Import Nz.

Lemma sc1 x : sin x * sin x + cos x * cos x = 1.
Proof. exact (sin2_cos2 x). Qed.

(** *** arctan2 *)
Lemma arctan2_acos y x : 0 <= y -> y * y + x * x = 1 -> arctan2 y x = acos x.
Proof.
  intros Hy H.
  assert (Hx : -1 <= x <= 1) by (pose proof (Rle_0_sqr y); unfold Rsqr in *; split; nra).
  assert (Hyx : y = sqrt (1 - x * x)).
  { symmetry. apply sqrt_lem_1; nra. }
  unfold arctan2.
  destruct (Rltb_spec 0 x) as [H0|H0].
  - rewrite acos_atan by assumption. rewrite Hyx. unfold Rsqr. reflexivity.
  - destruct (Rltb_spec x 0) as [H1|H1].
    + destruct (Rleb_spec 0 y); [|contradiction].
      assert (E : acos x = PI - acos (- x)).
      { rewrite acos_opp. ring. }
      rewrite E. rewrite (acos_atan (- x)) by lra.
      replace (sqrt (1 - (- x)²) / - x) with (- (y / x)).
      * rewrite atan_opp. ring.
      * replace (1 - (- x)²) with (1 - x * x) by (unfold Rsqr; ring).
        rewrite <- Hyx. field; apply Rlt_not_eq; assumption.
    + assert (x = 0) by lra. subst x.
      destruct (Rltb_spec 0 y) as [H2|H2]; [rewrite acos_0; reflexivity|].
      assert (E0 : y = 0) by lra. rewrite E0 in H. lra.
Qed.

(** *** Great circle *)
Lemma dot3_sphere lon1 lat1 lon2 lat2 :
  dot3 (sphere lon1 lat1) (sphere lon2 lat2) =
  sin (rad lat1) * sin (rad lat2) + cos (rad lat1) * cos (rad lat2) * cos (rad (lon1 - lon2)).
Proof.
  unfold dot3, sphere. replace (rad (lon1 - lon2)) with (rad lon1 - rad lon2) by (unfold rad; field).
  rewrite cos_minus. ring.
Qed.

Lemma sphere_unit lon lat : dot3 (sphere lon lat) (sphere lon lat) = 1.
Proof.
  rewrite dot3_sphere. replace (rad (lon - lon)) with 0 by (unfold rad; field).
  rewrite cos_0. pose proof (sc1 (rad lat)). lra.
Qed.

Lemma dot3_comm p q : dot3 p q = dot3 q p.
Proof. destruct p as [[x y] z], q as [[u v] w]; simpl; ring. Qed.

Lemma cauchy3 p q : dot3 p q * dot3 p q <= dot3 p p * dot3 q q.
Proof.
  destruct p as [[a b] c], q as [[x y] z]; simpl.
  assert (0 <= (a * y - b * x) * (a * y - b * x) + (a * z - c * x) * (a * z - c * x)
               + (b * z - c * y) * (b * z - c * y)).
  { pose proof (Rle_0_sqr (a * y - b * x)). pose proof (Rle_0_sqr (a * z - c * x)).
    pose proof (Rle_0_sqr (b * z - c * y)). unfold Rsqr in *. lra. }
  nra.
Qed.

Lemma dot3_unit_range p q : dot3 p p = 1 -> dot3 q q = 1 -> -1 <= dot3 p q <= 1.
Proof. intros Hp Hq. pose proof (cauchy3 p q). rewrite Hp, Hq in H. split; nra. Qed.

Lemma gc_dot lon1 lat1 lon2 lat2 :
  great_circle_distance lon1 lat1 lon2 lat2 =
  180 / PI * acos (dot3 (sphere lon1 lat1) (sphere lon2 lat2)).
Proof.
  unfold great_circle_distance. f_equal. rewrite dot3_sphere. unfold rad.
  set (a := lat1 * PI / 180). set (b := lat2 * PI / 180). set (d := (lon1 - lon2) * PI / 180).
  apply arctan2_acos; [apply sqrt_pos|].
  rewrite sqrt_sqrt.
  - pose proof (sc1 a). pose proof (sc1 b). pose proof (sc1 d). nsz.
  - pose proof (Rle_0_sqr (cos b * sin d)). pose proof (Rle_0_sqr (cos a * sin b - sin a * cos b * cos d)).
    unfold Rsqr in *. lra.
Qed.

Lemma PI_pos : 0 < PI. Proof. exact PI_RGT_0. Qed.
Lemma k_pos : 0 < 180 / PI.
Proof. apply Rdiv_lt_0_compat; [lra|apply PI_pos]. Qed.

Lemma gc_sym lon1 lat1 lon2 lat2 :
  great_circle_distance lon1 lat1 lon2 lat2 = great_circle_distance lon2 lat2 lon1 lat1.
Proof. rewrite !gc_dot, dot3_comm. reflexivity. Qed.

Lemma gc_range lon1 lat1 lon2 lat2 : 0 <= great_circle_distance lon1 lat1 lon2 lat2 <= 180.
Proof.
  rewrite gc_dot. pose proof (acos_bound (dot3 (sphere lon1 lat1) (sphere lon2 lat2))) as [H1 H2].
  pose proof k_pos. split; [apply Rmult_le_pos; lra|].
  replace 180 with (180 / PI * PI) at 2 by (field; apply PI_neq0).
  apply Rmult_le_compat_l; lra.
Qed.

Lemma gc_cos lon1 lat1 lon2 lat2 :
  cos (rad (great_circle_distance lon1 lat1 lon2 lat2)) = dot3 (sphere lon1 lat1) (sphere lon2 lat2).
Proof.
  rewrite gc_dot. unfold rad.
  replace (180 / PI * acos (dot3 (sphere lon1 lat1) (sphere lon2 lat2)) * PI / 180)
    with (acos (dot3 (sphere lon1 lat1) (sphere lon2 lat2))) by (field; apply PI_neq0).
  apply cos_acos, dot3_unit_range; apply sphere_unit.
Qed.

Lemma dot3_1_eq p q : dot3 p p = 1 -> dot3 q q = 1 -> dot3 p q = 1 -> p = q.
Proof.
  destruct p as [[a b] c], q as [[x y] z]; simpl. intros H1 H2 H3.
  assert (E : (a - x) * (a - x) + (b - y) * (b - y) + (c - z) * (c - z) = 0) by nra.
  assert (a - x = 0 /\ b - y = 0 /\ c - z = 0) as (E1 & E2 & E3).
  { pose proof (Rle_0_sqr (a - x)) as S1. pose proof (Rle_0_sqr (b - y)) as S2.
    pose proof (Rle_0_sqr (c - z)) as S3. unfold Rsqr in *.
    repeat split; apply Rsqr_0_uniq; unfold Rsqr; lra. }
  replace x with a by lra. replace y with b by lra. replace z with c by lra. reflexivity.
Qed.

Lemma gc_zero lon1 lat1 lon2 lat2 :
  great_circle_distance lon1 lat1 lon2 lat2 = 0 <-> sphere lon1 lat1 = sphere lon2 lat2.
Proof.
  split; intros H.
  - apply dot3_1_eq; try apply sphere_unit. rewrite <- gc_cos, H.
    replace (rad 0) with 0 by (unfold rad; field). apply cos_0.
  - rewrite gc_dot, H, sphere_unit, acos_1. ring.
Qed.

Lemma sphere_periodic lon lat k : sphere (lon + 360 * IZR k) lat = sphere lon lat.
Proof.
  assert (E : rad (lon + 360 * IZR k) = rad lon + 2 * IZR k * PI) by (unfold rad; field).
  assert (Hc : cos (rad lon + 2 * IZR k * PI) = cos (rad lon) /\ sin (rad lon + 2 * IZR k * PI) = sin (rad lon)).
  { destruct (Z_le_gt_dec 0 k) as [Hk|Hk].
    - destruct (IZN k Hk) as [n ->]. rewrite <- INR_IZR_INZ. split; [apply cos_period|apply sin_period].
    - destruct (IZN (- k)) as [n Hn]; [lia|].
      assert (Ek : IZR k = - INR n) by (rewrite INR_IZR_INZ, <- Hn, opp_IZR; ring).
      rewrite Ek. split.
      + rewrite <- (cos_period (rad lon + 2 * - INR n * PI) n). f_equal. ring.
      + rewrite <- (sin_period (rad lon + 2 * - INR n * PI) n). f_equal. ring. }
  unfold sphere. rewrite E. destruct Hc as [-> ->]. reflexivity.
Qed.

Lemma acos_le x y : -1 <= x <= 1 -> -1 <= y <= 1 -> x <= y -> acos y <= acos x.
Proof.
  intros Hx Hy H. destruct (Rle_dec (acos y) (acos x)) as [|Hn]; [assumption|exfalso].
  apply Rnot_le_lt in Hn.
  pose proof (acos_bound x). pose proof (acos_bound y).
  assert (cos (acos y) < cos (acos x)) by (apply cos_decreasing_1; lra).
  rewrite !cos_acos in H2 by assumption. lra.
Qed.

Lemma acos_triangle p q r : dot3 p p = 1 -> dot3 q q = 1 -> dot3 r r = 1 ->
  acos (dot3 p r) <= acos (dot3 p q) + acos (dot3 q r).
Proof.
  intros Hp Hq Hr.
  set (a := acos (dot3 p q)). set (b := acos (dot3 q r)).
  pose proof (acos_bound (dot3 p q)) as Ha. fold a in Ha.
  pose proof (acos_bound (dot3 q r)) as Hb. fold b in Hb.
  pose proof (acos_bound (dot3 p r)) as Hc.
  destruct (Rle_dec PI (a + b)) as [H|H]; [lra|]. apply Rnot_le_lt in H.
  rewrite <- (acos_cos (a + b)) by lra.
  assert (Rng := dot3_unit_range p r Hp Hr).
  apply acos_le; [split; [pose proof (COS_bound (a + b)); lra|pose proof (COS_bound (a + b)); lra]|exact Rng|].
  rewrite cos_plus.
  assert (Ea : cos a = dot3 p q) by (apply cos_acos, dot3_unit_range; assumption).
  assert (Eb : cos b = dot3 q r) by (apply cos_acos, dot3_unit_range; assumption).
  assert (Hsa : 0 <= sin a) by (apply sin_ge_0; lra).
  assert (Hsb : 0 <= sin b) by (apply sin_ge_0; lra).
  pose proof (sc1 a) as Sa. pose proof (sc1 b) as Sb.
  (* residuals orthogonal to q *)
  destruct p as [[p1 p2] p3], q as [[q1 q2] q3], r as [[r1 r2] r3]. simpl in *.
  set (x := p1 * q1 + p2 * q2 + p3 * q3) in *. set (y := q1 * r1 + q2 * r2 + q3 * r3) in *.
  pose proof (cauchy3 (p1 - x * q1, p2 - x * q2, p3 - x * q3) (r1 - y * q1, r2 - y * q2, r3 - y * q3)) as CS.
  simpl in CS.
  set (D := (p1 - x * q1) * (r1 - y * q1) + (p2 - x * q2) * (r2 - y * q2) + (p3 - x * q3) * (r3 - y * q3)) in *.
  assert (ED : D = p1 * r1 + p2 * r2 + p3 * r3 - x * y).
  { unfold D. transitivity (p1 * r1 + p2 * r2 + p3 * r3 - x * y + x * y * (q1 * q1 + q2 * q2 + q3 * q3 - 1));
      [unfold x, y; ring|rewrite Hq; ring]. }
  assert (E1 : (p1 - x * q1) * (p1 - x * q1) + (p2 - x * q2) * (p2 - x * q2) + (p3 - x * q3) * (p3 - x * q3) = sin a * sin a).
  { transitivity ((p1 * p1 + p2 * p2 + p3 * p3) - x * x + x * x * (q1 * q1 + q2 * q2 + q3 * q3 - 1));
      [unfold x; ring|rewrite Hq, Hp; rewrite Ea in Sa; lra]. }
  assert (E2 : (r1 - y * q1) * (r1 - y * q1) + (r2 - y * q2) * (r2 - y * q2) + (r3 - y * q3) * (r3 - y * q3) = sin b * sin b).
  { transitivity ((r1 * r1 + r2 * r2 + r3 * r3) - y * y + y * y * (q1 * q1 + q2 * q2 + q3 * q3 - 1));
      [unfold y; ring|rewrite Hq, Hr; rewrite Eb in Sb; lra]. }
  rewrite E1, E2 in CS. rewrite Ea, Eb.
  assert (0 <= sin a * sin b) by (apply Rmult_le_pos; assumption).
  assert (- (sin a * sin b) <= D) by nra.
  lra.
Qed.

Lemma gc_triangle lon1 lat1 lon2 lat2 lon3 lat3 :
  great_circle_distance lon1 lat1 lon3 lat3 <=
  great_circle_distance lon1 lat1 lon2 lat2 + great_circle_distance lon2 lat2 lon3 lat3.
Proof.
  rewrite !gc_dot. rewrite <- Rmult_plus_distr_l.
  apply Rmult_le_compat_l; [left; apply k_pos|].
  apply acos_triangle; apply sphere_unit.
Qed.

(** *** Chord (C10) *)
Lemma dist3_dot p q : dot3 p p = 1 -> dot3 q q = 1 -> dist3 p q = sqrt (2 - 2 * dot3 p q).
Proof.
  intros Hp Hq. destruct p as [[a b] c], q as [[x y] z]. simpl in *. f_equal. nra.
Qed.

Lemma chord_sin t : 0 <= t <= PI -> sqrt (2 - 2 * cos t) = 2 * sin (t / 2).
Proof.
  intros Ht. apply sqrt_lem_1.
  - pose proof (COS_bound t). lra.
  - assert (0 <= sin (t / 2)) by (apply sin_ge_0; lra). lra.
  - replace (cos t) with (cos (2 * (t / 2))) by (f_equal; field).
    rewrite cos_2a_sin. ring.
Qed.

Lemma np_arccos_in x : -1 <= x <= 1 -> np_arccos x = Some (acos x).
Proof.
  intros [H1 H2]. unfold np_arccos. destruct (Rleb_spec (-1) x); [|lra]. destruct (Rleb_spec x 1); [|lra]. reflexivity.
Qed.

Lemma chord_to_gc lon1 lat1 lon2 lat2 :
  euclid3_to_great_circle (dist3 (sphere lon1 lat1) (sphere lon2 lat2)) =
  Some (great_circle_distance lon1 lat1 lon2 lat2).
Proof.
  rewrite gc_dot, dist3_dot by apply sphere_unit.
  set (x := dot3 (sphere lon1 lat1) (sphere lon2 lat2)).
  assert (Hx : -1 <= x <= 1) by (apply dot3_unit_range; apply sphere_unit).
  pose proof (acos_bound x) as Hb. set (t := acos x) in *.
  assert (E : x = cos t) by (unfold t; rewrite cos_acos; [reflexivity|exact Hx]).
  rewrite E, chord_sin by exact Hb.
  unfold euclid3_to_great_circle.
  destruct (Rltb_spec 2 (2 * sin (t / 2))) as [H|_]; [pose proof (SIN_bound (t / 2)); lra|].
  replace (/ 2 * (2 * sin (t / 2))) with (sin (t / 2)) by field.
  rewrite np_arccos_in by apply SIN_bound. cbn [option_map].
  rewrite <- cos_shift. rewrite acos_cos by lra. f_equal. field. apply PI_neq0.
Qed.

Lemma chord_clipped d : 2 <= d -> euclid3_to_great_circle d = Some 180.
Proof.
  intros H. unfold euclid3_to_great_circle. cbv zeta.
  replace (if Rltb 2 d then 2 else d) with 2 by (destruct (Rltb_spec 2 d); lra).
  rewrite np_arccos_in by lra. cbn [option_map]. f_equal. replace (/ 2 * 2) with 1 by field. rewrite acos_1. ring.
Qed.
Lemma chord_number d : 0 <= d -> exists g, euclid3_to_great_circle d = Some g /\ 0 <= g <= 180.
Proof.
  intros H. unfold euclid3_to_great_circle. cbv zeta. set (c := if Rltb 2 d then 2 else d).
  assert (C : 0 <= c <= 2) by (unfold c; destruct (Rltb_spec 2 d); lra).
  rewrite np_arccos_in by lra. cbn [option_map]. eexists. split; [reflexivity|].
  pose proof (acos_bound (/ 2 * c)) as B.
  assert (B2 : acos (/ 2 * c) <= PI / 2). { rewrite <- acos_0. apply acos_le; lra. }
  pose proof PI_RGT_0. assert (E : 360 / PI * (PI / 2) = 180) by (field; lra).
  assert (0 <= 360 / PI * acos (/ 2 * c) <= 180).
  { split; [apply Rmult_le_pos; [apply Rlt_le, Rdiv_lt_0_compat; lra|lra]|]. rewrite <- E. apply Rmult_le_compat_l; [apply Rlt_le, Rdiv_lt_0_compat; lra|lra]. }
  lra.
Qed.

Lemma chord_order lon1 lat1 lon2 lat2 lon3 lat3 lon4 lat4 :
  dist3 (sphere lon1 lat1) (sphere lon2 lat2) <= dist3 (sphere lon3 lat3) (sphere lon4 lat4) <->
  great_circle_distance lon1 lat1 lon2 lat2 <= great_circle_distance lon3 lat3 lon4 lat4.
Proof.
  rewrite !gc_dot, !dist3_dot by apply sphere_unit.
  set (x := dot3 (sphere lon1 lat1) (sphere lon2 lat2)).
  set (y := dot3 (sphere lon3 lat3) (sphere lon4 lat4)).
  assert (Hx : -1 <= x <= 1) by (apply dot3_unit_range; apply sphere_unit).
  assert (Hy : -1 <= y <= 1) by (apply dot3_unit_range; apply sphere_unit).
  split; intros H.
  - apply Rmult_le_compat_l; [left; apply k_pos|]. apply acos_le; try assumption.
    apply sqrt_le_0 in H; lra.
  - apply Rmult_le_reg_l in H; [|apply k_pos].
    apply sqrt_le_1; try lra.
    assert (y <= x); [|lra].
    rewrite <- (cos_acos x), <- (cos_acos y) by assumption.
    pose proof (acos_bound x). pose proof (acos_bound y).
    apply cos_decr_1; lra.
Qed.

(** *** Anisotropy (C07, C08) *)
Lemma adjust2_explicit X center scaling angle Y :
  adjust_for_anisotropy false 2 X center scaling angle = Ok Y ->
  let a := rad (angle 0%nat) in
  forall i,
    Y i 0%nat = cos a * (X i 0%nat - center 0%nat) + sin a * (X i 1%nat - center 1%nat) + center 0%nat /\
    Y i 1%nat = scaling 0%nat * (- sin a * (X i 0%nat - center 0%nat) + cos a * (X i 1%nat - center 1%nat)) + center 1%nat.
Proof.
  intros H a i. unfold adjust_for_anisotropy in H. cbn [stretch_rot bind] in H.
  injection H as <-. unfold trm, mulm. cbn [bsum mat2].
  fold (rad (angle 0%nat)). fold a. rewrite cos_neg, sin_neg. split; ring.
Qed.

Lemma adjust3_explicit X center scaling angle Y :
  adjust_for_anisotropy false 3 X center scaling angle = Ok Y ->
  let e k := rotated_axis (rad (angle 0%nat)) (rad (angle 1%nat)) (rad (angle 2%nat)) k in
  forall i, let d := (X i 0%nat - center 0%nat, X i 1%nat - center 1%nat, X i 2%nat - center 2%nat) in
    Y i 0%nat = dot3 (e (1, 0, 0)) d + center 0%nat /\
    Y i 1%nat = scaling 0%nat * dot3 (e (0, 1, 0)) d + center 1%nat /\
    Y i 2%nat = scaling 1%nat * dot3 (e (0, 0, 1)) d + center 2%nat.
Proof.
  intros H e i d. unfold adjust_for_anisotropy in H. cbn [stretch_rot bind] in H.
  injection H as <-. unfold trm, mulm. cbn [bsum mat3].
  fold (rad (angle 0%nat)). fold (rad (angle 1%nat)). fold (rad (angle 2%nat)).
  unfold e, d, rotated_axis, rotx, roty, rotz, dot3. rewrite !cos_neg, !sin_neg.
  repeat split; ring.
Qed.

Lemma rotated_axes_orthonormal ax ay az :
  let e k := rotated_axis ax ay az k in
  dot3 (e (1,0,0)) (e (1,0,0)) = 1 /\ dot3 (e (0,1,0)) (e (0,1,0)) = 1 /\ dot3 (e (0,0,1)) (e (0,0,1)) = 1 /\
  dot3 (e (1,0,0)) (e (0,1,0)) = 0 /\ dot3 (e (1,0,0)) (e (0,0,1)) = 0 /\ dot3 (e (0,1,0)) (e (0,0,1)) = 0.
Proof.
  assert (Gx : forall p q, dot3 (rotx ax p) (rotx ax q) = dot3 p q).
  { intros [[a b] c] [[x y] z]. unfold rotx, dot3. pose proof (sc1 ax). nsz. }
  assert (Gy : forall p q, dot3 (roty ay p) (roty ay q) = dot3 p q).
  { intros [[a b] c] [[x y] z]. unfold roty, dot3. pose proof (sc1 ay). nsz. }
  assert (Gz : forall p q, dot3 (rotz az p) (rotz az q) = dot3 p q).
  { intros [[a b] c] [[x y] z]. unfold rotz, dot3. pose proof (sc1 az). nsz. }
  intros e. unfold e, rotated_axis. rewrite !Gx, !Gy, !Gz. cbn [dot3]. repeat split; ring.
Qed.

Lemma parseval3 ax ay az d :
  let e k := rotated_axis ax ay az k in
  dot3 (e (1,0,0)) d * dot3 (e (1,0,0)) d + dot3 (e (0,1,0)) d * dot3 (e (0,1,0)) d
  + dot3 (e (0,0,1)) d * dot3 (e (0,0,1)) d = dot3 d d.
Proof.
  intros e.
  (* rotate back: e_k . d = (inverse rotation of d)_k *)
  assert (Gx : forall p q, dot3 (rotx ax p) q = dot3 p (rotx (- ax) q)).
  { intros [[a b] c] [[x y] z]. unfold rotx, dot3. rewrite cos_neg, sin_neg. ring. }
  assert (Gy : forall p q, dot3 (roty ay p) q = dot3 p (roty (- ay) q)).
  { intros [[a b] c] [[x y] z]. unfold roty, dot3. rewrite cos_neg, sin_neg. ring. }
  assert (Gz : forall p q, dot3 (rotz az p) q = dot3 p (rotz (- az) q)).
  { intros [[a b] c] [[x y] z]. unfold rotz, dot3. rewrite cos_neg, sin_neg. ring. }
  assert (Nx : forall p, dot3 (rotx (- ax) p) (rotx (- ax) p) = dot3 p p).
  { intros [[x y] z]. unfold rotx, dot3. pose proof (sc1 (- ax)). nsz. }
  assert (Ny : forall p, dot3 (roty (- ay) p) (roty (- ay) p) = dot3 p p).
  { intros [[x y] z]. unfold roty, dot3. pose proof (sc1 (- ay)). nsz. }
  assert (Nz : forall p, dot3 (rotz (- az) p) (rotz (- az) p) = dot3 p p).
  { intros [[x y] z]. unfold rotz, dot3. pose proof (sc1 (- az)). nsz. }
  unfold e, rotated_axis. rewrite !Gx, !Gy, !Gz.
  rewrite <- (Nx d), <- (Ny (rotx (- ax) d)), <- (Nz (roty (- ay) (rotx (- ax) d))).
  destruct (rotz (- az) (roty (- ay) (rotx (- ax) d))) as [[x y] z].
  cbn [dot3]. ring.
Qed.

Lemma cos_sin_period a k : cos (rad (a + 360 * IZR k)) = cos (rad a) /\ sin (rad (a + 360 * IZR k)) = sin (rad a).
Proof.
  pose proof (sphere_periodic a 0 k) as H. unfold sphere in H.
  replace (rad 0) with 0 in H by (unfold rad; field). rewrite cos_0 in H.
  injection H as H1 H2. split; lra.
Qed.

Lemma adjust_supported ndim X center scaling angle :
  (ndim = 2%nat \/ ndim = 3%nat) ->
  exists Y, adjust_for_anisotropy false ndim X center scaling angle = Ok Y.
Proof. intros [->| ->]; eexists; reflexivity. Qed.

Lemma adjust2_dist X center scaling angle Y :
  adjust_for_anisotropy false 2 X center scaling angle = Ok Y ->
  forall i j,
    let dx := X i 0%nat - X j 0%nat in let dy := X i 1%nat - X j 1%nat in
    let a := rad (angle 0%nat) in
    let u := dx * cos a + dy * sin a in let v := - dx * sin a + dy * cos a in
    (Y i 0%nat - Y j 0%nat)² + (Y i 1%nat - Y j 1%nat)² = u² + (scaling 0%nat)² * v².
Proof.
  intros H i j dx dy a u v. pose proof (adjust2_explicit _ _ _ _ _ H) as E. cbv zeta in E.
  destruct (E i) as [-> ->], (E j) as [-> ->]. unfold Rsqr, u, v, dx, dy, a. ring.
Qed.

Lemma adjust3_dist X center scaling angle Y :
  adjust_for_anisotropy false 3 X center scaling angle = Ok Y ->
  forall i j,
    let d := (X i 0%nat - X j 0%nat, X i 1%nat - X j 1%nat, X i 2%nat - X j 2%nat) in
    let e k := rotated_axis (rad (angle 0%nat)) (rad (angle 1%nat)) (rad (angle 2%nat)) k in
    (Y i 0%nat - Y j 0%nat)² + (Y i 1%nat - Y j 1%nat)² + (Y i 2%nat - Y j 2%nat)² =
    (dot3 (e (1,0,0)) d)² + (scaling 0%nat)² * (dot3 (e (0,1,0)) d)² + (scaling 1%nat)² * (dot3 (e (0,0,1)) d)².
Proof.
  intros H i j d e. pose proof (adjust3_explicit _ _ _ _ _ H) as E. cbv zeta in E.
  destruct (E i) as (-> & -> & ->), (E j) as (-> & -> & ->).
  unfold d, e.
  destruct (rotated_axis (rad (angle 0%nat)) (rad (angle 1%nat)) (rad (angle 2%nat)) (1,0,0)) as [[a1 a2] a3].
  destruct (rotated_axis (rad (angle 0%nat)) (rad (angle 1%nat)) (rad (angle 2%nat)) (0,1,0)) as [[b1 b2] b3].
  destruct (rotated_axis (rad (angle 0%nat)) (rad (angle 1%nat)) (rad (angle 2%nat)) (0,0,1)) as [[c1 c2] c3].
  unfold dot3, Rsqr. ring.
Qed.

Lemma rad_0 : rad 0 = 0. Proof. unfold rad; field. Qed.

Lemma adjust_identity ndim X center scaling angle Y :
  (ndim = 2%nat \/ ndim = 3%nat) ->
  (forall k, scaling k = 1) -> (forall k, angle k = 0) ->
  adjust_for_anisotropy false ndim X center scaling angle = Ok Y ->
  forall i j, (j < ndim)%nat -> Y i j = X i j.
Proof.
  intros [->| ->] Hs Ha H i j Hj.
  - pose proof (adjust2_explicit _ _ _ _ _ H) as E. cbv zeta in E.
    rewrite Ha, Hs, rad_0, cos_0, sin_0 in E. destruct (E i) as [E0 E1].
    destruct j as [|[|j]]; [lra|lra|lia].
  - pose proof (adjust3_explicit _ _ _ _ _ H) as E. cbv zeta in E.
    unfold rotated_axis, rotx, roty, rotz, dot3 in E.
    rewrite !Ha, !Hs, rad_0, cos_0, sin_0 in E. destruct (E i) as (E0 & E1 & E2).
    destruct j as [|[|[|j]]]; [lra|lra|lra|lia].
Qed.

Lemma adjust_center ndim X center scaling angle Y i :
  (ndim = 2%nat \/ ndim = 3%nat) ->
  adjust_for_anisotropy false ndim X center scaling angle = Ok Y ->
  (forall j, (j < ndim)%nat -> X i j = center j) ->
  forall j, (j < ndim)%nat -> Y i j = center j.
Proof.
  intros [->| ->] H HX j Hj.
  - pose proof (adjust2_explicit _ _ _ _ _ H i) as [E0 E1].
    rewrite !HX in E0, E1 by lia. destruct j as [|[|j]]; [lra|lra|lia].
  - pose proof (adjust3_explicit _ _ _ _ _ H i) as (E0 & E1 & E2).
    unfold rotated_axis, rotx, roty, rotz, dot3 in E0, E1, E2.
    rewrite !HX in E0, E1, E2 by lia. destruct j as [|[|[|j]]]; [lra|lra|lra|lia].
Qed.

Lemma adjust_rotation_isometry ndim X center scaling angle Y :
  (ndim = 2%nat \/ ndim = 3%nat) ->
  (forall k, scaling k = 1) ->
  adjust_for_anisotropy false ndim X center scaling angle = Ok Y ->
  forall i j, bsum ndim (fun k => (Y i k - Y j k)²) = bsum ndim (fun k => (X i k - X j k)²).
Proof.
  intros [->| ->] Hs H i j; cbn [bsum].
  - pose proof (adjust2_dist _ _ _ _ _ H i j) as E. cbv zeta in E. rewrite Hs in E.
    rewrite Rplus_0_l, E. unfold Rsqr. pose proof (sc1 (rad (angle 0%nat))). nsz.
  - pose proof (adjust3_dist _ _ _ _ _ H i j) as E. cbv zeta in E. rewrite !Hs in E.
    rewrite Rplus_0_l, E.
    pose proof (parseval3 (rad (angle 0%nat)) (rad (angle 1%nat)) (rad (angle 2%nat))
       (X i 0%nat - X j 0%nat, X i 1%nat - X j 1%nat, X i 2%nat - X j 2%nat)) as P. cbv zeta in P.
    unfold Rsqr in *.
    transitivity (dot3 (X i 0%nat - X j 0%nat, X i 1%nat - X j 1%nat, X i 2%nat - X j 2%nat)
      (X i 0%nat - X j 0%nat, X i 1%nat - X j 1%nat, X i 2%nat - X j 2%nat)); [rewrite <- P; ring|].
    cbn [dot3]. ring.
Qed.

Lemma adjust_periodic ndim X center scaling angle k (shift : nat -> Z) Y Y' :
  (ndim = 2%nat \/ ndim = 3%nat) -> k = 0%nat ->
  adjust_for_anisotropy false ndim X center scaling angle = Ok Y ->
  adjust_for_anisotropy false ndim X center scaling (fun m => angle m + 360 * IZR (shift m)) = Ok Y' ->
  forall i j, (j < ndim)%nat -> Y' i j = Y i j.
Proof.
  intros [->| ->] _ H H' i j Hj.
  - pose proof (adjust2_explicit _ _ _ _ _ H i) as [E0 E1].
    pose proof (adjust2_explicit _ _ _ _ _ H' i) as [E0' E1'].
    destruct (cos_sin_period (angle 0%nat) (shift 0%nat)) as [C S]. rewrite C, S in E0', E1'.
    destruct j as [|[|j]]; [lra|lra|lia].
  - pose proof (adjust3_explicit _ _ _ _ _ H i) as (E0 & E1 & E2).
    pose proof (adjust3_explicit _ _ _ _ _ H' i) as (E0' & E1' & E2').
    unfold rotated_axis, rotx, roty, rotz in E0, E1, E2, E0', E1', E2'.
    destruct (cos_sin_period (angle 0%nat) (shift 0%nat)) as [C0 S0].
    destruct (cos_sin_period (angle 1%nat) (shift 1%nat)) as [C1 S1].
    destruct (cos_sin_period (angle 2%nat) (shift 2%nat)) as [C2 S2].
    rewrite ?C0, ?S0, ?C1, ?S1, ?C2, ?S2 in E0', E1', E2'.
    destruct j as [|[|[|j]]]; [congruence|congruence|congruence|lia].
Qed.

Lemma adjust2_period180 X center scaling angle Y Y' :
  adjust_for_anisotropy false 2 X center scaling angle = Ok Y ->
  adjust_for_anisotropy false 2 X center scaling (fun m => angle m + 180) = Ok Y' ->
  forall i j, bsum 2 (fun k => (Y' i k - Y' j k)²) = bsum 2 (fun k => (Y i k - Y j k)²).
Proof.
  intros H H' i j. cbn [bsum].
  pose proof (adjust2_dist _ _ _ _ _ H i j) as E. pose proof (adjust2_dist _ _ _ _ _ H' i j) as E'.
  cbv zeta in *. rewrite !Rplus_0_l, E, E'.
  replace (rad (angle 0%nat + 180)) with (rad (angle 0%nat) + PI) by (unfold rad; field).
  rewrite neg_cos, neg_sin. unfold Rsqr. ring.
Qed.

Lemma adjust_errors int_dtype ndim X center scaling angle :
  (int_dtype = true -> adjust_for_anisotropy int_dtype ndim X center scaling angle = Err TypeError) /\
  (adjust_for_anisotropy false 1 X center scaling angle = Err NotImplementedErr) /\
  ((3 < ndim)%nat -> adjust_for_anisotropy false ndim X center scaling angle = Err ValueError).
Proof.
  split; [intros ->; reflexivity|]. split; [reflexivity|].
  intros H. destruct ndim as [|[|[|[|n]]]]; try lia. reflexivity.
Qed.
