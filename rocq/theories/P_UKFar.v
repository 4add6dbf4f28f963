(** C79 for universal kriging: predictions depend continuously on location and drift values. *)
From Coq Require Import String.
From Verif Require Import Base Sums Matrix M_Variogram P_Variogram M_Geometry S_Geometry P_Geometry M_Kriging S_Kriging
  P_Kriging P_OKSpec M_Init M_Object M_Execute S_Execute P_Object P_Execute P_Cells P_OK P_Exec2 P_Psd P_Psd2 P_Turn4 P_Valid S_Line P_Line P_Far
  M_UK S_UK P_UK P_UK2 P_UK3 P_UK4 P_UK5 P_UK19.

(** linear forms and quadratic forms in the right-hand side are continuous *)
Lemma near_forms (N : nat) (B : mat) (c b0 : vec) : forall e, 0 < e -> exists dl, 0 < dl /\ forall b, (forall i, (i < N)%nat -> Rabs (b i - b0 i) <= dl) ->
  Rabs (bsum N (fun i => mulv N B b i * c i) - bsum N (fun i => mulv N B b0 i * c i)) < e /\
  Rabs (bsum N (fun i => mulv N B b i * b i) - bsum N (fun i => mulv N B b0 i * b0 i)) < e.
Proof.
  intros e He.
  set (K := bsum N (fun i => bsum N (fun k => Rabs (B i k)))).
  assert (HK : 0 <= K) by (apply bsum_nonneg; intros; apply bsum_nonneg; intros; apply Rabs_pos).
  set (Z := bsum N (fun i => Rabs (c i))). set (W := bsum N (fun i => Rabs (mulv N B b0 i))). set (G := bsum N (fun i => Rabs (b0 i))).
  assert (HZ : 0 <= Z) by (apply bsum_nonneg; intros; apply Rabs_pos). assert (HW : 0 <= W) by (apply bsum_nonneg; intros; apply Rabs_pos). assert (HG : 0 <= G) by (apply bsum_nonneg; intros; apply Rabs_pos).
  assert (HN : 0 <= INR N) by apply pos_INR.
  set (L := 1 + K * Z + W + K * INR N + K * G).
  assert (KZ := Rmult_le_pos _ _ HK HZ). assert (KN := Rmult_le_pos _ _ HK HN). assert (KG := Rmult_le_pos _ _ HK HG).
  assert (HL0 : 1 <= L) by (unfold L; lra).
  set (dl := Rmin 1 (e / (2 * L))).
  assert (Hdl : 0 < dl) by (unfold dl; apply Rmin_glb_lt; [lra|apply Rdiv_lt_0_compat; lra]).
  assert (Hdl1 : dl <= 1) by apply Rmin_l.
  assert (HdlL : dl * L < e).
  { apply Rle_lt_trans with (e / (2 * L) * L); [apply Rmult_le_compat_r; [lra|apply Rmin_r]|]. replace (e / (2 * L) * L) with (e / 2) by (field; lra). lra. }
  exists dl. split; [exact Hdl|]. intros b Hb.
  assert (D : forall i, (i < N)%nat -> Rabs (mulv N B b i - mulv N B b0 i) <= K * dl).
  { intros i Hi. unfold mulv. rewrite <- bsum_minus. eapply Rle_trans; [apply abs_bsum|].
    apply Rle_trans with (bsum N (fun k => Rabs (B i k) * dl)).
    - apply bsum_le. intros k Hk. replace (B i k * b k - B i k * b0 k) with (B i k * (b k - b0 k)) by ring.
      rewrite Rabs_mult. apply Rmult_le_compat_l; [apply Rabs_pos|]. apply Hb, Hk.
    - rewrite bsum_scal_r. apply Rmult_le_compat_r; [lra|]. unfold K.
      pose proof (bsum_delta N i (fun i => bsum N (fun k => Rabs (B i k))) Hi) as E. cbv beta in E. rewrite <- E.
      apply bsum_le. intros k Hk. assert (0 <= bsum N (fun k0 => Rabs (B k k0))) by (apply bsum_nonneg; intros; apply Rabs_pos). destruct (Nat.eqb k i); lra. }
  split.
  - rewrite <- bsum_minus. eapply Rle_lt_trans; [apply abs_bsum|].
    apply Rle_lt_trans with (dl * (K * Z)); [|apply Rle_lt_trans with (dl * L); [apply Rmult_le_compat_l; unfold L; lra|exact HdlL]].
    unfold Z. rewrite <- Rmult_assoc, <- bsum_scal. apply bsum_le. intros i Hi.
    replace (mulv N B b i * c i - mulv N B b0 i * c i) with ((mulv N B b i - mulv N B b0 i) * c i) by ring.
    rewrite Rabs_mult. apply Rmult_le_compat_r; [apply Rabs_pos|]. rewrite Rmult_comm. apply D, Hi.
  - rewrite <- bsum_minus. eapply Rle_lt_trans; [apply abs_bsum|].
    apply Rle_lt_trans with (dl * (W + K * INR N + K * G)); [|apply Rle_lt_trans with (dl * L); [apply Rmult_le_compat_l; unfold L; lra|exact HdlL]].
    apply Rle_trans with (bsum N (fun i => dl * Rabs (mulv N B b0 i) + (dl * K) * 1 + (dl * K) * Rabs (b0 i))).
    + apply bsum_le. intros i Hi. specialize (D i Hi). specialize (Hb i Hi). set (u := mulv N B b i) in *. set (u0 := mulv N B b0 i) in *.
      replace (u * b i - u0 * b0 i) with ((u - u0) * (b i - b0 i) + u0 * (b i - b0 i) + (u - u0) * b0 i) by ring.
      eapply Rle_trans; [apply Rabs_triang|]. eapply Rle_trans; [apply Rplus_le_compat_r, Rabs_triang|]. rewrite !Rabs_mult.
      assert (P1 := Rabs_pos (u - u0)). assert (P2 := Rabs_pos (b i - b0 i)). assert (P3 := Rabs_pos u0). assert (P4 := Rabs_pos (b0 i)).
      assert (T1 : Rabs (u - u0) * Rabs (b i - b0 i) <= K * dl * 1) by (apply Rmult_le_compat; lra).
      assert (T2 : Rabs u0 * Rabs (b i - b0 i) <= Rabs u0 * dl) by (apply Rmult_le_compat_l; lra).
      assert (T3 : Rabs (u - u0) * Rabs (b0 i) <= K * dl * Rabs (b0 i)) by (apply Rmult_le_compat_r; lra). lra.
    + rewrite !bsum_plus, !bsum_scal, bsum_const. fold W G. right. ring.
Qed.

(** the solution of the universal kriging system in terms of the inverse matrix *)
Lemma uk_solution n m G F B g f w mu nu : is_inverse (n + m + 1) (UA n m G F) B -> UK_system n m G F g f w mu nu ->
  let x := mulv (n + m + 1) B (Ub n m g f) in
  (forall i, (i < n)%nat -> w i = x i) /\ (forall k, (k < m)%nat -> nu k = - x (n + k)%nat) /\ mu = - x (n + m)%nat.
Proof.
  intros HB H. cbv zeta. apply pack_system in H. apply usystem_iff in H. pose proof (inverse_unique_solution _ _ _ _ _ HB H) as HU.
  repeat apply conj.
  - intros i Hi. rewrite <- (HU i ltac:(lia)). unfold pack. rewrite (proj2 (Nat.ltb_lt i n) Hi). reflexivity.
  - intros k Hk. rewrite <- (HU (n + k)%nat ltac:(lia)). unfold pack. rewrite (proj2 (Nat.ltb_ge (n + k) n)) by lia.
    rewrite (proj2 (Nat.ltb_lt (n + k) (n + m))) by lia. replace (n + k - n)%nat with k by lia. ring.
  - rewrite <- (HU (n + m)%nat ltac:(lia)). unfold pack. rewrite (proj2 (Nat.ltb_ge (n + m) n)), Nat.ltb_irrefl by lia. ring.
Qed.

Lemma uk_near n m G F z g0 f0 v0 s0 : UK_regular n m G F -> UK_estimate n m G F g0 f0 z v0 s0 ->
  forall e, 0 < e -> exists dl, 0 < dl /\ forall g f v s, UK_estimate n m G F g f z v s ->
    (forall i, (i < n)%nat -> Rabs (g i - g0 i) <= dl) -> (forall k, (k < m)%nat -> Rabs (f k - f0 k) <= dl) ->
    Rabs (v - v0) < e /\ Rabs (s - s0) < e.
Proof.
  intros HR H0 e He. destruct (UK_regular_nonsingular n m G F HR) as (B & HB).
  set (N := (n + m + 1)%nat) in *. set (c := fun i => if Nat.ltb i n then z i else 0).
  assert (EV : forall g f v s, UK_estimate n m G F g f z v s -> v = bsum N (fun i => mulv N B (Ub n m g f) i * c i) /\ s = - bsum N (fun i => mulv N B (Ub n m g f) i * Ub n m g f i)).
  { intros g f v s (w & mu & nu & HS & -> & ->). destruct (uk_solution n m G F B g f w mu nu HB HS) as (E1 & E2 & E3). cbv zeta in *. fold N in E1, E2, E3.
    set (x := mulv N B (Ub n m g f)) in *. unfold N.
    assert (SP : forall h : nat -> R, bsum N h = bsum n h + bsum m (fun k => h (n + k)%nat) + h (n + m)%nat).
    { intros h. unfold N. replace (n + m + 1)%nat with (S (n + m)) by lia. cbn [bsum]. f_equal. clear. induction m as [|m IH]; [rewrite Nat.add_0_r; cbn [bsum]; ring|].
      replace (n + S m)%nat with (S (n + m)) by lia. cbn [bsum]. rewrite IH. ring. }
    fold N. rewrite !SP. split.
    - rewrite (bsum_ext m (fun k => x (n + k)%nat * c (n + k)%nat) (fun _ => 0)).
      2:{ intros k _. unfold c. rewrite (proj2 (Nat.ltb_ge (n + k) n)) by lia. ring. }
      rewrite bsum_zero by reflexivity. unfold c at 2. rewrite (proj2 (Nat.ltb_ge (n + m) n)) by lia.
      rewrite Rmult_0_r, !Rplus_0_r. apply bsum_ext. intros i Hi. rewrite (E1 i Hi). unfold c. rewrite (proj2 (Nat.ltb_lt i n) Hi). reflexivity.
    - rewrite E3. unfold Ub at 3. rewrite (proj2 (Nat.ltb_ge (n + m) n)), Nat.ltb_irrefl by lia.
      rewrite (bsum_ext n (fun i => x i * Ub n m g f i) (fun i => - (w i * g i))).
      2:{ intros i Hi. rewrite (E1 i Hi). unfold Ub. rewrite (proj2 (Nat.ltb_lt i n) Hi). ring. }
      rewrite (bsum_ext m (fun k => x (n + k)%nat * Ub n m g f (n + k)%nat) (fun k => - (nu k * f k))).
      2:{ intros k Hk. rewrite (E2 k Hk). unfold Ub. rewrite (proj2 (Nat.ltb_ge (n + k) n)) by lia. rewrite (proj2 (Nat.ltb_lt (n + k) (n + m))) by lia. replace (n + k - n)%nat with k by lia. ring. }
      rewrite !bsum_opp. ring. }
  destruct (EV g0 f0 v0 s0 H0) as [Ev0 Es0].
  destruct (near_forms N B c (Ub n m g0 f0) e He) as (dl & Hdl & HD). exists dl. split; [exact Hdl|].
  intros g f v s H Hg Hf. destruct (EV g f v s H) as [Ev Es].
  destruct (HD (Ub n m g f)) as [D1 D2].
  { intros i Hi. unfold Ub. destruct (Nat.ltb_spec i n) as [L|L].
    - replace (- g i - - g0 i) with (- (g i - g0 i)) by ring. rewrite Rabs_Ropp. apply Hg, L.
    - destruct (Nat.ltb_spec i (n + m)) as [L'|L']; [apply Hf; lia|]. replace (1 - 1) with 0 by ring. rewrite Rabs_R0. lra. }
  rewrite Ev, Ev0, Es, Es0. split; [exact D1|].
  match goal with |- Rabs (- ?a - - ?b) < _ => replace (- a - - b) with (- (a - b)) by ring end. rewrite Rabs_Ropp. exact D2.
Qed.

(** ---- distances and frame coordinates in terms of coordinates ---- *)
Lemma dot3_near v p p' d : near d p p' -> 0 <= d -> Rabs (dot3 v p' - dot3 v p) <= (Rabs (coord 0 v) + Rabs (coord 1 v) + Rabs (coord 2 v)) * d.
Proof.
  intros H Hd. pose proof (H 0%nat ltac:(lia)) as H0. pose proof (H 1%nat ltac:(lia)) as H1. pose proof (H 2%nat ltac:(lia)) as H2.
  destruct v as [[v0 v1] v2], p as [[p0 p1] p2], p' as [[q0 q1] q2]. unfold dot3. cbn [coord fst snd] in *.
  replace (v0 * q0 + v1 * q1 + v2 * q2 - (v0 * p0 + v1 * p1 + v2 * p2)) with (v0 * (q0 - p0) + v1 * (q1 - p1) + v2 * (q2 - p2)) by ring.
  eapply Rle_trans; [apply Rabs_triang|]. eapply Rle_trans; [apply Rplus_le_compat_r, Rabs_triang|]. rewrite !Rabs_mult.
  assert (P0 := Rabs_pos v0). assert (P1 := Rabs_pos v1). assert (P2 := Rabs_pos v2).
  assert (Rabs v0 * Rabs (q0 - p0) <= Rabs v0 * d) by (apply Rmult_le_compat_l; lra).
  assert (Rabs v1 * Rabs (q1 - p1) <= Rabs v1 * d) by (apply Rmult_le_compat_l; lra).
  assert (Rabs v2 * Rabs (q2 - p2) <= Rabs v2 * d) by (apply Rmult_le_compat_l; lra). lra.
Qed.
Lemma euclid_near o : exists K, 0 <= K /\ forall a p p' d, near d p p' -> 0 <= d -> Rabs (euclid_coords o p' a - euclid_coords o p a) <= K * d.
Proof.
  set (nv := fun v : vec3 => Rabs (coord 0 v) + Rabs (coord 1 v) + Rabs (coord 2 v)).
  assert (NV : forall v, 0 <= nv v) by (intros v; unfold nv; pose proof (Rabs_pos (coord 0 v)); pose proof (Rabs_pos (coord 1 v)); pose proof (Rabs_pos (coord 2 v)); lra).
  assert (L : forall s v p p' d, near d p p' -> 0 <= d -> Rabs (s * dot3 v p' - s * dot3 v p) <= Rabs s * nv v * d).
  { intros s v p p' d H Hd. replace (s * dot3 v p' - s * dot3 v p) with (s * (dot3 v p' - dot3 v p)) by ring. rewrite Rabs_mult, Rmult_assoc.
    apply Rmult_le_compat_l; [apply Rabs_pos|]. apply dot3_near; assumption. }
  assert (L1 : forall v p p' d, near d p p' -> 0 <= d -> Rabs (dot3 v p' - dot3 v p) <= nv v * d) by (intros; apply dot3_near; assumption).
  assert (P : forall s v, 0 <= Rabs s * nv v) by (intros; apply Rmult_le_pos; [apply Rabs_pos|apply NV]).
  destruct (Nat.eqb (o_dim o) 3) eqn:ED.
  - set (e := fun k => rotated_axis (rad (o_angle o 0%nat)) (rad (o_angle o 1%nat)) (rad (o_angle o 2%nat)) k).
    exists (nv (e (1,0,0)) + Rabs (o_scaling o 0%nat) * nv (e (0,1,0)) + Rabs (o_scaling o 1%nat) * nv (e (0,0,1))).
    pose proof (NV (e (1,0,0))) as Q1. pose proof (P (o_scaling o 0%nat) (e (0,1,0))) as Q2. pose proof (P (o_scaling o 1%nat) (e (0,0,1))) as Q3.
    split; [lra|]. intros a p p' d H Hd. unfold euclid_coords. rewrite ED. fold (e (1,0,0)) (e (0,1,0)) (e (0,0,1)).
    destruct a as [|[|a]].
    + eapply Rle_trans; [apply (L1 (e (1,0,0)) p p' d H Hd)|]. apply Rmult_le_compat_r; lra.
    + eapply Rle_trans; [apply (L (o_scaling o 0%nat) (e (0,1,0)) p p' d H Hd)|]. apply Rmult_le_compat_r; lra.
    + eapply Rle_trans; [apply (L (o_scaling o 1%nat) (e (0,0,1)) p p' d H Hd)|]. apply Rmult_le_compat_r; lra.
  - set (t := rad (o_angle o 0%nat)).
    exists (nv (cos t, sin t, 0) + Rabs (o_scaling o 0%nat) * nv (- sin t, cos t, 0)).
    pose proof (NV (cos t, sin t, 0)) as Q1. pose proof (P (o_scaling o 0%nat) (- sin t, cos t, 0)) as Q2.
    split; [lra|]. intros a p p' d H Hd. unfold euclid_coords. rewrite ED. fold t.
    destruct a as [|[|a]].
    + eapply Rle_trans; [apply (L1 _ p p' d H Hd)|]. apply Rmult_le_compat_r; lra.
    + eapply Rle_trans; [apply (L _ _ p p' d H Hd)|]. apply Rmult_le_compat_r; lra.
    + replace (0 - 0) with 0 by ring. rewrite Rabs_R0. apply Rmult_le_pos; lra.
Qed.
Lemma frame_euclid o p p' k : (k < 3)%nat -> coord k (frame o p') - coord k (frame o p) = euclid_coords o p' k - euclid_coords o p k.
Proof.
  intros Hk. unfold frame, euclid_coords, add3. cbv zeta. destruct (Nat.eqb (o_dim o) 3); destruct k as [|[|[|k]]]; try lia;
    cbn [coord fst snd]; rewrite ?dot3_sub; destruct (center3 o) as [[c0 c1] c2]; cbn [coord fst snd]; ring.
Qed.
Lemma sqrt_sum_le a b c : sqrt (a * a + b * b + c * c) <= Rabs a + Rabs b + Rabs c.
Proof.
  assert (Pa := Rabs_pos a). assert (Pb := Rabs_pos b). assert (Pc := Rabs_pos c).
  apply Rsqr_incr_0_var; [|lra]. rewrite Rsqr_sqrt by nra. unfold Rsqr.
  assert (Ea : Rabs a * Rabs a = a * a) by (rewrite <- Rabs_mult; apply Rabs_pos_eq; nra).
  assert (Eb : Rabs b * Rabs b = b * b) by (rewrite <- Rabs_mult; apply Rabs_pos_eq; nra).
  assert (Ec : Rabs c * Rabs c = c * c) by (rewrite <- Rabs_mult; apply Rabs_pos_eq; nra).
  pose proof (Rmult_le_pos _ _ Pa Pb). pose proof (Rmult_le_pos _ _ Pa Pc). pose proof (Rmult_le_pos _ _ Pb Pc). lra.
Qed.
Lemma separation_near o : o_ct o = Euclidean -> exists K, 0 <= K /\ forall p p' d, near d p p' -> 0 <= d -> separation o p' p <= K * d.
Proof.
  intros HE. destruct (euclid_near o) as (K & HK & H). exists (3 * K). split; [lra|]. intros p p' d Hp Hd.
  pose proof (separation_sqd o (fun i => match i with 0%nat => p' | _ => p end) 0 1 HE) as ES. cbn beta iota in ES. rewrite ES. clear ES.
  unfold sqd. cbn [bsum]. rewrite Rplus_0_l. eapply Rle_trans; [apply sqrt_sum_le|].
  pose proof (H 0%nat p p' d Hp Hd). pose proof (H 1%nat p p' d Hp Hd). pose proof (H 2%nat p p' d Hp Hd). lra.
Qed.
Lemma frame_near o : exists K, 0 < K /\ forall p p' d, near d p p' -> near (K * d) (frame o p) (frame o p').
Proof.
  destruct (euclid_near o) as (K & HK & H). exists (K + 1). split; [lra|]. intros p p' d Hp k Hk. rewrite (frame_euclid o p p' k Hk).
  assert (Hd : 0 < d) by (eapply Rle_lt_trans; [apply Rabs_pos|apply (Hp k Hk)]).
  eapply Rle_lt_trans; [apply (H k p p' d Hp); lra|]. lra.
Qed.
