(** Geographic objects on the equator: examples, and models that are not proper on the sphere. *)
From Coq Require Import String.
From Verif Require Import Base Sums Matrix M_Variogram P_Variogram M_Geometry S_Geometry P_Geometry M_Kriging S_Kriging
  P_Kriging P_OKSpec M_Init M_Object M_Execute S_Execute S_Valid S_Geo P_Psd P_Psd2 P_Sphere P_Valid P_Valid2 P_Valid4 P_Object P_Execute P_Cells P_OK P_Dup P_Fit4
  P_Det P_Exec2 P_WindowExec P_Master P_Options P_Sound P_Geo P_Geo2 Witness.

Definition eq_args (lons zs : list R) (name : string) (l : list R) : cargs :=
  {| c_coords := [lons; map (fun _ => 0) lons]; c_values := zs;
     c_v := {| a_model := VName name; a_params := PList l; a_fun := FNone;
               a_nlags := 6; a_weight := false; a_scaling := (fun _ => 1); a_angle := (fun _ => 0) |};
     c_verbose := false; c_plotting := false; c_stat := false; c_ct := "geographic";
     c_exact := Some true; c_pinv := false; c_pinv_type := "pinv" |}.
Lemma map0 (l : list R) i : rnth (map (fun _ : R => 0) l) i = 0.
Proof. unfold rnth. revert i. induction l as [|a x IH]; intros [|i]; cbn; auto. Qed.

Lemma eq_construct E lons zs name l f p : List.length zs = List.length lons -> (2 <= List.length lons)%nat ->
  explicit name (PList l) f p -> exists o, construct E OK2 (eq_args lons zs name l) = Ok o /\
  reachable E o /\ o_class o = OK2 /\ o_n o = List.length lons /\ o_ct o = Geographic /\ o_exact o = true /\ o_pinv o = false /\
  o_fun o = f /\ o_params o = p /\ (forall i, datum o i = (rnth lons i, 0, 0)) /\
  forall u v, separation o u v = great_circle_distance (lon u) (lat u) (lon v) (lat v).
Proof.
  intros HL Hn (Hd & Hmp & Hl).
  destruct (initialize_explicit (e_fit E) Geographic 2 (List.length lons) (columns [lons; map (fun _ => 0) lons]) (rnth zs) name f p 6 false)
    as (lags & sv & Hi); try assumption; [reflexivity|].
  assert (HO : exists o, construct E OK2 (eq_args lons zs name l) = Ok o /\ o_class o = OK2 /\ o_n o = List.length lons /\ o_ct o = Geographic /\ o_exact o = true /\ o_pinv o = false /\
    o_fun o = f /\ o_params o = p /\ o_orig o = columns [lons; map (fun _ => 0) lons]).
  { unfold construct, eq_args. cbn [c_pinv_type c_exact c_ct c_v c_coords c_values c_stat class_ct cdim nth a_nlags a_weight c_pinv c_verbose c_plotting].
    unfold resolve_gs. cbn [a_model a_params a_fun a_scaling a_angle bind].
    unfold resolve_fun. rewrite Hd. cbn [bind in_names pinv_types existsb String.eqb Ascii.eqb Bool.eqb orb negb].
    rewrite Hmp. cbn [bind same_length forallb]. rewrite map_length, Nat.eqb_refl. cbn [andb negb]. rewrite HL, Hi. cbn [bind].
    eexists. split; [reflexivity|]. repeat (split; [reflexivity|]). reflexivity. }
  destruct HO as (o & Ho & Hc & Hno & Hct & Hex & Hpi & Hf & Hp & Horig). exists o. split; [exact Ho|].
  split; [refine (reach_new E OK2 _ o _ Ho); reflexivity|]. repeat (split; [assumption|]). split.
  - intros i. unfold datum, loc, o_dim. rewrite Hc, Horig. unfold columns. cbn [cdim Nat.eqb nth]. rewrite map0. reflexivity.
  - intros u v. unfold separation. rewrite Hct. reflexivity.
Qed.

(** distances along the equator *)
Lemma equator a b : 0 <= a - b <= 180 -> great_circle_distance a 0 b 0 = a - b.
Proof.
  intros H. rewrite gc_dot, dot3_sphere. rewrite rad_0, sin_0, cos_0.
  replace (0 * 0 + 1 * 1 * cos (rad (a - b))) with (cos (rad (a - b))) by ring.
  pose proof PI_RGT_0 as HP. assert (E : rad (a - b) = (a - b) * (PI / 180)) by (unfold rad; field).
  rewrite E, acos_cos; [field; lra|]. split; [apply Rmult_le_pos; lra|].
  replace PI with (180 * (PI / 180)) at 2 by field. apply Rmult_le_compat_r; lra.
Qed.
Lemma equator' a b : 0 <= b - a <= 180 -> great_circle_distance a 0 b 0 = b - a.
Proof. intros H. rewrite gc_sym. apply equator. exact H. Qed.
(** 180 degrees is -180 degrees *)
Lemma equator_wrap a b : 180 <= a - b <= 360 -> great_circle_distance a 0 b 0 = 360 - (a - b).
Proof.
  intros H. rewrite gc_dot. replace b with (b + 360 + 360 * IZR (-1)) at 1 by lra.
  rewrite sphere_periodic, <- gc_dot. rewrite equator' by lra. ring.
Qed.

Definition eqpoint (x : R) (b : string) (w : option nat) : query :=
  {| q_style := "points"; q_pts := [[x]; [0]]; q_int := [false; false]; q_mask := None; q_backend := b; q_window := w |}.
Lemma eqpoint_shown o x b w : o_class o = OK2 -> shown o (eqpoint x b w) 0 (x, 0, 0).
Proof.
  intros Hc. unfold shown, o_dim. rewrite Hc. split.
  - apply (cell_point 2 (eqpoint x b w) 0 eq_refl). cbn. lia.
  - intros H. inversion H; discriminate.
Qed.
Lemma eqpoint_good o x b w : o_class o = OK2 -> good_query o (eqpoint x b w).
Proof.
  intros Hc. split; [|intros _; left; reflexivity]. right; left. split; [reflexivity|]. split; [reflexivity|].
  unfold o_dim. rewrite Hc. discriminate.
Qed.

(** ** Linear without nugget: four data at different places, singular *)
Lemma singular_raises E o q : env_ok E -> reachable E o -> ordinary o -> o_pinv o = false -> q_window q = None ->
  available E o (q_backend q) -> good_query o q -> ~ regular o -> execute E o q = Err LinAlgError.
Proof.
  intros (HL & _) Hr Hord Hp HW HB HG HN. pose proof (reachable_inv E o Hr) as Hinv.
  pose proof (execute_ref E o q Hinv Hord HW HB) as H.
  destruct (good_locate o q HG) as [l Hl]. destruct (good_adjust o q l HG) as [pts Hpts].
  unfold ref in H. rewrite Hl in H. cbn [bind] in H. rewrite Hpts in H. cbn [bind] in H. rewrite Hp in H.
  destruct (invert (e_la E) false (o_pinv_type o) (o_n o + 1) (get_kriging_matrix o)) as [a|e] eqn:EI; cbn [bind] in H.
  - exfalso. apply HN. unfold regular.
    assert (HX : nonsingular (o_n o + 1) (get_kriging_matrix o)) by (exists a; apply (invert_ok _ _ _ _ _ HL EI)).
    apply (nonsingular_regular (o_n o) (o_vg o) (data_distances o)) in HX.
    intros g. destruct (HX g) as (w & mu & (S1 & S2) & U). exists w, mu. split.
    + split; [|exact S2]. intros i Hi. rewrite <- (S1 i Hi). f_equal. apply bsum_ext. intros j Hj. rewrite (G_of_matrix o Hinv). reflexivity.
    + intros w' mu' (T1 & T2). apply U. split; [|exact T2]. intros i Hi. rewrite <- (T1 i Hi). f_equal. apply bsum_ext. intros j Hj. rewrite (G_of_matrix o Hinv). reflexivity.
  - destruct (invert_err _ _ _ _ _ HL EI) as [-> _]. exact H.
Qed.

Definition cross : list R := [180; 90; 0; -90].
Lemma cross_sep o i j : (forall u v, separation o u v = great_circle_distance (lon u) (lat u) (lon v) (lat v)) ->
  (i < 4)%nat -> (j < 4)%nat ->
  separation o (rnth cross i, 0, 0) (rnth cross j, 0, 0) =
  match i, j with
  | 0%nat, 0%nat | 1%nat, 1%nat | 2%nat, 2%nat | 3%nat, 3%nat => 0
  | 0%nat, 2%nat | 2%nat, 0%nat | 1%nat, 3%nat | 3%nat, 1%nat => 180
  | _, _ => 90
  end.
Proof.
  intros Hs Hi Hj. rewrite Hs. unfold lon, lat. cbn [fst snd].
  destruct i as [|[|[|[|i]]]], j as [|[|[|[|j]]]]; try lia; cbn;
    first [rewrite equator by lra; lra|rewrite equator' by lra; lra|rewrite equator_wrap by lra; lra|rewrite gc_sym, equator_wrap by lra; lra].
Qed.

Theorem linear_refuted : exists E o, env_ok E /\ reachable E o /\ ordinary o /\ o_ct o = Geographic /\ o_fun o = f_linear /\ o_params o = [1; 0] /\
  o_n o = 4%nat /\ o_pinv o = false /\ distinct_data o /\ ~ regular o /\
  forall q, good_query o q -> q_window q = None -> has_backend o q -> execute E o q = Err LinAlgError.
Proof.
  set (E := wit_env true None).
  destruct (eq_construct E cross [1; 2; 3; 4] "linear" [1; 0] f_linear [1; 0] eq_refl ltac:(cbn; lia)) as (o & Ho & Hre & Hc & Hn & Hct & Hex & Hpi & Hf & Hp & Hd & Hs).
  { repeat split; reflexivity. }
  cbn in Hn. exists E, o. split; [apply wit_env_ok|]. split; [exact Hre|]. split; [left; exact Hc|]. repeat (split; [assumption|]).
  assert (HV : forall d, o_vg o d = d) by (intros d; unfold o_vg; rewrite Hf, Hp; cbn; unfold linear_variogram_model, rnth; cbn; ring).
  assert (HD : distinct_data o).
  { intros i j Hi Hj Hij. rewrite !Hd, (cross_sep o i j Hs) by lia.
    destruct i as [|[|[|[|i]]]], j as [|[|[|[|j]]]]; try lia; lra. }
  assert (HG : forall i j, (i < 4)%nat -> (j < 4)%nat -> G_of o i j = separation o (rnth cross i, 0, 0) (rnth cross j, 0, 0)).
  { intros i j Hi Hj. unfold G_of, data_semivariance. rewrite HV, !Hd. destruct (Nat.eqb_spec i j) as [->|]; [|reflexivity].
    rewrite (cross_sep o j j Hs) by lia. destruct j as [|[|[|[|j]]]]; try lia; reflexivity. }
  assert (HN : ~ regular o).
  { intros HR. unfold regular in HR. rewrite Hn in HR. destruct (HR (fun _ => 0)) as (w & mu & (S1 & S2) & U).
    pose (alt := fun i : nat => match i with 0%nat | 2%nat => 1 | _ => -1 end).
    destruct (U (fun i => w i + alt i) mu) as [U1 _].
    - split.
      + intros i Hi. rewrite <- (S1 i Hi). f_equal.
        rewrite (bsum_ext 4 _ (fun j => w j * G_of o i j + alt j * G_of o i j)) by (intros; ring). rewrite bsum_plus.
        replace (bsum 4 (fun j => alt j * G_of o i j)) with 0; [ring|]. cbn [bsum]. rewrite !HG, !(cross_sep o) by (try exact Hs; lia).
        destruct i as [|[|[|[|i]]]]; try lia; cbn; lra.
      + rewrite bsum_plus, S2. cbn. lra.
    - specialize (U1 0%nat ltac:(lia)). cbn in U1. lra. }
  split; [exact HD|]. split; [exact HN|]. intros q HQ HW HB. apply singular_raises; try assumption; [apply wit_env_ok|left; exact Hc|].
  unfold has_backend in HB. rewrite HW in HB. unfold available. destruct HB as [H|[H|[H1 H2]]]; auto.
  right; right. split; [exact H1|]. split; [exact H2|]. intros _.
  apply geo_c_supported. split; [exact Hct|]. apply sphere_linear; [exact Hf|rewrite Hp; cbn; lra..].
Qed.

(** ** Models proper in the plane and convex on [0, 180]: negative variances *)
Definition arc : list R := [180; 90; 0].
Lemma arc_sep o i j : (forall u v, separation o u v = great_circle_distance (lon u) (lat u) (lon v) (lat v)) ->
  (i < 3)%nat -> (j < 3)%nat ->
  separation o (rnth arc i, 0, 0) (rnth arc j, 0, 0) = sqrt (sqd 1 (fun i _ => rnth arc i) i j).
Proof.
  intros Hs Hi Hj. rewrite Hs. unfold lon, lat. cbn [fst snd]. unfold sqd. cbn [bsum].
  rewrite Rplus_0_l. change ((rnth arc i - rnth arc j) * (rnth arc i - rnth arc j)) with (Rsqr (rnth arc i - rnth arc j)). rewrite sqrt_Rsqr_abs.
  destruct i as [|[|[|i]]], j as [|[|[|j]]]; try lia; cbn;
    first [rewrite equator by lra; rewrite Rabs_right by lra; lra|rewrite equator' by lra; rewrite Rabs_left by lra; lra].
Qed.
Lemma arc_query o i : (forall u v, separation o u v = great_circle_distance (lon u) (lat u) (lon v) (lat v)) -> (i < 3)%nat ->
  separation o (-90, 0, 0) (rnth arc i, 0, 0) = match i with 1%nat => 180 | _ => 90 end.
Proof.
  intros Hs Hi. rewrite Hs. unfold lon, lat. cbn [fst snd].
  destruct i as [|[|[|i]]]; try lia; cbn;
    first [rewrite equator' by lra; lra|rewrite gc_sym, equator_wrap by lra; lra].
Qed.

Lemma convex_refuted name l f p a gam : explicit name (PList l) f p -> 0 < a -> valid_shape gam ->
  (forall d, 0 <= d -> fcall f p d = a * gam d) -> 2 * gam 90 < gam 180 ->
  exists E o q r s, o_ct o = Geographic /\ o_fun o = f /\ o_params o = p /\ o_n o = 3%nat /\ distinct_data o /\ off_data o (-90, 0, 0) /\
    run E o q r /\ shown o q 0 (-90, 0, 0) /\ well_posed o q (-90, 0, 0) /\ q_window q = None /\ r_variance r 0%nat = Some s /\ s < 0.
Proof.
  intros HX Ha HS Hv Hc2. set (E := wit_env true None).
  destruct (eq_construct E arc [1; 2; 3] name l f p eq_refl ltac:(cbn; lia) HX) as (o & Ho & Hre & Hc & Hn & Hct & Hex & Hpi & Hf & Hp & Hd & Hs).
  cbn in Hn. set (q := eqpoint (-90) "vectorized" None).
  assert (HD : distinct_data o).
  { intros i j Hi Hj Hij. rewrite !Hd, (arc_sep o i j Hs) by lia. unfold sqd. cbn [bsum].
    rewrite Rplus_0_l. change ((rnth arc i - rnth arc j) * (rnth arc i - rnth arc j)) with (Rsqr (rnth arc i - rnth arc j)). rewrite sqrt_Rsqr_abs.
    apply Rabs_no_R0. destruct i as [|[|[|i]]], j as [|[|[|j]]]; try lia; cbn; lra. }
  assert (HO : off_data o (-90, 0, 0)).
  { intros i Hi. rewrite Hd, (arc_query o i Hs) by lia. assert (eps < 90) by (unfold eps; lra).
    destruct i as [|[|[|i]]]; try lia; split; intros; lra. }
  destruct HS as (Hg0 & HC & HSt).
  assert (HG : forall i j, (i < 3)%nat -> (j < 3)%nat -> a * gam (sqrt (sqd 1 (fun i _ => rnth arc i) i j)) = G_of o i j).
  { intros i j Hi Hj. unfold G_of, data_semivariance. destruct (Nat.eqb_spec i j) as [->|Hne].
    - rewrite sqd_diag, sqrt_0, Hg0. ring.
    - unfold o_vg. rewrite Hf, Hp, !Hd, (arc_sep o i j Hs) by lia. symmetry. apply Hv. apply sqrt_pos. }
  assert (Hcnd : cond_neg_def 3 (G_of o)).
  { apply (cnd_ext 3 _ _ HG). apply (cnd_scal 3 a (fun i j => gam (sqrt (sqd 1 (fun i _ => rnth arc i) i j)))); [lra|]. apply HC. lia. }
  assert (Hreg : regular o).
  { unfold regular. rewrite Hn. apply scnd_regular; [lia|]. apply (scnd_ext 3 _ _ HG).
    apply (scnd_scal 3 a (fun i j => gam (sqrt (sqd 1 (fun i _ => rnth arc i) i j)))); [exact Ha|]. apply HSt; [lia|].
    intros i j Hi Hj Hij. exists 0%nat. split; [lia|]. destruct i as [|[|[|i]]], j as [|[|[|j]]]; try lia; cbn; lra. }
  destruct (execute_valid E o q (wit_env_ok _ _) Hre (or_introl Hc) (eqpoint_good o (-90) _ _ Hc) eq_refl (or_introl eq_refl) Hpi Hreg) as [r Hr].
  assert (HR : run E o q r).
  { split; [apply wit_env_ok|]. split; [exact Hre|]. split; [left; exact Hc|]. split; [intros Hb; discriminate Hb|exact Hr]. }
  pose proof (eqpoint_shown o (-90) "vectorized" None Hc) as HSh. fold q in HSh.
  assert (HW : well_posed o q (-90, 0, 0)) by (left; exact Hpi).
  destruct (variance_minimal E o q r 0 (-90, 0, 0) HR HSh HW) as (m & sel & w & s & HU & H1 & _ & Hs' & He & HM).
  unfold uses in HU. cbn in HU. destruct HU as [-> Hsel]. rewrite Hn in *.
  exists E, o, q, r, s. repeat (split; [assumption|]). split; [reflexivity|]. split; [exact Hs'|].
  assert (Hc3 : cond_neg_def 3 (fun a b => G_of o (sel a) (sel b))) by (apply (cnd_ext 3 (G_of o)); [intros i j _ _; rewrite !Hsel; reflexivity|exact Hcnd]).
  pose (alt := fun i : nat => match i with 1%nat => -1 | _ => 1 end).
  specialize (HM Hc3 alt ltac:(cbn; lra)). apply Rle_lt_trans with (1 := HM).
  assert (Hgq : forall i, (i < 3)%nat -> g_of o (-90, 0, 0) i = a * gam (match i with 1%nat => 180 | _ => 90 end)).
  { intros i Hi. rewrite plain_query by (intros _; apply (HO i); [lia|exact Hex]). unfold o_vg. rewrite Hf, Hp, Hd, (arc_query o i Hs) by lia. apply Hv.
    destruct i as [|[|[|i]]]; lra. }
  assert (HG' : forall i j, (i < 3)%nat -> (j < 3)%nat -> G_of o i j =
     a * gam (match i, j with 0%nat, 0%nat | 1%nat, 1%nat | 2%nat, 2%nat => 0 | 0%nat, 2%nat | 2%nat, 0%nat => 180 | _, _ => 90 end)).
  { intros i j Hi Hj. rewrite <- HG by assumption. f_equal. f_equal. unfold sqd. cbn [bsum].
    rewrite Rplus_0_l. change ((rnth arc i - rnth arc j) * (rnth arc i - rnth arc j)) with (Rsqr (rnth arc i - rnth arc j)). rewrite sqrt_Rsqr_abs.
    destruct i as [|[|[|i]]], j as [|[|[|j]]]; try lia; cbn; unfold Rabs; destruct (Rcase_abs _); lra. }
  unfold est_variance. cbn [bsum]. rewrite !Hsel, !Hgq, !HG' by lia. cbn [alt]. unfold alt. rewrite Hg0.
  set (A := gam 90) in *. set (B := gam 180) in *. nra.
Qed.

(** gaussian [sill 1, range 350 degrees, nugget 0] *)
Theorem gaussian_refuted : exists E o q r s, o_ct o = Geographic /\ o_fun o = f_gaussian /\ o_params o = [1 - 0; 350; 0] /\ o_n o = 3%nat /\ distinct_data o /\ off_data o (-90, 0, 0) /\
    run E o q r /\ shown o q 0 (-90, 0, 0) /\ well_posed o q (-90, 0, 0) /\ q_window q = None /\ r_variance r 0%nat = Some s /\ s < 0.
Proof.
  apply (convex_refuted "gaussian" [1; 350; 0] f_gaussian [1 - 0; 350; 0] 1 (fun d => 1 - exp (- (d * d) / ((350 * 4 / 7) * (350 * 4 / 7))))).
  - repeat split; reflexivity.
  - lra.
  - apply shape_gaussian. lra.
  - intros d Hd. cbn [fcall f_gaussian]. unfold gaussian_variogram_model, rnth. cbn [nth]. 
    replace (1 - 0) with 1 by ring. rewrite Rplus_0_r. reflexivity.
  - set (u := exp (- (90 * 90) / (350 * 4 / 7 * (350 * 4 / 7)))).
    assert (Hu : 7 / 10 < u).
    { unfold u. replace (- (90 * 90) / (350 * 4 / 7 * (350 * 4 / 7))) with (- (81 / 400)) by field.
      pose proof (exp_ineq1_le (- (81 / 400))). lra. }
    assert (Hu1 : u < 1). { unfold u. rewrite <- exp_0. apply exp_increasing. lra. }
    replace (exp (- (180 * 180) / (350 * 4 / 7 * (350 * 4 / 7)))) with (u * u * (u * u)).
    + assert (1 < u + u * u + u * u * u) by nra. nra.
    + unfold u. rewrite <- !exp_plus. f_equal. field.
Qed.
(** power [scale 1, exponent 3/2, nugget 0] *)
Theorem power_refuted : exists E o q r s, o_ct o = Geographic /\ o_fun o = f_power /\ o_params o = [1; 3 / 2; 0] /\ o_n o = 3%nat /\ distinct_data o /\ off_data o (-90, 0, 0) /\
    run E o q r /\ shown o q 0 (-90, 0, 0) /\ well_posed o q (-90, 0, 0) /\ q_window q = None /\ r_variance r 0%nat = Some s /\ s < 0.
Proof.
  apply (convex_refuted "power" [1; 3 / 2; 0] f_power [1; 3 / 2; 0] 1 (fun d => npow d (3 / 2))).
  - repeat split; reflexivity.
  - lra.
  - apply shape_power. lra.
  - intros d Hd. cbn [fcall f_power]. unfold power_variogram_model, rnth. cbn [nth]. ring.
  - unfold npow. destruct (Reqb_spec (3 / 2) 0); [lra|]. destruct (Reqb_spec 90 0); [lra|]. destruct (Reqb_spec 180 0); [lra|].
    replace 180 with (2 * 90) by lra. rewrite <- Rpower_mult_distr by lra.
    assert (2 < Rpower 2 (3 / 2)). { rewrite <- (Rpower_1 2) at 1 by lra. apply Rpower_lt; lra. }
    assert (0 < Rpower 90 (3 / 2)) by (apply exp_pos). nra.
Qed.

(** ** Examples *)
Lemma ex_geo : exists E A o, env_ok E /\ geographic_call A "exponential" [2; 100; 0] /\ construct E OK2 A = Ok o /\
  distinct_on_sphere (nth 0 (c_coords A) []) (nth 1 (c_coords A) []) 4 /\ List.length (c_values A) = 4%nat /\
  reachable E o /\ ordinary o /\ proper_geographic o /\ strict_geographic o /\ solvable_data o /\ distinct_data o /\ (o_n o = 4)%nat /\ o_pinv o = false /\
  o_exact o = true /\ off_data o (45, 0, 0) /\ clear_of_data o (45, 0, 0) /\
  forall b w, has_backend o (eqpoint 45 b w) -> good_query o (eqpoint 45 b w) /\ shown o (eqpoint 45 b w) 0 (45, 0, 0) /\ exists r, run E o (eqpoint 45 b w) r.
Proof.
  set (E := wit_env true None).
  destruct (eq_construct E cross [1; 2; 3; 4] "exponential" [2; 100; 0] f_exponential [2 - 0; 100; 0] eq_refl ltac:(cbn; lia)) as (o & Ho & Hre & Hc & Hn & Hct & Hex & Hpi & Hf & Hp & Hd & Hs).
  { repeat split; reflexivity. }
  cbn in Hn. exists E, (eq_args cross [1; 2; 3; 4] "exponential" [2; 100; 0]), o. split; [apply wit_env_ok|].
  assert (HD : distinct_data o).
  { intros i j Hi Hj Hij. rewrite !Hd, (cross_sep o i j Hs) by lia.
    destruct i as [|[|[|[|i]]]], j as [|[|[|[|j]]]]; try lia; lra. }
  split.
  { constructor; try reflexivity.
    - left; reflexivity.
    - discriminate.
    - intros x [<-|[<-|[]]]; reflexivity.
    - cbn; lia.
    - apply geo_exponential; [reflexivity|lra|lra|lra]. }
  split; [exact Ho|]. split.
  { intros i j Hi Hj Hij EQ. apply (HD i j ltac:(lia) ltac:(lia) Hij). rewrite Hs, !Hd. apply gc_zero. unfold lon, lat. cbn [fst snd].
    cbn [nth c_coords eq_args] in EQ. rewrite !map0 in EQ. exact EQ. }
  split; [reflexivity|]. split; [exact Hre|]. split; [left; exact Hc|].
  assert (HP : proper_geographic o) by (split; [exact Hct|apply sphere_exponential; [exact Hf|rewrite Hp; cbn; lra..]]).
  assert (HS : strict_geographic o) by (right; left; split; [exact Hf|rewrite Hp; cbn; lra]).
  assert (HO : off_data o (45, 0, 0)).
  { intros i Hi. rewrite Hd, Hs. unfold lon, lat. cbn [fst snd]. assert (eps < 45) by (unfold eps; lra). rewrite Hn in Hi.
    destruct i as [|[|[|[|i]]]]; try lia; cbn; first [rewrite equator by lra|rewrite equator' by lra]; split; intros; lra. }
  split; [exact HP|]. split; [exact HS|]. split; [right; exact HD|]. split; [exact HD|]. split; [exact Hn|]. split; [exact Hpi|]. split; [exact Hex|].
  split; [exact HO|]. split; [intros _ i Hi; right; apply (HO i Hi); exact Hex|].
  intros b w HB. split; [apply eqpoint_good; exact Hc|]. split; [apply eqpoint_shown; exact Hc|].
  apply geo_execute; try assumption; [apply wit_env_ok|left; exact Hc|right; exact HD|lia|apply eqpoint_good; exact Hc].
Qed.
Lemma ex_geo_dup : exists A, geographic_call A "exponential" [2; 100; 0] /\ c_stat A = true /\
  List.length (c_values A) = 3%nat /\ nth 0 (c_coords A) [] = [-180; 180; 0] /\
  sphere (rnth (nth 0 (c_coords A) []) 0) (rnth (nth 1 (c_coords A) []) 0) = sphere (rnth (nth 0 (c_coords A) []) 1) (rnth (nth 1 (c_coords A) []) 1).
Proof.
  exists {| c_coords := [[-180; 180; 0]; [10; 10; 0]]; c_values := [1; 2; 3];
     c_v := {| a_model := VName "exponential"; a_params := PList [2; 100; 0]; a_fun := FNone;
               a_nlags := 6; a_weight := false; a_scaling := (fun _ => 1); a_angle := (fun _ => 0) |};
     c_verbose := false; c_plotting := false; c_stat := true; c_ct := "geographic";
     c_exact := Some true; c_pinv := false; c_pinv_type := "pinv" |}.
  split.
  { constructor; try reflexivity.
    - left; reflexivity.
    - discriminate.
    - intros x [<-|[<-|[]]]; reflexivity.
    - cbn; lia.
    - apply geo_exponential; [reflexivity|lra|lra|lra]. }
  repeat (split; [reflexivity|]). cbn. replace 180 with (-180 + 360 * IZR 1) by lra. rewrite sphere_periodic. reflexivity.
Qed.
Lemma great_circle_cnd n (lons lats : nat -> R) (c : nat -> R) : bsum n c = 0 ->
    bsum n (fun i => bsum n (fun j => c i * c j * great_circle_distance (lons i) (lats i) (lons j) (lats j))) <= 0.
Proof.
  intros Hc. change (qf n c (fun i j => great_circle_distance (lons i) (lats i) (lons j) (lats j)) <= 0).
  set (pts := fun i => (lons i, lats i, 0) : vec3). pose proof k_pos as Hk.
  rewrite (qf_ext n c c _ (fun i j => 180 / PI * acos (gram 3 (fun i => sph (pts i)) i j))).
  - apply (cnd_scal n (180 / PI) (fun i j => acos (gram 3 (fun i => sph (pts i)) i j))); [lra| |exact Hc].
    apply acos_cnd; [apply gram_sym|apply gram_psd|intros; apply sph_unit].
  - reflexivity.
  - intros i j _ _. rewrite gc_dot. unfold gram. rewrite dot_sph. reflexivity.
Qed.
