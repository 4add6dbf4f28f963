(** Universal kriging: anisotropy as a change of coordinates (C76). *)
From Coq Require Import String Permutation.
From Verif Require Import Base Sums Matrix M_Variogram M_Geometry S_Geometry P_Geometry M_Kriging S_Kriging M_Init M_Object
  M_Execute S_Execute P_Object P_Execute P_Cells P_Master P_Det P_OK P_Similar P_Binning P_Data P_Linear P_Exec2 P_Data2 P_Motion
  M_UK S_UK S_UK2 P_UK P_UK2 P_UK3 P_UK4 P_UK5
  S_State P_State P_State2 P_UK7 P_UK10 P_UK11 P_UK13 P_UK14 P_UK15 P_UK16 S_Stretch S_Stats P_Stats2.

Lemma stretch_scalings E c A o name : construct E c A = Ok o -> o_ct o = Euclidean -> a_model (c_v A) = VName name ->
  o_class o = c /\ o_scaling o = a_scaling (c_v A) /\ o_angle o = a_angle (c_v A).
Proof.
  intros H Hct Hm. split; [apply (construct_orig _ _ _ _ H)|].
  destruct (construct_inv E c A o H) as (ex & nm & prm & fn & sc & an & f & vp & lags & sv & params & Hall).
  destruct Hall as (_&HX1&Hgs&Hf&Hmp&_&Hini&_&_&HP1&_&HE1&_&Hfo&Hpo&_&_&_&HLa&HSv&_&_&Ha).
  unfold resolve_gs in Hgs. rewrite Hm in Hgs. injection Hgs as <- <- <- <- <-.
  destruct Ha as [(_ & _ & _ & -> & -> & _)|(_ & _ & Ht & _)]; [auto|congruence].
Qed.

Definition opp3 (x : vec3) : vec3 := (- coord 0 x, - coord 1 x, - coord 2 x).

(** the frame of an object is the stretched system, shifted *)
Lemma frame_stretch c v o x : o_class o = c -> o_scaling o = a_scaling v -> o_angle o = a_angle v ->
  frame o x = add3 (stretch c v x) (add3 (center3 o) (opp3 (stretch c v (center3 o)))).
Proof.
  intros Hc Hs Ha. unfold frame, stretch. unfold o_dim at 1. rewrite Hc, Hs, Ha. destruct x as [[x1 x2] x3], (center3 o) as [[c1 c2] c3].
  destruct (Nat.eqb (cdim c) 3).
  - cbv zeta. destruct (rotated_axis _ _ _ (1,0,0)) as [[e1 e2] e3], (rotated_axis _ _ _ (0,1,0)) as [[f1 f2] f3], (rotated_axis _ _ _ (0,0,1)) as [[g1 g2] g3].
    unfold add3, sub3, dot3, opp3, coord. cbn [fst snd]. f_equal; [f_equal|]; ring.
  - cbv zeta. unfold add3, sub3, dot3, opp3, coord. cbn [fst snd]. f_equal; [f_equal|]; ring.
Qed.

(** without anisotropy the frame is the coordinate system itself *)
Lemma frame_plain o x : o_scaling o = (fun _ => 1) -> o_angle o = (fun _ => 0) -> in_dim (o_dim o) x -> frame o x = x.
Proof.
  intros Hs Ha Hx. unfold frame, center3. rewrite Hs, Ha. unfold rad. replace (0 * PI / 180) with 0 by field.
  unfold rotated_axis, rotx, roty, rotz. rewrite cos_0, sin_0. destruct x as [[a b] c].
  destruct (o_dim_cases o) as [Ed|Ed]; rewrite Ed in *; unfold loc; cbn [Nat.eqb].
  - specialize (Hx eq_refl). cbn in Hx. subst c. unfold add3, sub3, dot3. f_equal; [f_equal|]; ring.
  - unfold add3, sub3, dot3. f_equal; [f_equal|]; ring.
Qed.

Theorem uk_stretch E c A coords D name fs u u' q q' specs specs' r r' p p' pos :
  construct_uk E c A D = Ok u -> construct_uk E c (relocated A coords) (carry (stretch c (c_v A)) fs D) = Ok u' ->
  List.length (c_coords A) = cdim c -> List.length coords = cdim c ->
  a_model (c_v A) = VName name ->
  (forall i, (i < List.length (c_values A))%nat -> input c (relocated A coords) i = stretch c (c_v A) (input c A i)) ->
  (c = UK2 -> asked D "external_Z" = false) ->
  Forall2 (fun h h' => forall x, fun_at u' h' (stretch c (c_v A) x) = fun_at u h x) (opt_list (d_fun D)) fs ->
  urun E u q specs r -> urun E u' q' specs' r' -> faithful_specs u q -> faithful_specs u' q' ->
  shown (u_obj u) q p pos -> shown (u_obj u') q' p' (stretch c (c_v A) pos) -> uregular u q specs -> specs_agree u q q' specs specs' p p' ->
  r_value r p = r_value r' p' /\ r_variance r p = r_variance r' p'.
Proof.
  intros HCU HCU' HL HL' Hm HI HX HFun HR HR' HF HF' HS HS' Hreg HSA.
  assert (HU : ubuilt E c A D [] u) by (split; [exact HL|exists u; split; [exact HCU|reflexivity]]).
  assert (HU' : ubuilt E c (relocated A coords) (carry (stretch c (c_v A)) fs D) [] u') by (split; [exact HL'|exists u'; split; [exact HCU'|reflexivity]]).
  pose proof (built_class _ _ _ _ _ (proj1 (ubuilt_obj _ _ _ _ _ _ HU))) as HCl.
  pose proof (built_class _ _ _ _ _ (proj1 (ubuilt_obj _ _ _ _ _ _ HU'))) as HCl'.
  pose proof (uk_class_euclidean E u (proj1 (proj2 HR))) as Hct. pose proof (uk_class_euclidean E u' (proj1 (proj2 HR'))) as Hct'.
  destruct (ubuilt_obj _ _ _ _ _ _ HU) as (_ & u0 & HC0 & Hd & HC0' & HIn). destruct (ubuilt_obj _ _ _ _ _ _ HU') as (_ & u0' & HD0 & Hd' & HD0' & HIn').
  assert (u0 = u) by congruence. assert (u0' = u') by congruence. subst u0 u0'.
  destruct (stretch_construct E c A coords name (u_obj u) (u_obj u') HC0' HD0' Hct Hm HI) as (_ & K & KC & N & V & F & X & P & P0 & PR & _ & _ & S1 & S2).
  destruct (stretch_scalings E c A (u_obj u) name HC0' Hct Hm) as (_ & Sc & An).
  destruct (stretch_scalings E c (relocated A coords) (u_obj u') name HD0' Hct' Hm) as (_ & Sc' & An'). cbn [c_v relocated with_v without_anisotropy a_scaling a_angle] in Sc', An'.
  assert (NV : o_n (u_obj u) = List.length (c_values A)) by (destruct (construct_orig _ _ _ _ HC0') as (_ & _ & _ & _ & L1 & _); exact L1).
  assert (HD : forall i, (i < o_n (u_obj u))%nat -> datum (u_obj u') i = stretch c (c_v A) (datum (u_obj u) i)).
  { intros i Hi. rewrite (construct_datum _ _ _ _ _ HC0'), (construct_datum _ _ _ _ _ HD0'). apply HI. lia. }
  assert (Z : forall x, cdim c = 2%nat -> snd (stretch c (c_v A) x) = 0) by (intros x H2; apply stretch_plane, H2).
  assert (Hdim : o_dim (u_obj u) = cdim c) by (unfold o_dim; rewrite HCl; reflexivity).
  assert (Hdim' : o_dim (u_obj u') = cdim c) by (unfold o_dim; rewrite HCl'; reflexivity).
  set (t := add3 (center3 (u_obj u)) (opp3 (stretch c (c_v A) (center3 (u_obj u))))).
  assert (HFr : forall x, frame (u_obj u) x = add3 (stretch c (c_v A) x) t) by (intros x; apply frame_stretch; assumption).
  assert (HFr' : forall x, frame (u_obj u') (stretch c (c_v A) x) = stretch c (c_v A) x).
  { intros x. apply frame_plain; try assumption. rewrite Hdim'. intros H2. apply Z, H2. }
  destruct (ucompare E E u u' (fun i => i) q q' specs specs' r r' p p' pos (stretch c (c_v A) pos) 1 1 0 (fun _ => 0) HR HR' HF HF' HS HS' Hreg) as (v & s & Hv & Hs & Hv' & Hs').
  - exact N.
  - apply perm_id.
  - lra.
  - intros i j Hi Hj. rewrite Rmult_1_l. unfold G_of, data_semivariance, o_vg. rewrite F, PR. destruct (Nat.eqb i j); [reflexivity|].
    rewrite !HD, S1 by assumption. rewrite S2; [reflexivity|]. intros H2. split; apply Z, H2.
  - intros i Hi. rewrite Rmult_1_l. unfold g_of, query_semivariance, o_vg. rewrite F, PR, X. rewrite HD, S1 by exact Hi.
    rewrite S2; [reflexivity|]. intros H2. split; apply Z, H2.
  - set (o := u_obj u) in *. set (o' := u_obj u') in *.
    destruct (init_drift_fields _ _ _ _ HIn) as (L1 & E1 & W1 & SP1 & F1). destruct (init_drift_fields _ _ _ _ HIn') as (L2 & E2 & W2 & SP2 & F2).
    fold o in E1, W1, SP1, F1. fold o' in E2, W2, SP2, F2.
    change (asked (carry (stretch c (c_v A)) fs D)) with (asked D) in *.
    apply affine_rel_shift. unfold drift_terms. repeat apply Forall2_app.
    + unfold linear_terms. rewrite L1, L2. destruct (asked D "regional_linear"); [|constructor]. fold o o'. rewrite Hdim, Hdim'.
      induction (seq 0 (cdim c)) as [|k l IHl]; cbn [map]; [constructor|constructor; [|exact IHl]].
      apply (spatial_shift (o_n o) (stretch c (c_v A)) o o' p p' pos _ _ (- coord k t) HD). intros x. rewrite HFr, HFr', coord_add. ring.
    + unfold opt_drift in W1, W2. destruct (_ && asked D "point_log") eqn:EP.
      2:{ unfold well_terms. injection W1 as W1. injection W2 as W2. rewrite <- W1, <- W2. constructor. }
      apply andb_true_iff in EP. destruct EP as [EP1 EP2]. assert (HcU : c = UK2) by (destruct c; try discriminate EP1; reflexivity).
      destruct (init_wells D o) as [w1|] eqn:Q1; [|discriminate W1].
      destruct (init_wells (carry (stretch c (c_v A)) fs D) o') as [w2|] eqn:Q2; [|discriminate W2].
      cbn [bind] in W1, W2. injection W1 as W1. injection W2 as W2.
      destruct (wells_frame D o w1) as (rows & P1 & Ew1); [rewrite Hdim, HcU; reflexivity|exact Hct|exact Q1|].
      destruct (wells_frame (carry (stretch c (c_v A)) fs D) o' w2) as (rows' & P2 & Ew2); [rewrite Hdim', HcU; reflexivity|exact Hct'|exact Q2|].
      cbn [carry d_point] in P2. rewrite P1 in P2. cbn [option_map] in P2. injection P2 as P2.
      unfold well_terms. rewrite <- W1, <- W2, Ew1, Ew2, <- P2. cbn [opt_list]. fold o o'.
      clear P1 P2 Q1 Q2 Ew1 Ew2 W1 W2. induction rows as [|[[x y] st] rows IHr]; cbn [map]; [constructor|constructor; [|exact IHr]].
      apply (spatial_shift (o_n o) (stretch c (c_v A)) o o' p p' pos _ _ 0 HD). intros z. rewrite HFr, HFr', Rplus_0_r.
      assert (HW : frame o' (coord 0 (stretch c (c_v A) (x, y, 0)), coord 1 (stretch c (c_v A) (x, y, 0)), 0) = stretch c (c_v A) (x, y, 0)).
      { assert (HE : (coord 0 (stretch c (c_v A) (x, y, 0)), coord 1 (stretch c (c_v A) (x, y, 0)), 0) = stretch c (c_v A) (x, y, 0)).
        { pose proof (Z (x, y, 0)) as Hz. rewrite HcU in Hz at 1. specialize (Hz eq_refl). destruct (stretch c (c_v A) (x, y, 0)) as [[a b] d]. cbn in Hz |- *. rewrite Hz. reflexivity. }
        rewrite HE. apply HFr'. }
      change (coord 0) with (fun p0 : vec3 => fst (fst p0)) in HW; change (coord 1) with (fun p0 : vec3 => snd (fst p0)) in HW; cbv beta in HW. rewrite HW, HFr, !coord_add, plane_dist_shift. reflexivity.
    + unfold ext_terms. unfold opt_drift in E1, E2. destruct (_ && asked D "external_Z") eqn:EP.
      * exfalso. apply andb_true_iff in EP. destruct EP as [EP1 EP2]. assert (HcU : c = UK2) by (destruct c; try discriminate EP1; reflexivity). rewrite (HX HcU) in EP2. discriminate.
      * injection E1 as E1. injection E2 as E2. rewrite <- E1, <- E2. constructor.
    + apply spec_shift; [|exact HSA]. unfold opt_drift in SP1, SP2.
      replace (init_specified (carry (stretch c (c_v A)) fs D) o') with (init_specified D o) in SP2; [congruence|].
      unfold init_specified. cbn [carry d_spec]. rewrite N. reflexivity.
    + unfold fun_terms. unfold opt_drift, init_functional in F1, F2. cbn [carry d_fun] in F2.
      destruct (asked D "functional"); [|injection F1 as F1; injection F2 as F2; rewrite <- F1, <- F2; constructor].
      destruct (d_fun D) as [[|h hs]|]; cbn [bind] in F1, F2; try discriminate. destruct fs as [|h' hs']; cbn [bind] in F2; [discriminate|].
      injection F1 as F1. injection F2 as F2. rewrite <- F1, <- F2. cbn [opt_list] in HFun |- *. clear - HFun HD.
      induction HFun as [|h1 h1' l l' H1 HFl IHl]; cbn [map]; [constructor|constructor; [|exact IHl]].
      apply (spatial_shift (o_n o) (stretch c (c_v A)) o o' p p' pos _ _ 0 HD). intros x. rewrite Rplus_0_r. exact (H1 x).
  - intros i Hi. rewrite V. rewrite bsum_0 by (intros; ring). ring.
  - rewrite Hv, Hs, Hv', Hs'. rewrite bsum_0 by (intros; ring). split; f_equal; ring.
Qed.
