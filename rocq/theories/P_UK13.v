(** Universal kriging: dependence on the data values and on their order (C14, C17). *)
From Coq Require Import String Permutation.
From Verif Require Import Base Sums Matrix M_Variogram M_Geometry S_Geometry M_Kriging S_Kriging M_Init M_Object
  M_Execute S_Execute P_Object P_Execute P_Cells P_Master P_Det P_OK P_Similar P_Binning P_Data P_Linear P_Exec2 P_Data2 M_UK S_UK S_UK2 P_UK P_UK2 P_UK3 P_UK4 P_UK5
  S_State P_State P_State2 P_UK7 P_UK10 P_UK11.

(** terms depend on the geometry of the object and the drift settings only *)
Lemma frame_geo o o' p : o_class o' = o_class o -> o_center o' = o_center o -> o_scaling o' = o_scaling o -> o_angle o' = o_angle o -> frame o' p = frame o p.
Proof. intros H1 H2 H3 H4. unfold frame, center3, o_dim. rewrite H1, H2, H3, H4. reflexivity. Qed.

(** Corresponding terms *)
Definition terms_rel (n : nat) (sg : nat -> nat) (p p' : nat) (pos : vec3) (ts ts' : list term) : Prop :=
  Forall2 (fun t t' => (forall i, (i < n)%nat -> t_data t' i = t_data t (sg i)) /\ t_query t' p' pos = t_query t p pos) ts ts'.

Lemma terms_rel_use n sg p p' pos ts ts' : terms_rel n sg p p' pos ts ts' ->
  List.length ts' = List.length ts /\
  (forall a i, (a < List.length ts)%nat -> (i < n)%nat -> F_of ts' a i = F_of ts a (sg i)) /\
  (forall a, (a < List.length ts)%nat -> f_of ts' p' pos a = f_of ts p pos a).
Proof.
  induction 1 as [|t t' ts ts' [H1 H2] HF (L & IF & If)]; [split; [reflexivity|split; intros; cbn in *; lia]|].
  split; [cbn; congruence|]. split.
  - intros [|a] i Ha Hi; [apply H1, Hi|]. cbn in Ha. apply (IF a i ltac:(lia) Hi).
  - intros [|a] Ha; [apply H2|]. cbn in Ha. apply (If a ltac:(lia)).
Qed.

Lemma terms_rel_app n sg p p' pos a a' b b' : terms_rel n sg p p' pos a a' -> terms_rel n sg p p' pos b b' -> terms_rel n sg p p' pos (a ++ b) (a' ++ b').
Proof. apply Forall2_app. Qed.

Lemma terms_rel_map {X} n sg p p' pos (f g : X -> term) l :
  (forall x, In x l -> (forall i, (i < n)%nat -> t_data (g x) i = t_data (f x) (sg i)) /\ t_query (g x) p' pos = t_query (f x) p pos) ->
  terms_rel n sg p p' pos (map f l) (map g l).
Proof.
  induction l as [|x l IH]; intros H; [constructor|]. cbn [map]. constructor; [apply H; left; reflexivity|].
  apply IH. intros y Hy. apply H. right; exact Hy.
Qed.

Lemma permuted_terms u u' sg q specs p pos :
  let o := u_obj u in let o' := u_obj u' in
  o_class o' = o_class o -> o_center o' = o_center o -> o_scaling o' = o_scaling o -> o_angle o' = o_angle o ->
  (forall i, (i < o_n o)%nat -> datum o' i = datum o (sg i)) ->
  dr_linear (u_drift u') = dr_linear (u_drift u) -> dr_wells (u_drift u') = dr_wells (u_drift u) ->
  option_map (fun x => fst x) (dr_ext (u_drift u')) = option_map (fun x => fst x) (dr_ext (u_drift u)) ->
  dr_fun (u_drift u') = dr_fun (u_drift u) ->
  match dr_spec (u_drift u), dr_spec (u_drift u') with
  | Some ds, Some ds' => Forall2 (fun d d' : vec => forall i, (i < o_n o)%nat -> d' i = d (sg i)) ds ds'
  | None, None => True
  | _, _ => False
  end ->
  terms_rel (o_n o) sg p p pos (drift_terms u q specs) (drift_terms u' q specs).
Proof.
  intros o o' Hc Hce Hs Ha Hd HL HW HE HFn HSp.
  assert (HF : forall x, frame o' x = frame o x) by (intros; apply frame_geo; assumption).
  assert (HSpat : forall f g : vec3 -> R, (forall x, g x = f x) ->
    (forall i, (i < o_n o)%nat -> t_data (spatial o' g) i = t_data (spatial o f) (sg i)) /\ t_query (spatial o' g) p pos = t_query (spatial o f) p pos).
  { intros f g Hfg. cbn [spatial t_data t_query]. split; [intros i Hi; rewrite Hd by exact Hi|]; apply Hfg. }
  unfold drift_terms. repeat apply terms_rel_app.
  - unfold linear_terms. rewrite HL. replace (o_dim (u_obj u')) with (o_dim o) by (unfold o_dim; fold o'; rewrite Hc; reflexivity).
    fold o o'. destruct (dr_linear (u_drift u)); [|constructor]. apply terms_rel_map. intros k _. apply HSpat. intros x. rewrite HF. reflexivity.
  - unfold well_terms. rewrite HW. apply terms_rel_map. intros [[wx wy] st] _. apply HSpat. intros x. fold o o'. rewrite HF. reflexivity.
  - unfold ext_terms. destruct (dr_ext (u_drift u)) as [[[[arr ex] ey] zz]|], (dr_ext (u_drift u')) as [[[[arr' ex'] ey'] zz']|]; try discriminate HE; [|constructor].
    cbn in HE. injection HE as -> -> ->. constructor; [|constructor]. apply HSpat. reflexivity.
  - unfold spec_terms. destruct (dr_spec (u_drift u)) as [ds|], (dr_spec (u_drift u')) as [ds'|]; try contradiction; [|constructor].
    clear - HSp. revert specs. induction HSp as [|d d' ds ds' Hd HF IH]; intros [|s specs]; try constructor.
    + split; [exact Hd|reflexivity].
    + apply IH.
  - unfold fun_terms. rewrite HFn. apply terms_rel_map. intros f _. apply HSpat. intros x. fold o o'. cbv zeta. rewrite HF. reflexivity.
Qed.

(** *** the drift settings depend on the geometry only *)
Lemma init_drift_fields c D o d : init_drift c D o = Ok d ->
  dr_linear d = asked D "regional_linear" /\
  opt_drift ((match c with UK2 => true | _ => false end) && asked D "external_Z") (init_external D o) = Ok (dr_ext d) /\
  opt_drift ((match c with UK2 => true | _ => false end) && asked D "point_log") (init_wells D o) = Ok (dr_wells d) /\
  opt_drift (asked D "specified") (init_specified D o) = Ok (dr_spec d) /\
  opt_drift (asked D "functional") (init_functional D) = Ok (dr_fun d).
Proof.
  unfold init_drift. cbv zeta. intros H. bindok H. bindok H. bindok H. bindok H. injection H as <-. cbn. 
  unfold asked, in_names in *. repeat (split; [solve [reflexivity|assumption]|]). assumption.
Qed.

Lemma mapM_forall2 {X Y Z W} (f : X -> res Y) (g : Z -> res W) (P : X -> Z -> Prop) (Q : Y -> W -> Prop) l l' r r' :
  Forall2 P l l' -> mapM f l = Ok r -> mapM g l' = Ok r' -> (forall x x' y y', P x x' -> f x = Ok y -> g x' = Ok y' -> Q y y') -> Forall2 Q r r'.
Proof.
  intros HF. revert r r'. induction HF as [|x x' l l' H HF IH]; intros r r' H1 H2 HPQ; cbn [mapM] in *.
  - injection H1 as <-. injection H2 as <-. constructor.
  - bindok H1. bindok H1. bindok H2. bindok H2. injection H1 as <-. injection H2 as <-. constructor; [eapply HPQ; eassumption|]. eapply IH; eauto.
Qed.

Lemma init_specified_inv D o ds : init_specified D o = Ok ds -> exists t ts, d_spec D = Some (t :: ts) /\
  mapM (fun t => if negb (Nat.eqb (List.length t) (o_n o)) then Err ValueError else Ok (rnth t)) (t :: ts) = Ok ds.
Proof. unfold init_specified. destruct (d_spec D) as [[|t ts]|]; try discriminate. intros H. exists t, ts. auto. Qed.

Lemma drift_geo c D sp sg o o' d d' : init_drift c D o = Ok d -> init_drift c (with_spec D sp) o' = Ok d' ->
  o_n o' = o_n o -> o_center o' = o_center o -> o_scaling o' = o_scaling o -> o_angle o' = o_angle o ->
  Forall2 (rearranged sg) (opt_list (d_spec D)) sp ->
  dr_linear d' = dr_linear d /\ dr_wells d' = dr_wells d /\
  option_map (fun x => fst x) (dr_ext d') = option_map (fun x => fst x) (dr_ext d) /\
  dr_fun d' = dr_fun d /\
  match dr_spec d, dr_spec d' with
  | Some ds, Some ds' => Forall2 (fun d d' : vec => forall i, (i < o_n o)%nat -> d' i = d (sg i)) ds ds'
  | None, None => True
  | _, _ => False
  end.
Proof.
  intros H H' Hn Hce Hs Ha HSp.
  destruct (init_drift_fields _ _ _ _ H) as (L1 & E1 & W1 & S1 & F1). destruct (init_drift_fields _ _ _ _ H') as (L2 & E2 & W2 & S2 & F2).
  change (asked (with_spec D sp)) with (asked D) in *.
  split; [congruence|]. split; [|split; [|split]].
  - assert (HI : init_wells (with_spec D sp) o' = init_wells D o) by (unfold init_wells; cbn [with_spec d_point]; rewrite Hce, Hs, Ha; reflexivity).
    rewrite HI in W2. congruence.
  - unfold opt_drift in E1, E2. destruct (_ && asked D "external_Z").
    + bindok E1. bindok E2. injection E1 as <-. injection E2 as <-. cbn. f_equal.
      match goal with H : init_external D o = Ok ?a |- _ => rename H into K1 end.
      match goal with H : init_external _ o' = Ok ?a |- _ => rename H into K2 end.
      unfold init_external in K1, K2. cbn [with_spec d_ext d_ext_x d_ext_y] in K2.
      destruct (d_ext D) as [[[rows cols] f]|]; [|discriminate]. destruct (d_ext_x D) as [ex|], (d_ext_y D) as [ey|]; try discriminate.
      match goal with H : bind ?x _ = _ |- _ => destruct x as [arr|] eqn:EA; [|discriminate] end. cbn [bind] in K1, K2.
      bindok K1. bindok K2. injection K1 as <-. injection K2 as <-. reflexivity.
    + injection E1 as <-. injection E2 as <-. reflexivity.
  - change (init_functional (with_spec D sp)) with (init_functional D) in F2. congruence.
  - unfold opt_drift in S1, S2. destruct (asked D "specified").
    + bindok S1. bindok S2. injection S1 as <-. injection S2 as <-.
      destruct (init_specified_inv D o _ ltac:(eassumption)) as (t & ts & Q1 & M1).
      destruct (init_specified_inv (with_spec D sp) o' _ ltac:(eassumption)) as (t' & ts' & Q2 & M2).
      cbn [with_spec d_spec] in Q2. rewrite Q1 in Q2, HSp. injection Q2 as Q2. rewrite Q2 in HSp. cbn [opt_list] in HSp.
      apply (mapM_forall2 _ _ _ _ _ _ _ _ HSp M1 M2). intros l l' y y' HP R1 R2.
      destruct (Nat.eqb_spec (List.length l) (o_n o)) as [EL|]; [|discriminate]. cbn [negb] in R1. destruct (negb _) in R2; [discriminate|].
      injection R1 as <-. injection R2 as <-. intros i Hi. apply (proj2 HP). rewrite EL. exact Hi.
    + injection S1 as <-. injection S2 as <-. exact I.
Qed.

Lemma with_spec_id D : with_spec D (opt_list (d_spec D)) = D.
Proof. destruct D as [? ? ? ? ? [|] ?]; reflexivity. Qed.

(** *** C14 *)
Lemma ubuilt_geo E c A A' D us u u' : ubuilt E c A D us u -> ubuilt E c A' D us u' ->
  (forall v, In v (c_v A :: us) -> explicit_params v) ->
  c_coords A' = c_coords A -> c_v A' = c_v A -> c_ct A' = c_ct A ->
  geo (u_obj u) (u_obj u') /\ u_drift u' = u_drift u.
Proof.
  intros HB HB' Hex Hco Hv Hct. destruct (ubuilt_obj _ _ _ _ _ _ HB) as (B & u0 & _ & Hd & HC & HI).
  destruct (ubuilt_obj _ _ _ _ _ _ HB') as (B' & u0' & _ & Hd' & HC' & HI').
  split; [apply (built_geo E c A A' us); assumption|].
  pose proof (construct_geo E c A A' _ _ HC HC' (Hex _ (or_introl eq_refl)) Hco Hv Hct) as G.
  rewrite (init_drift_same c D (u_obj u0) (u_obj u0')) in HI.
  - congruence.
  - symmetry. apply (ag_n _ _ G).
  - symmetry. apply (ag_orig _ _ G).
  - symmetry. apply (ag_center _ _ G).
  - intros _ _. rewrite (ag_scaling _ _ G), (ag_angle _ _ G). split; [intros; reflexivity|reflexivity].
Qed.

Lemma geo_G o o' : geo o o' -> G_of o' = G_of o.
Proof.
  intros G. unfold G_of, data_semivariance. pose proof (ag_fun _ _ G) as H1. pose proof (ag_params _ _ G) as H2.
  pose proof (ag_class _ _ G) as H3. pose proof (ag_ct _ _ G) as H4. pose proof (ag_orig _ _ G) as H5.
  pose proof (ag_scaling _ _ G) as H6. pose proof (ag_angle _ _ G) as H7. cbn in *.
  unfold o_vg, separation, datum, o_dim. rewrite H1, H2, H3, H4, H5, H6, H7. reflexivity.
Qed.
Lemma geo_g o o' pos : geo o o' -> o_exact o' = o_exact o -> g_of o' pos = g_of o pos.
Proof.
  intros G He. unfold g_of, query_semivariance. pose proof (ag_fun _ _ G) as H1. pose proof (ag_params _ _ G) as H2.
  pose proof (ag_class _ _ G) as H3. pose proof (ag_ct _ _ G) as H4. pose proof (ag_orig _ _ G) as H5.
  pose proof (ag_scaling _ _ G) as H6. pose proof (ag_angle _ _ G) as H7. cbn in *.
  unfold o_vg, separation, datum, o_dim. rewrite H1, H2, H3, H4, H5, H6, H7, He. reflexivity.
Qed.
Lemma geo_terms u u' q specs : geo (u_obj u) (u_obj u') -> u_drift u' = u_drift u -> drift_terms u' q specs = drift_terms u q specs.
Proof.
  intros G HD. pose proof (ag_class _ _ G) as H3. pose proof (ag_orig _ _ G) as H5.  pose proof (ag_center _ _ G) as H8.
  pose proof (ag_scaling _ _ G) as H6. pose proof (ag_angle _ _ G) as H7. cbn in *.
  unfold drift_terms, linear_terms, well_terms, ext_terms, spec_terms, fun_terms, spatial, frame, center3, datum, o_dim.
  rewrite HD, H3, H5, H6, H7, H8. reflexivity.
Qed.

(** weights common to all data sets with the same geometry *)
Lemma ucell_linear E c A A' D us u u' q specs r r' p pos : ubuilt E c A D us u -> ubuilt E c A' D us u' ->
  (forall v, In v (c_v A :: us) -> explicit_params v) ->
  c_coords A' = c_coords A -> c_v A' = c_v A -> c_ct A' = c_ct A -> c_exact A' = c_exact A ->
  urun E u q specs r -> urun E u' q specs r' -> faithful_specs u q -> shown (u_obj u) q p pos ->
  let n := o_n (u_obj u) in let ts := drift_terms u q specs in
  o_n (u_obj u') = n /\ exists x s, r_value r p = Some (bsum n (fun i => x i * o_values (u_obj u) i)) /\ r_variance r p = Some s /\
    r_value r' p = Some (bsum n (fun i => x i * o_values (u_obj u') i)) /\ r_variance r' p = Some s /\
    (uwell_posed u q specs p pos -> exists mu nu, UK_system n (List.length ts) (G_of (u_obj u)) (F_of ts) (g_of (u_obj u) pos) (f_of ts p pos) x mu nu).
Proof.
  intros HB HB' Hex Hco Hv Hct Hxa HR HR' HF HS n ts.
  destruct (ubuilt_geo E c A A' D us u u' HB HB' Hex Hco Hv Hct) as [G HD].
  pose proof (built_exact _ _ _ _ _ (proj1 (ubuilt_obj _ _ _ _ _ _ HB))) as X. pose proof (built_exact _ _ _ _ _ (proj1 (ubuilt_obj _ _ _ _ _ _ HB'))) as X'.
  assert (Xe : o_exact (u_obj u') = o_exact (u_obj u)) by congruence.
  assert (Hn : o_n (u_obj u') = n) by apply (ag_n _ _ G). split; [exact Hn|].
  pose proof (geo_terms u u' q specs G HD) as HT.
  apply (ucell_similar E E u u' (fun i => i) q q specs specs r r' p p pos pos HR HR' HF); try assumption.
  - unfold faithful_specs in *. rewrite HD. exact HF.
  - apply (geo_shown _ _ _ _ _ G HS).
  - rewrite HT. reflexivity.
  - apply perm_id.
  - intros i j _ _. rewrite (geo_G _ _ G). reflexivity.
  - intros i _. rewrite (geo_g _ _ pos G Xe). reflexivity.
  - intros a i _ _. rewrite HT. reflexivity.
  - intros a _. rewrite HT. reflexivity.
Qed.

Theorem uk_affine_data E c A D us u u' q specs r r' p pos a b cs z :
  ubuilt E c A D us u -> ubuilt E c (with_values A z) D us u' ->
  (forall v, In v (c_v A :: us) -> explicit_params v) ->
  urun E u q specs r -> urun E u' q specs r' -> faithful_specs u q -> shown (u_obj u) q p pos -> uwell_posed u q specs p pos ->
  let ts := drift_terms u q specs in
  (forall i, (i < List.length (c_values A))%nat ->
     rnth z i = a * rnth (c_values A) i + b + combination cs (map (fun t => t_data t i) ts)) ->
  exists v s, r_value r p = Some v /\ r_variance r p = Some s /\
    r_value r' p = Some (a * v + b + combination cs (map (fun t => t_query t p pos) ts)) /\ r_variance r' p = Some s.
Proof.
  intros HB HB' Hex HR HR' HF HS HW ts Hz.
  destruct (ucell_linear E c A (with_values A z) D us u u' q specs r r' p pos HB HB' Hex eq_refl eq_refl eq_refl eq_refl HR HR' HF HS)
    as (Hn & x & s & Hv & Hs & Hv' & Hs' & HSys). fold ts in HSys. destruct (HSys HW) as (mu & nu & _ & Hx1 & HxF).
  eexists _, s. split; [exact Hv|]. split; [exact Hs|]. split; [|exact Hs']. rewrite Hv'. f_equal.
  destruct (built_values _ _ _ _ _ (proj1 (ubuilt_obj _ _ _ _ _ _ HB))) as (V1 & N1 & _).
  destruct (built_values _ _ _ _ _ (proj1 (ubuilt_obj _ _ _ _ _ _ HB'))) as (V2 & N2 & _). cbn [c_values with_values] in *.
  set (n := o_n (u_obj u)) in *. rewrite V1, V2, combination_nth, map_length.
  rewrite (bsum_ext n _ (fun i => a * (x i * rnth (c_values A) i) + x i * b + bsum (List.length ts) (fun k => nth k cs 0 * (x i * F_of ts k i)))).
  2:{ intros i Hi. rewrite Hz by (rewrite <- N1; exact Hi). rewrite combination_nth, map_length, !Rmult_plus_distr_l, <- bsum_scal. f_equal; [ring|].
      apply bsum_ext; intros k Hk. rewrite <- nth_t_data. unfold F_of. ring. }
  rewrite !bsum_plus, bsum_scal, bsum_scal_r, Hx1, bsum_swap. rewrite Rmult_1_l. f_equal.
  apply bsum_ext; intros k Hk. rewrite bsum_scal, HxF by exact Hk. unfold f_of. rewrite nth_t_query. reflexivity.
Qed.

Theorem uk_additive E c A D us z1 z2 u1 u2 u q specs r1 r2 r p pos :
  List.length z2 = List.length z1 ->
  ubuilt E c (with_values A z1) D us u1 -> ubuilt E c (with_values A z2) D us u2 ->
  ubuilt E c (with_values A (map (fun i => rnth z1 i + rnth z2 i) (seq 0 (List.length z1)))) D us u ->
  (forall v, In v (c_v A :: us) -> explicit_params v) ->
  urun E u1 q specs r1 -> urun E u2 q specs r2 -> urun E u q specs r -> faithful_specs u q -> shown (u_obj u) q p pos ->
  exists v1 v2 s, r_value r1 p = Some v1 /\ r_value r2 p = Some v2 /\ r_value r p = Some (v1 + v2) /\
    r_variance r1 p = Some s /\ r_variance r2 p = Some s /\ r_variance r p = Some s.
Proof.
  intros HL HB1 HB2 HB Hex HR1 HR2 HR HF HS.
  destruct (ubuilt_geo E c _ (with_values A z1) D us u u1 HB HB1 Hex eq_refl eq_refl eq_refl) as [G1 D1].
  destruct (ubuilt_geo E c _ (with_values A z2) D us u u2 HB HB2 Hex eq_refl eq_refl eq_refl) as [G2 D2].
  set (n := o_n (u_obj u)).
  assert (X : o_exact (u_obj u1) = o_exact (u_obj u) /\ o_exact (u_obj u2) = o_exact (u_obj u)).
  { pose proof (built_exact _ _ _ _ _ (proj1 (ubuilt_obj _ _ _ _ _ _ HB))) as X. pose proof (built_exact _ _ _ _ _ (proj1 (ubuilt_obj _ _ _ _ _ _ HB1))) as X1.
    pose proof (built_exact _ _ _ _ _ (proj1 (ubuilt_obj _ _ _ _ _ _ HB2))) as X2. cbn in X, X1, X2. split; congruence. }
  destruct X as [X1 X2].
  destruct (ucell_pinv E u q specs r p pos HR HS HF) as (P & HP & Hv & Hs & _).
  assert (HU : forall u', geo (u_obj u) (u_obj u') -> u_drift u' = u_drift u -> o_exact (u_obj u') = o_exact (u_obj u) -> forall r', urun E u' q specs r' ->
    let m := List.length (drift_terms u q specs) in let b := Ub n m (g_of (u_obj u) pos) (f_of (drift_terms u q specs) p pos) in
    let x := mulv (n + m + 1) P b in
    r_value r' p = Some (bsum n (fun i => x i * o_values (u_obj u') i)) /\ r_variance r' p = Some (bsum (n + m + 1) (fun i => x i * - b i))).
  { intros u' G D' X' r' HR' m b x.
    assert (HF' : faithful_specs u' q) by (unfold faithful_specs in *; rewrite D'; exact HF).
    destruct (ucell_pinv E u' q specs r' p pos HR' (geo_shown _ _ _ _ _ G HS) HF') as (P' & HP' & Hv' & Hs' & _).
    rewrite (geo_terms u u' q specs G D'), (geo_G _ _ G), (geo_g _ _ pos G X') in *.
    replace (o_n (u_obj u')) with n in * by (symmetry; apply (ag_n _ _ G)).
    pose proof (pinv_unique _ _ _ _ HP' HP) as HPP. fold m in HP', HPP, Hv', Hs'. fold b in Hv', Hs'.
    assert (HX : forall i, (i < n + m + 1)%nat -> mulv (n + m + 1) P' b i = x i).
    { intros i Hi. unfold x, mulv. apply bsum_ext; intros j Hj. rewrite HPP by assumption. reflexivity. }
    split; [rewrite Hv'|rewrite Hs']; f_equal; apply bsum_ext; intros i Hi; rewrite HX by lia; reflexivity. }
  destruct (HU u1 G1 D1 X1 r1 HR1) as [Hv1 Hs1]. destruct (HU u2 G2 D2 X2 r2 HR2) as [Hv2 Hs2].
  eexists _, _, _. split; [exact Hv1|]. split; [exact Hv2|]. split; [|split; [exact Hs1|split; [exact Hs2|exact Hs]]].
  rewrite Hv. f_equal. rewrite <- bsum_plus. apply bsum_ext; intros i Hi. fold n in Hi.
  destruct (built_values _ _ _ _ _ (proj1 (ubuilt_obj _ _ _ _ _ _ HB))) as (-> & Hn & _).
  destruct (built_values _ _ _ _ _ (proj1 (ubuilt_obj _ _ _ _ _ _ HB1))) as (-> & _).
  destruct (built_values _ _ _ _ _ (proj1 (ubuilt_obj _ _ _ _ _ _ HB2))) as (-> & _). cbn [c_values with_values] in *.
  rewrite map_length, seq_length in Hn. fold n in Hn. rewrite Hn in Hi.
  rewrite (rnth_tab (fun k => rnth z1 k + rnth z2 k)) by exact Hi. fold n. ring.
Qed.

(** *** C17 *)
Lemma rearranged_Permutation s l l' : rearranged s l l' -> perm_on (List.length l) s -> Permutation l l'.
Proof.
  intros [HL HR] Hs. assert (HE : l' = map (fun i => rnth l i) (map s (seq 0 (List.length l)))).
  { rewrite map_map. apply (nth_ext _ _ 0 0); [rewrite map_length, seq_length; exact HL|].
    intros i Hi. change (nth i l' 0) with (rnth l' i). rewrite HR by lia.
    change (rnth l (s i) = rnth (map (fun x => rnth l (s x)) (seq 0 (List.length l))) i).
    rewrite (rnth_tab (fun x => rnth l (s x))) by lia. reflexivity. }
  rewrite HE. transitivity (map (fun i => rnth l i) (seq 0 (List.length l))).
  - replace (map (fun i => rnth l i) (seq 0 (List.length l))) with l; [reflexivity|].
    apply (nth_ext _ _ 0 0); [rewrite map_length, seq_length; reflexivity|]. intros i Hi.
    change (rnth l i = rnth (map (fun x => rnth l x) (seq 0 (List.length l))) i). rewrite (rnth_tab (rnth l)) by exact Hi. reflexivity.
  - apply Permutation_map. symmetry. apply perm_on_Permutation, Hs.
Qed.

Lemma centers_perm ls ls' : Forall2 (@Permutation R) ls ls' -> mapM center_of ls = mapM center_of ls'.
Proof.
  induction 1 as [|l l' ls ls' H HF IH]; [reflexivity|]. cbn [mapM]. rewrite IH.
  replace (center_of l) with (center_of l'); [reflexivity|]. unfold center_of. rewrite (amax_perm _ _ H), (amin_perm _ _ H). reflexivity.
Qed.

Lemma uk_class_euclidean E u : ureachable E u -> o_ct (u_obj u) = Euclidean.
Proof. intros H. apply (ui_ct u (ureachable_inv E u H)). Qed.

Theorem uk_permuted_data E c A D us s coords z sp u u' q specs r r' p pos :
  List.length coords = cdim c ->
  (forall j, (j < cdim c)%nat -> rearranged s (nth j (c_coords A) []) (nth j coords [])) ->
  rearranged s (c_values A) z -> perm_on (List.length (c_values A)) s ->
  Forall2 (rearranged s) (opt_list (d_spec D)) sp ->
  ubuilt E c A D us u -> ubuilt E c (with_data A coords z) (with_spec D sp) us u' ->
  urun E u q specs r -> urun E u' q specs r' -> faithful_specs u q -> shown (u_obj u) q p pos ->
  r_value r p = r_value r' p /\ r_variance r p = r_variance r' p.
Proof.
  intros HLC Hco Hz Hs Hsp HUB HUB' HR HR' HFa HS.
  destruct (ubuilt_obj _ _ _ _ _ _ HUB) as (HB & u0 & _ & Hd & HC0 & HI). destruct (ubuilt_obj _ _ _ _ _ _ HUB') as (HB' & u0' & _ & Hd' & HC0' & HI').
  set (o := u_obj u) in *. set (o' := u_obj u') in *.
  pose proof (built_exact _ _ _ _ _ HB) as X. pose proof (built_exact _ _ _ _ _ HB') as X'. cbn in X'.
  assert (HD := fun i => built_datum _ _ _ _ _ i HB). assert (HD' := fun i => built_datum _ _ _ _ _ i HB').
  pose proof (built_class _ _ _ _ _ HB) as HC. pose proof (built_class _ _ _ _ _ HB') as HC'.
  pose proof HB as (HL & o0 & H & Ho). pose proof HB' as (HL' & o0' & H' & Ho').
  assert (u_obj u0 = o0) as E0 by congruence. assert (u_obj u0' = o0') as E0' by congruence. rewrite E0 in HI. rewrite E0' in HI'. clear HC0 HC0' E0 E0'.
  destruct (construct_orig _ _ _ _ H) as (C1 & O1 & V1 & N1 & M1 & S1).
  destruct (construct_orig _ _ _ _ H') as (C2 & O2 & V2 & N2 & M2 & S2). cbn [c_coords c_values with_data] in *.
  assert (HN : o_n o0' = o_n o0) by (rewrite M1, M2; apply (proj1 Hz)).
  assert (HSD : forall i, (i < o_n o0)%nat -> input c (with_data A coords z) i = input c A (s i)).
  { intros i Hi. unfold input. cbn [c_coords with_data]. rewrite N1 in Hi.
    assert (HJ : forall j, (j < cdim c)%nat -> rnth (nth j coords []) i = rnth (nth j (c_coords A) []) (s i)).
    { intros j Hj. apply (Hco j Hj). rewrite (same_length_nth _ j S1); [exact Hi|]. rewrite HL. exact Hj. }
    destruct (cdim_cases c) as [Hc|Hc]; rewrite Hc in *; cbn [loc Nat.eqb].
    - unfold loc; cbn [Nat.eqb]. rewrite !HJ by lia. reflexivity.
    - unfold loc; cbn [Nat.eqb]. rewrite !HJ by lia. reflexivity. }
  rewrite <- M1 in Hs.
  assert (HM0 : moved (fun _ _ => True) s o0 o0').
  { apply (construct_moved E c A (with_data A coords z)); try assumption; try reflexivity; try exact I.
    - intros i Hi. rewrite V1, V2. apply (proj2 Hz). rewrite <- M1. exact Hi.
    - apply update_Q_true.
    - intros sc an _ i j Hi Hj. rewrite !(construct_datum _ _ _ _ _ H), !(construct_datum _ _ _ _ _ H').
      rewrite !HSD by assumption. reflexivity. }
  assert (HM : moved (fun _ _ => True) s o o').
  { rewrite Ho, Ho'. apply (built_moved E c A (with_data A coords z) us); try assumption; try reflexivity; try exact I.
    - intros i Hi. rewrite V1, V2. apply (proj2 Hz). rewrite <- M1. exact Hi.
    - intros; apply update_Q_true.
    - intros sc an _ i j Hi Hj. rewrite !(construct_datum _ _ _ _ _ H), !(construct_datum _ _ _ _ _ H').
      rewrite !HSD by assumption. reflexivity. }
  pose proof (after_updates_fixed E us o0) as FX. pose proof (after_updates_fixed E us o0') as FX'. cbv zeta in FX, FX'.
  rewrite <- Ho in FX. rewrite <- Ho' in FX'.
  assert (HNN : o_n o = o_n o0) by apply FX.
  assert (Hct : o_ct o = Euclidean) by (apply (uk_class_euclidean E); apply HR).
  assert (Hct' : o_ct o' = Euclidean) by (apply (uk_class_euclidean E); apply HR').
  assert (HCen : o_center o' = o_center o /\ o_center o0' = o_center o0).
  { pose proof (ba_center _ _ _ (built_based _ _ _ _ _ HB)) as K. pose proof (ba_center _ _ _ (built_based _ _ _ _ _ HB')) as K'.
    pose proof (ba_center _ _ _ (construct_based _ _ _ _ H)) as K0. pose proof (ba_center _ _ _ (construct_based _ _ _ _ H')) as K0'.
    assert (o_ct o0 = o_ct o) as T1 by (symmetry; apply FX). assert (o_ct o0' = o_ct o') as T1' by (symmetry; apply FX').
    rewrite T1, Hct in *. rewrite T1', Hct' in *. cbn [c_coords with_data] in *.
    assert (HMM : mapM center_of (c_coords A) = mapM center_of coords).
    { apply centers_perm. clear - HL HLC Hco Hs N1 S1.
      assert (HP : forall j, (j < cdim c)%nat -> Permutation (nth j (c_coords A) []) (nth j coords [])).
      { intros j Hj. apply (rearranged_Permutation s); [apply Hco, Hj|]. rewrite (same_length_nth _ j S1) by lia. rewrite <- N1. exact Hs. }
      revert HL HLC HP. generalize (cdim c). generalize (c_coords A). clear. intros l. revert coords.
      induction l as [|x l IH]; intros [|y coords] [|n] HL HLC HP; try discriminate; [constructor|].
      constructor; [apply (HP 0%nat); lia|]. apply (IH coords n); try (cbn in *; lia). intros j Hj. apply (HP (S j)). lia. }
    destruct K as (k & Q1 & ->), K' as (k' & Q2 & ->), K0 as (k0 & Q3 & ->), K0' as (k0' & Q4 & ->). split; congruence. }
  destruct HCen as [HCe HCe0].
  destruct (drift_geo c D sp s o0 o0' (u_drift u0) (u_drift u0')) as (L1 & L2 & L3 & L4 & L5); try assumption; try apply HM0.
  assert (HT : terms_rel (o_n o) s p p pos (drift_terms u q specs) (drift_terms u' q specs)).
  { apply permuted_terms; rewrite ?Hd, ?Hd'; fold o o'; rewrite ?HNN; try assumption; try congruence; try apply HM.
    intros i Hi. rewrite HD, HD'. apply HSD, Hi. }
  destruct (terms_rel_use _ _ _ _ _ _ _ HT) as (T1 & T2 & T3).
  assert (HS' : shown o' q p pos).
  { unfold shown in *. rewrite (moved_dim _ _ _ _ HM). exact HS. }
  assert (HFa' : faithful_specs u' q).
  { destruct HFa as [Hb|Hb]; [left; exact Hb|right]. rewrite Hd'. rewrite Hd in Hb. rewrite Hb in L5. destruct (dr_spec (u_drift u0')); [contradiction|reflexivity]. }
  assert (Hs' : perm_on (o_n o) s) by (rewrite HNN; exact Hs).
  destruct (ucell_similar E E u u' s q q specs specs r r' p p pos pos HR HR' HFa HFa' HS HS') as (x & sg & Hv & Hvs & Hv' & Hvs' & _); try assumption.
  - apply (mv_n _ _ _ _ HM).
  - intros i j Hi Hj. apply (moved_G _ _ _ _ i j HM); assumption.
  - apply (moved_g _ _ _ _ pos pos HM); [congruence|]. intros i Hi. fold o o'. rewrite HD, HD', HSD by (rewrite <- HNN; exact Hi).
    rewrite !separation_gen, (moved_dim _ _ _ _ HM), (mv_ct _ _ _ _ HM), (mv_scaling _ _ _ _ HM), (mv_angle _ _ _ _ HM). reflexivity.
  - rewrite Hvs, Hvs'. split; [|reflexivity]. rewrite Hv, Hv'. f_equal. fold o o'.
    rewrite <- (bsum_perm (o_n o) s (fun i => x i * o_values o i) Hs').
    apply bsum_ext; intros i Hi. rewrite (mv_values _ _ _ _ HM) by exact Hi. reflexivity.
Qed.
