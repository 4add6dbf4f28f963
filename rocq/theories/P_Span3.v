(** Proofs of C82, continued: regional_linear as functional or specified drift. *)
From Coq Require Import String.
From Verif Require Import Base Sums Matrix Nz M_Variogram P_Variogram M_Geometry S_Geometry P_Geometry M_Kriging S_Kriging
  P_Kriging P_OKSpec M_Init M_Object M_Execute S_Execute P_Object P_Execute P_Cells P_Window P_WindowExec P_Master P_Det P_OK P_Similar P_Binning P_Data P_Linear P_Exec2 P_Data2
  M_UK S_UK P_UK P_UK2 P_UK3 P_UK4 P_UK5 P_State P_UK7 P_UK10 P_UK11 P_UK13 P_UK14 P_UK15 P_UK18 P_State2 S_Bilinear P_Bilinear S_Drift P_UK19 S_Span P_Span P_Span2.

Lemma same_terms_span n pos p ts ts' : (forall t, In t ts <-> In t ts') -> same_span n pos p ts p ts'.
Proof. intros H. split; intros t Ht; apply (expressed_in n pos p t p _ t); try (intros; reflexivity); apply H; exact Ht. Qed.

Theorem linear_functional E c A D D' us u u' q specs r r' p pos :
  ubuilt E c A D us u -> ubuilt E c A D' us u' -> linear_as_functions c D D' ->
  urun E u q specs r -> urun E u' q specs r' -> faithful_specs u q -> shown (u_obj u) q p pos -> uregular u' q specs ->
  r_value r p = r_value r' p /\ r_variance r p = r_variance r' p.
Proof.
  intros HU HU' HO HR HR' HF HS Hreg.
  pose proof (same_history_obj _ _ _ _ _ _ _ _ HU HU') as HOb.
  destruct (ubuilt_obj _ _ _ _ _ _ HU) as (HB & u0 & HC0 & Hd & HC0' & HIn). destruct (ubuilt_obj _ _ _ _ _ _ HU') as (_ & u0' & HD0 & Hd' & HD0' & HIn').
  assert (HO0 : u_obj u0' = u_obj u0) by congruence.
  destruct (init_drift_fields _ _ _ _ HIn) as (L1 & E1 & W1 & S1 & F1). destruct (init_drift_fields _ _ _ _ HIn') as (L2 & E2 & W2 & S2 & F2).
  destruct HO as [OL OL' OF OFs OA OP OX OXx OXy OS].
  rewrite (OA "external_Z"%string) in E2 by (cbn; auto). rewrite (OA "point_log"%string) in W2 by (cbn; auto).
  rewrite (OA "specified"%string) in S2 by (cbn; auto).
  rewrite <- Hd in L1, E1, W1, S1, F1. rewrite <- Hd' in L2, E2, W2, S2, F2. rewrite HO0 in *.
  assert (X1 : dr_ext (u_drift u') = dr_ext (u_drift u)).
  { replace (init_external D' (u_obj u0)) with (init_external D (u_obj u0)) in E2; [congruence|]. unfold init_external. rewrite OX, OXx, OXy. reflexivity. }
  assert (X2 : dr_wells (u_drift u') = dr_wells (u_drift u)).
  { replace (init_wells D' (u_obj u0)) with (init_wells D (u_obj u0)) in W2; [congruence|]. unfold init_wells. rewrite OP. reflexivity. }
  assert (X3 : dr_spec (u_drift u') = dr_spec (u_drift u)).
  { replace (init_specified D' (u_obj u0)) with (init_specified D (u_obj u0)) in S2; [congruence|]. unfold init_specified. rewrite OS. reflexivity. }
  assert (X4 : dr_fun (u_drift u') = Some (coordinate_functions (cdim c) ++ opt_list (dr_fun (u_drift u)))).
  { rewrite OF in F2. unfold opt_drift, init_functional in F1, F2. rewrite OFs in F2.
    destruct (asked D "functional").
    - destruct (d_fun D) as [[|f fs]|]; cbn in F1; try discriminate. injection F1 as F1. rewrite <- F1. cbn [opt_list] in *.
      destruct (coordinate_functions (cdim c) ++ f :: fs) as [|g gs] eqn:EG; cbn in F2; congruence.
    - injection F1 as F1. rewrite <- F1. cbn [opt_list]. destruct (coordinate_functions (cdim c) ++ []) as [|g gs] eqn:EG; cbn in F2; [|congruence].
      unfold coordinate_functions in EG. destruct (cdim c) as [|[|[|k]]]; discriminate EG. }
  assert (Hdim : o_dim (u_obj u) = cdim c) by (unfold o_dim; rewrite (built_class _ _ _ _ _ HB); reflexivity).
  assert (HUK : c = UK2 \/ c = UK3).
  { rewrite <- (built_class _ _ _ _ _ HB). apply (ui_class u (ureachable_inv E u (proj1 (proj2 HR)))). }
  apply (span_only E c A D D' us u u' q q specs specs r r' p p pos); try assumption.
  - unfold faithful_specs in *. rewrite X3. exact HF.
  - rewrite HOb. exact HS.
  - apply same_terms_span. unfold drift_terms.
    assert (K1 : linear_terms u = map (fun f => spatial (u_obj u) (fun p => let c := frame (u_obj u) p in f (coord 0 c) (coord 1 c) (coord 2 c))) (coordinate_functions (cdim c))).
    { unfold linear_terms. rewrite L1, OL, Hdim. destruct HUK as [-> | ->]; reflexivity. }
    assert (K2 : linear_terms u' = []) by (unfold linear_terms; rewrite L2, OL'; reflexivity).
    assert (K3 : well_terms u' = well_terms u) by (unfold well_terms; rewrite X2, HOb; reflexivity).
    assert (K4 : ext_terms u' = ext_terms u) by (unfold ext_terms; rewrite X1, HOb; reflexivity).
    assert (K5 : spec_terms u' q specs = spec_terms u q specs) by (unfold spec_terms; rewrite X3; reflexivity).
    assert (K6 : fun_terms u' = linear_terms u ++ fun_terms u).
    { unfold fun_terms. rewrite X4, HOb, K1. cbn [opt_list]. rewrite map_app. reflexivity. }
    rewrite K2, K3, K4, K5, K6. intros t. cbn [app]. rewrite !in_app_iff. tauto.
Qed.

(** frame coordinates are affine in the coordinates *)
Lemma frame_affine o k : (k < o_dim o)%nat -> exists a b0 b1 b2, (o_dim o = 2%nat -> b2 = 0) /\
  forall pos, in_dim (o_dim o) pos -> coord k (frame o pos) = a + b0 * coord 0 pos + b1 * coord 1 pos + b2 * coord 2 pos.
Proof.
  intros Hk. destruct (o_dim_cases o) as [ED|ED].
  - assert (HC : snd (center3 o) = 0) by (unfold center3; rewrite ED; reflexivity).
    destruct (center3 o) as [[cx cy] cz] eqn:EC. cbn in HC. subst cz.
    set (al := rad (o_angle o 0%nat)). set (s := o_scaling o 0%nat). rewrite ED in Hk.
    destruct k as [|[|k]]; [| |lia].
    + exists (cx - cos al * cx - sin al * cy), (cos al), (sin al), 0. split; [reflexivity|]. intros [[x y] z] Hz. specialize (Hz ED). cbn in Hz. subst z.
      unfold frame. rewrite ED, EC. cbn [Nat.eqb sub3 add3 coord fst snd dot3]. fold al s. ring.
    + exists (cy + s * (sin al * cx - cos al * cy)), (- s * sin al), (s * cos al), 0. split; [reflexivity|]. intros [[x y] z] Hz. specialize (Hz ED). cbn in Hz. subst z.
      unfold frame. rewrite ED, EC. cbn [Nat.eqb sub3 add3 coord fst snd dot3]. fold al s. ring.
  - set (e := fun k => rotated_axis (rad (o_angle o 0%nat)) (rad (o_angle o 1%nat)) (rad (o_angle o 2%nat)) k).
    assert (EF : forall pos, frame o pos = add3 (center3 o) (dot3 (e (1,0,0)) (sub3 pos (center3 o)),
          o_scaling o 0%nat * dot3 (e (0,1,0)) (sub3 pos (center3 o)), o_scaling o 1%nat * dot3 (e (0,0,1)) (sub3 pos (center3 o)))).
    { intros pos. unfold frame. rewrite ED. reflexivity. }
    assert (X : forall (s : R) (v : vec3) (c0 : R), exists a b0 b1 b2, forall pos,
       c0 + s * dot3 v (sub3 pos (center3 o)) = a + b0 * coord 0 pos + b1 * coord 1 pos + b2 * coord 2 pos).
    { intros s [[v0 v1] v2] c0. destruct (center3 o) as [[cx cy] cz].
      exists (c0 - s * (v0 * cx + v1 * cy + v2 * cz)), (s * v0), (s * v1), (s * v2). intros [[x y] z]. cbn. ring. }
    rewrite ED in Hk. destruct k as [|[|[|k]]]; [| | |lia].
    + destruct (X 1 (e (1,0,0)) (coord 0 (center3 o))) as (a & b0 & b1 & b2 & HX). exists a, b0, b1, b2. split; [rewrite ED; discriminate|].
      intros pos _. rewrite <- HX, EF. destruct (center3 o) as [[cx cy] cz]. cbn [add3 coord fst snd]. ring.
    + destruct (X (o_scaling o 0%nat) (e (0,1,0)) (coord 1 (center3 o))) as (a & b0 & b1 & b2 & HX). exists a, b0, b1, b2. split; [rewrite ED; discriminate|].
      intros pos _. rewrite <- HX, EF. destruct (center3 o) as [[cx cy] cz]. cbn [add3 coord fst snd]. ring.
    + destruct (X (o_scaling o 1%nat) (e (0,0,1)) (coord 2 (center3 o))) as (a & b0 & b1 & b2 & HX). exists a, b0, b1, b2. split; [rewrite ED; discriminate|].
      intros pos _. rewrite <- HX, EF. destruct (center3 o) as [[cx cy] cz]. cbn [add3 coord fst snd]. ring.
Qed.

(** only linear / only specified terms *)
Lemma asks_only_off D name t : asks_only D name -> In t drift_names -> t <> name -> asked D t = false.
Proof. intros H HI HN. rewrite (H t HI). apply String.eqb_neq, HN. Qed.

Lemma only_linear E c A D us u q specs : ubuilt E c A D us u -> asks_only D "regional_linear" ->
  dr_linear (u_drift u) = true /\ dr_spec (u_drift u) = None /\ drift_terms u q specs = linear_terms u.
Proof.
  intros HU HA. destruct (ubuilt_obj _ _ _ _ _ _ HU) as (HB & u0 & HC0 & Hd & HC0' & HIn).
  destruct (init_drift_fields _ _ _ _ HIn) as (L1 & E1 & W1 & S1 & F1). rewrite <- Hd in L1, E1, W1, S1, F1.
  rewrite (asks_only_off D _ "external_Z" HA) in E1 by (cbn; auto 10 || discriminate). rewrite (asks_only_off D _ "point_log" HA) in W1 by (cbn; auto 10 || discriminate).
  rewrite (asks_only_off D _ "specified" HA) in S1 by (cbn; auto 10 || discriminate). rewrite (asks_only_off D _ "functional" HA) in F1 by (cbn; auto 10 || discriminate).
  rewrite (HA "regional_linear"%string) in L1 by (cbn; auto). rewrite ?andb_false_r in *. cbn in E1, W1, S1, F1.
  injection E1 as E1. injection W1 as W1. injection S1 as S1. injection F1 as F1.
  split; [exact L1|]. split; [congruence|]. unfold drift_terms, well_terms, ext_terms, spec_terms, fun_terms.
  rewrite <- E1, <- W1, <- S1, <- F1. cbn [opt_list map app]. apply app_nil_r.
Qed.

Lemma only_specified E c A D us u q specs ds : ubuilt E c A D us u -> asks_only D "specified" -> d_spec D = Some ds ->
  drift_terms u q specs = map (fun '(d, s) => {| t_data := d; t_query := fun p _ => spec_at q s p |}) (combine (map rnth ds) specs).
Proof.
  intros HU HA HDs. destruct (ubuilt_obj _ _ _ _ _ _ HU) as (HB & u0 & HC0 & Hd & HC0' & HIn).
  destruct (init_drift_fields _ _ _ _ HIn) as (L1 & E1 & W1 & S1 & F1). rewrite <- Hd in L1, E1, W1, S1, F1.
  rewrite (asks_only_off D _ "external_Z" HA) in E1 by (cbn; auto 10 || discriminate). rewrite (asks_only_off D _ "point_log" HA) in W1 by (cbn; auto 10 || discriminate).
  rewrite (asks_only_off D _ "regional_linear" HA) in L1 by (cbn; auto 10 || discriminate). rewrite (asks_only_off D _ "functional" HA) in F1 by (cbn; auto 10 || discriminate).
  rewrite (HA "specified"%string) in S1 by (cbn; auto). rewrite ?andb_false_r in *. cbn in E1, W1, F1.
  injection E1 as E1. injection W1 as W1. injection F1 as F1.
  unfold opt_drift, init_specified in S1. rewrite HDs in S1. cbn [String.eqb Ascii.eqb Bool.eqb] in S1.
  destruct ds as [|d0 ds]; [discriminate S1|]. set (l := d0 :: ds) in *.
  destruct (mapM _ l) as [m|] eqn:EM; [|discriminate S1]. cbn [bind] in S1. injection S1 as S1. apply mapM_spec_lists in EM.
  unfold drift_terms, linear_terms, well_terms, ext_terms, spec_terms, fun_terms. rewrite L1, <- E1, <- W1, <- F1, <- S1, EM.
  cbn [opt_list map app]. apply app_nil_r.
Qed.

Theorem linear_specified E c A D D' us u u' q q' specs specs' r r' p p' pos :
  ubuilt E c A D us u -> ubuilt E c A D' us u' -> asks_only D "regional_linear" -> asks_only D' "specified" ->
  d_spec D' = Some (c_coords A) -> coordinate_arrays (cdim c) q' specs' p' pos ->
  o_scaling (u_obj u) 0%nat <> 0 -> (o_dim (u_obj u) = 3%nat -> o_scaling (u_obj u) 1%nat <> 0) ->
  urun E u q specs r -> urun E u' q' specs' r' -> q_backend q' = "vectorized"%string ->
  shown (u_obj u) q p pos -> shown (u_obj u') q' p' pos -> uregular u' q' specs' ->
  r_value r p = r_value r' p' /\ r_variance r p = r_variance r' p'.
Proof.
  intros HU HU' HA HA' HDs HCA Hs0 Hs1 HR HR' HV HS HS' Hreg.
  pose proof (same_history_obj _ _ _ _ _ _ _ _ HU HU') as HOb.
  destruct (only_linear _ _ _ _ _ _ q specs HU HA) as (HL & HSp & HT). pose proof (only_specified _ _ _ _ _ _ q' specs' _ HU' HA' HDs) as HT'.
  pose proof (proj1 (ubuilt_obj _ _ _ _ _ _ HU)) as HB.
  assert (Hdim : o_dim (u_obj u) = cdim c) by (unfold o_dim; rewrite (built_class _ _ _ _ _ HB); reflexivity).
  assert (Hpos : in_dim (o_dim (u_obj u)) pos) by (apply (cell_in_dim _ q p), HS).
  assert (HDat : forall i, datum (u_obj u) i = input c A i) by (intros i; apply (built_datum _ _ _ _ _ i HB)).
  assert (HLen : List.length (c_coords A) = cdim c) by apply HU.
  apply (span_only E c A D D' us u u' q q' specs specs' r r' p p' pos); try assumption.
  - right. exact HSp.
  - left. exact HV.
  - split.
    + (* frame coordinates from the coordinates *)
      rewrite HT, HT'. unfold linear_terms. rewrite HL. intros t Ht. apply in_map_iff in Ht as (k & <- & Hk). apply in_seq in Hk.
      destruct (frame_affine (u_obj u) k ltac:(lia)) as (a & b0 & b1 & b2 & H2 & HF).
      exists a, [b0; b1; b2]. unfold coordinate_arrays in HCA. 
      assert (Hdd : forall i, datum (u_obj u) i = input c A i /\ in_dim (o_dim (u_obj u)) (datum (u_obj u) i)).
      { intros i. split; [apply HDat|apply datum_in_dim]. }
      cbn [spatial t_data t_query]. rewrite Hdim in *.
      destruct (c_coords A) as [|x0 [|x1 [|x2 [|? ?]]]] eqn:EC; destruct c; try discriminate HLen;
        destruct specs' as [|s0 [|s1 [|s2 [|? ?]]]]; try discriminate HCA; cbn in HCA; (injection HCA as HC0 HC1 HC2 || injection HCA as HC0 HC1);
        idtac;
        (split; [intros i Hi; destruct (Hdd i) as [-> HX]; rewrite HF by exact HX|rewrite HF by exact Hpos]);
        unfold input; rewrite ?EC; cbn [combine map combination t_data t_query nth loc cdim Nat.eqb coord fst snd] in *;
        rewrite ?(H2 eq_refl), ?HC0, ?HC1, ?HC2; try ring.
    + (* coordinates from the frame coordinates *)
      intros t Ht. rewrite HT' in Ht.
      assert (X : forall b : vec3, (forall i, t_data t i = dot3 b (datum (u_obj u) i)) -> t_query t p' pos = dot3 b pos ->
                  expressed (o_n (u_obj u)) pos p' t p (drift_terms u q specs)).
      { intros b H1 H2. destruct (affine_terms u q specs 0 b HL Hs0 Hs1) as (a & cs & K1 & K2). exists a, cs. split.
        - intros i _. rewrite H1, <- K1. ring.
        - rewrite H2, <- (K2 p pos Hpos). ring. }
      unfold coordinate_arrays in HCA. rewrite Hdim in *.
      destruct (c_coords A) as [|x0 [|x1 [|x2 [|? ?]]]] eqn:EC; destruct c; try discriminate HLen;
        destruct specs' as [|s0 [|s1 [|s2 [|? ?]]]]; try discriminate HCA; cbn in HCA; (injection HCA as HC0 HC1 HC2 || injection HCA as HC0 HC1);
        idtac; cbn [combine map] in Ht; destruct pos as [[px py] pz];
        (destruct Ht as [<-|[<-|[<-|[]]]] || destruct Ht as [<-|[<-|[]]]);
        (let fin := (cbn [t_data t_query]; first [intros i; rewrite HDat; unfold input; rewrite EC; cbn [loc nth cdim Nat.eqb dot3]; ring
                                          |cbn [dot3]; rewrite ?HC0, ?HC1, ?HC2; cbn [coord fst snd]; ring]) in
         first [solve [apply (X (1, 0, 0)); fin]|solve [apply (X (0, 1, 0)); fin]|solve [apply (X (0, 0, 1)); fin]]).
Qed.
