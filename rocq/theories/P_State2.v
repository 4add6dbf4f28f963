(** C29 for universal kriging; C30, C31, C33. *)
From Coq Require Import String.
From Verif Require Import Base Sums Matrix M_Variogram P_Variogram M_Geometry S_Geometry P_Geometry M_Kriging S_Kriging
  M_Init M_Object M_Execute S_Execute P_Object P_Execute P_Cells P_Det M_UK S_UK P_UK2 P_UK7 P_UK10 S_State P_State.

Lemma execute_uk_set_aniso E o d sc an q specs : same_anisotropy (o_dim o) (o_scaling o) sc (o_angle o) an ->
  execute_uk E {| u_obj := set_aniso o sc an (o_adj o); u_drift := d |} q specs = execute_uk E {| u_obj := o; u_drift := d |} q specs.
Proof.
  intros H. assert (HQ : forall ints at_, adjust_query (set_aniso o sc an (o_adj o)) ints at_ = adjust_query o ints at_).
  { intros. unfold adjust_query. cbn [o_ct set_aniso o_center o_scaling o_angle]. destruct (o_ct o); [|reflexivity].
    change (o_dim (set_aniso o sc an (o_adj o))) with (o_dim o). symmetry. apply adjust_same; [exact H|apply o_dim_cases]. }
  unfold execute_uk. cbv zeta. cbn [u_obj u_drift].
  change (uk_matrix {| u_obj := set_aniso o sc an (o_adj o); u_drift := d |}) with (uk_matrix {| u_obj := o; u_drift := d |}).
  destruct (negb _); [reflexivity|].
  destruct (uk_matrix {| u_obj := o; u_drift := d |}) as [[a w]|]; [|reflexivity]. cbn [bind].
  change (o_dim (set_aniso o sc an (o_adj o))) with (o_dim o).
  destruct ((match o_dim o with 2%nat => locate2 | _ => locate3 end) (q_style q) (q_pts q) (q_mask q)) as [l|]; [|reflexivity].
  cbn [bind]. change (spec_grids {| u_obj := set_aniso o sc an (o_adj o); u_drift := d |}) with (spec_grids {| u_obj := o; u_drift := d |}).
  destruct (spec_grids {| u_obj := o; u_drift := d |} (q_style q) (q_pts q) specs); [|reflexivity]. cbn [bind]. rewrite HQ. reflexivity.
Qed.

Theorem update_is_rebuild E c A us o v : built E c A us o ->
  match update_variogram_model E o v with
  | (o', None) => exists o'', construct E c (with_v A v) = Ok o'' /\ equivalent E o' o'' /\
                    (computes_statistics c A -> o_stats o' = o_stats o'')
  | (_, Some e) => computes_statistics c A -> construct E c (with_v A v) = Err e
  end.
Proof.
  intros HB. apply built_based in HB. pose proof (update_vs_construct E c A o v HB) as H.
  destruct (update_variogram_model E o v) as [o' [e|]]; [exact H|].
  destruct H as (o'' & H1 & H2 & H3). exists o''. split; [exact H1|]. split; [apply like_equivalent, H2|exact H3].
Qed.

(** *** universal kriging *)
Lemma init_drift_same c D o o' : o_n o = o_n o' -> o_orig o = o_orig o' -> o_center o = o_center o' ->
  (c = UK2 -> asked D "point_log" = true -> same_anisotropy 2 (o_scaling o) (o_scaling o') (o_angle o) (o_angle o')) ->
  init_drift c D o = init_drift c D o'.
Proof.
  intros Hn Ho Hc HW. unfold init_drift. cbv zeta.
  replace (init_external D o) with (init_external D o') by (unfold init_external; rewrite Hn, Ho; reflexivity).
  replace (init_specified D o) with (init_specified D o') by (unfold init_specified; rewrite Hn; reflexivity).
  replace (opt_drift _ (init_wells D o)) with
    (opt_drift ((match c with UK2 => true | _ => false end) && in_names "point_log" (d_terms D)) (init_wells D o')); [reflexivity|].
  unfold opt_drift. destruct c; cbn [andb]; try reflexivity.
  destruct (in_names "point_log" (d_terms D)) eqn:EP; [|reflexivity]. specialize (HW eq_refl EP).
  replace (init_wells D o) with (init_wells D o'); [reflexivity|].
  unfold init_wells. rewrite Hc. destruct (d_point D) as [[it [|r0 rows]]|]; try reflexivity. cbv zeta.
  rewrite (adjust_same it 2 _ (o_center o') _ _ _ _ HW (or_introl eq_refl)). reflexivity.
Qed.

Lemma ubuilt_obj E c A D us u : ubuilt E c A D us u ->
  built E c A us (u_obj u) /\ exists u0, construct_uk E c A D = Ok u0 /\ u_drift u = u_drift u0 /\ construct E c A = Ok (u_obj u0) /\
    init_drift c D (u_obj u0) = Ok (u_drift u0).
Proof.
  intros (HL & u0 & HC & ->). pose proof HC as HC'. unfold construct_uk in HC'.
  destruct (construct E c A) as [o0|] eqn:EC; [|discriminate HC']. cbn [bind] in HC'.
  destruct (init_drift c D o0) as [d|] eqn:ED; [|discriminate HC']. cbn [bind] in HC'. injection HC' as <-.
  assert (HA : forall us u, u_obj (after_uupdates E us u) = after_updates E us (u_obj u) /\ u_drift (after_uupdates E us u) = u_drift u).
  { clear. induction us as [|v us IH]; intros u; [split; reflexivity|]. cbn. destruct (IH (fst (update_uk E u v))) as [H1 H2].
    unfold after_uupdates, after_updates in *. rewrite H1, H2. unfold update_uk. destruct (update_variogram_model E (u_obj u) v); split; reflexivity. }
  destruct (HA us {| u_obj := o0; u_drift := d |}) as [H1 H2]. cbn [u_obj u_drift] in *. split.
  - split; [exact HL|]. exists o0. split; [exact EC|exact H1].
  - exists {| u_obj := o0; u_drift := d |}. split; [exact HC|]. split; [exact H2|]. split; [reflexivity|exact ED].
Qed.

Theorem uupdate_is_rebuild E c A D us u v : c = UK2 \/ c = UK3 -> ubuilt E c A D us u ->
  match update_uk E u v with
  | (u', None) =>
      (c = UK2 -> asked D "point_log" = true -> forall u0, construct_uk E c A D = Ok u0 ->
         same_anisotropy 2 (o_scaling (u_obj u0)) (o_scaling (u_obj u')) (o_angle (u_obj u0)) (o_angle (u_obj u'))) ->
      exists u'', construct_uk E c (with_v A v) D = Ok u'' /\ uequivalent E u' u'' /\ o_stats (u_obj u') = o_stats (u_obj u'')
  | (_, Some e) => construct_uk E c (with_v A v) D = Err e
  end.
Proof.
  intros Hc HB. destruct (ubuilt_obj E c A D us u HB) as (HO & u0 & HC0 & HD & HC & HI).
  pose proof (built_based _ _ _ _ _ HO) as B. pose proof (update_vs_construct E c A (u_obj u) v B) as H.
  pose proof (update_based E c A (u_obj u) v B) as B'.
  assert (HS : computes_statistics c A) by (intros ->; destruct Hc; discriminate).
  unfold update_uk. destruct (update_variogram_model E (u_obj u) v) as [o' [e|]]; cbn [fst] in B'.
  - unfold construct_uk. rewrite (H HS). reflexivity.
  - destruct H as (o'' & H1 & H2 & H3). intros HW. cbn [u_obj] in HW. unfold construct_uk. rewrite H1. cbn [bind].
    pose proof (construct_based E c (with_v A v) o'' H1) as B''. pose proof (construct_based E c A (u_obj u0) HC) as B0.
    assert (HI' : init_drift c D o'' = Ok (u_drift u)).
    { rewrite HD, <- HI. destruct H2 as (sc & an & m & s & a & b & Ho' & HSA & _).
      apply init_drift_same.
      - rewrite (ba_n _ _ _ B''), (ba_n _ _ _ B0). reflexivity.
      - rewrite (ba_orig _ _ _ B''), (ba_orig _ _ _ B0). reflexivity.
      - pose proof (ba_center _ _ _ B'') as C1. pose proof (ba_center _ _ _ B0) as C2.
        pose proof (ba_ct _ _ _ B'') as T1. pose proof (ba_ct _ _ _ B0) as T2. cbn [with_v c_ct c_coords] in T1, C1.
        assert (T : o_ct o'' = o_ct (u_obj u0)) by (destruct (o_ct o''), (o_ct (u_obj u0)); try reflexivity; rewrite T1 in T2; discriminate T2).
        rewrite T in C1. destruct (o_ct (u_obj u0)); [|congruence].
        destruct C1 as (cs & Q1 & ->), C2 as (cs' & Q2 & ->). rewrite Q1 in Q2. injection Q2 as ->. reflexivity.
      - intros Hc2 HP. specialize (HW Hc2 HP u0 HC0). subst o'. cbn in HW.
        assert (Hd : o_dim o'' = 2%nat) by (unfold o_dim; rewrite (ba_class _ _ _ B''), Hc2; reflexivity). rewrite Hd in HSA.
        destruct HW as [W1 W2], HSA as [S1 S2]. split; [intros k Hk; rewrite S1, <- W1 by exact Hk; reflexivity|].
        cbn [Nat.eqb] in *. congruence. }
    rewrite HI'. cbn [bind]. eexists. split; [reflexivity|]. split; [|exact (H3 HS)]. split; [|apply like_equivalent, H2].
    intros q specs. destruct H2 as (sc & an & m & s & a & b & -> & HSA & _).
    exact (execute_uk_set_aniso E o'' (u_drift u) sc an q specs HSA).
Qed.
