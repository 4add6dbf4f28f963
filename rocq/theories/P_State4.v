(** C31: a rejected update changes later predictions. *)
From Coq Require Import String ClassicalEpsilon.
From Verif Require Import Base Sums Matrix M_Variogram P_Variogram M_Geometry S_Geometry P_Geometry M_Kriging S_Kriging
  P_Kriging P_OKSpec M_Init M_Object M_Execute S_Execute P_Object P_Execute P_Cells P_Master P_Det P_OK
  P_Similar P_Data P_Exec2 Witness Witness2 M_UK S_UK P_UK8 S_State P_State P_State2 P_State3.

(** two data, a point with equal semivariances to both *)
Lemma midpoint_variance E o q r p pos g : run E o q r -> shown o q p pos -> o_pinv o = false -> q_window q = None -> o_n o = 2%nat ->
  g_of o pos 0%nat = g -> g_of o pos 1%nat = g -> G_of o 0%nat 1%nat <> 0 ->
  r_variance r p = Some (2 * g - G_of o 0%nat 1%nat / 2).
Proof.
  intros HR HS Hp Hw Hn H0 H1 HG. destruct (weights_exist E o q r p pos HR HS (or_introl Hp)) as (m & sel & w & mu & HU & [HE HW] & _ & _ & ->).
  unfold uses in HU. rewrite Hw in HU. destruct HU as [-> Hsel]. rewrite Hn in *. cbn [bsum] in *. rewrite !Hsel in *.
  pose proof (HE 0%nat ltac:(lia)) as E0. pose proof (HE 1%nat ltac:(lia)) as E1. rewrite !Hsel in E0, E1.
  rewrite (G_of_sym o 1%nat 0%nat) in E1. rewrite ?G_of_diag in E0, E1. rewrite ?G_of_diag in E0, E1. rewrite H0, H1 in *.
  set (D := G_of o 0%nat 1%nat) in *. f_equal.
  assert (HWW : w 1%nat * D = w 0%nat * D) by lra.
  assert (w 1%nat = w 0%nat) by (apply (Rmult_eq_reg_r D); assumption).
  assert (w 0%nat = / 2) by lra. assert (w 1%nat = / 2) by lra.
  replace (w 0%nat) with (/ 2) in * by lra. replace (w 1%nat) with (/ 2) in * by lra. lra.
Qed.

Lemma run_two o x y : reachable WE o -> o_class o = OK2 -> o_n o = 2%nat -> o_pinv o = false -> G_of o 0%nat 1%nat <> 0 ->
  exists r, run WE o (one_point x y "vectorized") r.
Proof.
  intros HR Hc Hn Hp HG. assert (Hord : ordinary o) by (left; exact Hc).
  destruct (gen_locate o x y Hc) as [l HL].
  destruct (execute_succeeds WE o (one_point x y "vectorized") l (wit_env_ok true None) (reachable_inv _ _ HR) Hord eq_refl Hp) as [r Hr];
    [left; reflexivity|apply two_regular; assumption|exact HL|reflexivity|].
  exists r. split; [apply wit_env_ok|]. split; [exact HR|]. split; [exact Hord|].
  split; [intros Hb; discriminate Hb|exact Hr].
Qed.

(** (a) the anisotropy of the rejected call is kept *)
Lemma ex_failed_update_anisotropy : exists E A o v o' q r r',
  built E OK2 A [] o /\ update_variogram_model E o v = (o', Some ValueError) /\
  run E o q r /\ run E o' q r' /\ shown o q 0 (3 / 2, 2, 0) /\ shown o' q 0 (3 / 2, 2, 0) /\ r_variance r 0 <> r_variance r' 0.
Proof.
  destruct (two_construct WE 1 0 0 3 true false) as [o Ho].
  destruct (two_fields _ _ _ _ _ _ _ _ Ho) as (Hre&Hinv&Hc&Hn&Hct&Hex&Hpi&Hf&Hp&Hvg&Hval&H0&H1&Hsep).
  destruct (two_center OK2 WE _ _ Ho eq_refl Hct) as [C0 C1].
  set (v := scaled (PList [1]) 2).
  pose proof (construct_inv WE OK2 _ o Ho) as (ex & name & prm & fn & sc & an & f & vp & lags & sv & params & Hall).
  destruct Hall as (_&_&Hgs&_&_&_&_&_&_&_&_&_&_&_&_&_&Hor&_&_&_&_&_&Hcc).
  cbn in Hgs. injection Hgs as <- <- <- <- <-.
  destruct Hcc as [(_ & _ & _ & Hs & Ha & _)|(Hg & _)]; [|discriminate].
  assert (HU : exists o', update_variogram_model WE o v = (o', Some ValueError) /\ o_fun o' = f_linear /\ o_params o' = [1; 0] /\
     o_scaling o' = (fun _ => 2) /\ o_angle o' = (fun _ => 0)).
  { unfold update_variogram_model, v. cbn [scaled a_model a_params a_fun a_nlags a_weight a_scaling a_angle resolve_gs].
    change (resolve_fun "linear" FNone) with (Ok f_linear : res pyfun). cbv beta iota.
    set (o1 := set_fun _ f_linear).
    assert (HA : aniso_differs (o_dim o1) (fun _ => 2) (o_scaling o1) (fun _ => 0) (o_angle o1) = true).
    { unfold aniso_differs. assert (HR : negb (Reqb 2 (o_scaling o1 0%nat)) = true).
      { apply negb_true_iff, Reqb_false. change (o_scaling o1) with (o_scaling o). rewrite Hs. cbn. lra. }
      rewrite HR. destruct (o_dim o1) as [|[|[|d]]]; reflexivity. }
    rewrite HA. change (o_ct o1) with (o_ct o). rewrite Hct.
    destruct (adjust_supported (o_dim o1) (o_orig o1) (o_center o1) (fun _ => 2) (fun _ => 0) (o_dim_cases o1)) as [Y HY]. rewrite HY.
    change (make_parameter_list "linear" (PList [1])) with (Err ValueError : res (option (list R))). cbv beta iota.
    eexists. split; [reflexivity|]. cbn [o_fun o_params o_scaling o_angle set_aniso]. split; [reflexivity|]. split; [exact Hp|]. split; reflexivity. }
  destruct HU as (o' & HU & Hf' & Hp' & Hs' & Ha').
  assert (Hre' : reachable WE o') by (pose proof (reach_update WE o v Hre) as K; rewrite HU in K; exact K).
  pose proof (update_preserves WE o v) as P. rewrite HU in P. cbv zeta in P. cbn [fst] in P.
  destruct P as (Pc&Pp&_&Pe&Pt&Pn&Po&Pv&_&_&_).
  assert (Hd' : o_dim o' = 2%nat) by (unfold o_dim; rewrite Pc, Hc; reflexivity).
  assert (HS' : forall x y u w, separation o' (x, y, 0) (u, w, 0) = sqrt ((x - u)² + 4 * (y - w)²)).
  { intros x y u w. unfold separation. rewrite Pt, Hct, Hd', Hs', Ha'. cbn [Nat.eqb].
    unfold aniso2, rad, dot3, sub3. cbv zeta. replace (0 * PI / 180) with 0 by field. rewrite cos_0, sin_0. f_equal. unfold Rsqr. ring. }
  assert (D0 : datum o' 0%nat = (0, 0, 0)) by (unfold datum, loc; rewrite Hd', Po, Hor; reflexivity).
  assert (D1 : datum o' 1%nat = (3, 4, 0)) by (unfold datum, loc; rewrite Hd', Po, Hor; reflexivity).
  assert (Hvg' : forall d, o_vg o' d = d) by (intros d; unfold o_vg; rewrite Hf', Hp'; cbn; unfold linear_variogram_model, rnth; cbn; ring).
  assert (Hvg1 : forall d, o_vg o d = d) by (intros d; rewrite Hvg; ring).
  assert (S73 : 0 < sqrt 73) by (apply sqrt_lt_R0; lra).
  assert (HGo : G_of o 0%nat 1%nat = 5) by (rewrite (two_G _ _ _ _ _ _ _ _ Ho); ring).
  assert (HGo' : G_of o' 0%nat 1%nat = sqrt 73).
  { unfold G_of, data_semivariance. cbn [Nat.eqb]. rewrite Hvg', D0, D1, HS'. f_equal. unfold Rsqr. ring. }
  destruct (run_two o (3 / 2) 2 Hre Hc Hn Hpi) as [r Hr]; [rewrite HGo; lra|].
  destruct (run_two o' (3 / 2) 2 Hre') as [r' Hr']; try congruence; [rewrite HGo'; lra|].
  assert (E1 : eps < 5 / 2 /\ eps < sqrt 73 / 2).
  { assert (1 < sqrt 73) by (rewrite <- sqrt_1 at 1; apply sqrt_lt_1; lra). unfold eps. split; lra. }
  assert (Hex1 : o_exact o' = true) by congruence.
  assert (HSo : forall x y u w, separation o (x, y, 0) (u, w, 0) = sqrt ((x - u)² + (y - w)²)) by (intros; rewrite Hsep; reflexivity).
  assert (GO : forall i, (i < 2)%nat -> g_of o (3 / 2, 2, 0) i = 5 / 2).
  { intros i Hi. assert (HE : separation o (3 / 2, 2, 0) (datum o i) = 5 / 2).
    { destruct i as [|[|i]]; [rewrite H0|rewrite H1|lia]; rewrite HSo;
        (replace (5 / 2) with (sqrt (5 / 2 * (5 / 2))) by (apply sqrt_square; lra)); f_equal; unfold Rsqr; field. }
    unfold g_of, query_semivariance. rewrite HE, Hvg1, Rabs_right, (proj2 (Rleb_false _ _)) by lra. rewrite andb_false_r. reflexivity. }
  assert (GO' : forall i, (i < 2)%nat -> g_of o' (3 / 2, 2, 0) i = sqrt 73 / 2).
  { intros i Hi. assert (HE : separation o' (3 / 2, 2, 0) (datum o' i) = sqrt 73 / 2).
    { destruct i as [|[|i]]; [rewrite D0|rewrite D1|lia]; rewrite HS';
        (replace (sqrt 73 / 2) with (sqrt (sqrt 73 / 2 * (sqrt 73 / 2))) by (apply sqrt_square; lra)); f_equal;
        (replace (sqrt 73 / 2 * (sqrt 73 / 2)) with (sqrt 73 * sqrt 73 / 4) by field); rewrite sqrt_sqrt by lra; unfold Rsqr; field. }
    unfold g_of, query_semivariance. rewrite HE, Hvg', Rabs_right, (proj2 (Rleb_false _ _)) by lra. rewrite andb_false_r. reflexivity. }
  exists WE, (two_args 1 0 0 3 true false), o, v, o', (one_point (3 / 2) 2 "vectorized"), r, r'.
  split; [split; [reflexivity|]; exists o; split; [exact Ho|reflexivity]|].
  split; [exact HU|]. split; [exact Hr|]. split; [exact Hr'|].
  assert (HSh : shown o (one_point (3 / 2) 2 "vectorized") 0 (3 / 2, 2, 0)) by (apply one_point_cell, Hc).
  assert (HSh' : shown o' (one_point (3 / 2) 2 "vectorized") 0 (3 / 2, 2, 0)) by (apply one_point_cell; congruence).
  split; [exact HSh|]. split; [exact HSh'|].
  rewrite (midpoint_variance WE o _ r 0%nat _ (5 / 2) Hr HSh Hpi eq_refl Hn (GO 0%nat ltac:(lia)) (GO 1%nat ltac:(lia))) by (rewrite HGo; lra).
  rewrite (midpoint_variance WE o' _ r' 0%nat _ (sqrt 73 / 2) Hr' HSh' (eq_trans Pp Hpi) eq_refl (eq_trans Pn Hn) (GO' 0%nat ltac:(lia)) (GO' 1%nat ltac:(lia))) by (rewrite HGo'; lra).
  rewrite HGo, HGo'. intros K. injection K as K.
  assert (sqrt 73 = 5) by lra. assert (sqrt 73 * sqrt 73 = 73) by (apply sqrt_sqrt; lra). nra.
Qed.
