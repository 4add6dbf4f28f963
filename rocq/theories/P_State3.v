(** C29, C31: concrete histories.  Data (0,0), (3,4), linear variogram, anisotropy scaling changed by an update. *)
From Coq Require Import String ClassicalEpsilon.
From Verif Require Import Base Sums Matrix M_Variogram P_Variogram M_Geometry S_Geometry P_Geometry M_Kriging S_Kriging
  P_Kriging P_OKSpec M_Init M_Object M_Execute S_Execute P_Object P_Execute P_Cells P_Master P_Det P_OK
  P_Similar P_Data Witness M_UK S_UK P_UK P_UK2 P_UK3 P_UK4 P_UK5 P_UK6 P_UK7 Witness3 P_UK8 P_UK10 S_State P_State P_State2.

(** update_variogram_model('linear', [1, 0], anisotropy_scaling=s) *)
Definition scaled (prm : user_params) (s : R) : vargs :=
  {| a_model := VName "linear"; a_params := prm; a_fun := FNone;
     a_nlags := 6; a_weight := false; a_scaling := (fun _ => s); a_angle := (fun _ => 0) |}.

Lemma update_scaled o s : o_n o = 2%nat -> o_pinv o = false -> o_ct o = Euclidean -> (forall k, o_scaling o k = 1) -> s <> 1 ->
  exists o', update_variogram_model WE o (scaled (PList [1; 0]) s) = (o', None) /\
    o_fun o' = f_linear /\ o_params o' = [1; 0] /\ o_scaling o' = (fun _ => s) /\ o_angle o' = (fun _ => 0).
Proof.
  intros Hn Hp Hc H1 Hs. unfold update_variogram_model. cbn [scaled a_model a_params a_fun a_nlags a_weight a_scaling a_angle resolve_gs].
  change (resolve_fun "linear" FNone) with (Ok f_linear : res pyfun). cbv beta iota.
  set (o1 := set_fun _ f_linear).
  assert (HA : aniso_differs (o_dim o1) (fun _ => s) (o_scaling o1) (fun _ => 0) (o_angle o1) = true).
  { unfold aniso_differs. assert (HR : negb (Reqb s (o_scaling o1 0%nat)) = true).
    { apply negb_true_iff, Reqb_false. change (o_scaling o1) with (o_scaling o). rewrite H1. exact Hs. }
    rewrite HR. destruct (o_dim o1) as [|[|[|d]]]; reflexivity. }
  rewrite HA. change (o_ct o1) with (o_ct o). rewrite Hc.
  destruct (adjust_supported (o_dim o1) (o_orig o1) (o_center o1) (fun _ => s) (fun _ => 0) (o_dim_cases o1)) as [Y HY]. rewrite HY.
  cbn [o_ct o_n o_adj o_values o_fun set_aniso]. change (o_ct o1) with (o_ct o). change (o_n o1) with (o_n o). change (o_values o1) with (o_values o).
  change (o_fun o1) with f_linear. rewrite Hc, Hn.
  destruct (initialize_explicit (e_fit WE) Euclidean (o_dim o1) 2 Y (o_values o) "linear" f_linear [1; 0] 6 false) as (lags & sv & Hi);
    try reflexivity; try (intros; discriminate).
  change (make_parameter_list "linear" (PList [1; 0])) with (Ok (Some [1; 0]) : res (option (list R))). cbv beta iota. rewrite Hi.
  cbn [o_ct o_n o_adj o_values o_pinv set_variogram set_aniso].
  match goal with |- context [all_statistics _ ?a ?b ?n ?X ?y ?v ?p] => replace p with false by (symmetry; exact Hp); replace n with 2%nat by (symmetry; exact Hn);
    destruct (stats_two true None a b X y v) as [st Hst] end.
  cbn [wit_env e_la] in Hst. cbn [wit_env e_la]. rewrite Hst. eexists. split; [reflexivity|]. repeat split.
Qed.

(** the frame of a two-dimensional object with scaling s, centre (3/2, 2) *)
Lemma frame_scaled o s x y : o_dim o = 2%nat -> o_scaling o 0%nat = s -> o_angle o 0%nat = 0 -> o_center o 0%nat = 3 / 2 -> o_center o 1%nat = 2 ->
  frame o (x, y, 0) = (x, 2 + s * (y - 2), 0).
Proof.
  intros Hd Hs Ha H0 H1. unfold frame, center3, loc. rewrite Hd, Hs, Ha, H0, H1. cbn [Nat.eqb].
  unfold rad. replace (0 * PI / 180) with 0 by field. rewrite cos_0, sin_0. unfold add3, sub3, dot3. f_equal; [f_equal|]; field.
Qed.
Lemma two_center c E A o : construct E c A = Ok o -> c_coords A = [[0; 3]; [0; 4]] -> o_ct o = Euclidean ->
  o_center o 0%nat = 3 / 2 /\ o_center o 1%nat = 2.
Proof.
  intros H HC Hct. pose proof (ba_center _ _ _ (construct_based E c A o H)) as K. rewrite Hct, HC in K. destruct K as (cs & Hcs & ->).
  cbn [mapM] in Hcs. unfold center_of, amax_gen, amin_gen in Hcs. cbn in Hcs. injection Hcs as <-.
  assert (K1 : Rltb 0 3 = true) by (apply Rltb_true; lra). assert (K2 : Rltb 3 0 = false) by (apply Rltb_false; lra).
  assert (K3 : Rltb 0 4 = true) by (apply Rltb_true; lra). assert (K4 : Rltb 4 0 = false) by (apply Rltb_false; lra).
  unfold rnth. cbn [nth]. rewrite K1, K2, K3, K4. split; field.
Qed.

(** two data and one drift term: the prediction is linear interpolation in it *)
Lemma one_term E u q specs r p pos t : urun E u q specs r -> shown (u_obj u) q p pos -> o_pinv (u_obj u) = false ->
  q_backend q = "vectorized"%string -> o_n (u_obj u) = 2%nat -> drift_terms u q specs = [t] -> t_data t 0%nat <> t_data t 1%nat ->
  let z := o_values (u_obj u) in
  r_value r p = Some (z 0%nat + (z 1%nat - z 0%nat) / (t_data t 1%nat - t_data t 0%nat) * (t_query t p pos - t_data t 0%nat)).
Proof.
  intros HR HS Hp Hb Hn HT HF. cbv zeta. set (z := o_values (u_obj u)).
  set (k := (z 1%nat - z 0%nat) / (t_data t 1%nat - t_data t 0%nat)).
  rewrite (uk_reproduces E u q specs r p pos (z 0%nat - k * t_data t 0%nat) [k] HR HS (or_introl Hp) (or_introl Hb)).
  - rewrite HT. cbn. f_equal. ring.
  - rewrite HT, Hn. intros i Hi. fold z. cbn. destruct i as [|[|i]]; [ring| |lia]. unfold k. field. lra.
Qed.

Lemma wells_scaled o x y s : o_class o = UK2 -> o_scaling o 0%nat = s -> o_angle o 0%nat = 0 -> o_center o 0%nat = 3 / 2 -> o_center o 1%nat = 2 ->
  init_drift UK2 (well_args x y) o =
  Ok {| dr_linear := false; dr_wells := Some [(x, 2 + s * (y - 2), -1)]; dr_ext := None; dr_spec := None; dr_fun := None |}.
Proof.
  intros Hc Hs Ha H0 H1. assert (Hd : o_dim o = 2%nat) by (unfold o_dim; rewrite Hc; reflexivity).
  unfold init_drift, well_args. cbn -[adjust_for_anisotropy].
  match goal with |- context [adjust_for_anisotropy false 2 ?X ?c ?s ?a] =>
    destruct (adjust_supported 2 X c s a (or_introl eq_refl)) as [Y HY]; rewrite HY end.
  cbn [bind]. pose proof (adjust2_explicit _ _ _ _ _ HY) as K. cbv zeta in K. destruct (K 0%nat) as [K0 K1]. rewrite K0, K1, Hs, Ha, H0, H1.
  cbn. do 3 f_equal. f_equal. unfold rad. replace (0 * PI / 180) with 0 by field. rewrite cos_0, sin_0.
  f_equal. f_equal; field.
Qed.

(** one well, scaling 2: prediction at (9, 1) *)
Lemma well_value u wx wy q : ureachable WE u -> o_class (u_obj u) = UK2 -> o_n (u_obj u) = 2%nat -> o_pinv (u_obj u) = false ->
  o_orig (u_obj u) = columns [[0; 3]; [0; 4]] -> o_scaling (u_obj u) 0%nat = 2 -> o_angle (u_obj u) 0%nat = 0 ->
  o_center (u_obj u) 0%nat = 3 / 2 -> o_center (u_obj u) 1%nat = 2 -> o_values (u_obj u) = rnth [0; 3] ->
  u_drift u = {| dr_linear := false; dr_wells := Some [(wx, wy, -1)]; dr_ext := None; dr_spec := None; dr_fun := None |} ->
  q = one_point 9 1 "vectorized" ->
  let l x y := logd (plane_dist (x, y, 0) wx wy) in l 0 (-2) <> l 3 6 ->
  exists r, execute_uk WE u q [] = Ok (r, false) /\
    r_value r 0 = Some (3 / (l 3 6 - l 0 (-2)) * (l 9 0 - l 0 (-2))).
Proof.
  intros HR Hc Hn Hpi Hor Hs Ha C0 C1 Hval HD Hq l HF.
  assert (Hd : o_dim (u_obj u) = 2%nat) by (unfold o_dim; rewrite Hc; reflexivity).
  set (t := spatial (u_obj u) (fun p => - -1 * logd (plane_dist (frame (u_obj u) p) wx wy))).
  assert (HT : drift_terms u q [] = [t]).
  { unfold drift_terms, linear_terms, well_terms, ext_terms, spec_terms, fun_terms. rewrite HD. reflexivity. }
  assert (D0 : datum (u_obj u) 0%nat = (0, 0, 0)) by (unfold datum, loc; rewrite Hd, Hor; reflexivity).
  assert (D1 : datum (u_obj u) 1%nat = (3, 4, 0)) by (unfold datum, loc; rewrite Hd, Hor; reflexivity).
  assert (T0 : t_data t 0%nat = l 0 (-2)).
  { unfold t. cbn [spatial t_data]. rewrite D0, (frame_scaled _ 2) by assumption. unfold l. replace (2 + 2 * (0 - 2)) with (-2) by ring. ring. }
  assert (T1 : t_data t 1%nat = l 3 6).
  { unfold t. cbn [spatial t_data]. rewrite D1, (frame_scaled _ 2) by assumption. unfold l. replace (2 + 2 * (4 - 2)) with 6 by ring. ring. }
  assert (T2 : forall p, t_query t p (9, 1, 0) = l 9 0).
  { intros p. unfold t. cbn [spatial t_query]. rewrite (frame_scaled _ 2) by assumption. unfold l. replace (2 + 2 * (1 - 2)) with 0 by ring. ring. }
  assert (HL : exists l, locate (o_dim (u_obj u)) "points" [[9]; [1]] None = Ok l) by (rewrite Hd; cbn; eauto).
  destruct HL as [lo HL].
  destruct (u_succeeds true None u q [] lo []) as [_ HX]; try assumption; try (rewrite Hq; reflexivity); try reflexivity.
  - intros K. rewrite HD in K. contradiction.
  - apply u21_nonsingular; [exact Hn|rewrite HT; reflexivity|]. rewrite HT. unfold F_of. cbn [nth]. rewrite T0, T1. exact HF.
  - rewrite Hq. exact HL.
  - unfold spec_grids. rewrite HD. reflexivity.
  - destruct HX as [r Hr]; [rewrite Hq; reflexivity|rewrite HD; reflexivity|]. exists r. split; [exact Hr|].
    assert (HU : urun WE u q [] r) by (split; [apply wit_env_ok|]; split; [exact HR|]; exists false; exact Hr).
    assert (HS : shown (u_obj u) q 0 (9, 1, 0)) by (rewrite Hq; apply one_point_shown_u, Hc).
    pose proof (one_term WE u q [] r 0%nat (9, 1, 0) t HU HS Hpi) as K. cbv zeta in K. rewrite K; try assumption.
    + rewrite Hval, T0, T1, T2. cbn. f_equal. unfold Rdiv. ring.
    + rewrite Hq. reflexivity.
    + rewrite T0, T1. exact HF.
Qed.

Lemma Rlt_sqrt_square' a b : 0 <= a -> 0 < b -> a < b * b -> sqrt a < b.
Proof. intros Ha Hb H. rewrite <- (sqrt_square b) by lra. apply sqrt_lt_1; nra. Qed.
Lemma plane_dist_sq x y wx wy d : 0 <= d -> (x - wx)² + (y - wy)² = d * d -> plane_dist (x, y, 0) wx wy = d.
Proof. intros Hd H. unfold plane_dist, coord. cbn [fst snd]. rewrite H. apply sqrt_square, Hd. Qed.
Lemma logd_pos d : 0 < d -> logd d = ln d.
Proof. intros H. unfold logd. rewrite (proj2 (Reqb_false _ _)) by lra. reflexivity. Qed.

Lemma ex_wells_stale : exists E A D u v u' u'' q r r'',
  env_ok E /\ ubuilt E UK2 A D [] u /\ update_uk E u v = (u', None) /\ construct_uk E UK2 (with_v A v) D = Ok u'' /\
  execute_uk E u' q [] = Ok (r, false) /\ execute_uk E u'' q [] = Ok (r'', false) /\
  shown (u_obj u') q 0 (9, 1, 0) /\ r_value r 0 <> r_value r'' 0.
Proof.
  destruct (two_u 0 3 (well_args 3 0) _ (fun o => wells_two o 3 0)) as (u & HC & HD & Ho & HR).
  destruct (two_fields_u _ _ _ _ _ _ _ _ Ho) as (Hc & Hn & Hct & Hex & Hpi & Hvg & Hval & Horig & H0 & H1 & Hs & Ha & Hsep & HG).
  destruct (two_center UK2 WE _ _ Ho eq_refl Hct) as [C0 C1].
  destruct (update_scaled (u_obj u) 2 Hn Hpi Hct) as (o' & HU & Hf' & Hp' & Hs' & Ha'); [intros k; rewrite Hs; reflexivity|lra|].
  set (v := scaled (PList [1; 0]) 2) in *. set (A := two_args 1 0 0 3 true false) in *.
  assert (HUU : update_uk WE u v = ({| u_obj := o'; u_drift := u_drift u |}, None)) by (unfold update_uk; rewrite HU; reflexivity).
  set (u' := {| u_obj := o'; u_drift := u_drift u |}) in *.
  assert (HR' : ureachable WE u') by (pose proof (ur_update WE u v HR) as K; rewrite HUU in K; exact K).
  pose proof (construct_based WE UK2 A _ Ho) as B.
  pose proof (update_based WE UK2 A (u_obj u) v B) as B'. rewrite HU in B'. cbn [fst] in B'.
  pose proof (update_vs_construct WE UK2 A (u_obj u) v B) as HV. rewrite HU in HV. destruct HV as (o'' & HC'' & HL & _).
  pose proof (construct_based WE UK2 _ _ HC'') as B''.
  assert (Hct'' : o_ct o'' = Euclidean).
  { pose proof (ba_ct _ _ _ B'') as T. cbn in T. destruct (o_ct o''); [reflexivity|discriminate T]. }
  destruct (two_center UK2 WE _ _ HC'' eq_refl Hct'') as [C0'' C1''].
  assert (HSC : o_scaling o'' 0%nat = 2 /\ o_angle o'' 0%nat = 0).
  { destruct HL as (sc & an & m & st & a & b & Ho' & [S1 S2] & _). unfold o_dim in S1, S2. rewrite (ba_class _ _ _ B'') in S1, S2. cbn in S1, S2.
    rewrite (S1 0%nat), S2 by lia. rewrite Ho' in Hs', Ha'. cbn in Hs', Ha'. rewrite Hs', Ha'. split; reflexivity. }
  destruct HSC as [Hs'' Ha''].
  assert (HD'' : init_drift UK2 (well_args 3 0) o'' = Ok {| dr_linear := false; dr_wells := Some [(3, -2, -1)]; dr_ext := None; dr_spec := None; dr_fun := None |}).
  { rewrite (wells_scaled o'' 3 0 2 (ba_class _ _ _ B'') Hs'' Ha'' C0'' C1''). do 4 f_equal. f_equal. f_equal. ring. }
  set (u'' := {| u_obj := o''; u_drift := {| dr_linear := false; dr_wells := Some [(3, -2, -1)]; dr_ext := None; dr_spec := None; dr_fun := None |} |}).
  assert (HCU : construct_uk WE UK2 (with_v A v) (well_args 3 0) = Ok u'').
  { unfold construct_uk. rewrite HC''. cbn [bind]. rewrite HD''. reflexivity. }
  assert (HR'' : ureachable WE u'') by exact (ur_new WE UK2 (with_v A v) (well_args 3 0) u'' (or_introl eq_refl) eq_refl HCU).
  set (q := one_point 9 1 "vectorized").
  (* logarithms *)
  assert (L1 : logd (plane_dist (3, 6, 0) 3 0) = ln 6) by (rewrite (plane_dist_sq _ _ _ _ 6) by (unfold Rsqr; lra); apply logd_pos; lra).
  assert (L2 : logd (plane_dist (9, 0, 0) 3 0) = ln 6) by (rewrite (plane_dist_sq _ _ _ _ 6) by (unfold Rsqr; lra); apply logd_pos; lra).
  assert (L3 : logd (plane_dist (0, -2, 0) 3 0) < ln 6).
  { assert (P : plane_dist (0, -2, 0) 3 0 = sqrt 13) by (unfold plane_dist, coord; cbn [fst snd]; f_equal; unfold Rsqr; ring).
    assert (0 < sqrt 13) by (apply sqrt_lt_R0; lra). assert (sqrt 13 < 6) by (apply Rlt_sqrt_square' ; lra).
    rewrite P, logd_pos by assumption. apply ln_increasing; assumption. }
  assert (M1 : logd (plane_dist (3, 6, 0) 3 (-2)) = ln 8) by (rewrite (plane_dist_sq _ _ _ _ 8) by (unfold Rsqr; lra); apply logd_pos; lra).
  assert (M2 : logd (plane_dist (0, -2, 0) 3 (-2)) = ln 3) by (rewrite (plane_dist_sq _ _ _ _ 3) by (unfold Rsqr; lra); apply logd_pos; lra).
  assert (M3 : logd (plane_dist (9, 0, 0) 3 (-2)) < ln 8).
  { assert (P : plane_dist (9, 0, 0) 3 (-2) = sqrt 40) by (unfold plane_dist, coord; cbn [fst snd]; f_equal; unfold Rsqr; ring).
    assert (0 < sqrt 40) by (apply sqrt_lt_R0; lra). assert (sqrt 40 < 8) by (apply Rlt_sqrt_square' ; lra).
    rewrite P, logd_pos by assumption. apply ln_increasing; assumption. }
  assert (M4 : ln 3 < ln 8) by (apply ln_increasing; lra).
  destruct (well_value u' 3 0 q HR') as (r & Hr & Hrv); try reflexivity; cbn [u_obj u'];
    try (rewrite ?(ba_class _ _ _ B'), ?(ba_n _ _ _ B'), ?(ba_pinv _ _ _ B'), ?(ba_orig _ _ _ B'), ?(ba_values _ _ _ B'), ?Hs', ?Ha'; reflexivity).
  { pose proof (update_preserves WE (u_obj u) v) as P. rewrite HU in P. cbv zeta in P. cbn [fst] in P. destruct P as (_&_&_&_&_&_&_&_&->&_). exact C0. }
  { pose proof (update_preserves WE (u_obj u) v) as P. rewrite HU in P. cbv zeta in P. cbn [fst] in P. destruct P as (_&_&_&_&_&_&_&_&->&_). exact C1. }
  { exact HD. }
  { rewrite L1. lra. }
  destruct (well_value u'' 3 (-2) q HR'') as (r'' & Hr'' & Hrv''); try reflexivity; cbn [u_obj u''];
    try (rewrite ?(ba_class _ _ _ B''), ?(ba_n _ _ _ B''), ?(ba_pinv _ _ _ B''), ?(ba_orig _ _ _ B''), ?(ba_values _ _ _ B''), ?Hs'', ?Ha''; reflexivity); try assumption.
  { rewrite M1, M2. lra. }
  exists WE, A, (well_args 3 0), u, v, u', u'', q, r, r''.
  split; [apply wit_env_ok|]. split; [split; [reflexivity|]; exists u; split; [exact HC|reflexivity]|].
  split; [exact HUU|]. split; [exact HCU|]. split; [exact Hr|]. split; [exact Hr''|].
  split; [apply one_point_shown_u; exact (ba_class _ _ _ B')|].
  rewrite Hrv, Hrv''. rewrite L1, L2, M1, M2. set (a := logd (plane_dist (0, -2, 0) 3 0)) in *. set (b := logd (plane_dist (9, 0, 0) 3 (-2))) in *.
  intros K. injection K as K.
  assert (K1 : 3 / (ln 6 - a) * (ln 6 - a) = 3) by (field; lra).
  assert (K2 : 3 / (ln 8 - ln 3) * (b - ln 3) < 3).
  { apply Rmult_lt_reg_r with (ln 8 - ln 3); [lra|]. replace (3 / (ln 8 - ln 3) * (b - ln 3) * (ln 8 - ln 3)) with (3 * (b - ln 3)) by (field; lra). lra. }
  lra.
Qed.
