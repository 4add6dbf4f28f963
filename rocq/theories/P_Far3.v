(** C77-C79: concrete cases. *)
From Coq Require Import String.
From Verif Require Import Base Sums Matrix M_Variogram P_Variogram M_Geometry S_Geometry P_Geometry M_Kriging S_Kriging
  P_Kriging P_OKSpec M_Init M_Object M_Execute S_Execute P_Object P_Execute P_Cells P_OK P_Exec2 P_Data2 S_Valid P_Valid P_Valid4 P_Valid6 P_Valid7
  P_Amplify P_Fit4 Witness Witness2 P_UK8 P_Stats3 S_Line P_Line P_Far P_Far2.

Definition mod_args (x y z : list R) (name : string) (l : list R) : cargs :=
  {| c_coords := [x; y]; c_values := z;
     c_v := {| a_model := VName name; a_params := PList l; a_fun := FNone;
               a_nlags := 6; a_weight := false; a_scaling := (fun _ => 1); a_angle := (fun _ => 0) |};
     c_verbose := false; c_plotting := false; c_stat := false; c_ct := "euclidean";
     c_exact := Some true; c_pinv := false; c_pinv_type := "pinv" |}.

Lemma mod_run x y z name l : List.length x = List.length z -> List.length y = List.length z -> (2 <= List.length z)%nat ->
  proper_request name l -> (0 < last l 0 \/ distinct_inputs [x; y] (List.length z)) ->
  exists o, construct WE OK2 (mod_args x y z name l) = Ok o /\ proper o /\ forall a b, exists r, run WE o (one_point a b "vectorized") r.
Proof.
  intros Hx Hy Hz HP HD.
  destruct (construct_execute WE OK2 (mod_args x y z name l) name l (wit_env_ok _ _)) as (o & Ho & HPr & H).
  - constructor; cbn; try reflexivity; try discriminate; try assumption; [left; reflexivity|]. intros t [<-|[<-|[]]]; assumption.
  - constructor; try reflexivity; [exact HP|intros k _; cbn; lra].
  - left. reflexivity.
  - exact HD.
  - exists o. split; [exact Ho|]. split; [exact HPr|]. intros a b.
    destruct (construct_inv WE OK2 _ o Ho) as (ex & nm & prm & fn & sc' & an' & f & vp & lags & sv & params & Hall).
    destruct Hall as (_&_&_&_&_&_&_&_&Hc&_).
    destruct (H (one_point a b "vectorized")) as [r Hr].
    + split; [|intros _; left; reflexivity]. right. left. split; [reflexivity|]. split; [reflexivity|]. unfold o_dim. rewrite Hc. discriminate.
    + left. reflexivity.
    + exists r. split; [apply wit_env_ok|]. split; [refine (reach_new WE OK2 (mod_args x y z name l) o eq_refl Ho)|].
      split; [left; exact Hc|]. split; [|exact Hr]. intros HB. discriminate HB.
Qed.

Lemma mod_fields x y z name l o f l' : construct WE OK2 (mod_args x y z name l) = Ok o ->
  dict_get variogram_dict name = Some f -> make_parameter_list name (PList l) = Ok (Some l') ->
  o_class o = OK2 /\ o_ct o = Euclidean /\ o_n o = List.length x /\ o_exact o = true /\ o_pinv o = false /\ o_values o = rnth z /\
  o_fun o = f /\ o_params o = l' /\ (forall i, datum o i = (rnth x i, rnth y i, 0)) /\
  forall p q, separation o p q = sqrt ((lon p - lon q)² + (lat p - lat q)²).
Proof.
  intros H HF HP. destruct (construct_inv WE OK2 _ o H) as (ex & nm & prm & fn & sc' & an' & f' & vp & lags & sv & params & Hall).
  destruct Hall as (_&Hex&Hgs&Hf&Hmp&_&Hini&_&Hc&Hpi&_&Hexo&_&Hfo&Hpo&Hn&Horig&Hval&_&_&_&_&Hct).
  cbn in Hex, Hgs, Hn, Horig, Hval, Hpi. injection Hex as <-. injection Hgs as <- <- <- <- <-.
  unfold resolve_fun in Hf. rewrite HF in Hf. injection Hf as <-. rewrite HP in Hmp. injection Hmp as <-.
  destruct Hct as [(_ & Hct & _ & Hs & Ha & _)|(Hg & _)]; [|discriminate].
  apply init_params in Hini. subst params.
  repeat (split; [assumption|]). split.
  - intros i. unfold datum, loc, o_dim. rewrite Hc, Horig. reflexivity.
  - intros p q. unfold separation. rewrite Hct, Hs. unfold o_dim. rewrite Hc. cbn [cdim Nat.eqb].
    destruct p as [[a b] c], q as [[a' b'] c']. rewrite Ha. unfold aniso2, rad, dot3, sub3, lon, lat. cbn [fst snd]. cbv zeta.
    replace (0 * PI / 180) with 0 by field. rewrite cos_0, sin_0. f_equal. unfold Rsqr. ring.
Qed.

(** a linear model without nugget on a line *)
Lemma sqrt_line a : sqrt (a² + (0 - 0)²) = Rabs a.
Proof. replace (a² + (0 - 0)²) with (a²) by (unfold Rsqr; ring). apply sqrt_Rsqr_abs. Qed.

Theorem ex_line : exists E o q r t, run E o q r /\ shown o q 0 (2, 0, 0) /\ regular_for o q /\ on_line o t (2, 0, 0) 2 /\ resolved o (2, 0, 0) /\
  (forall d, 0 <= d -> o_vg o d = 2 * d) /\ q_window q = None /\ o_n o = 3%nat /\ t 0%nat = 0 /\ t 1%nat = 1 /\ t 2%nat = 3.
Proof.
  destruct (mod_run [0; 1; 3] [0; 0; 0] [2; 5; 1] "linear" [2; 0]) as (o & Ho & _ & HR); try reflexivity; try (cbn; lia).
  { apply request_linear; try reflexivity; lra. }
  { right. intros i j Hi Hj Hne. exists [0; 1; 3]. split; [left; reflexivity|]. cbn in Hi, Hj. unfold rnth.
    destruct i as [|[|[|i]]]; [| | |lia]; (destruct j as [|[|[|j]]]; [| | |lia]); cbn; first [lia|lra]. }
  destruct (HR 2 0) as [r Hr].
  destruct (mod_fields _ _ _ _ _ o f_linear [2; 0] Ho eq_refl eq_refl) as (Hc & Hct & Hn & Hex & Hp & Hv & Hf & Hpa & Hd & Hs).
  assert (SEP : forall a i, (i < 3)%nat -> separation o (a, 0, 0) (datum o i) = Rabs (a - rnth [0; 1; 3] i)).
  { intros a i Hi. rewrite Hs, Hd. unfold lon, lat. cbn [fst snd]. replace (rnth [0; 0; 0] i) with 0 by (unfold rnth; destruct i as [|[|[|i]]]; [| | |lia]; reflexivity). apply sqrt_line. }
  assert (D : forall i, (i < 3)%nat -> datum o i = (rnth [0; 1; 3] i, 0, 0)) by (intros i Hi; rewrite Hd; unfold rnth; destruct i as [|[|[|i]]]; [| | |lia]; reflexivity).
  exists WE, o, (one_point 2 0 "vectorized"), r, (rnth [0; 1; 3]). split; [exact Hr|]. split; [apply one_point_cell, Hc|]. split; [left; exact Hp|].
  cbn in Hn. split; [|split; [|split; [|split; [reflexivity|split; [exact Hn|split; [reflexivity|split; reflexivity]]]]]].
  - split; rewrite Hn.
    + intros i j Hi Hj. rewrite (D i Hi). apply SEP, Hj.
    + intros i Hi. apply SEP, Hi.
  - intros _ i Hi. rewrite Hn in Hi. right. rewrite SEP by exact Hi. assert (EV := eps_val). unfold rnth.
    destruct i as [|[|[|i]]]; [| | |lia]; cbn; unfold Rabs; destruct (Rcase_abs _); lra.
  - intros d _. unfold o_vg. rewrite Hf, Hpa. cbn. unfold linear_variogram_model. cbn. ring.
Qed.

(** predictions outside the range of the data *)
Lemma pow_1_5 a : 0 < a -> npow (a * a) (3 / 2) = a * a * a.
Proof.
  intros Ha. unfold npow. assert (0 < a * a) by nra. destruct (Reqb_spec (a * a) 0); [lra|]. unfold Rpower.
  rewrite ln_mult by assumption. replace (3 / 2 * (ln a + ln a)) with (ln a + ln a + ln a) by field. rewrite !exp_plus, !exp_ln by assumption. reflexivity.
Qed.
Theorem range_left : exists E o q r pos v, run E o q r /\ shown o q 0 pos /\ proper o /\ q_window q = None /\ o_pinv o = false /\ o_n o = 2%nat /\
  r_value r 0%nat = Some v /\ forall i, (i < o_n o)%nat -> o_values o i < v.
Proof.
  destruct (mod_run [0; 5] [0; 0] [0; 1] "power" [1; 3 / 2; 0]) as (o & Ho & HP & HR); try reflexivity; try (cbn; lia).
  { apply request_power; try reflexivity; lra. }
  { right. intros i j Hi Hj Hne. exists [0; 5]. split; [left; reflexivity|]. cbn in Hi, Hj. unfold rnth.
    destruct i as [|[|i]]; [| |lia]; (destruct j as [|[|j]]; [| |lia]); cbn; first [lia|lra]. }
  destruct (HR 9 0) as [r Hr].
  destruct (mod_fields _ _ _ _ _ o f_power [1; 3 / 2; 0] Ho eq_refl eq_refl) as (Hc & Hct & Hn & Hex & Hp & Hv & Hf & Hpa & Hd & Hs).
  cbn in Hn. assert (EV := eps_val).
  assert (S0 : separation o (9, 0, 0) (datum o 0) = 9) by (rewrite Hs, Hd; unfold lon, lat, rnth; cbn [fst snd nth]; rewrite sqrt_line; rewrite Rabs_right; lra).
  assert (S1 : separation o (9, 0, 0) (datum o 1) = 4) by (rewrite Hs, Hd; unfold lon, lat, rnth; cbn [fst snd nth]; rewrite sqrt_line; rewrite Rabs_right; lra).
  assert (S2 : separation o (datum o 0) (datum o 1) = 5) by (rewrite Hs, !Hd; unfold lon, lat, rnth; cbn [fst snd nth]; rewrite sqrt_line; rewrite Rabs_left; lra).
  assert (VG : forall d, o_vg o d = npow d (3 / 2)) by (intros d; unfold o_vg; rewrite Hf, Hpa; cbn; unfold power_variogram_model; cbn; ring).
  assert (G0 : g_of o (9, 0, 0) 0%nat = 27). { rewrite g_plain by (intros _; rewrite S0; lra). rewrite S0, VG. replace 9 with (3 * 3) by ring. rewrite pow_1_5; lra. }
  assert (G1 : g_of o (9, 0, 0) 1%nat = 8). { rewrite g_plain by (intros _; rewrite S1; lra). rewrite S1, VG. replace 4 with (2 * 2) by ring. rewrite pow_1_5; lra. }
  assert (C : 0 < npow 5 (3 / 2) < 19).
  { assert (sqrt 5 * sqrt 5 = 5) by (apply sqrt_sqrt; lra). assert (0 < sqrt 5) by (apply sqrt_lt_R0; lra).
    rewrite <- H. rewrite pow_1_5 by assumption. rewrite H. nra. }
  destruct (two_data WE o _ r 0%nat (9, 0, 0) Hr (one_point_cell o 9 0 "vectorized" Hc) (or_introl Hp) Hn) as [HV _].
  { rewrite S2, VG. lra. }
  exists WE, o, (one_point 9 0 "vectorized"), r, (9, 0, 0). eexists. split; [exact Hr|]. split; [apply one_point_cell, Hc|]. split; [exact HP|]. split; [reflexivity|]. split; [exact Hp|]. split; [exact Hn|].
  split; [exact HV|]. rewrite Hn, Hv, G0, G1, S2, VG. unfold rnth. cbn [nth].
  assert (L : 19 / 38 < (27 - 8) / (2 * npow 5 (3 / 2))).
  { apply (Rmult_lt_reg_r (2 * npow 5 (3 / 2))); [lra|]. replace ((27 - 8) / (2 * npow 5 (3 / 2)) * (2 * npow 5 (3 / 2))) with 19 by (field; lra). lra. }
  intros i Hi. replace ((1 - 0) * (27 - 8) / (2 * npow 5 (3 / 2))) with ((27 - 8) / (2 * npow 5 (3 / 2))) by (field; lra).
  destruct i as [|[|i]]; [| |lia]; cbn; lra.
Qed.

(** pure nugget, two data *)
Theorem ex_pure_nugget : exists E o q r, run E o q r /\ shown o q 0 (1, 0, 0) /\ regular_for o q /\ (forall d, 0 <= d -> o_vg o d = 3) /\
  away o (1, 0, 0) /\ q_window q = None /\ o_n o = 3%nat.
Proof.
  destruct (mod_run [0; 5; 7] [0; 0; 0] [0; 1; 2] "linear" [0; 3]) as (o & Ho & HP & HR); try reflexivity; try (cbn; lia).
  { apply request_linear; try reflexivity; lra. }
  { left. cbn. lra. }
  destruct (HR 1 0) as [r Hr].
  destruct (mod_fields _ _ _ _ _ o f_linear [0; 3] Ho eq_refl eq_refl) as (Hc & Hct & Hn & Hex & Hp & Hv & Hf & Hpa & Hd & Hs). cbn in Hn.
  exists WE, o, (one_point 1 0 "vectorized"), r. split; [exact Hr|]. split; [apply one_point_cell, Hc|]. split; [left; exact Hp|].
  split; [|split; [|split; [reflexivity|exact Hn]]].
  - intros d _. unfold o_vg. rewrite Hf, Hpa. cbn. unfold linear_variogram_model. cbn. ring.
  - intros i Hi. rewrite Hn in Hi. assert (EV := eps_val). rewrite Hs, Hd. unfold lon, lat, rnth. cbn [fst snd].
    destruct i as [|[|[|i]]]; [| | |lia]; cbn [nth]; rewrite sqrt_line; unfold Rabs; destruct (Rcase_abs _); lra.
Qed.

(** spherical model, beyond the range *)
Theorem ex_far : exists E o q q' r r', run E o q r /\ run E o q' r' /\ shown o q 0 (10, 0, 0) /\ shown o q' 0 (0, -20, 0) /\ q_window q = None /\ q_window q' = None /\
  o_ct o = Euclidean /\ o_fun o = f_spherical /\ sill_model o /\ sill o = 1 /\ regular_for o q /\ regular o /\ (2 <= o_n o)%nat /\
  (forall i, (i < o_n o)%nat -> Rmax eps (rnth (o_params o) 1) < separation o (10, 0, 0) (datum o i) /\ Rmax eps (rnth (o_params o) 1) < separation o (0, -20, 0) (datum o i)).
Proof.
  destruct (mod_run [0; 1] [0; 0] [0; 1] "spherical" [1; 3; 1 / 4]) as (o & Ho & HP & HR); try reflexivity; try (cbn; lia).
  { apply request_sill; try lra. right. right. reflexivity. }
  { left. cbn. lra. }
  destruct (HR 10 0) as [r Hr]. destruct (HR 0 (-20)) as [r' Hr'].
  destruct (mod_fields _ _ _ _ _ o f_spherical [1 - 1 / 4; 3; 1 / 4] Ho eq_refl eq_refl) as (Hc & Hct & Hn & Hex & Hp & Hv & Hf & Hpa & Hd & Hs). cbn in Hn.
  exists WE, o, (one_point 10 0 "vectorized"), (one_point 0 (-20) "vectorized"), r, r'. split; [exact Hr|]. split; [exact Hr'|].
  split; [apply one_point_cell, Hc|]. split; [apply one_point_cell, Hc|]. split; [reflexivity|]. split; [reflexivity|]. split; [exact Hct|]. split; [exact Hf|].
  split; [split; [rewrite Hf; cbn; auto|rewrite Hpa; unfold rnth; cbn; lra]|]. split; [unfold sill; rewrite Hpa; unfold rnth; cbn; lra|]. split; [left; exact Hp|].
  split; [apply (run_is_regular WE o _ r Hr (or_introl Hp) eq_refl)|]. split; [lia|].
  assert (EV := eps_val). assert (M : Rmax eps (rnth (o_params o) 1) = 3) by (rewrite Hpa; unfold rnth; cbn; apply Rmax_right; lra).
  intros i Hi. rewrite M, !Hs, Hd. rewrite Hn in Hi. unfold lon, lat, rnth. cbn [fst snd]. destruct i as [|[|i]]; [| |lia]; cbn [nth]; split;
    (match goal with |- 3 < sqrt ?a => apply Rlt_le_trans with (sqrt (4 * 4)); [rewrite sqrt_square; lra|apply sqrt_le_1_alt; unfold Rsqr; lra] end).
Qed.

(** continuity *)
Theorem ex_continuous : exists E o q r, run E o q r /\ shown o q 0 (2, 0, 0) /\ regular_for o q /\ q_window q = None /\ o_exact o = true /\ away o (2, 0, 0) /\ o_n o = 3%nat /\
  (forall i, (i < o_n o)%nat -> continuous_at (o_vg o) (separation o (2, 0, 0) (datum o i))).
Proof.
  destruct (mod_run [0; 5; 7] [0; 0; 0] [0; 1; 2] "exponential" [2; 3; 1]) as (o & Ho & HP & HR); try reflexivity; try (cbn; lia).
  { apply request_sill; try lra. right. left. reflexivity. }
  { left. cbn. lra. }
  destruct (HR 2 0) as [r Hr].
  destruct (mod_fields _ _ _ _ _ o f_exponential [2 - 1; 3; 1] Ho eq_refl eq_refl) as (Hc & Hct & Hn & Hex & Hp & Hv & Hf & Hpa & Hd & Hs). cbn in Hn.
  assert (EV := eps_val).
  assert (AW : away o (2, 0, 0)).
  { intros i Hi. rewrite Hn in Hi. rewrite Hs, Hd. unfold lon, lat, rnth. cbn [fst snd].
    destruct i as [|[|[|i]]]; [| | |lia]; cbn [nth]; rewrite sqrt_line; unfold Rabs; destruct (Rcase_abs _); lra. }
  exists WE, o, (one_point 2 0 "vectorized"), r. split; [exact Hr|]. split; [apply one_point_cell, Hc|]. split; [left; exact Hp|]. split; [reflexivity|]. split; [exact Hex|].
  split; [exact AW|]. split; [exact Hn|]. intros i Hi. specialize (AW i Hi).
  unfold o_vg. apply builtin_continuous; [rewrite Hf; cbn; tauto|lra|intros _ _; rewrite Hpa; unfold rnth; cbn; lra].
Qed.

(** with a nugget and exact_values predictions jump where the 1e-10 neighbourhood of a datum ends *)
Theorem jump_at_data : exists E o q r pos v, run E o q r /\ shown o q 0 pos /\ proper o /\ q_window q = None /\ o_pinv o = false /\ o_exact o = true /\ 0 < o_vg o 0 /\
  r_value r 0%nat = Some v /\
  forall delta, 0 < delta -> exists q' r' pos' v', run E o q' r' /\ q_window q' = None /\ shown o q' 0 pos' /\ separation o pos' pos < delta /\
    r_value r' 0%nat = Some v' /\ 1 / 4 <= Rabs (v' - v).
Proof.
  destruct (mod_run [0; 1] [0; 0] [0; 1] "linear" [1; 1]) as (o & Ho & HP & HR); try reflexivity; try (cbn; lia).
  { apply request_linear; try reflexivity; lra. }
  { left. cbn. lra. }
  destruct (mod_fields _ _ _ _ _ o f_linear [1; 1] Ho eq_refl eq_refl) as (Hc & Hct & Hn & Hex & Hp & Hv & Hf & Hpa & Hd & Hs). cbn in Hn.
  assert (EV := eps_val). assert (EV' : eps < 1 / 8) by (unfold eps; lra). assert (VG : forall d, o_vg o d = d + 1) by (intros d; unfold o_vg; rewrite Hf, Hpa; cbn; unfold linear_variogram_model; cbn; ring).
  assert (S0 : forall a, 0 <= a -> separation o (a, 0, 0) (datum o 0) = a) by (intros a Ha; rewrite Hs, Hd; unfold lon, lat, rnth; cbn [fst snd nth]; rewrite sqrt_line; rewrite Rabs_right; lra).
  assert (S1 : forall a, a < 1 -> separation o (a, 0, 0) (datum o 1) = 1 - a) by (intros a Ha; rewrite Hs, Hd; unfold lon, lat, rnth; cbn [fst snd nth]; rewrite sqrt_line; rewrite Rabs_left; lra).
  assert (S2 : separation o (datum o 0) (datum o 1) = 1) by (rewrite Hs, !Hd; unfold lon, lat, rnth; cbn [fst snd nth]; rewrite sqrt_line; rewrite Rabs_left; lra).
  destruct (HR eps 0) as [r Hr].
  destruct (two_data WE o _ r 0%nat (eps, 0, 0) Hr (one_point_cell o eps 0 "vectorized" Hc) (or_introl Hp) Hn) as [HV _]; [rewrite S2, VG; lra|].
  exists WE, o, (one_point eps 0 "vectorized"), r, (eps, 0, 0). eexists. split; [exact Hr|]. split; [apply one_point_cell, Hc|]. split; [exact HP|]. split; [reflexivity|]. split; [exact Hp|]. split; [exact Hex|].
  split; [rewrite VG; lra|]. split; [exact HV|]. intros delta Hdel.
  set (h := Rmin (delta / 2) (1 / 4)). assert (Hh : 0 < h) by (unfold h; apply Rmin_glb_lt; lra). assert (Hh1 : h <= delta / 2) by apply Rmin_l. assert (Hh2 : h <= 1 / 4) by apply Rmin_r.
  destruct (HR (eps + h) 0) as [r' Hr'].
  destruct (two_data WE o _ r' 0%nat (eps + h, 0, 0) Hr' (one_point_cell o (eps + h) 0 "vectorized" Hc) (or_introl Hp) Hn) as [HV' _]; [rewrite S2, VG; lra|].
  exists (one_point (eps + h) 0 "vectorized"), r', (eps + h, 0, 0). eexists. split; [exact Hr'|]. split; [reflexivity|]. split; [apply one_point_cell, Hc|].
  split. { rewrite Hs. unfold lon, lat. cbn [fst snd]. rewrite sqrt_line, Rabs_right by lra. lra. }
  split; [exact HV'|].
  assert (G1 : forall a, 0 <= a -> a < 1 / 2 -> g_of o (a, 0, 0) 1%nat = 2 - a) by (intros a Ha Ha'; rewrite g_plain by (intros _; rewrite S1 by lra; lra); rewrite S1, VG by lra; ring).
  assert (G0 : g_of o (eps, 0, 0) 0%nat = 0).
  { unfold g_of, query_semivariance. rewrite Hex, S0 by lra. cbn [andb]. rewrite Rabs_right by lra. rewrite (proj2 (Rleb_true _ _)) by lra. reflexivity. }
  assert (G0' : g_of o (eps + h, 0, 0) 0%nat = eps + h + 1) by (rewrite g_plain by (intros _; rewrite S0 by lra; lra); rewrite S0, VG by lra; ring).
  rewrite G0, G0', !G1, S2, VG, Hv by lra. unfold rnth. cbn [nth]. rewrite Rabs_right; lra.
Qed.
