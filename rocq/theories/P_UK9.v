(** More examples: regional linear drift on three data, no drift, coplanar data. *)
From Coq Require Import String ClassicalEpsilon.
From Verif Require Import Base Sums Matrix M_Variogram P_Variogram M_Geometry S_Geometry P_Geometry M_Kriging S_Kriging
  P_Kriging P_OKSpec M_Init M_Object M_Execute S_Execute P_Object P_Execute P_Cells P_Window P_WindowExec P_Master P_Det P_OK
  P_Similar P_Data Witness M_UK S_UK P_UK P_UK2 P_UK3 P_UK4 P_UK5 P_UK6 P_UK7 Witness3 S_Bilinear P_Bilinear P_UK8.

(** *** no drift *)
Definition inv20 (c : R) : mat := fun i j =>
  match i, j with
  | 0%nat, 0%nat | 1%nat, 1%nat => / (2 * c)
  | 0%nat, 1%nat | 1%nat, 0%nat => - / (2 * c)
  | 2%nat, 2%nat => c / 2
  | _, _ => / 2
  end.
Lemma inv20_ok (G F : mat) : G 0%nat 0%nat = 0 -> G 1%nat 1%nat = 0 -> G 1%nat 0%nat = G 0%nat 1%nat -> G 0%nat 1%nat <> 0 ->
  is_inverse 3 (UA 2 0 G F) (inv20 (G 0%nat 1%nat)).
Proof.
  intros G0 G1 GS HG.
  split; intros i j Hi Hj; unfold mulm; cbn [bsum];
    (destruct i as [|[|[|i]]]; [| | |lia]); (destruct j as [|[|[|j]]]; [| | |lia]);
    unfold UA, inv20, idm; cbn [Nat.ltb Nat.leb Nat.add Nat.sub Nat.eqb]; rewrite ?G0, ?G1, ?GS; field; assumption.
Qed.

Lemma ex_no_drift : exists E A D o u q r r',
  counterparts OK2 UK2 /\ c_ct A = "euclidean"%string /\ d_terms D = [] /\
  built E OK2 A [] o /\ ubuilt E UK2 A D [] u /\ run E o q r /\ urun E u q [] r' /\ q_window q = None /\
  shown o q 0 (1, 1, 0) /\ shown (u_obj u) q 0 (1, 1, 0).
Proof.
  destruct (two_run 1 0 0 3 true 1 1 true None) as (o & r & Ho & HRun); [lra|].
  destruct (two_u 0 3 no_drift_args {| dr_linear := false; dr_wells := None; dr_ext := None; dr_spec := None; dr_fun := None |}) as (u & HC & HD & Hou & HR).
  { reflexivity. }
  destruct (two_fields_u _ _ _ _ _ _ _ _ Hou) as (Hc & Hn & Hct & Hex & Hpi & Hvg & Hval & Horig & H0 & H1 & Hs & Ha & Hsep & HG).
  destruct (two_fields _ _ _ _ _ _ _ _ Ho) as (_&_&Hco&_).
  assert (Hd : o_dim (u_obj u) = 2%nat) by (unfold o_dim; rewrite Hc; reflexivity).
  set (q := one_point 1 1 "vectorized").
  assert (HT : drift_terms u q [] = []).
  { unfold drift_terms, linear_terms, well_terms, ext_terms, spec_terms, fun_terms. rewrite HD. reflexivity. }
  assert (HL : exists l, locate (o_dim (u_obj u)) "points" [[1]; [1]] None = Ok l) by (rewrite Hd; cbn; eauto).
  destruct HL as [l HL].
  destruct (u_succeeds true None u q [] l []) as [_ HX]; try assumption; try reflexivity.
  - intros K. rewrite HD in K. contradiction.
  - unfold UA_spec. rewrite HT, Hn. eexists. apply inv20_ok; try apply G_of_diag; [apply G_of_sym|rewrite HG; lra].
  - unfold spec_grids. rewrite HD. reflexivity.
  - destruct HX as [r' Hr']; [reflexivity|rewrite HD; reflexivity|].
    exists WE, (two_args 1 0 0 3 true false), no_drift_args, o, u, q, r, r'.
    split; [left; split; reflexivity|]. split; [reflexivity|]. split; [reflexivity|].
    split; [split; [reflexivity|]; exists o; split; [exact Ho|reflexivity]|].
    split; [split; [reflexivity|]; exists u; split; [exact HC|reflexivity]|].
    split; [exact HRun|]. split; [split; [apply wit_env_ok|]; split; [exact HR|]; exists false; exact Hr'|].
    split; [reflexivity|]. split; [apply one_point_cell, Hco|apply one_point_shown_u, Hc].
Qed.

(** *** coplanar data: OrdinaryKriging3D *)
Definition plane_args (h : R) : cargs :=
  {| c_coords := [[0; 3]; [0; 4]; [h; h]]; c_values := [0; 3];
     c_v := {| a_model := VName "linear"; a_params := PList [1; 0]; a_fun := FNone;
               a_nlags := 6; a_weight := false; a_scaling := (fun _ => 1); a_angle := (fun _ => 0) |};
     c_verbose := false; c_plotting := false; c_stat := false; c_ct := "euclidean";
     c_exact := Some true; c_pinv := false; c_pinv_type := "pinv" |}.

Lemma plane_construct c h : c = OK3 \/ c = UK3 -> exists o, construct WE c (plane_args h) = Ok o.
Proof.
  intros [-> | ->]; unfold construct.
  all: cbn -[adjust_for_anisotropy all_statistics initialize_variogram_model];
    match goal with |- context [adjust_for_anisotropy false 3 ?X ?c ?s ?a] =>
      destruct (adjust_supported 3 X c s a (or_intror eq_refl)) as [Y HY]; rewrite HY end;
    cbn [bind];
    destruct (initialize_explicit (e_fit WE) Euclidean 3 2 Y (rnth [0; 3]) "linear" f_linear [1; 0] 6 false)
      as (lags & sv & Hi); try reflexivity; try (intros; discriminate);
    cbn [wit_env e_fit] in Hi; rewrite Hi; cbn [bind];
    match goal with |- context [all_statistics _ ?a ?b 2 ?X ?y ?v false] => destruct (stats_two true None a b X y v) as [s Hs] end;
    cbn [wit_env e_la] in Hs; rewrite Hs; cbn [bind]; eauto.
Qed.

Definition plane_point (h x y : R) : query :=
  {| q_style := "points"; q_pts := [[x]; [y]; [h]]; q_int := [false; false; false]; q_mask := None; q_backend := "vectorized"; q_window := None |}.

Lemma ex_coplanar h : exists E o o' q q' r r',
  run E o q r /\ run E o' q' r' /\ coplanar h o o' /\ q_window q = None /\ q_window q' = None /\
  shown o q 0 (1, 1, 0) /\ shown o' q' 0 (lift h (1, 1, 0)).
Proof.
  destruct (two_run 1 0 0 3 true 1 1 true None) as (o & r & Ho & HRun); [lra|].
  destruct (plane_construct OK3 h (or_introl eq_refl)) as [o' Ho'].
  destruct (two_fields _ _ _ _ _ _ _ _ Ho) as (Hre&Hinv&Hc&Hn&Hct&Hex&Hpi&Hf&Hp&Hvg&Hval&H0&H1&Hsep).
  assert (Hre' : reachable WE o') by (refine (reach_new WE OK3 (plane_args h) o' _ Ho'); reflexivity).
  pose proof (reachable_inv WE o' Hre') as Hinv'.
  destruct (construct_inv WE OK3 _ o' Ho') as (ex & name & prm & fn & sc & an & f & vp & lags & sv & params & Hall).
  destruct Hall as (_&Hex'&Hgs&Hf'&Hmp&_&Hini&_&Hc'&Hpi'&_&Hexo&_&Hfo&Hpo&Hn'&Horig&Hval'&_&_&_&_&Hct').
  cbn in Hex', Hgs, Hn', Horig, Hval', Hpi'. injection Hex' as <-. injection Hgs as <- <- <- <- <-.
  cbn in Hf'. injection Hf' as <-. cbn in Hmp. injection Hmp as <-.
  destruct Hct' as [(_ & Hct' & _ & Hs' & Ha' & _)|(Hg & _)]; [|discriminate].
  assert (Hpar : params = [1; 0]).
  { unfold initialize_variogram_model in Hini. rewrite Hct' in Hini. cbn [cdim Nat.eqb] in Hini. rewrite Hn' in Hini. cbn [List.length plane_args c_values Nat.eqb negb] in Hini.
    bindok Hini. cbn in Hini. injection Hini as _ _ <-. reflexivity. }
  destruct (construct_inv WE OK2 _ o Ho) as (ex2 & name2 & prm2 & fn2 & sc2 & an2 & f2 & vp2 & lags2 & sv2 & params2 & Hall2).
  destruct Hall2 as (_&_&Hgs2&_&_&_&_&_&_&_&_&_&_&_&_&_&_&_&_&_&_&_&Hct2).
  cbn in Hgs2. injection Hgs2 as <- <- <- <- <-.
  destruct Hct2 as [(_ & _ & _ & Hs2 & Ha2 & _)|(Hg & _)]; [|discriminate].
  assert (Hd' : o_dim o' = 3%nat) by (unfold o_dim; rewrite Hc'; reflexivity).
  assert (HCP : coplanar h o o').
  { apply Build_coplanar.
    - exact Hc.
    - exact Hc'.
    - exact Hct.
    - exact Hct'.
    - rewrite Hexo, Hex. reflexivity.
    - rewrite Hfo, Hf. reflexivity.
    - rewrite Hpo, Hpar, Hp. reflexivity.
    - rewrite Hs2, Hs'. reflexivity.
    - rewrite Ha', Ha2. auto.
    - rewrite Hn, Hn'. reflexivity.
    - intros i Hi. rewrite Hn in Hi. unfold datum at 1. rewrite Hd', Horig.
      destruct i as [|[|i]]; [rewrite H0|rewrite H1|lia]; reflexivity.
    - intros i _. rewrite Hval, Hval'. reflexivity. }
  assert (HD0 : datum o' 0%nat = (0, 0, h)) by (rewrite (cp_datum _ _ _ HCP) by lia; rewrite H0; reflexivity).
  assert (HD1 : datum o' 1%nat = (3, 4, h)) by (rewrite (cp_datum _ _ _ HCP) by lia; rewrite H1; reflexivity).
  assert (HG : G_of o' 0%nat 1%nat = 5).
  { unfold G_of, data_semivariance. cbn [Nat.eqb]. unfold o_vg. rewrite Hfo, Hpo, Hpar.
    assert (separation o' (datum o' 0%nat) (datum o' 1%nat) = 5) as ->.
    { change (0, 0, h) with (lift h (0, 0, 0)) in HD0. change (3, 4, h) with (lift h (3, 4, 0)) in HD1. rewrite HD0, HD1.
      rewrite (coplanar_sep h o o' (0, 0, 0) (3, 4, 0) HCP eq_refl eq_refl), Hsep. apply sqrt_25. }
    cbn. unfold linear_variogram_model, rnth. cbn [nth]. ring. }
  assert (HR' : regular o') by (apply two_regular; [exact Hn'|rewrite HG; lra]).
  assert (Hord : ordinary o') by (right; exact Hc').
  assert (HL : exists l, locate (o_dim o') "points" [[1]; [1]; [h]] None = Ok l) by (rewrite Hd'; cbn; eauto).
  destruct HL as [l HL].
  destruct (execute_succeeds WE o' (plane_point h 1 1) l (wit_env_ok true None) Hinv' Hord eq_refl Hpi') as [r' Hr'];
    [left; reflexivity|exact HR'|exact HL|reflexivity|].
  exists WE, o, o', (one_point 1 1 "vectorized"), (plane_point h 1 1), r, r'.
  split; [exact HRun|]. split.
  { split; [apply wit_env_ok|]. split; [exact Hre'|]. split; [exact Hord|]. split; [intros Hb; discriminate Hb|exact Hr']. }
  split; [exact HCP|]. split; [reflexivity|]. split; [reflexivity|]. split; [apply one_point_cell, Hc|].
  unfold shown. rewrite Hd'. split.
  - apply (cell_point 3 (plane_point h 1 1) 0 eq_refl). cbn. lia.
  - intros H. inversion H; discriminate.
Qed.

(** *** regional linear drift on (0,0), (1,0), (0,1) *)
Definition tri_args (z : list R) : cargs :=
  {| c_coords := [[0; 1; 0]; [0; 0; 1]]; c_values := z;
     c_v := {| a_model := VName "linear"; a_params := PList [1; 1]; a_fun := FNone;
               a_nlags := 6; a_weight := false; a_scaling := (fun _ => 1); a_angle := (fun _ => 0) |};
     c_verbose := false; c_plotting := false; c_stat := false; c_ct := "euclidean";
     c_exact := Some true; c_pinv := false; c_pinv_type := "pinv" |}.
Definition lin_args : dargs :=
  {| d_terms := ["regional_linear"%string]; d_point := None; d_ext := None; d_ext_x := None; d_ext_y := None; d_spec := None; d_fun := None |}.

Lemma krige1_two vg d bd y : d 0%nat 1%nat = d 1%nat 0%nat -> vg (d 0%nat 1%nat) <> 0 -> exists v, krige1 wit_la 2 vg d bd y false = Ok v.
Proof.
  intros Hs Hc. unfold krige1. cbv zeta. cbn [wit_la la_solve].
  destruct (choose (is_inverse (2 + 1) (kriging_matrix 2 vg d))) as [B|] eqn:EB; [cbn; eauto|].
  exfalso. apply (choose_none _ EB). change (nonsingular (2 + 1) (kriging_matrix 2 vg d)).
  apply regular_nonsingular. apply (two_regular_gen _ (vg (d 0%nat 1%nat))); try reflexivity; [|exact Hc].
  unfold data_semivariance. cbn. rewrite Hs. reflexivity.
Qed.

Lemma euclid_sym' n p q : euclid n p q = euclid n q p.
Proof. unfold euclid. f_equal. apply bsum_ext; intros; ring. Qed.

Lemma stats_tri ndim X y : exists s, all_statistics wit_la Euclidean ndim 3 X y (linear_variogram_model [1; 1]) false = Ok s.
Proof.
  unfold all_statistics, find_statistics. cbn [seq mapM]. unfold stat_entry at 1. cbn [Nat.eqb bind].
  unfold stat_entry. cbn [Nat.eqb]. unfold krige_first.
  match goal with |- context [krige1 _ 1 ?a ?b ?c ?d false] => destruct (krige1_one true None a b c d) as [[k ss] H1] end.
  cbn [wit_env e_la] in H1. rewrite H1.
  match goal with |- context [krige1 _ 2 ?a ?b ?c ?d false] => destruct (krige1_two a b c d) as [[k2 ss2] H2] end.
  { apply euclid_sym'. }
  { cbn [distance]. unfold linear_variogram_model. cbn. pose proof (sqrt_pos (bsum ndim (fun k0 => (X 1%nat k0 - X 0%nat k0) * (X 1%nat k0 - X 0%nat k0)))).
    unfold euclid, rnth. cbn. lra. }
  rewrite H2. cbn [bind].
  destruct (Rltb (Rabs ss) eps); cbn [bind]; (destruct (Rltb (Rabs ss2) eps); cbn [bind]; eauto).
Qed.

Lemma tri_construct z : List.length z = 3%nat -> exists o, construct WE UK2 (tri_args z) = Ok o.
Proof.
  intros Hz. unfold construct. cbn -[adjust_for_anisotropy all_statistics initialize_variogram_model].
  match goal with |- context [adjust_for_anisotropy false 2 ?X ?c ?s ?a] =>
    destruct (adjust_supported 2 X c s a (or_introl eq_refl)) as [Y HY]; rewrite HY end.
  cbn [bind].
  destruct (initialize_explicit (e_fit WE) Euclidean 2 3 Y (rnth z) "linear" f_linear [1; 1] 6 false)
    as (lags & sv & Hi); try reflexivity; try (intros; discriminate); try lia.
  cbn [wit_env e_fit] in Hi. rewrite Hz, Hi. cbn [bind].
  match goal with |- context [all_statistics _ Euclidean ?b 3 ?X ?y ?v false] => destruct (stats_tri b X y) as [s Hs] end.
  rewrite Hs. cbn [bind]. eauto.
Qed.

Definition triU (a k : nat) : R :=
  match a, k with
  | 0%nat, 2%nat | 1%nat, 0%nat | 2%nat, 1%nat => 1
  | 0%nat, 0%nat | 0%nat, 1%nat => - (1)
  | _, _ => 0
  end.
Definition inv32 (G : mat) : mat := fun i j =>
  if Nat.ltb i 3 then if Nat.ltb j 3 then 0 else triU i (j - 3)
  else if Nat.ltb j 3 then triU j (i - 3)
  else bsum 3 (fun a => bsum 3 (fun b => triU a (i - 3) * G a b * triU b (j - 3))).
Lemma inv32_ok (G F : mat) : (forall i, G i i = 0) -> (forall i j, G i j = G j i) ->
  (forall i, (i < 3)%nat -> F 0%nat i = rnth [0; 1; 0] i /\ F 1%nat i = rnth [0; 0; 1] i) ->
  is_inverse 6 (UA 3 2 G F) (inv32 G).
Proof.
  intros G0 GS HF. destruct (HF 0%nat ltac:(lia)) as [F0 F1], (HF 1%nat ltac:(lia)) as [F2 F3], (HF 2%nat ltac:(lia)) as [F4 F5].
  cbn in F0, F1, F2, F3, F4, F5. pose proof (GS 1%nat 0%nat) as S1. pose proof (GS 2%nat 0%nat) as S2. pose proof (GS 2%nat 1%nat) as S3.
  split; intros i j Hi Hj; unfold mulm; cbn [bsum];
    (destruct i as [|[|[|[|[|[|i]]]]]]; [| | | | | |lia]); (destruct j as [|[|[|[|[|[|j]]]]]]; [| | | | | |lia]);
    unfold UA, inv32, idm, triU; cbn [bsum Nat.ltb Nat.leb Nat.add Nat.sub Nat.eqb]; rewrite ?G0, ?F0, ?F1, ?F2, ?F3, ?F4, ?F5, ?S1, ?S2, ?S3; ring.
Qed.

Lemma ex_linear_drift x y : exists E u r, urun E u (one_point x y "vectorized") [] r /\
  shown (u_obj u) (one_point x y "vectorized") 0 (x, y, 0) /\ uwell_posed u (one_point x y "vectorized") [] 0 (x, y, 0) /\
  dr_linear (u_drift u) = true /\ dr_spec (u_drift u) = None /\ o_scaling (u_obj u) 0%nat = 1 /\ o_dim (u_obj u) = 2%nat /\ o_n (u_obj u) = 3%nat /\
  (forall i, (i < 3)%nat -> o_values (u_obj u) i = 1 + dot3 (2, 3, 0) (datum (u_obj u) i)).
Proof.
  destruct (tri_construct [1; 3; 4] eq_refl) as [o Ho].
  set (u := {| u_obj := o; u_drift := {| dr_linear := true; dr_wells := None; dr_ext := None; dr_spec := None; dr_fun := None |} |}).
  assert (HC : construct_uk WE UK2 (tri_args [1; 3; 4]) lin_args = Ok u).
  { unfold construct_uk. rewrite Ho. reflexivity. }
  assert (HR : ureachable WE u) by exact (ur_new WE UK2 (tri_args [1; 3; 4]) lin_args u (or_introl eq_refl) eq_refl HC).
  destruct (construct_inv WE UK2 _ o Ho) as (ex & name & prm & fn & sc & an & f & vp & lags & sv & params & Hall).
  destruct Hall as (_&Hex'&Hgs&Hf'&Hmp&_&Hini&_&Hc'&Hpi'&_&Hexo&_&Hfo&Hpo&Hn'&Horig&Hval'&_&_&_&_&Hct').
  cbn in Hex', Hgs, Hn', Horig, Hval', Hpi'. injection Hex' as <-. injection Hgs as <- <- <- <- <-.
  destruct Hct' as [(_ & Hct' & _ & Hs' & Ha' & _)|(Hg & _)]; [|discriminate].
  assert (Hd : o_dim (u_obj u) = 2%nat) by (unfold o_dim, u; cbn; rewrite Hc'; reflexivity).
  assert (HD : forall i, datum (u_obj u) i = (rnth [0; 1; 0] i, rnth [0; 0; 1] i, 0)).
  { intros i. unfold datum, loc. rewrite Hd. cbn [u u_obj Nat.eqb]. rewrite Horig. reflexivity. }
  set (q := one_point x y "vectorized").
  assert (HT : drift_terms u q [] = linear_terms u) by (unfold drift_terms, well_terms, ext_terms, spec_terms, fun_terms; cbn; rewrite app_nil_r; reflexivity).
  assert (HT2 : drift_terms u q [] = [spatial (u_obj u) (fun p => coord 0 (frame (u_obj u) p)); spatial (u_obj u) (fun p => coord 1 (frame (u_obj u) p))]).
  { rewrite HT. unfold linear_terms. rewrite Hd. reflexivity. }
  assert (HL : exists l, locate (o_dim (u_obj u)) "points" [[x]; [y]] None = Ok l) by (rewrite Hd; cbn; eauto).
  destruct HL as [l HL].
  destruct (u_succeeds true None u q [] l []) as [_ HX]; try assumption; try reflexivity.
  - intros K. contradiction.
  - unfold UA_spec. rewrite HT2. replace (o_n (u_obj u)) with 3%nat by (symmetry; exact Hn').
    exists (inv32 (G_of (u_obj u))). apply inv32_ok; [intros; apply G_of_diag|intros; apply G_of_sym|].
    intros i _. unfold F_of. cbn [nth spatial t_data]. rewrite HD, frame_id by (assumption || reflexivity). split; reflexivity.
  - destruct HX as [r Hr]; [reflexivity|reflexivity|].
    exists WE, u, r. split; [split; [apply wit_env_ok|]; split; [exact HR|]; exists false; exact Hr|].
    split; [apply one_point_shown_u; exact Hc'|]. split; [left; exact Hpi'|]. split; [reflexivity|]. split; [reflexivity|].
    split; [cbn; rewrite Hs'; reflexivity|]. split; [exact Hd|]. split; [exact Hn'|].
    intros i Hi. rewrite HD. cbn [u u_obj]. rewrite Hval'. destruct i as [|[|[|i]]]; [| | |lia]; cbn; ring.
Qed.

(** *** functional drift in 3D: f = x + 2 y + 3 z *)
Definition fxyz : R -> R -> R -> R := fun x y z => x + 2 * y + 3 * z.
Lemma frame_id3 o p : o_dim o = 3%nat -> (forall k, o_scaling o k = 1) -> (forall k, o_angle o k = 0) -> frame o p = p.
Proof.
  intros Hd Hs Ha. destruct p as [[x y] z]. unfold frame, center3, loc. rewrite Hd, !Hs, !Ha. cbn [Nat.eqb].
  unfold rad. replace (0 * PI / 180) with 0 by field.
  unfold rotated_axis, rotx, roty, rotz. rewrite cos_0, sin_0. unfold add3, sub3, dot3. f_equal; [f_equal|]; ring.
Qed.

Lemma ex_functional_3d h x y : exists E u r, urun E u (plane_point h x y) [] r /\
  shown (u_obj u) (plane_point h x y) 0 (x, y, h) /\ uwell_posed u (plane_point h x y) [] 0 (x, y, h) /\
  o_class (u_obj u) = UK3 /\ dr_spec (u_drift u) = None /\ dr_fun (u_drift u) = Some [fxyz] /\
  drift_terms u (plane_point h x y) [] = fun_terms u /\ o_n (u_obj u) = 2%nat /\
  (forall p, frame (u_obj u) p = p).
Proof.
  destruct (plane_construct UK3 h (or_intror eq_refl)) as [o Ho].
  set (u := {| u_obj := o; u_drift := {| dr_linear := false; dr_wells := None; dr_ext := None; dr_spec := None; dr_fun := Some [fxyz] |} |}).
  assert (HC : construct_uk WE UK3 (plane_args h) (fun_args fxyz) = Ok u).
  { unfold construct_uk. rewrite Ho. reflexivity. }
  assert (HR : ureachable WE u) by exact (ur_new WE UK3 (plane_args h) (fun_args fxyz) u (or_intror eq_refl) eq_refl HC).
  destruct (construct_inv WE UK3 _ o Ho) as (ex & name & prm & fn & sc & an & f & vp & lags & sv & params & Hall).
  destruct Hall as (_&Hex'&Hgs&Hf'&Hmp&_&Hini&_&Hc'&Hpi'&_&Hexo&_&Hfo&Hpo&Hn'&Horig&Hval'&_&_&_&_&Hct').
  cbn in Hex', Hgs, Hn', Horig, Hval', Hpi'. injection Hex' as <-. injection Hgs as <- <- <- <- <-.
  destruct Hct' as [(_ & Hct' & _ & Hs' & Ha' & _)|(Hg & _)]; [|discriminate].
  assert (Hd : o_dim (u_obj u) = 3%nat) by (unfold o_dim, u; cbn; rewrite Hc'; reflexivity).
  assert (HF : forall p, frame (u_obj u) p = p).
  { intros p. apply frame_id3; [exact Hd|intros k; cbn; rewrite Hs'; reflexivity|intros k; cbn; rewrite Ha'; reflexivity]. }
  assert (HD : forall i, datum (u_obj u) i = (rnth [0; 3] i, rnth [0; 4] i, rnth [h; h] i)).
  { intros i. unfold datum, loc. rewrite Hd. cbn [u u_obj Nat.eqb]. rewrite Horig. reflexivity. }
  set (q := plane_point h x y).
  assert (HT : drift_terms u q [] = fun_terms u) by reflexivity.
  assert (HL : exists l, locate (o_dim (u_obj u)) "points" [[x]; [y]; [h]] None = Ok l) by (rewrite Hd; cbn; eauto).
  destruct HL as [l HL].
  destruct (u_succeeds true None u q [] l []) as [_ HX]; try assumption; try reflexivity.
  - intros K. contradiction.
  - apply u21_nonsingular; [exact Hn'|reflexivity|]. rewrite HT. unfold F_of, fun_terms. cbn [u u_drift dr_fun opt_list map nth spatial t_data].
    rewrite !HF, !HD. unfold fxyz, coord, rnth. cbn. lra.
  - destruct HX as [r Hr]; [reflexivity|reflexivity|].
    exists WE, u, r. split; [split; [apply wit_env_ok|]; split; [exact HR|]; exists false; exact Hr|].
    split.
    { unfold shown. rewrite Hd. split.
      - apply (cell_point 3 (plane_point h x y) 0 eq_refl). cbn. lia.
      - intros H. inversion H; discriminate. }
    split; [left; exact Hpi'|]. split; [exact Hc'|]. split; [reflexivity|]. split; [reflexivity|]. split; [exact HT|]. split; [exact Hn'|exact HF].
Qed.
