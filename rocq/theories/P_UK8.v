(** Examples: universal kriging objects meeting the hypotheses of the theorems,
    and counterexamples to backend agreement. *)
From Coq Require Import String ClassicalEpsilon.
From Verif Require Import Base Sums Matrix M_Variogram P_Variogram M_Geometry S_Geometry P_Geometry M_Kriging S_Kriging
  P_Kriging P_OKSpec M_Init M_Object M_Execute S_Execute P_Object P_Execute P_Cells P_Window P_WindowExec P_Master P_Det P_OK
  P_Similar P_Data Witness M_UK S_UK P_UK P_UK2 P_UK3 P_UK4 P_UK5 P_UK6 P_UK7 Witness3 S_Bilinear P_Bilinear.

Definition no_drift_args : dargs :=
  {| d_terms := []; d_point := None; d_ext := None; d_ext_x := None; d_ext_y := None; d_spec := None; d_fun := None |}.
Definition fun_args (f : R -> R -> R -> R) : dargs :=
  {| d_terms := ["functional"%string]; d_point := None; d_ext := None; d_ext_x := None; d_ext_y := None; d_spec := None; d_fun := Some [f] |}.
Definition spec_args (l : list R) : dargs :=
  {| d_terms := ["specified"%string]; d_point := None; d_ext := None; d_ext_x := None; d_ext_y := None; d_spec := Some [l]; d_fun := None |}.
Definition well_args (x y : R) : dargs :=
  {| d_terms := ["point_log"%string]; d_point := Some (false, [(x, y, -1)]); d_ext := None; d_ext_x := None; d_ext_y := None; d_spec := None; d_fun := None |}.
Definition ext_args (arr : mat) : dargs :=
  {| d_terms := ["external_Z"%string]; d_point := None; d_ext := Some (2%nat, 2%nat, arr); d_ext_x := Some [0; 3]; d_ext_y := Some [0; 4]; d_spec := None; d_fun := None |}.

Notation WE := (wit_env true None).

Lemma two_u z0 z1 D d : (forall o, construct WE UK2 (two_args 1 0 z0 z1 true false) = Ok o -> init_drift UK2 D o = Ok d) ->
  exists u, construct_uk WE UK2 (two_args 1 0 z0 z1 true false) D = Ok u /\ u_drift u = d /\
    construct WE UK2 (two_args 1 0 z0 z1 true false) = Ok (u_obj u) /\ ureachable WE u.
Proof.
  intros H. destruct (two_construct_u true None 1 0 z0 z1 true) as [o Ho].
  exists {| u_obj := o; u_drift := d |}.
  assert (HC : construct_uk WE UK2 (two_args 1 0 z0 z1 true false) D = Ok {| u_obj := o; u_drift := d |}).
  { unfold construct_uk. rewrite Ho. cbn [bind]. rewrite (H o Ho). reflexivity. }
  split; [exact HC|]. split; [reflexivity|]. split; [exact Ho|].
  exact (ur_new WE UK2 (two_args 1 0 z0 z1 true false) D _ (or_introl eq_refl) eq_refl HC).
Qed.

Lemma one_point_shown_u o x y b : o_class o = UK2 -> shown o (one_point x y b) 0 (x, y, 0).
Proof.
  intros Hc. unfold shown, o_dim. rewrite Hc. split.
  - apply (cell_point 2 (one_point x y b) 0 eq_refl). cbn. lia.
  - intros H. inversion H; discriminate.
Qed.

(** functional drift f(x, y) = x *)
Definition fx : R -> R -> R -> R := fun x _ _ => x.
Lemma ex_functional z0 z1 x y : exists u r, ubuilt WE UK2 (two_args 1 0 z0 z1 true false) (fun_args fx) [] u /\
  o_class (u_obj u) = UK2 /\ o_pinv (u_obj u) = false /\ o_exact (u_obj u) = true /\ o_n (u_obj u) = 2%nat /\
  construct WE UK2 (two_args 1 0 z0 z1 true false) = Ok (u_obj u) /\
  drift_terms u (one_point x y "vectorized") [] = fun_terms u /\ dr_fun (u_drift u) = Some [fx] /\
  urun WE u (one_point x y "vectorized") [] r /\ shown (u_obj u) (one_point x y "vectorized") 0 (x, y, 0).
Proof.
  destruct (two_u z0 z1 (fun_args fx) {| dr_linear := false; dr_wells := None; dr_ext := None; dr_spec := None; dr_fun := Some [fx] |})
    as (u & HC & HD & Ho & HR).
  { intros o _. reflexivity. }
  destruct (two_fields_u _ _ _ _ _ _ _ _ Ho) as (Hc & Hn & Hct & Hex & Hpi & Hvg & Hval & Horig & H0 & H1 & Hs & Ha & Hsep & HG).
  set (q := one_point x y "vectorized").
  assert (HT : drift_terms u q [] = fun_terms u).
  { unfold drift_terms, linear_terms, well_terms, ext_terms, spec_terms. rewrite HD. reflexivity. }
  assert (Hd : o_dim (u_obj u) = 2%nat) by (unfold o_dim; rewrite Hc; reflexivity).
  assert (HF : forall i, F_of (drift_terms u q []) 0%nat i = coord 0 (frame (u_obj u) (datum (u_obj u) i))).
  { intros i. rewrite HT. unfold fun_terms. rewrite HD. reflexivity. }
  assert (HL : exists l, locate (o_dim (u_obj u)) "points" [[x]; [y]] None = Ok l).
  { rewrite Hd. cbn. eauto. }
  destruct HL as [l HL].
  destruct (u_succeeds true None u q [] l []) as [_ HX]; try assumption; try reflexivity.
  - intros K. rewrite HD in K. contradiction.
  - apply u21_nonsingular; [exact Hn|rewrite HT; unfold fun_terms; rewrite HD; reflexivity|].
    rewrite !HF, H0, H1, !frame_id by (assumption || reflexivity). cbn. lra.
  - unfold spec_grids. rewrite HD. reflexivity.
  - destruct HX as [r Hr]; [reflexivity|rewrite HD; reflexivity|].
    exists u, r. split.
    { split; [reflexivity|]. exists u. split; [exact HC|reflexivity]. }
    split; [exact Hc|]. split; [exact Hpi|]. split; [exact Hex|]. split; [exact Hn|]. split; [exact Ho|]. split; [exact HT|].
    split; [rewrite HD; reflexivity|]. split.
    + split; [apply wit_env_ok|]. split; [exact HR|]. exists false. exact Hr.
    + apply one_point_shown_u, Hc.
Qed.

(** *** C26: specified drift *)
Definition three_points (b : string) : query :=
  {| q_style := "points"; q_pts := [[0; 1; 2]; [5; 5; 5]]; q_int := [false; false]; q_mask := None; q_backend := b; q_window := None |}.
Lemma ex_specified_disagree : exists E u specs r r',
  env_ok E /\ ureachable E u /\
  execute_uk E u (three_points "vectorized") specs = Ok (r, false) /\
  execute_uk E u (three_points "loop") specs = Ok (r', false) /\
  (forall i, (i < o_n (u_obj u))%nat -> exists ds, dr_spec (u_drift u) = Some [ds] /\ o_values (u_obj u) i = ds i) /\
  specs = [Spec1 3 (rnth [0; 1; 2])] /\
  r_value r 0 = Some 0 /\ r_value r' 0 = Some 2 /\ o_pinv (u_obj u) = false.
Proof.
  set (d := {| dr_linear := false; dr_wells := None; dr_ext := None; dr_spec := Some [rnth [0; 3]]; dr_fun := None |}).
  destruct (two_u 0 3 (spec_args [0; 3]) d) as (u & HC & HD & Ho & HR).
  { intros o Ho. destruct (two_fields_u _ _ _ _ _ _ _ _ Ho) as (_ & Hn & _). unfold init_drift, init_specified, spec_args. cbn. rewrite Hn. reflexivity. }
  destruct (two_fields_u _ _ _ _ _ _ _ _ Ho) as (Hc & Hn & Hct & Hex & Hpi & Hvg & Hval & Horig & H0 & H1 & Hs & Ha & Hsep & HG).
  assert (HI := ureachable_inv _ _ HR).
  assert (Hd : o_dim (u_obj u) = 2%nat) by (unfold o_dim; rewrite Hc; reflexivity).
  assert (HT : forall q f, drift_terms u q [Spec1 3 f] = [{| t_data := rnth [0; 3]; t_query := fun p _ => f p |}]).
  { intros q f. unfold drift_terms, linear_terms, well_terms, ext_terms, spec_terms, fun_terms. rewrite HD. reflexivity. }
  assert (HSF : forall f, specs_fit u [Spec1 3 f]) by (intros f; unfold specs_fit; rewrite HD; reflexivity).
  assert (HGr : forall f, spec_grids u "points" [[0; 1; 2]; [5; 5; 5]] [Spec1 3 f] = Ok [f]).
  { intros f. unfold spec_grids. rewrite HD. reflexivity. }
  assert (HL : exists l, locate (o_dim (u_obj u)) "points" [[0; 1; 2]; [5; 5; 5]] None = Ok l /\ l_npt l = 3%nat).
  { rewrite Hd. cbn. eauto. }
  destruct HL as (l & HL & Hnpt).
  assert (HV : forall f b, (exists B, invert wit_la false (o_pinv_type (u_obj u)) (uk_size u) (UM u) = Ok B) /\
     (b = "vectorized"%string -> exists r, execute_uk WE u (three_points b) [Spec1 3 f] = Ok (r, false))).
  { intros f b. destruct (u_succeeds true None u (three_points b) [Spec1 3 f] l [f]) as [K1 K2]; try assumption; try reflexivity.
    - apply HSF.
    - apply u21_nonsingular; [exact Hn|rewrite HT; reflexivity|]. rewrite HT. cbn. lra.
    - apply HGr.
    - split; [exact K1|]. intros ->. apply K2; [reflexivity|rewrite HD; reflexivity]. }
  set (f := rnth [0; 1; 2]).
  destruct (HV f "vectorized"%string) as [(B & HB) HE]. destruct (HE eq_refl) as [r Hr].
  destruct (HV (fun _ => 2) "vectorized"%string) as [_ HE2]. destruct (HE2 eq_refl) as [r2 Hr2].
  destruct (u_loop WE u (three_points "loop") [Spec1 3 f] l [f] B HI eq_refl eq_refl HL (HGr f) eq_refl) as [HLoop _].
  { rewrite Hpi. exact HB. }
  destruct HLoop as [r' Hr'].
  { intros p pos wx wy s _ Hin. rewrite HD in Hin. destruct Hin. }
  { intros p pos _ arr ex ey zs HX. rewrite HD in HX. discriminate. }
  { right. unfold spec_row. rewrite HD, Hn, Hnpt. cbn. lia. }
  assert (HSh : forall b, shown (u_obj u) (three_points b) 0 (0, 5, 0)).
  { intros b. unfold shown. rewrite Hd. split.
    - apply (cell_point 2 (three_points b) 0 eq_refl). cbn. lia.
    - intros H. inversion H; discriminate. }
  assert (HRep : forall g rr, execute_uk WE u (three_points "vectorized") [Spec1 3 g] = Ok (rr, false) -> r_value rr 0 = Some (g 0%nat)).
  { intros g rr Hrr. rewrite (uk_reproduces WE u (three_points "vectorized") [Spec1 3 g] rr 0 (0, 5, 0) 0 [1]).
    - rewrite HT. cbn. f_equal. ring.
    - split; [apply wit_env_ok|]. split; [exact HR|]. exists false. exact Hrr.
    - apply HSh.
    - left. exact Hpi.
    - left. reflexivity.
    - intros i _. rewrite HT, Hval. cbn. ring. }
  exists WE, u, [Spec1 3 f], r, r'. split; [apply wit_env_ok|]. split; [exact HR|]. split; [exact Hr|]. split; [exact Hr'|].
  split; [intros i _; exists (rnth [0; 3]); rewrite HD, Hval; split; reflexivity|]. split; [reflexivity|]. split; [exact (HRep f r Hr)|].
  split; [|exact Hpi].
  rewrite <- (HRep (fun _ => 2) r2 Hr2).
  destruct (execute_uk_call WE u _ _ _ _ HI Hr') as (_ & l1 & g1 & a1 & C1).
  destruct (execute_uk_call WE u _ _ _ _ HI Hr2) as (_ & l2 & g2 & a2 & C2).
  destruct (HSh "loop"%string) as [Q1 Q2]. destruct (uc_cell _ _ _ _ _ _ _ _ C1 0%nat _ Q1 Q2) as (_ & -> & _).
  destruct (HSh "vectorized"%string) as [Q3 Q4]. destruct (uc_cell _ _ _ _ _ _ _ _ C2 0%nat _ Q3 Q4) as (_ & -> & _).
  pose proof (uc_inv _ _ _ _ _ _ _ _ C1) as I1. pose proof (uc_inv _ _ _ _ _ _ _ _ C2) as I2.
  assert (a2 = a1) as -> by congruence.
  pose proof (uc_specs _ _ _ _ _ _ _ _ C1) as S1. cbn [three_points q_style q_pts] in S1. rewrite HGr in S1. injection S1 as <-.
  unfold urhs, used_specs. cbn [three_points q_backend String.eqb Ascii.eqb Bool.eqb loop_specs map].
  assert (spec_row u = 2%nat) as -> by (unfold spec_row; rewrite HD, Hn; reflexivity). reflexivity.
Qed.

(** *** C26: at a well the loop raises TypeError (general), the vectorized backend does not *)
Theorem uk_loop_at_well E u q specs r w p pos wx wy s : ureachable E u -> dr_ext (u_drift u) = None -> dr_spec (u_drift u) = None ->
  execute_uk E u (with_backend q "vectorized") specs = Ok (r, w) -> shown (u_obj u) q p pos ->
  In (wx, wy, s) (opt_list (dr_wells (u_drift u))) -> plane_dist (frame (u_obj u) pos) wx wy = 0 ->
  execute_uk E u (with_backend q "loop") specs = Err TypeError.
Proof.
  intros HR HX HS HV HSh Hin HW. pose proof (ureachable_inv E u HR) as HI.
  destruct (execute_uk_call E u _ specs r w HI HV) as (_ & l & gs & a & [C1 C2 C3 C4 C5 C6 C7 C8 C9]).
  cbn [with_backend q_style q_pts q_mask q_int q_backend] in *.
  destruct (u_loop E u (with_backend q "loop") specs l gs a HI C1 eq_refl C2 C3 C4 C5) as [_ K].
  apply (K p pos wx wy s HX).
  - destruct (spec_grids_ok u q specs gs C3) as [(_ & ->)|(ds & ED & _)]; [reflexivity|congruence].
  - apply shown_with_backend, HSh.
  - exact Hin.
  - exact HW.
Qed.

Lemma wells_two o x y : construct WE UK2 (two_args 1 0 0 3 true false) = Ok o ->
  init_drift UK2 (well_args x y) o = Ok {| dr_linear := false; dr_wells := Some [(x, y, -1)]; dr_ext := None; dr_spec := None; dr_fun := None |}.
Proof.
  intros Ho. destruct (two_fields_u _ _ _ _ _ _ _ _ Ho) as (_ & _ & _ & _ & _ & _ & _ & _ & _ & _ & Hs & Ha & _).
  unfold init_drift, init_wells, well_args. cbn -[adjust_for_anisotropy]. rewrite Hs, Ha.
  match goal with |- context [adjust_for_anisotropy false 2 ?X ?c ?sc ?an] =>
    destruct (adjust_supported 2 X c sc an (or_introl eq_refl)) as [Y HY]; rewrite HY;
    destruct (adjust2_explicit _ _ _ _ _ HY 0%nat) as [E0 E1] end.
  cbn -[cos sin]. cbn in E0, E1. rewrite rad_0, cos_0, sin_0 in E0, E1. rewrite E0, E1. repeat f_equal; ring.
Qed.

Lemma ex_well_disagree : exists E u q r p pos wx wy s,
  env_ok E /\ ureachable E u /\ dr_ext (u_drift u) = None /\ dr_spec (u_drift u) = None /\
  execute_uk E u (with_backend q "vectorized") [] = Ok (r, false) /\ shown (u_obj u) q p pos /\
  In (wx, wy, s) (opt_list (dr_wells (u_drift u))) /\ plane_dist (frame (u_obj u) pos) wx wy = 0.
Proof.
  destruct (two_u 0 3 (well_args 3 0) _ (fun o => wells_two o 3 0)) as (u & HC & HD & Ho & HR).
  destruct (two_fields_u _ _ _ _ _ _ _ _ Ho) as (Hc & Hn & Hct & Hex & Hpi & Hvg & Hval & Horig & H0 & H1 & Hs & Ha & Hsep & HG).
  assert (Hd : o_dim (u_obj u) = 2%nat) by (unfold o_dim; rewrite Hc; reflexivity).
  set (q := one_point 3 0 "vectorized").
  assert (HT : drift_terms u q [] = [spatial (u_obj u) (fun p => - -1 * logd (plane_dist (frame (u_obj u) p) 3 0))]).
  { unfold drift_terms, linear_terms, well_terms, ext_terms, spec_terms, fun_terms. rewrite HD. reflexivity. }
  assert (HL : exists l, locate (o_dim (u_obj u)) "points" [[3]; [0]] None = Ok l) by (rewrite Hd; cbn; eauto).
  destruct HL as [l HL].
  destruct (u_succeeds true None u q [] l []) as [_ HX]; try assumption; try reflexivity.
  - intros K. rewrite HD in K. contradiction.
  - apply u21_nonsingular; [exact Hn|rewrite HT; reflexivity|]. rewrite HT.
    unfold F_of. cbn [nth spatial t_data]. rewrite H0, H1, !frame_id by (assumption || reflexivity).
    assert (P1 : plane_dist (0, 0, 0) 3 0 = 3).
    { unfold plane_dist, coord. cbn [fst snd]. replace ((0 - 3)² + (0 - 0)²) with (3 * 3) by (unfold Rsqr; ring). apply sqrt_square. lra. }
    assert (P2 : plane_dist (3, 4, 0) 3 0 = 4).
    { unfold plane_dist, coord. cbn [fst snd]. replace ((3 - 3)² + (4 - 0)²) with (4 * 4) by (unfold Rsqr; ring). apply sqrt_square. lra. }
    rewrite P1, P2. unfold logd. rewrite !(proj2 (Reqb_false _ _)) by lra.
    intros K. assert (L : ln 3 < ln 4) by (apply ln_increasing; lra). lra.
  - unfold spec_grids. rewrite HD. reflexivity.
  - destruct HX as [r Hr]; [reflexivity|rewrite HD; reflexivity|].
    exists WE, u, q, r, 0%nat, (3, 0, 0), 3, 0, (-1). split; [apply wit_env_ok|]. split; [exact HR|].
    split; [rewrite HD; reflexivity|]. split; [rewrite HD; reflexivity|]. split; [exact Hr|].
    split; [apply one_point_shown_u, Hc|]. split; [rewrite HD; left; reflexivity|].
    rewrite frame_id by (assumption || reflexivity). unfold plane_dist, coord. cbn [fst snd].
    replace ((3 - 3)² + (0 - 0)²) with 0 by (unfold Rsqr; ring). apply sqrt_0.
Qed.

(** *** C26: external drift and masks *)
Definition xarr : mat := fun _ i => match i with 0%nat => 0 | _ => 3 end.
Lemma asc2 a b : a < b -> ascending [a; b].
Proof. intros H i j Hij Hj. cbn in Hj. destruct i as [|[|i]], j as [|[|j]]; try lia. exact H. Qed.
Lemma xarr_at x y v : zscalar xarr [0; 3] [0; 4] x y = Ok v -> v = x.
Proof.
  intros H. rewrite (zscalar_reproduces xarr [0; 3] [0; 4] x y 0 1 0 0 v); try assumption; try (cbn; lia); try (apply asc2; lra).
  - ring.
  - intros i j Hi Hj. cbn in Hi. destruct i as [|[|i]]; [| |lia]; cbn; ring.
Qed.
Lemma xarr_ok x y : 0 <= x <= 3 -> 0 <= y <= 4 -> zscalar xarr [0; 3] [0; 4] x y = Ok x.
Proof.
  intros Hx Hy. destruct (zscalar_accepts xarr [0; 3] [0; 4] x y) as [(v & H) _].
  - split; (split; [exists 0; cbn; split; [auto|lra]|]); [exists 3|exists 4]; cbn; split; auto; lra.
  - rewrite H. f_equal. apply (xarr_at x y v H).
Qed.

Definition masked_query (b : string) : query :=
  {| q_style := "masked"; q_pts := [[1; 10]; [1]]; q_int := [false; false];
     q_mask := Some (Mask2 1 2 (fun _ j => Nat.eqb j 1)); q_backend := b; q_window := None |}.

Lemma ex_masked_external : exists E u r,
  env_ok E /\ ureachable E u /\
  execute_uk E u (masked_query "vectorized") [] = Err ValueError /\
  execute_uk E u (masked_query "loop") [] = Ok (r, false) /\
  r_value r 0 <> None /\ r_value r 1 = None /\ o_pinv (u_obj u) = false.
Proof.
  destruct (two_construct_u true None 1 0 0 3 true) as [o Ho].
  assert (HID : exists zs, init_drift UK2 (ext_args xarr) o = Ok {| dr_linear := false; dr_wells := None; dr_ext := Some (xarr, [0; 3], [0; 4], zs); dr_spec := None; dr_fun := None |}).
  { destruct (two_fields_u _ _ _ _ _ _ _ _ Ho) as (Hc & Hn & _ & _ & _ & _ & _ & Horig & _).
    unfold init_drift, init_external, ext_args. cbn -[zscalars].
    destruct (zscalars xarr [0; 3] [0; 4] (o_n o) (fun i => o_orig o i 0%nat) (fun i => o_orig o i 1%nat)) as [zs|e] eqn:EZ.
    - exists zs. cbn. reflexivity.
    - exfalso. destruct (zscalars_err _ _ _ _ _ _ _ EZ) as (_ & j & Hj & HZ). rewrite Hn in Hj. rewrite Horig in HZ.
      unfold columns in HZ. cbn [nth] in HZ.
      destruct j as [|[|j]]; [| |lia]; cbn [rnth nth] in HZ; rewrite xarr_ok in HZ by (cbn; lra); discriminate. }
  destruct HID as [zs HID].
  set (u := {| u_obj := o; u_drift := {| dr_linear := false; dr_wells := None; dr_ext := Some (xarr, [0; 3], [0; 4], zs); dr_spec := None; dr_fun := None |} |}).
  assert (HC : construct_uk WE UK2 (two_args 1 0 0 3 true false) (ext_args xarr) = Ok u).
  { unfold construct_uk. rewrite Ho. cbn [bind]. rewrite HID. reflexivity. }
  assert (HR : ureachable WE u) by exact (ur_new WE UK2 (two_args 1 0 0 3 true false) (ext_args xarr) u (or_introl eq_refl) eq_refl HC).
  change o with (u_obj u) in Ho.
  destruct (two_fields_u _ _ _ _ _ _ _ _ Ho) as (Hc & Hn & Hct & Hex & Hpi & Hvg & Hval & Horig & H0 & H1 & Hs & Ha & Hsep & HG).
  assert (Hd : o_dim (u_obj u) = 2%nat) by (unfold o_dim; rewrite Hc; reflexivity).
  assert (HI := ureachable_inv _ _ HR).
  assert (HT : forall q, drift_terms u q [] = [spatial (u_obj u) (ext_at xarr [0; 3] [0; 4])]) by reflexivity.
  assert (HGr : spec_grids u "masked" [[1; 10]; [1]] [] = Ok []) by reflexivity.
  assert (HLo : exists l, locate (o_dim (u_obj u)) "masked" [[1; 10]; [1]] (Some (Mask2 1 2 (fun _ j => Nat.eqb j 1))) = Ok l /\ l_npt l = 2%nat /\ l_at l 1%nat 0%nat = 10 /\ l_mask l 1%nat = true).
  { rewrite Hd. cbn. eexists. split; [reflexivity|]. cbn. auto. }
  destruct HLo as (l & HL & Hnpt & H10 & HM1).
  assert (HInv : exists B, invert wit_la false (o_pinv_type (u_obj u)) (uk_size u) (UM u) = Ok B).
  { destruct (u_succeeds true None u (masked_query "loop") [] l []) as [K _]; try assumption; try reflexivity.
    - intros K. contradiction.
    - apply u21_nonsingular; [exact Hn|rewrite HT; reflexivity|]. rewrite HT. unfold F_of. cbn [nth spatial t_data].
      rewrite H0, H1. unfold ext_at, coord. cbn [fst snd]. rewrite !xarr_ok by lra. lra. }
  destruct HInv as [B HB].
  destruct (u_loop WE u (masked_query "loop") [] l [] B HI eq_refl eq_refl HL HGr eq_refl) as [HLoop _].
  { rewrite Hpi. exact HB. }
  assert (HSh : forall p pos, shown (u_obj u) (masked_query "loop") p pos -> p = 0%nat /\ pos = (1, 1, 0)).
  { intros p pos [HCell HNH]. rewrite Hd in HCell, HNH. inversion HCell as [p0 Hst|i j Hst H2 Hi Hj|]; subst; try discriminate.
    cbn in Hi, Hj. destruct i as [|i]; [|lia]. destruct j as [|[|j]]; [|exfalso|lia]; [split; reflexivity|].
    apply HNH. apply (hidden2 2 (masked_query "loop") 0 1 (Mask2 1 2 (fun _ j => Nat.eqb j 1))); try reflexivity; cbn; lia. }
  destruct HLoop as [r Hr].
  { intros p pos wx wy s _ []. }
  { intros p pos H arr ex ey z0 HX. destruct (HSh p pos H) as [-> ->]. injection HX as <- <- <- _. exists 1. apply xarr_ok; cbn; lra. }
  { left. reflexivity. }
  exists WE, u, r. split; [apply wit_env_ok|]. split; [exact HR|]. split; [|split; [exact Hr|]].
  - unfold execute_uk. cbv zeta. cbn [masked_query q_style in_names existsb String.eqb Ascii.eqb Bool.eqb orb negb]. rewrite UM_eq. cbn [bind].
    change (match o_dim (u_obj u) with 2%nat => locate2 | _ => locate3 end) with (locate (o_dim (u_obj u))).
    cbn [masked_query q_pts q_mask]. rewrite HL. cbn [bind]. rewrite HGr. cbn [bind].
    assert (HA : exists pts, adjust_query (u_obj u) [false; false] (l_at l) = Ok pts).
    { unfold adjust_query. rewrite (ui_ct u HI). cbn [forallb andb]. apply adjust_supported, o_dim_cases. }
    destruct HA as [pts HA]. change (q_int (masked_query "vectorized")) with [false; false]. rewrite HA. cbn [bind masked_query q_backend String.eqb Ascii.eqb Bool.eqb].
    pose proof (spec_grids_length u (masked_query "vectorized") [] [] HGr) as Hgs.
    pose proof (uk_exec_vector_spec (e_la WE) u (l_npt l) (UM u) (query_distances (u_obj u) pts)
      (query_array (o_dim (u_obj u)) pts) (l_at l) [] Hgs) as HV. cbv zeta in HV.
    change (o_n (u_obj u) + List.length (data_cols u) + 1)%nat with (uk_size u) in HV. rewrite Hpi in HV.
    change (e_la WE) with wit_la in HV. rewrite HB in HV. 
    destruct (ext_values (u_drift u) (l_npt l) (l_at l)) as [zv|e] eqn:EZ.
    + exfalso. change (zscalars xarr [0; 3] [0; 4] (l_npt l) (fun p => l_at l p 0%nat) (fun p => l_at l p 1%nat) = Ok zv) in EZ.
      pose proof (zscalars_ok _ _ _ _ _ _ _ EZ 1%nat ltac:(lia)) as K. cbv beta in K. rewrite H10 in K.
      destruct (zscalar_accepts xarr [0; 3] [0; 4] 10 (l_at l 1%nat 1%nat)) as [_ Q]. rewrite Q in K; [discriminate|].
      intros [[_ (b & Hb & Hb')] _]. cbn in Hb. destruct Hb as [<-|[<-|[]]]; lra.
    + change (e_la WE) with wit_la. rewrite HV. cbn [bind].
      change (zscalars xarr [0; 3] [0; 4] (l_npt l) (fun p => l_at l p 0%nat) (fun p => l_at l p 1%nat) = Err e) in EZ.
      destruct (zscalars_err _ _ _ _ _ _ _ EZ) as [-> _]. reflexivity.
  - destruct (execute_uk_call WE u _ _ _ _ HI Hr) as (_ & l1 & g1 & a1 & C1). split.
    + assert (HCell : cell (o_dim (u_obj u)) (masked_query "loop") 0 (1, 1, 0)).
      { rewrite Hd. apply (cell_grid2 2 (masked_query "loop") 0 0); auto; cbn; lia. }
      destruct (uc_cell _ _ _ _ _ _ _ _ C1 0%nat (1, 1, 0) HCell) as (_ & -> & _); [|discriminate].
      rewrite Hd. intros H. remember 2%nat as d2 eqn:E2. remember 0%nat as z0 eqn:E0. revert E0.
      destruct H as [i j m Hst H2 Hm Hi Hj HM|k i j m Hst H3 Hm Hk Hi Hj HM]; [|lia]. intros H5.
      injection Hm as <-. cbn in HM, H5, Hi, Hj. destruct i; [|lia]. destruct j as [|[|j]]; [cbn in HM; discriminate|lia|lia].
    + split; [|exact Hpi]. apply (uc_masked _ _ _ _ _ _ _ _ C1 eq_refl 1%nat).
      pose proof (uc_locate _ _ _ _ _ _ _ _ C1) as L1. cbn [masked_query q_style q_pts q_mask] in L1. assert (l1 = l) as -> by congruence. exact HM1.
Qed.

(** *** C28 is false for descending coordinates *)
Lemma ex_descending : exists arr ex ey v, descending ex /\ ascending ey /\
  zscalar arr ex ey (rnth ex 1) (rnth ey 0) = Ok v /\ v <> arr 0%nat 1%nat.
Proof.
  set (arr := (fun _ i => match i with 1%nat => 1 | _ => 0 end) : mat).
  exists arr, [2; 1; 0], [0; 1], 0. split; [|split; [apply asc2; lra|split]].
  - intros i j Hij Hj. cbn in Hj. destruct i as [|[|[|i]]], j as [|[|[|j]]]; try lia; cbn; lra.
  - destruct (zscalar_accepts arr [2; 1; 0] [0; 1] (rnth [2; 1; 0] 1) (rnth [0; 1] 0)) as [(v & H) _].
    + cbn. split; (split; [exists 0; cbn; split; [auto|lra]|]); [exists 2|exists 1]; cbn; split; auto; lra.
    + rewrite H. f_equal. revert H. unfold zscalar. cbn [rnth nth].
      destruct (amax_gen Rops [2; 1; 0]); [|discriminate]. destruct (amin_gen Rops [2; 1; 0]); [|discriminate].
      destruct (amax_gen Rops [0; 1]); [|discriminate]. destruct (amin_gen Rops [0; 1]); [|discriminate].
      destruct (_ || _); [discriminate|].
      assert (first_where (fun g => Rleb 1 g) [2; 1; 0] = Ok 0%nat) as ->.
      { apply first_where_ok. split; [cbn; lia|]. split; [apply Rleb_true; cbn; lra|intros j Hj; lia]. }
      assert (last_where (fun g => Rleb g 1) [2; 1; 0] = Ok 2%nat) as ->.
      { apply last_where_ok. split; [cbn; lia|]. split; [apply Rleb_true; cbn; lra|intros j Hj; cbn in Hj; lia]. }
      assert (first_where (fun g => Rleb 0 g) [0; 1] = Ok 0%nat) as ->.
      { apply first_where_ok. split; [cbn; lia|]. split; [apply Rleb_true; cbn; lra|intros j Hj; lia]. }
      assert (last_where (fun g => Rleb g 0) [0; 1] = Ok 0%nat) as ->.
      { apply last_where_ok. split; [cbn; lia|]. split; [apply Rleb_true; cbn; lra|]. intros j Hj. cbn in Hj. destruct j as [|[|j]]; try lia. apply Rleb_false. cbn. lra. }
      cbn. intros [= <-]. field.
  - cbn. lra.
Qed.
