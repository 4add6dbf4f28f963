(** C85: the warnings of the kriging classes. *)
From Coq Require Import String.
From Verif Require Import Base Sums Matrix M_Variogram M_Geometry S_Geometry M_Kriging S_Kriging M_Init M_Object M_Execute S_Execute P_Object
  M_UK S_UK P_UK3 P_UK4 S_State S_Stretch M_Warn S_Warn.
From Verif Require Import P_UK P_UK2 P_UK6.

Lemma class_ct_other c ct : c <> OK2 -> class_ct c ct = "euclidean"%string.
Proof. destruct c; [contradiction| | |]; reflexivity. Qed.

Lemma reqb1 (x y : R) : Reqb x y = true <-> x = y.
Proof. unfold Reqb. destruct (Req_EM_T x y); split; congruence. Qed.
Lemma nreqb1 (x y : R) : negb (Reqb x y) = true <-> x <> y.
Proof. rewrite negb_true_iff. unfold Reqb. destruct (Req_EM_T x y); split; congruence. Qed.

Theorem construct_warned E c A o : construct E c A = Ok o ->
  construct_warns E c A = true <-> o_ct o = Geographic /\ asked_scaling c (c_v A) 0%nat <> 1.
Proof.
  intros H. destruct (construct_inv E c A o H) as (ex & nm & prm & fn & sc & an & f & vp & lags & sv & params & Hall).
  destruct Hall as (HT&HX1&Hgs&Hf&Hmp&_&Hini&_&_&HP1&_&HE1&_&Hfo&Hpo&_&_&_&HLa&HSv&_&_&Ha).
  assert (HS : sc = asked_scaling c (c_v A)).
  { unfold resolve_gs in Hgs. unfold asked_scaling. destruct (a_model (c_v A)) as [s|m]; [injection Hgs; congruence|].
    bindok Hgs. bindok Hgs. injection Hgs; congruence. }
  unfold construct_warns. rewrite HT, HX1, Hgs. cbn [negb bind]. rewrite Hf. cbn [bind]. rewrite HS, andb_true_iff, nreqb1, String.eqb_eq.
  destruct Ha as [(-> & -> & _)|(-> & _ & -> & _)]; split; intros [K1 K2]; split; try assumption; try reflexivity; discriminate.
Qed.

(** in geographic coordinates the anisotropy arguments do not matter *)
Theorem construct_ignored E A : c_ct A = "geographic"%string ->
  construct E OK2 (with_v A (without_anisotropy (c_v A))) = construct E OK2 A.
Proof.
  intros HG. unfold construct. cbn [c_v c_ct c_pinv_type c_exact c_coords c_values c_pinv c_stat c_verbose c_plotting with_v].
  destruct (negb _); [reflexivity|]. destruct (c_exact A) as [x|]; [|reflexivity]. unfold class_ct. rewrite HG.
  unfold resolve_gs. destruct A as [co va v ve pl st ct ex pi pt]. cbn [c_v] in *. destruct v as [mo pa fu nl we sc an].
  cbn [a_model a_params a_fun a_nlags a_weight a_scaling a_angle without_anisotropy]. destruct mo as [s|m].
  - cbn [bind]. destruct (resolve_fun s fu); reflexivity.
  - reflexivity.
Qed.

Theorem update_warned E o v : reachable E o -> snd (update_variogram_model E o v) = None ->
  update_warns E o v = true <-> o_ct o = Geographic /\ asked_scaling (o_class o) v 0%nat <> 1.
Proof.
  intros HR HU. pose proof (reachable_inv E o HR) as HI. unfold update_variogram_model in HU. unfold update_warns.
  destruct (resolve_gs E (o_class o) (ct_name (o_ct o)) v) as [[[[[nm prm] fn] sc] an]|e] eqn:Hgs.
  2:{ change (o_ct (set_model o (a_model v))) with (o_ct o) in HU. rewrite Hgs in HU. discriminate HU. }
  assert (HS : sc = asked_scaling (o_class o) v).
  { unfold resolve_gs in Hgs. unfold asked_scaling. destruct (a_model v) as [s|m]; [injection Hgs; congruence|].
    bindok Hgs. bindok Hgs. injection Hgs; congruence. }
  change (o_ct (set_model o (a_model v))) with (o_ct o) in HU. rewrite Hgs in HU. cbv zeta in HU. cbn [bind].
  destruct (resolve_fun nm fn) as [f|e]; [|discriminate HU]. cbn [bind]. clear HU. rewrite HS, !andb_true_iff, nreqb1.
  destruct (o_ct o) eqn:Hct.
  - split; intros K; [destruct K as [[_ K] _]|destruct K as [K _]]; discriminate K.
  - unfold coords_inv in HI. rewrite Hct in HI. destruct HI as (_ & Hc & _ & Hs & Ha). split.
    + intros [_ K]. split; [reflexivity|exact K].
    + intros [_ K]. split; [|exact K]. split; [|reflexivity]. unfold o_dim. rewrite Hc. cbn [cdim aniso_differs]. rewrite Hs.
      apply orb_true_iff. left. apply nreqb1. rewrite <- Hc. exact K.
Qed.

Theorem update_ignored E o v : reachable E o -> o_ct o = Geographic ->
  update_variogram_model E o (without_anisotropy v) = update_variogram_model E o v.
Proof.
  intros HR Hct. pose proof (reachable_inv E o HR) as HI. unfold coords_inv in HI. rewrite Hct in HI. destruct HI as (Hadj & Hc & _ & Hs & Ha).
  destruct v as [mo pa fu nl we sc an]. unfold update_variogram_model, resolve_gs.
  cbn [a_model a_params a_fun a_nlags a_weight a_scaling a_angle without_anisotropy]. destruct mo as [s|m]; [|reflexivity].
  cbn [bind]. destruct (resolve_fun s fu) as [f|e]; [|reflexivity]. cbv zeta.
  set (o1 := set_fun (set_model (set_model o (VName s)) (VName s)) f).
  assert (HO : set_aniso o1 (fun _ => 1) (fun _ => 0) (o_orig o1) = o1).
  { unfold o1. destruct o. cbn in Hadj, Hs, Ha |- *. unfold set_aniso. cbn. rewrite Hadj, Hs, Ha. reflexivity. }
  assert (Hct1 : o_ct o1 = Geographic) by exact Hct. rewrite Hct1, HO.
  assert (HB : forall b : bool, (if b then (o1, @None exn) else (o1, None)) = (o1, None)) by (intros []; reflexivity).
  rewrite !HB. reflexivity.
Qed.

Theorem unneeded_iff E u q specs r w : ureachable E u -> execute_uk E u q specs = Ok (r, w) ->
  w = false /\ (unneeded_warns u q specs = true <-> dr_spec (u_drift u) = None /\ specs <> []) /\
  (dr_spec (u_drift u) = None -> execute_uk E u q [] = Ok (r, w)).
Proof.
  intros HR HX. split; [exact (uk_no_warning E u q specs r w HR HX)|]. split.
  - unfold execute_uk in HX. unfold unneeded_warns. destruct (negb _); [discriminate|].
    destruct (uk_matrix u) as [[a wa]|e]; [|discriminate]. cbn [bind] in *.
    destruct (match o_dim (u_obj u) with 2%nat => locate2 | _ => locate3 end (q_style q) (q_pts q) (q_mask q)) as [l|e]; [|discriminate]. cbn [bind] in *. clear HX.
    destruct (dr_spec (u_drift u)), specs; split; try discriminate; try (intros [? ?]; congruence); auto; intros _; split; [reflexivity|discriminate].
  - intros HD. rewrite <- HX. unfold execute_uk, spec_grids. rewrite HD. reflexivity.
Qed.

Theorem ignored_always E u q specs : dr_spec (u_drift u) = None -> execute_uk E u q specs = execute_uk E u q [].
Proof. intros HD. unfold execute_uk, spec_grids. rewrite HD. reflexivity. Qed.
