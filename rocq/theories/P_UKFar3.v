(** C79 for universal kriging: an example. *)
From Coq Require Import String ClassicalEpsilon.
From Verif Require Import Base Sums Matrix M_Variogram P_Variogram M_Geometry S_Geometry P_Geometry M_Kriging S_Kriging
  P_Kriging P_OKSpec M_Init M_Object M_Execute S_Execute P_Object P_Execute P_Cells P_Window P_WindowExec P_Master P_Det P_OK
  P_Similar P_Data Witness M_UK S_UK P_UK P_UK2 P_UK3 P_UK4 P_UK5 P_UK6 P_UK7 Witness3 S_Bilinear P_Bilinear P_UK8 S_Line P_Far2 P_UKFar.

Lemma ex_uk_continuous : exists E u q r pos, urun E u q [] r /\ shown (u_obj u) q 0 pos /\ uregular u q [] /\ dr_spec (u_drift u) = None /\
  o_exact (u_obj u) = true /\ away (u_obj u) pos /\ o_n (u_obj u) = 2%nat /\
  (forall i, (i < o_n (u_obj u))%nat -> continuous_at (o_vg (u_obj u)) (separation (u_obj u) pos (datum (u_obj u) i))) /\
  drift_continuous u pos /\ opt_list (dr_wells (u_drift u)) <> [].
Proof.
  destruct (two_u 0 3 (well_args 3 0) _ (fun o => wells_two o 3 0)) as (u & HC & HD & Ho & HR).
  destruct (two_fields_u _ _ _ _ _ _ _ _ Ho) as (Hc & Hn & Hct & Hex & Hpi & Hvg & Hval & Horig & H0 & H1 & Hs & Ha & Hsep & HG).
  assert (Hd : o_dim (u_obj u) = 2%nat) by (unfold o_dim; rewrite Hc; reflexivity).
  set (q := one_point 3 (-4) "vectorized").
  assert (HT : drift_terms u q [] = [spatial (u_obj u) (fun p => - -1 * logd (plane_dist (frame (u_obj u) p) 3 0))]).
  { unfold drift_terms, linear_terms, well_terms, ext_terms, spec_terms, fun_terms. rewrite HD. reflexivity. }
  assert (HL : exists l, locate (o_dim (u_obj u)) "points" [[3]; [-4]] None = Ok l) by (rewrite Hd; cbn; eauto).
  destruct HL as [l HL].
  destruct (u_succeeds true None u q [] l []) as [_ HX]; try assumption; try reflexivity.
  - intros K. rewrite HD in K. contradiction.
  - apply u21_nonsingular; [exact Hn|rewrite HT; reflexivity|]. rewrite HT.
    unfold F_of. cbn [nth spatial t_data]. rewrite H0, H1, !frame_id by (assumption || reflexivity).
    assert (P1 : plane_dist (0, 0, 0) 3 0 = 3).
    { unfold plane_dist, coord. cbn [fst snd]. replace ((0 - 3)² + (0 - 0)²) with (3 * 3) by (unfold Rsqr; ring). apply sqrt_square. lra. }
    assert (P2 : plane_dist (3, 4, 0) 3 0 = 4).
    { unfold plane_dist, coord. cbn [fst snd]. replace ((3 - 3)² + (4 - 0)²) with (4 * 4) by (unfold Rsqr; ring). apply sqrt_square. lra. }
    rewrite P1, P2. unfold logd. rewrite !(proj2 (Reqb_false _ _)) by lra.
    intros K. assert (L : ln 3 < ln 4) by (apply ln_increasing; lra). lra.
  - unfold spec_grids. rewrite HD. reflexivity.
  - destruct HX as [r Hr]; [reflexivity|rewrite HD; reflexivity|].
    assert (S0 : separation (u_obj u) (3, -4, 0) (datum (u_obj u) 0%nat) = 5).
    { rewrite Hsep, H0. unfold lon, lat. cbn [fst snd]. replace ((3 - 0)² + (-4 - 0)²) with (5 * 5) by (unfold Rsqr; ring). apply sqrt_square. lra. }
    assert (S1 : separation (u_obj u) (3, -4, 0) (datum (u_obj u) 1%nat) = 8).
    { rewrite Hsep, H1. unfold lon, lat. cbn [fst snd]. replace ((3 - 3)² + (-4 - 4)²) with (8 * 8) by (unfold Rsqr; ring). apply sqrt_square. lra. }
    exists WE, u, q, r, (3, -4, 0). split; [split; [apply wit_env_ok|split; [exact HR|exists false; exact Hr]]|].
    split; [apply one_point_shown_u, Hc|]. split; [left; exact Hpi|]. split; [rewrite HD; reflexivity|]. split; [exact Hex|].
    split; [intros i Hi; rewrite Hn in Hi; destruct i as [|[|i]]; [rewrite S0|rewrite S1|lia]; unfold eps; lra|].
    split; [exact Hn|]. split; [|split].
    + intros i _ e He. exists e. split; [exact He|]. intros x Hx. rewrite !Hvg.
      match goal with |- Rabs (1 * x + 0 - (1 * ?d + 0)) < _ => replace (1 * x + 0 - (1 * d + 0)) with (x - d) by ring end. exact Hx.
    + unfold drift_continuous. rewrite HD. cbn [dr_wells dr_ext dr_fun opt_list].
      split; [|split; [discriminate|intros f []]]. intros wx wy s [[= <- <- <-]|[]]. rewrite !frame_id by (assumption || reflexivity).
      unfold plane_dist, coord. cbn [fst snd]. apply sqrt_lt_R0. unfold Rsqr. lra.
    + rewrite HD. discriminate.
Qed.
