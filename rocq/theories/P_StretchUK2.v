(** C76 for universal kriging: a concrete case. *)
From Coq Require Import String ClassicalEpsilon.
From Verif Require Import Base Sums Matrix M_Variogram P_Variogram M_Geometry S_Geometry P_Geometry M_Kriging S_Kriging
  P_Kriging P_OKSpec M_Init M_Object M_Execute S_Execute P_Object P_Execute P_Cells P_Window P_WindowExec P_Master P_Det P_OK
  P_Similar P_Data Witness M_UK S_UK S_UK2 P_UK P_UK2 P_UK3 P_UK4 P_UK5 P_UK6 P_UK7 Witness3 P_UK8 P_UK12 S_State S_Amplify P_UK15 P_UK17
  S_Stretch P_Stats2 P_Stats4 P_StretchUK.

(** two data, anisotropy scaling 2 at 90 degrees *)
Definition slant : vargs :=
  {| a_model := VName "linear"; a_params := PList [1; 0]; a_fun := FNone;
     a_nlags := 6; a_weight := false; a_scaling := (fun _ => 2); a_angle := (fun _ => 90) |}.
Definition slant_args : cargs := with_v (pair_args 0 0 3 4 1 0 5 7) slant.

Lemma slant_90 x y : stretch UK2 slant (x, y, 0) = (y, -2 * x, 0).
Proof. exact (stretch_90 slant x y eq_refl eq_refl). Qed.

Lemma slant_construct : exists o, construct WE UK2 slant_args = Ok o.
Proof.
  unfold construct. cbn -[adjust_for_anisotropy all_statistics initialize_variogram_model].
  match goal with |- context [adjust_for_anisotropy false 2 ?X ?c ?s ?a] =>
    destruct (adjust_supported 2 X c s a (or_introl eq_refl)) as [Y HY]; rewrite HY end.
  cbn [bind].
  destruct (initialize_explicit (e_fit WE) Euclidean 2 2 Y (rnth [5; 7]) "linear" f_linear [1; 0] 6 false)
    as (lags & sv & Hi); try reflexivity.
  cbn [wit_env e_fit] in Hi. rewrite Hi. cbn [bind].
  match goal with |- context [all_statistics _ ?a ?b 2 ?X ?y ?v false] => destruct (stats_two true None a b X y v) as [s Hs] end.
  cbn [wit_env e_la] in Hs. rewrite Hs. cbn [bind]. eauto.
Qed.

Lemma slant_fields o : construct WE UK2 slant_args = Ok o ->
  o_class o = UK2 /\ o_n o = 2%nat /\ o_pinv o = false /\ datum o 0%nat = (0, 0, 0) /\ datum o 1%nat = (3, 4, 0) /\
  o_scaling o = a_scaling slant /\ o_angle o = a_angle slant.
Proof.
  intros H.
  destruct (construct_inv WE UK2 _ o H) as (ex & name & prm & fn & sc & an & f & vp & lags & sv & params & Hall).
  destruct Hall as (_&Hex&Hgs&Hf&Hmp&_&Hini&_&Hc&Hpi&_&Hexo&_&Hfo&Hpo&Hn&Horig&Hval&_&_&_&_&Hct).
  cbn in Hex, Hgs, Hn, Horig, Hval, Hpi. injection Hex as <-. injection Hgs as <- <- <- <- <-.
  destruct Hct as [(_ & Hct & _ & Hs & Ha & _)|(Hg & _)]; [|discriminate].
  assert (Hdim : o_dim o = 2%nat) by (unfold o_dim; rewrite Hc; reflexivity).
  assert (Hd0 : datum o 0%nat = (0, 0, 0)) by (unfold datum, loc; rewrite Hdim, Horig; reflexivity).
  assert (Hd1 : datum o 1%nat = (3, 4, 0)) by (unfold datum, loc; rewrite Hdim, Horig; reflexivity).
  repeat (split; [first [assumption|reflexivity]|]). exact Ha.
Qed.

Lemma slant_u : exists u, ubuilt WE UK2 slant_args (fun_args fx) [] u /\ construct WE UK2 slant_args = Ok (u_obj u) /\
  construct_uk WE UK2 slant_args (fun_args fx) = Ok u /\ u_drift u = one_drift fx /\
  forall q l, q_backend q = "vectorized"%string -> bad_style (q_style q) = false ->
    locate 2 (q_style q) (q_pts q) (q_mask q) = Ok l -> forallb (fun b => b) (q_int q) = false ->
    exists r, urun WE u q [] r.
Proof.
  destruct slant_construct as [o Ho]. set (u := {| u_obj := o; u_drift := one_drift fx |}).
  assert (HC : construct_uk WE UK2 slant_args (fun_args fx) = Ok u).
  { unfold construct_uk. rewrite Ho. reflexivity. }
  assert (HR : ureachable WE u) by exact (ur_new WE UK2 slant_args (fun_args fx) _ (or_introl eq_refl) eq_refl HC).
  destruct (slant_fields _ Ho) as (Hc & Hn & Hpi & H0 & H1 & Hs & Ha).
  assert (Hd : o_dim o = 2%nat) by (unfold o_dim; rewrite Hc; reflexivity).
  exists u. split; [split; [reflexivity|]; exists u; split; [exact HC|reflexivity]|]. split; [exact Ho|]. split; [exact HC|]. split; [reflexivity|].
  intros q l HB HS HL HQ.
  destruct (u_succeeds true None u q [] l []) as [_ HX]; try assumption; try reflexivity.
  - intros K. contradiction.
  - apply u21_nonsingular; [exact Hn|reflexivity|].
    change (coord 0 (frame o (datum o 0)) <> coord 0 (frame o (datum o 1))).
    rewrite H0, H1, !(frame_stretch UK2 slant o) by assumption. rewrite !coord_add.
    rewrite (slant_90 0 0), (slant_90 3 4). cbn [coord fst snd]. intros K. lra.
  - cbn. rewrite Hd. exact HL.
  - destruct HX as [r Hr]; [exact HB|reflexivity|]. exists r. split; [apply wit_env_ok|]. split; [exact HR|]. exists false. exact Hr.
Qed.

Theorem ex_uk_stretch : exists E A coords D fs u u' q q' r r',
  construct_uk E UK2 A D = Ok u /\ construct_uk E UK2 (relocated A coords) (carry (stretch UK2 (c_v A)) fs D) = Ok u' /\
  List.length (c_coords A) = 2%nat /\ List.length coords = 2%nat /\ a_model (c_v A) = VName "linear" /\
  (forall i, (i < List.length (c_values A))%nat -> input UK2 (relocated A coords) i = stretch UK2 (c_v A) (input UK2 A i)) /\
  asked D "external_Z" = false /\
  Forall2 (fun h h' => forall x, fun_at u' h' (stretch UK2 (c_v A) x) = fun_at u h x) (opt_list (d_fun D)) fs /\
  urun E u q [] r /\ urun E u' q' [] r' /\ faithful_specs u q /\ faithful_specs u' q' /\
  shown (u_obj u) q 0 (1, 2, 0) /\ shown (u_obj u') q' 0 (stretch UK2 (c_v A) (1, 2, 0)) /\ uregular u q [] /\ specs_agree u q q' [] [] 0 0 /\
  a_scaling (c_v A) 0%nat = 2 /\ a_angle (c_v A) 0%nat = 90 /\ d_fun D <> None /\ fs <> [].
Proof.
  destruct slant_u as (u & HB & Ho & HC & HD & HX). destruct (slant_fields _ Ho) as (Hc & Hn & Hpi & H0 & H1 & Hs & Ha).
  set (t0 := coord 0 (add3 (center3 (u_obj u)) (opp3 (stretch UK2 slant (center3 (u_obj u)))))).
  destruct (pair_u 0 (-2 * 0) 4 (-2 * 3) 1 0 5 7 (fun x _ _ => x + t0)) as (u' & HB' & Ho' & HC' & HD' & HX'); [intros K; lra|].
  destruct (pair_fields _ _ _ _ _ _ _ _ _ Ho') as (Hc' & Hn' & Hpi' & H0' & H1' & Hs' & Ha').
  assert (HP : forall (w : uobj) x y, (forall q l, q_backend q = "vectorized"%string -> bad_style (q_style q) = false ->
      locate 2 (q_style q) (q_pts q) (q_mask q) = Ok l -> forallb (fun b => b) (q_int q) = false ->
      exists r, urun WE w q [] r) -> exists r, urun WE w (one_point x y "vectorized") [] r) by (intros w x y K; apply pair_point; exact K).
  destruct (HP u 1 2 HX) as [r Hr]. destruct (HP u' 2 (-2 * 1) HX') as [r' Hr'].
  exists WE, slant_args, [[0; 4]; [-2 * 0; -2 * 3]], (fun_args fx), [fun x _ _ => x + t0], u, u', (one_point 1 2 "vectorized"), (one_point 2 (-2 * 1) "vectorized"), r, r'.
  split; [exact HC|]. split; [exact HC'|]. split; [reflexivity|]. split; [reflexivity|]. split; [reflexivity|].
  split.
  { intros i Hi. cbn in Hi. destruct i as [|[|i]]; [| |lia]; unfold input; cbn [loc cdim Nat.eqb c_coords relocated with_v with_data slant_args pair_args nth]; unfold rnth, loc; cbn [nth cdim Nat.eqb];
      symmetry; apply slant_90. }
  split; [reflexivity|]. split.
  { constructor; [|constructor]. intros x. unfold fun_at. change (c_v slant_args) with slant.
    rewrite (frame_stretch UK2 slant (u_obj u) x) by assumption. rewrite frame_plain; [|exact Hs'|exact Ha'|intros _; apply stretch_plane; reflexivity].
    cbv beta zeta. unfold fx. rewrite coord_add. reflexivity. }
  split; [exact Hr|]. split; [exact Hr'|]. split; [right; rewrite HD; reflexivity|]. split; [exact (pair_faithful _ _ _ HD')|].
  split; [apply one_point_shown_u, Hc|].
  change (c_v slant_args) with slant. rewrite (slant_90 1 2).
  split; [apply one_point_shown_u, Hc'|].
  split; [left; exact Hpi|]. split; [apply spec_none; rewrite HD; reflexivity|].
  split; [reflexivity|]. split; [reflexivity|]. split; [discriminate|discriminate].
Qed.
