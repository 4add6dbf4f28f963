(** Proofs: the weights do not depend on the data values. *)
From Coq Require Import String Permutation.
From Verif Require Import Base Sums Matrix M_Variogram P_Variogram M_Geometry S_Geometry P_Geometry M_Kriging S_Kriging
  P_Kriging P_OKSpec M_Init M_Object M_Execute S_Execute P_Object P_Execute P_Cells P_Window P_WindowExec P_Master P_Det P_OK P_Similar P_Binning P_Data.

Definition set_values (o : obj) (z : vec) : obj :=
  {| o_class := o_class o; o_pinv := o_pinv o; o_pinv_type := o_pinv_type o; o_exact := o_exact o;
     o_ct := o_ct o; o_model := o_model o; o_fun := o_fun o; o_params := o_params o;
     o_n := o_n o; o_orig := o_orig o; o_values := z;
     o_center := o_center o; o_scaling := o_scaling o; o_angle := o_angle o; o_adj := o_adj o;
     o_lags := o_lags o; o_semivariance := o_semivariance o; o_stats := o_stats o;
     o_verbose := o_verbose o; o_plotting := o_plotting o |}.
(** same geometry and variogram, possibly other values *)
Definition geo (o o' : obj) : Prop := agree (set_values o (o_values o')) o'.

Lemma cell_linear E o q r p pos : run E o q r -> shown o q p pos ->
  exists m sel w s, uses o q pos m sel /\ (well_posed o q pos -> bsum m w = 1) /\
    (q_window q = None -> exists P, is_pinv (o_n o + 1) (get_kriging_matrix o) P /\
       w = mulv (o_n o + 1) P (rhs_spec (o_n o) (g_of o pos))) /\
    forall o' q' r' p', run E o' q' r' -> geo o o' -> q_window q' = q_window q -> shown o' q' p' pos ->
      o_exact o' = o_exact o ->
      r_value r' p' = Some (bsum m (fun a => w a * o_values o' (sel a))) /\ r_variance r' p' = Some s.
Proof.
  intros HR HS. pose proof HS as [C Hh].
  destruct (run_inv _ _ _ _ HR) as (HE & Hinv & Hord & HF & H).
  destruct (q_window q) as [k|] eqn:HW.
  - destruct (window_value E o q k r p pos HE Hinv Hord HF HW H C Hh)
      as (Hk & l & pts & v & s & HL & HA & Hv & Hs & HN & HReg & HEs).
    set (sel := snd (neighbours E o pts k p)) in *.
    destruct HEs as (w & mu & HSy & -> & ->).
    exists k, sel, w, (bsum k (fun a => w a * g_of o pos (sel a)) + mu).
    split; [unfold uses; rewrite HW; auto|]. split; [intros _; apply HSy|]. split; [discriminate|].
    intros o' q' r' p' HR' Ag HW' [C' Hh'] Hex.
    destruct (run_inv _ _ _ _ HR') as (_ & Hinv' & Hord' & HF' & H').
    destruct (window_value E o' q' k r' p' pos HE Hinv' Hord' HF' HW' H' C' Hh')
      as (_ & l' & pts' & v' & s' & HL' & HA' & -> & -> & HN' & HReg' & HEs').
    assert (Hd : o_dim o' = o_dim o) by (unfold o_dim; rewrite (ag_class _ _ Ag); reflexivity).
    rewrite Hd in *.
    assert (Hrow : pts p = pts' p').
    { apply (adjust_query_row (set_values o (o_values o')) o' (q_int q) (q_int q') (l_at l) (l_at l') pts pts' p p' Ag HA HA').
      rewrite (locate_row _ q l p pos (o_dim_cases o) HL C), (locate_row _ q' l' p' pos (o_dim_cases o) HL' C'). reflexivity. }
    rewrite <- (agree_neighbours E (set_values o (o_values o')) o' pts pts' k p p' Ag Hrow) in HReg', HEs', HN'.
    change (neighbours E (set_values o (o_values o')) pts k p) with (neighbours E o pts k p) in *. fold sel in HReg', HEs', HN'.
    unfold local_estimate, local_regular in *. rewrite (agree_G _ o' Ag) in *. rewrite (agree_g _ o' pos Ag Hex) in HEs'.
    change (G_of (set_values o (o_values o'))) with (G_of o) in *. change (g_of (set_values o (o_values o')) pos) with (g_of o pos) in *.
    destruct (regular_unique' k (fun a b => G_of o (sel a) (sel b)) (fun a => g_of o pos (sel a)) (fun a => o_values o' (sel a)) v' s'
       (bsum k (fun a => w a * o_values o' (sel a))) (bsum k (fun a => w a * g_of o pos (sel a)) + mu) HReg' HEs') as [-> ->]; [|auto].
    exists w, mu. auto.
  - destruct (execute_ok_ref E o q r Hinv Hord HF HW H) as (r1 & HRf & Hsh & Heq).
    pose proof HE as (HL & _).
    destruct (ref_value E o q r1 p pos HRf C Hh) as (a & HI & _ & _).
    pose proof HI as HI0. apply (invert_is_pinv _ _ _ _ _ _ HL) in HI.
    set (n := o_n o) in *. set (b := rhs_spec n (g_of o pos)).
    exists n, (fun a => a), (mulv (n + 1) a b), (point_variance n a b).
    split; [unfold uses; rewrite HW; auto|].
    split.
    + intros HWP.
      assert (HQ : exists r1', ref E (set_values o (fun _ => 1)) q = Ok r1').
      { revert HRf. unfold ref. cbn [o_pinv o_pinv_type o_n set_values]. unfold o_dim. cbn [o_class set_values].
        change (get_kriging_matrix (set_values o (fun _ => 1))) with (get_kriging_matrix o).
        change (adjust_query (set_values o (fun _ => 1))) with (adjust_query o).
        intros HRf. destruct (locate _ _ _ _); cbn [bind] in *; [|discriminate].
        destruct (adjust_query _ _ _); cbn [bind] in *; [|discriminate].
        destruct (invert _ _ _ _ _); cbn [bind] in *; [|discriminate]. eauto. }
      destruct HQ as [r1' HQ].
      destruct (ref_cell E (set_values o (fun _ => 1)) q r1' p pos HL Hinv HQ C) as [_ (l & Hl & Hc)].
      destruct (ref_value E (set_values o (fun _ => 1)) q r1' p pos HQ C Hh) as (a2 & HI2 & Hv2 & _).
      cbn [o_pinv o_pinv_type o_n set_values] in HI2.
      change (get_kriging_matrix (set_values o (fun _ => 1))) with (get_kriging_matrix o) in HI2.
      fold n in HI2. assert (a2 = a) by congruence. subst a2.
      cbn [o_n o_values set_values] in Hv2. change (g_of (set_values o (fun _ => 1)) pos) with (g_of o pos) in Hv2. fold n b in Hv2.
      rewrite Hv2 in Hc. destruct (String.eqb (q_style q) "masked" && l_mask l p); [destruct Hc; discriminate|].
      destruct Hc as (v & s & Hv & _ & HEs).
      assert (Hpre : o_pinv (set_values o (fun _ => 1)) = false \/ solvable (set_values o (fun _ => 1)) pos).
      { destruct HWP as [Hp|[Hp|Hp]]; [left; exact Hp|contradiction|right; exact Hp]. }
      specialize (HEs Hpre). apply est_constant in HEs. subst v. injection Hv as Hv.
      rewrite <- Hv. unfold point_value. apply bsum_ext; intros; ring.
    + split; [intros _; exists a; split; [exact HI|reflexivity]|].
      intros o' q' r' p' HR' Ag HW' [C' Hh'] Hex.
      destruct (run_inv _ _ _ _ HR') as (_ & Hinv' & Hord' & HF' & H').
      destruct (execute_ok_ref E o' q' r' Hinv' Hord' HF' HW' H') as (r1' & HRf' & Hsh' & Heq').
      destruct (ref_cell E o' q' r1' p' pos HL Hinv' HRf' C') as [Hp' _]. rewrite <- Hsh' in Hp'. destruct (Heq' p' Hp') as [-> ->].
      destruct (ref_value E o' q' r1' p' pos HRf' C' Hh') as (a' & HI' & -> & ->).
      apply (invert_is_pinv _ _ _ _ _ _ HL) in HI'.
      rewrite (agree_g _ o' pos Ag Hex). change (g_of (set_values o (o_values o')) pos) with (g_of o pos).
      pose proof (ag_n _ _ Ag) as Hn. cbn [o_n set_values] in Hn. fold n in Hn.
      assert (Ha : meq (n + 1) a' a).
      { unfold get_kriging_matrix, data_distances, o_vg, o_dim in HI'.
        rewrite (ag_n _ _ Ag), (ag_fun _ _ Ag), (ag_params _ _ Ag), (ag_ct _ _ Ag),
          (ag_class _ _ Ag), (ag_adj _ _ Ag) in HI'. apply (pinv_unique _ _ _ _ HI' HI). }
      rewrite Hn. fold b.
      assert (Hx : forall i, (i < n + 1)%nat -> mulv (n + 1) a' b i = mulv (n + 1) a b i).
      { intros i Hi. unfold mulv. apply bsum_ext; intros j Hj. rewrite Ha by assumption. reflexivity. }
      unfold point_value, point_variance. split; f_equal; apply bsum_ext; intros i Hi; rewrite Hx by lia; reflexivity.
Qed.

(** *** Histories with explicit variogram parameters *)
Lemma amax_none O l l' : List.length l = List.length l' -> (amax_gen O l = None <-> amax_gen O l' = None).
Proof. destruct l, l'; cbn; intros H; try discriminate; split; intros; congruence. Qed.
Lemma amin_none O l l' : List.length l = List.length l' -> (amin_gen O l = None <-> amin_gen O l' = None).
Proof. destruct l, l'; cbn; intros H; try discriminate; split; intros; congruence. Qed.

Lemma experimental_same_success nlags (dg dg' : list (R * R)) : List.length dg = List.length dg' ->
  match experimental_gen Rops nlags dg, experimental_gen Rops nlags dg' with
  | Ok _, Ok _ => True | Err e, Err e' => e = e' | _, _ => False end.
Proof.
  intros H. unfold experimental_gen.
  assert (HL : List.length (map (@fst R R) dg) = List.length (map (@fst R R) dg')) by (rewrite !map_length; exact H).
  pose proof (amax_none Rops _ _ HL) as A. pose proof (amin_none Rops _ _ HL) as B. cbn [num Rops] in *.
  destruct (amax_gen Rops (map fst dg)), (amax_gen Rops (map fst dg')), (amin_gen Rops (map fst dg)), (amin_gen Rops (map fst dg'));
    try reflexivity; try exact I; exfalso;
    repeat match goal with H : (_ = None <-> _ = None) |- _ => destruct H end;
    try (match goal with H : Some _ = None -> _ |- _ => idtac end); intuition congruence.
Qed.

Lemma initialize_explicit_values fit ct ndim n X m y y' name p f nlags w :
  match initialize_variogram_model fit ct ndim n X m y name (Some p) f nlags w,
        initialize_variogram_model fit ct ndim n X m y' name (Some p) f nlags w with
  | Ok (_, _, a), Ok (_, _, b) => a = b
  | Err e, Err e' => e = e' | _, _ => False end.
Proof.
  assert (HX : match experimental_variogram ct ndim n nlags X y, experimental_variogram ct ndim n nlags X y' with
     | Ok _, Ok _ => True | Err e, Err e' => e = e' | _, _ => False end).
  { apply experimental_same_success. unfold pair_data. rewrite !map_length. reflexivity. }
  unfold initialize_variogram_model.
  destruct ct; [|destruct (Nat.eqb ndim 2); [|reflexivity]];
  (destruct (negb (Nat.eqb m n)); [repeat (match goal with |- context [if ?b then _ else _] => destruct b end); reflexivity|]);
  destruct (experimental_variogram _ ndim n nlags X y), (experimental_variogram _ ndim n nlags X y'); try contradiction; cbn [bind];
  try exact HX;
  (destruct (_ && _)%bool; [reflexivity|]); (destruct (_ && _)%bool; reflexivity).
Qed.

Lemma make_explicit name prm vp : prm <> PNone -> make_parameter_list name prm = Ok vp -> exists p, vp = Some p.
Proof.
  intros H. unfold make_parameter_list. destruct prm; [contradiction| | |discriminate];
  repeat match goal with |- (if ?b then _ else _) = _ -> _ => destruct b end; intros HH; try discriminate; injection HH as <-; eauto.
Qed.
Lemma resolve_explicit E c ct v name prm fn sc an : explicit_params v -> resolve_gs E c ct v = Ok (name, prm, fn, sc, an) -> prm <> PNone.
Proof.
  intros He H. unfold resolve_gs in H. destruct (a_model v) as [s|m] eqn:Em.
  - injection H as _ <- _ _ _. destruct He as [He|(m & He)]; [exact He|congruence].
  - bindok H. bindok H. injection H as _ <- _ _ _. discriminate.
Qed.

Lemma update_geo E o o' v : explicit_params v -> geo o o' ->
  geo (fst (update_variogram_model E o v)) (fst (update_variogram_model E o' v)).
Proof.
  intros Hex H. unfold geo, update_variogram_model, o_dim. cbn -[adjust_for_anisotropy initialize_variogram_model all_statistics resolve_gs aniso_differs].
  destruct H as [Hc Ht Hf Hp Hn Ho Hv He Hs Ha Had]. cbn [o_class o_ct o_fun o_params o_n o_orig o_values o_center o_scaling o_angle o_adj set_values] in *. rewrite Hc, Ht.
  destruct (resolve_gs E (o_class o) (ct_name (o_ct o)) v) as [[[[[name prm] fn] sc] an]|e] eqn:ER; [|constructor; assumption || reflexivity].
  pose proof (resolve_explicit _ _ _ _ _ _ _ _ _ Hex ER) as Hpr.
  destruct (resolve_fun name fn) as [f|e]; [|constructor; assumption || reflexivity].
  rewrite Hs, Ha, Ho, He.
  assert (HI : forall ct' adj p, 
    match initialize_variogram_model (e_fit E) ct' (cdim (o_class o)) (o_n o) adj (o_n o) (o_values o) name (Some p) f (a_nlags v) (a_weight v),
        initialize_variogram_model (e_fit E) ct' (cdim (o_class o)) (o_n o) adj (o_n o) (o_values o') name (Some p) f (a_nlags v) (a_weight v) with
    | Ok (_, _, a), Ok (_, _, b) => a = b | Err e, Err e' => e = e' | _, _ => False end)
   by (intros; apply initialize_explicit_values).
  destruct (aniso_differs _ _ _ _ _).
  - destruct (o_ct o) eqn:Ect.
    + destruct (adjust_for_anisotropy _ _ _ _ _ _) as [adj|e].
      * destruct (make_parameter_list name prm) as [vp|e] eqn:EM; [|constructor; cbn; congruence].
        destruct (make_explicit _ _ _ Hpr EM) as [p0 ->].
        cbn -[initialize_variogram_model all_statistics]. rewrite Ht, Hn, Ect. specialize (HI Euclidean adj p0).
        destruct (initialize_variogram_model _ _ _ _ _ _ (o_values o) _ _ _ _ _) as [[[lags sv] params]|e],
                 (initialize_variogram_model _ _ _ _ _ _ (o_values o') _ _ _ _ _) as [[[lags' sv'] params']|e']; try contradiction; [|constructor; cbn; congruence].
        cbn -[all_statistics].
        destruct (all_statistics (e_la E) _ _ _ _ (o_values o) _ (o_pinv o)), (all_statistics (e_la E) _ _ _ _ (o_values o') _ (o_pinv o'));
          constructor; cbn; congruence.
      * constructor; cbn; congruence.
    + destruct (make_parameter_list name prm) as [vp|e] eqn:EM; [|constructor; cbn; congruence].
      destruct (make_explicit _ _ _ Hpr EM) as [p0 ->].
      cbn -[initialize_variogram_model all_statistics]. rewrite Ht, Hn, Ect. specialize (HI Geographic (o_orig o) p0).
      destruct (initialize_variogram_model _ _ _ _ _ _ (o_values o) _ _ _ _ _) as [[[lags sv] params]|e],
                 (initialize_variogram_model _ _ _ _ _ _ (o_values o') _ _ _ _ _) as [[[lags' sv'] params']|e']; try contradiction; [|constructor; cbn; congruence].
      cbn -[all_statistics].
      destruct (all_statistics (e_la E) _ _ _ _ (o_values o) _ (o_pinv o)), (all_statistics (e_la E) _ _ _ _ (o_values o') _ (o_pinv o'));
        constructor; cbn; congruence.
  - destruct (make_parameter_list name prm) as [vp|e] eqn:EM; [|constructor; cbn; congruence].
    destruct (make_explicit _ _ _ Hpr EM) as [p0 ->].
    cbn -[initialize_variogram_model all_statistics]. rewrite Ht, Hn, Had. specialize (HI (o_ct o) (o_adj o) p0).
    destruct (initialize_variogram_model _ _ _ _ _ _ (o_values o) _ _ _ _ _) as [[[lags sv] params]|e],
                 (initialize_variogram_model _ _ _ _ _ _ (o_values o') _ _ _ _ _) as [[[lags' sv'] params']|e']; try contradiction; [|constructor; cbn; congruence].
    cbn -[all_statistics].
    destruct (all_statistics (e_la E) _ _ _ _ (o_values o) _ (o_pinv o)), (all_statistics (e_la E) _ _ _ _ (o_values o') _ (o_pinv o'));
      constructor; cbn; congruence.
Qed.

Lemma construct_geo E c A A' o o' : construct E c A = Ok o -> construct E c A' = Ok o' -> explicit_params (c_v A) ->
  c_coords A' = c_coords A -> c_v A' = c_v A -> c_ct A' = c_ct A -> geo o o'.
Proof.
  intros H H' Hexp Hco Hv Hct.
  destruct (construct_inv E c A o H) as (ex & name & prm & fn & sc & an & f & vp & lags & sv & params & Hall).
  destruct Hall as (_&_&Hgs&Hf&Hmp&_&Hini&_&Hc&_&_&_&_&Hfo&Hpo&Hn&Ho&Hvo&_&_&_&_&Ha).
  destruct (construct_inv E c A' o' H') as (ex' & name' & prm' & fn' & sc' & an' & f' & vp' & lags' & sv' & params' & Hall').
  destruct Hall' as (_&_&Hgs'&Hf'&Hmp'&_&Hini'&_&Hc'&_&_&_&_&Hfo'&Hpo'&Hn'&Ho'&Hvo'&_&_&_&_&Ha').
  rewrite Hco in *. rewrite Hv, Hct in *.
  rewrite Hgs in Hgs'. injection Hgs' as <- <- <- <- <-.
  rewrite Hf in Hf'. injection Hf' as <-. rewrite Hmp in Hmp'. injection Hmp' as <-.
  assert (HX : o_ct o' = o_ct o /\ o_center o' = o_center o /\ o_scaling o' = o_scaling o /\ o_angle o' = o_angle o /\ o_adj o' = o_adj o).
  { destruct Ha as [(Hx & Ht & (cs & Hm & Hce) & Hs & Hag & Had)|(Hx & _ & Ht & Hce & Hs & Hag & Had)];
    destruct Ha' as [(Hx' & Ht' & (cs' & Hm' & Hce') & Hs' & Hag' & Had')|(Hx' & _ & Ht' & Hce' & Hs' & Hag' & Had')]; try congruence.
    - rewrite Hm in Hm'. injection Hm' as <-. repeat split; congruence.
    - repeat split; congruence. }
  destruct HX as (X1 & X2 & X3 & X4 & X5).
  destruct (make_explicit _ _ _ (resolve_explicit _ _ _ _ _ _ _ _ _ Hexp Hgs) Hmp) as [p0 ->].
  pose proof (initialize_length _ _ _ _ _ _ _ _ _ _ _ _ _ Hini) as L1.
  pose proof (initialize_length _ _ _ _ _ _ _ _ _ _ _ _ _ Hini') as L2.
  rewrite L1 in Hini. rewrite L2 in Hini'. rewrite X1, X5, Hn', <- Hn in Hini'.
  pose proof (initialize_explicit_values (e_fit E) (o_ct o) (cdim c) (o_n o) (o_adj o) (o_n o) (rnth (c_values A)) (rnth (c_values A')) name p0 f
    (a_nlags (c_v A)) (a_weight (c_v A))) as HI. rewrite Hini, Hini' in HI.
  constructor; cbn [o_class o_ct o_fun o_params o_n o_orig o_values o_center o_scaling o_angle o_adj set_values]; congruence.
Qed.

Lemma built_geo E c A A' us o o' : built E c A us o -> built E c A' us o' ->
  (forall v, In v (c_v A :: us) -> explicit_params v) ->
  c_coords A' = c_coords A -> c_v A' = c_v A -> c_ct A' = c_ct A -> geo o o'.
Proof.
  intros (_ & o0 & H & ->) (_ & o0' & H' & ->) Hex Hco Hv Hct.
  assert (HA := construct_geo E c A A' o0 o0' H H' (Hex _ (or_introl eq_refl)) Hco Hv Hct).
  assert (Hex' : forall v, In v us -> explicit_params v) by (intros; apply Hex; right; assumption).
  clear - HA Hex'. unfold after_updates. revert o0 o0' HA. induction us as [|v us IH]; intros; cbn [fold_left]; [exact HA|].
  apply IH; [intros; apply Hex'; right; assumption|]. apply update_geo; [apply Hex'; left; reflexivity|exact HA].
Qed.

Lemma built_values E c A us o : built E c A us o -> o_values o = rnth (c_values A) /\ o_n o = List.length (c_values A) /\
  o_n o = List.length (nth 0 (c_coords A) []).
Proof.
  intros (_ & o0 & H & ->). destruct (after_updates_fixed E us o0) as (_ & _ & _ & _ & _ & -> & _ & -> & _).
  destruct (construct_inv E c A o0 H) as (ex & name & prm & fn & sc & an & f & vp & lags & sv & params & Hall).
  destruct Hall as (_&_&_&_&_&_&Hini&_&_&_&_&_&_&_&_&Hn&_&Hvo&_).
  split; [exact Hvo|]. split; [|exact Hn]. symmetry. apply (initialize_length _ _ _ _ _ _ _ _ _ _ _ _ _ Hini).
Qed.
