(** Proofs: universal kriging without drift terms is ordinary kriging. *)
From Coq Require Import String.
From Verif Require Import Base Sums Matrix M_Variogram P_Variogram M_Geometry S_Geometry P_Geometry M_Kriging S_Kriging
  P_Kriging P_OKSpec M_Init M_Object M_Execute S_Execute P_Object P_Execute P_Cells P_Window P_WindowExec P_Master P_Det P_OK
  P_Similar P_Data M_UK S_UK P_UK P_UK2 P_UK3 P_UK4 P_UK5 P_UK6.

Record twin (o o' : obj) : Prop := {
  tw_class : counterparts (o_class o) (o_class o');
  tw_ct : o_ct o = Euclidean; tw_ct' : o_ct o' = Euclidean;
  tw_fun : o_fun o' = o_fun o; tw_params : o_params o' = o_params o;
  tw_n : o_n o' = o_n o; tw_orig : o_orig o' = o_orig o; tw_values : o_values o' = o_values o;
  tw_center : o_center o' = o_center o; tw_scaling : o_scaling o' = o_scaling o; tw_angle : o_angle o' = o_angle o;
  tw_adj : o_adj o' = o_adj o; tw_exact : o_exact o' = o_exact o; tw_pinv : o_pinv o' = o_pinv o;
  tw_pinv_type : o_pinv_type o' = o_pinv_type o }.

Lemma counterparts_dim c c' : counterparts c c' -> cdim c' = cdim c.
Proof. intros [[-> ->]|[-> ->]]; reflexivity. Qed.
Lemma counterparts_gs E c c' ct v : counterparts c c' -> ct = "euclidean"%string -> resolve_gs E c' ct v = resolve_gs E c ct v.
Proof.
  intros H ->. unfold resolve_gs. destruct (a_model v) as [s|m]; [reflexivity|].
  destruct (validate_gstools E m); [|reflexivity]. cbn [bind].
  destruct H as [[-> ->]|[-> ->]]; [|reflexivity]. cbn [String.eqb Ascii.eqb Bool.eqb]. rewrite andb_true_r. reflexivity.
Qed.

Lemma update_twin E o o' v : twin o o' ->
  twin (fst (update_variogram_model E o v)) (fst (update_variogram_model E o' v)) /\
  snd (update_variogram_model E o' v) = snd (update_variogram_model E o v).
Proof.
  intros H. unfold update_variogram_model, o_dim. cbn -[adjust_for_anisotropy initialize_variogram_model all_statistics resolve_gs aniso_differs].
  destruct H as [Hc Ht Ht' Hf Hp Hn Ho Hv He Hs Ha Had Hex Hpi Hpt]. rewrite (counterparts_dim _ _ Hc), Ht, Ht'.
  rewrite (counterparts_gs E _ _ (ct_name Euclidean) v Hc eq_refl).
  destruct (resolve_gs E (o_class o) (ct_name Euclidean) v) as [[[[[name prm] fn] sc] an]|e]; [|split; [constructor; assumption|reflexivity]].
  destruct (resolve_fun name fn) as [f|e]; [|split; [constructor; assumption|reflexivity]].
  rewrite Hs, Ha, Ho, He.
  destruct (aniso_differs _ _ _ _ _).
  - destruct (adjust_for_anisotropy _ _ _ _ _ _) as [adj|e].
      * destruct (make_parameter_list name prm) as [vp|e]; [|split; [constructor; cbn; congruence|reflexivity]].
        cbn -[initialize_variogram_model all_statistics]. rewrite Ht, Ht', Hn, Hv.
        destruct (initialize_variogram_model _ _ _ _ _ _ _ _ _ _ _ _) as [[[lags sv] params]|e]; [|split; [constructor; cbn; congruence|reflexivity]].
        cbn -[all_statistics]. unfold o_vg. cbn -[all_statistics]. rewrite Hpi.
        destruct (all_statistics (e_la E) _ _ _ _ _ _ (o_pinv o)); split; try reflexivity; constructor; cbn; congruence.
      * split; [constructor; cbn; congruence|reflexivity].
  - destruct (make_parameter_list name prm) as [vp|e]; [|split; [constructor; cbn; congruence|reflexivity]].
    cbn -[initialize_variogram_model all_statistics]. rewrite Ht, Ht', Hn, Hv, Had.
    destruct (initialize_variogram_model _ _ _ _ _ _ _ _ _ _ _ _) as [[[lags sv] params]|e]; [|split; [constructor; cbn; congruence|reflexivity]].
    cbn -[all_statistics]. unfold o_vg. cbn -[all_statistics]. rewrite Hpi.
    destruct (all_statistics (e_la E) _ _ _ _ _ _ (o_pinv o)); split; try reflexivity; constructor; cbn; congruence.
Qed.

Lemma construct_twin E c c' A o o' : counterparts c c' -> (c = OK2 -> c_ct A = "euclidean"%string) ->
  construct E c A = Ok o -> construct E c' A = Ok o' -> twin o o'.
Proof.
  intros HC Hct H H'.
  assert (HT : class_ct c (c_ct A) = "euclidean"%string) by (destruct HC as [[-> _]|[-> _]]; cbn; auto).
  assert (HT' : class_ct c' (c_ct A) = "euclidean"%string) by (destruct HC as [[_ ->]|[_ ->]]; cbn; auto).
  destruct (construct_inv E c A o H) as (ex & name & prm & fn & sc & an & f & vp & lags & sv & params & Hall).
  destruct Hall as (_&Hx&Hgs&Hf&Hmp&_&Hini&_&Hc&Hpi&Hpt&Hxo&_&Hfo&Hpo&Hn&Ho&Hvo&_&_&_&_&Ha).
  destruct (construct_inv E c' A o' H') as (ex' & name' & prm' & fn' & sc' & an' & f' & vp' & lags' & sv' & params' & Hall').
  destruct Hall' as (_&Hx'&Hgs'&Hf'&Hmp'&_&Hini'&_&Hc'&Hpi'&Hpt'&Hxo'&_&Hfo'&Hpo'&Hn'&Ho'&Hvo'&_&_&_&_&Ha').
  rewrite HT in *. rewrite HT' in *. rewrite (counterparts_gs E c c' _ _ HC eq_refl), Hgs in Hgs'. injection Hgs' as <- <- <- <- <-.
  rewrite Hf in Hf'. injection Hf' as <-. rewrite Hmp in Hmp'. injection Hmp' as <-. rewrite (counterparts_dim _ _ HC) in *.
  destruct Ha as [(_ & Ht & (cs & Hm & Hce) & Hs & Hag & Had)|(Hxx & _)]; [|discriminate].
  destruct Ha' as [(_ & Ht' & (cs' & Hm' & Hce') & Hs' & Hag' & Had')|(Hxx' & _)]; [|discriminate].
  rewrite Hm in Hm'. injection Hm' as <-. 
  assert (HA : o_adj o' = o_adj o).
  { rewrite Ho, Hce in Had. rewrite Ho', Hce' in Had'. congruence. }
  assert (HP : params' = params) by (rewrite Ht', HA, Hn', <- Hn, <- Ht, Hini in Hini'; congruence).
  constructor; try congruence.
Qed.

Lemma built_twin E c c' A D us o u : counterparts c c' -> (c = OK2 -> c_ct A = "euclidean"%string) ->
  built E c A us o -> ubuilt E c' A D us u -> twin o (u_obj u).
Proof.
  intros HC Hct (_ & o0 & H & ->) (_ & u0 & H' & ->).
  unfold construct_uk in H'. bindok H'. bindok H'. injection H' as <-.
  match goal with K : construct E c' A = Ok ?x |- _ => assert (HT : twin o0 x) by exact (construct_twin E c c' A o0 x HC Hct H K) end.
  match goal with |- twin _ (u_obj (after_uupdates _ _ ?u0)) => change (twin o0 (u_obj u0)) in HT; generalize dependent u0 end. intros u1 HT. clear - HT.
  unfold after_updates, after_uupdates. revert o0 u1 HT. induction us as [|v us IH]; intros; cbn [fold_left]; [exact HT|].
  apply IH. destruct (update_uk_obj E u1 v) as [-> _]. apply update_twin, HT.
Qed.
Lemma ubuilt_drift E c A D us u : ubuilt E c A D us u -> exists o, init_drift c D o = Ok (u_drift u).
Proof.
  intros (_ & u0 & H & ->). unfold construct_uk in H. bindok H. bindok H. injection H as <-. exists a.
  match goal with |- init_drift c D a = Ok (u_drift (after_uupdates E us ?u0)) => assert (HK : u_drift (after_uupdates E us u0) = u_drift u0) end.
  { match goal with |- u_drift (after_uupdates E us ?u0) = _ => generalize u0 end.
    clear. unfold after_uupdates. induction us as [|v us IH]; intros u; cbn [fold_left]; [reflexivity|].
    rewrite IH. apply (proj2 (update_uk_obj E u v)). }
  rewrite HK. assumption.
Qed.
Lemma ubuilt_reachable E c A D us u : c = UK2 \/ c = UK3 -> ubuilt E c A D us u -> ureachable E u.
Proof.
  intros HC (Hl & u0 & H & ->). pose proof (ur_new E c A D u0 HC Hl H) as HR. clear H. revert u0 HR.
  unfold after_uupdates. induction us as [|v us IH]; intros u0 HR; cbn [fold_left]; [exact HR|]. apply IH, ur_update, HR.
Qed.

Lemma twin_G o o' : twin o o' -> G_of o' = G_of o.
Proof.
  intros []. unfold G_of, o_vg, separation, datum, o_dim.
  rewrite tw_ct0, tw_ct'0, tw_fun0, tw_params0, tw_orig0, tw_scaling0, tw_angle0, (counterparts_dim _ _ tw_class0). reflexivity.
Qed.
Lemma twin_g o o' pos : twin o o' -> g_of o' pos = g_of o pos.
Proof.
  intros []. unfold g_of, o_vg, separation, datum, o_dim.
  rewrite tw_ct0, tw_ct'0, tw_fun0, tw_params0, tw_orig0, tw_scaling0, tw_angle0, tw_exact0, (counterparts_dim _ _ tw_class0). reflexivity.
Qed.

Definition no_drift (d : drift) : Prop :=
  dr_linear d = false /\ opt_list (dr_wells d) = [] /\ dr_ext d = None /\ opt_list (dr_spec d) = [] /\ opt_list (dr_fun d) = [].
Lemma no_drift_terms u q specs : no_drift (u_drift u) -> drift_terms u q specs = [].
Proof.
  intros (H1 & H2 & H3 & H4 & H5). unfold drift_terms, linear_terms, well_terms, ext_terms, spec_terms, fun_terms.
  rewrite H1, H2, H3, H5. destruct (dr_spec (u_drift u)); cbn in *; [subst; reflexivity|reflexivity].
Qed.

Lemma uk_is_ok E o u q q' specs r r' p p' pos : run E o q r -> urun E u q' specs r' -> q_window q = None ->
  twin o (u_obj u) -> dr_spec (u_drift u) = None -> drift_terms u q' specs = [] ->
  shown o q p pos -> shown (u_obj u) q' p' pos ->
  r_value r p = r_value r' p' /\ r_variance r p = r_variance r' p'.
Proof.
  intros HR (HE & HUR & w & HX) HW HT HSp HD [C Hh] [C' Hh'].
  destruct (run_inv _ _ _ _ HR) as (_ & Hinv & Hord & HF & H). pose proof (ureachable_inv E u HUR) as HI.
  destruct (execute_uk_call E u q' specs r' w HI HX) as (_ & l & gs & a' & UC).
  destruct (uc_cell _ _ _ _ _ _ _ _ UC p' pos C' Hh') as (_ & Hv' & Hs').
  destruct (execute_ok_ref E o q r Hinv Hord HF HW H) as (r1 & HRf & Hsh & Heq).
  destruct HE as [HL HE']. destruct (ref_cell E o q r1 p pos HL Hinv HRf C) as [Hp _]. rewrite <- Hsh in Hp. destruct (Heq p Hp) as [-> ->].
  destruct (ref_value E o q r1 p pos HRf C Hh) as (a & HIa & -> & ->). rewrite Hv', Hs'. clear Hv' Hs'.
  pose proof (uc_specs _ _ _ _ _ _ _ _ UC) as HG. pose proof (call_specs_fit _ _ _ _ HG) as HSf.
  pose proof (mu_count_terms u q' specs HSf) as Hm. rewrite HD in Hm. cbn in Hm.
  pose proof (UM_spec u q' specs HI HSf) as HM. cbv zeta in HM. rewrite HD in HM.
  pose proof (uc_inv _ _ _ _ _ _ _ _ UC) as HIa'.
  pose proof (urhs_spec u q' specs gs p' pos HSf (or_intror HSp)) as HB. cbv zeta in HB. rewrite HD in HB.
  unfold uk_size in *. rewrite Hm in *. unfold UA_spec in HM. cbn [List.length] in *. rewrite (twin_G _ _ HT) in HM. rewrite (twin_g _ _ pos HT) in HB.
  rewrite (tw_n _ _ HT), (tw_values _ _ HT) in *. rewrite Nat.add_0_r in *. set (n := o_n o) in *.
  apply (invert_is_pinv _ _ _ _ _ _ HL) in HIa. apply (invert_is_pinv _ _ _ _ _ _ HL) in HIa'.
  assert (HMM : meq (n + 1) (UM u) (get_kriging_matrix o)).
  { intros i j Hi Hj. rewrite (HM i j Hi Hj), (matrix_entry o i j Hinv Hi Hj). unfold UA. fold n. rewrite Nat.add_0_r.
    destruct (Nat.ltb i n), (Nat.ltb j n); reflexivity. }
  pose proof (pinv_unique _ _ _ _ (is_pinv_ext _ _ _ _ HMM HIa') HIa) as Haa.
  assert (HBB : veq (n + 1) (rhs_spec n (g_of o pos)) (urhs u q' specs gs p' pos)).
  { intros k Hk. rewrite (HB k Hk). unfold rhs_spec, Ub. rewrite Nat.add_0_r.
    destruct (Nat.eqb_spec k n) as [->|Hne]; [rewrite Nat.ltb_irrefl; reflexivity|].
    rewrite (proj2 (Nat.ltb_lt k n)) by lia. reflexivity. }
  rewrite (point_value_ext _ _ _ _ _ HBB), (point_variance_ext _ _ _ _ HBB).
  set (b := urhs u q' specs gs p' pos) in *.
  assert (HXX : forall i, (i < n + 1)%nat -> mulv (n + 1) a b i = mulv (n + 1) a' b i).
  { intros i Hi. unfold mulv. apply bsum_ext; intros j Hj. rewrite Haa by assumption. reflexivity. }
  unfold point_value, point_variance, upoint_value, upoint_variance. split; f_equal; apply bsum_ext; intros i Hi; rewrite HXX by lia; reflexivity.
Qed.

Theorem uk_without_drift E c c' A D us o u q q' specs r r' p p' pos : counterparts c c' ->
  (c = OK2 -> c_ct A = "euclidean"%string) -> d_terms D = [] ->
  built E c A us o -> ubuilt E c' A D us u -> run E o q r -> urun E u q' specs r' -> q_window q = None ->
  shown o q p pos -> shown (u_obj u) q' p' pos ->
  r_value r p = r_value r' p' /\ r_variance r p = r_variance r' p'.
Proof.
  intros HC Hct HD HB HU HR HUR HW HS HS'. pose proof (built_twin E c c' A D us o u HC Hct HB HU) as HT.
  destruct (ubuilt_drift E c' A D us u HU) as (o1 & HI).
  assert (EDr : u_drift u = {| dr_linear := false; dr_wells := None; dr_ext := None; dr_spec := None; dr_fun := None |}).
  { unfold init_drift in HI. rewrite HD in HI. unfold in_names in HI. cbn [existsb] in HI. rewrite !andb_false_r in HI. cbn in HI. injection HI as <-. reflexivity. }
  apply (uk_is_ok E o u q q' specs r r' p p' pos); try assumption.
  - rewrite EDr. reflexivity.
  - apply no_drift_terms. rewrite EDr. repeat split.
Qed.

(** coplanar data and queries: 3D is 2D *)
Lemma coplanar_sep h o o' p p' : coplanar h o o' -> snd p = 0 -> snd p' = 0 ->
  separation o' (lift h p) (lift h p') = separation o p p'.
Proof.
  intros [Hc Hc' Ht Ht' _ _ _ Hs (Ha0 & Ha1 & Ha2) _ _ _] H1 H2. destruct p as [[x y] z], p' as [[x' y'] z']. cbn in H1, H2. subst z z'.
  unfold separation, o_dim. rewrite Ht, Ht', Hc, Hc'. cbn [cdim Nat.eqb]. rewrite Hs, Ha0, Ha1, Ha2.
  unfold aniso3, aniso2. f_equal. unfold rad. replace (0 * PI / 180) with 0 by field.
  unfold rotated_axis, rotx, roty, rotz, dot3, sub3, lift. rewrite cos_0, sin_0. unfold Rsqr. ring.
Qed.

Theorem coplanar_3d_is_2d E h o o' q q' r r' p p' pos : run E o q r -> run E o' q' r' -> coplanar h o o' ->
  q_window q = q_window q' -> (q_window q <> None -> no_ties o pos) ->
  shown o q p pos -> shown o' q' p' (lift h pos) ->
  r_value r p = r_value r' p' /\ r_variance r p = r_variance r' p'.
Proof.
  intros HR HR' HC HW HN HS HS'. destruct (run_inv _ _ _ _ HR) as (HE & Hinv & Hord & HF & H).
  destruct (run_inv _ _ _ _ HR') as (_ & Hinv' & Hord' & HF' & H').
  assert (D2 : o_dim o = 2%nat) by (unfold o_dim; rewrite (cp_class _ _ _ HC); reflexivity).
  assert (HP : snd pos = 0) by (apply (cell_in_dim _ q p pos (proj1 HS)); exact D2).
  assert (HD : forall i, snd (datum o i) = 0) by (intros i; apply datum_in_dim; exact D2).
  assert (HG1 : forall i, (i < o_n o)%nat -> separation o' (lift h pos) (datum o' i) = separation o pos (datum o i)).
  { intros i Hi. rewrite (cp_datum _ _ _ HC i Hi). apply (coplanar_sep h o o'); auto. }
  apply (cell_similar E o o' (fun i => i) q q' r r' p p' pos (lift h pos)); try assumption.
  - apply (cp_n _ _ _ HC).
  - split; auto.
  - intros i Hi. apply (cp_values _ _ _ HC i Hi).
  - intros i j Hi Hj. unfold G_of, data_semivariance, o_vg. rewrite (cp_fun _ _ _ HC), (cp_params _ _ _ HC).
    destruct (Nat.eqb i j); [reflexivity|]. f_equal. rewrite !(cp_datum _ _ _ HC) by assumption. apply (coplanar_sep h o o'); auto.
  - intros i Hi. unfold g_of, query_semivariance, o_vg. rewrite (cp_fun _ _ _ HC), (cp_params _ _ _ HC), (cp_exact _ _ _ HC), HG1 by exact Hi. reflexivity.
  - intros Hw. split; [apply HN, Hw|]. exists 1. split; [lra|]. intros i Hi. rewrite HG1 by exact Hi. ring.
Qed.
