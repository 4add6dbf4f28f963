(** C79 for universal kriging: predictions depend continuously on the location. *)
From Coq Require Import String.
From Verif Require Import Base Sums Matrix M_Variogram P_Variogram M_Geometry S_Geometry P_Geometry M_Kriging S_Kriging
  P_Kriging P_OKSpec M_Init M_Object M_Execute S_Execute P_Object P_Execute P_Cells P_OK P_Exec2 P_Valid S_Line P_Line P_Far P_Far2
  M_UK S_UK P_UK P_UK2 P_UK3 P_UK4 P_UK5 S_Drift P_UK19 S_Bilinear P_Bilinear P_UKGrid P_UKFar.

(** continuous dependence on location and drift values *)
Theorem uk_continuous_values E u q specs r p pos : urun E u q specs r -> shown (u_obj u) q p pos -> uregular u q specs -> faithful_specs u q ->
  (o_exact (u_obj u) = true -> away (u_obj u) pos) ->
  (forall i, (i < o_n (u_obj u))%nat -> continuous_at (o_vg (u_obj u)) (separation (u_obj u) pos (datum (u_obj u) i))) ->
  forall e, 0 < e -> exists delta, 0 < delta /\ forall q' specs' r' p' pos', urun E u q' specs' r' -> faithful_specs u q' -> shown (u_obj u) q' p' pos' ->
    near delta pos pos' ->
    (forall k, (k < List.length (drift_terms u q specs))%nat -> Rabs (f_of (drift_terms u q' specs') p' pos' k - f_of (drift_terms u q specs) p pos k) < delta) ->
    exists v v' s s', r_value r p = Some v /\ r_value r' p' = Some v' /\ r_variance r p = Some s /\ r_variance r' p' = Some s' /\
      Rabs (v' - v) < e /\ Rabs (s' - s) < e.
Proof.
  intros HR HS Hreg HF HA HC e He. set (o := u_obj u) in *. set (ts := drift_terms u q specs).
  pose proof (uregular_get E u q specs r HR Hreg) as REG.
  destruct (uk_cells E u q specs r p pos HR HS (uregular_well_posed u q specs p pos Hreg) HF) as (v & s & HV & HVar & EST). cbv zeta in EST. fold o ts in EST, REG.
  destruct (uk_near _ _ _ _ _ _ _ _ _ REG EST e He) as (dl & Hdl & HN).
  pose proof (ui_ct u (ureachable_inv E u (proj1 (proj2 HR)))) as ECT. fold o in ECT.
  destruct (separation_near o ECT) as (K & HK & HKs).
  destruct (all_data (o_n o) (fun i d => forall pos', separation o pos' pos < d -> Rabs (g_of o pos' i - g_of o pos i) <= dl)) as (dd & Hdd & HD).
  - intros i Hi. destruct (HC i Hi dl Hdl) as (d1 & Hd1 & H1).
    destruct (o_exact o) eqn:EX.
    + assert (Hm : 0 < separation o pos (datum o i) - eps) by (pose proof (HA eq_refl i Hi); lra).
      exists (Rmin d1 (separation o pos (datum o i) - eps)). split; [apply Rmin_glb_lt; assumption|].
      intros pos' Hp. pose proof (separation_lipschitz o pos' pos (datum o i)) as SL.
      assert (M1 := Rmin_l d1 (separation o pos (datum o i) - eps)). assert (M2 := Rmin_r d1 (separation o pos (datum o i) - eps)).
      rewrite !g_plain.
      * left. apply H1. eapply Rle_lt_trans; [exact SL|]. lra.
      * intros _. apply HA; [reflexivity|exact Hi].
      * intros _. assert (Q := Rle_abs (- (separation o pos' (datum o i) - separation o pos (datum o i)))). rewrite Rabs_Ropp in Q. lra.
    + exists d1. split; [exact Hd1|]. intros pos' Hp. pose proof (separation_lipschitz o pos' pos (datum o i)) as SL.
      rewrite !g_plain by (rewrite EX; discriminate). left. apply H1. eapply Rle_lt_trans; [exact SL|]. exact Hp.
  - intros i d d' HP Hd pos' Hp. apply HP. lra.
  - set (delta := Rmin dl (dd / (K + 1))).
    assert (HKd : 0 < dd / (K + 1)) by (apply Rdiv_lt_0_compat; lra).
    assert (Hdelta : 0 < delta) by (apply Rmin_glb_lt; assumption). assert (M1 : delta <= dl) by apply Rmin_l. assert (M2 : delta <= dd / (K + 1)) by apply Rmin_r.
    exists delta. split; [exact Hdelta|]. intros q' specs' r' p' pos' HR' HF' HS' Hp Hk.
    assert (SEP : separation o pos' pos < dd).
    { eapply Rle_lt_trans; [apply (HKs pos pos' delta Hp); lra|]. apply Rle_lt_trans with (K * (dd / (K + 1))); [apply Rmult_le_compat_l; lra|].
      apply Rlt_le_trans with ((K + 1) * (dd / (K + 1))); [apply Rmult_lt_compat_r; lra|]. right. field. lra. }
    (* the data side of the terms is the same for every query *)
    destruct HR as (HE0 & HR0 & w0 & X0). destruct (execute_uk_call E u q specs r w0 (ureachable_inv E u HR0) X0) as (_ & l0 & gs0 & ai0 & HC0).
    pose proof (call_specs_fit _ _ _ _ (uc_specs _ _ _ _ _ _ _ _ HC0)) as SF0.
    pose proof HR' as (HE1 & HR1 & w1 & X1). destruct (execute_uk_call E u q' specs' r' w1 (ureachable_inv E u HR1) X1) as (_ & l1 & gs1 & ai1 & HC1).
    pose proof (call_specs_fit _ _ _ _ (uc_specs _ _ _ _ _ _ _ _ HC1)) as SF1.
    pose proof (ureachable_inv E u HR0) as UI.
    assert (EL : List.length (drift_terms u q' specs') = List.length ts).
    { unfold ts. rewrite <- (mu_count_terms u q specs SF0), <- (mu_count_terms u q' specs' SF1). reflexivity. }
    assert (EF : forall k i, (i < o_n o)%nat -> F_of (drift_terms u q' specs') k i = F_of ts k i).
    { intros k i Hi. unfold F_of, ts. rewrite !nth_t_data. rewrite <- (data_vals_terms u q specs i UI SF0 Hi), <- (data_vals_terms u q' specs' i UI SF1 Hi). reflexivity. }
    assert (WP' : uwell_posed u q' specs' p' pos').
    { destruct Hreg as [Hp'|Hreg]; [left; exact Hp'|]. right. unfold usolvable. cbv zeta. rewrite EL.
      destruct (REG (g_of o pos') (f_of (drift_terms u q' specs') p' pos')) as (w & mu & nu & (S1 & S2 & S3) & _).
      exists w, mu, nu. fold o. split; [|split; [exact S2|]].
      - intros i Hi. rewrite <- (S1 i Hi). do 2 f_equal. apply bsum_ext. intros k Hk'. rewrite (EF k i Hi). reflexivity.
      - intros k Hk'. rewrite <- (S3 k Hk'). apply bsum_ext. intros j Hj. rewrite (EF k j Hj). reflexivity. }
    destruct (uk_cells E u q' specs' r' p' pos' HR' HS' WP' HF') as (v' & s' & HV' & HVar' & EST'). cbv zeta in EST'. fold o in EST'. rewrite EL in EST'.
    assert (EST2 : UK_estimate (o_n o) (List.length ts) (G_of o) (F_of ts) (g_of o pos') (f_of (drift_terms u q' specs') p' pos') (o_values o) v' s').
    { destruct EST' as (w & mu & nu & (S1 & S2 & S3) & Ev & Es). exists w, mu, nu. split; [|split; assumption]. split; [|split; [exact S2|]].
      - intros i Hi. rewrite <- (S1 i Hi). do 2 f_equal. apply bsum_ext. intros k Hk'. rewrite (EF k i Hi). reflexivity.
      - intros k Hk'. rewrite <- (S3 k Hk'). apply bsum_ext. intros j Hj. rewrite (EF k j Hj). reflexivity. }
    destruct (HN _ _ v' s' EST2) as [N1 N2].
    + intros i Hi. apply HD; assumption.
    + intros k Hk'. left. eapply Rlt_le_trans; [apply (Hk k Hk')|exact M1].
    + exists v, v', s, s'. auto 10.
Qed.

(** continuity of the drift functions *)
Definition tcont (t : term) (p : nat) (pos : vec3) (u : uobj) : Prop :=
  forall e, 0 < e -> exists dl, 0 < dl /\ forall p' pos', near dl pos pos' -> in_grid u pos' -> Rabs (t_query t p' pos' - t_query t p pos) < e.

Lemma near_mono d d' p p' : near d p p' -> d <= d' -> near d' p p'.
Proof. intros H L k Hk. eapply Rlt_le_trans; [apply H, Hk|exact L]. Qed.

Lemma logd_continuous d : 0 < d -> continuous_at logd d.
Proof.
  intros Hd. apply (cont_local logd ln d Hd).
  - intros x Hx. unfold logd. destruct (Reqb x 0) eqn:EX; [|reflexivity]. apply Reqb_true in EX. lra.
  - apply cont_of. apply derivable_continuous_pt. exists (/ d). apply derivable_pt_lim_ln, Hd.
Qed.
Lemma plane_dist_lip a b wx wy : Rabs (plane_dist a wx wy - plane_dist b wx wy) <= Rabs (coord 0 a - coord 0 b) + Rabs (coord 1 a - coord 1 b).
Proof.
  assert (H : forall a b, plane_dist a wx wy <= plane_dist b wx wy + (Rabs (coord 0 a - coord 0 b) + Rabs (coord 1 a - coord 1 b))).
  { clear. intros a b. unfold plane_dist, Rsqr.
    pose proof (norm_triangle (coord 0 b - wx) (coord 1 b - wy) 0 (coord 0 a - coord 0 b) (coord 1 a - coord 1 b) 0) as T.
    pose proof (sqrt_sum_le (coord 0 a - coord 0 b) (coord 1 a - coord 1 b) 0) as L. rewrite Rabs_R0 in L.
    replace (coord 0 b - wx + (coord 0 a - coord 0 b)) with (coord 0 a - wx) in T by ring. replace (coord 1 b - wy + (coord 1 a - coord 1 b)) with (coord 1 a - wy) in T by ring.
    rewrite !Rplus_0_l, !Rmult_0_l, !Rplus_0_r in *. lra. }
  pose proof (H a b). pose proof (H b a) as H2. rewrite (Rabs_minus_sym (coord 0 b)), (Rabs_minus_sym (coord 1 b)) in H2. apply Rabs_le. lra.
Qed.

Lemma term_continuous u pos p t : drift_continuous u pos -> in_grid u pos -> In t (linear_terms u ++ well_terms u ++ ext_terms u ++ fun_terms u) -> tcont t p pos u.
Proof.
  intros (DW & DX & DF) HG Hin e He. destruct (frame_near (u_obj u)) as (K & HK & NF).
  rewrite !in_app_iff in Hin. destruct Hin as [Hin|[Hin|[Hin|Hin]]].
  - unfold linear_terms in Hin. destruct (dr_linear (u_drift u)); [|destruct Hin]. apply in_map_iff in Hin. destruct Hin as (k & <- & Hk). apply in_seq in Hk.
    assert (Hk3 : (k < 3)%nat) by (destruct (o_dim_cases (u_obj u)); lia).
    exists (e / K). split; [apply Rdiv_lt_0_compat; assumption|]. intros p' pos' Hp _. cbn [t_query spatial].
    pose proof (NF pos pos' (e / K) Hp k Hk3) as H. replace (K * (e / K)) with e in H by (field; lra). exact H.
  - unfold well_terms in Hin. apply in_map_iff in Hin. destruct Hin as (((wx & wy) & s) & <- & Hw).
    set (d0 := plane_dist (frame (u_obj u) pos) wx wy). assert (H0 : 0 < d0) by exact (DW wx wy s Hw).
    assert (Ps := Rabs_pos s).
    destruct (logd_continuous d0 H0 (e / (Rabs s + 1))) as (d1 & Hd1 & H1); [apply Rdiv_lt_0_compat; lra|].
    exists (d1 / (2 * K)). split; [apply Rdiv_lt_0_compat; lra|]. intros p' pos' Hp _. cbn [t_query spatial].
    pose proof (NF pos pos' _ Hp) as HN. pose proof (HN 0%nat ltac:(lia)) as N0. pose proof (HN 1%nat ltac:(lia)) as N1.
    replace (K * (d1 / (2 * K))) with (d1 / 2) in N0, N1 by (field; lra).
    pose proof (plane_dist_lip (frame (u_obj u) pos') (frame (u_obj u) pos) wx wy) as PL. fold d0 in PL. fold d0.
    specialize (H1 (plane_dist (frame (u_obj u) pos') wx wy) ltac:(lra)).
    match goal with |- Rabs (- s * ?A - - s * ?B) < _ => replace (- s * A - - s * B) with (- s * (A - B)) by ring end.
    rewrite Rabs_mult, Rabs_Ropp.
    apply Rle_lt_trans with (Rabs s * (e / (Rabs s + 1))); [apply Rmult_le_compat_l; lra|].
    apply Rlt_le_trans with ((Rabs s + 1) * (e / (Rabs s + 1))); [apply Rmult_lt_compat_r; [apply Rdiv_lt_0_compat; lra|lra]|]. right. field. lra.
  - unfold ext_terms in Hin. destruct (dr_ext (u_drift u)) as [[[[arr ex] ey] zs]|] eqn:EX; [|destruct Hin]. destruct Hin as [<-|[]].
    destruct (DX arr ex ey zs eq_refl) as (Ax & Ay & Lx & Ly).
    assert (OKZ : forall ps, in_grid u ps -> exists z, zscalar arr ex ey (coord 0 ps) (coord 1 ps) = Ok z).
    { intros ps H. apply (proj1 (zscalar_accepts arr ex ey _ _)). exact (H arr ex ey zs EX). }
    destruct (OKZ pos HG) as [z0 Z0]. destruct (zscalar_continuous arr ex ey _ _ z0 Ax Ay Lx Ly Z0 e He) as (dl & Hdl & HZ).
    exists dl. split; [exact Hdl|]. intros p' pos' Hp HG'. cbn [t_query spatial]. unfold ext_at. destruct (OKZ pos' HG') as [z1 Z1]. rewrite Z0, Z1.
    apply (HZ _ _ z1 (Hp 0%nat ltac:(lia)) (Hp 1%nat ltac:(lia)) Z1).
  - unfold fun_terms in Hin. apply in_map_iff in Hin. destruct Hin as (f & <- & Hf).
    destruct (DF f Hf e He) as (d1 & Hd1 & H1). exists (d1 / K). split; [apply Rdiv_lt_0_compat; assumption|]. intros p' pos' Hp _. cbn [t_query spatial]. cbv zeta.
    apply H1. pose proof (NF pos pos' (d1 / K) Hp) as H. replace (K * (d1 / K)) with d1 in H by (field; lra). exact H.
Qed.

Theorem uk_continuous E u q r p pos : urun E u q [] r -> shown (u_obj u) q p pos -> uregular u q [] -> dr_spec (u_drift u) = None ->
  (o_exact (u_obj u) = true -> away (u_obj u) pos) ->
  (forall i, (i < o_n (u_obj u))%nat -> continuous_at (o_vg (u_obj u)) (separation (u_obj u) pos (datum (u_obj u) i))) ->
  drift_continuous u pos ->
  forall e, 0 < e -> exists delta, 0 < delta /\ forall q' r' p' pos', urun E u q' [] r' -> shown (u_obj u) q' p' pos' -> near delta pos pos' ->
    exists v v' s s', r_value r p = Some v /\ r_value r' p' = Some v' /\ r_variance r p = Some s /\ r_variance r' p' = Some s' /\
      Rabs (v' - v) < e /\ Rabs (s' - s) < e.
Proof.
  intros HR HS Hreg HN HA HC HD e He.
  assert (FS : forall q', faithful_specs u q') by (intros q'; right; exact HN).
  destruct (uk_continuous_values E u q [] r p pos HR HS Hreg (FS q) HA HC e He) as (dl & Hdl & H).
  assert (ET : forall q', drift_terms u q' [] = linear_terms u ++ well_terms u ++ ext_terms u ++ fun_terms u).
  { intros q'. unfold drift_terms, spec_terms. rewrite HN. reflexivity. }
  assert (IG : forall q' r' p' pos', urun E u q' [] r' -> shown (u_obj u) q' p' pos' -> in_grid u pos').
  { intros q' r' p' pos' (_ & R1 & w1 & X1) S1. exact (proj2 (proj2 (proj2 (uk_accepts E u q' [] r' w1 R1 X1))) p' pos' S1). }
  set (ts := linear_terms u ++ well_terms u ++ ext_terms u ++ fun_terms u) in *.
  destruct (common_delta (List.length ts) (fun k d => forall p' pos', near d pos pos' -> in_grid u pos' -> Rabs (t_query (nth k ts no_term) p' pos' - t_query (nth k ts no_term) p pos) < dl)) as (d1 & Hd1 & H1).
  - intros k Hk. apply (term_continuous u pos p (nth k ts no_term) HD (IG q r p pos HR HS) (nth_In _ _ Hk) dl Hdl).
  - intros k d d' Hkd Hd p' pos' Hp. apply Hkd. apply (near_mono d' d); [exact Hp|lra].
  - exists (Rmin dl d1). split; [apply Rmin_glb_lt; assumption|]. intros q' r' p' pos' HR' HS' Hp.
    apply (H q' [] r' p' pos' HR' (FS q') HS').
    + apply (near_mono _ _ _ _ Hp). apply Rmin_l.
    + intros k Hk. rewrite !ET in *. unfold f_of. apply H1; [exact Hk| |exact (IG q' r' p' pos' HR' HS')]. apply (near_mono _ _ _ _ Hp). apply Rmin_r.
Qed.
