(** Coinciding data in universal kriging with pseudo_inv: averaging; pseudo_inv changes
    nothing when both return. *)
From Coq Require Import String.
From Verif Require Import Base Sums Matrix M_Variogram M_Geometry S_Geometry M_Kriging S_Kriging M_Init M_Object M_Execute S_Execute M_UK S_UK S_UK2 S_Valid S_Bilinear S_Drift
  P_Object P_Kriging P_Psd P_Psd2 P_Valid P_Valid2 P_Dup P_OKSpec P_OK P_Det P_Exec2 P_Cells P_Execute P_Master P_Options P_Data
  P_Geometry P_Bilinear P_UK P_UK2 P_UK3 P_UK4 P_UK5 P_UK6 P_Valid3 P_UK18 P_UK8 P_UK19 P_UK11 P_UK13 P_State2 S_State P_Data2 P_Linear P_UK20.

Theorem universal_pinv_irrelevant E c A D us b t u u' q specs r r' p pos :
  ubuilt E c A D us u -> ubuilt E c (with_pinv A b t) D us u' -> urun E u q specs r -> urun E u' q specs r' ->
  faithful_specs u q -> shown (u_obj u) q p pos ->
  r_value r p = r_value r' p /\ r_variance r p = r_variance r' p.
Proof.
  intros HB HB' HR HR' HF HS.
  destruct (ubuilt_obj _ _ _ _ _ _ HB) as (B & u0 & _ & Hd & HC & HI).
  destruct (ubuilt_obj _ _ _ _ _ _ HB') as (B' & u0' & _ & Hd' & HC' & HI').
  pose proof (built_agree E c A (with_pinv A b t) us _ _ B B' eq_refl eq_refl eq_refl eq_refl) as G.
  pose proof (construct_agree E c A (with_pinv A b t) _ _ HC HC' eq_refl eq_refl eq_refl eq_refl) as G0.
  assert (HD : u_drift u' = u_drift u).
  { rewrite (init_drift_same c D (u_obj u0) (u_obj u0')) in HI.
    - congruence.
    - symmetry. apply (ag_n _ _ G0).
    - symmetry. apply (ag_orig _ _ G0).
    - symmetry. apply (ag_center _ _ G0).
    - intros _ _. rewrite (ag_scaling _ _ G0), (ag_angle _ _ G0). split; [intros; reflexivity|reflexivity]. }
  assert (HX : o_exact (u_obj u') = o_exact (u_obj u)).
  { pose proof (built_exact _ _ _ _ _ B) as H1. pose proof (built_exact _ _ _ _ _ B') as H2. cbn in H2. congruence. }
  assert (HT : drift_terms u' q specs = drift_terms u q specs).
  { pose proof (ag_class _ _ G) as H3. pose proof (ag_orig _ _ G) as H5. pose proof (ag_center _ _ G) as H8.
    pose proof (ag_scaling _ _ G) as H6. pose proof (ag_angle _ _ G) as H7.
    unfold drift_terms, linear_terms, well_terms, ext_terms, spec_terms, fun_terms, spatial, frame, center3, datum, o_dim.
    rewrite HD, H3, H5, H6, H7, H8. reflexivity. }
  assert (HSh : shown (u_obj u') q p pos) by (unfold shown, o_dim in *; rewrite (ag_class _ _ G); exact HS).
  assert (HF' : faithful_specs u' q) by (unfold faithful_specs in *; rewrite HD; exact HF).
  destruct (ucell_similar E E u u' (fun i => i) q q specs specs r r' p p pos pos HR HR' HF HF' HS HSh) as (x & s & Hv & Hs & Hv' & Hs' & _).
  - apply (ag_n _ _ G).
  - rewrite HT. reflexivity.
  - apply perm_id.
  - intros i j _ _. rewrite (agree_G _ _ G). reflexivity.
  - intros i _. rewrite (agree_g _ _ pos G HX). reflexivity.
  - intros a i _ _. rewrite HT. reflexivity.
  - intros a _. rewrite HT. reflexivity.
  - rewrite Hv, Hs, Hv', Hs', (ag_values _ _ G). split; reflexivity.
Qed.

(** *** averaging *)
Definition same_term (n j : nat) (t t' : term) : Prop :=
  (forall a, (a < n)%nat -> t_data t' a = t_data t (skip j a)) /\ forall p pos, t_query t' p pos = t_query t p pos.
Lemma map_Forall2 {X T} (R : T -> T -> Prop) (f g : X -> T) l : (forall x, R (f x) (g x)) -> Forall2 R (map f l) (map g l).
Proof. intros H. induction l; cbn; constructor; auto. Qed.
Lemma merged_terms i j u u' q specs : umerges i j u u' ->
  Forall2 (same_term (o_n (u_obj u')) j) (drift_terms u q specs) (drift_terms u' q specs).
Proof.
  intros HU. pose proof (um_obj _ _ _ _ HU) as HM.
  assert (HF : frame (u_obj u') = frame (u_obj u)).
  { unfold frame, center3, o_dim. rewrite (um_center _ _ _ _ HU), (mg_scaling _ _ _ _ HM), (mg_angle _ _ _ _ HM), (mg_class _ _ _ _ HM). reflexivity. }
  assert (HS : forall f, same_term (o_n (u_obj u')) j (spatial (u_obj u) f) (spatial (u_obj u') f)).
  { intros f. split; [|reflexivity]. intros a Ha. cbn. rewrite (mg_datum _ _ _ _ HM a Ha). reflexivity. }
  unfold drift_terms. repeat apply Forall2_app.
  - unfold linear_terms. rewrite (um_linear _ _ _ _ HU). destruct (dr_linear _); [|constructor]. unfold o_dim. rewrite (mg_class _ _ _ _ HM), HF.
    apply map_Forall2. intros k. apply HS.
  - unfold well_terms. rewrite (um_wells _ _ _ _ HU), HF. apply map_Forall2. intros [[wx wy] s]. apply HS.
  - unfold ext_terms. pose proof (um_ext _ _ _ _ HU) as HX.
    destruct (dr_ext (u_drift u)) as [[[[arr ex] ey] z]|], (dr_ext (u_drift u')) as [[[[arr' ex'] ey'] z']|]; try contradiction; [|constructor].
    destruct HX as (-> & -> & ->). constructor; [apply HS|constructor].
  - unfold spec_terms. pose proof (um_spec _ _ _ _ HU) as HX.
    destruct (dr_spec (u_drift u)) as [ds|], (dr_spec (u_drift u')) as [ds'|]; try contradiction; [|constructor].
    clear - HX. revert specs. induction HX as [|d d' ds ds' Hd _ IH]; intros specs; [constructor|].
    destruct specs as [|s specs]; cbn [combine map]; [constructor|]. constructor; [|apply IH]. split; [exact Hd|reflexivity].
  - unfold fun_terms. rewrite (um_fun _ _ _ _ HU), HF. apply map_Forall2. intros f. apply HS.
Qed.
Lemma same_terms_F n j ts ts' : Forall2 (same_term n j) ts ts' ->
  List.length ts' = List.length ts /\ (forall k a, (k < List.length ts)%nat -> (a < n)%nat -> F_of ts' k a = F_of ts k (skip j a)) /\
  forall k p pos, (k < List.length ts)%nat -> f_of ts' p pos k = f_of ts p pos k.
Proof.
  intros H. split; [symmetry; apply (Forall2_len _ _ _ H)|]. split.
  - intros k a Hk Ha. unfold F_of. revert k Hk. induction H as [|t t' ts ts' [Hd Hq] _ IH]; intros k Hk; [cbn in Hk; lia|].
    destruct k as [|k]; cbn [nth]; [apply Hd, Ha|]. apply IH. cbn in Hk. lia.
  - intros k p pos Hk. unfold f_of. revert k Hk. induction H as [|t t' ts ts' [Hd Hq] _ IH]; intros k Hk; [cbn in Hk; lia|].
    destruct k as [|k]; cbn [nth]; [apply Hq|]. apply IH. cbn in Hk. lia.
Qed.

Lemma umerged_system n m i j G F g f w mu nu : (i < S n)%nat -> (j < S n)%nat -> i <> j ->
  (forall a b, G a b = G b a) -> (forall k, G i k = G j k) -> (forall k, (k < m)%nat -> F k i = F k j) ->
  UK_system (S n) m G F g f w mu nu ->
  UK_system n m (fun a b => G (skip j a) (skip j b)) (fun k a => F k (skip j a)) (fun a => g (skip j a)) f (merged i j w) mu nu.
Proof.
  intros Hi Hj Hne HS HG HF (H1 & H2 & H3). split; [|split].
  - intros a Ha. rewrite (merged_sum n i j w (fun b => G (skip j a) b) Hi Hj Hne) by apply (sym_quad_row G i j HS HG).
    apply (H1 (skip j a)), skip_lt, Ha.
  - rewrite <- H2. rewrite (bsum_ext (S n) w (fun a => w a * 1)) by (intros; ring).
    rewrite <- (merged_sum n i j w (fun _ => 1) Hi Hj Hne eq_refl). apply bsum_ext; intros; ring.
  - intros k Hk. rewrite (merged_sum n i j w (fun b => F k b) Hi Hj Hne (HF k Hk)). apply (H3 k Hk).
Qed.
Lemma ufull_system n m i j G F g f w mu nu : (i < S n)%nat -> (j < S n)%nat -> i <> j ->
  (forall a b, G a b = G b a) -> (forall k, G i k = G j k) -> (forall k, (k < m)%nat -> F k i = F k j) -> g i = g j ->
  UK_system n m (fun a b => G (skip j a) (skip j b)) (fun k a => F k (skip j a)) (fun a => g (skip j a)) f w mu nu ->
  UK_system (S n) m G F g f (unmerged n i j w) mu nu.
Proof.
  intros Hi Hj Hne HS HG HF Hg (H1 & H2 & H3).
  assert (HM : forall h, h i = h j -> bsum (S n) (fun a => unmerged n i j w a * h a) = bsum n (fun a => w a * h (skip j a))).
  { intros h Hh. rewrite <- (merged_sum n i j (unmerged n i j w) h Hi Hj Hne Hh).
    apply bsum_ext; intros a Ha. rewrite unmerged_merged by assumption. reflexivity. }
  split; [|split].
  - assert (HR : forall a, (a < n)%nat -> bsum (S n) (fun b => unmerged n i j w b * G (skip j a) b) + bsum m (fun k => nu k * F k (skip j a)) + mu = g (skip j a)).
    { intros a Ha. rewrite (HM (fun b => G (skip j a) b)) by apply (sym_quad_row G i j HS HG). apply H1, Ha. }
    intros a Ha. destruct (Nat.eq_dec a j) as [->|Haj].
    + destruct (skip_surj n i j Hi Hj Hne) as (a0 & Ha0 & Hs0). specialize (HR a0 Ha0). rewrite Hs0 in HR.
      rewrite <- Hg, <- HR. f_equal. f_equal; apply bsum_ext; intros b Hb; [rewrite HG; reflexivity|rewrite (HF b Hb); reflexivity].
    + destruct (skip_surj n a j Ha Hj Haj) as (a0 & Ha0 & Hs0). specialize (HR a0 Ha0). rewrite Hs0 in HR. exact HR.
  - rewrite <- H2. rewrite (bsum_ext (S n) _ (fun a => unmerged n i j w a * 1)) by (intros; ring).
    rewrite (HM (fun _ => 1) eq_refl). apply bsum_ext; intros; ring.
  - intros k Hk. rewrite (HM (fun a => F k a) (HF k Hk)). apply (H3 k Hk).
Qed.
Lemma UK_system_ext n m G G' F F' g g' f f' w mu nu :
  (forall a b, (a < n)%nat -> (b < n)%nat -> G a b = G' a b) -> (forall k a, (k < m)%nat -> (a < n)%nat -> F k a = F' k a) ->
  (forall a, (a < n)%nat -> g a = g' a) -> (forall k, (k < m)%nat -> f k = f' k) ->
  UK_system n m G F g f w mu nu -> UK_system n m G' F' g' f' w mu nu.
Proof.
  intros HG HF Hg Hf (H1 & H2 & H3). split; [|split; [exact H2|]].
  - intros a Ha. rewrite <- Hg, <- (H1 a Ha) by exact Ha. f_equal. f_equal; apply bsum_ext; intros b Hb; [rewrite HG|rewrite HF]; auto.
  - intros k Hk. rewrite <- Hf, <- (H3 k Hk) by exact Hk. apply bsum_ext; intros b Hb. rewrite HF; auto.
Qed.

Lemma merged_values n i j (w v v' : vec) : (i < S n)%nat -> (j < S n)%nat -> i <> j -> w i = w j ->
  (forall a, (a < n)%nat -> v' a = if Nat.eqb (skip j a) i then (v i + v j) / 2 else v (skip j a)) ->
  bsum n (fun a => merged i j w a * v' a) = bsum (S n) (fun a => w a * v a).
Proof.
  intros Hi Hj Hne Hw Hv. set (z := fun a => if Nat.eqb a i || Nat.eqb a j then (v i + v j) / 2 else v a).
  transitivity (bsum (S n) (fun a => w a * z a)).
  - rewrite <- (merged_sum n i j w z Hi Hj Hne) by (unfold z; rewrite !Nat.eqb_refl, orb_true_r; reflexivity).
    apply bsum_ext; intros a Ha. f_equal. rewrite Hv by exact Ha. unfold z.
    destruct (Nat.eqb_spec (skip j a) j) as [Hx|_]; [exfalso; apply (skip_ne j a Hx)|]. rewrite orb_false_r. reflexivity.
  - rewrite !(bsum_skip n j _) by lia.
    destruct (skip_surj n i j Hi Hj Hne) as (a0 & Ha0 & Hs0).
    rewrite (bsum_ext n (fun a => w (skip j a) * z (skip j a))
       (fun a => w (skip j a) * v (skip j a) + (if Nat.eqb a a0 then w i * ((v j - v i) / 2) else 0))).
    + rewrite bsum_plus, (bsum_single n a0 (fun a => if Nat.eqb a a0 then _ else 0)); [|exact Ha0|].
      * rewrite Nat.eqb_refl. unfold z. rewrite Nat.eqb_refl, orb_true_r, Hw. lra.
      * intros a Ha Hna. destruct (Nat.eqb_spec a a0); [contradiction|reflexivity].
    + intros a Ha. unfold z. destruct (Nat.eqb_spec (skip j a) j) as [Hx|_]; [exfalso; apply (skip_ne j a Hx)|].
      rewrite orb_false_r. destruct (Nat.eqb_spec (skip j a) i) as [He|He].
      * assert (a = a0) by (apply (skip_inj j); congruence). subst a. rewrite Nat.eqb_refl, He. lra.
      * destruct (Nat.eqb_spec a a0); [subst; contradiction|]. ring.
Qed.

Theorem universal_averaged E u u' q specs r r' p pos i j : urun E u q specs r -> urun E u' q specs r' ->
  faithful_specs u q -> shown (u_obj u) q p pos -> umerges i j u u' -> same_place u i j -> o_vg (u_obj u) 0 = 0 ->
  drift_regular u' q specs ->
  r_value r p = r_value r' p /\ r_variance r p = r_variance r' p.
Proof.
  intros HR HR' HF HS HU HD H0 Hreg. pose proof (um_obj _ _ _ _ HU) as HM. pose proof HD as (Hi & Hj & Hne & _).
  pose proof (same_place_coincident u i j HD) as HC.
  set (o := u_obj u) in *. set (o' := u_obj u') in *. set (n := o_n o') in *. pose proof (mg_n _ _ _ _ HM) as Hn. fold n in Hn.
  pose proof (merged_terms i j u u' q specs HU) as HTs. fold o' n in HTs.
  destruct (same_terms_F _ _ _ _ HTs) as (TL & TF & Tf).
  set (ts := drift_terms u q specs) in *. set (ts' := drift_terms u' q specs) in *. set (m := List.length ts) in *.
  assert (Hsep : separation o' = separation o).
  { rewrite !separation_gen, (mg_ct _ _ _ _ HM), (mg_scaling _ _ _ _ HM), (mg_angle _ _ _ _ HM). unfold o_dim. rewrite (mg_class _ _ _ _ HM). reflexivity. }
  assert (Hvg : o_vg o' = o_vg o) by (unfold o_vg; rewrite (mg_fun _ _ _ _ HM), (mg_params _ _ _ _ HM); reflexivity).
  assert (HG : forall a b, (a < n)%nat -> (b < n)%nat -> G_of o' a b = G_of o (skip j a) (skip j b)).
  { intros a b Ha Hb. unfold G_of, data_semivariance. rewrite Hsep, Hvg, !(mg_datum _ _ _ _ HM) by assumption.
    destruct (Nat.eqb_spec a b) as [->|Hab]; [rewrite Nat.eqb_refl; reflexivity|].
    destruct (Nat.eqb_spec (skip j a) (skip j b)) as [He|]; [apply skip_inj in He; contradiction|reflexivity]. }
  assert (Hg : forall a, (a < n)%nat -> g_of o' pos a = g_of o pos (skip j a)).
  { intros a Ha. unfold g_of, query_semivariance. rewrite Hsep, Hvg, (mg_exact _ _ _ _ HM), !(mg_datum _ _ _ _ HM) by assumption. reflexivity. }
  assert (HSy : forall a b, G_of o a b = G_of o b a) by (intros; apply G_of_sym).
  assert (HRow : forall k, G_of o i k = G_of o j k) by (intros; apply coincident_G; assumption).
  assert (HFr : forall k, (k < m)%nat -> F_of ts k i = F_of ts k j) by (intros k _; apply same_place_F, HD).
  assert (Hgg : g_of o pos i = g_of o pos j) by (apply coincident_g, HC).
  assert (HS' : shown o' q p pos) by (unfold shown, o_dim in *; rewrite (mg_class _ _ _ _ HM); exact HS).
  assert (HF' : faithful_specs u' q).
  { destruct HF as [HF|HF]; [left; exact HF|right]. pose proof (um_spec _ _ _ _ HU) as HX. rewrite HF in HX. destruct (dr_spec (u_drift u')); [contradiction|reflexivity]. }
  assert (Hreg' : UK_regular n m (G_of o') (F_of ts')) by (unfold drift_regular in Hreg; fold o' n ts' in Hreg; rewrite TL in Hreg; exact Hreg).
  assert (HSol : usolvable u q specs p pos).
  { destruct (Hreg' (g_of o' pos) (f_of ts' p pos)) as (w' & mu & nu & HSys & _).
    exists (unmerged n i j w'), mu, nu. fold o ts m. rewrite Hn. apply ufull_system; try assumption; try lia.
    apply (UK_system_ext n m (G_of o') _ (F_of ts') _ (g_of o' pos) _ (f_of ts' p pos) _ w' mu nu); try assumption.
    intros k Hk. apply Tf, Hk. }
  destruct (ucell_pinv E u q specs r p pos HR HS HF) as (P & HP & Hv & Hs & HSys). cbv zeta in HP, Hv, Hs, HSys. fold o ts m in HP, Hv, Hs, HSys.
  specialize (HSys (or_intror HSol)).
  set (x := mulv (o_n o + m + 1) P (Ub (o_n o) m (g_of o pos) (f_of ts p pos))) in *.
  assert (Hx : x i = x j) by (apply (upinv_equal_weights u q specs); assumption).
  destruct (uk_cells E u q specs r p pos HR HS (or_intror HSol) HF) as (v0 & s0 & Hv0 & Hs0 & HE0). fold o ts m in HE0.
  destruct (uk_cells E u' q specs r' p pos HR' HS') as (v1 & s1 & Hv1 & Hs1 & HE1); [|exact HF'|].
  { right. destruct (Hreg (g_of o' pos) (f_of ts' p pos)) as (w1 & mu1 & nu1 & HS1 & _). exists w1, mu1, nu1. exact HS1. }
  fold o' n ts' in HE1. rewrite TL in HE1.
  assert (HMS : forall w mu nu, UK_system (o_n o) m (G_of o) (F_of ts) (g_of o pos) (f_of ts p pos) w mu nu ->
    UK_system n m (G_of o') (F_of ts') (g_of o' pos) (f_of ts' p pos) (merged i j w) mu nu).
  { intros w mu nu HW. rewrite Hn in HW. apply (umerged_system n m i j) in HW; try assumption; try lia.
    refine (UK_system_ext n m _ _ _ _ _ _ _ _ _ _ _ _ _ _ _ HW).
    - intros a b Ha Hb. symmetry. apply HG; assumption.
    - intros k a Hk Ha. symmetry. apply TF; assumption.
    - intros a Ha. symmetry. apply Hg, Ha.
    - intros k Hk. symmetry. apply Tf, Hk. }
  rewrite Hs0, Hs1, Hv, Hv1. split; f_equal.
  - assert (HE2 : UK_estimate n m (G_of o') (F_of ts') (g_of o' pos) (f_of ts' p pos) (o_values o')
       (bsum n (fun a => merged i j x a * o_values o' a)) (bsum n (fun a => merged i j x a * g_of o' pos a) +
          bsum m (fun k => (- x (o_n o + k)%nat) * f_of ts' p pos k) + - x (o_n o + m)%nat)).
    { exists (merged i j x), (- x (o_n o + m)%nat), (fun k => - x (o_n o + k)%nat). split; [apply HMS, HSys|]. split; reflexivity. }
    destruct (UK_estimate_unique _ _ _ _ _ _ _ _ _ _ _ Hreg' HE1 HE2) as [-> _].
    rewrite (merged_values n i j x (o_values o) (o_values o')); [rewrite <- Hn; reflexivity|lia|lia|exact Hne|exact Hx|].
    intros a Ha. apply (mg_values _ _ _ _ HM a Ha).
  - destruct HE0 as (w & mu & nu & HW & _ & ->).
    assert (HE2 : UK_estimate n m (G_of o') (F_of ts') (g_of o' pos) (f_of ts' p pos) (o_values o')
       (bsum n (fun a => merged i j w a * o_values o' a)) (bsum n (fun a => merged i j w a * g_of o' pos a) +
          bsum m (fun k => nu k * f_of ts' p pos k) + mu)).
    { exists (merged i j w), mu, nu. split; [apply HMS, HW|]. split; reflexivity. }
    destruct (UK_estimate_unique _ _ _ _ _ _ _ _ _ _ _ Hreg' HE1 HE2) as [_ ->]. f_equal. f_equal.
    + rewrite Hn. rewrite <- (merged_sum n i j w (g_of o pos)) by (try lia; exact Hgg).
      apply bsum_ext; intros a Ha. rewrite Hg by exact Ha. reflexivity.
    + apply bsum_ext; intros k Hk. rewrite Tf by exact Hk. reflexivity.
Qed.
