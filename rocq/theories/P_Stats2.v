(** C75, C76: statistics of related objects; anisotropy as a change of coordinates. *)
From Coq Require Import String Permutation FunctionalExtensionality.
From Verif Require Import Base Sums Matrix M_Variogram P_Variogram M_Geometry S_Geometry P_Geometry M_Kriging S_Kriging
  P_Kriging P_OKSpec M_Init M_Object M_Execute S_Execute P_Object P_Execute P_Cells P_Window P_WindowExec P_Master P_Det P_OK P_Similar P_Binning P_Data P_Linear P_Exec2 P_Data2 P_Motion
  S_Fit S_State S_Amplify P_Amplify P_Fit4 S_Stats P_Stats S_Stretch P_State5.

Lemma current_inv E c A us o : current_statistics E c A us o -> reachable E o /\ coords_inv o /\ o_pinv o = c_pinv A /\
  exists st, all_statistics (e_la E) (o_ct o) (o_dim o) (o_n o) (o_adj o) (o_values o) (o_vg o) (o_pinv o) = Ok st /\ o_stats o = Some st.
Proof.
  intros [HB HC]. pose proof (built_reachable _ _ _ _ _ HB) as HR. split; [exact HR|]. split; [apply (reachable_inv _ _ HR)|]. split.
  - destruct HB as (_ & o0 & H & ->). destruct (construct_inv E c A o0 H) as (ex & nm & prm & fn & sc & an & f & vp & lags & sv & params & Hall).
    destruct Hall as (_&_&_&_&_&_&_&_&_&Hp&_). rewrite <- Hp. apply (after_updates_fixed E us o0).
  - destruct HC as [(-> & HS)|(us0 & v & o0 & -> & HB0 & HU)].
    + destruct HB as (_ & o0 & H & ->). apply (construct_stats E c A o0 H HS).
    + apply (update_success_stats E o0 v o HU).
Qed.

Lemma dists_sep o i j : coords_inv o -> dists o i j = sep o i j.
Proof. apply data_distances_sep. Qed.

Lemma sqrt_one_scaled a st st' : stats_scaled a (sqrt 1) st st' -> stats_scaled a 1 st st'.
Proof. rewrite sqrt_1. auto. Qed.

(** values *)
Theorem statistics_affine E c A us o o' a b : env_ok E -> current_statistics E c A us o ->
  current_statistics E c (with_values A (map (fun z => a * z + b) (c_values A))) us o' ->
  (forall v, In v (c_v A :: us) -> explicit_params v) -> (c_pinv A = false \/ b = 0) -> statistics_scaled a 1 o o'.
Proof.
  intros HE HC HC' HX HP. destruct (current_inv _ _ _ _ _ HC) as (_ & I & P & st & S1 & S2). destruct (current_inv _ _ _ _ _ HC') as (_ & I' & P' & st' & S1' & S2').
  destruct HC as [HB _], HC' as [HB' _].
  pose proof (built_geo E c A _ us o o' HB HB' HX eq_refl eq_refl eq_refl) as G. unfold geo in G.
  exists st, st'. split; [exact S2|]. split; [exact S2'|]. apply sqrt_one_scaled.
  assert (DD : forall i j, dists o' i j = dists o i j).
  { intros i j. unfold dists. rewrite (ag_ct _ _ G), (ag_adj _ _ G). unfold o_dim. rewrite (ag_class _ _ G). reflexivity. }
  assert (VG : forall d, o_vg o' d = o_vg o d) by (intros d; unfold o_vg; rewrite (ag_fun _ _ G), (ag_params _ _ G); reflexivity).
  apply (statistics_related (e_la E) o o' a b 1); try assumption; try lra.
  - apply HE.
  - apply (ag_n _ _ G).
  - rewrite P, P'. reflexivity.
  - intros T. split; [reflexivity|]. destruct HP as [F|F]; [congruence|exact F].
  - intros i j _ _ _. rewrite DD, VG. ring.
  - intros i j _ _. rewrite DD. tauto.
  - intros i Hi. destruct HB as (_ & o0 & H & E0). destruct HB' as (_ & o0' & H' & E0').
    destruct (construct_orig _ _ _ _ H) as (_ & _ & V & _ & N & _). destruct (construct_orig _ _ _ _ H') as (_ & _ & V' & _).
    assert (o_values o = o_values o0 /\ o_n o = o_n o0) as [-> NN] by (rewrite E0; split; apply (after_updates_fixed E us o0)).
    assert (o_values o' = o_values o0') as -> by (rewrite E0'; apply (after_updates_fixed E us o0')).
    rewrite V, V'. cbn [c_values with_values]. rewrite NN, N in Hi.
    unfold rnth. rewrite (nth_indep _ 0 (a * 0 + b)) by (rewrite map_length; exact Hi). apply (map_nth (fun z => a * z + b)).
Qed.

(** same variogram values at the distances between the data *)
Lemma statistics_generic E c c' A A' us us' o o' k : env_ok E -> 0 < k -> current_statistics E c A us o -> current_statistics E c' A' us' o' ->
  o_n o' = o_n o -> o_pinv o' = o_pinv o -> (o_pinv o = true -> k = 1) ->
  (forall i j, (i < o_n o)%nat -> (j < o_n o)%nat -> i <> j -> o_vg o' (sep o' i j) = k * o_vg o (sep o i j)) ->
  (forall i j, (i < o_n o)%nat -> (j < o_n o)%nat -> sep o' i j <= eps <-> sep o i j <= eps) ->
  (forall i, (i < o_n o)%nat -> o_values o' i = o_values o i) ->
  k = 1 \/ (all_residuals o /\ all_residuals o') -> statistics_scaled 1 (sqrt k) o o'.
Proof.
  intros HE Hk HC HC' HN HP HPk HD HZ HV HR.
  destruct (current_inv _ _ _ _ _ HC) as (_ & I & P & st & S1 & S2). destruct (current_inv _ _ _ _ _ HC') as (_ & I' & P' & st' & S1' & S2').
  exists st, st'. split; [exact S2|]. split; [exact S2'|].
  apply (statistics_related (e_la E) o o' 1 0 k); try assumption.
  - apply HE.
  - intros T. split; [apply HPk, T|reflexivity].
  - intros i j Hi Hj Hne. rewrite !dists_sep by assumption. apply HD; assumption.
  - intros i j Hi Hj. rewrite !dists_sep by assumption. apply HZ; assumption.
  - intros i Hi. rewrite HV by exact Hi. ring.
  - destruct HR as [HR|[(st1 & T1 & L1) (st2 & T2 & L2)]]; [left; exact HR|right]. rewrite S2 in T1. injection T1 as <-. rewrite S2' in T2. injection T2 as <-.
    rewrite HN in L2. split; assumption.
Qed.

Theorem statistics_amplified E c c' A A' us us' o o' k : env_ok E -> 0 < k -> current_statistics E c A us o -> current_statistics E c' A' us' o' ->
  amplified k o o' -> o_pinv o = false -> o_pinv o' = false -> all_residuals o -> all_residuals o' -> statistics_scaled 1 (sqrt k) o o'.
Proof.
  intros HE Hk HC HC' HA P P' R R'.
  assert (SS : forall i j, (i < o_n o)%nat -> (j < o_n o)%nat -> sep o' i j = sep o i j).
  { intros i j Hi Hj. unfold sep. rewrite (amplified_sep k o o' _ _ HA), !(am_datum _ _ _ HA) by assumption. reflexivity. }
  apply (statistics_generic E c c' A A' us us'); try assumption.
  - apply (am_n _ _ _ HA).
  - congruence.
  - congruence.
  - intros i j Hi Hj _. rewrite SS by assumption. apply (am_vg _ _ _ HA).
  - intros i j Hi Hj. rewrite SS by assumption. tauto.
  - apply (am_values _ _ _ HA).
  - right. split; assumption.
Qed.

Theorem statistics_unit E c c' A A' us us' o o' k : env_ok E -> 0 < k -> current_statistics E c A us o -> current_statistics E c' A' us' o' ->
  magnified k o o' -> o_pinv o' = o_pinv o ->
  (forall i j, (i < o_n o)%nat -> (j < o_n o)%nat -> i <> j -> eps < sep o i j /\ eps < k * sep o i j) -> statistics_scaled 1 1 o o'.
Proof.
  intros HE Hk HC HC' HM P HS.
  assert (Hsep : forall x y, separation o' (scale3 k x) (scale3 k y) = k * separation o x y).
  { intros x y. rewrite !separation_gen, (mf_ct _ _ _ HM), (mf_ct' _ _ _ HM), (mf_scaling _ _ _ HM), (mf_angle _ _ _ HM).
    unfold o_dim. rewrite (mf_class _ _ _ HM). apply sep_scale, Hk. }
  assert (SS : forall i j, (i < o_n o)%nat -> (j < o_n o)%nat -> sep o' i j = k * sep o i j).
  { intros i j Hi Hj. unfold sep. rewrite !(mf_datum _ _ _ HM) by assumption. apply Hsep. }
  rewrite <- sqrt_1 at 2. apply (statistics_generic E c c' A A' us us' o o' 1); try assumption; try lra.
  - apply (mf_n _ _ _ HM).
  - intros i j Hi Hj _. rewrite SS by assumption. rewrite (mf_vg _ _ _ HM) by apply separation_nonneg. ring.
  - intros i j Hi Hj. rewrite SS by assumption. destruct (Nat.eq_dec i j) as [->|NE].
    + assert (Z : sep o j j = 0) by apply separation_refl'. rewrite Z. rewrite Rmult_0_r. tauto.
    + destruct (HS i j Hi Hj NE). split; intros; lra.
  - apply (mf_values _ _ _ HM).
Qed.

(** moved data *)
Lemma motion_moved E c A coords us (f : vec3 -> vec3) (Q : vec -> vec -> Prop) o o' :
  built E c A us o -> built E c (with_data A coords (c_values A)) us o' ->
  (forall i, (i < List.length (c_values A))%nat -> input c (with_data A coords (c_values A)) i = f (input c A i)) ->
  Q (fun _ => 1) (fun _ => 0) -> (forall v, In v (c_v A :: us) -> update_Q E c (o_ct o) Q v) ->
  (forall sc an, Q sc an -> forall x y, (cdim c = 2%nat -> snd x = 0 /\ snd y = 0) -> sep_gen (o_ct o) (cdim c) sc an (f x) (f y) = sep_gen (o_ct o) (cdim c) sc an x y) ->
  moved Q (fun i => i) o o'.
Proof.
  intros HB HB' HI H10 HU Hsep.
  pose proof HB as (HL & o0 & H & Ho). pose proof HB' as (HL' & o0' & H' & Ho').
  destruct (construct_orig _ _ _ _ H) as (C1 & O1 & V1 & N1 & M1 & S1).
  destruct (construct_orig _ _ _ _ H') as (C2 & O2 & V2 & N2 & M2 & S2). cbn [c_coords c_values with_data] in *.
  assert (HCT : o_ct o = o_ct o0) by (rewrite Ho; apply (after_updates_fixed E us o0)).
  rewrite HCT in *.
  assert (Hd0 : o_dim o0 = cdim c) by (unfold o_dim; rewrite C1; reflexivity).
  rewrite Ho, Ho'. apply (built_moved E c A (with_data A coords (c_values A)) us); try assumption; try reflexivity.
  - congruence.
  - split; auto.
  - intros i Hi. rewrite V1, V2. reflexivity.
  - intros sc an HQ i j Hi Hj. rewrite !(construct_datum _ _ _ _ _ H), !(construct_datum _ _ _ _ _ H').
    rewrite Hd0, !HI by (rewrite <- M1; assumption). apply Hsep; [exact HQ|]. intros H2. unfold input, loc. rewrite H2. split; reflexivity.
Qed.

Lemma moved_statistics E c A A' us us' o o' Q : env_ok E -> current_statistics E c A us o -> current_statistics E c A' us' o' ->
  c_pinv A' = c_pinv A -> moved Q (fun i => i) o o' -> statistics_scaled 1 1 o o'.
Proof.
  intros HE HC HC' HP HM.
  destruct (current_inv _ _ _ _ _ HC) as (_ & _ & P & _). destruct (current_inv _ _ _ _ _ HC') as (_ & _ & P' & _).
  assert (SS : forall i j, (i < o_n o)%nat -> (j < o_n o)%nat -> sep o' i j = sep o i j).
  { intros i j Hi Hj. apply (moved_separation Q (fun i => i) o o' i j HM); assumption. }
  rewrite <- sqrt_1 at 2. apply (statistics_generic E c c A A' us us' o o' 1); try assumption; try lra.
  - apply (mv_n _ _ _ _ HM).
  - congruence.
  - intros i j Hi Hj _. rewrite SS by assumption. unfold o_vg. rewrite (mv_fun _ _ _ _ HM), (mv_params _ _ _ _ HM). ring.
  - intros i j Hi Hj. rewrite SS by assumption. tauto.
  - apply (mv_values _ _ _ _ HM).
Qed.

Theorem statistics_translation E c A coords us t o o' : env_ok E ->
  current_statistics E c A us o -> current_statistics E c (with_data A coords (c_values A)) us o' -> o_ct o = Euclidean ->
  (forall i, (i < List.length (c_values A))%nat -> input c (with_data A coords (c_values A)) i = add3 (input c A i) t) ->
  statistics_scaled 1 1 o o'.
Proof.
  intros HE HC HC' Hct HI. apply (moved_statistics E c A (with_data A coords (c_values A)) us us o o' (fun _ _ => True) HE HC HC' eq_refl).
  apply (motion_moved E c A coords us (fun x => add3 x t)); try assumption; try exact I.
  - apply HC.
  - apply HC'.
  - intros; apply update_Q_true.
  - intros sc an _ x y _. rewrite Hct. unfold sep_gen. rewrite !sub3_shift. reflexivity.
Qed.

Lemma plane_iso s an x y : s = 1 -> (snd x = 0 /\ snd y = 0) -> aniso2 s an (sub3 x y) = dist3 x y.
Proof. intros Hs [Hx Hy]. apply aniso2_iso; congruence. Qed.

Theorem statistics_isometry E c A coords us (f : vec3 -> vec3) o o' : env_ok E ->
  current_statistics E c A us o -> current_statistics E c (with_data A coords (c_values A)) us o' -> o_ct o = Euclidean ->
  (forall v, In v (c_v A :: us) -> isotropic c v) ->
  (forall x y, dist3 (f x) (f y) = dist3 x y) -> (cdim c = 2%nat -> forall x, snd x = 0 -> snd (f x) = 0) ->
  (forall i, (i < List.length (c_values A))%nat -> input c (with_data A coords (c_values A)) i = f (input c A i)) ->
  statistics_scaled 1 1 o o'.
Proof.
  intros HE HC HC' Hct HIso Hf Hf2 HI.
  apply (moved_statistics E c A (with_data A coords (c_values A)) us us o o' (fun sc an => sc 0%nat = 1 /\ (cdim c = 3%nat -> sc 1%nat = 1)) HE HC HC' eq_refl).
  apply (motion_moved E c A coords us f); try assumption.
  - apply HC.
  - apply HC'.
  - split; reflexivity.
  - intros v Hv. apply isotropic_Q, HIso, Hv.
  - intros sc an [H0 H1] x y H2. rewrite Hct. unfold sep_gen. destruct (cdim_cases c) as [Hc|Hc]; rewrite Hc in *; cbn [Nat.eqb].
    + destruct (H2 eq_refl) as [X0 Y0]. rewrite !plane_iso by (try exact H0; split; auto). apply Hf.
    + rewrite !aniso3_iso by auto. apply Hf.
Qed.

(** anisotropy *)
Lemma stretch_distance c v x y :
  dist3 (stretch c v x) (stretch c v y) = sep_gen Euclidean (cdim c) (a_scaling v) (a_angle v) x y.
Proof.
  destruct x as [[x1 x2] x3], y as [[y1 y2] y3]. unfold stretch, sep_gen. destruct (Nat.eqb (cdim c) 3).
  - unfold aniso3. cbv zeta. destruct (rotated_axis _ _ _ (1,0,0)) as [[e1 e2] e3], (rotated_axis _ _ _ (0,1,0)) as [[f1 f2] f3], (rotated_axis _ _ _ (0,0,1)) as [[g1 g2] g3].
    unfold dist3, dot3, sub3, Rsqr. f_equal. ring.
  - unfold aniso2. cbv zeta. unfold dist3, dot3, sub3, Rsqr. f_equal. ring.
Qed.
Lemma stretch_plane c v x : cdim c = 2%nat -> snd (stretch c v x) = 0.
Proof. intros H. unfold stretch. rewrite H. reflexivity. Qed.

Lemma stretch_construct E c A coords name o o' : construct E c A = Ok o -> construct E c (relocated A coords) = Ok o' ->
  o_ct o = Euclidean -> a_model (c_v A) = VName name ->
  (forall i, (i < List.length (c_values A))%nat -> input c (relocated A coords) i = stretch c (c_v A) (input c A i)) ->
  o_ct o' = Euclidean /\ o_class o' = o_class o /\ o_class o = c /\ o_n o' = o_n o /\ o_values o' = o_values o /\ o_fun o' = o_fun o /\ o_exact o' = o_exact o /\
  o_pinv o' = o_pinv o /\ o_pinv o = c_pinv A /\ o_params o' = o_params o /\ o_lags o' = o_lags o /\ o_semivariance o' = o_semivariance o /\
  (forall x y, separation o x y = dist3 (stretch c (c_v A) x) (stretch c (c_v A) y)) /\
  (forall x y, (cdim c = 2%nat -> snd x = 0 /\ snd y = 0) -> separation o' x y = dist3 x y).
Proof.
  intros H H' Hct Hm HI.
  pose proof (class_ct_name _ _ _ _ H) as N1. pose proof (class_ct_name _ _ _ _ H') as N2. cbn [c_ct relocated with_v with_data] in N2.
  assert (Hc' : o_ct o' = Euclidean) by (rewrite Hct in N1; destruct (o_ct o'); cbn in *; congruence).
  pose proof (construct_coords_inv _ _ _ _ H) as I1. pose proof (construct_coords_inv _ _ _ _ H') as I2.
  destruct (construct_orig _ _ _ _ H) as (C1 & O1 & V1 & M1 & L1 & SL1).
  destruct (construct_orig _ _ _ _ H') as (C2 & O2 & V2 & M2 & L2 & SL2). cbn [c_coords c_values relocated with_v with_data] in *.
  assert (HD := fun i => construct_datum _ _ _ _ i H). assert (HD' := fun i => construct_datum _ _ _ _ i H').
  destruct (construct_inv E c A o H) as (ex & nm & prm & fn & sc & an & f & vp & lags & sv & params & Hall).
  destruct Hall as (_&HX1&Hgs&Hf&Hmp&_&Hini&_&_&HP1&_&HE1&_&Hfo&Hpo&_&_&_&HLa&HSv&_&_&Ha).
  destruct (construct_inv E c _ o' H') as (ex' & nm' & prm' & fn' & sc' & an' & f' & vp' & lags' & sv' & params' & Hall').
  destruct Hall' as (_&HX2&Hgs'&Hf'&Hmp'&_&Hini'&_&_&HP2&_&HE2&_&Hfo'&Hpo'&_&_&_&HLa'&HSv'&_&_&Ha').
  cbn [c_v c_values c_ct c_exact c_pinv relocated with_v with_data without_anisotropy a_nlags a_weight] in *.
  unfold resolve_gs in Hgs, Hgs'. cbn [a_model a_params a_fun a_scaling a_angle without_anisotropy] in Hgs'. rewrite Hm in Hgs, Hgs'.
  injection Hgs as <- <- <- <- <-. injection Hgs' as <- <- <- <- <-.
  rewrite Hf in Hf'. injection Hf' as <-. rewrite Hmp in Hmp'. injection Hmp' as <-.
  assert (SA : o_scaling o = a_scaling (c_v A) /\ o_angle o = a_angle (c_v A)).
  { destruct Ha as [(_ & _ & _ & -> & -> & _)|(_ & _ & Ht & _)]; [auto|congruence]. }
  assert (SA' : o_scaling o' = (fun _ => 1) /\ o_angle o' = (fun _ => 0)).
  { destruct Ha' as [(_ & _ & _ & -> & -> & _)|(_ & _ & Ht & _)]; [auto|congruence]. }
  assert (S1 : forall x y, separation o x y = dist3 (stretch c (c_v A) x) (stretch c (c_v A) y)).
  { intros x y. rewrite stretch_distance, separation_gen, Hct. destruct SA as [-> ->]. unfold o_dim. rewrite C1. reflexivity. }
  assert (S2 : forall x y, (cdim c = 2%nat -> snd x = 0 /\ snd y = 0) -> separation o' x y = dist3 x y).
  { intros x y H2. rewrite separation_gen, Hc'. destruct SA' as [-> ->]. unfold o_dim. rewrite C2. unfold sep_gen.
    destruct (cdim_cases c) as [Hc|Hc]; rewrite Hc in *; cbn [Nat.eqb]; [apply plane_iso; auto|apply aniso3_iso; reflexivity]. }
  assert (SS : forall i j, (i < o_n o)%nat -> (j < o_n o)%nat -> separation o' (datum o' i) (datum o' j) = separation o (datum o i) (datum o j)).
  { intros i j Hi Hj. rewrite !HD, !HD', S1, !HI by lia. apply S2. intros H2. split; apply stretch_plane, H2. }
  assert (HPD : Permutation (pair_data (o_ct o') (cdim c) (o_n o) (o_adj o') (o_values o')) (pair_data (o_ct o) (cdim c) (o_n o) (o_adj o) (o_values o))).
  { rewrite Hc', Hct. apply (pair_data_perm _ _ _ (fun i => i)); [split; auto| |intros; apply distance_sym|intros; congruence].
    intros i j Hi Hj. pose proof (data_distances_sep o' i j I2) as T1. unfold data_distances, o_dim in T1. rewrite Hc', C2 in T1. rewrite T1.
    pose proof (data_distances_sep o i j I1) as T2. unfold data_distances, o_dim in T2. rewrite Hct, C1 in T2. rewrite T2. apply SS; assumption. }
  assert (HQ : (lags', sv', params') = (lags, sv, params)).
  { assert (NN : o_n o' = o_n o) by congruence. rewrite NN, Hc' in Hini'. rewrite V1, V2, Hc', Hct in HPD. rewrite Hct in Hini.
    rewrite (initialize_perm (e_fit E) Euclidean (cdim c) (o_n o) (o_adj o') (o_adj o) _ _ _ _ _ vp f _ _ eq_refl HPD) in Hini'.
    rewrite Hini in Hini'. injection Hini' as <- <- <-. reflexivity. }
  injection HQ as -> -> ->.
  repeat (split; [first [congruence|assumption]|]). assumption.
Qed.

Theorem stretch_statistics E c A coords name o o' : env_ok E -> List.length (c_coords A) = cdim c -> List.length coords = cdim c ->
  construct E c A = Ok o -> construct E c (relocated A coords) = Ok o' ->
  o_ct o = Euclidean -> a_model (c_v A) = VName name -> (c = OK2 -> c_stat A = true) ->
  (forall i, (i < List.length (c_values A))%nat -> input c (relocated A coords) i = stretch c (c_v A) (input c A i)) ->
  statistics_scaled 1 1 o o'.
Proof.
  intros HE HL HL' H H' Hct Hm HS HI.
  destruct (stretch_construct E c A coords name o o' H H' Hct Hm HI) as (C' & K & KC & N & V & F & X & P & P0 & PR & _ & _ & S1 & S2).
  assert (HC : current_statistics E c A [] o) by (split; [split; [exact HL|exists o; auto]|left; auto]).
  assert (HC' : current_statistics E c (relocated A coords) [] o') by (split; [split; [exact HL'|exists o'; auto]|left; auto]).
  assert (NV : o_n o = List.length (c_values A)) by (destruct (construct_orig _ _ _ _ H) as (_ & _ & _ & _ & L1 & _); exact L1).
  assert (SS : forall i j, (i < o_n o)%nat -> (j < o_n o)%nat -> sep o' i j = sep o i j).
  { intros i j Hi Hj. unfold sep. rewrite !(construct_datum _ _ _ _ _ H), !(construct_datum _ _ _ _ _ H'), S1, !HI by lia.
    apply S2. intros H2. split; apply stretch_plane, H2. }
  rewrite <- sqrt_1 at 2. apply (statistics_generic E c c A (relocated A coords) [] [] o o' 1); try assumption; try lra.
  - intros i j Hi Hj _. rewrite SS by assumption. unfold o_vg. rewrite F, PR. ring.
  - intros i j Hi Hj. rewrite SS by assumption. tauto.
  - intros i Hi. rewrite V. reflexivity.
Qed.

Theorem stretch_cells E c A coords name o o' q q' r r' p p' pos : construct E c A = Ok o -> construct E c (relocated A coords) = Ok o' ->
  o_ct o = Euclidean -> a_model (c_v A) = VName name ->
  (forall i, (i < List.length (c_values A))%nat -> input c (relocated A coords) i = stretch c (c_v A) (input c A i)) ->
  run E o q r -> run E o' q' r' -> q_window q' = q_window q ->
  shown o q p pos -> shown o' q' p' (stretch c (c_v A) pos) -> (q_window q <> None -> no_ties o pos) ->
  r_value r p = r_value r' p' /\ r_variance r p = r_variance r' p'.
Proof.
  intros H H' Hct Hm HI HR HR' HW HS HS' Hnt.
  destruct (stretch_construct E c A coords name o o' H H' Hct Hm HI) as (C' & K & KC & N & V & F & X & P & P0 & PR & _ & _ & S1 & S2).
  assert (NV : o_n o = List.length (c_values A)) by (destruct (construct_orig _ _ _ _ H) as (_ & _ & _ & _ & L1 & _); exact L1).
  assert (D : forall i, (i < o_n o)%nat -> datum o' i = stretch c (c_v A) (datum o i)).
  { intros i Hi. rewrite (construct_datum _ _ _ _ _ H), (construct_datum _ _ _ _ _ H'). apply HI. lia. }
  assert (Z : forall x, cdim c = 2%nat -> snd (stretch c (c_v A) x) = 0) by (intros x H2; apply stretch_plane, H2).
  destruct (run_inv _ _ _ _ HR) as (HE & Hinv & Hord & HF & HX). destruct (run_inv _ _ _ _ HR') as (_ & Hinv' & Hord' & HF' & HX').
  assert (SQ : forall i, (i < o_n o)%nat -> separation o' (stretch c (c_v A) pos) (datum o' i) = separation o pos (datum o i)).
  { intros i Hi. rewrite D, S1 by exact Hi. apply S2. intros H2. split; apply Z, H2. }
  eapply (cell_similar E o o' (fun i => i) q q' r r' p p' pos (stretch c (c_v A) pos)); try eassumption; try congruence.
  - split; auto.
  - intros i j Hi Hj. unfold G_of, data_semivariance, o_vg. rewrite F, PR. destruct (Nat.eqb i j); [reflexivity|].
    rewrite !D, S1 by assumption. rewrite S2; [reflexivity|]. intros H2. split; apply Z, H2.
  - intros i Hi. unfold g_of, query_semivariance, o_vg. rewrite F, PR, X, SQ by exact Hi. reflexivity.
  - intros Hw. split; [apply Hnt, Hw|]. exists 1. split; [lra|]. intros i Hi. rewrite Rmult_1_l. apply SQ, Hi.
Qed.
