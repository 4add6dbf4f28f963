(** Proofs for C52: motions of the coordinate system; and for C49, C51. *)
From Coq Require Import String Permutation FunctionalExtensionality.
From Verif Require Import Base Sums Matrix M_Variogram P_Variogram M_Geometry S_Geometry P_Geometry M_Kriging S_Kriging
  P_Kriging P_OKSpec M_Init M_Object M_Execute S_Execute P_Object P_Execute P_Cells P_Window P_WindowExec P_Master P_Det P_OK P_Similar P_Binning P_Data P_Linear Witness P_Exec2 P_Data2 P_Dup.

Lemma motion E c A coords us (f : vec3 -> vec3) (Q : vec -> vec -> Prop) o o' q q' r r' p p' pos :
  built E c A us o -> built E c (with_data A coords (c_values A)) us o' ->
  (forall i, (i < List.length (c_values A))%nat -> input c (with_data A coords (c_values A)) i = f (input c A i)) ->
  Q (fun _ => 1) (fun _ => 0) -> (forall v, In v (c_v A :: us) -> update_Q E c (o_ct o) Q v) ->
  (forall sc an, Q sc an -> forall x y, sep_gen (o_ct o) (cdim c) sc an (f x) (f y) = sep_gen (o_ct o) (cdim c) sc an x y) ->
  run E o q r -> run E o' q' r' -> q_window q' = q_window q ->
  shown o q p pos -> shown o' q' p' (f pos) -> (q_window q <> None -> no_ties o pos) ->
  r_value r p = r_value r' p' /\ r_variance r p = r_variance r' p'.
Proof.
  intros HB HB' HI H10 HU Hsep HR HR' HW HS HS' Hnt.
  pose proof (built_exact _ _ _ _ _ HB) as X. pose proof (built_exact _ _ _ _ _ HB') as X'. cbn in X'.
  assert (HD := fun i => built_datum _ _ _ _ _ i HB). assert (HD' := fun i => built_datum _ _ _ _ _ i HB').
  pose proof (built_class _ _ _ _ _ HB) as HC.
  pose proof HB as (HL & o0 & H & Ho). pose proof HB' as (HL' & o0' & H' & Ho').
  destruct (construct_orig _ _ _ _ H) as (C1 & O1 & V1 & N1 & M1 & S1).
  destruct (construct_orig _ _ _ _ H') as (C2 & O2 & V2 & N2 & M2 & S2). cbn [c_coords c_values with_data] in *.
  assert (HCT : o_ct o = o_ct o0) by (rewrite Ho; apply (after_updates_fixed E us o0)).
  assert (HNN : o_n o = o_n o0) by (rewrite Ho; apply (after_updates_fixed E us o0)).
  rewrite HCT in *.
  assert (Hd0 : o_dim o0 = cdim c) by (unfold o_dim; rewrite C1; reflexivity).
  assert (HM : moved Q (fun i => i) o o').
  { rewrite Ho, Ho'. apply (built_moved E c A (with_data A coords (c_values A)) us); try assumption; try reflexivity; try exact I.
    - congruence.
    - split; auto.
    - intros i Hi. rewrite V1, V2. reflexivity.
    - intros sc an HQ i j Hi Hj. rewrite !(construct_datum _ _ _ _ _ H), !(construct_datum _ _ _ _ _ H').
      rewrite Hd0, !HI by (rewrite <- M1; assumption). apply Hsep, HQ. }
  apply (moved_cells E Q (fun i => i) o o' q q' r r' p p' pos (f pos) HR HR' HM); try assumption; [congruence|congruence|].
  intros i Hi. rewrite HD, HD', HI by (rewrite <- M1, <- HNN; exact Hi).
  rewrite !separation_gen, (moved_dim _ _ _ _ HM), (mv_ct _ _ _ _ HM), (mv_scaling _ _ _ _ HM), (mv_angle _ _ _ _ HM).
  unfold o_dim. rewrite HC, HCT. apply Hsep, (mv_Q _ _ _ _ HM).
Qed.

Lemma sub3_shift x y t : sub3 (add3 x t) (add3 y t) = sub3 x y.
Proof. destruct x as [[a b] c], y as [[u v] w], t as [[k l] m]. cbn. f_equal; [f_equal|]; ring. Qed.

Lemma translation E c A coords us t o o' q q' r r' p p' pos :
  built E c A us o -> built E c (with_data A coords (c_values A)) us o' -> o_ct o = Euclidean ->
  (forall i, (i < List.length (c_values A))%nat -> input c (with_data A coords (c_values A)) i = add3 (input c A i) t) ->
  run E o q r -> run E o' q' r' -> q_window q' = q_window q ->
  shown o q p pos -> shown o' q' p' (add3 pos t) -> (q_window q <> None -> no_ties o pos) ->
  r_value r p = r_value r' p' /\ r_variance r p = r_variance r' p'.
Proof.
  intros HB HB' Hct HI. apply (motion E c A coords us (fun x => add3 x t) (fun _ _ => True) o o' q q'); try assumption; try exact I.
  - intros; apply update_Q_true.
  - intros sc an _ x y. rewrite Hct. unfold sep_gen. rewrite !sub3_shift. reflexivity.
Qed.

Lemma aniso2_iso s an x y : s = 1 -> snd x = snd y -> aniso2 s an (sub3 x y) = dist3 x y.
Proof.
  intros -> Hz. destruct x as [[a b] c], y as [[u v] w]. cbn in Hz. subst w. unfold aniso2, dist3, sub3, dot3, Rsqr. f_equal.
  pose proof (sc1 (rad an)). set (C := cos (rad an)) in *. set (S := sin (rad an)) in *.
  replace ((a - u) * (a - u) + (b - v) * (b - v) + (c - c) * (c - c)) with ((S * S + C * C) * ((a - u) * (a - u) + (b - v) * (b - v))) by (rewrite H; ring).
  ring.
Qed.
Lemma aniso3_iso sy sz ax ay az x y : sy = 1 -> sz = 1 -> aniso3 sy sz ax ay az (sub3 x y) = dist3 x y.
Proof.
  intros -> ->. destruct x as [[a b] c], y as [[u v] w]. unfold aniso3, dist3.
  pose proof (parseval3 (rad ax) (rad ay) (rad az) (sub3 (a, b, c) (u, v, w))) as HP. cbv zeta in HP.
  f_equal. unfold Rsqr. rewrite !Rmult_1_l. etransitivity; [exact HP|]. cbn. ring.
Qed.

Lemma isotropic_Q E c ct v : isotropic c v -> update_Q E c ct (fun sc an => sc 0%nat = 1 /\ (cdim c = 3%nat -> sc 1%nat = 1)) v.
Proof.
  intros H name prm fn sc an HR. unfold isotropic, resolve_gs in *. destruct (a_model v).
  - injection HR as _ _ _ <- _. exact H.
  - bindok HR. bindok HR. injection HR as _ _ _ <- _. exact H.
Qed.

Lemma isometry E c A coords us (f : vec3 -> vec3) o o' q q' r r' p p' pos :
  built E c A us o -> built E c (with_data A coords (c_values A)) us o' -> o_ct o = Euclidean ->
  (forall v, In v (c_v A :: us) -> isotropic c v) ->
  (forall x y, dist3 (f x) (f y) = dist3 x y) -> (cdim c = 2%nat -> forall x, snd x = 0 -> snd (f x) = 0) ->
  (forall i, (i < List.length (c_values A))%nat -> input c (with_data A coords (c_values A)) i = f (input c A i)) ->
  run E o q r -> run E o' q' r' -> q_window q' = q_window q ->
  shown o q p pos -> shown o' q' p' (f pos) -> (q_window q <> None -> no_ties o pos) ->
  r_value r p = r_value r' p' /\ r_variance r p = r_variance r' p'.
Proof.
  intros HB HB' Hct HIso Hf Hf2 HI HR HR' HW HS HS'.
  assert (HC := built_class _ _ _ _ _ HB).
  assert (Hcell : cdim c = 2%nat -> snd pos = 0).
  { intros H2. destruct HS as [C _]. unfold o_dim in C. rewrite HC, H2 in C. destruct C; reflexivity. }
  set (g := fun x : vec3 => if Nat.eqb (cdim c) 2 then (let '(a, b, _) := x in let '(u, v, _) := f (a, b, 0) in (u, v, 0)) else f x).
  assert (Hg : forall x, (cdim c = 2%nat -> snd x = 0) -> g x = f x).
  { intros [[a b] c0] Hx. unfold g. destruct (Nat.eqb_spec (cdim c) 2) as [E2|E2]; [|reflexivity].
    cbn in Hx. specialize (Hx E2). subst c0. specialize (Hf2 E2 (a, b, 0) eq_refl).
    destruct (f (a, b, 0)) as [[u v] w]. cbn in Hf2. rewrite Hf2. reflexivity. }
  rewrite <- Hg in HS' by exact Hcell.
  revert HR HR' HW HS HS'.
  apply (motion E c A coords us g (fun sc an => sc 0%nat = 1 /\ (cdim c = 3%nat -> sc 1%nat = 1)) o o' q q'); try assumption.
  - intros i Hi. rewrite HI by exact Hi. symmetry. apply Hg. intros H2. unfold input, loc. rewrite H2. reflexivity.
  - split; reflexivity.
  - intros v Hv. apply isotropic_Q, HIso, Hv.
  - intros sc an [H0 H1] x y. rewrite Hct. unfold sep_gen.
    destruct (cdim_cases c) as [Hc|Hc]; rewrite Hc in *; cbn [Nat.eqb].
    + destruct x as [[a b] c1], y as [[u v] w]. unfold g. rewrite Hc. cbn [Nat.eqb].
      pose proof (Hf (a, b, 0) (u, v, 0)) as HF.
      pose proof (Hf2 eq_refl (a, b, 0) eq_refl) as F1. pose proof (Hf2 eq_refl (u, v, 0) eq_refl) as F2.
      destruct (f (a, b, 0)) as [[a' b'] c'], (f (u, v, 0)) as [[u' v'] w']. cbn in F1, F2. subst c' w'.
      rewrite (aniso2_iso _ _ (a', b', 0) (u', v', 0) H0 eq_refl), HF.
      rewrite <- (aniso2_iso _ (an 0%nat) (a, b, 0) (u, v, 0) H0 eq_refl). unfold aniso2, sub3, dot3. f_equal. f_equal.
      * f_equal; ring.
      * f_equal; f_equal; ring.
    + unfold g. rewrite Hc. cbn [Nat.eqb]. rewrite !aniso3_iso by auto. apply Hf.
Qed.

Lemma geographic_motion E A coords us (f : vec3 -> vec3) o o' q q' r r' p p' pos :
  built E OK2 A us o -> built E OK2 (with_data A coords (c_values A)) us o' -> o_ct o = Geographic ->
  (forall x y, great_circle_distance (lon (f x)) (lat (f x)) (lon (f y)) (lat (f y)) = great_circle_distance (lon x) (lat x) (lon y) (lat y)) ->
  (forall i, (i < List.length (c_values A))%nat -> input OK2 (with_data A coords (c_values A)) i = f (input OK2 A i)) ->
  run E o q r -> run E o' q' r' -> q_window q' = q_window q ->
  shown o q p pos -> shown o' q' p' (f pos) -> (q_window q <> None -> no_ties o pos) ->
  r_value r p = r_value r' p' /\ r_variance r p = r_variance r' p'.
Proof.
  intros HB HB' Hct Hf HI. apply (motion E OK2 A coords us f (fun _ _ => True) o o' q q'); try assumption; try exact I.
  - intros; apply update_Q_true.
  - intros sc an _ x y. rewrite Hct. unfold sep_gen. apply Hf.
Qed.

Lemma longitude_shift E A coords us t o o' q q' r r' p p' pos :
  built E OK2 A us o -> built E OK2 (with_data A coords (c_values A)) us o' -> o_ct o = Geographic ->
  (forall i, (i < List.length (c_values A))%nat -> input OK2 (with_data A coords (c_values A)) i = add3 (input OK2 A i) (t, 0, 0)) ->
  run E o q r -> run E o' q' r' -> q_window q' = q_window q ->
  shown o q p pos -> shown o' q' p' (add3 pos (t, 0, 0)) -> (q_window q <> None -> no_ties o pos) ->
  r_value r p = r_value r' p' /\ r_variance r p = r_variance r' p'.
Proof.
  intros HB HB' Hct HI. apply (geographic_motion E A coords us (fun x => add3 x (t, 0, 0)) o o' q q'); try assumption.
  intros [[a b] c] [[u v] w]. unfold lon, lat. cbn. unfold great_circle_distance.
  replace (a + t - (u + t)) with (a - u) by ring. rewrite !Rplus_0_r. reflexivity.
Qed.

(** *** scaling *)
Lemma sep_scale k sc an dim x y : 0 < k -> sep_gen Euclidean dim sc an (scale3 k x) (scale3 k y) = k * sep_gen Euclidean dim sc an x y.
Proof.
  intros Hk. destruct x as [[a b] c], y as [[u v] w]. unfold sep_gen.
  assert (HS : forall z, sqrt (k * k * z) = k * sqrt z) by (intros z; rewrite sqrt_mult_alt by nra; rewrite sqrt_square by lra; reflexivity).
  destruct (Nat.eqb dim 3).
  - unfold aniso3. rewrite <- HS. f_equal. cbv zeta.
    destruct (rotated_axis _ _ _ (1,0,0)) as [[e1 e2] e3], (rotated_axis _ _ _ (0,1,0)) as [[f1 f2] f3], (rotated_axis _ _ _ (0,0,1)) as [[g1 g2] g3].
    unfold dot3, sub3, scale3, Rsqr. ring.
  - unfold aniso2. rewrite <- HS. f_equal. unfold dot3, sub3, scale3, Rsqr. ring.
Qed.

Lemma scaling E o o' k q q' r r' p p' pos : 0 < k -> magnified k o o' ->
  run E o q r -> run E o' q' r' -> q_window q' = q_window q ->
  shown o q p pos -> shown o' q' p' (scale3 k pos) ->
  (forall i, (i < o_n o)%nat -> separation o pos (datum o i) = 0 \/ (eps < separation o pos (datum o i) /\ eps < k * separation o pos (datum o i))) ->
  (q_window q <> None -> no_ties o pos) ->
  r_value r p = r_value r' p' /\ r_variance r p = r_variance r' p'.
Proof.
  intros Hk HM HR HR' HW HS HS' Hfar Hnt.
  destruct (run_inv _ _ _ _ HR) as (HE & Hinv & Hord & HF & H). destruct (run_inv _ _ _ _ HR') as (_ & Hinv' & Hord' & HF' & H').
  assert (Hsep : forall x y, separation o' (scale3 k x) (scale3 k y) = k * separation o x y).
  { intros x y. rewrite !separation_gen, (mf_ct _ _ _ HM), (mf_ct' _ _ _ HM), (mf_scaling _ _ _ HM), (mf_angle _ _ _ HM).
    unfold o_dim. rewrite (mf_class _ _ _ HM). apply sep_scale, Hk. }
  eapply (cell_similar E o o' (fun i => i) q q' r r' p p' pos (scale3 k pos)); try eassumption; try congruence.
  - apply (mf_n _ _ _ HM).
  - split; auto.
  - apply (mf_values _ _ _ HM).
  - intros i j Hi Hj. unfold G_of, data_semivariance. destruct (Nat.eqb i j); [reflexivity|].
    rewrite !(mf_datum _ _ _ HM) by assumption. rewrite Hsep. apply (mf_vg _ _ _ HM), separation_nonneg.
  - intros i Hi. unfold g_of, query_semivariance. rewrite (mf_datum _ _ _ HM) by exact Hi. rewrite Hsep, (mf_exact _ _ _ HM).
    rewrite (mf_vg _ _ _ HM) by apply separation_nonneg.
    destruct (o_exact o); [|reflexivity]. cbn [andb].
    assert (Hn := separation_nonneg o pos (datum o i)). specialize (Hfar i Hi). revert Hn Hfar.
    generalize (separation o pos (datum o i)). intros d Hn Hfar.
    rewrite (Rabs_right d), (Rabs_right (k * d)) by nra.
    destruct Hfar as [H0|[H1 H2]].
    + rewrite H0, Rmult_0_r. reflexivity.
    + rewrite (proj2 (Rleb_false d eps)), (proj2 (Rleb_false (k * d) eps)) by assumption. reflexivity.
  - intros Hw. split; [apply Hnt, Hw|]. exists k. split; [exact Hk|]. intros i Hi. rewrite (mf_datum _ _ _ HM) by exact Hi. apply Hsep.
Qed.

(** scaled variogram parameters *)
Lemma scaled_linear k a b d : 0 < k -> linear_variogram_model [a / k; b] (k * d) = linear_variogram_model [a; b] d.
Proof. intros. unfold linear_variogram_model, rnth; cbn. field. lra. Qed.
Lemma scaled_power k a e b d : 0 < k -> 0 <= d -> power_variogram_model [a / Rpower k e; e; b] (k * d) = power_variogram_model [a; e; b] d.
Proof.
  intros Hk Hd. unfold power_variogram_model, rnth, npow; cbn [nth].
  destruct (Reqb_spec d 0) as [->|Hne].
  - rewrite Rmult_0_r, Reqb_refl. destruct (Reqb_spec e 0) as [->|]; [rewrite Rpower_O by exact Hk; field|ring].
  - rewrite (proj2 (Reqb_false (k * d) 0)) by nra.
    rewrite <- Rpower_mult_distr by lra. field. unfold Rpower. apply Rgt_not_eq, exp_pos.
Qed.
Lemma scaled_gaussian k a l b d : 0 < k -> l <> 0 -> gaussian_variogram_model [a; k * l; b] (k * d) = gaussian_variogram_model [a; l; b] d.
Proof. intros. unfold gaussian_variogram_model, rnth; cbn [nth]. do 4 f_equal. field. split; lra. Qed.
Lemma scaled_exponential k a l b d : 0 < k -> l <> 0 -> exponential_variogram_model [a; k * l; b] (k * d) = exponential_variogram_model [a; l; b] d.
Proof. intros. unfold exponential_variogram_model, rnth; cbn [nth]. do 4 f_equal. field. split; lra. Qed.
Lemma scaled_spherical k a l b d : 0 < k -> l <> 0 -> spherical_variogram_model [a; k * l; b] (k * d) = spherical_variogram_model [a; l; b] d.
Proof.
  intros. unfold spherical_variogram_model, rnth; cbn [nth].
  destruct (Rleb_spec (k * d) (k * l)), (Rleb_spec d l); try reflexivity; try (f_equal; f_equal; field; split; lra); exfalso; nra.
Qed.
Lemma scaled_hole k a l b d : 0 < k -> l <> 0 -> hole_effect_variogram_model [a; k * l; b] (k * d) = hole_effect_variogram_model [a; l; b] d.
Proof.
  intros. unfold hole_effect_variogram_model, rnth; cbn [nth].
  replace (k * d / (k * l / 3)) with (d / (l / 3)) by (field; split; lra).
  replace (- (k * d) / (k * l / 3)) with (- d / (l / 3)) by (field; split; lra). reflexivity.
Qed.
