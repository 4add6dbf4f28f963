(** PROPERTIES C39-C43, C56, C64, C65: the scikit-learn wrapper Krige, regression kriging and
    classification kriging.  Vocabulary: S_Compat (the direct calls), S_Learn. *)
From Coq Require Import String.
From Verif Require Import Base Sums Matrix M_Variogram M_Geometry S_Geometry M_Kriging M_Init M_Object M_Execute S_Execute M_UK S_UK M_Compat S_Compat
  M_Ilr M_Learn S_Learn P_Compat P_Ilr P_Learn P_Learn2 P_Learn3 P_Learn4 Witness P_UK8.

(** C39.  fit(x, y) behaves as the direct constructor call with the user's options. *)
Theorem C39_fit_is_the_direct_call :
  forall E k x y c, class_of (k_method k) = Some c -> List.length (p_cols x) = cdim c ->
    (2 <= List.length (k_scaling k))%nat -> (3 <= List.length (k_angle k))%nat ->
    krige_fit E k x y = match direct_call E k c x y with Ok m => (set_fitted k (Some m), None) | Err e => (k, Some e) end.
Proof. exact fit_is_direct. Qed.
Print Assumptions C39_fit_is_the_direct_call.

(** exactly the four method names are accepted *)
Theorem C39_method_names :
  forall k, (class_of (k_method k) = None <-> krige_init k = Err ValueError) /\
    forall c, class_of (k_method k) = Some c -> krige_init k = Ok (set_fitted k None).
Proof. exact init_validates. Qed.
Print Assumptions C39_method_names.

Theorem C39_wrong_dimension :
  forall E k x y c, class_of (k_method k) = Some c -> List.length (p_cols x) <> cdim c ->
    (2 <= List.length (k_scaling k))%nat -> (3 <= List.length (k_angle k))%nat -> krige_fit E k x y = (k, Some ValueError).
Proof. exact fit_wrong_dimension. Qed.
Print Assumptions C39_wrong_dimension.

(** The documented single values for the 2D methods do not work: any shorter tuple is an IndexError. *)
Theorem C39_short_tuples :
  forall E k x y, (List.length (k_scaling k) < 2)%nat \/ (List.length (k_angle k) < 3)%nat ->
    krige_fit E k x y = (k, Some IndexError).
Proof. exact fit_short_tuple. Qed.
Print Assumptions C39_short_tuples.
Theorem C39_single_value_refuted : exists k x, class_of (k_method k) = Some OK2 /\ List.length (p_cols x) = 2%nat /\
  List.length (k_scaling k) = 1%nat /\ List.length (k_angle k) = 1%nat /\ forall E y, krige_fit E k x y = (k, Some IndexError).
Proof.
  exists (wrap "ordinary" [2] [45] None), pts2. repeat (split; [reflexivity|]). intros E y. apply fit_short_tuple. left. cbn. lia.
Qed.
Print Assumptions C39_single_value_refuted.

Example C39_nonvacuous z0 z1 : class_of (k_method kopt) = Some OK2 /\ List.length (p_cols pts2) = cdim OK2 /\
  (exists o, direct_call WE kopt OK2 pts2 [z0; z1] = Ok (KOrd o)) /\
  exists k', krige_fit WE kopt pts2 [z0; z1] = (k', None).
Proof.
  split; [reflexivity|]. split; [reflexivity|]. destruct (kopt_direct z0 z1) as (o & H & _). split; [exists o; exact H|].
  destruct (kopt_fit z0 z1) as (k' & H' & _). exists k'. exact H'.
Qed.

(** C40. *)
Theorem C40_unfitted : forall E k x extra, k_fitted k = None -> krige_predict E k x extra = Err PlainException.
Proof. exact predict_unfitted. Qed.
Print Assumptions C40_unfitted.

Theorem C40_wrong_dimension :
  forall E k x extra c m, k_fitted k = Some m -> class_of (k_method k) = Some c -> List.length (p_cols x) <> cdim c ->
    krige_predict E k x extra = Err ValueError.
Proof. exact predict_wrong_dimension. Qed.
Print Assumptions C40_wrong_dimension.

(** a fit leaves the wrapper in the state the next theorems start from *)
Theorem C40_after_fit :
  forall E k x y k' c, class_of (k_method k) = Some c -> krige_fit E k x y = (k', None) ->
    exists m, direct_call E k c x y = Ok m /\ fitted_as k' m c.
Proof.
  intros E k x y k' c HC HF. destruct (fit_inv E k x y k' c HC HF) as (m & HD & -> & _). exists m. split; [exact HD|]. exact (fit_fitted E k x y c m HC HD).
Qed.
Print Assumptions C40_after_fit.

Theorem C40_predict_is_the_direct_call :
  forall E k x c m b extra, fitted_as k m c -> List.length (p_cols x) = cdim c ->
    (extra = [] /\ b = "loop"%string \/ extra = [("backend"%string, V_str b)]) ->
    krige_predict E k x extra = direct_predict E k m x b.
Proof. exact predict_with_backend. Qed.
Print Assumptions C40_predict_is_the_direct_call.

Theorem C40_style_mask_backend :
  forall E k x c m st mk b, fitted_as k m c -> List.length (p_cols x) = cdim c ->
    krige_predict E k x [("style"%string, V_str st); ("mask"%string, V_mask mk); ("backend"%string, V_str b)] = direct_execute E k m x st mk b.
Proof. exact predict_overrides. Qed.
Print Assumptions C40_style_mask_backend.

Theorem C40_n_closest_points_cannot_be_overridden :
  forall E k o x w, k_fitted k = Some (KOrd o) ->
    krige_predict E k x [("n_closest_points"%string, V_window w)] = krige_predict E k x [].
Proof. exact ncp_fixed. Qed.
Print Assumptions C40_n_closest_points_cannot_be_overridden.

Theorem C40_n_closest_points_universal :
  forall E k u x w extra c, fitted_as k (KUni u) c -> List.length (p_cols x) = cdim c ->
    krige_predict E (with_ncp k w) x extra = krige_predict E k x extra /\
    krige_predict E k x [("n_closest_points"%string, V_window w)] = Err TypeError.
Proof.
  intros E k u x w extra c HF HX. split; [apply (ncp_ignored E k u), HF|apply (ncp_rejected E k u x w c HF HX)].
Qed.
Print Assumptions C40_n_closest_points_universal.

Theorem C40_unknown_option :
  forall E k m x name v c, fitted_as k m c -> List.length (p_cols x) = cdim c ->
    ~ In name ["style"; "xpoints"; "ypoints"; "zpoints"; "mask"; "backend"; "n_closest_points"; "specified_drift_arrays"]%string ->
    krige_predict E k x [(name, v)] = Err TypeError.
Proof. exact predict_unknown_option. Qed.
Print Assumptions C40_unknown_option.

(** The default n_closest_points=10 makes every prediction from fewer than 10 data fail. *)
Theorem C40_fewer_data_than_neighbours :
  forall E k x y k' x' extra c w, env_ok E -> class_of (k_method k) = Some c -> c = OK2 \/ c = OK3 ->
    krige_fit E k x y = (k', None) -> k_window k = Some w -> (n_rows x < w)%nat -> (0 < n_rows x')%nat -> exact_backend extra ->
    exists e, krige_predict E k' x' extra = Err e.
Proof. exact too_few_data. Qed.
Print Assumptions C40_fewer_data_than_neighbours.
Example C40_fewer_nonvacuous : exists k', env_ok WE /\ class_of (k_method kten) = Some OK2 /\ krige_fit WE kten pts2 [1; 2] = (k', None) /\
  k_window kten = Some 10%nat /\ n_rows pts2 = 2%nat.
Proof. destruct kten_fit as [k' H]. exists k'. split; [apply wit_env_ok|]. repeat split; exact H. Qed.

(** predict at a training point returns the training value *)
Theorem C40_training_points :
  forall E k x y k' x' extra sh v i j c, env_ok E -> class_of (k_method k) = Some c -> krige_fit E k x y = (k', None) ->
    k_exact k = Some true -> k_pinv k = false -> apart k' ->
    krige_predict E k' x' extra = Ok (sh, v) -> exact_backend extra ->
    (i < n_rows x')%nat -> (j < n_rows x)%nat -> same_row x' i x j ->
    v i = Some (rnth y j).
Proof. exact krige_interpolates. Qed.
Print Assumptions C40_training_points.

Example C40_nonvacuous z0 z1 : exists k' m sh v, krige_fit WE kopt pts2 [z0; z1] = (k', None) /\ fitted_as k' m OK2 /\ apart k' /\
  k_exact kopt = Some true /\ k_pinv kopt = false /\ krige_predict WE k' pts2 [] = Ok (sh, v).
Proof.
  destruct (kopt_fit z0 z1) as (k' & HF & HA & sh & v & HP). destruct (C40_after_fit WE kopt pts2 [z0; z1] k' OK2 eq_refl HF) as (m & _ & HM).
  exists k', m, sh, v. repeat (split; [first [assumption|reflexivity]|]). exact HP.
Qed.

(** C41. *)
Theorem C41_trend_plus_residual :
  forall P E (s : rk_state P) p x extra r, rk_predict E s p x extra = Ok r ->
    exists predict m v sh, rk_reg s = Some predict /\ predict p = Ok m /\ krige_predict E (rk_krige s) x extra = Ok (sh, v) /\
      List.length r = List.length m /\ sh = [List.length m] /\
      forall i, (i < List.length r)%nat -> exists w, (v i = Some w \/ v i = None /\ w = 0) /\ rnth r i = w + rnth m i.
Proof. exact @rk_sum. Qed.
Print Assumptions C41_trend_plus_residual.

(** whatever the regressor *)
Theorem C41_training_targets :
  forall P E (reg : regressor P) k s s' p x y p' x' extra r i j c predict m m', env_ok E ->
    rk_init P k = Ok s -> class_of (k_method k) = Some c -> k_exact k = Some true -> k_pinv k = false ->
    rk_fit E reg s p x y = (s', None) -> apart (rk_krige s') ->
    rk_predict E s' p' x' extra = Ok r -> exact_backend extra ->
    reg p y = Ok predict -> predict p = Ok m -> predict p' = Ok m' ->
    List.length y = n_rows x -> (i < n_rows x')%nat -> (j < n_rows x)%nat -> same_row x' i x j -> rnth m' i = rnth m j ->
    rnth r i = rnth y j.
Proof. exact @rk_exact. Qed.
Print Assumptions C41_training_targets.

Example C41_nonvacuous y0 y1 : exists s s' r, env_ok WE /\ rk_init nat kopt = Ok s /\ rk_fit WE const_reg s 2%nat pts2 [y0; y1] = (s', None) /\
  apart (rk_krige s') /\ rk_predict WE s' 2%nat pts2 [] = Ok r.
Proof. destruct (rk_example y0 y1) as (s & s' & r & H). exists s, s', r. split; [apply wit_env_ok|exact H]. Qed.

(** C42. *)
Theorem C42_ilr_round_trip :
  forall m p, (forall j, (j <= m)%nat -> feps <= p j) -> bsum (m + 1) p = 1 ->
    forall j, (j <= m)%nat -> inverse_ilr m (ilr (m + 1) p) j = p j.
Proof. exact ilr_inverse_round_trip. Qed.
Print Assumptions C42_ilr_round_trip.

(** without the lower bound: clipped to machine epsilon and renormalised *)
Theorem C42_ilr_clips :
  forall m p j, (j <= m)%nat ->
    inverse_ilr m (ilr (m + 1) p) j = Rmax (p j) feps / bsum (m + 1) (fun i => Rmax (p i) feps).
Proof. exact ilr_inverse_clipped. Qed.
Print Assumptions C42_ilr_clips.

Theorem C42_inverse_round_trip :
  forall m v, (forall j, (j <= m)%nat -> feps <= inverse_ilr m v j) ->
    forall k, (k < m)%nat -> ilr (m + 1) (inverse_ilr m v) k = v k.
Proof. exact inverse_ilr_round_trip. Qed.
Print Assumptions C42_inverse_round_trip.

Theorem C42_inverse_is_a_composition :
  forall m v, composition (m + 1) (inverse_ilr m v) /\ forall k, (k < m)%nat -> log_ratio (inverse_ilr m v) k = v k.
Proof.
  intros m v. destruct (inverse_ilr_simplex m v) as [H1 H2]. split; [split; [intros j _; apply H1|exact H2]|]. intros k Hk. apply log_ratio_inverse, Hk.
Qed.
Print Assumptions C42_inverse_is_a_composition.

Theorem C42_ilr_is_the_log_ratio : forall K p k, (S k < K)%nat -> ilr K p k = log_ratio (clip p) k.
Proof. exact ilr_log_ratio. Qed.
Print Assumptions C42_ilr_is_the_log_ratio.

Theorem C42_closure : forall K k d, bsum K d <> 0 -> bsum K (closure K k d) = k /\ forall j, closure K k d j = k * d j / bsum K d.
Proof. intros K k d H. split; [apply closure_sum, H|reflexivity]. Qed.
Print Assumptions C42_closure.

Example C42_nonvacuous : (forall j, (j <= 1)%nat -> feps <= (fun _ => / 2) j) /\ bsum (1 + 1) (fun _ => / 2) = 1.
Proof. split; [intros; unfold feps; lra|cbn [bsum Nat.add]; lra]. Qed.

(** C43.  The result holds indices of the most probable classes of the composition
    whose log-ratios are the classifier's plus the kriged residuals ... *)
Theorem C43_most_probable_class :
  forall P L E eqb (cl : classifier P L) s0 p0 x0 y0 s p x extra r,
    ck_fit E eqb cl s0 p0 x0 y0 = (s, None) -> ck_predict E s p x extra = Ok r ->
    let K := List.length (ck_classes s) in
    exists proba ml, ck_proba s = Some proba /\ proba p = Ok ml /\ List.length r = List.length ml /\ (2 <= K)%nat /\
      forall i, (i < List.length ml)%nat -> exists comp kriged, composition K comp /\ most_probable K comp (nth i r 0%nat) /\
        forall k d, (k < K - 1)%nat -> log_ratio comp k = kriged k + log_ratio (clip (rnth (nth i ml []))) k /\
          exists v, krige_predict E (nth k (ck_krige s) d) x extra = Ok ([List.length ml], v) /\ (v i = Some (kriged k) \/ v i = None /\ kriged k = 0).
Proof. exact @ck_index. Qed.
Print Assumptions C43_most_probable_class.

(** ... but not the labels: trained on the labels 10 and 20, it predicts 0 and 1. *)
Theorem C43_labels_refuted : exists s r,
  ck_fit WE Nat.eqb flat (ck_init nat nat kopt) 2%nat pts2 tens = (s, None) /\ ck_predict WE s 2%nat pts2 [] = Ok r /\
  l_list tens = [10; 20]%nat /\ r = [0; 1]%nat.
Proof. destruct ck_example as (s & r & H1 & _ & H2 & _ & H3). exists s, r. repeat split; assumption. Qed.
Print Assumptions C43_labels_refuted.

(** labels of the documented shape (Ns,) are refused; with a single class predict never succeeds *)
Theorem C43_flat_labels_raise :
  forall P L E eqb (cl : classifier P L) s p x y, l_column y = false -> snd (ck_fit E eqb cl s p x y) <> None.
Proof. exact @ck_flat_labels. Qed.
Print Assumptions C43_flat_labels_raise.
Theorem C43_single_class :
  forall P L E eqb (cl : classifier P L) s0 p0 x0 y0 s p x extra r, ck_fit E eqb cl s0 p0 x0 y0 = (s, None) ->
    (List.length (ck_classes s) <= 1)%nat -> ck_predict E s p x extra <> Ok r.
Proof.
  intros P L E eqb cl s0 p0 x0 y0 s p x extra r HF HK. destruct (ck_fit_inv E eqb cl s0 p0 x0 y0 s HF) as (classes & _ & _ & _ & _ & _ & _ & _ & _ & Hc & _ & Hl & _).
  apply ck_one_class. destruct (ck_krige s); [reflexivity|]. rewrite <- Hc in Hl. cbn in Hl. lia.
Qed.
Print Assumptions C43_single_class.

(** C56.  At the training points the index is that of the training label, whatever the classifier. *)
Theorem C56_training_labels :
  forall P L E eqb (cl : classifier P L) s p x y s' p' x' extra r i j proba ml ml',
    (forall a b, eqb a b = true <-> a = b) -> env_ok E -> k_exact (ck_options s) = Some true -> k_pinv (ck_options s) = false ->
    ck_fit E eqb cl s p x y = (s', None) -> (forall k, In k (ck_krige s') -> apart k) ->
    ck_predict E s' p' x' extra = Ok r -> exact_backend extra ->
    ck_proba s' = Some proba -> proba p = Ok ml -> proba p' = Ok ml' ->
    List.length (l_list y) = n_rows x -> (i < n_rows x')%nat -> (j < n_rows x)%nat -> same_row x' i x j -> nth i ml' [] = nth j ml [] ->
    (i < List.length r)%nat /\ forall a, nth_error (l_list y) j = Some a -> index_of (ck_classes s') a (nth i r 0%nat).
Proof. exact @ck_exact. Qed.
Print Assumptions C56_training_labels.

Example C56_nonvacuous : exists s r, env_ok WE /\ ck_fit WE Nat.eqb flat (ck_init nat nat kopt) 2%nat pts2 tens = (s, None) /\
  (forall k, In k (ck_krige s) -> apart k) /\ ck_predict WE s 2%nat pts2 [] = Ok r /\ ck_classes s = [10; 20]%nat.
Proof. destruct ck_example as (s & r & H1 & H2 & H3 & H4 & _). exists s, r. split; [apply wit_env_ok|]. repeat split; assumption. Qed.

(** C64.  Failed fits.  Krige: the estimator is as before. *)
Theorem C64_krige_failed_fit :
  forall E k x y k' e, krige_fit E k x y = (k', Some e) -> k' = k.
Proof. exact krige_fit_failed. Qed.
Print Assumptions C64_krige_failed_fit.

(** ClassificationKriging: either the classifier itself raised and nothing changed, or no
    prediction is returned until a fit succeeds *)
Theorem C64_classification_failed_fit :
  forall P L E eqb (cl : classifier P L) s p x y s' e, ck_fit E eqb cl s p x y = (s', Some e) ->
    (cl p (l_list y) = Err e /\ s' = s) \/ (forall p' x' extra r, ck_predict E s' p' x' extra <> Ok r).
Proof. exact @ck_fit_failed. Qed.
Print Assumptions C64_classification_failed_fit.

(** RegressionKriging: when the regressor raises nothing changes; when the kriging of the
    residuals raises, later predictions add the new trend to the residuals kriged before *)
Theorem C64_regressor_raises :
  forall P E (reg : regressor P) s p x y e, reg p y = Err e -> rk_fit E reg s p x y = (s, Some e).
Proof. exact @rk_fit_failed_reg. Qed.
Print Assumptions C64_regressor_raises.
Theorem C64_regression_failed_fit :
  forall P E (reg : regressor P) s p x y s' e predict, reg p y = Ok predict -> rk_fit E reg s p x y = (s', Some e) ->
    forall p' x' extra, rk_krige_residual E s' x' extra = rk_krige_residual E s x' extra /\
      rk_predict E s' p' x' extra = (do r <- rk_krige_residual E s x' extra ;; do m <- predict p' ;; np_map2 Rplus r m).
Proof. exact @rk_fit_failed. Qed.
Print Assumptions C64_regression_failed_fit.

(** so a failed fit is neither without effect nor does it prevent predictions: the values
    returned afterwards belong to no training set *)
Theorem C64_regression_atomic_refuted :
  exists s s1 s2, rk_init nat kopt = Ok s /\
    rk_fit WE first_reg s 2%nat pts2 [1; 2] = (s1, None) /\ rk_predict WE s1 2%nat pts2 [] = Ok [1; 2] /\
    rk_fit WE first_reg s1 2%nat pts3 [101; 105] = (s2, Some ValueError) /\ rk_predict WE s2 2%nat pts2 [] = Ok [101; 102].
Proof. exact rk_mixed. Qed.
Print Assumptions C64_regression_atomic_refuted.

Example C64_nonvacuous : exists s s1 s2 predict, rk_init nat kopt = Ok s /\ rk_fit WE first_reg s 2%nat pts2 [1; 2] = (s1, None) /\
  first_reg 2%nat [101; 105] = Ok predict /\ rk_fit WE first_reg s1 2%nat pts3 [101; 105] = (s2, Some ValueError) /\
  snd (ck_fit WE Nat.eqb flat (ck_init nat nat kopt) 2%nat pts3 tens) <> None /\ snd (krige_fit WE kopt pts3 [1; 2]) <> None.
Proof.
  destruct rk_mixed as (s & s1 & s2 & H1 & H2 & _ & H3 & _). exists s, s1, s2. eexists.
  split; [exact H1|]. split; [exact H2|]. split; [reflexivity|]. split; [exact H3|].
  assert (W : forall y, krige_fit WE kopt pts3 y = (kopt, Some ValueError)).
  { intros y. apply (fit_wrong_dimension WE kopt pts3 y OK2); cbn; first [reflexivity|lia]. }
  split.
  - unfold ck_fit, flat, tens, ck_init. cbn [ck_options l_list l_column List.length seq Nat.sub mapM bind repeat Nat.eqb].
    replace (krige_init kopt) with (@Ok krige kopt) by reflexivity. cbn [bind one_hot position Nat.eqb option_map mapM fit_all zip_with List.length].
    rewrite W. discriminate.
  - rewrite W. discriminate.
Qed.

(** C65.  Scores.  RegressionKriging.score is the coefficient of determination: at most 1,
    and 1 exactly when every prediction equals its target; weights are positive *)
Theorem C65_coefficient_of_determination :
  forall P E (s : rk_state P) p x y w extra v, rk_score E s p x y w extra = Ok (Some v) ->
    (forall i, (i < List.length y)%nat -> 0 < weights_of w i) ->
    exists pred, rk_predict E s p x extra = Ok pred /\ List.length pred = List.length y /\ v <= 1 /\
      (v = 1 <-> forall i, (i < List.length y)%nat -> rnth pred i = rnth y i) /\
      let n := List.length y in
      let tot := wsquares n (weights_of w) (rnth y) (fun _ => wmean n (weights_of w) (rnth y)) in
      (tot <> 0 -> v = 1 - wsquares n (weights_of w) (rnth y) (rnth pred) / tot).
Proof.
  intros P E s p x y w extra v H HW. unfold rk_score in H. destruct (rk_predict E s p x extra) as [pred|] eqn:HP; [|discriminate].
  destruct (r2_spec y pred w v H HW) as (H1 & _ & H2 & H3 & H4). exists pred. auto.
Qed.
Print Assumptions C65_coefficient_of_determination.

(** on its own training data the score of an exactly interpolating model is 1 *)
Theorem C65_training_score :
  forall P E (reg : regressor P) k s s' p x y extra r c w, env_ok E ->
    rk_init P k = Ok s -> class_of (k_method k) = Some c -> k_exact k = Some true -> k_pinv k = false ->
    rk_fit E reg s p x y = (s', None) -> apart (rk_krige s') -> rk_predict E s' p x extra = Ok r -> exact_backend extra ->
    List.length y = n_rows x -> (2 <= List.length y)%nat -> match w with Some l => List.length l = List.length y | None => True end ->
    rk_score E s' p x y w extra = Ok (Some 1).
Proof. exact @rk_training_score. Qed.
Print Assumptions C65_training_score.

(** ClassificationKriging.score, with the labels 0, 1, ..., K - 1 *)
Theorem C65_training_accuracy :
  forall P E eqb (cl : classifier P nat) s p x y s' extra r, (forall a b, eqb a b = true <-> a = b) -> env_ok E ->
    k_exact (ck_options s) = Some true -> k_pinv (ck_options s) = false ->
    ck_fit E eqb cl s p x y = (s', None) -> (forall k, In k (ck_krige s') -> apart k) ->
    ck_predict E s' p x extra = Ok r -> exact_backend extra ->
    List.length (l_list y) = n_rows x -> (0 < n_rows x)%nat ->
    ck_classes s' = seq 0 (List.length (ck_classes s')) ->
    ck_score E s' p x (l_list y) extra = Ok 1.
Proof. exact @ck_training_score. Qed.
Print Assumptions C65_training_accuracy.

(** for other labels the class indices are compared with the labels: with labels not below
    the number of classes the score is 0, however good the predictions *)
Theorem C65_accuracy_of_other_labels :
  forall P E eqb (cl : classifier P nat) s0 p0 x0 y0 s p x y extra v, ck_fit E eqb cl s0 p0 x0 y0 = (s, None) ->
    ck_score E s p x y extra = Ok v -> (forall a, In a y -> (List.length (ck_classes s) <= a)%nat) -> v = 0.
Proof. exact @ck_score_zero. Qed.
Print Assumptions C65_accuracy_of_other_labels.
Theorem C65_accuracy_refuted :
  exists s, ck_fit WE Nat.eqb flat (ck_init nat nat kopt) 2%nat pts2 tens = (s, None) /\
    ck_predict WE s 2%nat pts2 [] = Ok [0; 1]%nat /\ ck_score WE s 2%nat pts2 [10; 20]%nat [] = Ok 0.
Proof. exact ck_score_tens. Qed.
Print Assumptions C65_accuracy_refuted.

Example C65_nonvacuous : exists s s' r sc, env_ok WE /\ rk_init nat kopt = Ok s /\ rk_fit WE const_reg s 2%nat pts2 [1; 5] = (s', None) /\
  apart (rk_krige s') /\ rk_predict WE s' 2%nat pts2 [] = Ok r /\ rk_score WE s' 2%nat pts2 [1; 5] (Some [2; 3]) [] = Ok (Some 1) /\
  ck_fit WE Nat.eqb flat01 (ck_init nat nat kopt) 2%nat pts2 ones = (sc, None) /\ ck_score WE sc 2%nat pts2 [0; 1]%nat [] = Ok 1.
Proof.
  destruct (rk_example 1 5) as (s & s' & r & H1 & H2 & H3 & H4). destruct ck_score01 as (sc & H5 & H6). exists s, s', r, sc.
  split; [apply wit_env_ok|]. split; [exact H1|]. split; [exact H2|]. split; [exact H3|]. split; [exact H4|]. split; [|split; assumption].
  apply (rk_training_score WE const_reg kopt s s' 2%nat pts2 [1; 5] [] r OK2 (Some [2; 3]) (wit_env_ok _ _) H1 eq_refl eq_refl eq_refl H2 H3 H4 (or_introl eq_refl)); cbn; auto.
Qed.
