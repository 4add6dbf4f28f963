(** PROPERTIES C34-C38: experimental variogram, automatic fit, weights,
    cross-validation.  Vocabulary: S_Fit. *)
From Coq Require Import String.
From Flocq Require Import Core.
From Verif Require Import Base Sums Matrix M_Variogram M_Geometry S_Geometry M_Kriging S_Kriging M_Init M_Object M_Execute S_Execute
  S_State S_Fit M_Float P_Object P_Data P_Fit P_Fit2 P_Fit3 P_Fit4 P_Fit5 P_Float P_State3 P_State7 Witness Witness2 Witness3 P_UK8.

(** C34.  The lags and semivariances of a new object are, for every non-empty distance
    class, the mean separation and the mean halved squared difference of the pairs in
    it; each of the n(n-1)/2 pairs is in exactly one of the nlags classes. *)
Theorem C34_every_pair_counted_once :
  forall E c A o, construct E c A = Ok o -> List.length (c_coords A) = cdim c -> (1 <= a_nlags (c_v A))%nat ->
    experimental_variogram_of o (a_nlags (c_v A)).
Proof. exact experimental_of_construct. Qed.
Print Assumptions C34_every_pair_counted_once.

(** the same after a successful update_variogram_model, with its anisotropy and nlags *)
Theorem C34_every_pair_counted_once_after_update :
  forall E o v o', reachable E o -> (1 <= a_nlags v)%nat -> update_variogram_model E o v = (o', None) ->
    experimental_variogram_of o' (a_nlags v).
Proof. exact experimental_of_update. Qed.
Print Assumptions C34_every_pair_counted_once_after_update.

(** Binary64: with rounding in every operation, each distance is still in exactly one
    bin, provided the largest is below 2^44. *)
Theorem C34_binary64_bins :
  forall dmin dmax nlags d, b64 dmin -> b64 dmax -> 0 <= dmin -> dmin <= d <= dmax -> dmax < bpow radix2 44 -> (1 <= nlags)%nat ->
    exists k, (k < nlags)%nat /\ in_bin Fops dmin dmax nlags k d = true /\
      forall k', (k' < nlags)%nat -> in_bin Fops dmin dmax nlags k' d = true -> k' = k.
Proof. intros dmin dmax nlags d F1 F2 H0 Hd HB Hn. apply float_bin_once; try assumption. lra. Qed.
Print Assumptions C34_binary64_bins.

(** 2^44 is the limit: 0.001 is absorbed, and the only pair is in no bin *)
Theorem C34_binary64_large_distance_refuted :
  forall nlags g, b64 (bpow radix2 44) /\ experimental_gen Fops nlags [(bpow radix2 44, g)] = Ok [].
Proof. intros nlags g. split; [apply bpow_b64; lia|apply lone_pair_lost]. Qed.
Print Assumptions C34_binary64_large_distance_refuted.

Example C34_nonvacuous : forall E, exists o, construct E OK2 three_args = Ok o /\ List.length (c_coords three_args) = cdim OK2 /\
  (1 <= a_nlags (c_v three_args))%nat /\ o_n o = 3%nat /\ sep o 0%nat 1%nat = 1 /\ sep o 1%nat 2%nat = 2 /\ sep o 0%nat 2%nat = 3.
Proof.
  intros E. destruct (ex_fit E) as (o & HC & _). destruct (three_sep E o HC) as (Hn & S1 & S2 & S3 & _).
  exists o. repeat split; try assumption; cbn; lia.
Qed.
Example C34_update_nonvacuous : exists o o', reachable WE o /\ update_variogram_model WE o (scaled (PList [1; 0]) 2) = (o', None).
Proof.
  destruct ex_update_scaled as (o & o' & HC & HL & HU & _). exists o, o'. split; [exact (reach_new WE OK2 _ o HL HC)|exact HU].
Qed.
Example C34_binary64_nonvacuous : b64 1 /\ b64 4 /\ 0 <= 1 /\ 1 <= 2 <= 4 /\ 4 < bpow radix2 44.
Proof.
  split; [exact (bpow_b64 0 ltac:(lia))|]. split; [exact (bpow_b64 2 ltac:(lia))|]. repeat split; try lra. cbn. lra.
Qed.

(** C35.  Shape: equally long lists, between 1 and nlags entries, increasing lags
    between the smallest and the largest separation, semivariances between 0 and the
    largest halved squared difference. *)
Theorem C35_shape :
  forall E c A o, construct E c A = Ok o -> List.length (c_coords A) = cdim c -> (1 <= a_nlags (c_v A))%nat ->
    shape_ok o (a_nlags (c_v A)).
Proof. intros E c A o HC HL Hn. apply shape_of; [exact Hn|]. apply (experimental_of_construct E c A o HC HL Hn). Qed.
Print Assumptions C35_shape.
Theorem C35_shape_after_update :
  forall E o v o', reachable E o -> (1 <= a_nlags v)%nat -> update_variogram_model E o v = (o', None) -> shape_ok o' (a_nlags v).
Proof. intros E o v o' HR Hn HU. apply shape_of; [exact Hn|]. exact (experimental_of_update E o v o' HR Hn HU). Qed.
Print Assumptions C35_shape_after_update.

(** C36.  A successful construction without variogram_parameters: the fit was
    possible, and its result is within the bounds of the model. *)
Theorem C36_fit_within_bounds :
  forall E c A o name, construct E c A = Ok o -> List.length (c_coords A) = cdim c ->
    a_model (c_v A) = VName name -> a_params (c_v A) = PNone ->
    In name fitted_models /\ fit_possible name (a_weight (c_v A)) (o_lags o) (o_semivariance o) /\
    (optimiser_ok (e_fit E) -> bounded_params name (o_lags o) (o_semivariance o) (o_params o)).
Proof. exact fitted_object. Qed.
Print Assumptions C36_fit_within_bounds.

(** if data can be kriged with given parameters, and the fit is possible, the fit
    succeeds: start point and bounds are accepted *)
Theorem C36_start_is_feasible :
  forall E A o name weight s0, construct E OK2 A = Ok o -> List.length (c_coords A) = cdim OK2 -> c_stat A = false ->
    a_model (c_v A) = VName s0 -> o_lags o <> [] ->
    In name fitted_models -> fit_possible name weight (o_lags o) (o_semivariance o) ->
    exists o', construct E OK2 (with_v A (refit (c_v A) name weight)) = Ok o'.
Proof. exact refit_succeeds. Qed.
Print Assumptions C36_start_is_feasible.

(** the fit alone: what is accepted, what is refused *)
Theorem C36_fit_possible_exactly :
  forall fit lags sv name f weight, lags <> [] -> List.length sv = List.length lags -> increasing lags ->
    (forall d, In d lags -> 0 <= d) -> (forall v, In v sv -> 0 <= v) -> In name fitted_models ->
    (fit_possible name weight lags sv ->
       exists p, calculate_variogram_model fit lags sv name f weight = Ok p /\ (optimiser_ok fit -> bounded_params name lags sv p)) /\
    (~ fit_possible name weight lags sv -> calculate_variogram_model fit lags sv name f weight = Err ValueError).
Proof. exact calculate_spec. Qed.
Print Assumptions C36_fit_possible_exactly.

(** in terms of the data: two different values, two different separations, nlags >= 2 *)
Theorem C36_fit_possible_for_data :
  forall E c A o name weight, construct E c A = Ok o -> List.length (c_coords A) = cdim c -> (2 <= a_nlags (c_v A))%nat ->
    (exists i j, (i < j < o_n o)%nat /\ o_values o i <> o_values o j) ->
    (exists i j i' j', (i < j < o_n o)%nat /\ (i' < j' < o_n o)%nat /\ sep o i j <> sep o i' j') ->
    fit_possible name weight (o_lags o) (o_semivariance o).
Proof.
  intros E c A o name weight HC HL Hn HV HS. apply (data_fit_possible o (a_nlags (c_v A))); try assumption.
  - exact (reachable_inv E o (reach_new E c A o HL HC)).
  - apply (experimental_of_construct E c A o HC HL). lia.
Qed.
Print Assumptions C36_fit_possible_for_data.

(** constant data cannot be fitted *)
Theorem C36_constant_data_raise :
  forall E c A name, List.length (c_coords A) = cdim c -> a_model (c_v A) = VName name -> a_params (c_v A) = PNone ->
    (forall x y, In x (c_values A) -> In y (c_values A) -> x = y) -> forall o, construct E c A <> Ok o.
Proof. exact constant_data_raise. Qed.
Print Assumptions C36_constant_data_raise.

Example C36_nonvacuous : forall E, exists o, construct E OK2 three_args = Ok o /\
  fit_possible "gaussian" true (o_lags o) (o_semivariance o) /\ fit_possible "power" false (o_lags o) (o_semivariance o) /\
  exists o', construct E OK2 (with_v three_args (refit (c_v three_args) "gaussian" true)) = Ok o'.
Proof. exact ex_fit. Qed.

(** C37.  weight=True: positive weights, sum 1, smaller for larger lags. *)
Theorem C37_weights :
  forall x, (exists a b, In a x /\ In b x /\ a <> b) ->
    let w := lag_weights x in
    List.length w = List.length x /\ (forall v, In v w -> 0 < v) /\ lsum w = 1 /\
    forall i j, (i < List.length x)%nat -> (j < List.length x)%nat -> rnth x i < rnth x j -> rnth w j < rnth w i.
Proof. exact weights_spec. Qed.
Print Assumptions C37_weights.

(** the residuals vanish exactly for a perfect fit, weighted or not *)
Theorem C37_residuals_vanish :
  forall f weight x y p r, List.length x = List.length y -> variogram_residuals f weight x y p = Some r ->
    List.length r = List.length x /\
    ((forall v, In v r -> v = 0) <-> forall k, (k < List.length x)%nat -> fcall f p (rnth x k) = rnth y k).
Proof. exact residuals_zero. Qed.
Print Assumptions C37_residuals_vanish.

Example C37_nonvacuous : (exists a b, In a [1; 2; 4] /\ In b [1; 2; 4] /\ a <> b) /\
  exists r, variogram_residuals f_linear true [1; 2; 4] [1; 2; 5] [1; 0] = Some r.
Proof.
  split; [exists 1, 2; cbn; repeat split; auto; lra|]. unfold variogram_residuals.
  destruct (Reqb_spec (amax [1; 2; 4]) (amin [1; 2; 4])) as [K|_]; [|eexists; reflexivity]. exfalso.
  destruct (amax_in [1; 2; 4]) as [_ H1]; [discriminate|]. destruct (amin_in [1; 2; 4]) as [_ H2]; [discriminate|].
  specialize (H1 4 ltac:(cbn; auto)). specialize (H2 1 ltac:(cbn; auto)). lra.
Qed.

(** C38.  The statistics of any object are well formed. *)
Theorem C38_statistics_well_formed :
  forall E c A us o s, built E c A us o -> o_stats o = Some s -> stats_ok (o_n o) s.
Proof. exact built_stats_ok. Qed.
Print Assumptions C38_statistics_well_formed.

(** After construction: residuals and sigmas are those of ordinary kriging of each
    datum from the data before it, with the object's variogram.  Data are more than
    eps = 1e-10 apart, pseudo_inv=False. *)
Theorem C38_cross_validation :
  forall E c A o, env_ok E -> construct E c A = Ok o -> List.length (c_coords A) = cdim c -> (c = OK2 -> c_stat A = true) ->
    c_pinv A = false -> (forall i j, (i < j < o_n o)%nat -> eps < sep o i j) ->
    exists st v s, o_stats o = Some st /\ predicted_from_before o v s /\ cross_validation o v s st.
Proof.
  intros E c A o HE HC HL HS HP HD. destruct (construct_stats E c A o HC HS) as (st & K & K').
  destruct (statistics_validate E o st HE) as (v & s & H1 & H2); try assumption; [exact (reachable_inv E o (reach_new E c A o HL HC))| |exists st, v, s; auto].
  pose proof (construct_inv E c A o HC) as (ex & nm & prm & fn & sc & an & f & vp & lags & sv & params & Hall).
  destruct Hall as (_&_&_&_&_&_&_&_&_&-> & _). exact HP.
Qed.
Print Assumptions C38_cross_validation.

(** after a successful update_variogram_model, with the new variogram and anisotropy *)
Theorem C38_cross_validation_after_update :
  forall E o u o', env_ok E -> reachable E o -> update_variogram_model E o u = (o', None) -> o_pinv o' = false ->
    (forall i j, (i < j < o_n o')%nat -> eps < sep o' i j) ->
    exists st v s, o_stats o' = Some st /\ predicted_from_before o' v s /\ cross_validation o' v s st.
Proof.
  intros E o u o' HE HR HU HP HD. destruct (update_success_stats E o u o' HU) as (st & K & K').
  destruct (statistics_validate E o' st HE) as (v & s & H1 & H2); try assumption; [|exists st, v, s; auto].
  apply (reachable_inv E). replace o' with (fst (update_variogram_model E o u)) by (rewrite HU; reflexivity). apply reach_update, HR.
Qed.
Print Assumptions C38_cross_validation_after_update.

Example C38_nonvacuous : exists o o', env_ok WE /\ reachable WE o /\ update_variogram_model WE o (scaled (PList [1; 0]) 2) = (o', None) /\
  o_pinv o' = false /\ (forall i j, (i < j < o_n o')%nat -> eps < sep o' i j).
Proof. exact ex_validated. Qed.
