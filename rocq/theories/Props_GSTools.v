(** PROPERTY C50: GSTools covariance models.  Vocabulary: S_GSTools. *)
From Coq Require Import String.
From Verif Require Import Base Sums Matrix M_Variogram M_Geometry M_Kriging M_Init M_Object S_GSTools P_GSTools Witness.

(** An accepted model is used as a custom variogram with the model's anisotropy; the
    user's variogram_parameters, variogram_function and anisotropy are ignored. *)
Theorem C50_supported_models :
  forall E c A m, ct_ok c A -> a_model (c_v A) = VModel m ->
    package_ok (e_gstools E) m -> model_fits c (is_geo c A) m ->
    construct E c A = construct E c (with_v A (as_custom c m (c_v A))).
Proof. exact construct_custom. Qed.
Print Assumptions C50_supported_models.

Theorem C50_unsupported_models :
  forall E c A m, ct_ok c A -> a_model (c_v A) = VModel m -> (c_pinv_type A = "pinv" \/ c_pinv_type A = "pinvh")%string -> c_exact A <> None ->
    (~ package_ok (e_gstools E) m -> construct E c A = Err GSToolsExc) /\
    (package_ok (e_gstools E) m -> ~ model_fits c (is_geo c A) m -> construct E c A = Err ValueError).
Proof. exact construct_refuses. Qed.
Print Assumptions C50_unsupported_models.

Theorem C50_model_in_the_object :
  forall E c A m o, ct_ok c A -> a_model (c_v A) = VModel m -> construct E c A = Ok o ->
    package_ok (e_gstools E) m /\ model_fits c (is_geo c A) m /\ o_fun o = gs_vario m /\ o_params o = [] /\
    (is_geo c A = false -> o_scaling o = a_scaling (as_custom c m (c_v A)) /\ o_angle o = a_angle (as_custom c m (c_v A))).
Proof. exact construct_model_fields. Qed.
Print Assumptions C50_model_in_the_object.

Theorem C50_update :
  forall E o v m, a_model v = VModel m ->
    (package_ok (e_gstools E) m -> model_fits (o_class o) (o_geo o) m ->
       update_variogram_model E o v = update_variogram_model E o (as_custom (o_class o) m v)) /\
    (~ package_ok (e_gstools E) m -> snd (update_variogram_model E o v) = Some GSToolsExc) /\
    (package_ok (e_gstools E) m -> ~ model_fits (o_class o) (o_geo o) m -> snd (update_variogram_model E o v) = Some ValueError).
Proof. intros E o v m H. split; [apply update_custom, H|apply update_refuses, H]. Qed.
Print Assumptions C50_update.

Example C50_nonvacuous : exists o, ct_ok OK2 (gs_args (gs_of 2 false)) /\ package_ok (e_gstools GE) (gs_of 2 false) /\
  model_fits OK2 (is_geo OK2 (gs_args (gs_of 2 false))) (gs_of 2 false) /\ construct GE OK2 (gs_args (gs_of 2 false)) = Ok o /\
  ~ model_fits OK2 (is_geo OK2 (gs_args (gs_of 3 false))) (gs_of 3 false) /\ ~ package_ok None (gs_of 2 false).
Proof.
  destruct (custom_construct 2) as [o Ho]; [lia|]. exists o. split; [intros _; left; reflexivity|]. split; [apply gs_package|].
  split; [split; [cbn; lia|discriminate]|]. split; [exact Ho|]. split; [intros [H _]; apply H; reflexivity|].
  intros (v & H & _). discriminate H.
Qed.

(** The dimension of the model need not fit: a 4-dimensional model is accepted by
    OrdinaryKriging in 2D. *)
Theorem C50_dimension_refuted : exists m o, gs_field_dim m = 4%nat /\ construct GE OK2 (gs_args m) = Ok o.
Proof. destruct (custom_construct 4) as [o Ho]; [lia|]. exists (gs_of 4 false), o. split; [reflexivity|exact Ho]. Qed.
Print Assumptions C50_dimension_refuted.
(** and the 3D classes do not look at latlon *)
Theorem C50_latlon_in_3d_refuted : forall E c v, c = OK3 \/ c = UK3 -> package_ok (e_gstools E) (gs_of 3 true) -> a_model v = VModel (gs_of 3 true) ->
  gs_latlon (gs_of 3 true) = true /\
  forall A, c_v A = v -> construct E c A = construct E c (with_v A (as_custom c (gs_of 3 true) v)).
Proof.
  intros E c v Hc HP Hv. split; [reflexivity|]. intros A <-. apply construct_custom; [|exact Hv|exact HP|].
  - destruct Hc as [-> | ->]; discriminate.
  - destruct Hc as [-> | ->]; cbn; lia.
Qed.
Print Assumptions C50_latlon_in_3d_refuted.
