(** PROPERTY C71 (and the universal parts of C22 and C49): which drift arguments are accepted
    and which calls of the universal execute return. *)
From Coq Require Import String.
From Verif Require Import Base Sums Matrix M_Variogram M_Geometry S_Geometry M_Kriging S_Kriging M_Init M_Object M_Execute S_Execute
  M_UK S_UK S_Bilinear S_Drift S_Pinv S_UK2 Witness P_UK8 P_UK9 P_UK18 P_UK19 P_UK20 P_UK21 P_Pinv3.

(** The constructor returns exactly when the part without drift does (see C49, C63)
    and the data for all requested drift terms are complete. *)
Theorem C71_constructor_returns_iff :
  forall E c A D, List.length (c_coords A) = cdim c ->
    ((exists u, construct_uk E c A D = Ok u) <-> (exists o, construct E c A = Ok o) /\ complete_drifts c A D).
Proof. exact construct_uk_iff. Qed.
Print Assumptions C71_constructor_returns_iff.

(** Otherwise it raises, and this is what: the first problem in this order. *)
Theorem C71_constructor_exceptions :
  forall E c A D, List.length (c_coords A) = cdim c ->
    (forall e, construct E c A = Err e -> construct_uk E c A D = Err e) /\
    (forall o, construct E c A = Ok o ->
      (c = UK2 /\ asked D "external_Z" = true -> ~ external_ok A D -> construct_uk E c A D = Err ValueError) /\
      ((c = UK2 /\ asked D "external_Z" = true -> external_ok A D) ->
        (c = UK2 /\ asked D "point_log" = true -> d_point D = None -> construct_uk E c A D = Err ValueError) /\
        (forall b, c = UK2 /\ asked D "point_log" = true -> d_point D = Some (b, []) -> construct_uk E c A D = Err IndexError) /\
        (forall w ws, c = UK2 /\ asked D "point_log" = true -> d_point D = Some (true, w :: ws) -> construct_uk E c A D = Err TypeError) /\
        ((c = UK2 /\ asked D "point_log" = true -> wells_ok D) ->
          (asked D "specified" = true -> d_spec D = None -> construct_uk E c A D = Err TypeError) /\
          (asked D "specified" = true -> d_spec D <> None -> ~ specified_ok A D -> construct_uk E c A D = Err ValueError) /\
          ((asked D "specified" = true -> specified_ok A D) ->
            (asked D "functional" = true -> d_fun D = None -> construct_uk E c A D = Err TypeError) /\
            (asked D "functional" = true -> d_fun D = Some [] -> construct_uk E c A D = Err ValueError) /\
            ((asked D "functional" = true -> functional_ok D) -> exists u, construct_uk E c A D = Ok u))))).
Proof.
  intros E c A D HL. split; [intros e; apply construct_uk_base|]. intros o HO. exact (drift_decides E c A D o HL HO).
Qed.
Print Assumptions C71_constructor_exceptions.

(** Names that are not documented are ignored, and so are order and repetitions. *)
Theorem C71_only_documented_names_matter :
  forall E c A D ts, (forall t, In t drift_names -> (In t (d_terms D) <-> In t ts)) ->
    construct_uk E c A (with_terms D ts) = construct_uk E c A D.
Proof. exact terms_only. Qed.
Print Assumptions C71_only_documented_names_matter.

(** UniversalKriging3D silently ignores external_Z and point_log. *)
Theorem C71_three_dimensional_names :
  forall E A D ts, (forall t, In t ["regional_linear"; "specified"; "functional"]%string -> (In t (d_terms D) <-> In t ts)) ->
    construct_uk E UK3 A (with_terms D ts) = construct_uk E UK3 A D.
Proof. exact terms_3d. Qed.
Print Assumptions C71_three_dimensional_names.

(** execute, vectorized: also the hidden cells must be in the external drift grid. *)
Theorem C71_vectorized_returns_iff :
  forall E u q specs, env_ok E -> ureachable E u -> o_pinv (u_obj u) = false -> q_backend q = "vectorized"%string ->
    ((exists r w, execute_uk E u q specs = Ok (r, w)) <->
     good_query (u_obj u) q /\ good_specs u q specs /\
     (forall p pos, cell (o_dim (u_obj u)) q p pos -> in_grid u pos) /\ drift_regular u q specs).
Proof. exact vectorized_iff. Qed.
Print Assumptions C71_vectorized_returns_iff.

(** execute, loop: only the shown cells matter, but none may be at a well, and with
    specified drift there must be enough cells (the code reads the drift value of the
    wrong cell, see C26_specified_drift_refuted). *)
Theorem C71_loop_returns_iff :
  forall E u q specs, env_ok E -> ureachable E u -> o_pinv (u_obj u) = false -> q_backend q = "loop"%string ->
    ((exists r w, execute_uk E u q specs = Ok (r, w)) <->
     good_query (u_obj u) q /\ good_specs u q specs /\ drift_regular u q specs /\
     (forall p pos, shown (u_obj u) q p pos ->
        in_grid u pos /\ not_at_well u pos /\
        (dr_spec (u_drift u) <> None -> (rows_through_specified u <= cells (o_dim (u_obj u)) q)%nat))).
Proof. exact loop_iff. Qed.
Print Assumptions C71_loop_returns_iff.

(** execute: what is raised when the arguments have the right shape. *)
Theorem C71_execute_exceptions :
  forall E u q specs, env_ok E -> ureachable E u -> o_pinv (u_obj u) = false -> good_query (u_obj u) q -> good_specs u q specs ->
    (q_backend q = "vectorized"%string \/ q_backend q = "loop"%string -> ~ drift_regular u q specs ->
       execute_uk E u q specs = Err LinAlgError) /\
    (q_backend q = "vectorized"%string -> drift_regular u q specs ->
       ~ (forall p pos, cell (o_dim (u_obj u)) q p pos -> in_grid u pos) -> execute_uk E u q specs = Err ValueError) /\
    (forall e, q_backend q = "loop"%string -> drift_regular u q specs -> execute_uk E u q specs = Err e ->
       exists p pos, shown (u_obj u) q p pos /\ cell_problem u q pos e).
Proof.
  intros E u q specs HE HR HP HQ HS. split; [|split].
  - intros HB HF. exact (singular_raises E u q specs HE HR HP HB HQ HS HF).
  - intros HB HF HX. exact (outside_raises E u q specs HE HR HP HB HQ HS HF HX).
  - intros e HB HF H. exact (loop_raises E u q specs e HE HR HP HB HQ HS HF H).
Qed.
Print Assumptions C71_execute_exceptions.

Example C71_nonvacuous_specified : exists E u specs, env_ok E /\ ureachable E u /\ o_pinv (u_obj u) = false /\
  dr_spec (u_drift u) <> None /\
  (exists r w, execute_uk E u (three_points "vectorized") specs = Ok (r, w)) /\
  (exists r w, execute_uk E u (three_points "loop") specs = Ok (r, w)).
Proof. exact ex_drift_iff. Qed.
Example C71_nonvacuous_external : exists E u, env_ok E /\ ureachable E u /\ o_pinv (u_obj u) = false /\ dr_ext (u_drift u) <> None /\
  execute_uk E u (masked_query "vectorized") [] = Err ValueError /\
  (exists r w, execute_uk E u (masked_query "loop") [] = Ok (r, w)).
Proof. exact ex_external_iff. Qed.

(** C49 for the universal classes: what execute accepts ... *)
Theorem C49_universal_execute_accepts_only :
  forall E u q specs r w, ureachable E u -> execute_uk E u q specs = Ok (r, w) ->
    good_query (u_obj u) q /\ good_specs u q specs /\ (q_backend q = "vectorized"%string \/ q_backend q = "loop"%string) /\
    (forall p pos, shown (u_obj u) q p pos -> in_grid u pos).
Proof. exact uk_accepts. Qed.
Print Assumptions C49_universal_execute_accepts_only.

(** ... and the exceptions. *)
Theorem C49_universal_execute_rejects :
  forall E u q specs, ureachable E u ->
    (~ In (q_style q) style_names -> execute_uk E u q specs = Err ValueError) /\
    (good_query (u_obj u) q -> q_backend q <> "vectorized"%string -> q_backend q <> "loop"%string ->
       execute_uk E u q specs = Err ValueError) /\
    (In (q_style q) style_names -> q_style q <> "masked"%string -> ~ good_specs u q specs ->
       execute_uk E u q specs = Err ValueError) /\
    (q_style q = "points"%string ->
       (List.length (ys q) <> List.length (xs q) \/ (o_dim (u_obj u) = 3%nat /\ List.length (zs q) <> List.length (xs q))) ->
       execute_uk E u q specs = Err ValueError).
Proof. exact uk_rejects. Qed.
Print Assumptions C49_universal_execute_rejects.

(** C22 for the universal classes: coinciding data, no nugget. *)
Theorem C22_universal_duplicates_raise :
  forall E u q specs i j, env_ok E -> ureachable E u -> o_pinv (u_obj u) = false ->
    q_backend q = "vectorized"%string \/ q_backend q = "loop"%string -> good_query (u_obj u) q -> good_specs u q specs ->
    same_place u i j -> o_vg (u_obj u) 0 = 0 -> execute_uk E u q specs = Err LinAlgError.
Proof. exact universal_duplicates_raise. Qed.
Print Assumptions C22_universal_duplicates_raise.

Example C22_universal_nonvacuous : exists E u q, env_ok E /\ ureachable E u /\ o_pinv (u_obj u) = false /\
  q_backend q = "vectorized"%string /\ good_query (u_obj u) q /\ good_specs u q [] /\ same_place u 0 1 /\ o_vg (u_obj u) 0 = 0 /\
  dr_fun (u_drift u) = Some [fx].
Proof. exact ex_universal_duplicates. Qed.

(** With a nugget, or with pseudo_inv: there are weights, equal at i and j, that give
    the prediction for every set of values. *)
Theorem C22_universal_duplicates_get_equal_weights :
  forall E c A D us u q specs r p pos i j,
    ubuilt E c A D us u -> (forall v, In v (c_v A :: us) -> explicit_params v) ->
    urun E u q specs r -> faithful_specs u q -> shown (u_obj u) q p pos -> same_place u i j ->
    exists w, w i = w j /\
      forall z u' r', ubuilt E c (with_values A z) D us u' -> urun E u' q specs r' ->
        r_value r' p = Some (bsum (o_n (u_obj u)) (fun a => w a * rnth z a)).
Proof. exact universal_equal_weights. Qed.
Print Assumptions C22_universal_duplicates_get_equal_weights.

Example C22_universal_equal_nonvacuous : exists E u q r, ubuilt E UK2 quad_args lin_args [] u /\
  (forall v, In v [c_v quad_args] -> explicit_params v) /\ urun E u q [] r /\ faithful_specs u q /\ shown (u_obj u) q 0 (1, 1, 0) /\
  same_place u 0 3 /\ dr_linear (u_drift u) = true.
Proof. exact ex_universal_equal. Qed.

(** Whenever both return, pseudo_inv and its type change nothing. *)
Theorem C22_universal_pseudo_inverse_irrelevant :
  forall E c A D us b t u u' q specs r r' p pos,
    ubuilt E c A D us u -> ubuilt E c (with_pinv A b t) D us u' -> urun E u q specs r -> urun E u' q specs r' ->
    faithful_specs u q -> shown (u_obj u) q p pos ->
    r_value r p = r_value r' p /\ r_variance r p = r_variance r' p.
Proof. exact universal_pinv_irrelevant. Qed.
Print Assumptions C22_universal_pseudo_inverse_irrelevant.
Example C22_universal_irrelevant_nonvacuous : exists E u u' q r r',
  ubuilt E UK2 quad_args lin_args [] u /\ ubuilt E UK2 (with_pinv quad_args true "pinv") lin_args [] u' /\
  urun E u q [] r /\ urun E u' q [] r' /\ faithful_specs u q /\ shown (u_obj u) q 0 (1, 1, 0).
Proof. exact ex_universal_irrelevant. Qed.

(** With pseudo_inv and no nugget the result is that of the data with the two averaged
    into one. *)
Theorem C22_universal_duplicates_are_averaged :
  forall E u u' q specs r r' p pos i j, urun E u q specs r -> urun E u' q specs r' ->
    faithful_specs u q -> shown (u_obj u) q p pos -> umerges i j u u' -> same_place u i j -> o_vg (u_obj u) 0 = 0 ->
    drift_regular u' q specs ->
    r_value r p = r_value r' p /\ r_variance r p = r_variance r' p.
Proof. exact universal_averaged. Qed.
Print Assumptions C22_universal_duplicates_are_averaged.
Example C22_universal_averaged_nonvacuous : exists E u u' q r r', urun E u q [] r /\ urun E u' q [] r' /\ faithful_specs u q /\
  shown (u_obj u) q 0 (1, 1, 0) /\ umerges 0 2 u u' /\ same_place u 0 2 /\ o_vg (u_obj u) 0 = 0 /\ drift_regular u' q [] /\
  o_pinv (u_obj u) = true /\ dr_fun (u_drift u) = Some [fx] /\
  svd_converges E /\ q_backend q = "vectorized"%string /\ good_query (u_obj u) q /\ good_specs u q [].
Proof. exact ex_universal_averaged. Qed.
