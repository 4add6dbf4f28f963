(** PROPERTY C82: universal kriging depends on the drift terms only through the functions
    they span together with the constants.  [expressed], [same_span], [redundant] and the
    rest of the vocabulary are in S_Span.v. *)
From Coq Require Import String.
From Verif Require Import Base Sums Matrix M_Variogram M_Geometry S_Geometry M_Kriging S_Kriging M_Init M_Object M_Execute S_Execute
  M_UK S_UK S_Bilinear S_Drift S_Span P_UK9 P_Span P_Span2 P_Span3 P_Span4 P_Span5.

(** Two objects for the same data, options and history of updates, with different drift
    arguments: same results wherever each drift function of one is a constant plus a
    combination of those of the other.  Only one of the two systems needs to be uniquely
    solvable: the other one may contain redundant terms (with pseudo_inv). *)
Theorem C82_only_the_span_matters :
  forall E c A D D' us u u' q q' specs specs' r r' p p' pos,
    ubuilt E c A D us u -> ubuilt E c A D' us u' ->
    urun E u q specs r -> urun E u' q' specs' r' -> faithful_specs u q -> faithful_specs u' q' ->
    shown (u_obj u) q p pos -> shown (u_obj u') q' p' pos -> uregular u' q' specs' ->
    same_span (o_n (u_obj u)) pos p (drift_terms u q specs) p' (drift_terms u' q' specs') ->
    r_value r p = r_value r' p' /\ r_variance r p = r_variance r' p'.
Proof. exact span_only. Qed.
Print Assumptions C82_only_the_span_matters.

(** 'regional_linear' is the functional drift with the coordinate functions. *)
Theorem C82_linear_as_functional :
  forall E c A D D' us u u' q specs r r' p pos,
    ubuilt E c A D us u -> ubuilt E c A D' us u' -> linear_as_functions c D D' ->
    urun E u q specs r -> urun E u' q specs r' -> faithful_specs u q -> shown (u_obj u) q p pos -> uregular u' q specs ->
    r_value r p = r_value r' p /\ r_variance r p = r_variance r' p.
Proof. exact linear_functional. Qed.
Print Assumptions C82_linear_as_functional.

(** ... and, although the drift of 'regional_linear' is linear in the rotated and
    stretched coordinates, the specified drift with the coordinates as they are given. *)
Theorem C82_linear_as_specified :
  forall E c A D D' us u u' q q' specs specs' r r' p p' pos,
    ubuilt E c A D us u -> ubuilt E c A D' us u' -> asks_only D "regional_linear" -> asks_only D' "specified" ->
    d_spec D' = Some (c_coords A) -> coordinate_arrays (cdim c) q' specs' p' pos ->
    o_scaling (u_obj u) 0%nat <> 0 -> (o_dim (u_obj u) = 3%nat -> o_scaling (u_obj u) 1%nat <> 0) ->
    urun E u q specs r -> urun E u' q' specs' r' -> q_backend q' = "vectorized"%string ->
    shown (u_obj u) q p pos -> shown (u_obj u') q' p' pos -> uregular u' q' specs' ->
    r_value r p = r_value r' p' /\ r_variance r p = r_variance r' p'.
Proof. exact linear_specified. Qed.
Print Assumptions C82_linear_as_specified.

(** The units in which the covariates are given do not matter. *)
Theorem C82_units_of_covariates :
  forall E c A D D' us u u' q q' specs specs' r r' p p' pos,
    ubuilt E c A D us u -> ubuilt E c A D' us u' -> other_units D D' -> specified_units D D' q q' specs specs' p p' ->
    urun E u q specs r -> urun E u' q' specs' r' -> faithful_specs u q -> faithful_specs u' q' ->
    shown (u_obj u) q p pos -> shown (u_obj u') q' p' pos -> uregular u' q' specs' ->
    r_value r p = r_value r' p' /\ r_variance r p = r_variance r' p'.
Proof. exact units_irrelevant. Qed.
Print Assumptions C82_units_of_covariates.

(** A drift term that at the data is a constant plus a combination of the others makes
    every call raise when pseudo_inv is off ... *)
Theorem C82_redundant_terms_raise :
  forall E u q specs, env_ok E -> ureachable E u -> o_pinv (u_obj u) = false ->
    q_backend q = "vectorized"%string \/ q_backend q = "loop"%string -> good_query (u_obj u) q -> good_specs u q specs ->
    redundant (o_n (u_obj u)) (drift_terms u q specs) -> execute_uk E u q specs = Err LinAlgError.
Proof. exact redundant_raises. Qed.
Print Assumptions C82_redundant_terms_raise.

(** ... such as a constant drift function: the constant is always part of the trend. *)
Theorem C82_constant_drift_raises :
  forall E u q specs f fs k, env_ok E -> ureachable E u -> o_pinv (u_obj u) = false ->
    q_backend q = "vectorized"%string \/ q_backend q = "loop"%string -> good_query (u_obj u) q -> good_specs u q specs ->
    dr_fun (u_drift u) = Some fs -> In f fs -> (forall x y z, f x y z = k) -> execute_uk E u q specs = Err LinAlgError.
Proof. exact constant_raises. Qed.
Print Assumptions C82_constant_drift_raises.

(** With pseudo_inv it is harmless where it is also at the query location that combination. *)
Theorem C82_redundant_terms_ignored :
  forall E c A D D' us u u' q q' specs specs' r r' p p' pos l1 t l2,
    ubuilt E c A D us u -> ubuilt E c A D' us u' ->
    urun E u q specs r -> urun E u' q' specs' r' -> faithful_specs u q -> faithful_specs u' q' ->
    shown (u_obj u) q p pos -> shown (u_obj u') q' p' pos -> uregular u' q' specs' ->
    drift_terms u q specs = l1 ++ t :: l2 ->
    same_span (o_n (u_obj u)) pos p (l1 ++ l2) p' (drift_terms u' q' specs') ->
    expressed (o_n (u_obj u)) pos p t p (l1 ++ l2) ->
    r_value r p = r_value r' p' /\ r_variance r p = r_variance r' p'.
Proof. exact redundant_ignored. Qed.
Print Assumptions C82_redundant_terms_ignored.

(** A linear trend on three data, requested in the three ways. *)
Example C82_nonvacuous : forall x y, exists E A u u' u'' q r r' r'',
  ubuilt E UK2 A lin_args [] u /\ ubuilt E UK2 A xy_args [] u' /\ ubuilt E UK2 A coord_args [] u'' /\
  urun E u q [] r /\ urun E u' q [] r' /\ urun E u'' q (coord_specs x y) r'' /\
  shown (u_obj u) q 0 (x, y, 0) /\ shown (u_obj u'') q 0 (x, y, 0) /\ uregular u' q [] /\ uregular u'' q (coord_specs x y) /\
  linear_as_functions UK2 lin_args xy_args /\ faithful_specs u q /\
  asks_only lin_args "regional_linear" /\ asks_only coord_args "specified" /\ d_spec coord_args = Some (c_coords A) /\
  coordinate_arrays 2 q (coord_specs x y) 0 (x, y, 0) /\ q_backend q = "vectorized"%string /\
  o_scaling (u_obj u) 0%nat = 1 /\ o_dim (u_obj u) = 2%nat.
Proof. exact ex_linear_three_ways. Qed.
Example C82_nonvacuous_units : exists E A D D' u u' q r r',
  ubuilt E UK2 A D [] u /\ ubuilt E UK2 A D' [] u' /\ other_units D D' /\ specified_units D D' q q [] [] 0 0 /\
  urun E u q [] r /\ urun E u' q [] r' /\ faithful_specs u q /\ faithful_specs u' q /\
  shown (u_obj u) q 0 (1, 1, 0) /\ shown (u_obj u') q 0 (1, 1, 0) /\ uregular u' q [] /\ D' <> D.
Proof. exact ex_units. Qed.
Example C82_nonvacuous_constant : exists E u q, env_ok E /\ ureachable E u /\ o_pinv (u_obj u) = false /\ q_backend q = "vectorized"%string /\
  good_query (u_obj u) q /\ good_specs u q [] /\ dr_fun (u_drift u) = Some [one_fun].
Proof. exact ex_constant. Qed.
