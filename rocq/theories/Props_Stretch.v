(** PROPERTY C76: anisotropy is a change of coordinates.  Vocabulary: S_Stretch ([stretch]: a
    location in the coordinates of the rotated axes, with the later axes multiplied by the
    anisotropy scalings; [relocated]: the same constructor call with the data elsewhere and no
    anisotropy). *)
From Coq Require Import String.
From Verif Require Import Base Sums Matrix M_Variogram M_Geometry S_Geometry M_Kriging S_Kriging M_Init M_Object M_Execute S_Execute
  S_State S_Fit S_Stats S_Stretch P_UK8 P_Stats2 P_Stats4.

(** Kriging with anisotropy_scaling and anisotropy_angle gives, at every location, what
    kriging without anisotropy gives for the stretched data at the stretched location. *)
Theorem C76_anisotropy_is_a_change_of_coordinates :
  forall E c A coords name o o' q q' r r' p p' pos, construct E c A = Ok o -> construct E c (relocated A coords) = Ok o' ->
    o_ct o = Euclidean -> a_model (c_v A) = VName name ->
    (forall i, (i < List.length (c_values A))%nat -> input c (relocated A coords) i = stretch c (c_v A) (input c A i)) ->
    run E o q r -> run E o' q' r' -> q_window q' = q_window q ->
    shown o q p pos -> shown o' q' p' (stretch c (c_v A) pos) -> (q_window q <> None -> no_ties o pos) ->
    r_value r p = r_value r' p' /\ r_variance r p = r_variance r' p'.
Proof. exact stretch_cells. Qed.
Print Assumptions C76_anisotropy_is_a_change_of_coordinates.

(** The experimental variogram, the fitted parameters and the statistics are those of the
    stretched data too; distances are Euclidean distances of stretched locations. *)
Theorem C76_variogram :
  forall E c A coords name o o', construct E c A = Ok o -> construct E c (relocated A coords) = Ok o' ->
    o_ct o = Euclidean -> a_model (c_v A) = VName name ->
    (forall i, (i < List.length (c_values A))%nat -> input c (relocated A coords) i = stretch c (c_v A) (input c A i)) ->
    o_ct o' = Euclidean /\ o_class o' = o_class o /\ o_class o = c /\ o_n o' = o_n o /\ o_values o' = o_values o /\ o_fun o' = o_fun o /\ o_exact o' = o_exact o /\
    o_pinv o' = o_pinv o /\ o_pinv o = c_pinv A /\ o_params o' = o_params o /\ o_lags o' = o_lags o /\ o_semivariance o' = o_semivariance o /\
    (forall x y, separation o x y = dist3 (stretch c (c_v A) x) (stretch c (c_v A) y)) /\
    (forall x y, (cdim c = 2%nat -> snd x = 0 /\ snd y = 0) -> separation o' x y = dist3 x y).
Proof. exact stretch_construct. Qed.
Print Assumptions C76_variogram.

Theorem C76_statistics :
  forall E c A coords name o o', env_ok E -> List.length (c_coords A) = cdim c -> List.length coords = cdim c ->
    construct E c A = Ok o -> construct E c (relocated A coords) = Ok o' ->
    o_ct o = Euclidean -> a_model (c_v A) = VName name -> (c = OK2 -> c_stat A = true) ->
    (forall i, (i < List.length (c_values A))%nat -> input c (relocated A coords) i = stretch c (c_v A) (input c A i)) ->
    statistics_scaled 1 1 o o'.
Proof. exact stretch_statistics. Qed.
Print Assumptions C76_statistics.

Example C76_nonvacuous : exists A coords o o' r r' q q', env_ok WE /\ construct WE OK2 A = Ok o /\ construct WE OK2 (relocated A coords) = Ok o' /\
  List.length (c_coords A) = 2%nat /\ List.length coords = 2%nat /\ o_ct o = Euclidean /\ a_model (c_v A) = VName "linear" /\ c_stat A = true /\
  (forall i, (i < List.length (c_values A))%nat -> input OK2 (relocated A coords) i = stretch OK2 (c_v A) (input OK2 A i)) /\
  run WE o q r /\ run WE o' q' r' /\ q_window q' = q_window q /\ q_window q = None /\
  shown o q 0 (1, 2, 0) /\ shown o' q' 0 (stretch OK2 (c_v A) (1, 2, 0)) /\ a_scaling (c_v A) 0%nat = 2 /\ a_angle (c_v A) 0%nat = 90 /\
  separation o (0, 0, 0) (1, 0, 0) = 2 /\ separation o (0, 0, 0) (0, 1, 0) = 1.
Proof. exact ex_stretch. Qed.

(** *** universal kriging.  The wells are carried to the stretched coordinates, specified
    drift arrays are kept, and each functional drift term is replaced by one that takes, at a
    stretched location of the second object, the value the original takes at the location.
    The regional linear columns need not agree: they span the same space.  The external drift
    grid of UniversalKriging, whose axes cannot be rotated, must not be asked for. *)
From Verif Require Import M_UK S_UK S_UK2 P_UK5 P_StretchUK P_StretchUK2.

Theorem C76_universal_anisotropy_is_a_change_of_coordinates :
  forall E c A coords D name fs u u' q q' specs specs' r r' p p' pos,
    construct_uk E c A D = Ok u -> construct_uk E c (relocated A coords) (carry (stretch c (c_v A)) fs D) = Ok u' ->
    List.length (c_coords A) = cdim c -> List.length coords = cdim c ->
    a_model (c_v A) = VName name ->
    (forall i, (i < List.length (c_values A))%nat -> input c (relocated A coords) i = stretch c (c_v A) (input c A i)) ->
    (c = UK2 -> asked D "external_Z" = false) ->
    Forall2 (fun h h' => forall x, fun_at u' h' (stretch c (c_v A) x) = fun_at u h x) (opt_list (d_fun D)) fs ->
    urun E u q specs r -> urun E u' q' specs' r' -> faithful_specs u q -> faithful_specs u' q' ->
    shown (u_obj u) q p pos -> shown (u_obj u') q' p' (stretch c (c_v A) pos) -> uregular u q specs -> specs_agree u q q' specs specs' p p' ->
    r_value r p = r_value r' p' /\ r_variance r p = r_variance r' p'.
Proof. exact uk_stretch. Qed.
Print Assumptions C76_universal_anisotropy_is_a_change_of_coordinates.

Example C76_universal_nonvacuous : exists E A coords D fs u u' q q' r r',
  construct_uk E UK2 A D = Ok u /\ construct_uk E UK2 (relocated A coords) (carry (stretch UK2 (c_v A)) fs D) = Ok u' /\
  List.length (c_coords A) = 2%nat /\ List.length coords = 2%nat /\ a_model (c_v A) = VName "linear" /\
  (forall i, (i < List.length (c_values A))%nat -> input UK2 (relocated A coords) i = stretch UK2 (c_v A) (input UK2 A i)) /\
  asked D "external_Z" = false /\
  Forall2 (fun h h' => forall x, fun_at u' h' (stretch UK2 (c_v A) x) = fun_at u h x) (opt_list (d_fun D)) fs /\
  urun E u q [] r /\ urun E u' q' [] r' /\ faithful_specs u q /\ faithful_specs u' q' /\
  shown (u_obj u) q 0 (1, 2, 0) /\ shown (u_obj u') q' 0 (stretch UK2 (c_v A) (1, 2, 0)) /\ uregular u q [] /\ specs_agree u q q' [] [] 0 0 /\
  a_scaling (c_v A) 0%nat = 2 /\ a_angle (c_v A) 0%nat = 90 /\ d_fun D <> None /\ fs <> [].
Proof. exact ex_uk_stretch. Qed.
