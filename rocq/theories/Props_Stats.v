(** PROPERTY C75: the cross-validation statistics (epsilon, Q1, Q2, cR) under changes of the
    data.  Vocabulary: S_Stats ([statistics_scaled a k]: residuals times a, standard
    deviations times k; [current_statistics]: the statistics belong to the current variogram). *)
From Coq Require Import String.
From Verif Require Import Base Sums Matrix M_Variogram M_Geometry S_Geometry M_Kriging S_Kriging M_Init M_Object M_Execute S_Execute
  S_State S_Fit S_Amplify S_Stats P_UK8 P_Stats2 P_Stats3 P_Stats4.

(** a*z + b for the values, the variogram given: residuals times a, the same standard
    deviations; Q1 times |a|, Q2 and cR times a^2. *)
Theorem C75_affine_change_of_values :
  forall E c A us o o' a b, env_ok E -> current_statistics E c A us o ->
    current_statistics E c (with_values A (map (fun z => a * z + b) (c_values A))) us o' ->
    (forall v, In v (c_v A :: us) -> explicit_params v) -> (c_pinv A = false \/ b = 0) -> statistics_scaled a 1 o o'.
Proof. exact statistics_affine. Qed.
Print Assumptions C75_affine_change_of_values.
Example C75_affine_nonvacuous : exists A o o', env_ok WE /\ current_statistics WE OK2 A [] o /\
  current_statistics WE OK2 (with_values A (map (fun z => -2 * z + 7) (c_values A))) [] o' /\
  (forall v, In v [c_v A] -> explicit_params v) /\ c_pinv A = false /\ all_residuals o /\ (3 <= o_n o)%nat.
Proof. exact ex_statistics. Qed.

(** k times the variogram: standard deviations times sqrt k (Q2 divided by k, cR unchanged:
    cR cannot tell the scale of the variogram), provided no variance is under the 1e-10
    threshold that drops a residual. *)
Theorem C75_amplified_variogram :
  forall E c c' A A' us us' o o' k, env_ok E -> 0 < k -> current_statistics E c A us o -> current_statistics E c' A' us' o' ->
    amplified k o o' -> o_pinv o = false -> o_pinv o' = false -> all_residuals o -> all_residuals o' -> statistics_scaled 1 (sqrt k) o o'.
Proof. exact statistics_amplified. Qed.
Print Assumptions C75_amplified_variogram.
Example C75_amplified_nonvacuous : exists A A' o o', env_ok WE /\ current_statistics WE OK2 A [] o /\ current_statistics WE OK2 A' [] o' /\
  amplified 4 o o' /\ o_pinv o = false /\ o_pinv o' = false /\ all_residuals o /\ all_residuals o' /\ (3 <= o_n o)%nat.
Proof. exact ex_statistics_amplified. Qed.

(** Another unit of length: nothing changes. *)
Theorem C75_change_of_unit :
  forall E c c' A A' us us' o o' k, env_ok E -> 0 < k -> current_statistics E c A us o -> current_statistics E c' A' us' o' ->
    magnified k o o' -> o_pinv o' = o_pinv o ->
    (forall i j, (i < o_n o)%nat -> (j < o_n o)%nat -> i <> j -> eps < sep o i j /\ eps < k * sep o i j) -> statistics_scaled 1 1 o o'.
Proof. exact statistics_unit. Qed.
Print Assumptions C75_change_of_unit.
Example C75_unit_nonvacuous : exists A A' o o', env_ok WE /\ current_statistics WE OK2 A [] o /\ current_statistics WE OK2 A' [] o' /\
  magnified 2 o o' /\ o_pinv o' = o_pinv o /\ (3 <= o_n o)%nat /\
  (forall i j, (i < o_n o)%nat -> (j < o_n o)%nat -> i <> j -> eps < sep o i j /\ eps < 2 * sep o i j).
Proof. exact ex_statistics_unit. Qed.

(** Moving all the data, rotating them (without anisotropy): nothing changes, also when the
    variogram is fitted. *)
Theorem C75_translation :
  forall E c A coords us t o o', env_ok E ->
    current_statistics E c A us o -> current_statistics E c (with_data A coords (c_values A)) us o' -> o_ct o = Euclidean ->
    (forall i, (i < List.length (c_values A))%nat -> input c (with_data A coords (c_values A)) i = add3 (input c A i) t) ->
    statistics_scaled 1 1 o o'.
Proof. exact statistics_translation. Qed.
Print Assumptions C75_translation.

Theorem C75_isometry :
  forall E c A coords us (f : vec3 -> vec3) o o', env_ok E ->
    current_statistics E c A us o -> current_statistics E c (with_data A coords (c_values A)) us o' -> o_ct o = Euclidean ->
    (forall v, In v (c_v A :: us) -> isotropic c v) ->
    (forall x y, dist3 (f x) (f y) = dist3 x y) -> (cdim c = 2%nat -> forall x, snd x = 0 -> snd (f x) = 0) ->
    (forall i, (i < List.length (c_values A))%nat -> input c (with_data A coords (c_values A)) i = f (input c A i)) ->
    statistics_scaled 1 1 o o'.
Proof. exact statistics_isometry. Qed.
Print Assumptions C75_isometry.
Example C75_motion_nonvacuous : exists A coords coords' o o1 o2 (f : vec3 -> vec3), env_ok WE /\ current_statistics WE OK2 A [] o /\
  current_statistics WE OK2 (with_data A coords (c_values A)) [] o1 /\ current_statistics WE OK2 (with_data A coords' (c_values A)) [] o2 /\
  o_ct o = Euclidean /\ (forall v, In v [c_v A] -> isotropic OK2 v) /\ (3 <= List.length (c_values A))%nat /\
  (forall i, (i < List.length (c_values A))%nat -> input OK2 (with_data A coords (c_values A)) i = add3 (input OK2 A i) (10, -5, 0)) /\
  (forall x y, dist3 (f x) (f y) = dist3 x y) /\ (forall x, snd x = 0 -> snd (f x) = 0) /\ f (1, 0, 0) = (0, 1, 0) /\
  (forall i, (i < List.length (c_values A))%nat -> input OK2 (with_data A coords' (c_values A)) i = f (input OK2 A i)).
Proof. exact ex_moved_statistics. Qed.

(** The order of the data does matter: predictions do not depend on it (C14), the statistics
    (each datum predicted from those before it) do.  Here with the first two data swapped. *)
Theorem C75_order_of_data_refuted : exists A s coords z o o' st st' q q',
  (forall j, (j < 2)%nat -> rearranged s (nth j (c_coords A) []) (nth j coords [])) /\ rearranged s (c_values A) z /\ perm_on (List.length (c_values A)) s /\
  current_statistics WE OK2 A [] o /\ current_statistics WE OK2 (with_data A coords z) [] o' /\
  o_stats o = Some st /\ o_stats o' = Some st' /\ st_Q1 st = Some q /\ st_Q1 st' = Some q' /\ q <> q'.
Proof. exact order_matters. Qed.
Print Assumptions C75_order_of_data_refuted.
