(** PROPERTIES C14, C17, C18, C19, C52 for universal kriging (2D and 3D), and C66
    (multiplying the variogram) for both.  Vocabulary is in S_Execute, S_UK, S_UK2
    and S_Amplify. *)
From Coq Require Import String.
From Verif Require Import Base Sums Matrix M_Variogram M_Geometry S_Geometry M_Kriging S_Kriging M_Init M_Object M_Execute S_Execute
  M_UK S_UK S_UK2 S_State S_Amplify Witness P_UK8 P_UK11 P_UK12 P_UK13 P_UK15 P_UK16 P_UK17 P_Amplify.

(** C14.  z' = a z + b + a combination of the drift functions. *)
Theorem C14_universal_affine_change_of_values :
  forall E c A D us u u' q specs r r' p pos a b cs z,
    ubuilt E c A D us u -> ubuilt E c (with_values A z) D us u' ->
    (forall v, In v (c_v A :: us) -> explicit_params v) ->
    urun E u q specs r -> urun E u' q specs r' -> faithful_specs u q -> shown (u_obj u) q p pos -> uwell_posed u q specs p pos ->
    let ts := drift_terms u q specs in
    (forall i, (i < List.length (c_values A))%nat ->
       rnth z i = a * rnth (c_values A) i + b + combination cs (map (fun t => t_data t i) ts)) ->
    exists v s, r_value r p = Some v /\ r_variance r p = Some s /\
      r_value r' p = Some (a * v + b + combination cs (map (fun t => t_query t p pos) ts)) /\ r_variance r' p = Some s.
Proof. exact uk_affine_data. Qed.
Print Assumptions C14_universal_affine_change_of_values.

Example C14_universal_nonvacuous : exists E A D u u' q r r' z,
  ubuilt E UK2 A D [] u /\ ubuilt E UK2 (with_values A z) D [] u' /\ explicit_params (c_v A) /\
  urun E u q [] r /\ urun E u' q [] r' /\ faithful_specs u q /\ shown (u_obj u) q 0 (1, 1, 0) /\ uwell_posed u q [] 0 (1, 1, 0) /\
  List.length (drift_terms u q []) = 1%nat /\
  forall i, (i < List.length (c_values A))%nat ->
    rnth z i = 2 * rnth (c_values A) i + 1 + combination [3] (map (fun t => t_data t i) (drift_terms u q [])).
Proof. exact ex_uk_affine. Qed.

Theorem C14_universal_sum_of_data_sets :
  forall E c A D us z1 z2 u1 u2 u q specs r1 r2 r p pos,
    List.length z2 = List.length z1 ->
    ubuilt E c (with_values A z1) D us u1 -> ubuilt E c (with_values A z2) D us u2 ->
    ubuilt E c (with_values A (map (fun i => rnth z1 i + rnth z2 i) (seq 0 (List.length z1)))) D us u ->
    (forall v, In v (c_v A :: us) -> explicit_params v) ->
    urun E u1 q specs r1 -> urun E u2 q specs r2 -> urun E u q specs r -> faithful_specs u q -> shown (u_obj u) q p pos ->
    exists v1 v2 s, r_value r1 p = Some v1 /\ r_value r2 p = Some v2 /\ r_value r p = Some (v1 + v2) /\
      r_variance r1 p = Some s /\ r_variance r2 p = Some s /\ r_variance r p = Some s.
Proof. exact uk_additive. Qed.
Print Assumptions C14_universal_sum_of_data_sets.

Example C14_universal_sum_nonvacuous : exists E A D u1 u2 u q r1 r2 r,
  ubuilt E UK2 (with_values A [5; 7]) D [] u1 /\ ubuilt E UK2 (with_values A [1; 2]) D [] u2 /\
  ubuilt E UK2 (with_values A (map (fun i => rnth [5; 7] i + rnth [1; 2] i) (seq 0 (List.length [5; 7])))) D [] u /\ explicit_params (c_v A) /\
  urun E u1 q [] r1 /\ urun E u2 q [] r2 /\ urun E u q [] r /\ faithful_specs u q /\ shown (u_obj u) q 0 (1, 1, 0).
Proof. exact ex_uk_sum. Qed.

(** C17.  Data (with their specified drift values) in another order, automatic fits included. *)
Theorem C17_universal_order_of_data_irrelevant :
  forall E c A D us s coords z sp u u' q specs r r' p pos,
    List.length coords = cdim c ->
    (forall j, (j < cdim c)%nat -> rearranged s (nth j (c_coords A) []) (nth j coords [])) ->
    rearranged s (c_values A) z -> perm_on (List.length (c_values A)) s ->
    Forall2 (rearranged s) (opt_list (d_spec D)) sp ->
    ubuilt E c A D us u -> ubuilt E c (with_data A coords z) (with_spec D sp) us u' ->
    urun E u q specs r -> urun E u' q specs r' -> faithful_specs u q -> shown (u_obj u) q p pos ->
    r_value r p = r_value r' p /\ r_variance r p = r_variance r' p.
Proof. exact uk_permuted_data. Qed.
Print Assumptions C17_universal_order_of_data_irrelevant.

Example C17_universal_nonvacuous : exists E A D coords z u u' q r r',
  (forall j, (j < 2)%nat -> rearranged (fun i => 1 - i)%nat (nth j (c_coords A) []) (nth j coords [])) /\
  rearranged (fun i => 1 - i)%nat (c_values A) z /\ perm_on (List.length (c_values A)) (fun i => 1 - i)%nat /\
  Forall2 (rearranged (fun i => 1 - i)%nat) (opt_list (d_spec D)) [] /\ List.length coords = 2%nat /\
  ubuilt E UK2 A D [] u /\ ubuilt E UK2 (with_data A coords z) (with_spec D []) [] u' /\
  urun E u q [] r /\ urun E u' q [] r' /\ faithful_specs u q /\ shown (u_obj u) q 0 (1, 1, 0).
Proof. exact ex_uk_swapped. Qed.

(** C18. *)
Theorem C18_universal_every_entry_is_a_cell :
  forall E u q specs r w p, ureachable E u -> execute_uk E u q specs = Ok (r, w) -> (p < shape_size (r_shape r))%nat ->
    exists pos, cell (o_dim (u_obj u)) q p pos /\ forall pos', cell (o_dim (u_obj u)) q p pos' -> pos' = pos.
Proof. exact uk_entries. Qed.
Print Assumptions C18_universal_every_entry_is_a_cell.

(** ... given the values of the specified drift arrays at the cell *)
Theorem C18_universal_result_depends_on_location_only :
  forall E u q q' specs specs' r r' p p' pos, urun E u q specs r -> urun E u q' specs' r' ->
    faithful_specs u q -> faithful_specs u q' -> shown (u_obj u) q p pos -> shown (u_obj u) q' p' pos ->
    specs_agree u q q' specs specs' p p' ->
    r_value r p = r_value r' p' /\ r_variance r p = r_variance r' p'.
Proof. exact uk_location_only. Qed.
Print Assumptions C18_universal_result_depends_on_location_only.

Theorem C18_universal_shapes :
  forall E u q specs r w, ureachable E u -> execute_uk E u q specs = Ok (r, w) ->
    r_shape r = (if String.eqb (q_style q) "points" then [List.length (xs q)]
                 else if Nat.eqb (o_dim (u_obj u)) 3 then [List.length (zs q); List.length (ys q); List.length (xs q)]
                 else [List.length (ys q); List.length (xs q)]).
Proof. exact uk_shape. Qed.
Print Assumptions C18_universal_shapes.

Theorem C18_universal_grid_is_points :
  forall E u q q' specs specs' r r' i j k, urun E u q specs r -> urun E u q' specs' r' ->
    faithful_specs u q -> faithful_specs u q' ->
    o_dim (u_obj u) = 2%nat -> q_style q = "grid"%string -> q_style q' = "points"%string ->
    (i < List.length (ys q))%nat -> (j < List.length (xs q))%nat -> (k < List.length (xs q'))%nat ->
    rnth (xs q') k = rnth (xs q) j -> rnth (ys q') k = rnth (ys q) i ->
    specs_agree u q q' specs specs' (i * List.length (xs q) + j) k ->
    r_value r (i * List.length (xs q) + j)%nat = r_value r' k /\
    r_variance r (i * List.length (xs q) + j)%nat = r_variance r' k.
Proof. exact uk_grid_is_points. Qed.
Print Assumptions C18_universal_grid_is_points.

Theorem C18_universal_grid_is_points_3d :
  forall E u q q' specs specs' r r' kz i j k, urun E u q specs r -> urun E u q' specs' r' ->
    faithful_specs u q -> faithful_specs u q' ->
    o_dim (u_obj u) = 3%nat -> q_style q = "grid"%string -> q_style q' = "points"%string ->
    (kz < List.length (zs q))%nat -> (i < List.length (ys q))%nat -> (j < List.length (xs q))%nat -> (k < List.length (xs q'))%nat ->
    rnth (xs q') k = rnth (xs q) j -> rnth (ys q') k = rnth (ys q) i -> rnth (zs q') k = rnth (zs q) kz ->
    let p := ((kz * List.length (ys q) + i) * List.length (xs q) + j)%nat in
    specs_agree u q q' specs specs' p k ->
    r_value r p = r_value r' k /\ r_variance r p = r_variance r' k.
Proof. exact uk_grid_is_points3. Qed.
Print Assumptions C18_universal_grid_is_points_3d.

(** C19. *)
Theorem C19_universal_masked_cells_hidden_others_unchanged :
  forall E u q specs r r' p pos, urun E u q specs r -> urun E u (with_style q "grid") specs r' ->
    faithful_specs u q -> q_style q = "masked"%string -> cell (o_dim (u_obj u)) q p pos ->
    (hidden (o_dim (u_obj u)) q p -> r_value r p = None /\ r_variance r p = None) /\
    (~ hidden (o_dim (u_obj u)) q p ->
       r_value r p = r_value r' p /\ r_variance r p = r_variance r' p /\ r_value r p <> None /\ r_variance r p <> None).
Proof. exact uk_masks_hide. Qed.
Print Assumptions C19_universal_masked_cells_hidden_others_unchanged.

Theorem C19_universal_mask_errors :
  forall E u q specs, ureachable E u -> q_style q = "masked"%string ->
    (q_mask q = None -> execute_uk E u q specs = Err OSErr) /\
    (forall r c f, o_dim (u_obj u) = 2%nat -> q_mask q = Some (Mask2 r c f) ->
       ~ (r = List.length (ys q) /\ c = List.length (xs q)) -> ~ (r = List.length (xs q) /\ c = List.length (ys q)) ->
       execute_uk E u q specs = Err ValueError) /\
    (forall a b c f, o_dim (u_obj u) = 3%nat -> q_mask q = Some (Mask3 a b c f) ->
       ~ (a = List.length (zs q) /\ b = List.length (ys q) /\ c = List.length (xs q)) ->
       ~ (a = List.length (xs q) /\ b = List.length (ys q) /\ c = List.length (zs q)) ->
       execute_uk E u q specs = Err ValueError).
Proof. exact uk_mask_errors. Qed.
Print Assumptions C19_universal_mask_errors.

(** one object; the same location as a point, in a grid, in a masked grid, and with the loop backend *)
Example C18_C19_universal_nonvacuous : exists E u r r' r'' r3,
  ubuilt E UK2 (pair_args 0 0 3 4 1 0 0 3) (fun_args fx) [] u /\ o_dim (u_obj u) = 2%nat /\
  urun E u (one_point 1 1 "vectorized") [] r /\ urun E u (row_query "grid" "vectorized") [] r' /\
  urun E u (row_query "masked" "vectorized") [] r'' /\ urun E u (one_point 1 1 "loop") [] r3 /\
  faithful_specs u (one_point 1 1 "vectorized") /\ faithful_specs u (row_query "grid" "vectorized") /\
  specs_agree u (row_query "grid" "vectorized") (one_point 1 1 "vectorized") [] [] 0 0 /\
  shown (u_obj u) (one_point 1 1 "vectorized") 0 (1, 1, 0) /\ shown (u_obj u) (row_query "grid" "vectorized") 0 (1, 1, 0) /\
  hidden 2 (row_query "masked" "vectorized") 1 /\ ~ hidden 2 (row_query "masked" "vectorized") 0.
Proof. exact ex_uk_styles. Qed.

(** C52.  Data, wells, drift grid and functional drift shifted together, ... *)
Theorem C52_universal_translation :
  forall E c A coords D us t u u' q q' specs specs' r r' p p' pos,
    ubuilt E c A D us u -> ubuilt E c (with_data A coords (c_values A)) (translate t D) us u' ->
    (forall i, (i < List.length (c_values A))%nat -> input c (with_data A coords (c_values A)) i = add3 (input c A i) t) ->
    urun E u q specs r -> urun E u' q' specs' r' -> faithful_specs u q -> faithful_specs u' q' ->
    shown (u_obj u) q p pos -> shown (u_obj u') q' p' (add3 pos t) -> uregular u q specs -> specs_agree u q q' specs specs' p p' ->
    r_value r p = r_value r' p' /\ r_variance r p = r_variance r' p'.
Proof. exact uk_translation. Qed.
Print Assumptions C52_universal_translation.

Example C52_universal_nonvacuous : exists E A D coords t u u' q q' r r',
  ubuilt E UK2 A D [] u /\ ubuilt E UK2 (with_data A coords (c_values A)) (translate t D) [] u' /\
  (forall i, (i < List.length (c_values A))%nat -> input UK2 (with_data A coords (c_values A)) i = add3 (input UK2 A i) t) /\
  urun E u q [] r /\ urun E u' q' [] r' /\ faithful_specs u q /\ faithful_specs u' q' /\
  shown (u_obj u) q 0 (1, 1, 0) /\ shown (u_obj u') q' 0 (add3 (1, 1, 0) t) /\ uregular u q [] /\ specs_agree u q q' [] [] 0 0 /\ t <> (0, 0, 0).
Proof. exact ex_uk_translation. Qed.

(** ... or moved by any isometry, without anisotropy (no external drift grid; with
    point_log no later update); the functional drift terms of the second object take
    at the image the value those of the first take at the point *)
Theorem C52_universal_isometry :
  forall E c A coords D us (f : vec3 -> vec3) fs u u' q q' specs specs' r r' p p' pos,
    ubuilt E c A D us u -> ubuilt E c (with_data A coords (c_values A)) (carry f fs D) us u' ->
    (forall v, In v (c_v A :: us) -> isotropic c v) ->
    (forall x y, dist3 (f x) (f y) = dist3 x y) -> (cdim c = 2%nat -> forall x, snd x = 0 -> snd (f x) = 0) ->
    (forall i, (i < List.length (c_values A))%nat -> input c (with_data A coords (c_values A)) i = f (input c A i)) ->
    (c = UK2 -> asked D "external_Z" = false) ->
    (c = UK2 -> asked D "point_log" = true -> us = []) ->
    Forall2 (fun h h' => forall x, fun_at u' h' (f x) = fun_at u h x) (opt_list (d_fun D)) fs ->
    urun E u q specs r -> urun E u' q' specs' r' -> faithful_specs u q -> faithful_specs u' q' ->
    shown (u_obj u) q p pos -> shown (u_obj u') q' p' (f pos) -> uregular u q specs -> specs_agree u q q' specs specs' p p' ->
    r_value r p = r_value r' p' /\ r_variance r p = r_variance r' p'.
Proof. exact uk_isometry. Qed.
Print Assumptions C52_universal_isometry.

Example C52_universal_isometry_nonvacuous : exists E A D coords f fs u u' q q' r r',
  ubuilt E UK2 A D [] u /\ ubuilt E UK2 (with_data A coords (c_values A)) (carry f fs D) [] u' /\ isotropic UK2 (c_v A) /\
  (forall x y, dist3 (f x) (f y) = dist3 x y) /\ (forall x, snd x = 0 -> snd (f x) = 0) /\
  (forall i, (i < List.length (c_values A))%nat -> input UK2 (with_data A coords (c_values A)) i = f (input UK2 A i)) /\
  asked D "external_Z" = false /\ asked D "point_log" = false /\
  Forall2 (fun h h' => forall x, fun_at u' h' (f x) = fun_at u h x) (opt_list (d_fun D)) fs /\
  urun E u q [] r /\ urun E u' q' [] r' /\ faithful_specs u q /\ faithful_specs u' q' /\
  shown (u_obj u) q 0 (1, 2, 0) /\ shown (u_obj u') q' 0 (f (1, 2, 0)) /\ uregular u q [] /\ specs_agree u q q' [] [] 0 0 /\
  f (1, 2, 0) <> (1, 2, 0).
Proof. exact ex_uk_isometry. Qed.

(** C66.  k times the variogram: same predictions, k times the variances. *)
Theorem C66_ordinary :
  forall E k o o' q q' r r' p p' pos, 0 < k -> amplified k o o' ->
    run E o q r -> run E o' q' r' -> q_window q' = q_window q -> regular_for o q ->
    shown o q p pos -> shown o' q' p' pos -> (q_window q <> None -> no_ties o pos) ->
    exists v s, r_value r p = Some v /\ r_variance r p = Some s /\ r_value r' p' = Some v /\ r_variance r' p' = Some (k * s).
Proof. exact ok_amplified. Qed.
Print Assumptions C66_ordinary.

Theorem C66_universal :
  forall E k u u' q q' specs specs' r r' p p' pos, 0 < k -> amplified k (u_obj u) (u_obj u') -> u_drift u' = u_drift u ->
    urun E u q specs r -> urun E u' q' specs' r' -> faithful_specs u q -> faithful_specs u' q' -> uregular u q specs ->
    shown (u_obj u) q p pos -> shown (u_obj u') q' p' pos -> specs_agree u q q' specs specs' p p' ->
    exists v s, r_value r p = Some v /\ r_variance r p = Some s /\ r_value r' p' = Some v /\ r_variance r' p' = Some (k * s).
Proof. exact uk_amplified. Qed.
Print Assumptions C66_universal.

(** Giving a built-in model its parameters for k times the variogram ([k slope, k
    nugget]; [k scale, exponent, k nugget]; [k sill, range, k nugget]) does that. *)
Theorem C66_parameters :
  forall E c A name l k o o', In name builtin_models -> a_model (c_v A) = VName name -> a_params (c_v A) = PList l ->
    construct E c A = Ok o -> construct E c (with_v A (with_params (c_v A) (PList (times k name l)))) = Ok o' ->
    amplified k o o'.
Proof. exact construct_amplified. Qed.
Print Assumptions C66_parameters.

Theorem C66_universal_parameters :
  forall E c A D name l k u u', In name builtin_models -> a_model (c_v A) = VName name -> a_params (c_v A) = PList l ->
    construct_uk E c A D = Ok u -> construct_uk E c (with_v A (with_params (c_v A) (PList (times k name l)))) D = Ok u' ->
    amplified k (u_obj u) (u_obj u') /\ u_drift u' = u_drift u.
Proof. exact construct_uk_amplified. Qed.
Print Assumptions C66_universal_parameters.

Example C66_nonvacuous : exists E A o o' q r r',
  In "linear"%string builtin_models /\ a_model (c_v A) = VName "linear" /\ a_params (c_v A) = PList [1; 1] /\
  construct E OK2 A = Ok o /\ construct E OK2 (with_v A (with_params (c_v A) (PList (times 2 "linear" [1; 1])))) = Ok o' /\
  run E o q r /\ run E o' q r' /\ regular_for o q /\ shown o q 0 (1, 1, 0) /\ shown o' q 0 (1, 1, 0) /\ q_window q = None.
Proof. exact ex_ok_amplified. Qed.
Example C66_universal_nonvacuous : exists E A D u u' q r r',
  In "linear"%string builtin_models /\ a_model (c_v A) = VName "linear" /\ a_params (c_v A) = PList [1; 0] /\
  construct_uk E UK2 A D = Ok u /\ construct_uk E UK2 (with_v A (with_params (c_v A) (PList (times 2 "linear" [1; 0])))) D = Ok u' /\
  urun E u q [] r /\ urun E u' q [] r' /\ faithful_specs u q /\ faithful_specs u' q /\ uregular u q [] /\
  shown (u_obj u) q 0 (1, 1, 0) /\ shown (u_obj u') q 0 (1, 1, 0) /\ specs_agree u q q [] [] 0 0.
Proof. exact ex_uk_amplified. Qed.
