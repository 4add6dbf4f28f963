(** PROPERTIES C23-C28, C53-C55: universal kriging (2D and 3D) and the external
    drift lookup.  Vocabulary: S_UK, S_Bilinear, S_Execute. *)
From Coq Require Import String.
From Verif Require Import Base Sums Matrix M_Variogram M_Geometry S_Geometry M_Kriging S_Kriging M_Init M_Object M_Execute S_Execute
  M_UK S_UK S_Bilinear P_Bilinear P_UK4 P_UK5 P_UK6 P_UK7 P_UK8 P_UK9 P_UK10 Witness P_UKGrid.

(** The drift terms of a new object are those asked for in the constructor. *)
Theorem C23_drift_terms_are_the_users :
  forall E c A D u q specs, construct_uk E c A D = Ok u -> c = UK2 \/ c = UK3 -> List.length (c_coords A) = cdim c ->
    drift_terms u q specs = user_terms c D (u_obj u) q specs.
Proof. exact uk_configuration. Qed.
Print Assumptions C23_drift_terms_are_the_users.

(** C23 (2D), C24 (3D).  Data that are c + a combination of the drift terms are
    predicted by the same combination.  [faithful_specs]: backend 'vectorized',
    or no specified drift (see C26). *)
Theorem C23_drift_is_reproduced :
  forall E u q specs r p pos c cs, urun E u q specs r -> shown (u_obj u) q p pos ->
    uwell_posed u q specs p pos -> faithful_specs u q ->
    let ts := drift_terms u q specs in
    (forall i, (i < o_n (u_obj u))%nat -> o_values (u_obj u) i = c + combination cs (map (fun t => t_data t i) ts)) ->
    r_value r p = Some (c + combination cs (map (fun t => t_query t p pos) ts)).
Proof. exact uk_reproduces. Qed.
Print Assumptions C23_drift_is_reproduced.

(** with regional_linear drift: any linear trend a + b.(x,y[,z]), whatever the anisotropy *)
Theorem C24_linear_trends_are_reproduced :
  forall E u q specs r p pos a b, urun E u q specs r -> shown (u_obj u) q p pos ->
    uwell_posed u q specs p pos -> faithful_specs u q -> dr_linear (u_drift u) = true ->
    o_scaling (u_obj u) 0%nat <> 0 -> (o_dim (u_obj u) = 3%nat -> o_scaling (u_obj u) 1%nat <> 0) ->
    (forall i, (i < o_n (u_obj u))%nat -> o_values (u_obj u) i = a + dot3 b (datum (u_obj u) i)) ->
    r_value r p = Some (a + dot3 b pos).
Proof. exact uk_affine. Qed.
Print Assumptions C24_linear_trends_are_reproduced.

(** with a functional drift f alone: data c + a f(x,y,z) are predicted by c + a f
    there, the arguments of f being x, y, z in this order *)
Theorem C24_functional_drift_is_reproduced :
  forall E u q specs r p pos f c a, urun E u q specs r -> shown (u_obj u) q p pos ->
    uwell_posed u q specs p pos -> faithful_specs u q ->
    drift_terms u q specs = fun_terms u -> dr_fun (u_drift u) = Some [f] -> (forall x, frame (u_obj u) x = x) ->
    (forall i, (i < o_n (u_obj u))%nat ->
       let '(x, y, z) := datum (u_obj u) i in o_values (u_obj u) i = c + a * f x y z) ->
    let '(x, y, z) := pos in r_value r p = Some (c + a * f x y z).
Proof.
  intros E u q specs r p pos f c a HR HS HW HF HT Hf Hfr HD. destruct pos as [[x y] z].
  rewrite (uk_reproduces E u q specs r p (x, y, z) c [a] HR HS HW HF).
  - rewrite HT. unfold fun_terms. rewrite Hf. cbn [opt_list map spatial t_query combination]. rewrite Hfr. cbn [coord fst snd]. do 2 f_equal. ring.
  - intros i Hi. specialize (HD i Hi). rewrite HT. unfold fun_terms. rewrite Hf. cbn [opt_list map spatial t_data combination]. rewrite Hfr.
    destruct (datum (u_obj u) i) as [[x' y'] z']. rewrite HD. cbn [coord fst snd]. ring.
Qed.
Print Assumptions C24_functional_drift_is_reproduced.

Example C23_nonvacuous x y : exists E u r, urun E u (one_point x y "vectorized") [] r /\
  shown (u_obj u) (one_point x y "vectorized") 0 (x, y, 0) /\ uwell_posed u (one_point x y "vectorized") [] 0 (x, y, 0) /\
  dr_linear (u_drift u) = true /\ dr_spec (u_drift u) = None /\ o_scaling (u_obj u) 0%nat = 1 /\ o_dim (u_obj u) = 2%nat /\ o_n (u_obj u) = 3%nat /\
  (forall i, (i < 3)%nat -> o_values (u_obj u) i = 1 + dot3 (2, 3, 0) (datum (u_obj u) i)).
Proof. exact (ex_linear_drift x y). Qed.
Example C24_nonvacuous h x y : exists E u r, urun E u (plane_point h x y) [] r /\
  shown (u_obj u) (plane_point h x y) 0 (x, y, h) /\ uwell_posed u (plane_point h x y) [] 0 (x, y, h) /\
  o_class (u_obj u) = UK3 /\ dr_spec (u_drift u) = None /\ dr_fun (u_drift u) = Some [fxyz] /\
  drift_terms u (plane_point h x y) [] = fun_terms u /\ o_n (u_obj u) = 2%nat /\
  (forall p, frame (u_obj u) p = p).
Proof. exact (ex_functional_3d h x y). Qed.

(** C25. *)
Theorem C25_no_drift_is_ordinary_kriging :
  forall E c c' A D us o u q q' specs r r' p p' pos, counterparts c c' ->
    (c = OK2 -> c_ct A = "euclidean"%string) -> d_terms D = [] ->
    built E c A us o -> ubuilt E c' A D us u -> run E o q r -> urun E u q' specs r' -> q_window q = None ->
    shown o q p pos -> shown (u_obj u) q' p' pos ->
    r_value r p = r_value r' p' /\ r_variance r p = r_variance r' p'.
Proof. exact uk_without_drift. Qed.
Print Assumptions C25_no_drift_is_ordinary_kriging.

Example C25_nonvacuous : exists E A D o u q r r',
  counterparts OK2 UK2 /\ c_ct A = "euclidean"%string /\ d_terms D = [] /\
  built E OK2 A [] o /\ ubuilt E UK2 A D [] u /\ run E o q r /\ urun E u q [] r' /\ q_window q = None /\
  shown o q 0 (1, 1, 0) /\ shown (u_obj u) q 0 (1, 1, 0).
Proof. exact ex_no_drift. Qed.

Theorem C25_coplanar_3d_is_2d :
  forall E h o o' q q' r r' p p' pos, run E o q r -> run E o' q' r' -> coplanar h o o' ->
    q_window q = q_window q' -> (q_window q <> None -> no_ties o pos) ->
    shown o q p pos -> shown o' q' p' (lift h pos) ->
    r_value r p = r_value r' p' /\ r_variance r p = r_variance r' p'.
Proof. exact coplanar_3d_is_2d. Qed.
Print Assumptions C25_coplanar_3d_is_2d.

Example C25_coplanar_nonvacuous h : exists E o o' q q' r r',
  run E o q r /\ run E o' q' r' /\ coplanar h o o' /\ q_window q = None /\ q_window q' = None /\
  shown o q 0 (1, 1, 0) /\ shown o' q' 0 (lift h (1, 1, 0)).
Proof. exact (ex_coplanar h). Qed.

(** C26.  True without specified drift, away from point_log wells, and not for
    masked queries with external drift (the vectorized backend evaluates the
    external drift at masked cells too). *)
Theorem C26_backends_agree :
  forall E u q specs, ureachable E u -> dr_spec (u_drift u) = None -> off_wells u q ->
    (dr_ext (u_drift u) = None \/ q_style q <> "masked"%string) ->
    same_outcome (arrays (execute_uk E u (with_backend q "vectorized") specs))
                 (arrays (execute_uk E u (with_backend q "loop") specs)).
Proof. exact uk_backends_agree. Qed.
Print Assumptions C26_backends_agree.

Theorem C26_specified_drift_refuted : exists E u specs r r',
  env_ok E /\ ureachable E u /\
  execute_uk E u (three_points "vectorized") specs = Ok (r, false) /\
  execute_uk E u (three_points "loop") specs = Ok (r', false) /\
  (forall i, (i < o_n (u_obj u))%nat -> exists ds, dr_spec (u_drift u) = Some [ds] /\ o_values (u_obj u) i = ds i) /\
  specs = [Spec1 3 (rnth [0; 1; 2])] /\
  r_value r 0 = Some 0 /\ r_value r' 0 = Some 2.
Proof.
  destruct ex_specified_disagree as (E & u & specs & r & r' & H1 & H2 & H3 & H4 & H5 & H6 & H7 & H8 & _).
  exists E, u, specs, r, r'. repeat (split; [assumption|]). assumption.
Qed.
Print Assumptions C26_specified_drift_refuted.

Theorem C26_loop_raises_at_wells :
  forall E u q specs r w p pos wx wy s, ureachable E u -> dr_ext (u_drift u) = None -> dr_spec (u_drift u) = None ->
    execute_uk E u (with_backend q "vectorized") specs = Ok (r, w) -> shown (u_obj u) q p pos ->
    In (wx, wy, s) (opt_list (dr_wells (u_drift u))) -> plane_dist (frame (u_obj u) pos) wx wy = 0 ->
    execute_uk E u (with_backend q "loop") specs = Err TypeError.
Proof. exact uk_loop_at_well. Qed.
Print Assumptions C26_loop_raises_at_wells.

Example C26_loop_raises_nonvacuous : exists E u q r p pos wx wy s,
  env_ok E /\ ureachable E u /\ dr_ext (u_drift u) = None /\ dr_spec (u_drift u) = None /\
  execute_uk E u (with_backend q "vectorized") [] = Ok (r, false) /\ shown (u_obj u) q p pos /\
  In (wx, wy, s) (opt_list (dr_wells (u_drift u))) /\ plane_dist (frame (u_obj u) pos) wx wy = 0.
Proof. exact ex_well_disagree. Qed.

Theorem C26_masked_external_refuted : exists E u r,
  env_ok E /\ ureachable E u /\
  execute_uk E u (masked_query "vectorized") [] = Err ValueError /\
  execute_uk E u (masked_query "loop") [] = Ok (r, false) /\
  r_value r 0 <> None /\ r_value r 1 = None.
Proof.
  destruct ex_masked_external as (E & u & r & H1 & H2 & H3 & H4 & H5 & H6 & _).
  exists E, u, r. repeat (split; [assumption|]). assumption.
Qed.
Print Assumptions C26_masked_external_refuted.

(** C27. *)
Theorem C27_size_of_the_system :
  forall E u q specs, ureachable E u -> specs_fit u specs ->
    let o := u_obj u in let ts := drift_terms u q specs in let n := o_n o in let m := List.length ts in
    n_withdrifts u = (n + m)%nat /\
    exists a, uk_matrix u = Ok (a, false) /\
      (forall i j, (i < n)%nat -> (j < n)%nat -> a i j = - G_of o i j) /\
      (forall i k, (i < n)%nat -> (k < m)%nat ->
         a i (n + k)%nat = t_data (nth k ts no_term) i /\ a (n + k)%nat i = t_data (nth k ts no_term) i) /\
      (forall i, (i < n)%nat -> a i (n + m)%nat = 1 /\ a (n + m)%nat i = 1) /\
      (forall k l, (n <= k <= n + m)%nat -> (n <= l <= n + m)%nat -> a k l = 0).
Proof. exact uk_matrix_entries. Qed.
Print Assumptions C27_size_of_the_system.

Theorem C27_no_warnings :
  forall E u q specs r w, ureachable E u -> execute_uk E u q specs = Ok (r, w) -> w = false.
Proof. exact uk_no_warning. Qed.
Print Assumptions C27_no_warnings.

(** in particular no IndexError: the drift rows fit *)
Theorem C27_vectorized_exceptions :
  forall E u q specs e, ureachable E u -> q_backend q = "vectorized"%string ->
    execute_uk E u q specs = Err e -> In e [ValueError; OSErr; TypeError; LinAlgError].
Proof. exact uk_vectorized_exceptions. Qed.
Print Assumptions C27_vectorized_exceptions.

(** C28. *)
Theorem C28_accepts_exactly_the_grid_range :
  forall arr ex ey x y,
    (within ex x /\ within ey y -> exists v, zscalar arr ex ey x y = Ok v) /\
    (~ (within ex x /\ within ey y) -> zscalar arr ex ey x y = Err ValueError).
Proof. exact zscalar_accepts. Qed.
Print Assumptions C28_accepts_exactly_the_grid_range.

Theorem C28_bilinear_in_each_cell :
  forall arr ex ey x y i j v, ascending ex -> ascending ey ->
    (S i < List.length ex)%nat -> (S j < List.length ey)%nat ->
    rnth ex i <= x <= rnth ex (S i) -> rnth ey j <= y <= rnth ey (S j) ->
    zscalar arr ex ey x y = Ok v ->
    v = bilinear (rnth ex i) (rnth ex (S i)) (rnth ey j) (rnth ey (S j))
                 (arr j i) (arr j (S i)) (arr (S j) i) (arr (S j) (S i)) x y.
Proof. exact zscalar_bilinear. Qed.
Print Assumptions C28_bilinear_in_each_cell.

Theorem C28_every_point_is_in_a_cell :
  forall l x, ascending l -> (2 <= List.length l)%nat -> within l x ->
    exists i, (S i < List.length l)%nat /\ rnth l i <= x <= rnth l (S i).
Proof. exact ascending_cell. Qed.
Print Assumptions C28_every_point_is_in_a_cell.

Theorem C28_nodes :
  forall arr ex ey i j, ascending ex -> ascending ey -> (i < List.length ex)%nat -> (j < List.length ey)%nat ->
    zscalar arr ex ey (rnth ex i) (rnth ey j) = Ok (arr j i).
Proof. exact zscalar_node. Qed.
Print Assumptions C28_nodes.

Theorem C28_reproduces_bilinear_functions :
  forall arr ex ey x y a b c d v, ascending ex -> ascending ey ->
    (2 <= List.length ex)%nat -> (2 <= List.length ey)%nat ->
    (forall i j, (i < List.length ex)%nat -> (j < List.length ey)%nat ->
       arr j i = a + b * rnth ex i + c * rnth ey j + d * rnth ex i * rnth ey j) ->
    zscalar arr ex ey x y = Ok v -> v = a + b * x + c * y + d * x * y.
Proof. exact zscalar_reproduces. Qed.
Print Assumptions C28_reproduces_bilinear_functions.

(** continuous on the whole range of the grid, also across the borders of its cells *)
Theorem C28_continuous :
  forall arr ex ey x y v, ascending ex -> ascending ey -> (2 <= List.length ex)%nat -> (2 <= List.length ey)%nat ->
    zscalar arr ex ey x y = Ok v ->
    forall e, 0 < e -> exists dl, 0 < dl /\ forall x' y' v', Rabs (x' - x) < dl -> Rabs (y' - y) < dl ->
      zscalar arr ex ey x' y' = Ok v' -> Rabs (v' - v) < e.
Proof. exact zscalar_continuous. Qed.
Print Assumptions C28_continuous.

Theorem C28_between_the_corners :
  forall x1 x2 y1 y2 z11 z12 z21 z22 x y lo hi, x1 < x2 -> y1 < y2 -> x1 <= x <= x2 -> y1 <= y <= y2 ->
    lo <= z11 <= hi -> lo <= z12 <= hi -> lo <= z21 <= hi -> lo <= z22 <= hi ->
    lo <= bilinear x1 x2 y1 y2 z11 z12 z21 z22 x y <= hi.
Proof. exact bilinear_between. Qed.
Print Assumptions C28_between_the_corners.

Theorem C28_descending_refuted : exists arr ex ey v, descending ex /\ ascending ey /\
  zscalar arr ex ey (rnth ex 1) (rnth ey 0) = Ok v /\ v <> arr 0%nat 1%nat.
Proof. exact ex_descending. Qed.
Print Assumptions C28_descending_refuted.

Example C28_nonvacuous : exists arr ex ey x y v, ascending ex /\ ascending ey /\ (2 <= List.length ex)%nat /\ (2 <= List.length ey)%nat /\
  zscalar arr ex ey x y = Ok v.
Proof.
  exists xarr, [0; 3], [0; 4], 1, 1, 1. split; [apply asc2; lra|]. split; [apply asc2; lra|].
  split; [cbn; lia|]. split; [cbn; lia|]. apply xarr_ok; lra.
Qed.

(** C53. *)
Theorem C53_universal_kriging_equations :
  forall E u q specs r p pos, urun E u q specs r -> shown (u_obj u) q p pos -> uwell_posed u q specs p pos ->
    faithful_specs u q ->
    let ts := drift_terms u q specs in
    exists v s, r_value r p = Some v /\ r_variance r p = Some s /\
      UK_estimate (o_n (u_obj u)) (List.length ts) (G_of (u_obj u)) (F_of ts) (g_of (u_obj u) pos) (f_of ts p pos)
        (o_values (u_obj u)) v s.
Proof. exact uk_cells. Qed.
Print Assumptions C53_universal_kriging_equations.

(** without pseudo_inv these equations determine value and variance *)
Theorem C53_estimate_is_unique :
  forall E u q specs r, urun E u q specs r -> o_pinv (u_obj u) = false ->
    let ts := drift_terms u q specs in let n := o_n (u_obj u) in let m := List.length ts in
    UK_regular n m (G_of (u_obj u)) (F_of ts) /\
    forall g f z v s v' s', UK_estimate n m (G_of (u_obj u)) (F_of ts) g f z v s ->
      UK_estimate n m (G_of (u_obj u)) (F_of ts) g f z v' s' -> v = v' /\ s = s'.
Proof.
  intros E u q specs r HR HP. cbv zeta. pose proof (uk_regular E u q specs r HR HP) as H. split; [exact H|].
  intros g f z v s v' s'. apply UK_estimate_unique, H.
Qed.
Print Assumptions C53_estimate_is_unique.

(** C54. *)
Theorem C54_exact_interpolation :
  forall E u q specs r p k, urun E u q specs r -> uregular u q specs -> faithful_specs u q ->
    o_exact (u_obj u) = true -> (k < o_n (u_obj u))%nat -> shown (u_obj u) q p (datum (u_obj u) k) ->
    (forall t, In t (spec_terms u q specs) -> t_query t p (datum (u_obj u) k) = t_data t k) ->
    (forall i, (i < o_n (u_obj u))%nat -> i <> k -> eps < separation (u_obj u) (datum (u_obj u) k) (datum (u_obj u) i)) ->
    r_value r p = Some (o_values (u_obj u) k) /\ r_variance r p = Some 0.
Proof. exact uk_interpolates. Qed.
Print Assumptions C54_exact_interpolation.

(** C55. *)
Theorem C55_best_linear_unbiased :
  forall E u q specs r p pos, urun E u q specs r -> shown (u_obj u) q p pos ->
    uwell_posed u q specs p pos -> faithful_specs u q ->
    let o := u_obj u in let ts := drift_terms u q specs in let n := o_n o in
    exists w s, bsum n w = 1 /\
      (forall t, In t ts -> bsum n (fun i => w i * t_data t i) = t_query t p pos) /\
      r_value r p = Some (bsum n (fun i => w i * o_values o i)) /\ r_variance r p = Some s /\
      s = est_variance n (G_of o) (g_of o pos) w /\
      (cond_neg_def n (G_of o) -> forall w', bsum n w' = 1 ->
         (forall t, In t ts -> bsum n (fun i => w' i * t_data t i) = t_query t p pos) ->
         s <= est_variance n (G_of o) (g_of o pos) w').
Proof. exact uk_variance_minimal. Qed.
Print Assumptions C55_best_linear_unbiased.

Theorem C55_variance_nonnegative :
  forall E u q specs r p pos, urun E u q specs r -> shown (u_obj u) q p pos ->
    uwell_posed u q specs p pos -> faithful_specs u q ->
    cond_neg_def_with (o_n (u_obj u)) (G_of (u_obj u)) (g_of (u_obj u) pos) ->
    exists s, r_variance r p = Some s /\ 0 <= s.
Proof. exact uk_variance_nonneg. Qed.
Print Assumptions C55_variance_nonnegative.

(** the functional drift object of C53-C55: two data at (0,0), (3,4), drift x *)
Example C53_nonvacuous z0 z1 x y : exists u r, ubuilt WE UK2 (two_args 1 0 z0 z1 true false) (fun_args fx) [] u /\
  o_class (u_obj u) = UK2 /\ o_pinv (u_obj u) = false /\ o_exact (u_obj u) = true /\ o_n (u_obj u) = 2%nat /\
  construct WE UK2 (two_args 1 0 z0 z1 true false) = Ok (u_obj u) /\
  drift_terms u (one_point x y "vectorized") [] = fun_terms u /\ dr_fun (u_drift u) = Some [fx] /\
  urun WE u (one_point x y "vectorized") [] r /\ shown (u_obj u) (one_point x y "vectorized") 0 (x, y, 0).
Proof. exact (ex_functional z0 z1 x y). Qed.
