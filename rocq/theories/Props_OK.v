(** PROPERTIES C11-C13, C15, C16, C18-C21: ordinary kriging, 2D and 3D.
    Vocabulary (run, shown, separation, uses, ...) is in S_Execute, the kriging
    equations are in S_Kriging. *)
From Coq Require Import String.
From Verif Require Import Base Sums Matrix M_Variogram M_Geometry M_Kriging S_Kriging M_Init M_Object M_Execute S_Execute
  P_OKSpec P_Object P_Execute P_Cells P_Master P_Det P_OK P_Data P_Exec2 Witness.

(** C11.  Every number execute returns is the ordinary kriging estimate: the
    weights solve the kriging equations and sum to 1. *)
Theorem C11_weights_solve_kriging_equations :
  forall E o q r p pos, run E o q r -> shown o q p pos -> well_posed o q pos ->
    exists m sel w mu,
      uses o q pos m sel /\
      OK_system m (fun a b => G_of o (sel a) (sel b)) (fun a => g_of o pos (sel a)) w mu /\
      bsum m w = 1 /\
      r_value r p = Some (bsum m (fun a => w a * o_values o (sel a))) /\
      r_variance r p = Some (bsum m (fun a => w a * g_of o pos (sel a)) + mu).
Proof. exact weights_exist. Qed.
Print Assumptions C11_weights_solve_kriging_equations.

Theorem C11_constants_are_reproduced :
  forall E o q r p pos c, run E o q r -> shown o q p pos -> well_posed o q pos ->
    (forall i, (i < o_n o)%nat -> o_values o i = c) ->
    r_value r p = Some c.
Proof. exact constants_reproduced. Qed.
Print Assumptions C11_constants_are_reproduced.

(** non-vacuity: a run exists, at a generic point *)
Example C11_nonvacuous : exists E o q r,
  run E o q r /\ shown o q 0 (1, 1, 0) /\ well_posed o q (1, 1, 0) /\ o_n o = 2%nat.
Proof. exact ex_generic_run. Qed.

(** C12.  At a datum the prediction is the datum and the variance 0, for every
    variogram (any nugget), global or moving window, any backend. *)
Theorem C12_exact_interpolation :
  forall E o q r p k, run E o q r -> regular_for o q -> o_exact o = true ->
    (k < o_n o)%nat -> shown o q p (datum o k) ->
    (forall i, (i < o_n o)%nat -> i <> k -> eps < separation o (datum o k) (datum o i)) ->
    r_value r p = Some (o_values o k) /\ r_variance r p = Some 0.
Proof. exact interpolates. Qed.
Print Assumptions C12_exact_interpolation.

(** without pseudo_inv and with a moving window the regularity hypothesis is automatic *)
Theorem C12_exact_interpolation_default :
  forall E o q r p k, run E o q r -> (o_pinv o = false \/ q_window q <> None) -> o_exact o = true ->
    (k < o_n o)%nat -> shown o q p (datum o k) ->
    (forall i, (i < o_n o)%nat -> i <> k -> eps < separation o (datum o k) (datum o i)) ->
    r_value r p = Some (o_values o k) /\ r_variance r p = Some 0.
Proof. exact interpolates_default. Qed.
Print Assumptions C12_exact_interpolation_default.

Example C12_nonvacuous : exists E o q r,
  run E o q r /\ regular_for o q /\ o_exact o = true /\ shown o q 0 (datum o 0) /\ o_n o = 2%nat /\
  o_values o 0%nat = 7 /\ o_vg o 0 = 1 /\
  (forall i, (i < o_n o)%nat -> i <> 0%nat -> eps < separation o (datum o 0) (datum o i)).
Proof. exact ex_exact. Qed.

(** C13.  (a) exact_values has no effect at points farther than 1e-10 from all data;
    the two objects have the same history of update_variogram_model calls. *)
Theorem C13_flag_irrelevant_away_from_data :
  forall E c A us o o' q r r' p pos b,
    built E c A us o -> built E c (with_exact A b) us o' ->
    run E o q r -> run E o' q r' -> shown o q p pos ->
    (forall i, (i < o_n o)%nat -> eps < separation o pos (datum o i)) ->
    r_value r p = r_value r' p /\ r_variance r p = r_variance r' p.
Proof. exact flag_irrelevant. Qed.
Print Assumptions C13_flag_irrelevant_away_from_data.

(** (b) without a nugget the kriging is exact at the data anyway *)
Theorem C13_no_nugget_is_exact :
  forall E o q r p k, run E o q r -> regular_for o q -> o_exact o = false -> o_vg o 0 = 0 ->
    (k < o_n o)%nat -> shown o q p (datum o k) ->
    (forall i, (i < o_n o)%nat -> i <> k -> 0 < separation o (datum o k) (datum o i)) ->
    r_value r p = Some (o_values o k) /\ r_variance r p = Some 0.
Proof. exact no_nugget_exact. Qed.
Print Assumptions C13_no_nugget_is_exact.

(** (c) with any positive nugget there are data for which the prediction at a
    data point is not the datum: two data 0 and 1, five units apart, linear
    variogram of slope 1. *)
Theorem C13_nugget_makes_it_inexact :
  forall nugget, 0 < nugget ->
    exists E o q r, run E o q r /\ o_exact o = false /\ o_vg o 0 = nugget /\
      shown o q 0 (datum o 0) /\ o_values o 0%nat = 0 /\ o_values o 1%nat = 1 /\
      r_value r 0%nat = Some (nugget / (2 * (5 + nugget))).
Proof. exact nugget_inexact. Qed.
Print Assumptions C13_nugget_makes_it_inexact.

(** C15.  Backends: no moving window, 2D ('C' included) and 3D: the same arrays
    or the same exception. *)
Theorem C15_backends_agree :
  forall E o q b b', reachable E o -> ordinary o -> q_window q = None ->
    available E o b -> available E o b' ->
    same_outcome (execute E o (with_backend q b)) (execute E o (with_backend q b')).
Proof. exact backends_agree. Qed.
Print Assumptions C15_backends_agree.

(** Moving window: 'loop' and 'C' *)
Theorem C15_window_backends_agree :
  forall E o q k, env_ok E -> reachable E o -> o_class o = OK2 -> q_window q = Some k -> (k <= o_n o)%nat ->
    (e_cython E = true -> c_supported o) ->
    both_or_neither (execute E o (with_backend q "loop")) (execute E o (with_backend q "C")).
Proof. exact window_backends_agree. Qed.
Print Assumptions C15_window_backends_agree.

Example C15_nonvacuous : exists E o q r,
  run E o q r /\ o_class o = OK2 /\ q_window q = None /\ e_cython E = true /\
  available E o "vectorized" /\ available E o "loop" /\ available E o "C".
Proof. exact ex_backends. Qed.

(** C16.  Optimality and non-negativity, for variograms conditionally negative
    definite on the data used and the query point. *)
Theorem C16_variance_is_minimal :
  forall E o q r p pos, run E o q r -> shown o q p pos -> well_posed o q pos ->
    exists m sel w s,
      uses o q pos m sel /\ bsum m w = 1 /\
      r_value r p = Some (bsum m (fun a => w a * o_values o (sel a))) /\ r_variance r p = Some s /\
      s = est_variance m (fun a b => G_of o (sel a) (sel b)) (fun a => g_of o pos (sel a)) w /\
      (cond_neg_def m (fun a b => G_of o (sel a) (sel b)) ->
       forall w', bsum m w' = 1 ->
         s <= est_variance m (fun a b => G_of o (sel a) (sel b)) (fun a => g_of o pos (sel a)) w').
Proof. exact variance_minimal. Qed.
Print Assumptions C16_variance_is_minimal.

Theorem C16_variance_nonnegative :
  forall E o q r p pos, run E o q r -> shown o q p pos -> well_posed o q pos ->
    cond_neg_def_with (o_n o) (G_of o) (g_of o pos) ->
    exists s, r_variance r p = Some s /\ 0 <= s.
Proof. exact variance_nonneg. Qed.
Print Assumptions C16_variance_nonnegative.

(** the hypothesis is met: any two data with a non-negative variogram, at a datum *)
Example C16_nonvacuous : exists E o q r,
  run E o q r /\ shown o q 0 (datum o 0) /\ well_posed o q (datum o 0) /\ o_n o = 2%nat /\
  cond_neg_def_with (o_n o) (G_of o) (g_of o (datum o 0)).
Proof. exact ex_cnd. Qed.

(** C18.  (a) every entry of a result is the cell of exactly one location, and
    (b) what a cell contains depends on its location only, not on the style, the
    other query points, the backend or the position in the array. *)
Theorem C18_every_entry_is_a_cell :
  forall E o q r p, reachable E o -> ordinary o -> execute E o q = Ok r -> (p < shape_size (r_shape r))%nat ->
    exists pos, cell (o_dim o) q p pos /\ forall pos', cell (o_dim o) q p pos' -> pos' = pos.
Proof. exact entries_are_cells. Qed.
Print Assumptions C18_every_entry_is_a_cell.

Theorem C18_result_depends_on_location_only :
  forall E o q q' r r' p p' pos, run E o q r -> run E o q' r' -> q_window q = q_window q' ->
    shown o q p pos -> shown o q' p' pos ->
    r_value r p = r_value r' p' /\ r_variance r p = r_variance r' p'.
Proof. exact location_only. Qed.
Print Assumptions C18_result_depends_on_location_only.

Theorem C18_shapes :
  forall E o q r, reachable E o -> ordinary o -> execute E o q = Ok r ->
    r_shape r = (if String.eqb (q_style q) "points" then [List.length (xs q)]
                 else if Nat.eqb (o_dim o) 3 then [List.length (zs q); List.length (ys q); List.length (xs q)]
                 else [List.length (ys q); List.length (xs q)]).
Proof. exact result_shape. Qed.
Print Assumptions C18_shapes.

(** grid cell [i][j] against style 'points' *)
Theorem C18_grid_is_points :
  forall E o q q' r r' i j k, run E o q r -> run E o q' r' -> q_window q = q_window q' ->
    o_dim o = 2%nat -> q_style q = "grid"%string -> q_style q' = "points"%string ->
    (i < List.length (ys q))%nat -> (j < List.length (xs q))%nat -> (k < List.length (xs q'))%nat ->
    rnth (xs q') k = rnth (xs q) j -> rnth (ys q') k = rnth (ys q) i ->
    r_value r (i * List.length (xs q) + j)%nat = r_value r' k /\
    r_variance r (i * List.length (xs q) + j)%nat = r_variance r' k.
Proof. exact grid_is_points. Qed.
Print Assumptions C18_grid_is_points.

Theorem C18_grid_is_points_3d :
  forall E o q q' r r' kz i j k, run E o q r -> run E o q' r' -> q_window q = q_window q' ->
    o_dim o = 3%nat -> q_style q = "grid"%string -> q_style q' = "points"%string ->
    (kz < List.length (zs q))%nat -> (i < List.length (ys q))%nat -> (j < List.length (xs q))%nat -> (k < List.length (xs q'))%nat ->
    rnth (xs q') k = rnth (xs q) j -> rnth (ys q') k = rnth (ys q) i -> rnth (zs q') k = rnth (zs q) kz ->
    let p := ((kz * List.length (ys q) + i) * List.length (xs q) + j)%nat in
    r_value r p = r_value r' k /\ r_variance r p = r_variance r' k.
Proof. exact grid_is_points3. Qed.
Print Assumptions C18_grid_is_points_3d.

(** C19.  Masks. *)
Theorem C19_masked_cells_hidden_others_unchanged :
  forall E o q r r' p pos, run E o q r -> run E o (with_style q "grid") r' ->
    q_style q = "masked"%string -> cell (o_dim o) q p pos ->
    (hidden (o_dim o) q p -> r_value r p = None /\ r_variance r p = None) /\
    (~ hidden (o_dim o) q p ->
       r_value r p = r_value r' p /\ r_variance r p = r_variance r' p /\ r_value r p <> None /\ r_variance r p <> None).
Proof. exact masks_hide. Qed.
Print Assumptions C19_masked_cells_hidden_others_unchanged.

Theorem C19_only_masked_style_hides :
  forall E o q r p pos, run E o q r -> q_style q <> "masked"%string -> cell (o_dim o) q p pos ->
    r_value r p <> None /\ r_variance r p <> None.
Proof. exact unmasked_styles. Qed.
Print Assumptions C19_only_masked_style_hides.

(** missing mask: IOError; wrong shape: ValueError; otherwise accepted *)
Theorem C19_mask_errors :
  forall E o q, reachable E o -> ordinary o -> q_style q = "masked"%string ->
    (match q_window q with Some k => (2 <= k)%nat | None => True end) ->
    (q_mask q = None -> execute E o q = Err OSErr) /\
    (forall r c f, o_dim o = 2%nat -> q_mask q = Some (Mask2 r c f) ->
       ~ (r = List.length (ys q) /\ c = List.length (xs q)) -> ~ (r = List.length (xs q) /\ c = List.length (ys q)) ->
       execute E o q = Err ValueError) /\
    (forall a b c f, o_dim o = 3%nat -> q_mask q = Some (Mask3 a b c f) ->
       ~ (a = List.length (zs q) /\ b = List.length (ys q) /\ c = List.length (xs q)) ->
       ~ (a = List.length (xs q) /\ b = List.length (ys q) /\ c = List.length (zs q)) ->
       execute E o q = Err ValueError).
Proof. exact mask_errors. Qed.
Print Assumptions C19_mask_errors.

(** C20.  A window of all the data is global kriging. *)
Theorem C20_full_window_is_global :
  forall E o q r r' p pos b, run E o q r -> run E o (with_window (with_backend q b) (Some (o_n o))) r' ->
    q_window q = None -> shown o q p pos ->
    r_value r p = r_value r' p /\ r_variance r p = r_variance r' p.
Proof. exact full_window. Qed.
Print Assumptions C20_full_window_is_global.

(** A window larger than the data: execute does not return if there is any unmasked cell. *)
Theorem C20_oversized_window_never_returns :
  forall E o q k r p pos, env_ok E -> reachable E o -> ordinary o -> q_window q = Some k -> (o_n o < k)%nat ->
    cell (o_dim o) q p pos -> ~ hidden (o_dim o) q p -> execute E o q <> Ok r.
Proof. exact oversized_window. Qed.
Print Assumptions C20_oversized_window_never_returns.

(** ... and with backend 'C' it does not even raise: the compiled loop writes outside its arrays. *)
Theorem C20_oversized_window_raises_refuted :
  exists E o q, env_ok E /\ reachable E o /\ o_class o = OK2 /\ q_backend q = "C"%string /\ c_supported o /\
    e_cython E = true /\ q_window q = Some 3%nat /\ o_n o = 2%nat /\ execute E o q = Err UndefinedBehaviour.
Proof. exact oversized_C. Qed.
Print Assumptions C20_oversized_window_raises_refuted.

Theorem C20_window_of_one_rejected :
  forall E o q k, reachable E o -> o_class o = OK2 -> q_window q = Some k -> (k <= 1)%nat ->
    execute E o q = Err ValueError.
Proof. exact window_one. Qed.
Print Assumptions C20_window_of_one_rejected.

(** A windowed result is the ordinary kriging of the k nearest data alone. *)
Theorem C20_window_uses_nearest_only :
  forall E o q r p pos k, run E o q r -> q_window q = Some k -> shown o q p pos ->
    (2 <= k <= o_n o)%nat /\
    exists sel v s, nearest o k pos sel /\ r_value r p = Some v /\ r_variance r p = Some s /\
      local_regular o k sel /\ local_estimate o k sel pos v s.
Proof. exact window_local. Qed.
Print Assumptions C20_window_uses_nearest_only.

(** C21.  The compiled moving-window loop: each point as if run alone, and as in Python. *)
Theorem C21_no_stale_state :
  forall E o q q1 r r1 p pos,
    run E o q r -> q_backend q = "C"%string -> q_window q <> None -> shown o q p pos ->
    q1 = single q pos -> run E o q1 r1 ->
    r_value r p = r_value r1 0%nat /\ r_variance r p = r_variance r1 0%nat.
Proof. exact no_stale_state. Qed.
Print Assumptions C21_no_stale_state.

Theorem C21_c_window_is_python_window :
  forall E o q r r' p pos, run E o q r -> q_backend q = "C"%string -> q_window q <> None -> shown o q p pos ->
    run E o (with_backend q "loop") r' ->
    r_value r p = r_value r' p /\ r_variance r p = r_variance r' p.
Proof. exact c_window_python. Qed.
Print Assumptions C21_c_window_is_python_window.

Example C21_nonvacuous : exists E o q r,
  run E o q r /\ q_backend q = "C"%string /\ q_window q = Some 2%nat /\ e_cython E = true /\ shown o q 0 (1, 1, 0).
Proof. exact ex_c_window. Qed.
