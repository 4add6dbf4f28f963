(** PROPERTY C68: geographic coordinates with a sound model.  Great-circle distance is
    conditionally negative definite, so with the linear, power (exponent at most 1)
    and exponential models everything C59, C60, C62 and C63 promise in the plane holds on
    the sphere - and with the gaussian model or a larger exponent it does not.
    Vocabulary: S_Geo, S_Valid. *)
From Coq Require Import String.
From Verif Require Import Base Sums Matrix M_Variogram M_Geometry S_Geometry M_Kriging S_Kriging M_Init M_Object M_Execute S_Execute
  S_Valid S_Geo P_Object P_Exec2 P_OK P_Geo P_Geo2 P_Geo3.

(** No variance computed from great-circle distances as a variogram is negative: for all
    places and all coefficients with sum 0. *)
Theorem C68_great_circle_sound :
  forall n (lons lats : nat -> R) (c : nat -> R), bsum n c = 0 ->
    bsum n (fun i => bsum n (fun j => c i * c j * great_circle_distance (lons i) (lats i) (lons j) (lats j))) <= 0.
Proof. exact great_circle_cnd. Qed.
Print Assumptions C68_great_circle_sound.

(** The kriging matrix has an inverse ... *)
Theorem C68_matrix_invertible :
  forall o, proper_geographic o -> strict_geographic o -> solvable_data o -> (0 < o_n o)%nat -> regular o.
Proof. exact geo_regular. Qed.
Print Assumptions C68_matrix_invertible.

(** ... and execute returns, with every backend and with every moving window of 2 .. n
    points; without a window, if and only if the nugget is positive or no two data are
    at the same place. *)
Theorem C68_execute_returns :
  forall E o q, env_ok E -> reachable E o -> ordinary o -> proper_geographic o -> strict_geographic o -> solvable_data o ->
    (0 < o_n o)%nat -> o_pinv o = false -> good_query o q -> has_backend o q -> exists r, run E o q r.
Proof. exact geo_execute. Qed.
Print Assumptions C68_execute_returns.
Theorem C68_execute_returns_iff :
  forall E o q, env_ok E -> reachable E o -> ordinary o -> proper_geographic o -> strict_geographic o -> (0 < o_n o)%nat -> o_pinv o = false ->
    good_query o q -> q_window q = None -> has_backend o q -> ((exists r, run E o q r) <-> solvable_data o).
Proof. exact geo_execute_iff. Qed.
Print Assumptions C68_execute_returns_iff.

(** The variance is never negative; positive and at least the nugget away from the data;
    at least the nugget everywhere with exact_values=False. *)
Theorem C68_variance_nonnegative :
  forall E o q r p pos, run E o q r -> shown o q p pos -> well_posed o q pos -> proper_geographic o ->
    (o_exact o = true -> distinct_data o) -> clear_of_data o pos ->
    exists s, r_variance r p = Some s /\ 0 <= s.
Proof. exact geo_variance. Qed.
Print Assumptions C68_variance_nonnegative.
Theorem C68_variance_off_data :
  forall E o q r p pos, run E o q r -> shown o q p pos -> well_posed o q pos -> proper_geographic o -> strict_geographic o ->
    solvable_data o -> off_data o pos -> exists s, r_variance r p = Some s /\ 0 < s /\ o_vg o 0 <= s.
Proof. exact geo_bounds. Qed.
Print Assumptions C68_variance_off_data.
Theorem C68_variance_noisy_data :
  forall E o q r p pos, run E o q r -> shown o q p pos -> well_posed o q pos -> proper_geographic o -> o_exact o = false ->
    exists s, r_variance r p = Some s /\ o_vg o 0 <= s.
Proof. exact geo_noisy. Qed.
Print Assumptions C68_variance_noisy_data.

(** The estimate is the best linear unbiased one, and a moving window never reports a
    smaller variance than all the data. *)
Theorem C68_best_linear_unbiased :
  forall E o q r p pos, run E o q r -> shown o q p pos -> well_posed o q pos -> proper_geographic o ->
    exists m sel w s, uses o q pos m sel /\ bsum m w = 1 /\
      r_value r p = Some (bsum m (fun a => w a * o_values o (sel a))) /\ r_variance r p = Some s /\
      s = est_variance m (fun a b => G_of o (sel a) (sel b)) (fun a => g_of o pos (sel a)) w /\
      forall w', bsum m w' = 1 -> s <= est_variance m (fun a b => G_of o (sel a) (sel b)) (fun a => g_of o pos (sel a)) w'.
Proof. exact geo_optimal. Qed.
Print Assumptions C68_best_linear_unbiased.
Theorem C68_moving_window :
  forall E o q q' r r' p p' pos, run E o q r -> run E o q' r' -> shown o q p pos -> shown o q' p' pos ->
    well_posed o q pos -> proper_geographic o -> q_window q = None -> q_window q' <> None ->
    exists s s', r_variance r p = Some s /\ r_variance r' p' = Some s' /\ s <= s'.
Proof. exact geo_window. Qed.
Print Assumptions C68_moving_window.

(** The constructor returns if and only if (when it computes the statistics) the nugget
    is positive or all data but the last are at different places on the sphere; otherwise
    it raises LinAlgError. *)
Theorem C68_constructor_returns_iff :
  forall E A name l, env_ok E -> geographic_call A name l ->
    ((exists o, construct E OK2 A = Ok o) <->
     (c_stat A = true -> 0 < last l 0 \/
        distinct_on_sphere (nth 0 (c_coords A) []) (nth 1 (c_coords A) []) (List.length (c_values A) - 1))).
Proof. exact geo_construct_iff. Qed.
Print Assumptions C68_constructor_returns_iff.
Theorem C68_duplicates_raise :
  forall E A name l i j, env_ok E -> geographic_call A name l -> c_stat A = true -> last l 0 = 0 ->
    let n := List.length (c_values A) in let lons := nth 0 (c_coords A) [] in let lats := nth 1 (c_coords A) [] in
    (i < n - 1)%nat -> (j < n - 1)%nat -> i <> j -> sphere (rnth lons i) (rnth lats i) = sphere (rnth lons j) (rnth lats j) ->
    construct E OK2 A = Err LinAlgError.
Proof. exact geo_construct_duplicate. Qed.
Print Assumptions C68_duplicates_raise.
Theorem C68_construct_then_execute :
  forall E A name l, env_ok E -> geographic_call A name l ->
    0 < last l 0 \/ distinct_on_sphere (nth 0 (c_coords A) []) (nth 1 (c_coords A) []) (List.length (c_values A)) ->
    exists o, construct E OK2 A = Ok o /\ proper_geographic o /\ strict_geographic o /\ solvable_data o /\
      forall q, good_query o q -> has_backend o q -> exists r, execute E o q = Ok r.
Proof. exact geo_construct_execute. Qed.
Print Assumptions C68_construct_then_execute.

(** The restrictions are needed.  Linear without nugget: four data at different places on
    the equator, and execute raises LinAlgError on every query. *)
Theorem C68_linear_refuted :
  exists E o, env_ok E /\ reachable E o /\ ordinary o /\ o_ct o = Geographic /\ o_fun o = f_linear /\ o_params o = [1; 0] /\
    o_n o = 4%nat /\ o_pinv o = false /\ distinct_data o /\ ~ regular o /\
    forall q, good_query o q -> q_window q = None -> has_backend o q -> execute E o q = Err LinAlgError.
Proof. exact linear_refuted. Qed.
Print Assumptions C68_linear_refuted.
(** Gaussian: three data, away from the data, an invertible system, and a negative variance. *)
Theorem C68_gaussian_refuted :
  exists E o q r s, o_ct o = Geographic /\ o_fun o = f_gaussian /\ o_params o = [1 - 0; 350; 0] /\ o_n o = 3%nat /\ distinct_data o /\ off_data o (-90, 0, 0) /\
    run E o q r /\ shown o q 0 (-90, 0, 0) /\ well_posed o q (-90, 0, 0) /\ q_window q = None /\ r_variance r 0%nat = Some s /\ s < 0.
Proof. exact gaussian_refuted. Qed.
Print Assumptions C68_gaussian_refuted.
(** Power with exponent 3/2: the same. *)
Theorem C68_power_refuted :
  exists E o q r s, o_ct o = Geographic /\ o_fun o = f_power /\ o_params o = [1; 3 / 2; 0] /\ o_n o = 3%nat /\ distinct_data o /\ off_data o (-90, 0, 0) /\
    run E o q r /\ shown o q 0 (-90, 0, 0) /\ well_posed o q (-90, 0, 0) /\ q_window q = None /\ r_variance r 0%nat = Some s /\ s < 0.
Proof. exact power_refuted. Qed.
Print Assumptions C68_power_refuted.

Example C68_nonvacuous : exists E A o, env_ok E /\ geographic_call A "exponential" [2; 100; 0] /\ construct E OK2 A = Ok o /\
  distinct_on_sphere (nth 0 (c_coords A) []) (nth 1 (c_coords A) []) 4 /\ List.length (c_values A) = 4%nat /\
  reachable E o /\ ordinary o /\ proper_geographic o /\ strict_geographic o /\ solvable_data o /\ distinct_data o /\ (o_n o = 4)%nat /\ o_pinv o = false /\
  o_exact o = true /\ off_data o (45, 0, 0) /\ clear_of_data o (45, 0, 0) /\
  forall b w, has_backend o (eqpoint 45 b w) -> good_query o (eqpoint 45 b w) /\ shown o (eqpoint 45 b w) 0 (45, 0, 0) /\ exists r, run E o (eqpoint 45 b w) r.
Proof. exact ex_geo. Qed.
Example C68_duplicates_nonvacuous : exists A, geographic_call A "exponential" [2; 100; 0] /\ c_stat A = true /\
  List.length (c_values A) = 3%nat /\ nth 0 (c_coords A) [] = [-180; 180; 0] /\
  sphere (rnth (nth 0 (c_coords A) []) 0) (rnth (nth 1 (c_coords A) []) 0) = sphere (rnth (nth 0 (c_coords A) []) 1) (rnth (nth 1 (c_coords A) []) 1).
Proof. exact ex_geo_dup. Qed.
