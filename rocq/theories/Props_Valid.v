(** PROPERTIES C59-C63: what a proper variogram buys.  With the built-in linear,
    power, gaussian, exponential and spherical models, sensible parameters and Euclidean
    coordinates, everything the other properties assume (an invertible system, a
    conditionally negative definite variogram) is a theorem.  Vocabulary: S_Valid. *)
From Coq Require Import String.
From Verif Require Import Base Sums Matrix M_Variogram M_Geometry S_Geometry M_Kriging S_Kriging M_Init M_Object M_Execute S_Execute
  M_UK S_UK S_State S_Valid P_Object P_Exec2 P_OK P_UK6 P_UK8 P_UK9 P_Valid2 P_Valid3 P_Valid4 P_Valid5 P_Valid6 P_Valid7 Witness.

(** C59.  Ordinary kriging with such a model always works: the kriging matrix has an
    inverse ... *)
Theorem C59_matrix_invertible :
  forall o, proper o -> solvable_data o -> (0 < o_n o)%nat -> regular o.
Proof. exact proper_regular. Qed.
Print Assumptions C59_matrix_invertible.

(** ... and execute returns, on every well-formed query, with every backend and with
    every moving window of 2 .. n points. *)
Theorem C59_execute_returns :
  forall E o q, env_ok E -> reachable E o -> ordinary o -> proper o -> solvable_data o -> (0 < o_n o)%nat -> o_pinv o = false ->
    good_query o q -> has_backend o q -> exists r, run E o q r.
Proof. exact proper_execute. Qed.
Print Assumptions C59_execute_returns.

(** The condition on the data is exact: without a moving window execute returns if and
    only if the nugget is positive or no two data are at the same place. *)
Theorem C59_execute_returns_iff :
  forall E o q, env_ok E -> reachable E o -> ordinary o -> proper o -> (0 < o_n o)%nat -> o_pinv o = false ->
    good_query o q -> q_window q = None -> has_backend o q -> ((exists r, run E o q r) <-> solvable_data o).
Proof. exact proper_succeeds_iff. Qed.
Print Assumptions C59_execute_returns_iff.

Example C59_nonvacuous : exists E o q, env_ok E /\ reachable E o /\ ordinary o /\ proper o /\ solvable_data o /\ o_n o = 4%nat /\
  o_pinv o = false /\ good_query o q /\ has_backend o q /\ q_window q = None.
Proof.
  destruct ex_valid as (E & o & HE & HR & HO & HP & HS & _ & Hn & Hpi & _ & _ & H).
  exists E, o, (at_1 "vectorized" None). assert (HB : has_backend o (at_1 "vectorized" None)) by (left; reflexivity).
  destruct (H _ _ HB) as (HG & _). repeat (split; try assumption).
Qed.
Example C59_window_nonvacuous : exists E o q, env_ok E /\ reachable E o /\ ordinary o /\ proper o /\ solvable_data o /\ o_n o = 4%nat /\
  o_pinv o = false /\ good_query o q /\ has_backend o q /\ q_window q = Some 2%nat.
Proof.
  destruct ex_valid as (E & o & HE & HR & HO & HP & HS & _ & Hn & Hpi & _ & _ & H).
  exists E, o, (at_1 "loop" (Some 2%nat)). assert (HB : has_backend o (at_1 "loop" (Some 2%nat))) by (cbn; rewrite Hn; split; [lia|left; reflexivity]).
  destruct (H _ _ HB) as (HG & _). repeat (split; try assumption).
Qed.

(** C60.  The variance returned is never negative (clear_of_data: with exact_values,
    no datum strictly between 0 and 1e-10 from the location). *)
Theorem C60_variance_nonnegative :
  forall E o q r p pos, run E o q r -> shown o q p pos -> well_posed o q pos -> proper o ->
    (o_exact o = true -> distinct_data o) -> clear_of_data o pos ->
    exists s, r_variance r p = Some s /\ 0 <= s.
Proof. exact proper_variance. Qed.
Print Assumptions C60_variance_nonnegative.

(** Away from the data it is positive and at least the nugget. *)
Theorem C60_variance_off_data :
  forall E o q r p pos, run E o q r -> shown o q p pos -> well_posed o q pos -> proper o -> solvable_data o ->
    off_data o pos -> exists s, r_variance r p = Some s /\ 0 < s /\ o_vg o 0 <= s.
Proof. exact proper_bounds. Qed.
Print Assumptions C60_variance_off_data.

(** With exact_values=False it is at least the nugget everywhere. *)
Theorem C60_variance_noisy_data :
  forall E o q r p pos, run E o q r -> shown o q p pos -> well_posed o q pos -> proper o -> o_exact o = false ->
    exists s, r_variance r p = Some s /\ o_vg o 0 <= s.
Proof. exact proper_noisy. Qed.
Print Assumptions C60_variance_noisy_data.

(** It is at most twice the variogram to any datum that was used. *)
Theorem C60_variance_upper_bound :
  forall E o q r p pos, run E o q r -> shown o q p pos -> well_posed o q pos -> proper o ->
    exists m sel s, uses o q pos m sel /\ r_variance r p = Some s /\ forall k, (k < m)%nat -> s <= 2 * g_of o pos (sel k).
Proof. exact proper_upper. Qed.
Print Assumptions C60_variance_upper_bound.

(** The estimate is the best linear unbiased one: its error variance is the least
    among all weights with sum 1. *)
Theorem C60_best_linear_unbiased :
  forall E o q r p pos, run E o q r -> shown o q p pos -> well_posed o q pos -> proper o ->
    exists m sel w s, uses o q pos m sel /\ bsum m w = 1 /\
      r_value r p = Some (bsum m (fun a => w a * o_values o (sel a))) /\ r_variance r p = Some s /\
      s = est_variance m (fun a b => G_of o (sel a) (sel b)) (fun a => g_of o pos (sel a)) w /\
      forall w', bsum m w' = 1 -> s <= est_variance m (fun a b => G_of o (sel a) (sel b)) (fun a => g_of o pos (sel a)) w'.
Proof. exact proper_optimal. Qed.
Print Assumptions C60_best_linear_unbiased.

Example C60_nonvacuous : exists E o q r, run E o q r /\ shown o q 0 (1, 0, 0) /\ well_posed o q (1, 0, 0) /\ proper o /\
  distinct_data o /\ solvable_data o /\ o_exact o = true /\ clear_of_data o (1, 0, 0) /\ off_data o (1, 0, 0) /\ o_n o = 4%nat.
Proof.
  destruct ex_valid as (E & o & HE & HR & HO & HP & HS & HD & Hn & Hpi & Hx & _ & H).
  assert (HB : has_backend o (at_1 "vectorized" None)) by (left; reflexivity).
  destruct (H _ _ HB) as (HG & Hsh & Hoff & Hcl & r & Hr).
  exists E, o, (at_1 "vectorized" None), r. repeat (split; try assumption). left. exact Hpi.
Qed.

(** C61.  Universal kriging with a proper model: the matrix is invertible exactly when
    the constant and the drift functions are linearly independent on the data. *)
Theorem C61_invertible_iff :
  forall u q specs, proper (u_obj u) -> solvable_data (u_obj u) ->
    (UK_regular (o_n (u_obj u)) (List.length (drift_terms u q specs)) (G_of (u_obj u)) (F_of (drift_terms u q specs))
     <-> drift_independent u q specs).
Proof. exact uk_regular_iff. Qed.
Print Assumptions C61_invertible_iff.

(** Then execute never raises LinAlgError, whatever the drifts ... *)
Theorem C61_no_linear_algebra_error :
  forall E u q specs, env_ok E -> ureachable E u -> proper (u_obj u) -> solvable_data (u_obj u) ->
    o_pinv (u_obj u) = false -> drift_independent u q specs -> q_backend q = "vectorized"%string ->
    execute_uk E u q specs <> Err LinAlgError.
Proof. exact uk_no_linalg_error. Qed.
Print Assumptions C61_no_linear_algebra_error.

(** ... and, with drifts that cannot themselves fail, returns iff they are independent. *)
Theorem C61_execute_returns_iff :
  forall E u q specs, env_ok E -> ureachable E u -> proper (u_obj u) -> solvable_data (u_obj u) ->
    o_pinv (u_obj u) = false -> dr_ext (u_drift u) = None -> dr_spec (u_drift u) = None -> good_query (u_obj u) q ->
    q_backend q = "vectorized"%string \/ (q_backend q = "loop"%string /\ off_wells u q) ->
    ((exists r w, execute_uk E u q specs = Ok (r, w)) <-> drift_independent u q specs).
Proof. exact uk_succeeds_iff. Qed.
Print Assumptions C61_execute_returns_iff.

(** Variance: not negative; positive and at least the nugget away from the data; and
    the estimate is the best linear unbiased one under the drift. *)
Theorem C61_variance_nonnegative :
  forall E u q specs r p pos, urun E u q specs r -> shown (u_obj u) q p pos ->
    uwell_posed u q specs p pos -> faithful_specs u q -> proper (u_obj u) ->
    (o_exact (u_obj u) = true -> distinct_data (u_obj u)) -> clear_of_data (u_obj u) pos ->
    exists s, r_variance r p = Some s /\ 0 <= s.
Proof. exact uk_proper_variance. Qed.
Print Assumptions C61_variance_nonnegative.

Theorem C61_variance_off_data :
  forall E u q specs r p pos, urun E u q specs r -> shown (u_obj u) q p pos ->
    uwell_posed u q specs p pos -> faithful_specs u q -> proper (u_obj u) -> solvable_data (u_obj u) -> off_data (u_obj u) pos ->
    exists s, r_variance r p = Some s /\ 0 < s /\ o_vg (u_obj u) 0 <= s.
Proof. exact uk_proper_bounds. Qed.
Print Assumptions C61_variance_off_data.

Theorem C61_best_linear_unbiased :
  forall E u q specs r p pos, urun E u q specs r -> shown (u_obj u) q p pos ->
    uwell_posed u q specs p pos -> faithful_specs u q -> proper (u_obj u) ->
    let o := u_obj u in let ts := drift_terms u q specs in let n := o_n o in
    exists w s, bsum n w = 1 /\
      (forall t, In t ts -> bsum n (fun i => w i * t_data t i) = t_query t p pos) /\
      r_value r p = Some (bsum n (fun i => w i * o_values o i)) /\ r_variance r p = Some s /\
      s = est_variance n (G_of o) (g_of o pos) w /\
      (forall w', bsum n w' = 1 -> (forall t, In t ts -> bsum n (fun i => w' i * t_data t i) = t_query t p pos) ->
         s <= est_variance n (G_of o) (g_of o pos) w').
Proof. exact uk_proper_optimal. Qed.
Print Assumptions C61_best_linear_unbiased.

Example C61_nonvacuous : exists E u q r, urun E u q [] r /\ shown (u_obj u) q 0 (1, 1, 0) /\ uwell_posed u q [] 0 (1, 1, 0) /\
  faithful_specs u q /\ proper (u_obj u) /\ solvable_data (u_obj u) /\ off_data (u_obj u) (1, 1, 0) /\ drift_independent u q [] /\
  o_pinv (u_obj u) = false /\ dr_linear (u_drift u) = true /\ dr_spec (u_drift u) = None /\ dr_ext (u_drift u) = None /\ good_query (u_obj u) q.
Proof.
  destruct ex_drift as (E & A & D & o & u & q & r & r' & H). exists E, u, q, r'. decompose [and] H. repeat (split; try assumption).
Qed.

(** C62.  Less information never gives a smaller variance.  A moving window: *)
Theorem C62_moving_window :
  forall E o q q' r r' p p' pos, run E o q r -> run E o q' r' -> shown o q p pos -> shown o q' p' pos ->
    well_posed o q pos -> proper o -> q_window q = None -> q_window q' <> None ->
    exists s s', r_variance r p = Some s /\ r_variance r' p' = Some s' /\ s <= s'.
Proof. exact window_variance. Qed.
Print Assumptions C62_moving_window.

(** Removing data from the data set (o has some of the data of o'): *)
Theorem C62_fewer_data :
  forall E sel o o' q q' r r' p p' pos, more_data sel o o' -> run E o q r -> run E o' q' r' ->
    shown o q p pos -> shown o' q' p' pos -> well_posed o q pos -> well_posed o' q' pos -> proper o ->
    q_window q' = None ->
    exists s s', r_variance r p = Some s /\ r_variance r' p' = Some s' /\ s' <= s.
Proof. exact more_data_variance. Qed.
Print Assumptions C62_fewer_data.

(** Having to estimate a drift: universal kriging never reports a smaller variance than
    ordinary kriging built from the same arguments. *)
Theorem C62_unknown_drift :
  forall E c c' A D us o u q q' specs r r' p p' pos, counterparts c c' ->
    (c = OK2 -> c_ct A = "euclidean"%string) ->
    built E c A us o -> ubuilt E c' A D us u -> run E o q r -> urun E u q' specs r' -> q_window q = None ->
    shown o q p pos -> shown (u_obj u) q' p' pos -> well_posed o q pos -> uwell_posed u q' specs p' pos -> faithful_specs u q' ->
    proper o ->
    exists s s', r_variance r p = Some s /\ r_variance r' p' = Some s' /\ s <= s'.
Proof. exact drift_variance. Qed.
Print Assumptions C62_unknown_drift.

Example C62_moving_window_nonvacuous : exists E o q q' r r', run E o q r /\ run E o q' r' /\ shown o q 0 (1, 0, 0) /\ shown o q' 0 (1, 0, 0) /\
  well_posed o q (1, 0, 0) /\ proper o /\ q_window q = None /\ q_window q' = Some 2%nat /\ o_n o = 4%nat.
Proof. exact ex_windows. Qed.
Example C62_fewer_data_nonvacuous : exists E o o' r r', more_data (fun i => i) o o' /\ (o_n o < o_n o')%nat /\
  run E o (at_1 "vectorized" None) r /\ run E o' (at_1 "vectorized" None) r' /\
  shown o (at_1 "vectorized" None) 0 (1, 0, 0) /\ shown o' (at_1 "vectorized" None) 0 (1, 0, 0) /\
  well_posed o (at_1 "vectorized" None) (1, 0, 0) /\ well_posed o' (at_1 "vectorized" None) (1, 0, 0) /\ proper o.
Proof. exact ex_more_data. Qed.
Example C62_unknown_drift_nonvacuous : exists E A D o u q r r', counterparts OK2 UK2 /\ c_ct A = "euclidean"%string /\
  built E OK2 A [] o /\ ubuilt E UK2 A D [] u /\ run E o q r /\ urun E u q [] r' /\ q_window q = None /\
  shown o q 0 (1, 1, 0) /\ shown (u_obj u) q 0 (1, 1, 0) /\ well_posed o q (1, 1, 0) /\ uwell_posed u q [] 0 (1, 1, 0) /\ faithful_specs u q /\
  proper o /\ dr_linear (u_drift u) = true.
Proof.
  destruct ex_drift as (E & A & D & o & u & q & r & r' & H). exists E, A, D, o, u, q, r, r'. decompose [and] H. repeat (split; try assumption).
Qed.

(** C63.  Constructors.  With well-formed arguments and sound parameters the constructor
    returns if and only if (when it computes the statistics) the nugget is positive or
    all data but the last are at different places. *)
Theorem C63_constructor_returns_iff :
  forall E c A name l, env_ok E -> proper_call c A -> proper_variogram c (c_v A) name l ->
    ((exists o, construct E c A = Ok o) <->
     (with_stats c A -> 0 < last l 0 \/ distinct_inputs (c_coords A) (List.length (c_values A) - 1))).
Proof. exact construct_iff. Qed.
Print Assumptions C63_constructor_returns_iff.

(** Otherwise it raises LinAlgError. *)
Theorem C63_duplicates_raise :
  forall E c A name l i j, env_ok E -> proper_call c A -> proper_variogram c (c_v A) name l -> with_stats c A ->
    last l 0 = 0 -> (i < j)%nat -> (j < List.length (c_values A) - 1)%nat -> (forall x, In x (c_coords A) -> rnth x i = rnth x j) ->
    construct E c A = Err LinAlgError.
Proof. exact construct_duplicate. Qed.
Print Assumptions C63_duplicates_raise.

(** From the arguments to the result: with a positive nugget or data at different
    places the constructor and every later well-formed execute return. *)
Theorem C63_construct_then_execute :
  forall E c A name l, env_ok E -> proper_call c A -> proper_variogram c (c_v A) name l -> c = OK2 \/ c = OK3 ->
    0 < last l 0 \/ distinct_inputs (c_coords A) (List.length (c_values A)) ->
    exists o, construct E c A = Ok o /\ proper o /\
      forall q, good_query o q -> has_backend o q -> exists r, execute E o q = Ok r.
Proof. exact construct_execute. Qed.
Print Assumptions C63_construct_then_execute.

(** The same for universal kriging with complete, linearly independent drifts. *)
Theorem C63_construct_then_execute_universal :
  forall E c A D name l, env_ok E -> proper_call c A -> proper_variogram c (c_v A) name l -> c = UK2 \/ c = UK3 ->
    proper_drifts c D (List.length (c_values A)) ->
    0 < last l 0 \/ distinct_inputs (c_coords A) (List.length (c_values A)) ->
    exists u, construct_uk E c A D = Ok u /\ proper (u_obj u) /\
      forall q specs, good_query (u_obj u) q -> q_backend q = "vectorized"%string -> in_names "specified" (d_terms D) = false ->
        drift_independent u q specs -> exists r w, execute_uk E u q specs = Ok (r, w).
Proof. exact construct_execute_uk. Qed.
Print Assumptions C63_construct_then_execute_universal.

(** update_variogram_model with sound parameters always returns (with a positive new
    nugget or data at different places), and leaves a sound object. *)
Theorem C63_update_returns :
  forall E o v name l, env_ok E -> reachable E o -> o_ct o = Euclidean -> o_pinv o = false -> (2 <= o_n o)%nat ->
    proper_variogram (o_class o) v name l ->
    (0 < last l 0 \/ forall i j, (i < o_n o)%nat -> (j < o_n o)%nat -> i <> j -> datum o i <> datum o j) ->
    exists o', update_variogram_model E o v = (o', None) /\ proper o' /\ solvable_data o'.
Proof. exact update_proper. Qed.
Print Assumptions C63_update_returns.

Example C63_nonvacuous : proper_call OK2 (row_args four true) /\ proper_call UK2 (row_args four true) /\
  proper_variogram OK2 (c_v (row_args four true)) "gaussian" [1; 2; 0] /\ proper_variogram UK2 (c_v (row_args four true)) "gaussian" [1; 2; 0] /\
  with_stats UK2 (row_args four true) /\ distinct_inputs (c_coords (row_args four true)) 4.
Proof. exact ex_row_call. Qed.
Example C63_spherical_nonvacuous : proper_call OK3 space_args /\ proper_variogram OK3 (c_v space_args) "spherical" [2; 3; 0] /\
  distinct_inputs (c_coords space_args) (List.length (c_values space_args)).
Proof. exact ex_spherical_call. Qed.
Example C63_duplicates_nonvacuous : let A := row_args [0; 0; 1] true in
  proper_call UK2 A /\ proper_variogram UK2 (c_v A) "gaussian" [1; 2; 0] /\ with_stats UK2 A /\ last [1; 2; 0] 0 = 0 /\
  (1 < List.length (c_values A) - 1)%nat /\ (forall x, In x (c_coords A) -> rnth x 0 = rnth x 1).
Proof. exact ex_row_duplicates. Qed.
Example C63_universal_nonvacuous : proper_call UK2 (tri_args [1; 3; 4]) /\ proper_variogram UK2 (c_v (tri_args [1; 3; 4])) "linear" [1; 1] /\ proper_drifts UK2 lin_args 3 /\
  exists u q, construct_uk WE UK2 (tri_args [1; 3; 4]) lin_args = Ok u /\ good_query (u_obj u) q /\ q_backend q = "vectorized"%string /\
    in_names "specified" (d_terms lin_args) = false /\ drift_independent u q [].
Proof. exact ex_uk_call. Qed.
Example C63_update_nonvacuous : exists E o v, env_ok E /\ reachable E o /\ o_ct o = Euclidean /\ o_pinv o = false /\ o_n o = 4%nat /\
  proper_variogram (o_class o) v "gaussian" [2; 3; 1] /\ 0 < last [2; 3; 1] 0.
Proof. exact ex_update_call. Qed.
