# DESIGN: a Rocq model of PyKrige

The development is in `rocq/theories`. Files are named by role:

* `Base`, `Sums`, `Matrix`: exceptions (`res`), boolean comparisons on reals, finite sums, matrices as functions, inverses and Moore-Penrose inverses.
* `M_*`: the **model**, one definition per function of the code, each with the file and lines it models and the simplifications made.
* `S_*`: the **specification vocabulary** used in statements (small, independent of the proofs).
* `P_*`, `Witness*`: proofs and concrete executions.
* `Props_*`: the **theorems** `Cnn_...`, their `Print Assumptions`, and beside them `Example`s showing that the hypotheses can be met by a concrete non-trivial case.

## 1. Trusted base

1. Coq 8.16.1's kernel (and the standard toolchain around it: parser, `coqc`). No kernel check is switched off; no `Admitted`, no `Axiom`/`Parameter`, no plugin, no functor or module type.
2. The axioms listed in section 6: those of the standard library's real numbers (`sig_forall_dec`, `sig_not_dec`), `functional_extensionality_dep` (used by the reals and by us), `classic` (excluded middle, through the standard library's trigonometry and used by us); and for concrete executions (refutations and non-vacuity examples) also `constructive_indefinite_description`, which lets us build an ideal linear solver as a function.
3. Coquelicot supplies integration lemmas used inside proofs only (`P_Psd3`, `P_Sphere`, `P_Turn1`-`P_Turn4`); Flocq (`Flocq.Core`; in proofs also `Relative`, `Sterbenz`, `Mult_error`) supplies the definition of IEEE binary64 rounding used in `M_Float` and `M_Float2`; neither adds an axiom.
4. The reading of the Python code that the `M_*` files represent (sections 2-4). The model was written by hand; it is not extracted from the code and the code was not run.

## 2. What is modelled, file by file

| code | model | covered |
|------|-------|---------|
| `variogram_models.py` | `M_Variogram` | all six functions |
| `lib/variogram_models.pyx` | `M_Variogram` (`c_*`, `get_variogram_model`) | all five functions and the dispatch by name |
| `core.py` `great_circle_distance`, `euclid3_to_great_circle`, `_adjust_for_anisotropy` | `M_Geometry` | all branches (1-D and 4-D errors, integer dtype) |
| `core.py` `_make_variogram_parameter_list` | `M_Variogram.make_parameter_list` | all branches |
| `core.py` `_initialize_variogram_model`, `_variogram_residuals`, `_calculate_variogram_model`, `_krige`, `_find_statistics`, `calcQ1`, `calcQ2`, `calc_cR` | `M_Init`, `M_Kriging.krige1` | all branches; binning also in binary64 (`M_Float`) |
| `ok.py`, `ok3d.py`, `uk.py`, `uk3d.py`: constructors, `update_variogram_model`, `switch_*`, `get_*` | `M_Object`, `M_UK` | all argument checks in the order of the code, GSTools branch, statistics; one definition parametrised by the class |
| the same, as to aliasing of arrays and lists | `M_Heap`, `M_HeapUK` | copies, in-place modifications and references, constructor / update / execute |
| `_get_kriging_matrix`, `_exec_vector`, `_exec_loop`, `_exec_loop_moving_window` of the four classes | `M_Kriging`, `M_UK` | all, assignments in the order of the code |
| `lib/cok.pyx` | `M_Kriging` (`c_*`, `cw_*`) | both loops, with their reused work arrays and unchecked indices (out of range = `UndefinedBehaviour`) |
| `execute` of the four classes | `M_Execute`, `M_UK.execute_uk` | styles, masks, meshgrid, flattening, backends, windows, KD-tree, specified drift arrays |
| `uk.py` `_calculate_data_point_zscalars` | `M_UK.zscalar(s)` | all branches |
| `compat.py` `Krige` | `M_Compat` | keyword tables, signatures, fit, execute, predict; keyword calls are modelled as dictionaries bound to signatures |
| signatures and defaults of `ok.py`, `ok3d.py`, `uk.py`, `uk3d.py` (`__init__`, `update_variogram_model`, `execute`), `Krige.__init__`; `Krige.set_params`, `clone` | `M_Call` | Python's binding of positional and keyword arguments; set_params, get_params and clone as documented by scikit-learn |
| `compat_gstools.py` | `M_Object.validate_gstools` | all |
| `rk.py`, `ck.py` | `M_Learn`, `M_Ilr` | init, fit, predict, krige_residual, score (with the default `r2_score`, `accuracy_score` of scikit-learn on 1-D arrays and integer labels), closure, ilr, inverse_ilr |
| constructors of `rk.py` 58-104, `ck.py` 59-105; `compat.py` 294-307 | `M_Learner` | argument binding, the check of the estimator, forwarding to Krige; estimators as shared mutable objects, programs over several objects (a failing estimator fit is taken to leave the estimator as it was) |
| `Krige.score` and its use by `cross_validate`, `GridSearchCV` (`compat.py` 89; `examples/08_krige_cv.py`) | `M_Search` | RegressorMixin.score, clone, set_params, fit, score per candidate and split with `error_score=nan`, ranking of the means, refit; scikit-learn itself is modelled from its documentation |
| `kriging_tools.py` | `M_Text`, `M_AscGrid`, `M_Zmap` | the four readers and writers on file texts, with Python's number formatting and parsing |

## 3. Not modelled

Plotting (`display_variogram_model`, `_create_plots`...), printing (`verbose`), the texts of the warnings (whether one is issued is modelled in `M_Warn`, `M_AscGrid` and `M_UK`; the DeprecationWarnings of libraries are not), `__init__.py`, the internals of scikit-learn's `BaseEstimator` (its `set_params`, `get_params` and `clone` are modelled in `M_Call` from their documentation, and so trusted), the vendored scikit-learn check of `compat.validate_sklearn` (scikit-learn is taken to be installed), reading of a zmap / asc file with non-ASCII characters or `\r\n` line ends, N-dimensional inputs before `squeeze`, NaN or infinite coordinates and parameters, infinite data values (NaN data values are modelled in `M_Values` and `M_ValuesUK`: `execute` and, with given variogram parameters, the constructors), float overflow.

## 4. Idealisations

* **Numbers.** The numeric code is read over the reals: every float64 operation is the exact real operation. The comparison thresholds (1e-10) are kept. Exceptions: the binning of the experimental variogram is generic in the number type and also instantiated at binary64 (`M_Float`); the variogram functions, the adjustment of coordinates and the assembly of the ordinary kriging system are also written in binary64 (`M_Float2`, with the C library's exp and pow and the BLAS inner product as parameters); the text formats are on rationals with the rounding of every operation as a parameter (`exact`, `round64`, or any).
* **Parameter lists** are read with default 0 (`rnth`): a variogram function called with too short a list (impossible after `_make_variogram_parameter_list`, except for custom functions, which are arbitrary anyway) does not raise in the model.
* **Oracles.** `scipy.linalg.inv/pinv/pinvh/solve`, `numpy.linalg.lstsq`, LAPACK `dgesv` (with arbitrary contents left in its input array), `cKDTree.query` (ties broken arbitrarily), `least_squares` after its argument checks, the value of a variogram function at infinity, user callables and scikit-learn estimators are fields of an environment record, or arguments. Theorems that need them to be right say so by an explicit hypothesis (`env_ok`, `linalg_ok`, `kd_ok`, `optimiser_ok`); these hypotheses are shown satisfiable by `Witness.wit_env_ok` and are never axioms. `inv`/`solve` are ideal: they fail exactly on singular matrices. `pinv` may fail arbitrarily (no convergence); only C74 assumes it does not (`svd_converges`, satisfiable by `ex_pseudo`).
* **Python.** Exceptions are values; a method that mutates `self` returns the new object also when it raises. In-place assignments are sequential function updates. Arrays are functions with an explicit size.
* `UNBIAS` (class constant of universal kriging) is `True`. `n_closest_points` and `nlags` are natural numbers.

## 5. Testing the theorems against wrong programs

`seeded/LOG.jsonl` has one line per mutation of the model: the definition edited, the edit, the claim it should break, the property theorems that no longer hold, and what was tightened. The mutations are made in a copy; lemmas whose proofs break are admitted there one by one, the whole development is rebuilt, and a property theorem counts as failed when its `Print Assumptions` then shows an admitted lemma (or it does not compile at all).

## 6. Print Assumptions

Every theorem below is followed by `Print Assumptions` in its Props file. No axiom of this development, no axiom of a non-standard library. Groups:

* **closed under the global context (no axioms)** — 39 theorems: C39_method_names, C33_switch_twice, C44_round_trip_style_1, C44_round_trip_style_2, C44_values_in_any_arithmetic, C44_coordinates_otherwise, C44_binary64_coordinates_style_1, C44_binary64_coordinates_style_2, C44_binary64_is_accurate, C44_small_spacing_refuted, C44_wide_values_refuted, C44_corner_rounding_refuted, C45_any_order_any_case, C45_unknown_keyword, C45_malformed_line, C45_wrong_size, C45_ragged_rows, C45_comments_and_blank_lines, C46_rejects_uneven, C46_accepted_exactly, C46_all_steps_checked_refuted, C46_all_steps_checked_binary64_refuted, C47_round_trip, C47_values_in_any_arithmetic, C47_coordinates_binary64_refuted, C47_nan_is_no_data, C47_nan_is_no_data_refuted, C48_coordinate_system, C48_round_trip_refuted, C48_reported_name, C57_rejected_write, C57_one_row_or_column, C57_invalid_style_refuted, C57_zmap_refuted, C58_too_many_values, C58_too_few_values_refuted, C85_asc_warnings, C85_asc_warned_exactly_when_not_read_back, C85_no_warning_means_read_back_refuted.

* **`sig_forall_dec`** — 13 theorems: C69_krige, C70_set_params, C70_set_params_accepts, C70_set_params_refuses, C70_clone, C72_regression_arguments, C72_classification_arguments, C72_regression_options, C72_classification_options, C72_needs_an_estimator, C05_list_and_dict_agree, C05_bad_parameters_rejected, C05_accepted_lists_have_the_right_length.

* **`functional_extensionality_dep`, `sig_forall_dec`** — 7 theorems: C42_closure, C28_accepts_exactly_the_grid_range, C28_bilinear_in_each_cell, C28_every_point_is_in_a_cell, C28_nodes, C28_between_the_corners, C28_descending_refuted.

* **`classic`, `functional_extensionality_dep`, `sig_forall_dec`** — 2 theorems: C28_reproduces_bilinear_functions, C28_continuous.

* **`functional_extensionality_dep`, `sig_forall_dec`, `sig_not_dec`** — 7 theorems: C36_fit_possible_exactly, C07_isotropic_is_identity, C08_anisotropic_distance_2d, C08_anisotropic_distance_3d, C08_angle_periodic, C08_half_turn_keeps_distances_2d, C08_unsupported_inputs_raise.

* **`classic`, `functional_extensionality_dep`, `sig_forall_dec`, `sig_not_dec`** — 321 theorems: C67_documented_variogram, C67_documented_variogram_after_update, C67_variogram_points, C67_statistics, C67_statistics_after_update, C67_no_residual_skipped, C69_constructors, C69_update, C69_execute, C69_data_only, C69_points_only, C69_model_only, C69_every_constructor_argument, C69_every_update_argument, C69_every_execute_argument, C69_update_removes_anisotropy, C70_set_params_then_fit, C70_predict_before_refit, C70_n_closest_points_before_refit, C70_method_before_refit, C14_affine_change_of_values, C14_sum_of_data_sets, C17_order_of_data_irrelevant, C22_duplicates_raise, C22_window_never_contains_both, C22_duplicates_get_equal_weights, C22_duplicates_are_averaged, C22_pseudo_inverse_irrelevant, C49_constructor_accepts_only, C49_constructor_rejects, C49_constructor_accepts_valid, C49_execute_accepts_only, C49_execute_accepts_valid, C49_execute_rejects, C51_dtype_irrelevant_unless_all_integer, C51_integer_queries_never_return, C52_translation, C52_isometry, C52_longitude_shift, C52_change_of_unit, C52_parameters_in_new_unit, C71_constructor_returns_iff, C71_constructor_exceptions, C71_only_documented_names_matter, C71_three_dimensional_names, C71_vectorized_returns_iff, C71_loop_returns_iff, C71_execute_exceptions, C49_universal_execute_accepts_only, C49_universal_execute_rejects, C22_universal_duplicates_raise, C22_universal_duplicates_get_equal_weights, C22_universal_pseudo_inverse_irrelevant, C22_universal_duplicates_are_averaged, C34_every_pair_counted_once, C34_every_pair_counted_once_after_update, C34_binary64_bins, C34_binary64_large_distance_refuted, C35_shape, C35_shape_after_update, C36_fit_within_bounds, C36_start_is_feasible, C36_fit_possible_for_data, C36_constant_data_raise, C37_weights, C37_residuals_vanish, C38_statistics_well_formed, C38_cross_validation, C38_cross_validation_after_update, C80_zero_lag, C80_monotone, C80_nugget, C80_sill, C80_spherical_refuted, C80_backends, C80_gaussian_refuted, C81_coincident, C81_order_and_error, C81_factor_three, C81_lattice, C81_distinct_refuted, C81_system, C81_system_without_exact_values, C50_supported_models, C50_unsupported_models, C50_model_in_the_object, C50_update, C50_latlon_in_3d_refuted, C68_great_circle_sound, C68_matrix_invertible, C68_execute_returns, C68_execute_returns_iff, C68_variance_nonnegative, C68_variance_off_data, C68_variance_noisy_data, C68_best_linear_unbiased, C68_moving_window, C68_constructor_returns_iff, C68_duplicates_raise, C68_construct_then_execute, C09_great_circle_metric, C10_chord_great_circle_consistent, C10_no_nan, C10_chord_order_is_great_circle_order, C39_fit_is_the_direct_call, C39_wrong_dimension, C39_short_tuples, C39_single_value_refuted, C40_unfitted, C40_wrong_dimension, C40_after_fit, C40_predict_is_the_direct_call, C40_style_mask_backend, C40_n_closest_points_cannot_be_overridden, C40_n_closest_points_universal, C40_unknown_option, C40_fewer_data_than_neighbours, C40_training_points, C41_trend_plus_residual, C41_training_targets, C42_ilr_round_trip, C42_ilr_clips, C42_inverse_round_trip, C42_inverse_is_a_composition, C42_ilr_is_the_log_ratio, C43_most_probable_class, C43_flat_labels_raise, C43_single_class, C56_training_labels, C64_krige_failed_fit, C64_classification_failed_fit, C64_regressor_raises, C64_regression_failed_fit, C65_coefficient_of_determination, C65_training_score, C65_training_accuracy, C65_accuracy_of_other_labels, C72_separate_estimators, C72_separate_classifiers, C72_shared_estimator, C72_shared_classifier, C72_only_fits_matter, C72_only_classifier_fits_matter, C72_n_closest_points_attribute, C72_never_fitted_regression, C72_never_fitted_classification, C77_line_between, C77_line_outside, C77_two_data, C78_pure_nugget, C78_far_from_the_data, C78_beyond_the_range, C79_continuous, C79_builtin_models, C79_continuous_moving_window, C79_universal_location_and_drift, C79_universal_continuous, C84_same_model, C84_constructor_and_execute, C84_statistics, C84_nan_never_raises, C84_nan_reaches_its_estimates, C84_one_nan_spoils_all_estimates, C84_nan_outside_the_window, C84_universal_same_model, C84_universal_nan_never_raises, C84_universal_nan_values, C84_universal_constructor_and_execute, C11_weights_solve_kriging_equations, C11_constants_are_reproduced, C12_exact_interpolation, C12_exact_interpolation_default, C13_flag_irrelevant_away_from_data, C13_no_nugget_is_exact, C15_backends_agree, C15_window_backends_agree, C16_variance_is_minimal, C16_variance_nonnegative, C18_every_entry_is_a_cell, C18_result_depends_on_location_only, C18_shapes, C18_grid_is_points, C18_grid_is_points_3d, C19_masked_cells_hidden_others_unchanged, C19_only_masked_style_hides, C19_mask_errors, C20_full_window_is_global, C20_oversized_window_never_returns, C20_window_of_one_rejected, C20_window_uses_nearest_only, C21_no_stale_state, C21_c_window_is_python_window, C74_execute_returns, C74_universal_vectorized_returns_iff, C74_universal_loop_returns_iff, C74_constructor, C74_update, C74_least_squares, C74_universal_least_squares, C73_score, C73_training_score, C73_cross_validation, C73_wrong_dimension, C73_leave_one_out, C73_few_data, C73_candidates, C73_best, C73_history, C73_returns, C82_only_the_span_matters, C82_linear_as_functional, C82_linear_as_specified, C82_units_of_covariates, C82_redundant_terms_raise, C82_constant_drift_raises, C82_redundant_terms_ignored, C29_update_is_rebuild, C29_universal_update_is_rebuild, C30_coordinates_in_step, C30_universal_coordinates_in_step, C30_settings_of_the_last_update, C31_rejected_model_changes_nothing, C31_universal_rejected_model_changes_nothing, C31_data_survive, C31_universal_data_survive, C32_construct_leaves_arrays_alone, C32_update_leaves_arrays_alone, C32_execute_leaves_arrays_alone, C32_later_changes_have_no_effect, C32_universal_construct, C32_universal_update_leaves_arrays_alone, C32_universal_execute_leaves_arrays_alone, C32_universal_later_changes_have_no_effect, C33_switches_do_not_change_answers, C33_execute_is_pure, C33_universal_switches_do_not_change_answers, C33_universal_execute_is_pure, C75_affine_change_of_values, C75_amplified_variogram, C75_change_of_unit, C75_translation, C75_isometry, C76_anisotropy_is_a_change_of_coordinates, C76_variogram, C76_statistics, C76_universal_anisotropy_is_a_change_of_coordinates, C23_drift_terms_are_the_users, C23_drift_is_reproduced, C24_linear_trends_are_reproduced, C24_functional_drift_is_reproduced, C25_no_drift_is_ordinary_kriging, C25_coplanar_3d_is_2d, C26_backends_agree, C26_loop_raises_at_wells, C27_size_of_the_system, C27_no_warnings, C27_vectorized_exceptions, C53_universal_kriging_equations, C53_estimate_is_unique, C54_exact_interpolation, C55_best_linear_unbiased, C55_variance_nonnegative, C14_universal_affine_change_of_values, C14_universal_sum_of_data_sets, C17_universal_order_of_data_irrelevant, C18_universal_every_entry_is_a_cell, C18_universal_result_depends_on_location_only, C18_universal_shapes, C18_universal_grid_is_points, C18_universal_grid_is_points_3d, C19_universal_masked_cells_hidden_others_unchanged, C19_universal_mask_errors, C52_universal_translation, C52_universal_isometry, C66_ordinary, C66_universal, C66_parameters, C66_universal_parameters, C83_one_more_datum, C83_predicted_datum_changes_nothing, C83_constructor, C83_prediction_surface, C83_universal_one_more_datum, C83_universal_same_configuration, C83_universal_surface, C59_matrix_invertible, C59_execute_returns, C59_execute_returns_iff, C60_variance_nonnegative, C60_variance_off_data, C60_variance_noisy_data, C60_variance_upper_bound, C60_best_linear_unbiased, C61_invertible_iff, C61_no_linear_algebra_error, C61_execute_returns_iff, C61_variance_nonnegative, C61_variance_off_data, C61_best_linear_unbiased, C62_moving_window, C62_fewer_data, C62_unknown_drift, C63_constructor_returns_iff, C63_duplicates_raise, C63_construct_then_execute, C63_construct_then_execute_universal, C63_update_returns, C01_nugget_at_zero_lag, C02_variograms_nondecreasing, C02_hole_effect_monotone_refuted, C03_sill_and_range, C04_cython_variograms_agree, C04_unknown_names_rejected, C04_custom_function_name_clash_refuted, C06_requested_sill_is_the_sill, C85_anisotropy_warning, C85_anisotropy_is_ignored, C85_update_warning, C85_update_is_ignored, C85_unneeded_drift_arrays, C85_unneeded_arrays_are_ignored.

* **`classic`, `constructive_indefinite_description`, `functional_extensionality_dep`, `sig_forall_dec`, `sig_not_dec`** — 23 theorems: C51_integer_queries_refuted, C50_dimension_refuted, C68_linear_refuted, C68_gaussian_refuted, C68_power_refuted, C43_labels_refuted, C64_regression_atomic_refuted, C65_accuracy_refuted, C72_default_estimator_refuted, C77_within_data_range_refuted, C79_everywhere_refuted, C79_moving_window_refuted, C13_nugget_makes_it_inexact, C20_oversized_window_raises_refuted, C74_moving_window_refuted, C29_point_log_refuted, C31_failed_update_refuted, C32_linear_parameters_refuted, C32_functional_drift_refuted, C75_order_of_data_refuted, C26_specified_drift_refuted, C26_masked_external_refuted, C85_angle_is_reported_refuted.

## 7. Properties: how each is modelled, stated and proved

`_refuted` theorems prove that a natural stronger property is false of the code (usually by an explicit execution); they are part of the exact contract given in properties.jsonl.

| id | property | model | proof | theorems |
|----|----|----|----|----|
| C01 | Variogram value at zero lag is the nugget | six variogram functions over R | real analysis: monotonicity of exp, polynomials; hole effect by 1-x <= exp(-x) | nugget_at_zero_lag (proved) |
| C02 | Variogram models grow with distance | six variogram functions over R | real analysis: monotonicity of exp, polynomials; hole effect by 1-x <= exp(-x) | variograms_nondecreasing, hole_effect_monotone_refuted (proved) |
| C03 | Bounded variogram models respect the sill and the meaning of 'range' | six variogram functions over R | real analysis: monotonicity of exp, polynomials; hole effect by 1-x <= exp(-x) | sill_and_range (proved) |
| C04 | The Cython variograms compute the same functions as the Python ones | `c_*`, dispatch by `__name__` | loop = pointwise function; case split at the range | cython_variograms_agree, unknown_names_rejected, custom_function_name_clash_refuted (proved) |
| C05 | variogram_parameters: list and dict spellings mean the same model | `make_parameter_list` on association lists / lists | case analysis, composed with C03 | list_and_dict_agree, bad_parameters_rejected, accepted_lists_have_the_right_length (proved) |
| C06 | The sill the user asks for is the sill the model has | `make_parameter_list` on association lists / lists | case analysis, composed with C03 | requested_sill_is_the_sill (proved) |
| C07 | Isotropic settings leave coordinates alone | `adjust_for_anisotropy` as matrix products | trigonometric identities, orthogonality of the rotations | isotropic_is_identity (proved) |
| C08 | Anisotropy stretches exactly one rotated axis (2D) / two (3D) | `adjust_for_anisotropy` as matrix products | trigonometric identities, orthogonality of the rotations | anisotropic_distance_2d, anisotropic_distance_3d, angle_periodic, half_turn_keeps_distances_2d, unsupported_inputs_raise (proved) |
| C09 | Great-circle distance is a metric on the sphere, in degrees | numpy arctan2 by cases, `great_circle_distance` | the angle between unit vectors; triangle inequality by Cauchy-Schwarz | great_circle_metric (proved) |
| C10 | Chord and great-circle distances are consistent | `euclid3_to_great_circle`, `unit_vectors` | half-angle identities | chord_great_circle_consistent, no_nan, chord_order_is_great_circle_order (proved) |
| C11 | Ordinary kriging is unbiased: constants are reproduced | objects reachable by any history, `execute` | the result is the unique solution of the kriging equations (S_Kriging), finite sums | weights_solve_kriging_equations, constants_are_reproduced (proved) |
| C12 | Ordinary kriging interpolates the data exactly (exact_values=True) | objects reachable by any history, `execute` | the result is the unique solution of the kriging equations (S_Kriging), finite sums | exact_interpolation, exact_interpolation_default (proved) |
| C13 | exact_values=False only matters at data points and only with a nugget | objects reachable by any history, `execute` | the result is the unique solution of the kriging equations (S_Kriging), finite sums | flag_irrelevant_away_from_data, no_nugget_is_exact, nugget_makes_it_inexact (proved) |
| C14 | Predictions are affine in the data, variances do not depend on them | objects reachable by any history, `execute` | the result is the unique solution of the kriging equations (S_Kriging), finite sums | affine_change_of_values, sum_of_data_sets, universal_affine_change_of_values, universal_sum_of_data_sets (proved) |
| C15 | Vectorized, loop and C backends return the same grid (ordinary kriging) | exec_vector, exec_loop, c_exec_loop and their windows | loop invariants: each is the same weighted sum | backends_agree, window_backends_agree (proved) |
| C16 | Kriging weights minimise the estimation variance; variance is never negative | `execute` against any competing weights | Lagrange argument with conditional definiteness of the variogram as hypothesis | variance_is_minimal, variance_nonnegative (proved) |
| C17 | The order of the data points is irrelevant | two objects built from permuted data | permutation of the kriging system, uniqueness of the solution | order_of_data_irrelevant, universal_order_of_data_irrelevant (proved) |
| C18 | Grid and points styles agree, and grid cells are where they should be | locate2/3, flatten, finish | index arithmetic (div/mod), case analysis | every_entry_is_a_cell, result_depends_on_location_only, shapes, grid_is_points, grid_is_points_3d, universal_every_entry_is_a_cell, universal_result_depends_on_location_only, universal_shapes, universal_grid_is_points, universal_grid_is_points_3d (proved) |
| C19 | Masked execution hides exactly the masked cells and changes nothing else | locate2/3, flatten, finish | index arithmetic (div/mod), case analysis | masked_cells_hidden_others_unchanged, only_masked_style_hides, mask_errors, universal_masked_cells_hidden_others_unchanged, universal_mask_errors (proved) |
| C20 | Moving window with all points equals global kriging; with too many it fails | moving window loops, KD-tree oracle, Cython work arrays | permutation invariance; buffer-independence invariant; index bounds | full_window_is_global, oversized_window_never_returns, oversized_window_raises_refuted, window_of_one_rejected, window_uses_nearest_only (proved) |
| C21 | The Cython moving-window loop has no stale state between points | moving window loops, KD-tree oracle, Cython work arrays | permutation invariance; buffer-independence invariant; index bounds | no_stale_state, c_window_is_python_window (proved) |
| C22 | Redundant data points | duplicate locations; Penrose equations | singularity, symmetry and uniqueness of the pseudo-inverse | duplicates_raise, window_never_contains_both, duplicates_get_equal_weights, duplicates_are_averaged, pseudo_inverse_irrelevant, universal_duplicates_raise, universal_duplicates_get_equal_weights, universal_pseudo_inverse_irrelevant, universal_duplicates_are_averaged (proved) |
| C23 | Universal kriging reproduces its drift (2D) | universal kriging system with all drift kinds | block linear algebra: drift rows as constraints; S_UK gives the equations | drift_terms_are_the_users, drift_is_reproduced (proved) |
| C24 | Universal kriging reproduces its drift (3D) | universal kriging system with all drift kinds | block linear algebra: drift rows as constraints; S_UK gives the equations | linear_trends_are_reproduced, functional_drift_is_reproduced (proved) |
| C25 | Universal kriging without drift terms is ordinary kriging | UK without drift; 3D coplanar data | same system | no_drift_is_ordinary_kriging, coplanar_3d_is_2d (proved) |
| C26 | Where the universal kriging backends agree, and where they do not | uk_exec_vector / uk_exec_loop | row-by-row equality; explicit executions for the exceptions | backends_agree, specified_drift_refuted, loop_raises_at_wells, masked_external_refuted (proved) |
| C27 | The universal kriging system always has the announced size | uk_matrix | invariant of the row counter | size_of_the_system, no_warnings, vectorized_exceptions (proved) |
| C28 | External drift is bilinear interpolation of the user's grid | zscalar | interval search on ascending lists, field; finitely many cells and bilinear continuity | accepts_exactly_the_grid_range, bilinear_in_each_cell, every_point_is_in_a_cell, nodes, reproduces_bilinear_functions, continuous, between_the_corners, descending_refuted (proved) |
| C29 | update_variogram_model is equivalent to building a new object | state machine of construct / update / execute / switches | invariants over arbitrary call sequences; simulation of a fresh object | update_is_rebuild, universal_update_is_rebuild, point_log_refuted (proved) |
| C30 | Coordinates and anisotropy settings never get out of step | state machine of construct / update / execute / switches | invariants over arbitrary call sequences; simulation of a fresh object | coordinates_in_step, universal_coordinates_in_step, settings_of_the_last_update (proved) |
| C31 | What a failed update leaves behind | state machine of construct / update / execute / switches | invariants over arbitrary call sequences; simulation of a fresh object | rejected_model_changes_nothing, universal_rejected_model_changes_nothing, failed_update_refuted, data_survive, universal_data_survive (proved) |
| C32 | What the object shares with the user's arrays and lists | heap model M_Heap, M_HeapUK | refinement of the pure model + frame property over histories | construct_leaves_arrays_alone, update_leaves_arrays_alone, execute_leaves_arrays_alone, later_changes_have_no_effect, linear_parameters_refuted, universal_construct, universal_update_leaves_arrays_alone, universal_execute_leaves_arrays_alone, universal_later_changes_have_no_effect, functional_drift_refuted (proved) |
| C33 | Talk-back switches do not affect results | sessions of calls | switches commute with every call | switches_do_not_change_answers, switch_twice, execute_is_pure, universal_switches_do_not_change_answers, universal_execute_is_pure (proved) |
| C34 | Experimental variogram: every pair of points is counted once | binning, over R and binary64 | partition into intervals; Flocq rounding monotonicity | every_pair_counted_once, every_pair_counted_once_after_update, binary64_bins, binary64_large_distance_refuted (proved) |
| C35 | Experimental variogram: shape of lags and semivariances | experimental variogram of a reachable object | means lie in their bins | shape, shape_after_update (proved) |
| C36 | When automatic fitting is possible, and the bounds it respects | start_guess, fit_bounds, least_squares checks | order reasoning | fit_within_bounds, start_is_feasible, fit_possible_exactly, fit_possible_for_data, constant_data_raise (proved) |
| C37 | weight=True weights are a decreasing probability distribution over lags | lag_weights | monotonicity of the logistic function | weights, residuals_vanish (proved) |
| C38 | Cross-validation statistics are well formed | find_statistics | list induction; entries are kriging of the first i data | statistics_well_formed, cross_validation, cross_validation_after_update (proved) |
| C39 | Krige wrapper passes each method exactly the keywords it accepts | keyword dictionaries and signatures | computation on finite tables with symbolic values | fit_is_the_direct_call, method_names, wrong_dimension, short_tuples, single_value_refuted (proved) |
| C40 | Krige wrapper: predict contract | keyword dictionaries and signatures | computation on finite tables with symbolic values | unfitted, wrong_dimension, after_fit, predict_is_the_direct_call, style_mask_backend, n_closest_points_cannot_be_overridden, n_closest_points_universal, unknown_option, fewer_data_than_neighbours, training_points (proved) |
| C41 | Regression kriging composes trend and residual | rk_fit / rk_predict with arbitrary regressor | composition with C12 | trend_plus_residual, training_targets (proved) |
| C42 | Classification kriging: ilr transform round trip | Helmert rows, ilr, inverse | orthonormality for every dimension | ilr_round_trip, ilr_clips, inverse_round_trip, inverse_is_a_composition, ilr_is_the_log_ratio, closure (proved) |
| C43 | What classification kriging predicts | ck_fit / ck_predict with arbitrary classifier | composition with C42, C12; argmax invariant | most_probable_class, labels_refuted, flat_labels_raise, single_class (proved) |
| C44 | ASCII grid files round-trip | asc writer/reader on texts | printer/parser round trip, rounding on rationals | round_trip_style_1, round_trip_style_2, values_in_any_arithmetic, coordinates_otherwise, binary64_coordinates_style_1, binary64_coordinates_style_2, binary64_is_accurate, small_spacing_refuted, wide_values_refuted, corner_rounding_refuted (proved) |
| C45 | ASCII grid header lines may come in any order | asc writer/reader on texts | printer/parser round trip, rounding on rationals | any_order_any_case, unknown_keyword, malformed_line, wrong_size, ragged_rows, comments_and_blank_lines (proved) |
| C46 | What spacing write_asc_grid accepts | asc writer/reader on texts | printer/parser round trip, rounding on rationals | rejects_uneven, accepted_exactly, all_steps_checked_refuted, all_steps_checked_binary64_refuted (proved) |
| C47 | zmap files round-trip | zmap writer/reader on texts | printer/parser round trip, state machine of the reader | round_trip, values_in_any_arithmetic, coordinates_binary64_refuted, nan_is_no_data, nan_is_no_data_refuted (proved) |
| C48 | What becomes of the zmap coordinate system name | zmap writer/reader on texts | printer/parser round trip, state machine of the reader | coordinate_system, round_trip_refuted, reported_name (proved) |
| C49 | Option validation of execute and the constructors | argument checks of constructors and execute | case analysis in the order of the code | constructor_accepts_only, constructor_rejects, constructor_accepts_valid, execute_accepts_only, execute_accepts_valid, execute_rejects, universal_execute_accepts_only, universal_execute_rejects (proved) |
| C50 | GSTools models are accepted exactly when supported | GSTools branch of constructor and update | case analysis | supported_models, unsupported_models, model_in_the_object, update, dimension_refuted, latlon_in_3d_refuted (proved) |
| C51 | Integer query coordinates | dtype flags of the query | case analysis | dtype_irrelevant_unless_all_integer, integer_queries_refuted, integer_queries_never_return (proved) |
| C52 | Rigid motions of the coordinate system do not change the kriging | two objects with moved coordinates | distances preserved, uniqueness | translation, isometry, longitude_shift, change_of_unit, parameters_in_new_unit, universal_translation, universal_isometry (proved) |
| C53 | Universal kriging solves the universal kriging equations | universal kriging system with all drift kinds | block linear algebra: drift rows as constraints; S_UK gives the equations | universal_kriging_equations, estimate_is_unique (proved) |
| C54 | Universal kriging interpolates the data exactly | universal kriging system with all drift kinds | block linear algebra: drift rows as constraints; S_UK gives the equations | exact_interpolation (proved) |
| C55 | Universal kriging is the best linear unbiased predictor; its variance is never negative | universal kriging system with all drift kinds | block linear algebra: drift rows as constraints; S_UK gives the equations | best_linear_unbiased, variance_nonnegative (proved) |
| C56 | Classification kriging reproduces the training labels | ck_fit / ck_predict with arbitrary classifier | composition with C42, C12; argmax invariant | training_labels (proved) |
| C57 | What a rejected write does to an existing file | asc writer/reader on texts | printer/parser round trip, rounding on rationals | rejected_write, one_row_or_column, invalid_style_refuted, zmap_refuted (proved) |
| C58 | zmap files with the wrong number of values | zmap writer/reader on texts | printer/parser round trip, state machine of the reader | too_many_values, too_few_values_refuted (proved) |
| C59 | Ordinary kriging with a sound model never fails | ordinary kriging objects with proper model (S_Valid) | strict conditional negative definiteness of the five models: Schur products, limits of powers, Schoenberg integral for the exponent, Gauss kernels (linear, power, gaussian, exponential: every dimension); for the spherical model (at most three dimensions) turning bands: it is the spherical mean of a correlation on the line, by polynomial approximation and moments of the sphere (P_Turn1-4); then C11-C13 | matrix_invertible, execute_returns, execute_returns_iff (proved) |
| C60 | Bounds on the kriging variance | ordinary kriging objects with proper model (S_Valid) | strict conditional negative definiteness of the five models: Schur products, limits of powers, Schoenberg integral for the exponent, Gauss kernels (linear, power, gaussian, exponential: every dimension); for the spherical model (at most three dimensions) turning bands: it is the spherical mean of a correlation on the line, by polynomial approximation and moments of the sphere (P_Turn1-4); then C11-C13 | variance_nonnegative, variance_off_data, variance_noisy_data, variance_upper_bound, best_linear_unbiased (proved) |
| C61 | Universal kriging with a sound model fails exactly for dependent drifts | universal kriging objects with proper model | bordered matrix of a strictly conditionally negative definite block; then C53-C55 | invertible_iff, no_linear_algebra_error, execute_returns_iff, variance_nonnegative, variance_off_data, best_linear_unbiased (proved) |
| C62 | Less information never lowers the kriging variance | ordinary kriging objects with proper model (S_Valid) | strict conditional negative definiteness of the five models: Schur products, limits of powers, Schoenberg integral for the exponent, Gauss kernels (linear, power, gaussian, exponential: every dimension); for the spherical model (at most three dimensions) turning bands: it is the spherical mean of a correlation on the line, by polynomial approximation and moments of the sphere (P_Turn1-4); then C11-C13 | moving_window, fewer_data, unknown_drift (proved) |
| C63 | Constructors and updates with sound arguments return | construct / update / find_statistics with proper arguments | each statistics system is a leading subsystem, regular by C59 | constructor_returns_iff, duplicates_raise, construct_then_execute, construct_then_execute_universal, update_returns (proved) |
| C64 | What a failed fit leaves behind | krige_fit, rk_fit, ck_fit with failing steps | case analysis on the failure point; an unfitted Krige refuses to predict | krige_failed_fit, classification_failed_fit, regressor_raises, regression_failed_fit, regression_atomic_refuted (proved) |
| C65 | Scores | r2_score, accuracy_score, rk_score, ck_score | composition with C41, C43, C56; sums of squares | coefficient_of_determination, training_score, training_accuracy, accuracy_of_other_labels, accuracy_refuted (proved) |
| C66 | Multiplying the variogram rescales the variances only | two objects, the variogram of one k times that of the other | the solution of the scaled kriging system: same weights, scaled multipliers; uniqueness | ordinary, universal, parameters, universal_parameters (proved) |
| C67 | Accessors report what kriging uses | accessor methods on the attributes of the constructed or updated object | case analysis on spellings; C34 and C38 for the experimental variogram and the residuals | documented_variogram, documented_variogram_after_update, variogram_points, statistics, statistics_after_update, no_residual_skipped (proved) |
| C68 | Geographic coordinates with a sound model | M_Object/M_Execute with geographic coordinates; S_Geo: places on the sphere, sound parameters | arcsine of a Gram matrix is positive semidefinite (power series and Schur products), so the angle is conditionally negative definite and exp(-k angle) positive definite (P_Sphere); generic consequences for kriging objects in P_Sound; refutations by explicit equator points | great_circle_sound, matrix_invertible, execute_returns, execute_returns_iff, variance_nonnegative, variance_off_data, variance_noisy_data, best_linear_unbiased, moving_window, constructor_returns_iff, duplicates_raise, construct_then_execute, linear_refuted, gaussian_refuted, power_refuted (proved) |
| C69 | Names, order and defaults of arguments | M_Call: binding of positional and keyword arguments to the signatures | general lemmas on binding to a signature (permutation of keywords, defaults), signatures compared with the documented tables of S_Call | constructors, update, execute, krige, data_only, points_only, model_only, every_constructor_argument, every_update_argument, every_execute_argument, update_removes_anisotropy (proved) |
| C70 | Krige parameters and re-fitting | M_Call: get_params, set_params, clone (scikit-learn BaseEstimator, trusted) on the Krige record of M_Compat | induction on the keywords; fit reads parameters only; predict reads method, n_closest_points and the model | set_params, set_params_accepts, set_params_refuses, set_params_then_fit, clone, predict_before_refit, n_closest_points_before_refit, method_before_refit (proved) |
| C71 | Drift arguments of universal kriging | M_UK: init_drift, execute_uk | decision tables for every drift argument; the bordered matrix is invertible iff the universal kriging system is uniquely solvable; case analysis of the two backends | constructor_returns_iff, constructor_exceptions, only_documented_names_matter, three_dimensional_names, vectorized_returns_iff, loop_returns_iff, execute_exceptions (proved) |
| C72 | Constructing regression and classification kriging; shared estimators | M_Learner: constructor calls, estimators as objects with identity, programs over several objects | induction on programs; two worlds that agree on one object and its estimator stay so; explicit run for the shared default | regression_arguments, classification_arguments, regression_options, classification_options, needs_an_estimator, separate_estimators, separate_classifiers, default_estimator_refuted, shared_estimator, shared_classifier, only_fits_matter, only_classifier_fits_matter, n_closest_points_attribute, never_fitted_regression, never_fitted_classification (proved) |
| C73 | Scores, cross-validation and grid search of Krige | M_Search: RegressorMixin.score; clone, set_params, fit, score as cross_validate and GridSearchCV call them | a cloned and parameterised estimator equals a newly constructed one; fit and predict are direct calls; first maximum of a fold | score, training_score, cross_validation, wrong_dimension, leave_one_out, few_data, candidates, best, history, returns (proved) |
| C74 | What pseudo_inv buys | M_Kriging krige1, invert; M_Execute, M_UK with pseudo_inv | existence of the Moore-Penrose inverse of any real matrix; its projections give least squares and minimal norm; case analysis of failures | execute_returns, moving_window_refuted, universal_vectorized_returns_iff, universal_loop_returns_iff, constructor, update, least_squares, universal_least_squares (proved) |
| C75 | Statistics under changes of the data | M_Init find_statistics, calcQ1, calcQ2, calc_cR; M_Object construct, update_variogram_model | each residual is an ordinary kriging prediction from the earlier data, so the similarity lemmas for cells apply to it; a data set of three points refutes order independence | affine_change_of_values, amplified_variogram, change_of_unit, translation, isometry, order_of_data_refuted (proved) |
| C76 | Anisotropy is a change of coordinates | M_Geometry adjust; M_Object construct; M_Execute | the adjusted distance is the Euclidean distance of stretched locations; the two objects have equal distances, so equal variograms, statistics and systems; universal: the frame of the drifts is the stretched system shifted, so the drift matrices span the same space | anisotropy_is_a_change_of_coordinates, variogram, statistics, universal_anisotropy_is_a_change_of_coordinates (proved) |
| C77 | Closed forms: data on a line, two data | M_Execute, M_Kriging (as for C11) | explicit weights solve the kriging system, uniqueness; the range is refuted by the power model with exponent 3/2 | line_between, line_outside, two_data, within_data_range_refuted (proved) |
| C78 | Pure nugget; far from the data | M_Execute, M_Kriging, M_Variogram | explicit weights; the weights are Lipschitz in the semivariances (inverse matrix); positive definiteness of the sill models bounds the limit variance | pure_nugget, far_from_the_data, beyond_the_range (proved) |
| C79 | Predictions are continuous away from the data | M_Execute, M_UK, M_Kriging, M_Variogram, M_Geometry | triangle inequality of the separation (Euclidean with anisotropy, great-circle), Lipschitz dependence of the weights on the semivariances; moving window: the order of the data is locally constant without ties; universal: linear and quadratic forms in the right-hand side, continuity of the drift functions | continuous, builtin_models, everywhere_refuted, continuous_moving_window, moving_window_refuted, universal_location_and_drift, universal_continuous (proved) |
| C80 | Variogram functions in binary64 | M_Float2 | monotonicity of rounding; concrete counterexamples evaluated with a lemma on nearest significands (Flocq) | zero_lag, monotone, nugget, sill, spherical_refuted, backends, gaussian_refuted (proved) |
| C81 | Coordinates and the kriging system in binary64 | M_Float2 | Sterbenz lemma, half-ulp bounds, exactness of multiples of powers of two (Flocq) | coincident, order_and_error, factor_three, lattice, distinct_refuted, system, system_without_exact_values (proved) |
| C82 | Only the span of the drift terms matters | M_UK | the weights solve both systems with transformed multipliers; uniqueness on one side | only_the_span_matters, linear_as_functional, linear_as_specified, units_of_covariates, redundant_terms_raise, constant_drift_raises, redundant_terms_ignored (proved) |
| C83 | Adding a datum; the form of the prediction surface | two objects, one with one more datum (adds), ordinary and universal; constructor calls with lists longer by one | bordered system solved explicitly, symmetry of the kriging matrix (reciprocity), uniqueness; dual form of the system | one_more_datum, predicted_datum_changes_nothing, constructor, prediction_surface, universal_one_more_datum, universal_same_configuration, universal_surface (proved) |
| C84 | NaN data values | M_Values, M_ValuesUK: execute (ordinary and universal), the experimental variogram, the statistics and the constructors on values with NaN (values of any type with sum and scaling) | free algebra of expressions over the data values; homomorphisms; invariants of the five loops | same_model, constructor_and_execute, statistics, nan_never_raises, nan_reaches_its_estimates, one_nan_spoils_all_estimates, nan_outside_the_window, universal_same_model, universal_nan_never_raises, universal_nan_values, universal_constructor_and_execute (proved) |
| C85 | Warnings | M_Warn, M_AscGrid: asc_warnings | inversion of the constructor and update; invariants of reachable objects; the round trip of C44 for both directions of the axes | anisotropy_warning, anisotropy_is_ignored, update_warning, update_is_ignored, unneeded_drift_arrays, unneeded_arrays_are_ignored, angle_is_reported_refuted, asc_warnings, asc_warned_exactly_when_not_read_back, no_warning_means_read_back_refuted (proved) |
