{
 "claims": [
  {
   "property": "C01",
   "status": "proved",
   "theorems": [
    "C01_nugget_at_zero_lag"
   ],
   "note": ""
  },
  {
   "property": "C02",
   "status": "proved",
   "theorems": [
    "C02_variograms_nondecreasing",
    "C02_hole_effect_monotone_refuted"
   ],
   "note": ""
  },
  {
   "property": "C03",
   "status": "proved",
   "theorems": [
    "C03_sill_and_range"
   ],
   "note": ""
  },
  {
   "property": "C04",
   "status": "proved",
   "theorems": [
    "C04_cython_variograms_agree",
    "C04_unknown_names_rejected",
    "C04_custom_function_name_clash_refuted"
   ],
   "note": ""
  },
  {
   "property": "C05",
   "status": "proved",
   "theorems": [
    "C05_list_and_dict_agree",
    "C05_bad_parameters_rejected",
    "C05_accepted_lists_have_the_right_length"
   ],
   "note": ""
  },
  {
   "property": "C06",
   "status": "proved",
   "theorems": [
    "C06_requested_sill_is_the_sill"
   ],
   "note": ""
  },
  {
   "property": "C07",
   "status": "proved",
   "theorems": [
    "C07_isotropic_is_identity"
   ],
   "note": ""
  },
  {
   "property": "C08",
   "status": "proved",
   "theorems": [
    "C08_anisotropic_distance_2d",
    "C08_anisotropic_distance_3d",
    "C08_angle_periodic",
    "C08_half_turn_keeps_distances_2d",
    "C08_unsupported_inputs_raise"
   ],
   "note": ""
  },
  {
   "property": "C09",
   "status": "proved",
   "theorems": [
    "C09_great_circle_metric"
   ],
   "note": ""
  },
  {
   "property": "C10",
   "status": "proved",
   "theorems": [
    "C10_chord_great_circle_consistent",
    "C10_no_nan",
    "C10_chord_order_is_great_circle_order"
   ],
   "note": ""
  },
  {
   "property": "C11",
   "status": "proved",
   "theorems": [
    "C11_weights_solve_kriging_equations",
    "C11_constants_are_reproduced"
   ],
   "note": ""
  },
  {
   "property": "C12",
   "status": "proved",
   "theorems": [
    "C12_exact_interpolation",
    "C12_exact_interpolation_default"
   ],
   "note": ""
  },
  {
   "property": "C13",
   "status": "proved",
   "theorems": [
    "C13_flag_irrelevant_away_from_data",
    "C13_no_nugget_is_exact",
    "C13_nugget_makes_it_inexact"
   ],
   "note": ""
  },
  {
   "property": "C14",
   "status": "proved",
   "theorems": [
    "C14_affine_change_of_values",
    "C14_sum_of_data_sets",
    "C14_universal_affine_change_of_values",
    "C14_universal_sum_of_data_sets"
   ],
   "note": ""
  },
  {
   "property": "C15",
   "status": "proved",
   "theorems": [
    "C15_backends_agree",
    "C15_window_backends_agree"
   ],
   "note": ""
  },
  {
   "property": "C16",
   "status": "proved",
   "theorems": [
    "C16_variance_is_minimal",
    "C16_variance_nonnegative"
   ],
   "note": ""
  },
  {
   "property": "C17",
   "status": "proved",
   "theorems": [
    "C17_order_of_data_irrelevant",
    "C17_universal_order_of_data_irrelevant"
   ],
   "note": ""
  },
  {
   "property": "C18",
   "status": "proved",
   "theorems": [
    "C18_every_entry_is_a_cell",
    "C18_result_depends_on_location_only",
    "C18_shapes",
    "C18_grid_is_points",
    "C18_grid_is_points_3d",
    "C18_universal_every_entry_is_a_cell",
    "C18_universal_result_depends_on_location_only",
    "C18_universal_shapes",
    "C18_universal_grid_is_points",
    "C18_universal_grid_is_points_3d"
   ],
   "note": ""
  },
  {
   "property": "C19",
   "status": "proved",
   "theorems": [
    "C19_masked_cells_hidden_others_unchanged",
    "C19_only_masked_style_hides",
    "C19_mask_errors",
    "C19_universal_masked_cells_hidden_others_unchanged",
    "C19_universal_mask_errors"
   ],
   "note": ""
  },
  {
   "property": "C20",
   "status": "proved",
   "theorems": [
    "C20_full_window_is_global",
    "C20_oversized_window_never_returns",
    "C20_oversized_window_raises_refuted",
    "C20_window_of_one_rejected",
    "C20_window_uses_nearest_only"
   ],
   "note": ""
  },
  {
   "property": "C21",
   "status": "proved",
   "theorems": [
    "C21_no_stale_state",
    "C21_c_window_is_python_window"
   ],
   "note": ""
  },
  {
   "property": "C22",
   "status": "proved",
   "theorems": [
    "C22_duplicates_raise",
    "C22_window_never_contains_both",
    "C22_duplicates_get_equal_weights",
    "C22_duplicates_are_averaged",
    "C22_pseudo_inverse_irrelevant",
    "C22_universal_duplicates_raise",
    "C22_universal_duplicates_get_equal_weights",
    "C22_universal_pseudo_inverse_irrelevant",
    "C22_universal_duplicates_are_averaged"
   ],
   "note": ""
  },
  {
   "property": "C23",
   "status": "proved",
   "theorems": [
    "C23_drift_terms_are_the_users",
    "C23_drift_is_reproduced"
   ],
   "note": ""
  },
  {
   "property": "C24",
   "status": "proved",
   "theorems": [
    "C24_linear_trends_are_reproduced",
    "C24_functional_drift_is_reproduced"
   ],
   "note": ""
  },
  {
   "property": "C25",
   "status": "proved",
   "theorems": [
    "C25_no_drift_is_ordinary_kriging",
    "C25_coplanar_3d_is_2d"
   ],
   "note": ""
  },
  {
   "property": "C26",
   "status": "proved",
   "theorems": [
    "C26_backends_agree",
    "C26_specified_drift_refuted",
    "C26_loop_raises_at_wells",
    "C26_masked_external_refuted"
   ],
   "note": ""
  },
  {
   "property": "C27",
   "status": "proved",
   "theorems": [
    "C27_size_of_the_system",
    "C27_no_warnings",
    "C27_vectorized_exceptions"
   ],
   "note": ""
  },
  {
   "property": "C28",
   "status": "proved",
   "theorems": [
    "C28_accepts_exactly_the_grid_range",
    "C28_bilinear_in_each_cell",
    "C28_every_point_is_in_a_cell",
    "C28_nodes",
    "C28_reproduces_bilinear_functions",
    "C28_continuous",
    "C28_between_the_corners",
    "C28_descending_refuted"
   ],
   "note": ""
  },
  {
   "property": "C29",
   "status": "proved",
   "theorems": [
    "C29_update_is_rebuild",
    "C29_universal_update_is_rebuild",
    "C29_point_log_refuted"
   ],
   "note": ""
  },
  {
   "property": "C30",
   "status": "proved",
   "theorems": [
    "C30_coordinates_in_step",
    "C30_universal_coordinates_in_step",
    "C30_settings_of_the_last_update"
   ],
   "note": ""
  },
  {
   "property": "C31",
   "status": "proved",
   "theorems": [
    "C31_rejected_model_changes_nothing",
    "C31_universal_rejected_model_changes_nothing",
    "C31_failed_update_refuted",
    "C31_data_survive",
    "C31_universal_data_survive"
   ],
   "note": ""
  },
  {
   "property": "C32",
   "status": "proved",
   "theorems": [
    "C32_construct_leaves_arrays_alone",
    "C32_update_leaves_arrays_alone",
    "C32_execute_leaves_arrays_alone",
    "C32_later_changes_have_no_effect",
    "C32_linear_parameters_refuted",
    "C32_universal_construct",
    "C32_universal_update_leaves_arrays_alone",
    "C32_universal_execute_leaves_arrays_alone",
    "C32_universal_later_changes_have_no_effect",
    "C32_functional_drift_refuted"
   ],
   "note": ""
  },
  {
   "property": "C33",
   "status": "proved",
   "theorems": [
    "C33_switches_do_not_change_answers",
    "C33_switch_twice",
    "C33_execute_is_pure",
    "C33_universal_switches_do_not_change_answers",
    "C33_universal_execute_is_pure"
   ],
   "note": ""
  },
  {
   "property": "C34",
   "status": "proved",
   "theorems": [
    "C34_every_pair_counted_once",
    "C34_every_pair_counted_once_after_update",
    "C34_binary64_bins",
    "C34_binary64_large_distance_refuted"
   ],
   "note": ""
  },
  {
   "property": "C35",
   "status": "proved",
   "theorems": [
    "C35_shape",
    "C35_shape_after_update"
   ],
   "note": ""
  },
  {
   "property": "C36",
   "status": "proved",
   "theorems": [
    "C36_fit_within_bounds",
    "C36_start_is_feasible",
    "C36_fit_possible_exactly",
    "C36_fit_possible_for_data",
    "C36_constant_data_raise"
   ],
   "note": ""
  },
  {
   "property": "C37",
   "status": "proved",
   "theorems": [
    "C37_weights",
    "C37_residuals_vanish"
   ],
   "note": ""
  },
  {
   "property": "C38",
   "status": "proved",
   "theorems": [
    "C38_statistics_well_formed",
    "C38_cross_validation",
    "C38_cross_validation_after_update"
   ],
   "note": ""
  },
  {
   "property": "C39",
   "status": "proved",
   "theorems": [
    "C39_fit_is_the_direct_call",
    "C39_method_names",
    "C39_wrong_dimension",
    "C39_short_tuples",
    "C39_single_value_refuted"
   ],
   "note": ""
  },
  {
   "property": "C40",
   "status": "proved",
   "theorems": [
    "C40_unfitted",
    "C40_wrong_dimension",
    "C40_after_fit",
    "C40_predict_is_the_direct_call",
    "C40_style_mask_backend",
    "C40_n_closest_points_cannot_be_overridden",
    "C40_n_closest_points_universal",
    "C40_unknown_option",
    "C40_fewer_data_than_neighbours",
    "C40_training_points"
   ],
   "note": ""
  },
  {
   "property": "C41",
   "status": "proved",
   "theorems": [
    "C41_trend_plus_residual",
    "C41_training_targets"
   ],
   "note": ""
  },
  {
   "property": "C42",
   "status": "proved",
   "theorems": [
    "C42_ilr_round_trip",
    "C42_ilr_clips",
    "C42_inverse_round_trip",
    "C42_inverse_is_a_composition",
    "C42_ilr_is_the_log_ratio",
    "C42_closure"
   ],
   "note": ""
  },
  {
   "property": "C43",
   "status": "proved",
   "theorems": [
    "C43_most_probable_class",
    "C43_labels_refuted",
    "C43_flat_labels_raise",
    "C43_single_class"
   ],
   "note": ""
  },
  {
   "property": "C44",
   "status": "proved",
   "theorems": [
    "C44_round_trip_style_1",
    "C44_round_trip_style_2",
    "C44_values_in_any_arithmetic",
    "C44_coordinates_otherwise",
    "C44_binary64_coordinates_style_1",
    "C44_binary64_coordinates_style_2",
    "C44_binary64_is_accurate",
    "C44_small_spacing_refuted",
    "C44_wide_values_refuted",
    "C44_corner_rounding_refuted"
   ],
   "note": ""
  },
  {
   "property": "C45",
   "status": "proved",
   "theorems": [
    "C45_any_order_any_case",
    "C45_unknown_keyword",
    "C45_malformed_line",
    "C45_wrong_size",
    "C45_ragged_rows",
    "C45_comments_and_blank_lines"
   ],
   "note": ""
  },
  {
   "property": "C46",
   "status": "proved",
   "theorems": [
    "C46_rejects_uneven",
    "C46_accepted_exactly",
    "C46_all_steps_checked_refuted",
    "C46_all_steps_checked_binary64_refuted"
   ],
   "note": ""
  },
  {
   "property": "C47",
   "status": "proved",
   "theorems": [
    "C47_round_trip",
    "C47_values_in_any_arithmetic",
    "C47_coordinates_binary64_refuted",
    "C47_nan_is_no_data",
    "C47_nan_is_no_data_refuted"
   ],
   "note": ""
  },
  {
   "property": "C48",
   "status": "proved",
   "theorems": [
    "C48_coordinate_system",
    "C48_round_trip_refuted",
    "C48_reported_name"
   ],
   "note": ""
  },
  {
   "property": "C49",
   "status": "proved",
   "theorems": [
    "C49_constructor_accepts_only",
    "C49_constructor_rejects",
    "C49_constructor_accepts_valid",
    "C49_execute_accepts_only",
    "C49_execute_accepts_valid",
    "C49_execute_rejects",
    "C49_universal_execute_accepts_only",
    "C49_universal_execute_rejects"
   ],
   "note": ""
  },
  {
   "property": "C50",
   "status": "proved",
   "theorems": [
    "C50_supported_models",
    "C50_unsupported_models",
    "C50_model_in_the_object",
    "C50_update",
    "C50_dimension_refuted",
    "C50_latlon_in_3d_refuted"
   ],
   "note": ""
  },
  {
   "property": "C51",
   "status": "proved",
   "theorems": [
    "C51_dtype_irrelevant_unless_all_integer",
    "C51_integer_queries_refuted",
    "C51_integer_queries_never_return"
   ],
   "note": ""
  },
  {
   "property": "C52",
   "status": "proved",
   "theorems": [
    "C52_translation",
    "C52_isometry",
    "C52_longitude_shift",
    "C52_change_of_unit",
    "C52_parameters_in_new_unit",
    "C52_universal_translation",
    "C52_universal_isometry"
   ],
   "note": ""
  },
  {
   "property": "C53",
   "status": "proved",
   "theorems": [
    "C53_universal_kriging_equations",
    "C53_estimate_is_unique"
   ],
   "note": ""
  },
  {
   "property": "C54",
   "status": "proved",
   "theorems": [
    "C54_exact_interpolation"
   ],
   "note": ""
  },
  {
   "property": "C55",
   "status": "proved",
   "theorems": [
    "C55_best_linear_unbiased",
    "C55_variance_nonnegative"
   ],
   "note": ""
  },
  {
   "property": "C56",
   "status": "proved",
   "theorems": [
    "C56_training_labels"
   ],
   "note": ""
  },
  {
   "property": "C57",
   "status": "proved",
   "theorems": [
    "C57_rejected_write",
    "C57_one_row_or_column",
    "C57_invalid_style_refuted",
    "C57_zmap_refuted"
   ],
   "note": ""
  },
  {
   "property": "C58",
   "status": "proved",
   "theorems": [
    "C58_too_many_values",
    "C58_too_few_values_refuted"
   ],
   "note": ""
  },
  {
   "property": "C59",
   "status": "proved",
   "theorems": [
    "C59_matrix_invertible",
    "C59_execute_returns",
    "C59_execute_returns_iff"
   ],
   "note": ""
  },
  {
   "property": "C60",
   "status": "proved",
   "theorems": [
    "C60_variance_nonnegative",
    "C60_variance_off_data",
    "C60_variance_noisy_data",
    "C60_variance_upper_bound",
    "C60_best_linear_unbiased"
   ],
   "note": ""
  },
  {
   "property": "C61",
   "status": "proved",
   "theorems": [
    "C61_invertible_iff",
    "C61_no_linear_algebra_error",
    "C61_execute_returns_iff",
    "C61_variance_nonnegative",
    "C61_variance_off_data",
    "C61_best_linear_unbiased"
   ],
   "note": ""
  },
  {
   "property": "C62",
   "status": "proved",
   "theorems": [
    "C62_moving_window",
    "C62_fewer_data",
    "C62_unknown_drift"
   ],
   "note": ""
  },
  {
   "property": "C63",
   "status": "proved",
   "theorems": [
    "C63_constructor_returns_iff",
    "C63_duplicates_raise",
    "C63_construct_then_execute",
    "C63_construct_then_execute_universal",
    "C63_update_returns"
   ],
   "note": ""
  },
  {
   "property": "C64",
   "status": "proved",
   "theorems": [
    "C64_krige_failed_fit",
    "C64_classification_failed_fit",
    "C64_regressor_raises",
    "C64_regression_failed_fit",
    "C64_regression_atomic_refuted"
   ],
   "note": ""
  },
  {
   "property": "C65",
   "status": "proved",
   "theorems": [
    "C65_coefficient_of_determination",
    "C65_training_score",
    "C65_training_accuracy",
    "C65_accuracy_of_other_labels",
    "C65_accuracy_refuted"
   ],
   "note": ""
  },
  {
   "property": "C66",
   "status": "proved",
   "theorems": [
    "C66_ordinary",
    "C66_universal",
    "C66_parameters",
    "C66_universal_parameters"
   ],
   "note": ""
  },
  {
   "property": "C67",
   "status": "proved",
   "theorems": [
    "C67_documented_variogram",
    "C67_documented_variogram_after_update",
    "C67_variogram_points",
    "C67_statistics",
    "C67_statistics_after_update",
    "C67_no_residual_skipped"
   ],
   "note": ""
  },
  {
   "property": "C68",
   "status": "proved",
   "theorems": [
    "C68_great_circle_sound",
    "C68_matrix_invertible",
    "C68_execute_returns",
    "C68_execute_returns_iff",
    "C68_variance_nonnegative",
    "C68_variance_off_data",
    "C68_variance_noisy_data",
    "C68_best_linear_unbiased",
    "C68_moving_window",
    "C68_constructor_returns_iff",
    "C68_duplicates_raise",
    "C68_construct_then_execute",
    "C68_linear_refuted",
    "C68_gaussian_refuted",
    "C68_power_refuted"
   ],
   "note": ""
  },
  {
   "property": "C69",
   "status": "proved",
   "theorems": [
    "C69_constructors",
    "C69_update",
    "C69_execute",
    "C69_krige",
    "C69_data_only",
    "C69_points_only",
    "C69_model_only",
    "C69_every_constructor_argument",
    "C69_every_update_argument",
    "C69_every_execute_argument",
    "C69_update_removes_anisotropy"
   ],
   "note": ""
  },
  {
   "property": "C70",
   "status": "proved",
   "theorems": [
    "C70_set_params",
    "C70_set_params_accepts",
    "C70_set_params_refuses",
    "C70_set_params_then_fit",
    "C70_clone",
    "C70_predict_before_refit",
    "C70_n_closest_points_before_refit",
    "C70_method_before_refit"
   ],
   "note": ""
  },
  {
   "property": "C71",
   "status": "proved",
   "theorems": [
    "C71_constructor_returns_iff",
    "C71_constructor_exceptions",
    "C71_only_documented_names_matter",
    "C71_three_dimensional_names",
    "C71_vectorized_returns_iff",
    "C71_loop_returns_iff",
    "C71_execute_exceptions"
   ],
   "note": ""
  },
  {
   "property": "C72",
   "status": "proved",
   "theorems": [
    "C72_regression_arguments",
    "C72_classification_arguments",
    "C72_regression_options",
    "C72_classification_options",
    "C72_needs_an_estimator",
    "C72_separate_estimators",
    "C72_separate_classifiers",
    "C72_default_estimator_refuted",
    "C72_shared_estimator",
    "C72_shared_classifier",
    "C72_only_fits_matter",
    "C72_only_classifier_fits_matter",
    "C72_n_closest_points_attribute",
    "C72_never_fitted_regression",
    "C72_never_fitted_classification"
   ],
   "note": ""
  },
  {
   "property": "C73",
   "status": "proved",
   "theorems": [
    "C73_score",
    "C73_training_score",
    "C73_cross_validation",
    "C73_wrong_dimension",
    "C73_leave_one_out",
    "C73_few_data",
    "C73_candidates",
    "C73_best",
    "C73_history",
    "C73_returns"
   ],
   "note": ""
  },
  {
   "property": "C74",
   "status": "proved",
   "theorems": [
    "C74_execute_returns",
    "C74_moving_window_refuted",
    "C74_universal_vectorized_returns_iff",
    "C74_universal_loop_returns_iff",
    "C74_constructor",
    "C74_update",
    "C74_least_squares",
    "C74_universal_least_squares"
   ],
   "note": ""
  },
  {
   "property": "C75",
   "status": "proved",
   "theorems": [
    "C75_affine_change_of_values",
    "C75_amplified_variogram",
    "C75_change_of_unit",
    "C75_translation",
    "C75_isometry",
    "C75_order_of_data_refuted"
   ],
   "note": ""
  },
  {
   "property": "C76",
   "status": "proved",
   "theorems": [
    "C76_anisotropy_is_a_change_of_coordinates",
    "C76_variogram",
    "C76_statistics",
    "C76_universal_anisotropy_is_a_change_of_coordinates"
   ],
   "note": ""
  },
  {
   "property": "C77",
   "status": "proved",
   "theorems": [
    "C77_line_between",
    "C77_line_outside",
    "C77_two_data",
    "C77_within_data_range_refuted"
   ],
   "note": ""
  },
  {
   "property": "C78",
   "status": "proved",
   "theorems": [
    "C78_pure_nugget",
    "C78_far_from_the_data",
    "C78_beyond_the_range"
   ],
   "note": ""
  },
  {
   "property": "C79",
   "status": "proved",
   "theorems": [
    "C79_continuous",
    "C79_builtin_models",
    "C79_everywhere_refuted",
    "C79_continuous_moving_window",
    "C79_moving_window_refuted",
    "C79_universal_location_and_drift",
    "C79_universal_continuous"
   ],
   "note": ""
  },
  {
   "property": "C80",
   "status": "proved",
   "theorems": [
    "C80_zero_lag",
    "C80_monotone",
    "C80_nugget",
    "C80_sill",
    "C80_spherical_refuted",
    "C80_backends",
    "C80_gaussian_refuted"
   ],
   "note": ""
  },
  {
   "property": "C81",
   "status": "proved",
   "theorems": [
    "C81_coincident",
    "C81_order_and_error",
    "C81_factor_three",
    "C81_lattice",
    "C81_distinct_refuted",
    "C81_system",
    "C81_system_without_exact_values"
   ],
   "note": ""
  },
  {
   "property": "C82",
   "status": "proved",
   "theorems": [
    "C82_only_the_span_matters",
    "C82_linear_as_functional",
    "C82_linear_as_specified",
    "C82_units_of_covariates",
    "C82_redundant_terms_raise",
    "C82_constant_drift_raises",
    "C82_redundant_terms_ignored"
   ],
   "note": ""
  },
  {
   "property": "C83",
   "status": "proved",
   "theorems": [
    "C83_one_more_datum",
    "C83_predicted_datum_changes_nothing",
    "C83_constructor",
    "C83_prediction_surface",
    "C83_universal_one_more_datum",
    "C83_universal_same_configuration",
    "C83_universal_surface"
   ],
   "note": ""
  },
  {
   "property": "C84",
   "status": "proved",
   "theorems": [
    "C84_same_model",
    "C84_constructor_and_execute",
    "C84_statistics",
    "C84_nan_never_raises",
    "C84_nan_reaches_its_estimates",
    "C84_one_nan_spoils_all_estimates",
    "C84_nan_outside_the_window",
    "C84_universal_same_model",
    "C84_universal_nan_never_raises",
    "C84_universal_nan_values",
    "C84_universal_constructor_and_execute"
   ],
   "note": ""
  },
  {
   "property": "C85",
   "status": "proved",
   "theorems": [
    "C85_anisotropy_warning",
    "C85_anisotropy_is_ignored",
    "C85_update_warning",
    "C85_update_is_ignored",
    "C85_unneeded_drift_arrays",
    "C85_unneeded_arrays_are_ignored",
    "C85_angle_is_reported_refuted",
    "C85_asc_warnings",
    "C85_asc_warned_exactly_when_not_read_back",
    "C85_no_warning_means_read_back_refuted"
   ],
   "note": ""
  }
 ]
}