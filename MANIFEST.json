{
 "claims": [
  {
   "property": "C01",
   "status": "proved",
   "theorems": [
    "C01_censoring_partition",
    "C01_censoring_bad_sizes"
   ],
   "note": ""
  },
  {
   "property": "C02",
   "status": "proved",
   "theorems": [
    "C02_fate_of_an_observation",
    "C02_partition_refuted_nan",
    "C02_partition_refuted_crossed",
    "C02_one_sided_extremes"
   ],
   "note": "finding: NaN signals are lost, crossed thresholds duplicate observations"
  },
  {
   "property": "C24",
   "status": "proved",
   "theorems": [
    "C24_setQuantile_effect",
    "C24_history_invariant",
    "C24_range_refuted_by_nan"
   ],
   "note": "finding: a NaN quantile is accepted"
  },
  {
   "property": "C27",
   "status": "proved",
   "theorems": [
    "C27_setDefectSizes_effect",
    "C27_sort_is_sorted_permutation",
    "C27_history_invariant",
    "C27_history_shows_last_argument",
    "C27_run_needs_consistent_number",
    "C27_run_outcome",
    "C27_atomicity_refuted",
    "C27_rejected_sizes_can_be_run",
    "C27_range_check_refuted_by_nan"
   ],
   "note": "finding: a rejected call still replaces the sizes"
  },
  {
   "property": "C45",
   "status": "proved",
   "theorems": [
    "C45_band_setters",
    "C45_band_history",
    "C45_empty_band_refuted",
    "C45_classifier_type"
   ],
   "note": "finding: setters accept pmin > pmax"
  },
  {
   "property": "C59",
   "status": "proved",
   "theorems": [
    "C59_never_fails",
    "C59_zero_iterations",
    "C59_bar_shape",
    "C59_bar_is_the_rounded_progress",
    "C59_last_call_prints_done",
    "C59_progress_monotone",
    "C59_number_of_lines",
    "C59_at_most_nFlush_lines_refuted",
    "C59_done_with_overshoot_refuted"
   ],
   "note": ""
  },
  {
   "property": "C39",
   "status": "proved",
   "theorems": [
    "C39_exact_growth",
    "C39_output_doe"
   ],
   "note": ""
  },
  {
   "property": "C40",
   "status": "proved",
   "theorems": [
    "C40_number_of_evaluations",
    "C40_five_quantiles",
    "C40_duplicates_refuted"
   ],
   "note": "finding: more evaluations than points requested, and duplicated points"
  },
  {
   "property": "C41",
   "status": "proved",
   "theorems": [
    "C41_widened_band_is_empty",
    "C41_widened_band_values",
    "C41_step_fails_iff_band_empty",
    "C41_run_outcome",
    "C41_failed_run_is_not_restartable"
   ],
   "note": "finding: the fallback band is empty, so the run raises IndexError and the object cannot be run again"
  },
  {
   "property": "C42",
   "status": "proved",
   "theorems": [
    "C42_corrected_probability_range",
    "C42_corrected_probability_monotone",
    "C42_matrix_columns_sum_to_one",
    "C42_single_class_prediction_stops_the_run"
   ],
   "note": "the matrix columns and the monotonicity are proved in exact arithmetic; range and NaN behaviour in binary64"
  },
  {
   "property": "C43",
   "status": "proved",
   "theorems": [
    "C43_matrix_averages_latest_classifier",
    "C43_prediction_threshold",
    "C43_average_over_history_refuted"
   ],
   "note": "finding: late binding of the corrected classifiers"
  },
  {
   "property": "C10",
   "status": "proved",
   "theorems": [
    "C10_hundredths",
    "C10_any_level",
    "C10_labels_ordered",
    "C10_labels_distinct_refuted"
   ],
   "note": "finding: 0.29, 0.57, 0.58 are labelled one too low"
  },
  {
   "property": "C06",
   "status": "proved",
   "theorems": [
    "C06_analysis_uses_given_lambda",
    "C06_pod_ignores_given_lambda",
    "C06_run_keeps_the_rest",
    "C06_given_lambda_refuted",
    "C06_pod_from_analysis"
   ],
   "note": "finding: PODs ignore the given lambda"
  },
  {
   "property": "C07",
   "status": "proved",
   "theorems": [
    "C07_accepted_shapes",
    "C07_first_violation",
    "C07_analysis_accepts_same_data",
    "C07_chaos_hitmiss_accept_one_input"
   ],
   "note": "finding: chaos and hit-miss classes do not check the input dimension"
  },
  {
   "property": "C08",
   "status": "proved",
   "theorems": [
    "C08_with_an_analysis",
    "C08_without_analysis",
    "C08_refusals",
    "C08_boxCox_silently_overridden",
    "C08_missing_detection_refuted",
    "C08_analysis_never_binomial"
   ],
   "note": "findings: missing detection accepted, boxCox overridden"
  },
  {
   "property": "C15",
   "status": "proved",
   "theorems": [
    "C15_between_extreme_simulations",
    "C15_decreases_with_confidence",
    "C15_order_of_simulations_irrelevant",
    "C15_in_unit_interval",
    "C15_order_statistic",
    "C15_per_defect_values"
   ],
   "note": "quantile algorithm of OpenTURNS modelled over the reals"
  },
  {
   "property": "C16",
   "status": "proved",
   "theorems": [
    "C16_evaluation_in_every_history",
    "C16_succeeds_iff",
    "C16_binomial_independent_of_size"
   ],
   "note": "finding: IndexError after increasing the size"
  },
  {
   "property": "C62",
   "status": "proved",
   "theorems": [
    "C62_dispatch",
    "C62_before_run",
    "C62_confidence_curve_same_kind"
   ],
   "note": ""
  },
  {
   "property": "C28",
   "status": "proved",
   "theorems": [
    "C28_affine_between_neighbours",
    "C28_exact_at_defect_sizes",
    "C28_domain",
    "C28_monotone",
    "C28_range",
    "C28_curves_in_unit_interval",
    "C28_values_at_the_defect_sizes",
    "C28_no_curve_before_run",
    "C28_confidence_curves_ordered"
   ],
   "note": ""
  },
  {
   "property": "C25",
   "status": "proved",
   "theorems": [
    "C25_nodes_on_the_curve",
    "C25_range",
    "C25_domain",
    "C25_monotone",
    "C25_sizes_are_the_crossings",
    "C25_crossing_lines_refuted"
   ],
   "note": "root solver contract as hypothesis, satisfied by a bisection"
  },
  {
   "property": "C61",
   "status": "proved",
   "theorems": [
    "C61_accepted_intervals",
    "C61_metamodel_drawing_never_leaves_the_domain",
    "C61_quantile_drawing_never_leaves_the_domain",
    "C61_negative_defects_refuted"
   ],
   "note": ""
  },
  {
   "property": "C65",
   "status": "proved",
   "theorems": [
    "C65_pod_curve_keeps_the_sizes_of_the_run",
    "C65_confidence_curve_mixes_sizes",
    "C65_lower_bound_refuted"
   ],
   "note": "finding"
  },
  {
   "property": "C09",
   "status": "proved",
   "theorems": [
    "C09_detection_size",
    "C09_detection_size_with_confidence",
    "C09_confidence_size_not_smaller",
    "C09_monotone_in_level",
    "C09_interpolated_curves_are_continuous"
   ],
   "note": "root solver contract as hypothesis, satisfied by a bisection"
  },
  {
   "property": "C26",
   "status": "proved",
   "theorems": [
    "C26_detection_size",
    "C26_detection_size_with_confidence",
    "C26_size_at_a_quantile_level",
    "C26_flat_end",
    "C26_above_the_largest_level",
    "C26_solves_the_curve_refuted",
    "C26_confidence_sizes",
    "C26_curve_decreases_with_confidence",
    "C26_monotone_confidence_curve_refuted"
   ],
   "note": "findings: flat end, negative bootstrap sizes, detection size does not solve the POD curve"
  },
  {
   "property": "C03",
   "status": "proved",
   "theorems": [
    "C03_comparisons_preserved",
    "C03_domain",
    "C03_decisions_unchanged",
    "C03_analysis_thresholds"
   ],
   "note": "real arithmetic"
  },
  {
   "property": "C04",
   "status": "proved",
   "theorems": [
    "C04_shift",
    "C04_transformation_succeeds_iff",
    "C04_zero_minimum_refuted",
    "C04_threshold_above_minimum",
    "C04_noise_threshold"
   ],
   "note": "findings: smallest signal 0, non positive noise threshold"
  },
  {
   "property": "C05",
   "status": "proved",
   "theorems": [
    "C05_output_doe_round_trip",
    "C05_additions_succeed_iff"
   ],
   "note": "real arithmetic"
  },
  {
   "property": "C11",
   "status": "proved",
   "theorems": [
    "C11_least_squares_minimum",
    "C11_residuals_centred_and_orthogonal",
    "C11_stderr"
   ],
   "note": "real arithmetic"
  },
  {
   "property": "C12",
   "status": "proved",
   "theorems": [
    "C12_proportion",
    "C12_monotone",
    "C12_limits"
   ],
   "note": "real arithmetic"
  },
  {
   "property": "C13",
   "status": "proved",
   "theorems": [
    "C13_count",
    "C13_defining_equation",
    "C13_monotone",
    "C13_all_detected",
    "C13_none_detected",
    "C13_lower_bound_refuted"
   ],
   "note": "Beta quantile contract satisfied by a proved instance; findings at k=n and k=0"
  },
  {
   "property": "C14",
   "status": "proved",
   "theorems": [
    "C14_prediction_law",
    "C14_half_at_the_threshold",
    "C14_monotonicity",
    "C14_monotone_in_size_refuted",
    "C14_simulated_curve"
   ],
   "note": "finding: not monotone in general"
  },
  {
   "property": "C17",
   "status": "proved",
   "theorems": [
    "C17_start_search",
    "C17_raises_iff",
    "C17_hundredth_draw_refuted"
   ],
   "note": "finding: success on the last permitted draw is reported as failure"
  },
  {
   "property": "C18",
   "status": "proved",
   "theorems": [
    "C18_minus_log_likelihood",
    "C18_missing_threshold",
    "C18_order_irrelevant",
    "C18_uncensored_minimum",
    "C18_deviation_differs"
   ],
   "note": "real arithmetic"
  },
  {
   "property": "C19",
   "status": "proved",
   "theorems": [
    "C19_R2_range",
    "C19_R2_affine_invariant",
    "C19_R2_negative_for_other_lines_refuted",
    "C19_durbin_watson_range",
    "C19_harrison_mccabe_range",
    "C19_harrison_mccabe_break_ratio",
    "C19_harrison_mccabe_pvalue",
    "C19_harrison_mccabe",
    "C19_breusch_pagan_range",
    "C19_breusch_pagan_pvalue"
   ],
   "note": "finding: R2 negative for other lines"
  },
  {
   "property": "C20",
   "status": "proved",
   "theorems": [
    "C20_two_sided",
    "C20_one_sided",
    "C20_one_sided_refuted"
   ],
   "note": "finding: one-sided p-values"
  },
  {
   "property": "C23",
   "status": "proved",
   "theorems": [
    "C23_B_is_AX",
    "C23_statistic_is_a_quadratic_form",
    "C23_traces",
    "C23_mean_and_variance"
   ],
   "note": "one input dimension, the only one otpod uses"
  },
  {
   "property": "C66",
   "status": "proved",
   "theorems": [
    "C66_zero_mean_test_vacuous",
    "C66_zero_mean_test"
   ],
   "note": "finding: vacuous on least squares residuals"
  },
  {
   "property": "C35",
   "status": "proved",
   "theorems": [
    "C35_chaos_pod",
    "C35_fraction",
    "C35_current_pod",
    "C35_hitmiss_pod",
    "C35_stale_number",
    "C35_sobol_sample"
   ],
   "note": "finding: stale number of sizes"
  },
  {
   "property": "C36",
   "status": "proved",
   "theorems": [
    "C36_run_adds_the_requested_points",
    "C36_runs_accumulate",
    "C36_first_minimiser",
    "C36_initial_minimum"
   ],
   "note": ""
  },
  {
   "property": "C37",
   "status": "proved",
   "theorems": [
    "C37_first_iteration",
    "C37_stale_index_reused",
    "C37_too_many_points",
    "C37_candidates_run_out",
    "C37_sizes_differ_only_after_a_model_failure",
    "C37_unselected_point_added_refuted"
   ],
   "note": "findings"
  },
  {
   "property": "C38",
   "status": "proved",
   "theorems": [
    "C38_predictions_of_the_initial_model",
    "C38_final_pod",
    "C38_quality_threshold",
    "C38_current_model_refuted"
   ],
   "note": "finding: the prediction is always that of the initial DOE"
  },
  {
   "property": "C49",
   "status": "proved",
   "theorems": [
    "C49_sample_is_pointwise",
    "C49_point_uses_the_pod_sizes",
    "C49_other_sizes_refuted"
   ],
   "note": "finding"
  },
  {
   "property": "C46",
   "status": "proved",
   "theorems": [
    "C46_alignment",
    "C46_removed_sizes_stay_removed",
    "C46_plot_after_setDefectSizes_refuted"
   ],
   "note": "finding: stale plot after setDefectSizes"
  },
  {
   "property": "C47",
   "status": "proved",
   "theorems": [
    "C47_raises_iff_all_negative",
    "C47_some_negative",
    "C47_zero_variance",
    "C47_documented_tolerance_refuted"
   ],
   "note": "finding"
  },
  {
   "property": "C48",
   "status": "proved",
   "theorems": [
    "C48_variance_of_the_first_size",
    "C48_agrees_without_normalisation",
    "C48_normalised_inputs_refuted",
    "C48_variance_refuted"
   ],
   "note": "findings; real arithmetic"
  },
  {
   "property": "C44",
   "status": "proved",
   "theorems": [
    "C44_labels",
    "C44_curves_in_unit_interval",
    "C44_corrected_curves_in_unit_interval"
   ],
   "note": "curves in real arithmetic"
  },
  {
   "property": "C29",
   "status": "proved",
   "theorems": [
    "C29_components",
    "C29_component_moments",
    "C29_decreasing_in_threshold",
    "C29_expected_pod_in_unit_interval",
    "C29_simulated_values",
    "C29_values_in_unit_interval_refuted"
   ],
   "note": "finding: simulated POD values leave [0,1]"
  },
  {
   "property": "C30",
   "status": "proved",
   "theorems": [
    "C30_entries",
    "C30_monotone_in_the_draw",
    "C30_zero_draw_is_the_mean",
    "C30_pod_increases_with_the_draw",
    "C30_realisations_never_cross",
    "C30_extreme_draws",
    "C30_negative_variance_never_detected"
   ],
   "note": ""
  },
  {
   "property": "C31",
   "status": "proved",
   "theorems": [
    "C31_loo_is_exact",
    "C31_loo_defined",
    "C31_q2"
   ],
   "note": "numpy.linalg.inv is specified by its defining equations"
  },
  {
   "property": "C32",
   "status": "proved",
   "theorems": [
    "C32_loo_is_exact",
    "C32_loo_defined",
    "C32_q2",
    "C32_q2_at_most_r2",
    "C32_q2_above_r2_refuted"
   ],
   "note": "the chaos coefficients are assumed to be the least squares ones on the reduced basis (the default projection strategy)"
  },
  {
   "property": "C33",
   "status": "proved",
   "theorems": [
    "C33_normalised_columns",
    "C33_order_preserved",
    "C33_injective",
    "C33_units_do_not_matter"
   ],
   "note": ""
  },
  {
   "property": "C50",
   "status": "proved",
   "theorems": [
    "C50_shape",
    "C50_antisymmetric",
    "C50_increasing",
    "C50_decreasing_in_the_reference",
    "C50_unbounded"
   ],
   "note": ""
  },
  {
   "property": "C51",
   "status": "proved",
   "theorems": [
    "C51_no_perturbation",
    "C51_ratio_of_one_parameter",
    "C51_non_strict_operator_refuted",
    "C51_no_failure_point_left_refuted",
    "C51_no_failure_point"
   ],
   "note": "finding: failure sample of non strict events"
  },
  {
   "property": "C52",
   "status": "proved",
   "theorems": [
    "C52_variances_nonnegative",
    "C52_interval_exists",
    "C52_interval_nested",
    "C52_rounded_variance"
   ],
   "note": "over the reals; the normal quantile is an oracle assumed non negative and non decreasing"
  },
  {
   "property": "C53",
   "status": "proved",
   "theorems": [
    "C53_vector",
    "C53_matrix",
    "C53_rejected",
    "C53_one_column_per_parameter",
    "C53_three_dimensional_accepted_refuted"
   ],
   "note": "finding: three dimensional arrays accepted"
  },
  {
   "property": "C55",
   "status": "proved",
   "theorems": [
    "C55_mean_conversion",
    "C55_variance_rejected",
    "C55_variance_conversion",
    "C55_documented_variance_refuted"
   ],
   "note": "finding: documentation of PLIVariance"
  },
  {
   "property": "C67",
   "status": "proved",
   "theorems": [
    "C67_vector",
    "C67_hellinger",
    "C67_matrix_never_drawn",
    "C67_integer_deltas_drawn_at_zero",
    "C67_hellinger_value"
   ],
   "note": "finding: matrix and integer deltas"
  },
  {
   "property": "C54",
   "status": "proved",
   "theorems": [
    "C54_normal_is_a_shift",
    "C54_normal_moments",
    "C54_tilt",
    "C54_tilt_exists_iff_mean_inside",
    "C54_uniform_requested_mean",
    "C54_scaled_uniform_reachable"
   ],
   "note": "finding: requested means outside of the support are not rejected"
  },
  {
   "property": "C56",
   "status": "proved",
   "theorems": [
    "C56_kept",
    "C56_getIndices",
    "C56_constructor",
    "C56_setDefectSizes",
    "C56_setDefectSizes_empty",
    "C56_run",
    "C56_run_raise",
    "C56_run_raise",
    "C56_run_iff",
    "C56_getPLIObject",
    "C56_before_run",
    "C56_stale_after_setDefectSizes",
    "C56_rejected_sizes_break_run",
    "C56_placeholder_refuted"
   ],
   "note": "findings: stale placeholder; rejected sizes are kept"
  },
  {
   "property": "C68",
   "status": "proved",
   "theorems": [
    "C68_normal",
    "C68_uniform_density",
    "C68_derivatives",
    "C68_at_most_one_lambda",
    "C68_requested_variance",
    "C68_uniform_requested",
    "C68_other_law"
   ],
   "note": "finding: variances of three times the original one or more are unreachable and not rejected"
  },
  {
   "property": "C21",
   "status": "proved",
   "theorems": [
    "C21_figures",
    "C21_rows",
    "C21_coefficients",
    "C21_saved_file_reads_back",
    "C21_report_reads_back"
   ],
   "note": ""
  },
  {
   "property": "C22",
   "status": "proved",
   "theorems": [
    "C22_warnings",
    "C22_getters",
    "C22_descriptions",
    "C22_coefficient_getters",
    "C22_r2_counts_as_a_test_refuted"
   ],
   "note": "finding: R2 counts as a test"
  },
  {
   "property": "C57",
   "status": "proved",
   "theorems": [
    "C57_flags",
    "C57_setMethodActive",
    "C57_getters",
    "C57_written_flag",
    "C57_run_outcome",
    "C57_after_run",
    "C57_returned_object_was_run_refuted",
    "C57_dictionary_checks_refuted"
   ],
   "note": "findings: object of a failed run; dictionary returned by reference"
  },
  {
   "property": "C58",
   "status": "proved",
   "theorems": [
    "C58_report",
    "C58_rows",
    "C58_report_fails",
    "C58_late_activation"
   ],
   "note": "finding: methods activated after the run"
  },
  {
   "property": "C69",
   "status": "proved",
   "theorems": [
    "C69_saved_file"
   ],
   "note": "finding: missing new line"
  },
  {
   "property": "C70",
   "status": "proved",
   "theorems": [
    "C70_graphs",
    "C70_before_run",
    "C70_default_level_fails",
    "C70_given_lambda_fails",
    "C70_given_lambda_exception",
    "C70_default_level_exception"
   ],
   "note": "findings: default level and given Box-Cox parameter"
  },
  {
   "property": "C34",
   "status": "proved",
   "theorems": [
    "C34_kriging_run",
    "C34_kriging_given_result_is_never_used",
    "C34_chaos_run",
    "C34_chaos_given_result_alone_fails",
    "C34_chaos_given_result_is_used",
    "C34_chaos_result_given_after_run"
   ],
   "note": "findings; external computations are arbitrary functions"
  },
  {
   "property": "C63",
   "status": "proved",
   "theorems": [
    "C63_kriging_readers",
    "C63_kriging_Q2",
    "C63_kriging_after_run",
    "C63_kriging_result_given_after_run",
    "C63_adaptive_never_works",
    "C63_adaptive_before_run",
    "C63_adaptive_after_run",
    "C63_chaos_analyses"
   ],
   "note": "findings; external computations are arbitrary functions"
  },
  {
   "property": "C71",
   "status": "proved",
   "theorems": [
    "C71_kriging_defaults",
    "C71_kriging_setters",
    "C71_kriging_default_distribution_follows_sizes_refuted",
    "C71_chaos_accessors",
    "C71_chaos_setters",
    "C71_chaos_before_run",
    "C71_chaos_first_strategy",
    "C71_chaos_strategy_is_kept",
    "C71_chaos_degree_has_no_effect",
    "C71_chaos_strategy_follows_degree_refuted"
   ],
   "note": "finding: the degree has no effect after the first run"
  },
  {
   "property": "C72",
   "status": "proved",
   "theorems": [
    "C72_parameter_after_run",
    "C72_disabled",
    "C72_before_run",
    "C72_parameter_of_the_data_refuted"
   ],
   "note": "The regressions, the Box-Cox optimisation and the bootstrap draws are external functions; POD._run is modelled with the order of its writes."
  },
  {
   "property": "C73",
   "status": "proved",
   "theorems": [
    "C73_confidence_curve_after_run",
    "C73_setSimulationSize",
    "C73_below_the_pod_curve_refuted"
   ],
   "note": "Sizes found by the regressions are external; curves and quantiles are modelled on real numbers."
  },
  {
   "property": "C64",
   "status": "proved",
   "theorems": [
    "C64_instance_access",
    "C64_class_access",
    "C64_no_parent",
    "C64_same_documentation_in_a_chain",
    "C64_keepingArgs",
    "C64_binding",
    "C64_otpod_methods",
    "C64_mixin_access_fails",
    "C64_false_instance_refuted",
    "C64_same_documentation_refuted"
   ],
   "note": "Attributes named with an underscore are plain values; the decorator package is modelled as binding the arguments to the signature."
  },
  {
   "property": "C60",
   "status": "proved",
   "theorems": [
    "C60_linspace",
    "C60_default_sizes_accepted",
    "C60_tiny_range_refuted"
   ],
   "note": "Bit-exact binary64 arithmetic; numpy.linspace is modelled from its published source."
  },
  {
   "property": "C74",
   "status": "proved",
   "theorems": [
    "C74_delta_method"
   ],
   "note": "Real arithmetic."
  },
  {
   "property": "C75",
   "status": "proved",
   "theorems": [
    "C75_number_of_detections",
    "C75_all_detected",
    "C75_detection_lost_refuted"
   ],
   "note": "Bit-exact product and truncation; the proportion itself is computed by OpenTURNS and is an argument."
  },
  {
   "property": "C76",
   "status": "proved",
   "theorems": [
    "C76_line",
    "C76_text",
    "C76_report",
    "C76_distribution_not_aligned"
   ],
   "note": "Printed form of a number is a function argument."
  },
  {
   "property": "C77",
   "status": "proved",
   "theorems": [
    "C77_text",
    "C77_fails",
    "C77_before_run",
    "C77_warning_without_method"
   ],
   "note": "The report of the analysis printed beside is C76."
  },
  {
   "property": "C78",
   "status": "proved",
   "theorems": [
    "C78_setters",
    "C78_setSizes",
    "C78_settings",
    "C78_result",
    "C78_drawn",
    "C78_title_refuted"
   ],
   "note": "The POD function on the design and the sensitivity algorithms are external; exception messages are not modelled."
  },
  {
   "property": "C79",
   "status": "proved",
   "theorems": [
    "C79_setters",
    "C79_settings",
    "C79_run_uses_the_settings",
    "C79_drawIndices",
    "C79_drawIndices_stale",
    "C79_drawIndices_before_run",
    "C79_contour",
    "C79_contour_decreasing",
    "C79_contour_stale",
    "C79_default_scaling",
    "C79_default_scaling_refuted"
   ],
   "note": "matplotlib's contour places rows and columns evenly over the extent (external, stated in the model)."
  },
  {
   "property": "C80",
   "status": "proved",
   "theorems": [
    "C80_fit",
    "C80_binomial",
    "C80_units",
    "C80_order",
    "C80_repeated"
   ],
   "note": "Real numbers; constant defects (pseudo inverse of statsmodels) are excluded where the least squares line is used."
  },
  {
   "property": "C81",
   "status": "proved",
   "theorems": [
    "C81_collection",
    "C81_curves",
    "C81_run_fails",
    "C81_after_failure",
    "C81_mean_curve_survives",
    "C81_empirical",
    "C81_gauss",
    "C81_gauss_points",
    "C81_box_cox_sample_refuted",
    "C81_returned_function",
    "C81_returned_function_refuted"
   ],
   "note": "BootstrapExperiment is external: its draws are arbitrary indices of rows."
  },
  {
   "property": "C82",
   "status": "proved",
   "theorems": [
    "C82_profile",
    "C82_choice",
    "C82_units",
    "C82_fails",
    "C82_start",
    "C82_versions"
   ],
   "note": "Real arithmetic. The optimiser TNC and the factory of OpenTURNS are external. The class is used nowhere else in the package."
  },
  {
   "property": "C83",
   "status": "proved",
   "theorems": [
    "C83_analysis",
    "C83_residuals",
    "C83_same_as_POD",
    "C83_idle_thresholds",
    "C83_graphs",
    "C83_distributions",
    "C83_ylabel",
    "C83_ylabel_refuted"
   ],
   "note": "Real arithmetic; optimisers, distribution factory and simulated tests are arbitrary functions. Figures are their titles, labels, points and lines."
  },
  {
   "property": "C84",
   "status": "proved",
   "theorems": [
    "C84_content",
    "C84_raises",
    "C84_markers",
    "C84_marker_outside_refuted",
    "C84_wider_interval_refuted"
   ],
   "note": "Real arithmetic; a figure is the list of its elements. The quantile regression markers are covered by C26."
  },
  {
   "property": "C85",
   "status": "proved",
   "theorems": [
    "C85_validation",
    "C85_validation_refuted",
    "C85_chaos",
    "C85_quantile_line",
    "C85_density"
   ],
   "note": "Real arithmetic. That the statsmodels fit minimises its criterion is a hypothesis of the share statement only; an instance is proved."
  },
  {
   "property": "C86",
   "status": "proved",
   "theorems": [
    "C86_signal_off",
    "C86_signal_graphs",
    "C86_signal_graph_fails",
    "C86_nothing_lost",
    "C86_optimisation_fails",
    "C86_hitmiss_off",
    "C86_hitmiss_graphs",
    "C86_hitmiss_missing_directory",
    "C86_hitmiss_graph_fails"
   ],
   "note": "The disk is a list of directories and a list of (directory, iteration) files; writing fails only because the directory is missing. Drawing is an oracle that may raise."
  },
  {
   "property": "C87",
   "status": "proved",
   "theorems": [
    "C87_settings",
    "C87_parameters"
   ],
   "note": "Contracts of the Sobol sequence (points of the unit cube) and of the local optimiser (stays in the bounds, not worse than its start) are hypotheses; instances are proved."
  },
  {
   "property": "C88",
   "status": "proved",
   "theorems": [
    "C88_outcome",
    "C88_history",
    "C88_distribution",
    "C88_confusion_matrix"
   ],
   "note": "Arguments are modelled by their Python type."
  },
  {
   "property": "C89",
   "status": "proved",
   "theorems": [
    "C89_law",
    "C89_values",
    "C89_estimator",
    "C89_residuals",
    "C89_stderr_overestimates"
   ],
   "note": "Normal and chi-square laws enter through mean, covariance and one positive realisation."
  },
  {
   "property": "C90",
   "status": "proved",
   "theorems": [
    "C90_range",
    "C90_before_run",
    "C90_units",
    "C90_level",
    "C90_reported_refuted"
   ],
   "note": "The statsmodels fit is an oracle assumed to minimise its criterion; prsquared is modelled by its formula."
  },
  {
   "property": "C91",
   "status": "proved",
   "theorems": [
    "C91_same_data",
    "C91_report",
    "C91_given_lambda",
    "C91_reported_R2_refuted"
   ],
   "note": "Optimisers are oracles, the same for the analysis and the objects."
  },
  {
   "property": "C92",
   "status": "proved",
   "theorems": [
    "C92_kriging_unbiased",
    "C92_chaos_unbiased",
    "C92_hitmiss_unbiased",
    "C92_defect_law_unused",
    "C92_one_parameter",
    "C92_independent",
    "C92_dependence_refuted",
    "C92_conditional_refuted"
   ],
   "note": "A distribution is represented by its expectation, a positive normalised linear functional; measurability is left out. Rounding is not modelled."
  },
  {
   "property": "C93",
   "status": "proved",
   "theorems": [
    "C93_unbiased",
    "C93_variance",
    "C93_support_refuted"
   ],
   "note": "The integral of the densities is any linear functional; the independence of the parameters is checked by PLI.__init__."
  },
  {
   "property": "C94",
   "status": "proved",
   "theorems": [
    "C94_curves",
    "C94_share_of_points",
    "C94_deciding_classifier",
    "C94_confidence_bound_refuted"
   ],
   "note": "The classifier is any function; quantile is the documented interpolated order statistic of OpenTURNS."
  },
  {
   "property": "C95",
   "status": "proved",
   "theorems": [
    "C95_succeeds_iff",
    "C95_sizes",
    "C95_increasing_line",
    "C95_one_resample_refuted"
   ],
   "note": "The root solver is exact (Brent's is within tolerances); the regression is any function of the prepared sample."
  },
  {
   "property": "C96",
   "status": "proved",
   "theorems": [
    "C96_prepared",
    "C96_units",
    "C96_likelihood",
    "C96_units_refuted"
   ],
   "note": "Real numbers. That BoxCoxFactory follows the units is a hypothesis on the external optimiser."
  },
  {
   "property": "C97",
   "status": "proved",
   "theorems": [
    "C97_lower",
    "C97_upper",
    "C97_four_decimals",
    "C97_sizes_between",
    "C97_complaint",
    "C97_refused_refuted",
    "C97_tight_refuted",
    "C97_reversed_refuted"
   ],
   "note": "Binary64. The conversion of the named number to four decimals by format is exact decimal rounding: the theorems give the four-decimal number nearest to the value."
  },
  {
   "property": "C98",
   "status": "proved",
   "theorems": [
    "C98_arguments",
    "C98_arguments_kept",
    "C98_signal_live",
    "C98_boxcox_copy",
    "C98_boxcox_copy_is_private",
    "C98_signal_contents",
    "C98_hitmiss_snapshot",
    "C98_hitmiss_run",
    "C98_hitmiss_stuck",
    "C98_read_before_run_refuted",
    "C98_erase_refuted",
    "C98_stuck_refuted"
   ],
   "note": "A memory of objects with addresses; what an enrichment adds is an argument here (C36, C39)."
  },
  {
   "property": "C99",
   "status": "proved",
   "theorems": [
    "C99_values",
    "C99_read_stays",
    "C99_shared",
    "C99_own_sizes_of_the_pod",
    "C99_own_sizes_of_an_object",
    "C99_arguments_kept",
    "C99_curve",
    "C99_indices_live",
    "C99_indices_frozen",
    "C99_run_writes",
    "C99_new_table",
    "C99_foreign_change_refuted",
    "C99_kept_indices_refuted"
   ],
   "note": "A memory of arrays with addresses; what the runs compute is an argument (C46, C56)."
  },
  {
   "property": "C100",
   "status": "proved",
   "theorems": [
    "C100_run",
    "C100_succeeds",
    "C100_unperturbed",
    "C100_interval",
    "C100_history_free",
    "C100_raise",
    "C100_nothing_computed",
    "C100_before_run",
    "C100_shape",
    "C100_setGaussKronrod",
    "C100_algorithm_unused",
    "C100_original_delta",
    "C100_construct",
    "C100_deltas",
    "C100_half_filled_refuted"
   ],
   "note": "Entries are written one after the other as in the code; fsolve, the optimiser and the history are arguments; exact arithmetic, None for what is not finite."
  },
  {
   "property": "C101",
   "status": "proved",
   "theorems": [
    "C101_run",
    "C101_raise",
    "C101_no_empty_sample",
    "C101_normal_parameters",
    "C101_zero_deltas",
    "C101_dependent_parameters"
   ],
   "note": "Composition of the models of _pli_pod.py (C56, C79) and _pli.py (C50-C55, C68, C100); the points drawn, fsolve and the optimiser are arguments; exact arithmetic."
  },
  {
   "property": "C102",
   "status": "proved",
   "theorems": [
    "C102_own_arrays_are_copied",
    "C102_returned_array_is_live",
    "C102_accepted_levels_are_detached",
    "C102_levels_stay_valid",
    "C102_default_levels_are_valid",
    "C102_curves",
    "C102_returned_functions_are_frozen",
    "C102_before_run",
    "C102_failed_run",
    "C102_levels_always_valid_refuted"
   ],
   "note": "Memory of arrays with explicit sharing; what the regressions find is an argument (C73, C95). C102_levels_always_valid_refuted is the finding."
  },
  {
   "property": "C103",
   "status": "proved",
   "theorems": [
    "C103_fit",
    "C103_linear",
    "C103_binomial_confidence",
    "C103_binomial_confidence_refuted",
    "C103_quantile_regression",
    "C103_quantile_regression_confidence",
    "C103_detection_size",
    "C103_interpolated_curves",
    "C103_chaos_node",
    "C103_kriging_expected",
    "C103_kriging_node_refuted"
   ],
   "note": "Monotone distribution functions, non negative simulated deviations, an exact root solver and rising regression lines are hypotheses. The two _refuted theorems are the findings."
  },
  {
   "property": "C104",
   "status": "proved",
   "theorems": [
    "C104_first_values",
    "C104_refused",
    "C104_returned_list_is_live",
    "C104_given_list_is_live",
    "C104_type_resets",
    "C104_at_first",
    "C104_refused_type",
    "C104_run",
    "C104_run_outcome",
    "C104_sound_client_never_fails",
    "C104_setters_commute_refuted",
    "C104_repaired_refuted"
   ],
   "note": "Memory of parameter lists with explicit sharing; a change in place at any depth is a change of the content. Fits, physical model and graphs are in C39-C44 and C86. The _refuted theorems are the findings."
  },
  {
   "property": "C105",
   "status": "proved",
   "theorems": [
    "C105_kriging_prediction",
    "C105_kriging_variance",
    "C105_loo",
    "C105_Q2",
    "C105_kriging_pod",
    "C105_chaos_fit",
    "C105_chaos_errors",
    "C105_chaos_stderr",
    "C105_chaos_pod",
    "C105_origin_refuted"
   ],
   "note": "Real numbers, without Box-Cox (C96 for the transformation). Prediction and conditional variance of OpenTURNS are given by the kriging equations; that the optimiser gives the amplitude multiplied by c squared is a hypothesis. C105_origin_refuted is the finding."
  },
  {
   "property": "C106",
   "status": "proved",
   "theorems": [
    "C106_lines",
    "C106_run",
    "C106_bootstrap",
    "C106_bootstrap_found",
    "C106_curves",
    "C106_defect_origin_refuted"
   ],
   "note": "Real numbers, without Box-Cox (C96 for the transformation). statsmodels is assumed to minimise its criterion exactly. Both bootstrap searches start at the same lowest number, hence the two theorems on the rows. C106_defect_origin_refuted is the finding."
  }
 ]
}