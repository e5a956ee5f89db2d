# Formal model of otpod: design

Target: `openturns/otpod`, Python sources in `/repo/otpod`.  Prover: Coq 8.16.1.
Everything lives in `rocq/theories` (logical name `Verif`).

## 1. Layers

* `Base.v` – Python outcomes (`Ok v` / `Raise e`), boolean masks, sorting, list facts.
* `Float64.v` – IEEE binary64 as Coq's computable `spec_float` (stdlib `SpecFloat`, prec 53, emax 1024):
  comparisons exactly as Python/numpy (`NaN` compares false), rounding multiplication where rounding matters.
* `<Topic>Model.v` – executable (or, for analytic code, real-valued) transcription of the code, branch by branch;
  each definition cites file and lines.
* `<Topic>Proofs.v` – lemmas.
* `<Topic>Props.v` – the property theorems only: statement, `exact`, `Print Assumptions`, and a non-vacuity `Example`.

## 2. Numbers

* Decision logic (filters, setters, candidate selection, loops, tables, labels) uses computable data:
  `spec_float` for doubles, `Z`/`nat` for counts, lists for samples.
* Analytic code (Box-Cox, regression, POD curves, quantiles, interpolation, PLI formulas, densities) uses Coq's real
  numbers `R`.  Simplification: rounding, overflow and underflow are not modelled there; NaN/inf appear explicitly
  (an `option` or a `Raise`) where the code divides by something that can be zero.
* External libraries (OpenTURNS, numpy, scipy, scikit-learn, statsmodels) are function arguments ("oracles").
  What is assumed of them is written as hypotheses of the theorem and, each time, a concrete instance is shown to
  satisfy the hypotheses.  No axioms are declared.

## 3. Plan per property

| id | modelled | proof idea |
|----|----------|-----------|
| C01, C02 | `filterCensoredData` on `spec_float` | mask algebra + total order of non-NaN floats; characterise membership index-wise; counter-examples by computation |
| C03, C04 | Box-Cox map, shift, thresholds on R | strict monotonicity of exp/ln based map, min of a list |
| C05 | Box-Cox inverse, DOE growth | analytic round trip + induction on the loop |
| C06 | boxCox argument handling in POD/Analysis, with the optimiser as oracle | case analysis; refutation for POD classes |
| C07, C08 | constructors as decision functions | equivalences; exhaustive over presence flags |
| C09 | `_computeDetectionSize` with a root solver oracle | solver contract, monotone curve argument |
| C10 | `int(p*100)` in binary64 | finite sweep k=1..99 by computation |
| C11 | OLS closed form | sums over lists, strict convexity |
| C12 | binomial POD | counting lemmas |
| C13 | binomial CL with Beta quantile oracle | Beta cdf as binomial tail polynomial, monotone in p |
| C14 | Gauss POD | algebra on prediction variance, sign of derivative replaced by direct inequality |
| C15 | empirical quantile | sorting lemmas, piecewise linear in the level |
| C16 | state machine (simulation size, collection) | invariant by induction over histories |
| C17 | retry loop with draw stream | induction on iteration count |
| C18 | `MLE` | ln inequality; permutation of sums |
| C19, C20, C23 | test statistics | inequalities on sums; symmetric cdf |
| C21, C22 | result tables, warnings, getters | computation on symbolic values |
| C24 | `setQuantile` state machine | invariant |
| C25, C28 | `interp1d` + node lists | sorted nodes, convex combination |
| C26 | QR detection size | solver contract |
| C27, C60 | `setDefectSizes` state machines, linspace | invariant + refutation after failed call |
| C29, C30 | kriging simulation | counting lemmas |
| C31, C32 | LOO identities | finite sums over R |
| C33 | normalisation | column statistics |
| C34, C63 | attribute presence / unbound variable machine | reachability over histories |
| C35 | reshape/merge | index arithmetic |
| C36–C38 | adaptive signal loop with oracles | induction over iterations |
| C39–C45 | hit-miss loop with oracles | induction over iterations; closure environment |
| C46–C49 | Sobol functions | list alignment, broadcasting |
| C50–C55 | PLI | algebra, Cauchy–Schwarz, Coquelicot integrals |
| C56 | PLIBase bookkeeping | state machine |
| C57, C58 | PODSummary | state machine |
| C59 | progress bar | Z arithmetic |
| C61, C62, C64 | draw guards, dispatch, decorator | decision functions |
| C65 | nodes captured by the run versus sizes set later | case analysis on the object state |
| C66 | zero mean test | algebra on the statistic, symmetric cdf |
| C67 | abscissas of the PLI graphs | list alignment |
| C68 | variance-perturbed density | Coquelicot integrals, tilting |
| C69, C70 | saved file, graph dispatch of the summary | string splitting, decision functions |
| C71 | defaults chosen by `run` | state machine over attribute presence |
| C72, C73 | QuantileRegressionPOD object | history specification, induction over histories |
| C74 | delta method of the PLI standard deviation | algebra, covariance matrix quadratic form |
| C75 | `np.sum` count in binary64 | Flocq, exact integers below 2^53 |
| C76, C77 | printed texts | string lemmas: lines, cells, separators |
| C78 | SobolIndices object | history specification, induction over histories |
| C79 | PLIMean, PLIVariance objects and graphs | state machine, history functions |
| C80 | linear model POD end to end | composition of filter, Box-Cox, OLS; affine and permutation invariance |
| C81 | bootstrap collection, failures of run | loop characterisation, witnesses |
| C82 | Box-Cox likelihood with trend | least squares minimum, ln u <= u - 1 |
| C83 | the linear analysis as a whole | composition of the stages, witnesses |
| C84 | content of the POD graph | case analysis, detection size theorems, witnesses |
| C85 | validation, model and density graphs | case analysis, perturbation of the intercept, witnesses |
| C86 | graphs and failures during the enrichment | induction on the iterations |
| C87 | search of the covariance parameters | multistart induction under contracts of the sequence and of the local search |
| C88 | settings of the POD classes | history induction, run induction |
| C89 | law of the simulated chaos coefficients and bias of the error variance | matrix algebra, second moments |
| C90 | pseudo R2 of the quantile regression and the level it belongs to | optimality, witnesses |
| C91 | data behind the objects of PODSummary and the R2 it reports | composition of C80 and C83, witness |
| C92 | laws of the points, unbiasedness | linear functionals, induction on the sample size, finite witnesses |
| C93 | perturbed probability | linear functionals, second moment of a sample mean |
| C94 | hit-miss confidence curve | composition of layout, quantile and interpolation models, counting in sorted lists |
| C95 | success of the quantile regression run | sign changes of affine functions, induction over the bootstrap loop |
| C96 | change of units with Box-Cox and censored data | scaling law of the Box-Cox transform, affine equivariance of the regression |
| C97 | bounds named in the message of setDefectSizes | rounding of products and quotients in binary64 |
| C98 | aliasing of the designs | memory with addresses, invariant over histories, noninterference |
| C99 | aliasing of defect sizes and indices | memory with addresses, refinement to a machine without addresses, privacy invariant |
| C100 | tables of the PLI objects | sequential model of the loops, induction on a sorted list of turns |
| C101 | PLIMean and PLIVariance end to end | the outer object run with the inner model as its callee |
| C102 | sharing of the levels of QuantileRegressionPOD | arrays in a memory, addresses held by object and client |
| C103 | two runs compared: a higher threshold, no higher curve | model of C80, C13, C25, C26, C28, C92 |
| C104 | classifiers of AdaptiveHitMissPOD, sharing of their parameters | lists in a memory, addresses held by object and client |
| C105 | units of the signals in kriging and chaos PODs | kriging equations, leave-one-out formulas, simulation step over R |
| C106 | units of signals and defects in the quantile regression POD | criterion, lines, sizes and interpolated curves over R |

## 4. What cannot be expressed

Numerical accuracy of optimisers, random number quality, plots' appearance, running time, and the internals of
OpenTURNS / scipy / scikit-learn: only their contracts appear as hypotheses.

## 5. Trusted base

**Kernel and libraries.**  The Coq 8.16.1 kernel (including `vm_compute`), the Coq standard library, and the proved
(axiom-free beyond the standard library) parts of Flocq and Coquelicot that are imported.  No axiom, parameter,
section-less variable, admitted proof, functor, module type or plugin is declared in `rocq/theories`, and no kernel
check is switched off.

**Axioms.**  `Print Assumptions` stands after the theorems in the `*Props.v` files.  Only four axioms ever appear, all
of the Coq standard library; they come with its construction of the real numbers:

* `ClassicalDedekindReals.sig_forall_dec`
* `ClassicalDedekindReals.sig_not_dec`
* `FunctionalExtensionality.functional_extensionality_dep`
* `Classical_Prop.classic`

The theorems of the manifest, grouped by what `Print Assumptions` lists:

* **Closed under the global context** (238 theorems):
  `C01_censoring_partition`, `C01_censoring_bad_sizes`, `C02_fate_of_an_observation`, `C02_partition_refuted_nan`,
  `C02_partition_refuted_crossed`, `C02_one_sided_extremes`, `C24_setQuantile_effect`, `C24_history_invariant`,
  `C24_range_refuted_by_nan`, `C27_setDefectSizes_effect`, `C27_sort_is_sorted_permutation`,
  `C27_history_invariant`, `C27_history_shows_last_argument`, `C27_run_needs_consistent_number`, `C27_run_outcome`,
  `C27_atomicity_refuted`, `C27_rejected_sizes_can_be_run`, `C27_range_check_refuted_by_nan`, `C45_band_setters`,
  `C45_band_history`, `C45_empty_band_refuted`, `C45_classifier_type`, `C59_never_fails`, `C59_zero_iterations`,
  `C59_bar_shape`, `C59_bar_is_the_rounded_progress`, `C59_last_call_prints_done`, `C59_progress_monotone`,
  `C59_number_of_lines`, `C59_at_most_nFlush_lines_refuted`, `C59_done_with_overshoot_refuted`, `C39_exact_growth`,
  `C39_output_doe`, `C40_number_of_evaluations`, `C40_five_quantiles`, `C40_duplicates_refuted`,
  `C41_widened_band_is_empty`, `C41_step_fails_iff_band_empty`, `C41_run_outcome`,
  `C41_failed_run_is_not_restartable`, `C42_corrected_probability_range`,
  `C42_single_class_prediction_stops_the_run`, `C43_matrix_averages_latest_classifier`,
  `C43_average_over_history_refuted`, `C10_hundredths`, `C10_labels_distinct_refuted`,
  `C06_analysis_uses_given_lambda`, `C06_pod_ignores_given_lambda`, `C06_run_keeps_the_rest`,
  `C06_given_lambda_refuted`, `C06_pod_from_analysis`, `C07_accepted_shapes`, `C07_first_violation`,
  `C07_analysis_accepts_same_data`, `C07_chaos_hitmiss_accept_one_input`, `C08_with_an_analysis`,
  `C08_without_analysis`, `C08_refusals`, `C08_boxCox_silently_overridden`, `C08_missing_detection_refuted`,
  `C08_analysis_never_binomial`, `C62_dispatch`, `C62_before_run`, `C17_start_search`, `C17_raises_iff`,
  `C17_hundredth_draw_refuted`, `C35_chaos_pod`, `C35_fraction`, `C35_current_pod`, `C35_hitmiss_pod`,
  `C35_stale_number`, `C35_sobol_sample`, `C36_run_adds_the_requested_points`, `C36_runs_accumulate`,
  `C36_first_minimiser`, `C37_first_iteration`, `C37_stale_index_reused`, `C37_too_many_points`,
  `C37_candidates_run_out`, `C37_sizes_differ_only_after_a_model_failure`, `C37_unselected_point_added_refuted`,
  `C38_predictions_of_the_initial_model`, `C38_final_pod`, `C38_current_model_refuted`, `C49_sample_is_pointwise`,
  `C49_point_uses_the_pod_sizes`, `C49_other_sizes_refuted`, `C46_alignment`, `C46_removed_sizes_stay_removed`,
  `C46_plot_after_setDefectSizes_refuted`, `C44_labels`, `C56_getIndices`, `C56_setDefectSizes_empty`,
  `C56_before_run`, `C21_figures`, `C21_rows`, `C21_coefficients`, `C21_saved_file_reads_back`,
  `C21_report_reads_back`, `C22_warnings`, `C22_getters`, `C22_descriptions`, `C22_coefficient_getters`,
  `C22_r2_counts_as_a_test_refuted`, `C57_flags`, `C57_setMethodActive`, `C57_getters`, `C57_written_flag`,
  `C57_run_outcome`, `C57_after_run`, `C57_returned_object_was_run_refuted`, `C57_dictionary_checks_refuted`,
  `C58_report`, `C58_rows`, `C58_report_fails`, `C58_late_activation`, `C69_saved_file`, `C70_graphs`,
  `C70_before_run`, `C70_default_level_fails`, `C70_given_lambda_fails`, `C70_given_lambda_exception`,
  `C70_default_level_exception`, `C34_kriging_run`, `C34_kriging_given_result_is_never_used`, `C34_chaos_run`,
  `C34_chaos_given_result_alone_fails`, `C34_chaos_given_result_is_used`, `C34_chaos_result_given_after_run`,
  `C63_kriging_readers`, `C63_kriging_Q2`, `C63_kriging_after_run`, `C63_kriging_result_given_after_run`,
  `C63_adaptive_never_works`, `C63_adaptive_before_run`, `C63_adaptive_after_run`, `C63_chaos_analyses`,
  `C71_kriging_defaults`, `C71_kriging_setters`, `C71_kriging_default_distribution_follows_sizes_refuted`,
  `C71_chaos_accessors`, `C71_chaos_setters`, `C71_chaos_before_run`, `C71_chaos_first_strategy`,
  `C71_chaos_strategy_is_kept`, `C71_chaos_degree_has_no_effect`, `C71_chaos_strategy_follows_degree_refuted`,
  `C64_instance_access`, `C64_class_access`, `C64_no_parent`, `C64_same_documentation_in_a_chain`,
  `C64_keepingArgs`, `C64_binding`, `C64_otpod_methods`, `C64_mixin_access_fails`, `C64_false_instance_refuted`,
  `C64_same_documentation_refuted`, `C60_tiny_range_refuted`, `C75_detection_lost_refuted`, `C76_line`, `C76_text`,
  `C76_report`, `C76_distribution_not_aligned`, `C77_text`, `C77_fails`, `C77_before_run`,
  `C77_warning_without_method`, `C78_setters`, `C78_setSizes`, `C78_settings`, `C78_result`, `C78_drawn`,
  `C78_title_refuted`, `C79_drawIndices_before_run`, `C82_versions`, `C83_ylabel`, `C86_signal_off`,
  `C86_signal_graphs`, `C86_signal_graph_fails`, `C86_nothing_lost`, `C86_optimisation_fails`, `C86_hitmiss_off`,
  `C86_hitmiss_graphs`, `C86_hitmiss_missing_directory`, `C86_hitmiss_graph_fails`, `C88_outcome`, `C88_history`,
  `C88_distribution`, `C88_confusion_matrix`, `C90_before_run`, `C97_complaint`, `C98_arguments`,
  `C98_arguments_kept`, `C98_signal_live`, `C98_boxcox_copy`, `C98_boxcox_copy_is_private`, `C98_signal_contents`,
  `C98_hitmiss_snapshot`, `C98_hitmiss_run`, `C98_hitmiss_stuck`, `C98_read_before_run_refuted`,
  `C98_erase_refuted`, `C98_stuck_refuted`, `C99_values`, `C99_read_stays`, `C99_shared`,
  `C99_own_sizes_of_the_pod`, `C99_own_sizes_of_an_object`, `C99_arguments_kept`, `C99_curve`, `C99_indices_live`,
  `C99_indices_frozen`, `C99_run_writes`, `C99_new_table`, `C99_foreign_change_refuted`, `C99_kept_indices_refuted`,
  `C102_own_arrays_are_copied`, `C102_returned_array_is_live`, `C102_accepted_levels_are_detached`,
  `C102_levels_stay_valid`, `C102_default_levels_are_valid`, `C102_curves`, `C102_returned_functions_are_frozen`,
  `C102_before_run`, `C102_failed_run`, `C102_levels_always_valid_refuted`, `C104_first_values`, `C104_refused`,
  `C104_returned_list_is_live`, `C104_given_list_is_live`, `C104_type_resets`, `C104_at_first`, `C104_refused_type`,
  `C104_run`, `C104_run_outcome`, `C104_sound_client_never_fails`, `C104_setters_commute_refuted`,
  `C104_repaired_refuted`.
* **`sig_forall_dec`** (13 theorems):
  `C53_vector`, `C53_matrix`, `C53_rejected`, `C53_one_column_per_parameter`,
  `C53_three_dimensional_accepted_refuted`, `C56_constructor`, `C72_disabled`, `C92_defect_law_unused`,
  `C92_one_parameter`, `C92_independent`, `C100_before_run`, `C100_shape`, `C100_setGaussKronrod`.
* **`functional_extensionality_dep`, `sig_forall_dec`** (175 theorems):
  `C41_widened_band_values`, `C42_corrected_probability_monotone`, `C42_matrix_columns_sum_to_one`,
  `C43_prediction_threshold`, `C15_between_extreme_simulations`, `C15_decreases_with_confidence`,
  `C15_order_of_simulations_irrelevant`, `C15_in_unit_interval`, `C15_order_statistic`, `C15_per_defect_values`,
  `C16_evaluation_in_every_history`, `C16_succeeds_iff`, `C16_binomial_independent_of_size`,
  `C62_confidence_curve_same_kind`, `C28_affine_between_neighbours`, `C28_exact_at_defect_sizes`, `C28_domain`,
  `C28_monotone`, `C28_range`, `C28_curves_in_unit_interval`, `C28_values_at_the_defect_sizes`,
  `C28_no_curve_before_run`, `C28_confidence_curves_ordered`, `C25_nodes_on_the_curve`, `C25_range`, `C25_domain`,
  `C25_monotone`, `C25_sizes_are_the_crossings`, `C25_crossing_lines_refuted`, `C61_accepted_intervals`,
  `C61_metamodel_drawing_never_leaves_the_domain`, `C61_quantile_drawing_never_leaves_the_domain`,
  `C61_negative_defects_refuted`, `C65_pod_curve_keeps_the_sizes_of_the_run`, `C65_confidence_curve_mixes_sizes`,
  `C65_lower_bound_refuted`, `C09_detection_size`, `C09_detection_size_with_confidence`,
  `C09_confidence_size_not_smaller`, `C09_monotone_in_level`, `C09_interpolated_curves_are_continuous`,
  `C26_detection_size`, `C26_detection_size_with_confidence`, `C26_size_at_a_quantile_level`, `C26_flat_end`,
  `C26_above_the_largest_level`, `C26_confidence_sizes`, `C26_curve_decreases_with_confidence`,
  `C26_monotone_confidence_curve_refuted`, `C04_shift`, `C04_threshold_above_minimum`, `C11_least_squares_minimum`,
  `C11_residuals_centred_and_orthogonal`, `C12_proportion`, `C12_monotone`, `C12_limits`, `C14_simulated_curve`,
  `C19_R2_range`, `C19_R2_affine_invariant`, `C19_R2_negative_for_other_lines_refuted`, `C19_durbin_watson_range`,
  `C19_harrison_mccabe_range`, `C19_harrison_mccabe_break_ratio`, `C19_harrison_mccabe_pvalue`,
  `C19_harrison_mccabe`, `C19_breusch_pagan_range`, `C19_breusch_pagan_pvalue`, `C23_B_is_AX`,
  `C23_statistic_is_a_quadratic_form`, `C23_traces`, `C23_mean_and_variance`, `C38_quality_threshold`,
  `C44_curves_in_unit_interval`, `C44_corrected_curves_in_unit_interval`, `C31_loo_is_exact`, `C31_loo_defined`,
  `C31_q2`, `C32_loo_is_exact`, `C32_loo_defined`, `C32_q2`, `C32_q2_at_most_r2`, `C32_q2_above_r2_refuted`,
  `C50_shape`, `C50_antisymmetric`, `C50_increasing`, `C50_decreasing_in_the_reference`, `C50_unbounded`,
  `C51_ratio_of_one_parameter`, `C52_variances_nonnegative`, `C52_interval_nested`, `C55_mean_conversion`,
  `C55_variance_rejected`, `C55_variance_conversion`, `C55_documented_variance_refuted`, `C67_vector`,
  `C67_hellinger`, `C67_matrix_never_drawn`, `C67_integer_deltas_drawn_at_zero`, `C56_kept`, `C56_setDefectSizes`,
  `C56_run`, `C56_run_raise`, `C56_run_iff`, `C56_getPLIObject`, `C56_stale_after_setDefectSizes`,
  `C56_rejected_sizes_break_run`, `C56_placeholder_refuted`, `C72_parameter_after_run`, `C72_before_run`,
  `C72_parameter_of_the_data_refuted`, `C73_confidence_curve_after_run`, `C73_setSimulationSize`,
  `C73_below_the_pod_curve_refuted`, `C79_setters`, `C79_settings`, `C79_run_uses_the_settings`, `C79_drawIndices`,
  `C79_drawIndices_stale`, `C79_contour`, `C79_contour_decreasing`, `C79_contour_stale`, `C79_default_scaling`,
  `C79_default_scaling_refuted`, `C84_content`, `C84_raises`, `C84_markers`, `C85_validation`,
  `C85_validation_refuted`, `C85_chaos`, `C85_quantile_line`, `C85_density`, `C87_settings`, `C87_parameters`,
  `C89_values`, `C89_estimator`, `C89_residuals`, `C90_range`, `C90_units`, `C90_level`, `C90_reported_refuted`,
  `C92_chaos_unbiased`, `C92_hitmiss_unbiased`, `C92_conditional_refuted`, `C93_unbiased`, `C93_variance`,
  `C93_support_refuted`, `C94_curves`, `C94_share_of_points`, `C94_deciding_classifier`,
  `C94_confidence_bound_refuted`, `C95_succeeds_iff`, `C95_sizes`, `C95_increasing_line`,
  `C95_one_resample_refuted`, `C100_original_delta`, `C101_no_empty_sample`, `C103_quantile_regression`,
  `C103_quantile_regression_confidence`, `C103_detection_size`, `C103_interpolated_curves`, `C103_chaos_node`,
  `C105_kriging_prediction`, `C105_kriging_variance`, `C105_loo`, `C105_Q2`, `C105_chaos_fit`, `C105_chaos_errors`,
  `C105_chaos_pod`, `C105_origin_refuted`, `C106_lines`, `C106_run`, `C106_bootstrap`, `C106_bootstrap_found`,
  `C106_curves`, `C106_defect_origin_refuted`.
* **`functional_extensionality_dep`, `sig_forall_dec`, `sig_not_dec`** (56 theorems):
  `C26_solves_the_curve_refuted`, `C11_stderr`, `C14_prediction_law`, `C14_half_at_the_threshold`,
  `C18_deviation_differs`, `C20_two_sided`, `C20_one_sided`, `C20_one_sided_refuted`, `C66_zero_mean_test_vacuous`,
  `C66_zero_mean_test`, `C47_raises_iff_all_negative`, `C47_some_negative`, `C47_zero_variance`,
  `C47_documented_tolerance_refuted`, `C48_variance_of_the_first_size`, `C48_agrees_without_normalisation`,
  `C48_normalised_inputs_refuted`, `C48_variance_refuted`, `C29_components`, `C29_component_moments`,
  `C29_decreasing_in_threshold`, `C29_expected_pod_in_unit_interval`, `C29_simulated_values`,
  `C29_values_in_unit_interval_refuted`, `C30_entries`, `C30_monotone_in_the_draw`, `C30_zero_draw_is_the_mean`,
  `C30_pod_increases_with_the_draw`, `C30_realisations_never_cross`, `C30_extreme_draws`,
  `C30_negative_variance_never_detected`, `C33_normalised_columns`, `C33_order_preserved`, `C33_injective`,
  `C33_units_do_not_matter`, `C51_no_perturbation`, `C51_non_strict_operator_refuted`,
  `C51_no_failure_point_left_refuted`, `C51_no_failure_point`, `C52_interval_exists`, `C52_rounded_variance`,
  `C67_hellinger_value`, `C54_normal_is_a_shift`, `C74_delta_method`, `C84_marker_outside_refuted`,
  `C84_wider_interval_refuted`, `C89_law`, `C89_stderr_overestimates`, `C92_kriging_unbiased`,
  `C92_dependence_refuted`, `C100_construct`, `C100_deltas`, `C103_kriging_expected`, `C103_kriging_node_refuted`,
  `C105_kriging_pod`, `C105_chaos_stderr`.
* **`classic`, `functional_extensionality_dep`, `sig_forall_dec`, `sig_not_dec`** (101 theorems):
  `C10_any_level`, `C10_labels_ordered`, `C03_comparisons_preserved`, `C03_domain`, `C03_decisions_unchanged`,
  `C03_analysis_thresholds`, `C04_transformation_succeeds_iff`, `C04_zero_minimum_refuted`, `C04_noise_threshold`,
  `C05_output_doe_round_trip`, `C05_additions_succeed_iff`, `C13_count`, `C13_defining_equation`, `C13_monotone`,
  `C13_all_detected`, `C13_none_detected`, `C13_lower_bound_refuted`, `C14_monotonicity`,
  `C14_monotone_in_size_refuted`, `C18_minus_log_likelihood`, `C18_missing_threshold`, `C18_order_irrelevant`,
  `C18_uncensored_minimum`, `C36_initial_minimum`, `C54_normal_moments`, `C54_tilt`,
  `C54_tilt_exists_iff_mean_inside`, `C54_uniform_requested_mean`, `C54_scaled_uniform_reachable`, `C68_normal`,
  `C68_uniform_density`, `C68_derivatives`, `C68_at_most_one_lambda`, `C68_requested_variance`,
  `C68_uniform_requested`, `C68_other_law`, `C60_linspace`, `C60_default_sizes_accepted`,
  `C75_number_of_detections`, `C75_all_detected`, `C80_fit`, `C80_binomial`, `C80_units`, `C80_order`,
  `C80_repeated`, `C81_collection`, `C81_curves`, `C81_run_fails`, `C81_after_failure`, `C81_mean_curve_survives`,
  `C81_empirical`, `C81_gauss`, `C81_gauss_points`, `C81_box_cox_sample_refuted`, `C81_returned_function`,
  `C81_returned_function_refuted`, `C82_profile`, `C82_choice`, `C82_units`, `C82_fails`, `C82_start`,
  `C83_analysis`, `C83_residuals`, `C83_same_as_POD`, `C83_idle_thresholds`, `C83_graphs`, `C83_distributions`,
  `C83_ylabel_refuted`, `C91_same_data`, `C91_report`, `C91_given_lambda`, `C91_reported_R2_refuted`,
  `C96_prepared`, `C96_units`, `C96_likelihood`, `C96_units_refuted`, `C97_lower`, `C97_upper`, `C97_four_decimals`,
  `C97_sizes_between`, `C97_refused_refuted`, `C97_tight_refuted`, `C97_reversed_refuted`, `C100_run`,
  `C100_succeeds`, `C100_unperturbed`, `C100_interval`, `C100_history_free`, `C100_raise`, `C100_nothing_computed`,
  `C100_algorithm_unused`, `C100_half_filled_refuted`, `C101_run`, `C101_raise`, `C101_normal_parameters`,
  `C101_zero_deltas`, `C101_dependent_parameters`, `C103_fit`, `C103_linear`, `C103_binomial_confidence`,
  `C103_binomial_confidence_refuted`.

**Fidelity.**  That the Gallina definitions transcribe the Python is checked by reading only; each definition cites the
file and lines it follows, and its comment says where it simplifies.  The simplifications that run through the model:

* Analytic code is over `R`: rounding, overflow and underflow are not modelled there.  The counting and comparison
  code, the default defect sizes, the label arithmetic and the number of detections are in binary64.
* OpenTURNS, numpy, scipy, scikit-learn and statsmodels calls are oracles (function arguments or fields of a `world`
  record carried by the operation that makes the call).  Hypotheses on them are part of each theorem.
* Python objects are records; aliasing between two otpod objects is modelled only where the code depends on it
  (`PODSummary`, `SobolIndices` and `PLIBase` hold the POD object they were given).
* Random draws are arbitrary inputs: a theorem about a run holds for every stream of draws.
* matplotlib figures are not modelled: draw methods are modelled up to the data, labels and exceptions they produce.

**Which code is modelled.**  Every function of `/repo/otpod`, with the model files that transcribe it (all or part of
it); `not modelled` otherwise.  The functions marked `not modelled` are one-line accessors
that return or store one attribute, and small wrappers around an OpenTURNS call; no theorem is about them.


`__init__.py`

| function | lines | model |
|---|---|---|
| `_initializing` | 10-13 | not modelled |

`_adaptive_hitmiss_pod.py`

| function | lines | model |
|---|---|---|
| `AdaptiveHitMissPOD.__init__` | 83-175 | AccessModel, AliasModel, ClassifierModel, CtorModel, EnrichModel, HitMissModel, LinspaceModel, SettersModel |
| `AdaptiveHitMissPOD.run` | 177-414 | AccessModel, AliasModel, ClassifierModel, EnrichModel, HitMissModel, HmConfModel, InterpModel, LawModel |
| `AdaptiveHitMissPOD.getPODModel` | 416-426 | EnrichModel, InterpModel |
| `AdaptiveHitMissPOD.getPODCLModel` | 428-451 | EnrichModel, InterpModel |
| `AdaptiveHitMissPOD.computeDetectionSize` | 455-473 | DetectionModel, DocModel, DrawModel |
| `AdaptiveHitMissPOD.drawPOD` | 477-541 | DocModel, DrawModel, InterpModel |
| `AdaptiveHitMissPOD.getConfusionMatrix` | 543-550 | AccessModel |
| `AdaptiveHitMissPOD.getPMin` | 552-556 | not modelled |
| `AdaptiveHitMissPOD.setPMin` | 558-565 | SettersModel |
| `AdaptiveHitMissPOD.getPMax` | 567-571 | SettersModel |
| `AdaptiveHitMissPOD.setPMax` | 573-580 | SettersModel |
| `AdaptiveHitMissPOD.getClassifierType` | 582-586 | ClassifierModel |
| `AdaptiveHitMissPOD.setClassifierType` | 588-599 | ClassifierModel, SettersModel |
| `AdaptiveHitMissPOD.getClassifierParameters` | 601-605 | ClassifierModel, SettersModel |
| `AdaptiveHitMissPOD.setClassifierParameters` | 607-611 | ClassifierModel, SettersModel |
| `AdaptiveHitMissPOD.getOutputDOE` | 613-621 | AccessModel, AliasModel |
| `AdaptiveHitMissPOD.getInputDOE` | 623-627 | AliasModel |
| `AdaptiveHitMissPOD.getCandidateSize` | 629-638 | AccessModel |
| `AdaptiveHitMissPOD.setCandidateSize` | 640-649 | AccessModel |
| `AdaptiveHitMissPOD.getGraphActive` | 651-661 | AccessModel |
| `AdaptiveHitMissPOD.setGraphActive` | 663-690 | AccessModel |
| `AdaptiveHitMissPOD.getSamplingSize` | 692-702 | AccessModel |
| `AdaptiveHitMissPOD.setSamplingSize` | 704-714 | AccessModel |
| `AdaptiveHitMissPOD.getDefectSizes` | 716-726 | not modelled |
| `AdaptiveHitMissPOD.setDefectSizes` | 728-749 | AliasModel, BoundsModel, SettersModel |
| `AdaptiveHitMissPOD.setDistribution` | 751-762 | AccessModel |
| `AdaptiveHitMissPOD.getDistribution` | 764-777 | AccessModel |
| `AdaptiveHitMissPOD.getClassifier` | 779-791 | AccessModel |
| `AdaptiveHitMissPOD.getVerbose` | 793-802 | AccessModel |
| `AdaptiveHitMissPOD.setVerbose` | 804-816 | AccessModel |
| `AdaptiveHitMissPOD._mergeDefectInX` | 818-828 | LayoutModel |
| `AdaptiveHitMissPOD._computePOD` | 830-846 | HmConfModel, LawModel, LayoutModel |

`_adaptive_signal_pod.py`

| function | lines | model |
|---|---|---|
| `AdaptiveSignalPOD.__init__` | 92-169 | AccessModel, AdaptiveModel, AliasModel, BoxCoxModel, CtorModel, KrigAttrModel, LinspaceModel, ShareModel |
| `AdaptiveSignalPOD.run` | 171-451 | AccessModel, AdaptiveModel, AliasModel, BoxCoxModel, EnrichModel, InterpModel, KrigAttrModel, LawModel, LayoutModel, ShareModel, ThetaModel |
| `AdaptiveSignalPOD.getOutputDOE` | 453-461 | AliasModel, BoxCoxModel |
| `AdaptiveSignalPOD.getInputDOE` | 463-467 | AliasModel |
| `AdaptiveSignalPOD.getCandidateSize` | 469-478 | AccessModel |
| `AdaptiveSignalPOD.setCandidateSize` | 480-489 | AccessModel |
| `AdaptiveSignalPOD.getGraphActive` | 491-501 | AccessModel |
| `AdaptiveSignalPOD.setGraphActive` | 503-530 | AccessModel, ThetaModel |
| `AdaptiveSignalPOD._mergeDefectInX` | 532-542 | LayoutModel |

`_decorator.py`

| function | lines | model |
|---|---|---|
| `DocInherit.__init__` | 37-39 | DocModel |
| `DocInherit.__get__` | 41-45 | DocModel |
| `DocInherit.get_with_inst` | 47-55 | DocModel |
| `DocInherit.get_no_inst` | 57-68 | DocModel |
| `DocInherit.use_parent_doc` | 70-74 | DocModel |
| `keepingArgs` | 77-84 | DocModel |

`_kriging_pod.py`

| function | lines | model |
|---|---|---|
| `KrigingPOD.__init__` | 72-140 | AccessModel, CtorModel, InterpModel, KrigAttrModel, LinspaceModel, ShareModel |
| `KrigingPOD.run` | 142-218 | InterpModel, KrigAttrModel, LawModel, SettersModel, ShareModel, ThetaModel |
| `KrigingPOD.setKrigingResult` | 222-238 | KrigAttrModel |

`_kriging_tools.py`

| function | lines | model |
|---|---|---|
| `KrigingBase.__init__` | 17-18 | not modelled |
| `KrigingBase.getPODModel` | 20-30 | InterpModel, KrigAttrModel |
| `KrigingBase.getPODCLModel` | 32-55 | InterpModel, QuantileModel |
| `KrigingBase.computeDetectionSize` | 59-77 | DetectionModel, DocModel, DrawModel |
| `KrigingBase.drawPOD` | 81-145 | DocModel, DrawModel, InterpModel |
| `KrigingBase.drawValidationGraph` | 149-160 | DocModel, KrigAttrModel |
| `KrigingBase.getQ2` | 162-171 | KrigAttrModel |
| `KrigingBase.getKrigingResult` | 173-185 | KrigAttrModel |
| `KrigingBase.getSamplingSize` | 187-197 | AccessModel |
| `KrigingBase.setSamplingSize` | 199-209 | AccessModel |
| `KrigingBase.getInitialStartSize` | 211-221 | AccessModel |
| `KrigingBase.setInitialStartSize` | 223-233 | AccessModel, AdaptiveModel |
| `KrigingBase.getDefectSizes` | 235-245 | AdaptiveModel, ShareModel |
| `KrigingBase.setDefectSizes` | 247-268 | AdaptiveModel, AliasModel, BoundsModel, InterpModel, KrigAttrModel, SettersModel, ShareModel |
| `KrigingBase.setDistribution` | 270-281 | AccessModel, KrigAttrModel |
| `KrigingBase.getDistribution` | 283-296 | AdaptiveModel, KrigAttrModel |
| `KrigingBase.setBasis` | 298-311 | AdaptiveModel, KrigAttrModel |
| `KrigingBase.getBasis` | 313-326 | AdaptiveModel, KrigAttrModel |
| `KrigingBase.setCovarianceModel` | 328-341 | AdaptiveModel, KrigAttrModel |
| `KrigingBase.getCovarianceModel` | 343-356 | AdaptiveModel, KrigAttrModel |
| `KrigingBase.getVerbose` | 358-367 | AccessModel, AdaptiveModel |
| `KrigingBase.setVerbose` | 369-381 | AccessModel, AdaptiveModel |
| `KrigingBase._buildKrigingAlgo` | 383-420 | AdaptiveModel, KrigAttrModel, KrigSimModel, ThetaModel |
| `KrigingBase._computePODSamplePerDefect` | 422-468 | AdaptiveModel, KrigSimModel, LawModel |
| `KrigingBase._randomVectorSampling` | 470-490 | KrigSimModel |
| `KrigingBase._estimKrigingTheta` | 492-518 | ThetaModel |
| `KrigingBase._computeLOO` | 520-554 | KrigAttrModel, LooModel |
| `KrigingBase._computeQ2` | 556-565 | KrigAttrModel, LooModel |

`_math_tools.py`

| function | lines | model |
|---|---|---|
| `ReducedLogLikelihood.__init__` | 26-35 | BoxCoxLikModel, LinObjModel |
| `ReducedLogLikelihood._exec` | 37-48 | BoxCoxLikModel, LinObjModel |
| `LinearBoxCoxFactory.__init__` | 57-60 | BoxCoxLikModel, LinObjModel |
| `LinearBoxCoxFactory.build` | 62-82 | BoxCoxLikModel, LinObjModel |
| `computeBoxCox` | 87-109 | BoxCoxModel, BoxCoxLikModel, CtorModel, LinObjModel, LinPodModel |
| `computeR2` | 114-120 | CtorModel, LinObjModel, LooModel, RegModel |
| `computeZeroMeanTest` | 125-132 | CtorModel, LinObjModel, RegModel |
| `computeBreuschPaganTest` | 137-151 | CtorModel, LinObjModel, RegModel |
| `computeHarrisonMcCabeTest` | 156-174 | CtorModel, LinObjModel, RegModel |
| `computeDurbinWatsonTest` | 179-227 | CtorModel, DwModel, LinObjModel, RegModel |
| `DataHandling.filterCensoredData` | 239-298 | AliasModel, FilterModel, LinObjModel |
| `MLE` | 304-339 | LinPodModel |
| `computeLinearParametersCensored` | 342-383 | LinObjModel, LinPodModel |

`_pli.py`

| function | lines | model |
|---|---|---|
| `PLI.__init__` | 52-104 | PliModel, PliEndModel, PliTableModel |
| `PLI.run` | 106-136 | PliModel, PliEndModel, PliLawModel, PliTableModel |
| `PLI._getFailureSample` | 138-164 | PliModel, PliEndModel, PliLawModel, PliTableModel |
| `PLI._computePfdelta` | 166-186 | PliModel, PliLawModel, PliTableModel |
| `PLI._computeVariancePfdelta` | 188-214 | PliModel, PliLawModel, PliTableModel |
| `PLI._computePLIndices` | 216-232 | PliModel, PliTableModel |
| `PLI._computeEstimatorDistribution` | 234-281 | PliModel, PliTableModel |
| `PLI.getIndices` | 283-292 | PliTableModel |
| `PLI.getDeltaSample` | 294-303 | PliTableModel |
| `PLI.computeConfidenceInterval` | 305-329 | PliModel, PliTableModel |
| `PLI.getPerturbedProbabilityEstimate` | 331-340 | PliTableModel |
| `PLI.drawIndices` | 342-428 | PliModel, PliObjModel |
| `PLI.drawMarginal1DPDF` | 430-513 | DrawModel, PliEndModel |
| `PLI._computePerturbedPDF` | 515-536 | PliModel, PliTableModel |
| `PLI._perturbedMarginalPDF` | 538-539 | PliTableModel |
| `PLI.getOriginalDelta` | 541-550 | PliTableModel |
| `PLI.getGaussKronrod` | 552-556 | PliTableModel |
| `PLI.setGaussKronrod` | 558-570 | PliTableModel |
| `PLI._computeHellinger` | 572-601 | PliDensityModel |
| `PLIMeanBase.__init__` | 627-634 | PliModel, PliDensityModel, PliTableModel |
| `PLIMeanBase._perturbedMarginalPDF` | 636-696 | PliDensityModel, PliEndModel, PliTableModel |
| `PLIMeanBase.getOriginalDelta` | 698-707 | PliDensityModel, PliTableModel |
| `PLIVarianceBase.__init__` | 733-744 | PliModel, PliDensityModel, PliTableModel |
| `PLIVarianceBase._perturbedMarginalPDF` | 746-792 | PliDensityModel, PliTableModel |
| `PLIVarianceBase.getOriginalDelta` | 794-803 | PliDensityModel, PliTableModel |
| `PLIVarianceBase.pdfExp` | 805-825 | PliDensityModel |
| `PLIVarianceBase.computeIntegral` | 827-836 | PliDensityModel |
| `PLIVarianceBase.H` | 838-855 | PliDensityModel |
| `PLIVarianceBase.gradH` | 857-868 | PliDensityModel |
| `PLIVarianceBase.hessianH` | 870-882 | PliDensityModel |
| `PLIVarianceBase.optimizeLambda` | 884-919 | PliDensityModel, PliEndModel, PliTableModel |

`_pli_pod.py`

| function | lines | model |
|---|---|---|
| `PLIBase.__init__` | 22-66 | ChaosAttrModel, KrigAttrModel, LawModel, PliEndModel, PliObjModel, PliPodModel, ShareModel |
| `PLIBase._initializeResultMatrix` | 68-78 | PliLawModel, PliPodModel, ShareModel |
| `PLIBase._runMonteCarlo` | 80-96 | PliEndModel, PliLawModel, PliObjModel, PliPodModel |
| `PLIBase.run` | 98-143 | PliEndModel, PliLawModel, PliObjModel, PliPodModel, ShareModel |
| `PLIBase.setDefectSizes` | 145-169 | BoundsModel, PliObjModel, PliPodModel, SettersModel, ShareModel |
| `PLIBase.getDefectSizes` | 171-181 | PliPodModel, ShareModel |
| `PLIBase.getSamplingSize` | 183-193 | PliPodModel |
| `PLIBase.setSamplingSize` | 195-205 | PliObjModel, PliPodModel |
| `PLIBase.setDistribution` | 207-223 | PliEndModel, PliObjModel, PliPodModel |
| `PLIBase.getDistribution` | 225-235 | PliPodModel |
| `PLIBase.getGaussKronrod` | 237-241 | PliPodModel |
| `PLIBase.setGaussKronrod` | 243-255 | PliObjModel, PliPodModel |
| `PLIBase.getPLIObject` | 257-274 | PliPodModel |
| `PLIBase.getIndices` | 276-311 | PliPodModel, ShareModel |
| `PLIBase.drawIndices` | 313-355 | PliObjModel, PliPodModel, ShareModel |
| `PLIBase.drawContourIndices` | 357-413 | PliObjModel |
| `PLIMean.__init__` | 435-437 | PliEndModel, PliObjModel |
| `PLIMean._definePLIAlgorithm` | 439-445 | PliEndModel, PliObjModel |
| `PLIVariance.__init__` | 466-468 | PliEndModel, PliObjModel |
| `PLIVariance._definePLIAlgorithm` | 470-473 | PliEndModel, PliObjModel |

`_pod.py`

| function | lines | model |
|---|---|---|
| `POD.__init__` | 17-56 | AccessModel, AliasModel, CtorModel, QrObjModel, QuantileModel, SumDataModel |
| `POD.getSimulationSize` | 58-67 | AccessModel |
| `POD.setSimulationSize` | 69-78 | AccessModel, QrObjModel, QuantileModel |
| `POD._computeDetectionSize` | 84-148 | DetectionModel, DocModel, LabelsModel, QrObjModel, QuantileModel |
| `POD._drawPOD` | 150-255 | DocModel, DrawModel, QrObjModel, QuantileModel |
| `POD._drawValidationGraph` | 257-288 | DocModel, DrawModel, QrObjModel, QuantileModel |
| `POD._run` | 290-348 | AliasModel, BoxCoxModel, CtorModel, QrObjModel, SumDataModel |
| `POD.drawBoxCoxLikelihood` | 350-387 | QrObjModel |
| `POD.getBoxCoxParameter` | 389-399 | QrObjModel |

`_pod_summary.py`

| function | lines | model |
|---|---|---|
| `PODSummary.__init__` | 70-114 | AccessModel, LabelsModel, SumDataModel, SummaryModel |
| `PODSummary.run` | 116-235 | SumDataModel, SummaryModel |
| `PODSummary.getMethodActive` | 237-247 | SummaryModel |
| `PODSummary.setMethodActive` | 249-265 | SummaryModel |
| `PODSummary.getVerbose` | 267-276 | AccessModel |
| `PODSummary.setVerbose` | 278-290 | AccessModel |
| `PODSummary.getSimulationSize` | 292-301 | AccessModel |
| `PODSummary.setSimulationSize` | 303-312 | AccessModel, SummaryModel |
| `PODSummary.getSamplingSize` | 314-324 | SummaryModel |
| `PODSummary.getLinearGaussPOD` | 326-341 | SummaryModel |
| `PODSummary.getLinearBinomialPOD` | 343-358 | SummaryModel |
| `PODSummary.getLinearKernelSmoothingPOD` | 360-375 | SummaryModel |
| `PODSummary.getQuantileRegressionPOD` | 377-392 | SummaryModel |
| `PODSummary.getPolynomialChaosPOD` | 394-409 | SummaryModel |
| `PODSummary.getKrigingPOD` | 411-428 | SummaryModel |
| `PODSummary.setSamplingSize` | 430-440 | AccessModel, SummaryModel |
| `PODSummary.getResults` | 442-502 | SummaryPrintModel |
| `PODSummary.saveResults` | 504-555 | SummaryModel |
| `PODSummary._buildPrintResults` | 557-737 | LabelsModel, QrR2Model, SummaryModel |
| `PODSummary.drawGraphs` | 739-908 | SummaryModel |

`_polynomial_chaos_pod.py`

| function | lines | model |
|---|---|---|
| `PolynomialChaosPOD.__init__` | 71-139 | AccessModel, ChaosAttrModel, CtorModel, LinspaceModel, ShareModel |
| `PolynomialChaosPOD.run` | 141-215 | ChaosAttrModel, CoefModel, InterpModel, ShareModel |
| `PolynomialChaosPOD.getPODModel` | 217-227 | ChaosAttrModel, InterpModel |
| `PolynomialChaosPOD.getPODCLModel` | 229-252 | InterpModel, LayoutModel, QuantileModel |
| `PolynomialChaosPOD.computeDetectionSize` | 256-274 | DetectionModel, DocModel, DrawModel, LayoutModel |
| `PolynomialChaosPOD.drawPOD` | 278-342 | DocModel, DrawModel, InterpModel |
| `PolynomialChaosPOD.drawValidationGraph` | 346-354 | DocModel |
| `PolynomialChaosPOD.drawPolynomialChaosModel` | 356-404 | DrawModel |
| `PolynomialChaosPOD.getR2` | 406-415 | LooModel |
| `PolynomialChaosPOD.getQ2` | 417-433 | LooModel |
| `PolynomialChaosPOD.getSamplingSize` | 435-445 | AccessModel |
| `PolynomialChaosPOD.setSamplingSize` | 447-457 | AccessModel |
| `PolynomialChaosPOD.getDefectSizes` | 459-469 | ShareModel |
| `PolynomialChaosPOD.setDefectSizes` | 471-492 | BoundsModel, ChaosAttrModel, SettersModel, ShareModel |
| `PolynomialChaosPOD.setDistribution` | 494-505 | AccessModel, ChaosAttrModel |
| `PolynomialChaosPOD.getDistribution` | 507-520 | ChaosAttrModel |
| `PolynomialChaosPOD.setAdaptiveStrategy` | 522-535 | ChaosAttrModel, LooModel |
| `PolynomialChaosPOD.getAdaptiveStrategy` | 537-549 | ChaosAttrModel, LooModel |
| `PolynomialChaosPOD.setProjectionStrategy` | 551-564 | ChaosAttrModel, LooModel |
| `PolynomialChaosPOD.getProjectionStrategy` | 566-578 | ChaosAttrModel |
| `PolynomialChaosPOD.setDegree` | 580-589 | ChaosAttrModel |
| `PolynomialChaosPOD.getDegree` | 591-600 | ChaosAttrModel |
| `PolynomialChaosPOD.setPolynomialChaosResult` | 602-616 | ChaosAttrModel |
| `PolynomialChaosPOD.getPolynomialChaosResult` | 618-630 | ChaosAttrModel |
| `PolynomialChaosPOD.getVerbose` | 632-641 | AccessModel |
| `PolynomialChaosPOD.setVerbose` | 643-655 | AccessModel |
| `PolynomialChaosPOD.getCoefficientDistribution` | 657-666 | ChaosAttrModel |
| `PolynomialChaosPOD._buildChaosAlgo` | 668-720 | ChaosAttrModel |
| `PolynomialChaosPOD._mergeDefectInX` | 722-732 | LayoutModel |
| `PolynomialChaosPOD._buildChaosFunction` | 734-742 | CoefModel |
| `PolynomialChaosPOD._computePOD` | 744-774 | LawModel, LayoutModel |

`_progress_bar.py`

| function | lines | model |
|---|---|---|
| `updateProgress` | 26-43 | ProgressModel |

`_quantile_regression_pod.py`

| function | lines | model |
|---|---|---|
| `QuantileRegressionPOD.__init__` | 60-97 | AccessModel, CtorModel, QrObjModel, QrShareModel |
| `QuantileRegressionPOD.run` | 99-212 | DetectionModel, InterpModel, QrObjModel, QrR2Model, QrRunModel, QrShareModel |
| `QuantileRegressionPOD.getPODModel` | 214-224 | QrShareModel |
| `QuantileRegressionPOD.getPODCLModel` | 226-252 | DetectionModel, InterpModel, QrObjModel, QrShareModel |
| `QuantileRegressionPOD.getR2` | 254-268 | QrR2Model |
| `QuantileRegressionPOD.getQuantile` | 270-274 | QrShareModel |
| `QuantileRegressionPOD.setQuantile` | 276-290 | QrR2Model, QrShareModel, SettersModel |
| `QuantileRegressionPOD.computeDetectionSize` | 294-332 | DetectionModel, DocModel, LabelsModel, QrR2Model |
| `QuantileRegressionPOD.drawPOD` | 336-400 | DocModel, DrawModel, InterpModel |
| `QuantileRegressionPOD.drawLinearModel` | 402-443 | DrawModel, QrR2Model, SummaryModel |
| `QuantileRegressionPOD.getVerbose` | 445-454 | AccessModel |
| `QuantileRegressionPOD.setVerbose` | 456-468 | AccessModel |
| `QuantileRegressionPOD._buildModel` | 470-482 | DetectionModel, QrR2Model, QrRunModel |

`_sobol_indices.py`

| function | lines | model |
|---|---|---|
| `SobolIndices.__init__` | 59-97 | ChaosAttrModel, KrigAttrModel, LawModel, ShareModel, SobolModel, SobolObjModel |
| `SobolIndices.run` | 99-169 | ChaosAttrModel, ShareModel, SobolModel, SobolObjModel |
| `SobolIndices.getSensitivityResult` | 171-182 | ChaosAttrModel, SobolObjModel |
| `SobolIndices.drawAggregatedIndices` | 184-222 | ChaosAttrModel, SobolObjModel |
| `SobolIndices.drawFirstOrderIndices` | 224-245 | SobolObjModel |
| `SobolIndices.drawTotalOrderIndices` | 247-268 | SobolObjModel |
| `SobolIndices._drawIndices` | 270-341 | SobolModel, SobolObjModel |
| `SobolIndices.getSensitivityMethod` | 343-352 | SobolObjModel |
| `SobolIndices.setSensitivityMethod` | 354-370 | SobolObjModel |
| `SobolIndices.setDefectSizes` | 372-393 | BoundsModel, SettersModel, ShareModel, SobolModel, SobolObjModel |
| `SobolIndices.getDefectSizes` | 395-405 | ShareModel, SobolObjModel |
| `SobolIndices.setDistribution` | 407-423 | SobolObjModel |
| `SobolIndices.getDistribution` | 425-435 | SobolObjModel |
| `SobolIndices.getSimulationSize` | 437-446 | SobolObjModel |
| `SobolIndices.setSimulationSize` | 448-458 | SobolObjModel |
| `PODaggrKriging.__init__` | 479-485 | not modelled |
| `PODaggrKriging._exec` | 487-522 | SobolModel |
| `PODaggrChaos.__init__` | 545-570 | ChaosAttrModel |
| `PODaggrChaos._exec` | 572-585 | LayoutModel |
| `PODaggrChaos._exec_sample` | 588-617 | LayoutModel |

`_univariate_linear_model_analysis.py`

| function | lines | model |
|---|---|---|
| `_Results.__init__` | 29-34 | AnaModel, TableModel |
| `UnivariateLinearModelAnalysis.__init__` | 117-173 | AnaModel, CtorModel, SumDataModel, SummaryModel |
| `UnivariateLinearModelAnalysis._run` | 175-305 | AnaModel, BoxCoxModel, RegModel, SumDataModel, SummaryModel |
| `UnivariateLinearModelAnalysis._computeTests` | 311-341 | AnaModel, SumDataModel, TableModel |
| `UnivariateLinearModelAnalysis.getResults` | 347-388 | TableModel |
| `UnivariateLinearModelAnalysis._printWarnings` | 390-432 | TableModel |
| `UnivariateLinearModelAnalysis.saveResults` | 434-475 | TableModel |
| `UnivariateLinearModelAnalysis._buildPrintResults` | 477-602 | TableModel |
| `UnivariateLinearModelAnalysis.drawLinearModel` | 608-660 | AnaModel |
| `UnivariateLinearModelAnalysis.drawResiduals` | 662-710 | AnaModel |
| `UnivariateLinearModelAnalysis.drawResidualsQQplot` | 712-770 | SummaryModel |
| `UnivariateLinearModelAnalysis.drawResidualsDistribution` | 772-826 | SummaryModel |
| `UnivariateLinearModelAnalysis.drawBoxCoxLikelihood` | 828-865 | SummaryModel |
| `UnivariateLinearModelAnalysis.getInputSample` | 871-880 | AnaModel |
| `UnivariateLinearModelAnalysis.getOutputSample` | 882-891 | AnaModel |
| `UnivariateLinearModelAnalysis.getNoiseThreshold` | 893-902 | AnaModel |
| `UnivariateLinearModelAnalysis.getSaturationThreshold` | 904-913 | AnaModel |
| `UnivariateLinearModelAnalysis.getResiduals` | 915-937 | AnaModel |
| `UnivariateLinearModelAnalysis.getResidualsDistribution` | 939-952 | AnaModel |
| `UnivariateLinearModelAnalysis.getIntercept` | 954-976 | TableModel |
| `UnivariateLinearModelAnalysis.getSlope` | 978-1000 | TableModel |
| `UnivariateLinearModelAnalysis.getStandardError` | 1002-1024 | TableModel |
| `UnivariateLinearModelAnalysis.getBoxCoxParameter` | 1026-1036 | CtorModel, TableModel |
| `UnivariateLinearModelAnalysis.getR2` | 1038-1047 | TableModel |
| `UnivariateLinearModelAnalysis.getAndersonDarlingPValue` | 1049-1058 | TableModel |
| `UnivariateLinearModelAnalysis.getCramerVonMisesPValue` | 1060-1069 | TableModel |
| `UnivariateLinearModelAnalysis.getKolmogorovPValue` | 1071-1080 | TableModel |
| `UnivariateLinearModelAnalysis.getZeroMeanPValue` | 1082-1091 | TableModel |
| `UnivariateLinearModelAnalysis.getBreuschPaganPValue` | 1093-1102 | TableModel |
| `UnivariateLinearModelAnalysis.getHarrisonMcCabePValue` | 1104-1113 | TableModel |
| `UnivariateLinearModelAnalysis.getDurbinWatsonPValue` | 1115-1124 | TableModel |
| `UnivariateLinearModelAnalysis._getResultValue` | 1126-1158 | TableModel |

`_univariate_linear_model_pod.py`

| function | lines | model |
|---|---|---|
| `UnivariateLinearModelPOD.__init__` | 77-137 | CtorModel, QuantileModel |
| `UnivariateLinearModelPOD.run` | 139-213 | CtorModel, LinObjModel, QuantileModel, RegModel, SumDataModel |
| `UnivariateLinearModelPOD.getPODModel` | 215-225 | CtorModel, LinObjModel, QuantileModel |
| `UnivariateLinearModelPOD.getPODCLModel` | 227-258 | LinObjModel |
| `UnivariateLinearModelPOD.getR2` | 260-269 | SumDataModel |
| `UnivariateLinearModelPOD.computeDetectionSize` | 273-279 | DetectionModel, DocModel, DrawModel |
| `UnivariateLinearModelPOD.drawPOD` | 283-330 | DocModel, DrawModel |
| `UnivariateLinearModelPOD.getVerbose` | 332-341 | AccessModel |
| `UnivariateLinearModelPOD.setVerbose` | 343-355 | AccessModel |
| `UnivariateLinearModelPOD._PODbinomialModel` | 361-369 | LinObjModel, LinPodModel, QuantileModel |
| `UnivariateLinearModelPOD._PODbinomialModelCl` | 371-391 | CountModel, LinObjModel, LinPodModel, QuantileModel |
| `UnivariateLinearModelPOD._PODgaussModel` | 397-416 | LinObjModel, LinPodModel, QuantileModel |
| `UnivariateLinearModelPOD._PODgaussModelCl` | 418-455 | LinObjModel, LinPodModel, QuantileModel |
| `UnivariateLinearModelPOD._PODbootstrapModel` | 461-469 | LinObjModel, QuantileModel |
| `UnivariateLinearModelPOD._PODbootstrapModelCl` | 471-530 | LinObjModel, QuantileModel |
| `_computeLinearModel` | 538-625 | BoxCoxModel, CtorModel, LinObjModel, RegModel |

## 6. Reading seeded/LOG.jsonl

`failed` lists the theorems whose proofs break under the edit and also those whose proofs rest on a broken one (found with `Print Assumptions`); `failed_lemmas` lists the helpers and examples that break.
