{
 "claims": [
  {
   "property": "C01",
   "status": "proved",
   "theorems": [
    "C01_par_info_admits_exactly_valid"
   ],
   "note": "Doubles are IEEE-754 binary64; fle is false on NaN."
  },
  {
   "property": "C02",
   "status": "proved",
   "theorems": [
    "C02_parsed_parameter_is_valid",
    "C02_parsing_terminates"
   ],
   "note": "For every number reader; termination for the decimal reader."
  },
  {
   "property": "C03",
   "status": "proved",
   "theorems": [
    "C03_node_with_children",
    "C03_node_errors",
    "C03_full_form",
    "C03_constant",
    "C03_mean_std",
    "C03_range_only",
    "C03_tilde_only",
    "C03_default_options",
    "C03_mismatched_bracket_rejected",
    "C03_missing_comma_rejected",
    "C03_second_mean_rejected",
    "C03_second_std_rejected",
    "C03_unreadable_std_rejected_refuted",
    "C03_tilde_zero_accepted_refuted"
   ],
   "note": "xo::char_stream is assumed (DESIGN section 5). The _refuted theorems record accepted/rejected corner cases."
  },
  {
   "property": "C04",
   "status": "proved",
   "theorems": [
    "C04_names_stay_unique",
    "C04_names_stay_unique_from",
    "C04_constructor_checks_names_refuted"
   ],
   "note": ""
  },
  {
   "property": "C05",
   "status": "proved",
   "theorems": [
    "C05_add"
   ],
   "note": ""
  },
  {
   "property": "C06",
   "status": "proved",
   "theorems": [
    "C06_get_existing_and_idempotent",
    "C06_failed_get_changes_nothing",
    "C06_constant_nodes_not_registered_refuted"
   ],
   "note": ""
  },
  {
   "property": "C07",
   "status": "proved",
   "theorems": [
    "C07_unknown_parameter",
    "C07_replay_on_search_point",
    "C07_replay_on_larger_info",
    "C07_building_only_extends",
    "C07_reference_resolves_same_refuted"
   ],
   "note": ""
  },
  {
   "property": "C08",
   "status": "proved",
   "theorems": [
    "C08_scopes_restore",
    "C08_setter_restores_string",
    "C08_setter_inside_scope_restores_refuted",
    "C08_throwing_options_restored_refuted"
   ],
   "note": ""
  },
  {
   "property": "C09",
   "status": "proved",
   "theorems": [
    "C09_reference_innermost_scope"
   ],
   "note": ""
  },
  {
   "property": "C10",
   "status": "proved",
   "theorems": [
    "C10_import_locked",
    "C10_missing_file"
   ],
   "note": ""
  },
  {
   "property": "C11",
   "status": "proved",
   "theorems": [
    "C11_white_space",
    "C11_file_format",
    "C11_incomplete_record",
    "C11_import_mean_std",
    "C11_counts",
    "C11_imported_parameters_valid_refuted"
   ],
   "note": ""
  },
  {
   "property": "C12",
   "status": "proved",
   "theorems": [
    "C12_is_feasible",
    "C12_clamp",
    "C12_short_vector_undefined",
    "C12_nan_infeasible_refuted"
   ],
   "note": ""
  },
  {
   "property": "C13",
   "status": "proved",
   "theorems": [
    "C13_set_mean_std",
    "C13_set_std_minimum"
   ],
   "note": ""
  },
  {
   "property": "C14",
   "status": "proved",
   "theorems": [
    "C14_stored_value",
    "C14_projection",
    "C14_search_point_values",
    "C14_rounded_stays_within_range_refuted",
    "C14_rounded_stays_within_8_digit_range"
   ],
   "note": ""
  },
  {
   "property": "C15",
   "status": "proved",
   "theorems": [
    "C15_import_any_file",
    "C15_columns",
    "C15_write_import_round_trip",
    "C15_empty_point_refuted",
    "C15_imported_value_unrounded_refuted"
   ],
   "note": ""
  },
  {
   "property": "C16",
   "status": "proved",
   "theorems": [
    "C16_last_allowed_write",
    "C16_return_values"
   ],
   "note": ""
  },
  {
   "property": "C17",
   "status": "proved",
   "theorems": [
    "C17_is_better_strict_order",
    "C17_infinity_not_worse_than_worst_refuted",
    "C17_strict_weak_order_refuted"
   ],
   "note": ""
  },
  {
   "property": "C18",
   "status": "proved",
   "theorems": [
    "C18_find_best_fitness",
    "C18_nan_ignored_refuted"
   ],
   "note": ""
  },
  {
   "property": "C19",
   "status": "proved",
   "theorems": [
    "C19_best_is_best_ever",
    "C19_monotone"
   ],
   "note": ""
  },
  {
   "property": "C20",
   "status": "proved",
   "theorems": [
    "C20_failed_step_es",
    "C20_failed_step_cma",
    "C20_error_threshold",
    "C20_failed_step_has_no_effect",
    "C20_error_messages",
    "C20_tolerated_errors_count_as_worst",
    "C20_negative_allowance"
   ],
   "note": ""
  },
  {
   "property": "C21",
   "status": "proved",
   "theorems": [
    "C21_run",
    "C21_current_step",
    "C21_run_current_step",
    "C21_run_after_stop_makes_one_step"
   ],
   "note": ""
  },
  {
   "property": "C22",
   "status": "proved",
   "theorems": [
    "C22_first_true",
    "C22_latched_for_ever",
    "C22_on_stop_exactly_once"
   ],
   "note": ""
  },
  {
   "property": "C23",
   "status": "proved",
   "theorems": [
    "C23_abort",
    "C23_max_steps",
    "C23_target",
    "C23_error",
    "C23_flat_fitness",
    "C23_min_progress",
    "C23_predicted_fitness",
    "C23_min_progress_without_window",
    "C23_similarity",
    "C23_similarity_needs_cma"
   ],
   "note": ""
  },
  {
   "property": "C24",
   "status": "proved",
   "theorems": [
    "C24_step_events",
    "C24_updated_best_is_visible",
    "C24_other_calls",
    "C24_reporters_have_no_influence",
    "C24_on_start_once_refuted",
    "C24_every_reporter_is_called_refuted"
   ],
   "note": ""
  },
  {
   "property": "C25",
   "status": "proved",
   "theorems": [
    "C25_history_is_recent",
    "C25_history_fills_up",
    "C25_history_is_the_window",
    "C25_late_tracking",
    "C25_pool_shrinks_window_refuted"
   ],
   "note": "C25_history_is_recent is the general statement (conditions may be added at any time); the history of a condition added late starts with the steps after it (C25_late_tracking)."
  },
  {
   "property": "C26",
   "status": "proved",
   "theorems": [
    "C26_trend_is_never_stale"
   ],
   "note": ""
  },
  {
   "property": "C27",
   "status": "proved",
   "theorems": [
    "C27_interrupt_is_sticky"
   ],
   "note": ""
  },
  {
   "property": "C28",
   "status": "proved",
   "theorems": [
    "C28_evaluate_noexcept",
    "C28_sequential"
   ],
   "note": ""
  },
  {
   "property": "C29",
   "status": "proved",
   "theorems": [
    "C29_batch",
    "C29_batch_returns",
    "C29_async",
    "C29_async_returns",
    "C29_pooled"
   ],
   "note": ""
  },
  {
   "property": "C30",
   "status": "proved",
   "theorems": [
    "C30_exactly_once",
    "C30_mutual_exclusion",
    "C30_queue_guarded"
   ],
   "note": ""
  },
  {
   "property": "C31",
   "status": "proved",
   "theorems": [
    "C31_completes",
    "C31_end_state",
    "C31_no_workers_refuted"
   ],
   "note": ""
  },
  {
   "property": "C32",
   "status": "proved",
   "theorems": [
    "C32_returns_after_workers_exit",
    "C32_restart_after_workers_exit",
    "C32_destructor_hangs",
    "C32_destroy_idle_refuted",
    "C32_stop_terminates",
    "C32_lost_wakeup_refuted"
   ],
   "note": ""
  },
  {
   "property": "C33",
   "status": "proved",
   "theorems": [
    "C33_thread_limit",
    "C33_thread_count",
    "C33_zero_threads_never_returns"
   ],
   "note": ""
  },
  {
   "property": "C34",
   "status": "proved",
   "theorems": [
    "C34_component_in_bounds",
    "C34_vector_componentwise",
    "C34_class_agrees",
    "C34_int_overflow_refuted",
    "C34_init_rejects",
    "C34_doubles_in_bounds",
    "C34_doubles_identity",
    "C34_doubles_vector",
    "C34_doubles_nan_refuted",
    "C34_doubles_huge_bounds_refuted"
   ],
   "note": ""
  },
  {
   "property": "C35",
   "status": "proved",
   "theorems": [
    "C35_periodic_even",
    "C35_continuous_monotone",
    "C35_inverse",
    "C35_inverse_vector",
    "C35_doubles_accurate",
    "C35_doubles_continuous_monotone",
    "C35_doubles_periodic_even",
    "C35_doubles_inverse",
    "C35_doubles_inverse_vector",
    "C35_doubles_exact_inverse_refuted"
   ],
   "note": "C35_doubles_*: the same in double precision, up to 2^-43 of the magnitudes (2^-41 for the round trip); C35_doubles_exact_inverse_refuted: the round trip is not exact (bounds 0 and 1, y=0.001)."
  },
  {
   "property": "C36",
   "status": "proved",
   "theorems": [
    "C36_reflective",
    "C36_soft_limit",
    "C36_independent"
   ],
   "note": ""
  },
  {
   "property": "C37",
   "status": "proved",
   "theorems": [
    "C37_cma_sampled_before_rounding",
    "C37_cma_population_within_bounds",
    "C37_cma_population_within_bounds_or_zero",
    "C37_cma_run_asks_within_bounds_or_zero",
    "C37_cma_best_point",
    "C37_cma_nan_refuted",
    "C37_es_sampled_before_rounding",
    "C37_es_population_within_bounds",
    "C37_es_run_asks_within_bounds",
    "C37_es_best_point_within_bounds",
    "C37_es_population_within_bounds_here",
    "C37_es_run_asks_within_bounds_or_zero",
    "C37_es_nan_draw_refuted"
   ],
   "note": ""
  },
  {
   "property": "C38",
   "status": "proved",
   "theorems": [
    "C38_any_optimizer",
    "C38_mes",
    "C38_eva",
    "C38_cma"
   ],
   "note": ""
  },
  {
   "property": "C39",
   "status": "proved",
   "theorems": [
    "C39_cma_seed",
    "C39_cma_seed_zero",
    "C39_answers",
    "C39_run_is_a_function",
    "C39_reproducible"
   ],
   "note": ""
  },
  {
   "property": "C40",
   "status": "proved",
   "theorems": [
    "C40_schrage",
    "C40_no_overflow",
    "C40_state_in_range",
    "C40_uniform_open_interval",
    "C40_uniform_open_interval_doubles",
    "C40_gauss",
    "C40_every_seed",
    "C40_seed_fixes_the_stream",
    "C40_nonzero_seed_is_reproducible_refuted",
    "C40_seeds_are_distinct_refuted"
   ],
   "note": ""
  },
  {
   "property": "C41",
   "status": "proved",
   "theorems": [
    "C41_weights",
    "C41_weights_doubles",
    "C41_doubles_nonvacuous"
   ],
   "note": ""
  },
  {
   "property": "C42",
   "status": "proved",
   "theorems": [
    "C42_parameters",
    "C42_equal_bounds_rejected",
    "C42_options_used",
    "C42_parameters_doubles",
    "C42_creation_doubles",
    "C42_doubles_nonvacuous"
   ],
   "note": ""
  },
  {
   "property": "C43",
   "status": "proved",
   "theorems": [
    "C43_ranking_sorts",
    "C43_ranking_is_permutation",
    "C43_ranking_sorts_reals",
    "C43_nan_ranks_first_refuted",
    "C43_update_depends_only_on_comparisons"
   ],
   "note": ""
  },
  {
   "property": "C44",
   "status": "proved",
   "theorems": [
    "C44_covariance_positive",
    "C44_initial_std",
    "C44_axes_positive",
    "C44_zero_std_refuted",
    "C44_std_doubles",
    "C44_doubles_nonvacuous"
   ],
   "note": ""
  },
  {
   "property": "C45",
   "status": "proved",
   "theorems": [
    "C45_protocol",
    "C45_alternating_never_throws"
   ],
   "note": ""
  },
  {
   "property": "C46",
   "status": "proved",
   "theorems": [
    "C46_mean_within_bounds",
    "C46_updated_description_valid",
    "C46_transformed_description_valid",
    "C46_doubles_refuted",
    "C46_doubles_mean_near_bounds",
    "C46_doubles_near_nonvacuous"
   ],
   "note": "C46_doubles_refuted: the description after one step on f(x)=x in the range [-0.1,0], with the doubles nearest to ln 1, ln 2 and ln 3. C46_doubles_mean_near_bounds: the bound on how far off the mean can be in doubles, for any logarithm that increases from integer to integer."
  },
  {
   "property": "C47",
   "status": "proved",
   "theorems": [
    "C47_mes_variance_nonnegative",
    "C47_eva_variance_nonnegative",
    "C47_mes_mean_within_bounds",
    "C47_eva_mean_within_bounds",
    "C47_order_is_best_first",
    "C47_only_the_mu_best",
    "C47_dimensions",
    "C47_always_defined",
    "C47_mu_is_not_checked",
    "C47_sampling_distribution",
    "C47_default_sizes",
    "C47_no_parameters_refuted",
    "C47_mes_mean_within_bounds_with_momentum_refuted",
    "C47_mu_above_lambda_refuted",
    "C47_mes_update",
    "C47_eva_update",
    "C47_start",
    "C47_mes_variance_doubles",
    "C47_eva_variance_doubles",
    "C47_default_options",
    "C47_mes_options_used",
    "C47_eva_options_used",
    "C47_start_doubles",
    "C47_flat_default",
    "C47_population_size",
    "C47_default_values",
    "C47_mes_mean_near_bounds_doubles",
    "C47_eva_mean_near_bounds_doubles",
    "C47_near_bounds_nonvacuous"
   ],
   "note": ""
  },
  {
   "property": "C48",
   "status": "proved",
   "theorems": [
    "C48_cma",
    "C48_cma_without_transformer",
    "C48_es",
    "C48_es_state_report"
   ],
   "note": ""
  },
  {
   "property": "C49",
   "status": "proved",
   "theorems": [
    "C49_pool_best_is_best_of_stepped",
    "C49_pool_best_is_best_of_all",
    "C49_never_worse",
    "C49_after_exception_refuted"
   ],
   "note": ""
  },
  {
   "property": "C50",
   "status": "proved",
   "theorems": [
    "C50_step_shape",
    "C50_step_counts",
    "C50_new_queue",
    "C50_predictions",
    "C50_progress",
    "C50_active_limit_refuted",
    "C50_stopped_member_stepped_refuted",
    "C50_progress_refuted"
   ],
   "note": ""
  },
  {
   "property": "C51",
   "status": "proved",
   "theorems": [
    "C51_condition",
    "C51_stops_iff_all_stopped",
    "C51_latched",
    "C51_interrupt",
    "C51_user_conditions",
    "C51_target_needs_best",
    "C51_target_before_best_refuted"
   ],
   "note": ""
  },
  {
   "property": "C52",
   "status": "proved",
   "theorems": [
    "C52_bookkeeping_is_bounded",
    "C52_newest_best_is_on_disk",
    "C52_best_point_is_on_disk",
    "C52_best_point_can_be_reloaded",
    "C52_kept_files",
    "C52_first_best_is_kept",
    "C52_significant_bests_are_kept",
    "C52_insignificant",
    "C52_other_files_are_untouched",
    "C52_pool_newest_best_is_on_disk_refuted",
    "C52_file_names"
   ],
   "note": ""
  },
  {
   "property": "C53",
   "status": "proved",
   "theorems": [
    "C53_file_at_least_every_max_steps"
   ],
   "note": ""
  },
  {
   "property": "C54",
   "status": "proved",
   "theorems": [
    "C54_length_doubles",
    "C54_update_doubles",
    "C54_update_doubles_nonvacuous",
    "C54_compute_mean_std",
    "C54_mean_std_of_nothing_refuted",
    "C54_length",
    "C54_normalized_distance",
    "C54_mahalanobis_is_diagonal",
    "C54_mahalanobis_ignores_correlations_refuted",
    "C54_update",
    "C54_projected_is_nearest",
    "C54_projected_degenerate",
    "C54_projected_short_direction_refuted",
    "C54_projected_needs_one_dimension",
    "C54_mean_std_doubles",
    "C54_doubles_nonvacuous"
   ],
   "note": ""
  },
  {
   "property": "C55",
   "status": "proved",
   "theorems": [
    "C55_sphere",
    "C55_ellipsoid",
    "C55_rosenbrock",
    "C55_rosenbrock_1d_unique_refuted",
    "C55_rosenbrock_0d_refuted",
    "C55_rastrigin",
    "C55_himmelblau",
    "C55_himmelblau_needs_two_refuted",
    "C55_data_objective",
    "C55_data_objective_without_data_refuted",
    "C55_data_objective_doubles",
    "C55_data_doubles_nonvacuous",
    "C55_sphere_doubles",
    "C55_ellipsoid_doubles",
    "C55_sphere_doubles_nonvacuous",
    "C55_sphere_unique_doubles_refuted"
   ],
   "note": ""
  },
  {
   "property": "C56",
   "status": "proved",
   "theorems": [
    "C56_optional_parameters"
   ],
   "note": ""
  },
  {
   "property": "C57",
   "status": "proved",
   "theorems": [
    "C57_make_objective_info",
    "C57_make_objective_info_vec"
   ],
   "note": ""
  },
  {
   "property": "C58",
   "status": "proved",
   "theorems": [
    "C58_history_has_one_row_per_step",
    "C58_rows_are_the_steps",
    "C58_rows_match_the_header",
    "C58_rows_match_the_header_refuted",
    "C58_row_contents",
    "C58_header_contents"
   ],
   "note": "A condition that switches tracking on after the first step makes rows longer than the header (C58_rows_match_the_header_refuted); a finding about file_reporter."
  },
  {
   "property": "C59",
   "status": "proved",
   "theorems": [
    "C59_never_negative",
    "C59_no_nan",
    "C59_optimum_exact",
    "C59_objectives",
    "C59_make_objectives",
    "C59_rastrigin_never_negative",
    "C59_rastrigin_optimum_exact",
    "C59_rastrigin_nonvacuous"
   ],
   "note": ""
  },
  {
   "property": "C60",
   "status": "proved",
   "theorems": [
    "C60_schwefel",
    "C60_range_matters_refuted",
    "C60_schwefel_doubles",
    "C60_doubles_nonvacuous",
    "C60_near_zero_doubles"
   ],
   "note": ""
  },
  {
   "property": "C61",
   "status": "proved",
   "theorems": [
    "C61_eigendecomposition",
    "C61_never_undefined",
    "C61_terminates",
    "C61_eigenpairs",
    "C61_eigenvalues_positive",
    "C61_sampling",
    "C61_sizes",
    "C61_unlimited",
    "C61_protocol",
    "C61_nan_refuted"
   ],
   "note": "Over the reals; the model text is the same for doubles, where an entry that is not a number leads to an access out of bounds (C61_nan_refuted). The unlimited loop is modelled with a limit, and C61_unlimited/C61_terminates show that some limit always suffices."
  },
  {
   "property": "C62",
   "status": "proved",
   "theorems": [
    "C62_step_output",
    "C62_other_calls_output",
    "C62_error_message",
    "C62_prediction_message",
    "C62_messages",
    "C62_screen_shows_the_last_step_refuted"
   ],
   "note": "Average, median, the clock and the formatting of a set of strings are parameters. C62_screen_shows_the_last_step_refuted: because of the carriage return a terminal can show remains of an older, longer line."
  },
  {
   "property": "C63",
   "status": "proved",
   "theorems": [
    "C63_order_of_gets_does_not_matter",
    "C63_alike_is_indistinguishable",
    "C63_vec3_any_order",
    "C63_vec3_components",
    "C63_vec3_absent",
    "C63_same_parameter_order_refuted",
    "C63_vec3_with_references_refuted"
   ],
   "note": "xo's conversion of a node to three nodes is a parameter. C63_same_parameter_order_refuted: the order of the free parameters, hence of the values of a search point, is up to the compiler. C63_vec3_with_references_refuted: with a component that refers to another one, success depends on the order."
  },
  {
   "property": "C64",
   "status": "proved",
   "theorems": [
    "C64_even_warm_up",
    "C64_no_stall_in_warm_up",
    "C64_queue_is_served_in_order",
    "C64_more_than_active_refuted",
    "C64_after_warm_up_refuted"
   ],
   "note": "Counts started member steps in histories of calls that returned normally. C64_more_than_active_refuted, C64_after_warm_up_refuted: the hypotheses are needed."
  },
  {
   "property": "C65",
   "status": "proved",
   "theorems": [
    "C65_race_free_is_deterministic",
    "C65_one_at_a_time",
    "C65_best_not_overtaken",
    "C65_predicted_stop_races",
    "C65_overtaken_best_races",
    "C65_default_configuration_refuted"
   ],
   "note": "The accesses of the pool's thread are listed by [touches]; a member's own thread is taken to access its member until its step returns. C65_default_configuration_refuted: with the default settings there is a data race in the second step of a pool of two members, and the reports depend on the schedule."
  },
  {
   "property": "C66",
   "status": "proved",
   "theorems": [
    "C66_step_events",
    "C66_other_calls",
    "C66_announcements"
   ],
   "note": ""
  },
  {
   "property": "C67",
   "status": "proved",
   "theorems": [
    "C67_age",
    "C67_alternating",
    "C67_frequency",
    "C67_only_after_updates",
    "C67_default_frequency",
    "C67_default_options"
   ],
   "note": "Exact arithmetic; assumes that the covariance matrices of the history are well conditioned (smallest eigenvalue above the tolerance; C44 shows positive definiteness), that the random generator and the boundary transformer do not fail. M is built from the model's eigensystem; a sampling call is counted as a decomposition if it fails when the eigendecomposition fails."
  },
  {
   "property": "C68",
   "status": "proved",
   "theorems": [
    "C68_any_optimizer",
    "C68_mes",
    "C68_eva",
    "C68_cma",
    "C68_observers_do_not_interfere"
   ],
   "note": "Both runs are assumed not to throw; after a stop condition fired the search is continued by calling step again. g is required to be increasing on a set V of values that contains what the objective returns and the worst fitness (a strictly increasing self-map of all doubles could only be the identity)."
  },
  {
   "property": "C69",
   "status": "proved",
   "theorems": [
    "C69_update_equations",
    "C69_strategy_parameters"
   ],
   "note": "Exact arithmetic; pow is the power function; the covariance matrices of the history are well conditioned (as in C67), random generator and boundary transformer do not fail. The published equations are those of Hansen's tutorial with the variants of the c-cmaes library (stated in Properties_CmaUpdate.v: cma_es_update). Initial mean, step size and covariance: C44_initial_std."
  },
  {
   "property": "C70",
   "status": "proved",
   "theorems": [
    "C70_cma_origin_and_unit",
    "C70_transformers_move",
    "C70_cmaes_transformer_moves_refuted",
    "C70_mes_origin_and_unit",
    "C70_eva_origin_and_unit",
    "C70_cma_nonvacuous",
    "C70_es_nonvacuous"
   ],
   "note": "Exact arithmetic: rounding of sampled values is left out (the identity). The normal distribution is used as mean + std * z. For mes/eva the constant below which the momentum counts as zero is a squared length, so for t <> 1 it has to be scaled as well (for t = 1 it stays). C70_cmaes_transformer_moves_refuted: the boundary transformer of CMA bends by an amount that depends on the distance of the bounds from 0, so with it the search is not invariant."
  },
  {
   "property": "C71",
   "status": "proved",
   "theorems": [
    "C71_scoped_name",
    "C71_dots",
    "C71_options",
    "C71_aliases"
   ],
   "note": "xo::replace_str and xo::needs_quotes are parameters. References (C09) see the stack of scopes and not only the name, so the theorems are about parameters that are not references. scoped_prefix_setter: C08."
  },
  {
   "property": "C72",
   "status": "proved",
   "theorems": [
    "C72_members_as_if_alone",
    "C72_best_of_separate_runs",
    "C72_one_member",
    "C72_es_works"
   ],
   "note": "All pool operations of the history return (none throws, as in C49), and each member could make that many steps on its own without throwing. The members' evaluations are functions of the member and its number of calls of step(), not of the time. Members that sample and update without failing: C72_es_works for mes and eva. C72_one_member needs the pool to be asked (by a step or test, not just interrupted) before, and a concurrency and activity of at least 1."
  },
  {
   "property": "C73",
   "status": "proved",
   "theorems": [
    "C73_import",
    "C73_same_parameters",
    "C73_valid",
    "C73_es",
    "C73_new_es",
    "C73_cma",
    "C73_best_file"
   ],
   "note": ""
  },
  {
   "property": "C74",
   "status": "proved",
   "theorems": [
    "C74_cma_sample",
    "C74_cma_history",
    "C74_es_sample",
    "C74_es_run",
    "C74_cma_run"
   ],
   "note": ""
  },
  {
   "property": "C75",
   "status": "proved",
   "theorems": [
    "C75_changes_of_a_call",
    "C75_older_files_survive",
    "C75_crash_point",
    "C75_safe_if_closed_first",
    "C75_history_prefix",
    "C75_newest_best_survives_refuted",
    "C75_max_steps_zero_refuted"
   ],
   "note": "Changes reach the disk in the order in which the process makes them; history_ writes its buffer only when flushed. C75_newest_best_survives_refuted: a run in which the crash loses the best reported last (its file is removed while the new file is still in the stream's buffer). C75_max_steps_zero_refuted: why max_steps is at least 1."
  },
  {
   "property": "C76",
   "status": "proved",
   "theorems": [
    "C76_asking_changes_nothing",
    "C76_late_reporter",
    "C76_late_condition",
    "C76_late_prediction_refuted"
   ],
   "note": "Reporters are told everything unless one in front of them throws (heard). visible leaves out only the cached trend line, which is always the one that would be computed (C26). C76_late_prediction_refuted: a run with the line through the first and last tracked point; the condition is added after three steps and the prediction of the next step is 0 instead of 3."
  },
  {
   "property": "C77",
   "status": "proved",
   "theorems": [
    "C77_only_own_file",
    "C77_kept_bests",
    "C77_full_disk",
    "C77_first_best",
    "C77_one_failure_costs_two_bests_refuted",
    "C77_failed_description"
   ],
   "note": "An operation that fails changes nothing; any subset of the operations may fail (a stream that goes bad after the first failure is one such subset). Failures are silent: exceptions thrown by xo::remove or xo::create_directories are not modelled. C77_one_failure_costs_two_bests_refuted: a run in which the only file that cannot be opened is that of the third best, and the second is removed."
  },
  {
   "property": "C78",
   "status": "proved",
   "theorems": [
    "C78_choice",
    "C78_best_is_a_number",
    "C78_wasted_step",
    "C78_other_step",
    "C78_best_of_the_others",
    "C78_never_flat",
    "C78_target_unaffected",
    "C78_window",
    "C78_best_ever_refuted"
   ],
   "note": "C78_window assumes of xo's linear regression only that a NaN among the values makes the slope NaN (no_slope). C78_best_ever_refuted: the run showing that C19's hypothesis about NaN is needed."
  },
  {
   "property": "C79",
   "status": "proved",
   "theorems": [
    "C79_step_limit",
    "C79_after_error",
    "C79_pool_ends",
    "C79_limit_above_start_refuted",
    "C79_no_concurrent_refuted",
    "C79_no_active_refuted"
   ],
   "note": "Members are stepped atomically and concurrently in any order of finishing, as in C49-C51. C79_limit_above_start_refuted, C79_no_concurrent_refuted, C79_no_active_refuted: runs of 40 pool steps without a stop, one for each condition of C79_pool_ends that is dropped."
  },
  {
   "property": "C80",
   "status": "proved",
   "theorems": [
    "C80_file_names",
    "C80_individuals_are_on_disk",
    "C80_individuals_can_be_reloaded",
    "C80_no_individuals",
    "C80_only_evaluated_individuals_refuted"
   ],
   "note": "Step and individual numbers below 2^31 (%d is given a size_t). C80_only_evaluated_individuals_refuted: a step that failed with two individuals and succeeded with one leaves the file of the second."
  },
  {
   "property": "C81",
   "status": "proved",
   "theorems": [
    "C81_settings",
    "C81_garbled",
    "C81_only_these_entries",
    "C81_joining",
    "C81_concurrency"
   ],
   "note": "INIT_MEMBER is a macro of xo; conversions of text to size_t and bool are parameters. C81_concurrency combines the constructor with C50."
  },
  {
   "property": "C82",
   "status": "proved",
   "theorems": [
    "C82_refused",
    "C82_refused_steps",
    "C82_pool",
    "C82_construction",
    "C82_construction_cma",
    "C82_all_locked",
    "C82_empty_file"
   ],
   "note": "std::log(0) is taken to be minus infinity (a hypothesis of C82_construction). For n = 0 cma_create_no_params is the constructor (NoParams.v)."
  },
  {
   "property": "C83",
   "status": "proved",
   "theorems": [
    "C83_find",
    "C83_found_for_ever",
    "C83_change_takes_effect",
    "C83_search_unaffected",
    "C83_stop_with_an_error"
   ],
   "note": "find_stop_condition< T > is modelled for the types of stop_condition.h, none of which has derived types, and for one type that is none of these. A change is between calls, not during one."
  }
 ]
}