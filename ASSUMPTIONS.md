# Assumptions of every property theorem

Generated from `Print Assumptions` (script `tools/audit.py`) on all theorems of MANIFEST.json. Abbreviations:

* D1 = `ClassicalDedekindReals.sig_not_dec`, D2 = `ClassicalDedekindReals.sig_forall_dec` (construction of `R` in the standard library)
* FE = `FunctionalExtensionality.functional_extensionality_dep`
* CL = `Classical_Prop.classic`

All four come from the Coq standard library (they enter through `R`, on which Flocq is built). "none" means "Closed under the global context".

| theorem | file | axioms |
|---|---|---|
| C01_par_info_admits_exactly_valid | Properties_ParInfo.v | D1, D2, FE, CL |
| C02_parsed_parameter_is_valid | Properties_ParInfo.v | D1, D2, FE, CL |
| C02_parsing_terminates | Properties_ParInfo.v | D1, D2, FE, CL |
| C03_node_with_children | Properties_Names.v | D1, D2, FE, CL |
| C03_node_errors | Properties_Names.v | D1, D2, FE, CL |
| C03_full_form | Properties_ParInfo.v | D1, D2, FE, CL |
| C03_constant | Properties_ParInfo.v | D1, D2, FE, CL |
| C03_mean_std | Properties_ParInfo.v | D1, D2, FE, CL |
| C03_range_only | Properties_ParInfo.v | D1, D2, FE, CL |
| C03_tilde_only | Properties_ParInfo.v | D1, D2, FE, CL |
| C03_default_options | Properties_ParInfo.v | D1, D2, FE, CL |
| C03_mismatched_bracket_rejected | Properties_ParInfo.v | D1, D2, FE, CL |
| C03_missing_comma_rejected | Properties_ParInfo.v | D1, D2, FE, CL |
| C03_second_mean_rejected | Properties_ParInfo.v | D1, D2, FE, CL |
| C03_second_std_rejected | Properties_ParInfo.v | D1, D2, FE, CL |
| C03_unreadable_std_rejected_refuted | Properties_ParInfo.v | D1, D2, FE, CL |
| C03_tilde_zero_accepted_refuted | Properties_ParInfo.v | D1, D2, FE, CL |
| C04_names_stay_unique | Properties_Params.v | D1, D2, FE, CL |
| C04_names_stay_unique_from | Properties_Params.v | D1, D2, FE, CL |
| C04_constructor_checks_names_refuted | Properties_Params.v | none |
| C05_add | Properties_Params.v | none |
| C06_get_existing_and_idempotent | Properties_Params.v | D1, D2, FE, CL |
| C06_failed_get_changes_nothing | Properties_Params.v | D1, D2, FE, CL |
| C06_constant_nodes_not_registered_refuted | Properties_Params.v | D1, D2, FE, CL |
| C07_unknown_parameter | Properties_Names.v | D1, D2, FE, CL |
| C07_replay_on_search_point | Properties_Params2.v | D1, D2, FE, CL |
| C07_replay_on_larger_info | Properties_Params2.v | D1, D2, FE, CL |
| C07_building_only_extends | Properties_Params2.v | D1, D2, FE, CL |
| C07_reference_resolves_same_refuted | Properties_Params2.v | D1, D2, FE, CL |
| C08_scopes_restore | Properties_Params2.v | D1, D2, FE, CL |
| C08_setter_restores_string | Properties_Params2.v | D1, D2, FE, CL |
| C08_setter_inside_scope_restores_refuted | Properties_Params2.v | D1, D2, FE, CL |
| C08_throwing_options_restored_refuted | Properties_Params2.v | D1, D2, FE, CL |
| C09_reference_innermost_scope | Properties_Params2.v | D1, D2, FE, CL |
| C10_import_locked | Properties_Params2.v | none |
| C10_missing_file | Properties_Params2.v | D1, D2, FE, CL |
| C11_white_space | Properties_Names.v | none |
| C11_file_format | Properties_Names.v | none |
| C11_incomplete_record | Properties_Names.v | D1, D2, FE, CL |
| C11_import_mean_std | Properties_Params2.v | D1, D2, FE, CL |
| C11_counts | Properties_Params2.v | D1, D2, FE, CL |
| C11_imported_parameters_valid_refuted | Properties_Params2.v | D1, D2, FE, CL |
| C12_is_feasible | Properties_Params3.v | D1, D2, FE, CL |
| C12_clamp | Properties_Params3.v | D1, D2, FE, CL |
| C12_short_vector_undefined | Properties_Params3.v | none |
| C12_nan_infeasible_refuted | Properties_Params3.v | D1, D2, FE, CL |
| C13_set_mean_std | Properties_Params3.v | none |
| C13_set_std_minimum | Properties_Params3.v | D1, D2, FE, CL |
| C14_stored_value | Properties_SearchPoint.v | D1, D2, FE, CL |
| C14_projection | Properties_SearchPoint.v | D1, D2, FE, CL |
| C14_search_point_values | Properties_SearchPoint.v | none |
| C14_rounded_stays_within_range_refuted | Properties_SearchPoint.v | D1, D2, FE, CL |
| C14_rounded_stays_within_8_digit_range | Properties_SearchPoint.v | D1, D2, FE, CL |
| C15_import_any_file | Properties_Names.v | none |
| C15_columns | Properties_Names.v | none |
| C15_write_import_round_trip | Properties_SearchPoint.v | D1, D2, FE, CL |
| C15_empty_point_refuted | Properties_SearchPoint.v | none |
| C15_imported_value_unrounded_refuted | Properties_SearchPoint.v | D1, D2, FE, CL |
| C16_last_allowed_write | Properties_SearchPoint.v | none |
| C16_return_values | Properties_SearchPoint.v | none |
| C17_is_better_strict_order | Properties_Params3.v | D1, D2, FE, CL |
| C17_infinity_not_worse_than_worst_refuted | Properties_Params3.v | none |
| C17_strict_weak_order_refuted | Properties_Params3.v | D1, D2, FE, CL |
| C18_find_best_fitness | Properties_Params3.v | D1, D2, FE, CL |
| C18_nan_ignored_refuted | Properties_Params3.v | D1, D2, FE, CL |
| C19_best_is_best_ever | Properties_Optimizer.v | D1, D2, FE, CL |
| C19_monotone | Properties_Optimizer.v | D1, D2, FE, CL |
| C20_failed_step_es | Properties_Failed.v | D1, D2, FE, CL |
| C20_failed_step_cma | Properties_Failed.v | D1, D2, FE, CL |
| C20_error_threshold | Properties_Optimizer.v | none |
| C20_failed_step_has_no_effect | Properties_Optimizer.v | D1, D2, FE, CL |
| C20_error_messages | Properties_Optimizer.v | none |
| C20_tolerated_errors_count_as_worst | Properties_Optimizer.v | D1, D2, FE, CL |
| C20_negative_allowance | Properties_Optimizer.v | none |
| C21_run | Properties_Optimizer.v | D1, D2, FE, CL |
| C21_current_step | Properties_Optimizer.v | D1, D2, FE, CL |
| C21_run_current_step | Properties_Optimizer.v | D1, D2, FE, CL |
| C21_run_after_stop_makes_one_step | Properties_Optimizer3.v | D1, D2, FE, CL |
| C22_first_true | Properties_Optimizer2.v | D1, D2, FE, CL |
| C22_latched_for_ever | Properties_Optimizer2.v | D1, D2, FE, CL |
| C22_on_stop_exactly_once | Properties_Optimizer2.v | D1, D2, FE, CL |
| C23_abort | Properties_Optimizer4.v | D1, D2, FE, CL |
| C23_max_steps | Properties_Optimizer4.v | D1, D2, FE, CL |
| C23_target | Properties_Optimizer4.v | D1, D2, FE, CL |
| C23_error | Properties_Optimizer4.v | D1, D2, FE, CL |
| C23_flat_fitness | Properties_Optimizer4.v | D1, D2, FE, CL |
| C23_min_progress | Properties_Optimizer4.v | D1, D2, FE, CL |
| C23_predicted_fitness | Properties_Optimizer4.v | D1, D2, FE, CL |
| C23_min_progress_without_window | Properties_Optimizer4.v | D1, D2, FE, CL |
| C23_similarity | Properties_Optimizer4.v | D1, D2, FE, CL |
| C23_similarity_needs_cma | Properties_Optimizer4.v | D1, D2, FE, CL |
| C24_step_events | Properties_Optimizer2.v | D1, D2, FE, CL |
| C24_updated_best_is_visible | Properties_Optimizer2.v | D1, D2, FE, CL |
| C24_other_calls | Properties_Optimizer2.v | D1, D2, FE, CL |
| C24_reporters_have_no_influence | Properties_Optimizer2.v | D1, D2, FE, CL |
| C24_on_start_once_refuted | Properties_Optimizer4.v | D1, D2, FE, CL |
| C24_every_reporter_is_called_refuted | Properties_Optimizer4.v | D1, D2, FE, CL |
| C25_history_is_recent | Properties_Optimizer3.v | D1, D2, FE, CL |
| C25_history_fills_up | Properties_Optimizer3.v | D1, D2, FE, CL |
| C25_history_is_the_window | Properties_Optimizer3.v | D1, D2, FE, CL |
| C25_late_tracking | Properties_Optimizer3.v | D1, D2, FE, CL |
| C25_pool_shrinks_window_refuted | Properties_Pool4.v | D1, D2, FE, CL |
| C26_trend_is_never_stale | Properties_Optimizer3.v | D1, D2, FE, CL |
| C27_interrupt_is_sticky | Properties_Optimizer3.v | D1, D2, FE, CL |
| C28_evaluate_noexcept | Properties_Evaluator.v | none |
| C28_sequential | Properties_Evaluator.v | none |
| C29_batch | Properties_Evaluator.v | none |
| C29_batch_returns | Properties_Evaluator.v | none |
| C29_async | Properties_Evaluator.v | none |
| C29_async_returns | Properties_Evaluator.v | none |
| C29_pooled | Properties_Evaluator2.v | none |
| C30_exactly_once | Properties_Evaluator2.v | none |
| C30_mutual_exclusion | Properties_Evaluator5.v | none |
| C30_queue_guarded | Properties_Evaluator5.v | none |
| C31_completes | Properties_Evaluator3.v | none |
| C31_end_state | Properties_Evaluator3.v | none |
| C31_no_workers_refuted | Properties_Evaluator3.v | none |
| C32_returns_after_workers_exit | Properties_Evaluator4.v | none |
| C32_restart_after_workers_exit | Properties_Evaluator4.v | none |
| C32_destructor_hangs | Properties_Evaluator4.v | none |
| C32_destroy_idle_refuted | Properties_Evaluator4.v | none |
| C32_stop_terminates | Properties_Evaluator4.v | none |
| C32_lost_wakeup_refuted | Properties_Evaluator4.v | none |
| C33_thread_limit | Properties_Evaluator.v | none |
| C33_thread_count | Properties_Evaluator.v | none |
| C33_zero_threads_never_returns | Properties_Evaluator.v | none |
| C34_component_in_bounds | Properties_Boundary.v | D1, D2, FE, CL |
| C34_vector_componentwise | Properties_Boundary.v | D1, D2, FE, CL |
| C34_class_agrees | Properties_Boundary.v | D1, D2, FE, CL |
| C34_int_overflow_refuted | Properties_Boundary.v | D1, D2, FE, CL |
| C34_init_rejects | Properties_Boundary.v | D1, D2, FE, CL |
| C34_doubles_in_bounds | Properties_Boundary2.v | D1, D2, FE, CL |
| C34_doubles_identity | Properties_Boundary2.v | D1, D2, FE, CL |
| C34_doubles_vector | Properties_Boundary2.v | D1, D2, FE, CL |
| C34_doubles_nan_refuted | Properties_Boundary2.v | D1, D2, FE, CL |
| C34_doubles_huge_bounds_refuted | Properties_Boundary2.v | D1, D2, FE, CL |
| C35_periodic_even | Properties_Boundary.v | D1, D2, FE, CL |
| C35_continuous_monotone | Properties_Boundary.v | D1, D2, FE, CL |
| C35_inverse | Properties_Boundary.v | D1, D2, FE, CL |
| C35_inverse_vector | Properties_Boundary.v | D1, D2, FE, CL |
| C35_doubles_accurate | Properties_Boundary3.v | D1, D2, FE, CL |
| C35_doubles_continuous_monotone | Properties_Boundary3.v | D1, D2, FE, CL |
| C35_doubles_periodic_even | Properties_Boundary3.v | D1, D2, FE, CL |
| C35_doubles_inverse | Properties_Boundary3.v | D1, D2, FE, CL |
| C35_doubles_inverse_vector | Properties_Boundary3.v | D1, D2, FE, CL |
| C35_doubles_exact_inverse_refuted | Properties_Boundary3.v | D1, D2, FE, CL |
| C36_reflective | Properties_Boundary.v | D1, D2, FE, CL |
| C36_soft_limit | Properties_Boundary.v | D1, D2, FE, CL |
| C36_independent | Properties_Boundary.v | D1, D2, FE, CL |
| C37_cma_sampled_before_rounding | Properties_Cma3.v | D1, D2, FE, CL |
| C37_cma_population_within_bounds | Properties_Cma3.v | D1, D2, FE, CL |
| C37_cma_population_within_bounds_or_zero | Properties_Cma3.v | D1, D2, FE, CL |
| C37_cma_run_asks_within_bounds_or_zero | Properties_Cma3.v | D1, D2, FE, CL |
| C37_cma_best_point | Properties_Cma3.v | D1, D2, FE, CL |
| C37_cma_nan_refuted | Properties_Cma3.v | D1, D2, FE, CL |
| C37_es_sampled_before_rounding | Properties_ES2.v | D1, D2, FE, CL |
| C37_es_population_within_bounds | Properties_ES2.v | D1, D2, FE, CL |
| C37_es_run_asks_within_bounds | Properties_ES2.v | D1, D2, FE, CL |
| C37_es_best_point_within_bounds | Properties_ES2.v | D1, D2, FE, CL |
| C37_es_population_within_bounds_here | Properties_ES4.v | D1, D2, FE, CL |
| C37_es_run_asks_within_bounds_or_zero | Properties_ES4.v | D1, D2, FE, CL |
| C37_es_nan_draw_refuted | Properties_ES4.v | D1, D2, FE, CL |
| C38_any_optimizer | Properties_Duality.v | D1, D2, FE, CL |
| C38_mes | Properties_Duality.v | D1, D2, FE, CL |
| C38_eva | Properties_Duality.v | D1, D2, FE, CL |
| C38_cma | Properties_Duality.v | D1, D2, FE, CL |
| C39_cma_seed | Properties_CmaOptions.v | D1, D2, FE, CL |
| C39_cma_seed_zero | Properties_CmaOptions.v | D1, D2, FE, CL |
| C39_answers | Properties_Repro.v | none |
| C39_run_is_a_function | Properties_Repro.v | D1, D2, FE, CL |
| C39_reproducible | Properties_Repro.v | D1, D2, FE, CL |
| C40_schrage | Properties_CmaRandom.v | none |
| C40_no_overflow | Properties_CmaRandom.v | none |
| C40_state_in_range | Properties_CmaRandom.v | none |
| C40_uniform_open_interval | Properties_CmaRandom.v | D1, D2, FE, CL |
| C40_uniform_open_interval_doubles | Properties_CmaRandom.v | D1, D2, FE, CL |
| C40_gauss | Properties_CmaRandom.v | D1, D2, FE, CL |
| C40_every_seed | Properties_CmaRandom.v | none |
| C40_seed_fixes_the_stream | Properties_CmaRandom.v | none |
| C40_nonzero_seed_is_reproducible_refuted | Properties_CmaRandom.v | D1, D2, FE, CL |
| C40_seeds_are_distinct_refuted | Properties_CmaRandom.v | none |
| C41_weights | Properties_Cma.v | D1, D2, FE, CL |
| C41_weights_doubles | Properties_CmaWeights2.v | D1, D2, FE, CL |
| C41_doubles_nonvacuous | Properties_CmaWeights2.v | D1, D2, FE, CL |
| C42_parameters | Properties_Cma.v | D1, D2, FE, CL |
| C42_equal_bounds_rejected | Properties_Cma3.v | D1, D2, FE, CL |
| C42_options_used | Properties_CmaOptions.v | D1, D2, FE, CL |
| C42_parameters_doubles | Properties_CmaPars2.v | D1, D2, FE, CL |
| C42_creation_doubles | Properties_CmaPars2.v | D1, D2, FE, CL |
| C42_doubles_nonvacuous | Properties_CmaPars2.v | D1, D2, FE, CL |
| C43_ranking_sorts | Properties_Cma.v | D1, D2, FE, CL |
| C43_ranking_is_permutation | Properties_Cma.v | none |
| C43_ranking_sorts_reals | Properties_Cma.v | D1, D2, FE, CL |
| C43_nan_ranks_first_refuted | Properties_Cma.v | D1, D2, FE, CL |
| C43_update_depends_only_on_comparisons | Properties_Cma.v | D1, D2, FE, CL |
| C44_covariance_positive | Properties_Cma2.v | D1, D2, FE, CL |
| C44_initial_std | Properties_Cma2.v | D1, D2, FE, CL |
| C44_axes_positive | Properties_Cma2.v | D1, D2, FE, CL |
| C44_zero_std_refuted | Properties_Cma2.v | D1, D2, FE, CL |
| C44_std_doubles | Properties_CmaStd.v | D1, D2, FE, CL |
| C44_doubles_nonvacuous | Properties_CmaStd.v | D1, D2, FE, CL |
| C45_protocol | Properties_Cma.v | none |
| C45_alternating_never_throws | Properties_Cma.v | none |
| C46_mean_within_bounds | Properties_Cma2.v | D1, D2, FE, CL |
| C46_updated_description_valid | Properties_CmaDescription.v | D1, D2, FE, CL |
| C46_transformed_description_valid | Properties_CmaDescription.v | D1, D2, FE, CL |
| C46_doubles_refuted | Properties_CmaDescription.v | D1, D2, FE, CL |
| C46_doubles_mean_near_bounds | Properties_CmaDescription2.v | D1, D2, FE, CL |
| C46_doubles_near_nonvacuous | Properties_CmaDescription2.v | D1, D2, FE, CL |
| C47_mes_variance_nonnegative | Properties_ES.v | D1, D2, FE, CL |
| C47_eva_variance_nonnegative | Properties_ES.v | D1, D2, FE, CL |
| C47_mes_mean_within_bounds | Properties_ES.v | D1, D2, FE, CL |
| C47_eva_mean_within_bounds | Properties_ES.v | D1, D2, FE, CL |
| C47_order_is_best_first | Properties_ES3.v | D1, D2, FE, CL |
| C47_only_the_mu_best | Properties_ES3.v | none |
| C47_dimensions | Properties_ES3.v | D1, D2, FE, CL |
| C47_always_defined | Properties_ES3.v | D1, D2, FE, CL |
| C47_mu_is_not_checked | Properties_ES3.v | none |
| C47_sampling_distribution | Properties_ES4.v | D1, D2, FE, CL |
| C47_default_sizes | Properties_ES4.v | D1, D2, FE, CL |
| C47_no_parameters_refuted | Properties_ES4.v | D1, D2, FE, CL |
| C47_mes_mean_within_bounds_with_momentum_refuted | Properties_ES4.v | D1, D2, FE, CL |
| C47_mu_above_lambda_refuted | Properties_ES4.v | D1, D2, FE, CL |
| C47_mes_update | Properties_ES5.v | D1, D2, FE, CL |
| C47_eva_update | Properties_ES5.v | D1, D2, FE, CL |
| C47_start | Properties_ES5.v | D1, D2, FE, CL |
| C47_mes_variance_doubles | Properties_ES6.v | D1, D2, FE, CL |
| C47_eva_variance_doubles | Properties_ES6.v | D1, D2, FE, CL |
| C47_default_options | Properties_ES6.v | D1, D2, FE, CL |
| C47_mes_options_used | Properties_ES6.v | D1, D2, FE, CL |
| C47_eva_options_used | Properties_ES6.v | D1, D2, FE, CL |
| C47_start_doubles | Properties_ES6.v | D1, D2, FE, CL |
| C47_flat_default | Properties_ES6.v | D2, FE |
| C47_population_size | Properties_ES7.v | D1, D2, FE, CL |
| C47_default_values | Properties_ES7.v | D1, D2, FE, CL |
| C47_mes_mean_near_bounds_doubles | Properties_ES8.v | D1, D2, FE, CL |
| C47_eva_mean_near_bounds_doubles | Properties_ES8.v | D1, D2, FE, CL |
| C47_near_bounds_nonvacuous | Properties_ES8.v | D1, D2, FE, CL |
| C48_cma | Properties_Cma3.v | D1, D2, FE, CL |
| C48_cma_without_transformer | Properties_Cma3.v | D1, D2, FE, CL |
| C48_es | Properties_ES3.v | D1, D2, FE, CL |
| C48_es_state_report | Properties_ES3.v | D1, D2, FE, CL |
| C49_pool_best_is_best_of_stepped | Properties_Pool2.v | D1, D2, FE, CL |
| C49_pool_best_is_best_of_all | Properties_Pool2.v | D1, D2, FE, CL |
| C49_never_worse | Properties_Pool2.v | D1, D2, FE, CL |
| C49_after_exception_refuted | Properties_Pool4.v | D1, D2, FE, CL |
| C50_step_shape | Properties_Pool2.v | D1, D2, FE, CL |
| C50_step_counts | Properties_Pool2.v | D1, D2, FE, CL |
| C50_new_queue | Properties_Pool3.v | D1, D2, FE, CL |
| C50_predictions | Properties_Pool3.v | D1, D2, FE, CL |
| C50_progress | Properties_Pool3.v | D1, D2, FE, CL |
| C50_active_limit_refuted | Properties_Pool4.v | D1, D2, FE, CL |
| C50_stopped_member_stepped_refuted | Properties_Pool4.v | D1, D2, FE, CL |
| C50_progress_refuted | Properties_Pool4.v | D1, D2, FE, CL |
| C51_condition | Properties_Pool4.v | D1, D2, FE, CL |
| C51_stops_iff_all_stopped | Properties_Pool4.v | D1, D2, FE, CL |
| C51_latched | Properties_Pool4.v | D1, D2, FE, CL |
| C51_interrupt | Properties_Pool4.v | D1, D2, FE, CL |
| C51_user_conditions | Properties_Pool8.v | D1, D2, FE, CL |
| C51_target_needs_best | Properties_Pool8.v | D1, D2, FE, CL |
| C51_target_before_best_refuted | Properties_Pool8.v | D1, D2, FE, CL |
| C52_bookkeeping_is_bounded | Properties_FileReporter3.v | D1, D2, FE, CL |
| C52_newest_best_is_on_disk | Properties_FileReporter3.v | D1, D2, FE, CL |
| C52_best_point_is_on_disk | Properties_FileReporter3.v | D1, D2, FE, CL |
| C52_best_point_can_be_reloaded | Properties_FileReporter3.v | D1, D2, FE, CL |
| C52_kept_files | Properties_FileReporter3.v | D1, D2, FE, CL |
| C52_first_best_is_kept | Properties_FileReporter3.v | D1, D2, FE, CL |
| C52_significant_bests_are_kept | Properties_FileReporter3.v | D1, D2, FE, CL |
| C52_insignificant | Properties_FileReporter3.v | D1, D2, FE, CL |
| C52_other_files_are_untouched | Properties_FileReporter3.v | D1, D2, FE, CL |
| C52_pool_newest_best_is_on_disk_refuted | Properties_FileReporter5.v | D1, D2, FE, CL |
| C52_file_names | Properties_FileReporter7.v | D1, D2, FE, CL |
| C53_file_at_least_every_max_steps | Properties_FileReporter3.v | D1, D2, FE, CL |
| C54_length_doubles | Properties_Objectives3.v | D1, D2, FE, CL |
| C54_update_doubles | Properties_Objectives3.v | D1, D2, FE, CL |
| C54_update_doubles_nonvacuous | Properties_Objectives3.v | D1, D2, FE, CL |
| C54_compute_mean_std | Properties_Stats.v | D1, D2, FE, CL |
| C54_mean_std_of_nothing_refuted | Properties_Stats.v | D1, D2, FE, CL |
| C54_length | Properties_Stats.v | D1, D2, FE, CL |
| C54_normalized_distance | Properties_Stats.v | D1, D2, FE, CL |
| C54_mahalanobis_is_diagonal | Properties_Stats.v | D1, D2, FE, CL |
| C54_mahalanobis_ignores_correlations_refuted | Properties_Stats.v | D1, D2, FE, CL |
| C54_update | Properties_Stats.v | D1, D2, FE, CL |
| C54_projected_is_nearest | Properties_Stats.v | D1, D2, FE, CL |
| C54_projected_degenerate | Properties_Stats.v | D1, D2, FE, CL |
| C54_projected_short_direction_refuted | Properties_Stats.v | D1, D2, FE, CL |
| C54_projected_needs_one_dimension | Properties_Stats.v | D1, D2, FE, CL |
| C54_mean_std_doubles | Properties_Stats2.v | D1, D2, FE, CL |
| C54_doubles_nonvacuous | Properties_Stats2.v | D1, D2, FE, CL |
| C55_sphere | Properties_Objectives.v | D1, D2, FE, CL |
| C55_ellipsoid | Properties_Objectives.v | D1, D2, FE, CL |
| C55_rosenbrock | Properties_Objectives.v | D1, D2, FE, CL |
| C55_rosenbrock_1d_unique_refuted | Properties_Objectives.v | D1, D2, FE, CL |
| C55_rosenbrock_0d_refuted | Properties_Objectives.v | D1, D2, FE, CL |
| C55_rastrigin | Properties_Objectives.v | D1, D2, FE, CL |
| C55_himmelblau | Properties_Objectives.v | D1, D2, FE, CL |
| C55_himmelblau_needs_two_refuted | Properties_Objectives.v | D1, D2, FE, CL |
| C55_data_objective | Properties_Objectives.v | D1, D2, FE, CL |
| C55_data_objective_without_data_refuted | Properties_Objectives2.v | D1, D2, FE, CL |
| C55_data_objective_doubles | Properties_Objectives3.v | D1, D2, FE, CL |
| C55_data_doubles_nonvacuous | Properties_Objectives3.v | D1, D2, FE, CL |
| C55_sphere_doubles | Properties_Objectives3.v | D1, D2, FE, CL |
| C55_ellipsoid_doubles | Properties_Objectives3.v | D1, D2, FE, CL |
| C55_sphere_doubles_nonvacuous | Properties_Objectives3.v | D1, D2, FE, CL |
| C55_sphere_unique_doubles_refuted | Properties_Objectives3.v | D1, D2, FE, CL |
| C56_optional_parameters | Properties_Params3.v | D1, D2, FE, CL |
| C57_make_objective_info | Properties_Params3.v | D1, D2, FE, CL |
| C57_make_objective_info_vec | Properties_Params3.v | D1, D2, FE, CL |
| C58_history_has_one_row_per_step | Properties_FileReporter4.v | D1, D2, FE, CL |
| C58_rows_are_the_steps | Properties_FileReporter4.v | D1, D2, FE, CL |
| C58_rows_match_the_header | Properties_FileReporter6.v | D1, D2, FE, CL |
| C58_rows_match_the_header_refuted | Properties_FileReporter6.v | D1, D2, FE, CL |
| C58_row_contents | Properties_FileReporter7.v | D1, D2, FE, CL |
| C58_header_contents | Properties_FileReporter7.v | none |
| C59_never_negative | Properties_Objectives2.v | D1, D2, FE, CL |
| C59_no_nan | Properties_Objectives2.v | D1, D2, FE, CL |
| C59_optimum_exact | Properties_Objectives2.v | D1, D2, FE, CL |
| C59_objectives | Properties_Objectives2.v | D1, D2, FE, CL |
| C59_make_objectives | Properties_Objectives2.v | D1, D2, FE, CL |
| C59_rastrigin_never_negative | Properties_Objectives4.v | D1, D2, FE, CL |
| C59_rastrigin_optimum_exact | Properties_Objectives4.v | D1, D2, FE, CL |
| C59_rastrigin_nonvacuous | Properties_Objectives4.v | D1, D2, FE, CL |
| C60_schwefel | Properties_Schwefel.v | D1, D2, FE, CL |
| C60_range_matters_refuted | Properties_Schwefel.v | D1, D2, FE, CL |
| C60_schwefel_doubles | Properties_Schwefel2.v | D1, D2, FE, CL |
| C60_doubles_nonvacuous | Properties_Schwefel2.v | D1, D2, FE, CL |
| C60_near_zero_doubles | Properties_Schwefel2.v | D1, D2, FE, CL |
| C61_eigendecomposition | Properties_Eigen.v | D1, D2, FE, CL |
| C61_never_undefined | Properties_Eigen.v | D1, D2, FE, CL |
| C61_terminates | Properties_Eigen.v | D1, D2, FE, CL |
| C61_eigenpairs | Properties_Eigen.v | D1, D2, FE, CL |
| C61_eigenvalues_positive | Properties_Eigen.v | D1, D2, FE, CL |
| C61_sampling | Properties_Eigen.v | D1, D2, FE, CL |
| C61_sizes | Properties_Eigen.v | none |
| C61_unlimited | Properties_Eigen.v | D1, D2, FE, CL |
| C61_protocol | Properties_Eigen.v | D1, D2, FE, CL |
| C61_nan_refuted | Properties_Eigen.v | D1, D2, FE, CL |
| C62_step_output | Properties_Console.v | D1, D2, FE, CL |
| C62_other_calls_output | Properties_Console.v | D1, D2, FE, CL |
| C62_error_message | Properties_Console.v | D1, D2, FE, CL |
| C62_prediction_message | Properties_Console.v | D1, D2, FE, CL |
| C62_messages | Properties_Console.v | none |
| C62_screen_shows_the_last_step_refuted | Properties_Console.v | D1, D2, FE, CL |
| C63_order_of_gets_does_not_matter | Properties_Order.v | D1, D2, FE, CL |
| C63_alike_is_indistinguishable | Properties_Order.v | D1, D2, FE, CL |
| C63_vec3_any_order | Properties_Order.v | D1, D2, FE, CL |
| C63_vec3_components | Properties_Order.v | D1, D2, FE, CL |
| C63_vec3_absent | Properties_Order.v | D1, D2, FE, CL |
| C63_same_parameter_order_refuted | Properties_Order.v | D1, D2, FE, CL |
| C63_vec3_with_references_refuted | Properties_Order.v | D1, D2, FE, CL |
| C64_even_warm_up | Properties_Pool5.v | D1, D2, FE, CL |
| C64_no_stall_in_warm_up | Properties_Pool5.v | D1, D2, FE, CL |
| C64_queue_is_served_in_order | Properties_Pool5.v | D1, D2, FE, CL |
| C64_more_than_active_refuted | Properties_Pool5.v | D1, D2, FE, CL |
| C64_after_warm_up_refuted | Properties_Pool5.v | D1, D2, FE, CL |
| C65_race_free_is_deterministic | Properties_Pool6.v | D1, D2, FE, CL |
| C65_one_at_a_time | Properties_Pool6.v | D1, D2, FE, CL |
| C65_best_not_overtaken | Properties_Pool6.v | D1, D2, FE, CL |
| C65_predicted_stop_races | Properties_Pool6.v | D1, D2, FE, CL |
| C65_overtaken_best_races | Properties_Pool6.v | D1, D2, FE, CL |
| C65_default_configuration_refuted | Properties_Pool6.v | D1, D2, FE, CL |
| C66_step_events | Properties_Pool7.v | D1, D2, FE, CL |
| C66_other_calls | Properties_Pool7.v | D1, D2, FE, CL |
| C66_announcements | Properties_Pool7.v | D1, D2, FE, CL |
| C67_age | Properties_Cma4.v | D1, D2, FE, CL |
| C67_alternating | Properties_Cma4.v | D1, D2, FE, CL |
| C67_frequency | Properties_Cma4.v | D1, D2, FE, CL |
| C67_only_after_updates | Properties_Cma4.v | D1, D2, FE, CL |
| C67_default_frequency | Properties_Cma4.v | D1, D2, FE, CL |
| C67_default_options | Properties_CmaOptions.v | D1, D2, FE, CL |
| C68_any_optimizer | Properties_Rank.v | D1, D2, FE, CL |
| C68_mes | Properties_Rank.v | D1, D2, FE, CL |
| C68_eva | Properties_Rank.v | D1, D2, FE, CL |
| C68_cma | Properties_Rank.v | D1, D2, FE, CL |
| C68_observers_do_not_interfere | Properties_Rank.v | D1, D2, FE, CL |
| C69_update_equations | Properties_CmaUpdate.v | D1, D2, FE, CL |
| C69_strategy_parameters | Properties_CmaUpdate.v | D1, D2, FE, CL |
| C70_cma_origin_and_unit | Properties_Affine.v | D1, D2, FE, CL |
| C70_transformers_move | Properties_Affine.v | D1, D2, FE, CL |
| C70_cmaes_transformer_moves_refuted | Properties_Affine.v | D1, D2, FE, CL |
| C70_mes_origin_and_unit | Properties_Affine.v | D1, D2, FE, CL |
| C70_eva_origin_and_unit | Properties_Affine.v | D1, D2, FE, CL |
| C70_cma_nonvacuous | Properties_Affine.v | D1, D2, FE, CL |
| C70_es_nonvacuous | Properties_Affine.v | D1, D2, FE, CL |
| C71_scoped_name | Properties_Names.v | D1, D2, FE, CL |
| C71_dots | Properties_Names.v | D1, D2, FE, CL |
| C71_options | Properties_Names.v | D1, D2, FE, CL |
| C71_aliases | Properties_Names.v | D1, D2, FE, CL |
| C72_members_as_if_alone | Properties_Pool9.v | D1, D2, FE, CL |
| C72_best_of_separate_runs | Properties_Pool9.v | D1, D2, FE, CL |
| C72_one_member | Properties_Pool9.v | D1, D2, FE, CL |
| C72_es_works | Properties_Pool9.v | D1, D2, FE, CL |
| C73_import | Properties_Resume.v | D1, D2, FE, CL |
| C73_same_parameters | Properties_Resume.v | D1, D2, FE, CL |
| C73_valid | Properties_Resume.v | D1, D2, FE, CL |
| C73_es | Properties_Resume.v | D1, D2, FE, CL |
| C73_new_es | Properties_Resume.v | D1, D2, FE, CL |
| C73_cma | Properties_Resume.v | D1, D2, FE, CL |
| C73_best_file | Properties_Resume.v | D1, D2, FE, CL |
| C74_cma_sample | Properties_Sampling.v | none |
| C74_cma_history | Properties_Sampling.v | none |
| C74_es_sample | Properties_Sampling.v | none |
| C74_es_run | Properties_Sampling.v | D1, D2, FE, CL |
| C74_cma_run | Properties_Sampling.v | D1, D2, FE, CL |
| C75_changes_of_a_call | Properties_Crash.v | D1, D2, FE, CL |
| C75_older_files_survive | Properties_Crash.v | D1, D2, FE, CL |
| C75_crash_point | Properties_Crash.v | D1, D2, FE, CL |
| C75_safe_if_closed_first | Properties_Crash.v | D1, D2, FE, CL |
| C75_history_prefix | Properties_Crash.v | D1, D2, FE, CL |
| C75_newest_best_survives_refuted | Properties_Crash.v | D1, D2, FE, CL |
| C75_max_steps_zero_refuted | Properties_Crash.v | D1, D2, FE, CL |
| C76_asking_changes_nothing | Properties_Later.v | D1, D2, FE, CL |
| C76_late_reporter | Properties_Later.v | D1, D2, FE, CL |
| C76_late_condition | Properties_Later.v | D1, D2, FE, CL |
| C76_late_prediction_refuted | Properties_Later.v | D1, D2, FE, CL |
| C77_only_own_file | Properties_Faults.v | D1, D2, FE, CL |
| C77_kept_bests | Properties_Faults.v | D1, D2, FE, CL |
| C77_full_disk | Properties_Faults.v | D1, D2, FE, CL |
| C77_first_best | Properties_Faults.v | D1, D2, FE, CL |
| C77_one_failure_costs_two_bests_refuted | Properties_Faults.v | D1, D2, FE, CL |
| C77_failed_description | Properties_FileReporter8.v | D1, D2, FE, CL |
| C78_choice | Properties_NaN.v | D1, D2, FE, CL |
| C78_best_is_a_number | Properties_NaN.v | D1, D2, FE, CL |
| C78_wasted_step | Properties_NaN.v | D1, D2, FE, CL |
| C78_other_step | Properties_NaN.v | D1, D2, FE, CL |
| C78_best_of_the_others | Properties_NaN.v | D1, D2, FE, CL |
| C78_never_flat | Properties_NaN.v | D1, D2, FE, CL |
| C78_target_unaffected | Properties_NaN.v | D1, D2, FE, CL |
| C78_window | Properties_NaN.v | D1, D2, FE, CL |
| C78_best_ever_refuted | Properties_NaN.v | D1, D2, FE, CL |
| C79_step_limit | Properties_Pool10.v | D1, D2, FE, CL |
| C79_after_error | Properties_Pool10.v | D1, D2, FE, CL |
| C79_pool_ends | Properties_Pool10.v | D1, D2, FE, CL |
| C79_limit_above_start_refuted | Properties_Pool10.v | D1, D2, FE, CL |
| C79_no_concurrent_refuted | Properties_Pool10.v | D1, D2, FE, CL |
| C79_no_active_refuted | Properties_Pool10.v | D1, D2, FE, CL |
| C80_file_names | Properties_FileReporter8.v | none |
| C80_individuals_are_on_disk | Properties_FileReporter8.v | D1, D2, FE, CL |
| C80_individuals_can_be_reloaded | Properties_FileReporter8.v | D1, D2, FE, CL |
| C80_no_individuals | Properties_FileReporter8.v | D1, D2, FE, CL |
| C80_only_evaluated_individuals_refuted | Properties_FileReporter8.v | D1, D2, FE, CL |
| C81_settings | Properties_PoolOptions.v | none |
| C81_garbled | Properties_PoolOptions.v | none |
| C81_only_these_entries | Properties_PoolOptions.v | none |
| C81_joining | Properties_PoolOptions.v | none |
| C81_concurrency | Properties_PoolOptions.v | D1, D2, FE, CL |
| C82_refused | Properties_NoParams.v | D1, D2, FE, CL |
| C82_refused_steps | Properties_NoParams.v | D1, D2, FE, CL |
| C82_pool | Properties_NoParams.v | D1, D2, FE, CL |
| C82_construction | Properties_NoParams.v | D1, D2, FE, CL |
| C82_construction_cma | Properties_NoParams.v | none |
| C82_all_locked | Properties_NoParams.v | none |
| C82_empty_file | Properties_NoParams.v | none |
| C83_find | Properties_StopAccess.v | D1, D2, FE, CL |
| C83_found_for_ever | Properties_StopAccess.v | D1, D2, FE, CL |
| C83_change_takes_effect | Properties_StopAccess.v | D1, D2, FE, CL |
| C83_search_unaffected | Properties_StopAccess.v | D1, D2, FE, CL |
| C83_stop_with_an_error | Properties_StopAccess.v | D1, D2, FE, CL |
