{
 "claims": [
  {
   "property": "C01",
   "status": "proved",
   "theorems": [
    "C01_lookup_positions",
    "C01_lookup_round_trip",
    "C01_lookup_nothing"
   ],
   "note": "In UtilProps.v."
  },
  {
   "property": "C02",
   "status": "proved",
   "theorems": [
    "C02_removal_keeps_the_rest",
    "C02_removal_depends_on_the_set_of_indices",
    "C02_removal_error_condition",
    "C02_removal_only_value_errors",
    "C02_ignored_indices",
    "C02_out_of_range_rejected_refuted",
    "C02_negative_index_refuted"
   ],
   "note": "In UtilProps.v. Clauses that the code does not satisfy are stated as refutations: C02_out_of_range_rejected_refuted, C02_negative_index_refuted."
  },
  {
   "property": "C03",
   "status": "proved",
   "theorems": [
    "C03_remove_variables",
    "C03_remaining_elements"
   ],
   "note": "In UtilProps.v."
  },
  {
   "property": "C04",
   "status": "proved",
   "theorems": [
    "C04_unique_or_error",
    "C04_all_matches",
    "C04_exact_and_pattern_matches",
    "C04_full_name_identifies_refuted"
   ],
   "note": "In UtilProps.v. Clauses that the code does not satisfy are stated as refutations: C04_full_name_identifies_refuted."
  },
  {
   "property": "C05",
   "status": "proved",
   "theorems": [
    "C05_join_lookup",
    "C05_join_error",
    "C05_join_associative",
    "C05_join_two",
    "C05_constant_theta",
    "C05_different_keys_rejected_refuted"
   ],
   "note": "In UtilProps.v. Clauses that the code does not satisfy are stated as refutations: C05_different_keys_rejected_refuted."
  },
  {
   "property": "C06",
   "status": "proved",
   "theorems": [
    "C06_tau_to_time_value",
    "C06_time_to_tau_value",
    "C06_conversions_preserve_value",
    "C06_round_trip_from_tau",
    "C06_round_trip_from_time",
    "C06_tau_eliminated",
    "C06_time_eliminated"
   ],
   "note": "In ExprProps.v."
  },
  {
   "property": "C07",
   "status": "proved",
   "theorems": [
    "C07_one_at_own_zero_at_others",
    "C07_interpolates",
    "C07_sums_to_one",
    "C07_reproduces_polynomials",
    "C07_method_basis"
   ],
   "note": "In LagProps.v."
  },
  {
   "property": "C08",
   "status": "proved",
   "theorems": [
    "C08_parameter_count",
    "C08_parameter_layout",
    "C08_degree_one_constant",
    "C08_method_approximation",
    "C08_empty_vector_refuted",
    "C08_unvec",
    "C08_unvec_refused"
   ],
   "note": "In LagProps.v. Clauses that the code does not satisfy are stated as refutations: C08_empty_vector_refuted."
  },
  {
   "property": "C09",
   "status": "proved",
   "theorems": [
    "C09_aligned_and_ordered",
    "C09_constraint_bounds_ordered",
    "C09_rejected_changes_nothing",
    "C09_accepted_only_appends",
    "C09_scalar_bounds",
    "C09_dependent_bounds_refused",
    "C09_int_bound_refuted",
    "C09_symbolic_bounds_unchecked_refuted"
   ],
   "note": "In NlpProps.v. Clauses that the code does not satisfy are stated as refutations: C09_int_bound_refuted, C09_symbolic_bounds_unchecked_refuted."
  },
  {
   "property": "C10",
   "status": "proved",
   "theorems": [
    "C10_feasible_iff_all_accepted",
    "C10_later_requests_intersect",
    "C10_node_identity_refuted"
   ],
   "note": "In NlpProps.v. Clauses that the code does not satisfy are stated as refutations: C10_node_identity_refuted."
  },
  {
   "property": "C11",
   "status": "proved",
   "theorems": [
    "C11_equality_recognised",
    "C11_inequality_recognised",
    "C11_strict_inequality_refuted"
   ],
   "note": "In NlpProps.v. Clauses that the code does not satisfy are stated as refutations: C11_strict_inequality_refuted."
  },
  {
   "property": "C12",
   "status": "proved",
   "theorems": [
    "C12_call_arguments",
    "C12_default_bounds",
    "C12_first_solve_uses_current_problem",
    "C12_later_solves_use_the_first_problem",
    "C12_solve_follows_the_problem_refuted"
   ],
   "note": "In NlpProps.v. Clauses that the code does not satisfy are stated as refutations: C12_solve_follows_the_problem_refuted."
  },
  {
   "property": "C13",
   "status": "proved",
   "theorems": [
    "C13_table_in_step",
    "C13_table_never_repeats",
    "C13_replacement_keeps_states",
    "C13_duplicates_rejected",
    "C13_removal",
    "C13_rejected_include_atomic_refuted",
    "C13_initial_conditions_after_removal_refuted",
    "C13_initial_conditions"
   ],
   "note": "In SysProps.v. Clauses that the code does not satisfy are stated as refutations: C13_rejected_include_atomic_refuted, C13_initial_conditions_after_removal_refuted."
  },
  {
   "property": "C14",
   "status": "proved",
   "theorems": [
    "C14_named_states",
    "C14_named_states_refused",
    "C14_derivative_form",
    "C14_derivative_sizes_refuted",
    "C14_guessed_states",
    "C14_guess_refused",
    "C14_states_without_equations",
    "C14_read_back"
   ],
   "note": "In SysProps.v. Clauses that the code does not satisfy are stated as refutations: C14_derivative_sizes_refuted."
  },
  {
   "property": "C15",
   "status": "proved",
   "theorems": [
    "C15_same_count",
    "C15_pairing",
    "C15_control_is_itself",
    "C15_remove_parametrised",
    "C15_failed_removal_atomic_refuted"
   ],
   "note": "In SysProps.v. Clauses that the code does not satisfy are stated as refutations: C15_failed_removal_atomic_refuted."
  },
  {
   "property": "C16",
   "status": "proved",
   "theorems": [
    "C16_evaluates_at_replacement",
    "C16_fresh_unchanged",
    "C16_sizes_and_frame"
   ],
   "note": "In SysProps.v."
  },
  {
   "property": "C17",
   "status": "proved",
   "theorems": [
    "C17_succeeds_iff",
    "C17_evaluates_with_expression",
    "C17_control_eliminated",
    "C17_bookkeeping",
    "C17_again_refused",
    "C17_refused_registers_nothing_refuted",
    "C17_only_controls_refuted"
   ],
   "note": "In SysProps.v. Clauses that the code does not satisfy are stated as refutations: C17_refused_registers_nothing_refuted, C17_only_controls_refuted."
  },
  {
   "property": "C18",
   "status": "proved",
   "theorems": [
    "C18_succeeds",
    "C18_shape",
    "C18_solutions",
    "C18_solutions_replace",
    "C18_sizes_checked_first",
    "C18_failed_connect_atomic_refuted"
   ],
   "note": "In SysProps.v. Clauses that the code does not satisfy are stated as refutations: C18_failed_connect_atomic_refuted."
  },
  {
   "property": "C19",
   "status": "proved",
   "theorems": [
    "C19_appended",
    "C19_solutions",
    "C19_merge_solutions",
    "C19_shared_state_refused",
    "C19_shared_state_error",
    "C19_incomplete_model_refused",
    "C19_parametrised_model_refuted"
   ],
   "note": "In SysProps.v. Clauses that the code does not satisfy are stated as refutations: C19_parametrised_model_refuted."
  },
  {
   "property": "C20",
   "status": "proved",
   "theorems": [
    "C20_copy_of_complete_model",
    "C20_free_parameters_copied_refuted",
    "C20_stateless_model_refuted",
    "C20_equations_stay_with_states_refuted",
    "C20_own_time_refuted"
   ],
   "note": "In SysProps.v. Clauses that the code does not satisfy are stated as refutations: C20_free_parameters_copied_refuted, C20_stateless_model_refuted, C20_equations_stay_with_states_refuted, C20_own_time_refuted."
  },
  {
   "property": "C21",
   "status": "proved",
   "theorems": [
    "C21_system_of_model",
    "C21_dictionary",
    "C21_join_sizes",
    "C21_join_solutions",
    "C21_join_solutions_without_tau",
    "C21_join_keeps_first",
    "C21_replace",
    "C21_algebraic_equations_dropped_refuted",
    "C21_tau_to_time"
   ],
   "note": "In SimProps.v. Clauses that the code does not satisfy are stated as refutations: C21_algebraic_equations_dropped_refuted."
  },
  {
   "property": "C22",
   "status": "proved",
   "theorems": [
    "C22_times",
    "C22_elements_chained",
    "C22_controls",
    "C22_integrator_call",
    "C22_concatenation",
    "C22_defaults",
    "C22_accepted",
    "C22_foreign_symbols",
    "C22_control_sizes",
    "C22_fails",
    "C22_zero_length_step"
   ],
   "note": "In SimProps.v."
  },
  {
   "property": "C23",
   "status": "proved",
   "theorems": [
    "C23_selection",
    "C23_options",
    "C23_name",
    "C23_unknown_name"
   ],
   "note": "In SimProps.v."
  },
  {
   "property": "C24",
   "status": "proved",
   "theorems": [
    "C24_bounds_follow_variables",
    "C24_entries_stay",
    "C24_new_problem",
    "C24_state_bound_lists_refuted",
    "C24_initial_equation_kept_refuted",
    "C24_algebraic_guess_kept_refuted"
   ],
   "note": "In OcpProps.v. Clauses that the code does not satisfy are stated as refutations: C24_state_bound_lists_refuted, C24_initial_equation_kept_refuted, C24_algebraic_guess_kept_refuted."
  },
  {
   "property": "C25",
   "status": "proved",
   "theorems": [
    "C25_state_sizes",
    "C25_initial_condition_required",
    "C25_algebraic_sizes",
    "C25_control_sizes",
    "C25_parameter_sizes",
    "C25_equation_sizes_atomic_refuted",
    "C25_duplicate_state_atomic_refuted",
    "C25_algebraic_guess_size_refuted",
    "C25_parameter_atomic_refuted",
    "C25_failed_removal_atomic_refuted"
   ],
   "note": "In OcpProps.v. Clauses that the code does not satisfy are stated as refutations: C25_equation_sizes_atomic_refuted, C25_duplicate_state_atomic_refuted, C25_algebraic_guess_size_refuted, C25_parameter_atomic_refuted, C25_failed_removal_atomic_refuted."
  },
  {
   "property": "C26",
   "status": "proved",
   "theorems": [
    "C26_appended",
    "C26_bounds",
    "C26_costs",
    "C26_other_horizon_refused",
    "C26_guess_kept_refuted",
    "C26_one_time_refuted"
   ],
   "note": "In OcpProps.v. Clauses that the code does not satisfy are stated as refutations: C26_guess_kept_refuted, C26_one_time_refuted."
  },
  {
   "property": "C27",
   "status": "proved",
   "theorems": [
    "C27_bounds_move",
    "C27_succeeds",
    "C27_guess_consistent_refuted",
    "C27_only_controls_refuted",
    "C27_replace_keeps_meaning_refuted"
   ],
   "note": "In OcpProps.v. Clauses that the code does not satisfy are stated as refutations: C27_guess_consistent_refuted, C27_only_controls_refuted, C27_replace_keeps_meaning_refuted."
  },
  {
   "property": "C28",
   "status": "proved",
   "theorems": [
    "C28_accepts_exactly",
    "C28_histories_pass",
    "C28_guesses_checked_refuted"
   ],
   "note": "In OcpProps.v. Clauses that the code does not satisfy are stated as refutations: C28_guesses_checked_refuted."
  },
  {
   "property": "C29",
   "status": "proved",
   "theorems": [
    "C29_grid",
    "C29_given_times",
    "C29_defaults",
    "C29_final_time_refuted",
    "C29_one_element_refuted",
    "C29_times_in_horizon_refuted"
   ],
   "note": "In OcpProps.v. Clauses that the code does not satisfy are stated as refutations: C29_final_time_refuted, C29_one_element_refuted, C29_times_in_horizon_refuted."
  },
  {
   "property": "C30",
   "status": "proved",
   "theorems": [
    "C30_one_time_per_column",
    "C30_insert",
    "C30_other_entries",
    "C30_insert_accepted_iff",
    "C30_sort",
    "C30_sort_some",
    "C30_sort_accepted_iff",
    "C30_extend",
    "C30_extend_succeeds",
    "C30_rows_are_size_refuted",
    "C30_size_from_data_refuted",
    "C30_create",
    "C30_create_refused",
    "C30_create_keeps_refuted"
   ],
   "note": "In DataProps.v. Clauses that the code does not satisfy are stated as refutations: C30_rows_are_size_refuted, C30_size_from_data_refuted, C30_create_keeps_refuted."
  },
  {
   "property": "C31",
   "status": "proved",
   "theorems": [
    "C31_unknown_entry_fails",
    "C31_missing_entry_copied_refuted",
    "C31_empty_entry_harmless_refuted"
   ],
   "note": "In DataProps.v. Clauses that the code does not satisfy are stated as refutations: C31_missing_entry_copied_refuted, C31_empty_entry_harmless_refuted."
  },
  {
   "property": "C32",
   "status": "proved",
   "theorems": [
    "C32_extend",
    "C32_other_sizes_refused",
    "C32_final_condition",
    "C32_simulation_points",
    "C32_new_result",
    "C32_elements_refuted",
    "C32_failed_extension_atomic_refuted"
   ],
   "note": "In DataProps.v. Clauses that the code does not satisfy are stated as refutations: C32_elements_refuted, C32_failed_extension_atomic_refuted."
  },
  {
   "property": "C33",
   "status": "proved",
   "theorems": [
    "C33_included",
    "C33_lookup",
    "C33_lookup_missing",
    "C33_lookup_name",
    "C33_iteration",
    "C33_visits_all",
    "C33_all_visited",
    "C33_models_in_order",
    "C33_new_node",
    "C33_own_id_refuted",
    "C33_not_included_refuted",
    "C33_rebuilt_refuted"
   ],
   "note": "In NetProps.v. Clauses that the code does not satisfy are stated as refutations: C33_own_id_refuted, C33_not_included_refuted, C33_rebuilt_refuted."
  },
  {
   "property": "C34",
   "status": "proved",
   "theorems": [
    "C34_groups",
    "C34_blocks",
    "C34_blocks_two_way",
    "C34_blocks_omit_refuted",
    "C34_blocks_linked_refuted"
   ],
   "note": "In NetProps.v. Clauses that the code does not satisfy are stated as refutations: C34_blocks_omit_refuted, C34_blocks_linked_refuted."
  },
  {
   "property": "C35",
   "status": "proved",
   "theorems": [
    "C35_paths",
    "C35_succeeds",
    "C35_same_connections",
    "C35_same_connections_back",
    "C35_isolated_refuted",
    "C35_not_atomic_refuted",
    "C35_start_time_refuted"
   ],
   "note": "In NetProps.v. Clauses that the code does not satisfy are stated as refutations: C35_isolated_refuted, C35_not_atomic_refuted, C35_start_time_refuted."
  },
  {
   "property": "C36",
   "status": "proved",
   "theorems": [
    "C36_structure",
    "C36_solutions",
    "C36_succeeds",
    "C36_problem",
    "C36_sizes_refuted",
    "C36_foreign_output_refuted"
   ],
   "note": "In NetProps.v. Clauses that the code does not satisfy are stated as refutations: C36_sizes_refuted, C36_foreign_output_refuted."
  },
  {
   "property": "C64",
   "status": "proved",
   "theorems": [
    "C64_initial_conditions",
    "C64_same_name_refuted"
   ],
   "note": "In NetProps.v. Clauses that the code does not satisfy are stated as refutations: C64_same_name_refuted."
  },
  {
   "property": "C37",
   "status": "proved",
   "theorems": [
    "C37_grid",
    "C37_defined",
    "C37_ends",
    "C37_increasing",
    "C37_points_inside",
    "C37_horizon_refuted",
    "C37_follows_changes_refuted"
   ],
   "note": "In DiscProps.v. Clauses that the code does not satisfy are stated as refutations: C37_horizon_refuted, C37_follows_changes_refuted."
  },
  {
   "property": "C38",
   "status": "proved",
   "theorems": [
    "C38_variables",
    "C38_same_shape",
    "C38_length",
    "C38_places",
    "C38_guess_with_parameters",
    "C38_unpack_packed",
    "C38_repack_unpacked",
    "C38_length_checked",
    "C38_injective"
   ],
   "note": "In DiscProps.v."
  },
  {
   "property": "C39",
   "status": "proved",
   "theorems": [
    "C39_variables",
    "C39_same_shape",
    "C39_length",
    "C39_places",
    "C39_unpack_packed",
    "C39_unpacked",
    "C39_length_checked"
   ],
   "note": "In DiscProps.v."
  },
  {
   "property": "C40",
   "status": "proved",
   "theorems": [
    "C40_new_method",
    "C40_symbols",
    "C40_parameters_reach_their_place",
    "C40_given_values",
    "C40_refused",
    "C40_explicit_last_control_refuted",
    "C40_no_initial_condition_refuted",
    "C40_sizes_checked_refuted"
   ],
   "note": "In DiscProps.v. Clauses that the code does not satisfy are stated as refutations: C40_explicit_last_control_refuted, C40_no_initial_condition_refuted, C40_sizes_checked_refuted."
  },
  {
   "property": "C41",
   "status": "proved",
   "theorems": [
    "C41_rounds",
    "C41_ends",
    "C41_one_round",
    "C41_counts",
    "C41_indefinite_refuted",
    "C41_debugger_refuted",
    "C41_several_refuted",
    "C41_shooting_refuted",
    "C41_fixed_control_refuted",
    "C41_fixed_with_estimator",
    "C41_fixed_with_estimator_refuted"
   ],
   "note": "In MpcProps.v. Clauses that the code does not satisfy are stated as refutations: C41_indefinite_refuted, C41_debugger_refuted, C41_several_refuted, C41_shooting_refuted, C41_fixed_control_refuted, C41_fixed_with_estimator_refuted."
  },
  {
   "property": "C42",
   "status": "proved",
   "theorems": [
    "C42_warm_start",
    "C42_factor_refuted",
    "C42_single_refuted",
    "C42_shooting_refuted"
   ],
   "note": "In MpcProps.v. Clauses that the code does not satisfy are stated as refutations: C42_factor_refuted, C42_single_refuted, C42_shooting_refuted."
  },
  {
   "property": "C43",
   "status": "proved",
   "theorems": [
    "C43_constructed",
    "C43_accepted",
    "C43_accepts",
    "C43_time",
    "C43_equidistant",
    "C43_in_order",
    "C43_wrong_size",
    "C43_default_step_refuted",
    "C43_no_points_refuted",
    "C43_set_control_refuted",
    "C43_failure_changes_refuted",
    "C43_labels_refuted"
   ],
   "note": "In PlantProps.v. Clauses that the code does not satisfy are stated as refutations: C43_default_step_refuted, C43_no_points_refuted, C43_set_control_refuted, C43_failure_changes_refuted, C43_labels_refuted."
  },
  {
   "property": "C44",
   "status": "proved",
   "theorems": [
    "C44_bounded_increase",
    "C44_constant",
    "C44_growth",
    "C44_growth_each",
    "C44_primal",
    "C44_primal_first",
    "C44_improving_refuted",
    "C44_lowered_refuted",
    "C44_unknown_rule",
    "C44_known_rule",
    "C44_set_exact",
    "C44_set_scalar",
    "C44_set_refused"
   ],
   "note": "In AugProps.v. Clauses that the code does not satisfy are stated as refutations: C44_improving_refuted, C44_lowered_refuted."
  },
  {
   "property": "C45",
   "status": "proved",
   "theorems": [
    "C45_moved",
    "C45_unchanged",
    "C45_violations",
    "C45_skipped",
    "C45_history",
    "C45_improving_refuted"
   ],
   "note": "In AugProps.v. Clauses that the code does not satisfy are stated as refutations: C45_improving_refuted."
  },
  {
   "property": "C46",
   "status": "proved",
   "theorems": [
    "C46_passes",
    "C46_calls",
    "C46_tolerance",
    "C46_without_update",
    "C46_no_iterations_refuted",
    "C46_failure",
    "C46_returned",
    "C46_returned_refuted"
   ],
   "note": "In AugProps.v. Clauses that the code does not satisfy are stated as refutations: C46_no_iterations_refuted, C46_returned_refuted."
  },
  {
   "property": "C47",
   "status": "proved",
   "theorems": [
    "C47_penalty",
    "C47_vanishes",
    "C47_squares",
    "C47_least",
    "C47_attained",
    "C47_algebraic",
    "C47_guess",
    "C47_guess_refuted",
    "C47_time_equalities",
    "C47_states",
    "C47_states_open",
    "C47_relaxed",
    "C47_carried",
    "C47_order_refuted",
    "C47_all_and_equalities_refuted",
    "C47_states_guess",
    "C47_solver_options",
    "C47_conflicting_options",
    "C47_keyword_refuted",
    "C47_solver_degree_refuted"
   ],
   "note": "In AugProps.v. Clauses that the code does not satisfy are stated as refutations: C47_guess_refuted, C47_order_refuted, C47_all_and_equalities_refuted, C47_keyword_refuted, C47_solver_degree_refuted."
  },
  {
   "property": "C48",
   "status": "proved",
   "theorems": [
    "C48_start",
    "C48_minimises",
    "C48_lagrangian",
    "C48_update",
    "C48_balanced",
    "C48_skip",
    "C48_keep",
    "C48_improvement",
    "C48_improvement_refuted",
    "C48_multipliers_used_refuted",
    "C48_vectors",
    "C48_vectors_refuted"
   ],
   "note": "In ImnProps.v. Clauses that the code does not satisfy are stated as refutations: C48_improvement_refuted, C48_multipliers_used_refuted, C48_vectors_refuted."
  },
  {
   "property": "C49",
   "status": "proved",
   "theorems": [
    "C49_serial",
    "C49_parallel",
    "C49_order",
    "C49_serial_parallel",
    "C49_serial_parallel_refuted",
    "C49_sample",
    "C49_kept",
    "C49_kept_again_refuted"
   ],
   "note": "In DalProps.v. Clauses that the code does not satisfy are stated as refutations: C49_serial_parallel_refuted, C49_kept_again_refuted."
  },
  {
   "property": "C50",
   "status": "proved",
   "theorems": [
    "C50_solution",
    "C50_no_iteration",
    "C50_stationary_positive",
    "C50_stationary_refuted",
    "C50_choice",
    "C50_failures_refuted",
    "C50_single_error_refuted"
   ],
   "note": "In DalProps.v. Clauses that the code does not satisfy are stated as refutations: C50_stationary_refuted, C50_failures_refuted, C50_single_error_refuted."
  },
  {
   "property": "C51",
   "status": "proved",
   "theorems": [
    "C51_exponents",
    "C51_each_once",
    "C51_count",
    "C51_hermite",
    "C51_recurrence",
    "C51_order_ten_refuted",
    "C51_high_order_refuted"
   ],
   "note": "In StoProps.v. Clauses that the code does not satisfy are stated as refutations: C51_order_ten_refuted, C51_high_order_refuted."
  },
  {
   "property": "C52",
   "status": "proved",
   "theorems": [
    "C52_history",
    "C52_symmetric",
    "C52_parameter_refused",
    "C52_initial_refused",
    "C52_chance_refused",
    "C52_include_refuted",
    "C52_probabilities_refuted",
    "C52_when_refuted",
    "C52_indices_refuted"
   ],
   "note": "In StoProps.v. Clauses that the code does not satisfy are stated as refutations: C52_include_refuted, C52_probabilities_refuted, C52_when_refuted, C52_indices_refuted."
  },
  {
   "property": "C53",
   "status": "proved",
   "theorems": [
    "C53_weights",
    "C53_points",
    "C53_affine"
   ],
   "note": "In KalProps.v."
  },
  {
   "property": "C54",
   "status": "proved",
   "theorems": [
    "C54_unscented",
    "C54_extended",
    "C54_chaos",
    "C54_symmetric",
    "C54_decrease",
    "C54_succeeds"
   ],
   "note": "In KalProps.v."
  },
  {
   "property": "C55",
   "status": "proved",
   "theorems": [
    "C55_within_bounds",
    "C55_stationary",
    "C55_minimises_separate",
    "C55_minimises_inside",
    "C55_independent",
    "C55_affine",
    "C55_coupled_refuted",
    "C55_nonquadratic_refuted"
   ],
   "note": "In IndProps.v. Clauses that the code does not satisfy are stated as refutations: C55_coupled_refuted, C55_nonquadratic_refuted."
  },
  {
   "property": "C56",
   "status": "proved",
   "theorems": [
    "C56_timeout_chain",
    "C56_only_timeouts_swallowed",
    "C56_normal_exit",
    "C56_timer",
    "C56_running_refuted"
   ],
   "note": "In UtilProps.v. Clauses that the code does not satisfy are stated as refutations: C56_running_refuted."
  },
  {
   "property": "C57",
   "status": "proved",
   "theorems": [
    "C57_dataset",
    "C57_get_variable",
    "C57_get_variable_outside",
    "C57_get_variable_unknown",
    "C57_by_name",
    "C57_unknown_name",
    "C57_first_control",
    "C57_created",
    "C57_arguments_kept_refuted",
    "C57_is_valid_refuted"
   ],
   "note": "In ResProps.v. Clauses that the code does not satisfy are stated as refutations: C57_arguments_kept_refuted, C57_is_valid_refuted."
  },
  {
   "property": "C58",
   "status": "proved",
   "theorems": [
    "C58_feasible",
    "C58_trajectory_exists",
    "C58_trajectory_unique",
    "C58_every_trajectory",
    "C58_variables",
    "C58_constraint_count",
    "C58_direct_cost",
    "C58_indirect_cost",
    "C58_imposition_times",
    "C58_rate_limits_need_last_control",
    "C58_degree_one_refuted",
    "C58_no_states_refuted",
    "C58_closed",
    "C58_undeclared_refuted"
   ],
   "note": "In ColProps.v. Clauses that the code does not satisfy are stated as refutations: C58_degree_one_refuted, C58_no_states_refuted, C58_undeclared_refuted."
  },
  {
   "property": "C59",
   "status": "proved",
   "theorems": [
    "C59_equilibrium",
    "C59_called",
    "C59_default_guess_refuted",
    "C59_controls_are_unknowns_refuted"
   ],
   "note": "In SimProps.v. Clauses that the code does not satisfy are stated as refutations: C59_default_guess_refuted, C59_controls_are_unknowns_refuted."
  },
  {
   "property": "C60",
   "status": "proved",
   "theorems": [
    "C60_positions",
    "C60_histories",
    "C60_foreign_refused_refuted"
   ],
   "note": "In OcpProps.v. Clauses that the code does not satisfy are stated as refutations: C60_foreign_refused_refuted."
  },
  {
   "property": "C61",
   "status": "proved",
   "theorems": [
    "C61_detects_rate_bounds"
   ],
   "note": "In OcpProps.v."
  },
  {
   "property": "C62",
   "status": "proved",
   "theorems": [
    "C62_replacement",
    "C62_parametrisation",
    "C62_parametrisation_general",
    "C62_consistent_refuted"
   ],
   "note": "In OcpProps.v. Clauses that the code does not satisfy are stated as refutations: C62_consistent_refuted."
  },
  {
   "property": "C63",
   "status": "proved",
   "theorems": [
    "C63_value"
   ],
   "note": "In OcpProps.v."
  },
  {
   "property": "C65",
   "status": "proved",
   "theorems": [
    "C65_has_variable",
    "C65_all_refuted"
   ],
   "note": "In SysProps.v. Clauses that the code does not satisfy are stated as refutations: C65_all_refuted."
  },
  {
   "property": "C66",
   "status": "proved",
   "theorems": [
    "C66_feasible",
    "C66_description_exists",
    "C66_every_shooting",
    "C66_problem",
    "C66_shots",
    "C66_direct_cost",
    "C66_summed_cost",
    "C66_summed_final_cost_refuted",
    "C66_indirect_cost",
    "C66_imposition_times",
    "C66_start_refuted",
    "C66_empty_horizon",
    "C66_rate_limits",
    "C66_closed"
   ],
   "note": "In ShoProps.v. Clauses that the code does not satisfy are stated as refutations: C66_summed_final_cost_refuted, C66_start_refuted."
  },
  {
   "property": "C67",
   "status": "proved",
   "theorems": [
    "C67_prepared",
    "C67_controls",
    "C67_rule",
    "C67_feasible",
    "C67_bounds",
    "C67_objective",
    "C67_every_trajectory",
    "C67_optimal",
    "C67_positive_objective_refuted"
   ],
   "note": "In DirProps.v. Clauses that the code does not satisfy are stated as refutations: C67_positive_objective_refuted."
  },
  {
   "property": "C68",
   "status": "proved",
   "theorems": [
    "C68_others_kept",
    "C68_mean_current",
    "C68_ideal_estimate"
   ],
   "note": "In MpcProps.v."
  },
  {
   "property": "C69",
   "status": "proved",
   "theorems": [
    "C69_through_the_values",
    "C69_constant",
    "C69_one_value",
    "C69_two_inputs_refuted",
    "C69_first_control_refuted"
   ],
   "note": "In MpcProps.v. Clauses that the code does not satisfy are stated as refutations: C69_two_inputs_refuted, C69_first_control_refuted."
  },
  {
   "property": "C71",
   "status": "proved",
   "theorems": [
    "C71_samples",
    "C71_refused",
    "C71_conversion_refuted",
    "C71_conversion_attribute"
   ],
   "note": "In StoProps.v. Clauses that the code does not satisfy are stated as refutations: C71_conversion_refuted."
  },
  {
   "property": "C72",
   "status": "proved",
   "theorems": [
    "C72_succeeds_iff",
    "C72_adjoint_system",
    "C72_no_hamiltonian"
   ],
   "note": "In IndProps.v."
  },
  {
   "property": "C73",
   "status": "proved",
   "theorems": [
    "C73_construct",
    "C73_degree_control",
    "C73_prepare",
    "C73_refuses",
    "C73_cost_state_refuted"
   ],
   "note": "In IndProps.v. Clauses that the code does not satisfy are stated as refutations: C73_cost_state_refuted."
  },
  {
   "property": "C70",
   "status": "proved",
   "theorems": [
    "C70_constructors_refuted",
    "C70_exceptions",
    "C70_samples"
   ],
   "note": "In EstProps.v. Clauses that the code does not satisfy are stated as refutations: C70_constructors_refuted."
  },
  {
   "property": "C74",
   "status": "proved",
   "theorems": [
    "C74_extended",
    "C74_unscented_affine",
    "C74_process_noise_refuted",
    "C74_chaos_affine"
   ],
   "note": "In KalProps.v. Clauses that the code does not satisfy are stated as refutations: C74_process_noise_refuted."
  },
  {
   "property": "C75",
   "status": "proved",
   "theorems": [
    "C75_least_squares",
    "C75_recovers",
    "C75_samples"
   ],
   "note": "In KalProps.v."
  },
  {
   "property": "C76",
   "status": "proved",
   "theorems": [
    "C76_serial",
    "C76_distributed",
    "C76_primal_dual",
    "C76_one_penalty_refuted",
    "C76_failed_node_refuted"
   ],
   "note": "In DalProps.v. Clauses that the code does not satisfy are stated as refutations: C76_one_penalty_refuted, C76_failed_node_refuted."
  },
  {
   "property": "C77",
   "status": "proved",
   "theorems": [
    "C77_prepared",
    "C77_meaning",
    "C77_own_refuted",
    "C77_again_refuted"
   ],
   "note": "In ExoProps.v. Clauses that the code does not satisfy are stated as refutations: C77_own_refuted, C77_again_refuted."
  },
  {
   "property": "C78",
   "status": "proved",
   "theorems": [
    "C78_constraints_follow_calls",
    "C78_new_problem",
    "C78_nothing_lost",
    "C78_costs_stay"
   ],
   "note": "In CnsProps.v."
  },
  {
   "property": "C79",
   "status": "proved",
   "theorems": [
    "C79_collocation",
    "C79_shooting",
    "C79_shooting_start",
    "C79_given",
    "C79_unknown",
    "C79_given_state_refuted",
    "C79_no_theta_refuted"
   ],
   "note": "In GueProps.v. Clauses that the code does not satisfy are stated as refutations: C79_given_state_refuted, C79_no_theta_refuted."
  },
  {
   "property": "C80",
   "status": "proved",
   "theorems": [
    "C80_prepared",
    "C80_passed",
    "C80_meaning",
    "C80_vector",
    "C80_vector_refuted",
    "C80_model_refuted"
   ],
   "note": "In BipProps.v. Clauses that the code does not satisfy are stated as refutations: C80_vector_refuted, C80_model_refuted."
  },
  {
   "property": "C81",
   "status": "proved",
   "theorems": [
    "C81_relaxed",
    "C81_same",
    "C81_cost",
    "C81_trajectory",
    "C81_lifted",
    "C81_bound",
    "C81_optimal",
    "C81_tolerance",
    "C81_degree_refuted",
    "C81_end_refuted"
   ],
   "note": "In AlsProps.v. Clauses that the code does not satisfy are stated as refutations: C81_degree_refuted, C81_end_refuted."
  },
  {
   "property": "C82",
   "status": "proved",
   "theorems": [
    "C82_feasible",
    "C82_bounds",
    "C82_objective",
    "C82_every_plan",
    "C82_optimal",
    "C82_runge_kutta",
    "C82_runge_kutta_integrates"
   ],
   "note": "In DmsProps.v."
  },
  {
   "property": "C83",
   "status": "proved",
   "theorems": [
    "C83_own_options",
    "C83_filled",
    "C83_solver_kept",
    "C83_method_kept",
    "C83_assigned_late",
    "C83_defaults_shared",
    "C83_independent_refuted",
    "C83_configuration_refuted",
    "C83_problem_options_refuted",
    "C83_dictionary_refuted"
   ],
   "note": "In OptProps.v. Clauses that the code does not satisfy are stated as refutations: C83_independent_refuted, C83_configuration_refuted, C83_problem_options_refuted, C83_dictionary_refuted."
  },
  {
   "property": "C84",
   "status": "proved",
   "theorems": [
    "C84_by_value",
    "C84_model_kept",
    "C84_problem_kept",
    "C84_copy",
    "C84_new_problem",
    "C84_user_kept",
    "C84_reset",
    "C84_reset_solvable_refuted",
    "C84_reset_original_refuted"
   ],
   "note": "In CpyProps.v. Clauses that the code does not satisfy are stated as refutations: C84_reset_solvable_refuted, C84_reset_original_refuted."
  },
  {
   "property": "C85",
   "status": "proved",
   "theorems": [
    "C85_consistent",
    "C85_called",
    "C85_total_size",
    "C85_time_only_refuted",
    "C85_sizes_refuted",
    "C85_parametrized_refuted",
    "C85_include_variables"
   ],
   "note": "In AlvProps.v. Clauses that the code does not satisfy are stated as refutations: C85_time_only_refuted, C85_sizes_refuted, C85_parametrized_refuted."
  },
  {
   "property": "C86",
   "status": "proved",
   "theorems": [
    "C86_values",
    "C86_flow",
    "C86_refused",
    "C86_reading",
    "C86_indirect_controls_refuted"
   ],
   "note": "In GivProps.v. Clauses that the code does not satisfy are stated as refutations: C86_indirect_controls_refuted."
  },
  {
   "property": "C87",
   "status": "proved",
   "theorems": [
    "C87_created",
    "C87_solved",
    "C87_parameters",
    "C87_dataset",
    "C87_violations_without_update_refuted",
    "C87_multipliers_in_place_refuted"
   ],
   "note": "In AlrProps.v. Clauses that the code does not satisfy are stated as refutations: C87_violations_without_update_refuted, C87_multipliers_in_place_refuted."
  },
  {
   "property": "C88",
   "status": "proved",
   "theorems": [
    "C88_constructed",
    "C88_multipliers_fit",
    "C88_refused",
    "C88_refused_unchanged_refuted",
    "C88_kept",
    "C88_dictionary_decides",
    "C88_options_refuted",
    "C88_shared_options_refuted",
    "C88_nodes",
    "C88_second_network_refuted"
   ],
   "note": "In GrdProps.v. Clauses that the code does not satisfy are stated as refutations: C88_refused_unchanged_refuted, C88_options_refuted, C88_shared_options_refuted, C88_second_network_refuted."
  },
  {
   "property": "C89",
   "status": "proved",
   "theorems": [
    "C89_orthogonal",
    "C89_statistics",
    "C89_filter_linear",
    "C89_filter_refuted",
    "C89_order_ten_refuted"
   ],
   "note": "In PcsProps.v. Clauses that the code does not satisfy are stated as refutations: C89_filter_refuted, C89_order_ten_refuted."
  },
  {
   "property": "C90",
   "status": "proved",
   "theorems": [
    "C90_exact",
    "C90_first_order",
    "C90_update"
   ],
   "note": "In MulProps.v."
  },
  {
   "property": "C91",
   "status": "proved",
   "theorems": [
    "C91_compared",
    "C91_updated",
    "C91_weights",
    "C91_violation",
    "C91_next"
   ],
   "note": "In PasProps.v."
  },
  {
   "property": "C92",
   "status": "proved",
   "theorems": [
    "C92_agree",
    "C92_choices_refuted",
    "C92_failed_refuted"
   ],
   "note": "In AgrProps.v. Clauses that the code does not satisfy are stated as refutations: C92_choices_refuted, C92_failed_refuted."
  },
  {
   "property": "C93",
   "status": "proved",
   "theorems": [
    "C93_bound",
    "C93_optimal",
    "C93_disagreed_refuted"
   ],
   "note": "In AgrProps.v. Clauses that the code does not satisfy are stated as refutations: C93_disagreed_refuted."
  },
  {
   "property": "C94",
   "status": "proved",
   "theorems": [
    "C94_update",
    "C94_cost",
    "C94_best"
   ],
   "note": "In NodProps.v."
  },
  {
   "property": "C95",
   "status": "proved",
   "theorems": [
    "C95_lines",
    "C95_accepted_iff",
    "C95_left",
    "C95_twice_refuted",
    "C95_exact",
    "C95_figures",
    "C95_given_refuted",
    "C95_too_few_refuted"
   ],
   "note": "In PloProps.v. Clauses that the code does not satisfy are stated as refutations: C95_twice_refuted, C95_given_refuted, C95_too_few_refuted."
  },
  {
   "property": "C96",
   "status": "proved",
   "theorems": [
    "C96_alone",
    "C96_copy"
   ],
   "note": "In DshProps.v."
  },
  {
   "property": "C97",
   "status": "proved",
   "theorems": [
    "C97_lines",
    "C97_accepted_iff",
    "C97_own_figure_refuted"
   ],
   "note": "In RlxProps.v. Clauses that the code does not satisfy are stated as refutations: C97_own_figure_refuted."
  },
  {
   "property": "C98",
   "status": "proved",
   "theorems": [
    "C98_kept",
    "C98_failed",
    "C98_result",
    "C98_current_refuted"
   ],
   "note": "In RlxProps.v. Clauses that the code does not satisfy are stated as refutations: C98_current_refuted."
  },
  {
   "property": "C99",
   "status": "proved",
   "theorems": [
    "C99_names",
    "C99_returned",
    "C99_initial",
    "C99_apart",
    "C99_models",
    "C99_different_names_refuted",
    "C99_prefix_refuted"
   ],
   "note": "In NamProps.v. Clauses that the code does not satisfy are stated as refutations: C99_different_names_refuted, C99_prefix_refuted."
  },
  {
   "property": "C100",
   "status": "proved",
   "theorems": [
    "C100_action",
    "C100_refused"
   ],
   "note": "In ExmProps.v."
  },
  {
   "property": "C101",
   "status": "proved",
   "theorems": [
    "C101_rows",
    "C101_once",
    "C101_when",
    "C101_repeated_refuted",
    "C101_unfilled_refuted"
   ],
   "note": "In FraProps.v. Clauses that the code does not satisfy are stated as refutations: C101_repeated_refuted, C101_unfilled_refuted."
  },
  {
   "property": "C102",
   "status": "proved",
   "theorems": [
    "C102_results",
    "C102_results_when",
    "C102_violations",
    "C102_labels_refuted"
   ],
   "note": "In DfrProps.v. Clauses that the code does not satisfy are stated as refutations: C102_labels_refuted."
  }
 ]
}