* **closed under the global context (no axioms)**: `C01_state_roundtrip`, `C01_idx_roundtrip`, `C01_coordinate_table`, `C01_coordinates_of_holed_grid`, `C01_reshape`, `C01_features_as_grid`, `C02_shortest_walk`, `C02_metric`, `C02_distance_matrix`, `C02_length_check_refuted`, `C03_hex_adjacency`, `C03_square_adjacency`, `C03_symmetric_irreflexive`, `C03_neighbours_distinct`, `C04_action_is_direction`, `C04_action_is_displacement`, `C04_opposite_action`, `C04_reverse_lookup`, `C05_deterministic`, `C07_documented_range_refuted`, `C08_adjacency_refuted`, `C103_walls_refuted`, `C106_own`, `C106_apart`, `C106_interleaved`, `C106_new_mdp`, `C106_new_environment`, `C106_settings`, `C107_features_partial`, `C107_walls_partial`, `C107_consume_refuted`, `C108_apart_partial`, `C108_consume_refuted`, `C109_rest_partial`, `C109_shared_plan_refuted`, `C109_tree_search_refuted`, `C110_new_environment`, `C110_moves_other_refuted`, `C112_walls_refuted`, `C112_meal_refuted`, `kept_fit_new`, `C113_latest_fit_partial`, `C114_ties_refuted`, `C116_next_fit`, `C116_library`, `C117_mismatch_refuted`, `C121_worse_chosen_refuted`, `C130_rewards_attract_refuted`, `C131_library`, `C132_others_refuted`, `C132_consumes_refuted`, `C135_library`, `C136_seeded`, `C136_numpy_seed`, `C136_is_a_run`, `C136_library`, `C137_search_refuted`, `C137_same_state_partial`, `C137_only_fits_partial`, `C139_reset_repeats_refuted`, `C14_remove`, `C14_remove_without_agents_refuted`, `C143_multiplied_refuted`, `C145_walls_refuted`, `C147_actions`, `C147_probabilities`, `C147_policy`, `C147_library`, `C16_bad_position_erases`, `C161_increments`, `C162_reset_partial`, `C163_reset_partial`, `C164_after_reset_partial`, `C167_coordinates`, `C169_latest_fit`, `C180_features`, `C180_walls`, `C181_rest`, `C184_same_state`, `C184_only_fits`, `C187_typed`, `C187_only_typed`, `C188_kept`, `C188_reset`, `C188_result`, `C188_null`, `C189_list_refuted`, `C189_array_partial`, `C197_rejected`, `C203_maxent_refuted`, `C203_maxent_lists_refuted`, `C203_floats`, `C210_out_of_range_refuted`, `C223_older`, `C223_fresh`, `C224_handed_out`, `C23_schedule`, `C23_rejected`, `C24_interactive_refuted`, `C26_flagged_states_partial`, `C26_flagged_probabilities_partial`, `C26_all_nan_rejected`, `C33_not_a_distribution_refuted`, `C33_certain_step_refuted`, `C34_teleport_refuted`, `C34_isolated_refuted`, `C34_stale_refuted`, `C37_search_refuted`, `C39_pays_repeatedly_refuted`, `C39_eaten_catches_refuted`, `C41_stale_values_refuted`, `C59_assigned_transitions_refuted`, `C60_stochastic_refuted`, `C62_low_consumes_refuted`, `C63_same_name_refuted`, `C64_failed_construction_refuted`, `C65_reset_keeps_records_refuted`, `C66_negative_position_refuted`, `C66_negative_feature_refuted`, `C72_indifferent_opponent_refuted`, `C73_cached_consumer_refuted`, `C77_stochastic_refuted`, `C79_hex_turns`, `C79_square_turns`, `C98_square_transposed_partial`
* **`ClassicalDedekindReals.sig_forall_dec`, `FunctionalExtensionality.functional_extensionality_dep`**: `C05_construction`, `C05_transitions`, `C06_walls_block_exactly`, `C06_history_independent`, `C06_acceptance`, `C06_frame`, `C07_clear_restores`, `C07_add_wall`, `C08_adjacency_partial`, `C09_acceptance`, `C09_effect`, `C10_roundtrip`, `C10_reject`, `C10_consistency`, `C100_path`, `C100_after_plot`, `C100_square`, `C100_before_plot_refuted`, `C100_hidden_refuted`, `C100_agents`, `C100_negative_refuted`, `C100_negative_exists`, `C100_labels`, `C101_range`, `C101_constant_refuted`, `C102_features_refuted`, `C102_rewards_refuted`, `C102_actual_partial`, `C103_agents_refuted`, `C104_again`, `C105_unnamed_refuted`, `C105_unnamed_error`, `C105_repeated_refuted`, `C105_saved`, `C56_dict`, `C107_clear_walls_refuted`, `C108_clear_walls_refuted`, `C11_travel_time`, `C110_fit_refuted`, `C111_kept_partial`, `C111_value_iteration_partial`, `C111_tree_search_refuted`, `C112_kept_partial`, `C112_undisturbed_partial`, `C113_not_fitted`, `C113_no_values_refuted`, `C113_reset_refuted`, `C113_failed_policy_refuted`, `C114_unique_best_partial`, `C114_afterwards_partial`, `C115_live_partial`, `C115_reset_partial`, `C115_snapshot_refuted`, `C115_edit_refuted`, `C116_assigned`, `C116_until_fitted`, `C116_failed_fit`, `C116_others`, `C117_stale_policy_refuted`, `C117_next_step_partial`, `C118_ordinary_table_refuted`, `C118_erases_feature_refuted`, `C118_reset_refuted`, `C118_with_marks_partial`, `C12_never_into_walls`, `C12_single_move`, `C12_invalid_action_teleports`, `C120_tries_every_move`, `C121_shrunk_partial`, `C57_plots`, `C57_touching`, `C98_hex`, `C98_square_layers`, `C99_with_agents`, `C45_never_fails`, `C45_in_tree_search`, `C13_consume`, `C13_consume_again`, `C13_grid_tables`, `C131_assigned`, `C131_until_fitted`, `C131_as_if_given`, `C131_next_fit`, `C131_wrong_length`, `C132_refused_refuted`, `C133_assigned`, `C133_later_steps`, `C134_later_turns`, `C135_reset_like_new`, `C138_schedule`, `C139_no_draws_partial`, `C14_add`, `C14_move`, `C14_add_remove`, `C140_fit`, `C140_any_action`, `C141_same_rewards`, `C141_order`, `C141_plan_stable`, `C142_scaling`, `C143_finer_partial`, `C144_rewards`, `C146_between`, `C146_fit`, `C148_bounds`, `C149_longer`, `C149_never_above_best`, `C15_conserved`, `C15_from_start`, `C150_discount`, `C151_best`, `C151_grid`, `C152_back`, `C152_fewest`, `C153_random`, `C154_matching`, `C154_sight`, `C154_difference`, `C154_learners`, `C157_two_steps`, `C157_schedules`, `C16_marks_only_position`, `C16_until_eaten`, `C16_renewed`, `C16_on_a_state`, `C16_one_hot`, `C160_matching`, `C160_sight`, `C160_difference`, `C160_learners`, `C160_grids`, `C162_returned_refuted`, `C162_grids`, `C163_failed_refuted`, `C167_agents`, `C168_out`, `C17_accepts_iff`, `C17_rejects`, `C17_result`, `C170_unique_best`, `C170_afterwards`, `C171_same_outcome`, `C171_kept`, `C171_undisturbed`, `C172_ray`, `C173_detection`, `C87_grids`, `C90_grids`, `C178_best`, `C179_distribution`, `C18_reset`, `C182_next_step`, `C183_live`, `C183_reset`, `C185_opacity`, `C185_limited`, `C185_too_few`, `C186_colours_refuted`, `C186_ten_partial`, `C186_given`, `C187_refused`, `C19_step`, `C19_rejects`, `C19_failed_step`, `C190_fresh`, `C190_json`, `C191_start_refuted`, `C192_saved`, `C193_wrong_length`, `C195_two_steps`, `C195_schedules`, `C196_harmless`, `C197_greedy`, `C197_greedy_probabilities`, `C199_weights`, `C199_two`, `C199_at_most`, `C20_history`, `C20_reported`, `C20_connected`, `C20_count`, `C202_never_refuted`, `C202_grids`, `C205_others_untouched`, `C205_own_steps`, `C206_solver`, `C206_solution_bounded`, `C206_grids`, `C209_grids`, `C21_step_multi`, `C211_numpy`, `C211_numba`, `C215_maxent`, `C216_kept`, `C216_value_iteration`, `C217_kept`, `C217_undisturbed`, `C218_finer`, `C219_contrast`, `C22_beyond_one_turn_refuted`, `C22_within_one_turn_partial`, `C221_shrunk`, `C225_with_marks`, `C37_expand`, `C228_first_outcome`, `C228_equation`, `C229_dictionary`, `C229_json`, `C230_no_draws`, `C231_adjacency`, `C232_within_one_turn`, `C233_names`, `C233_consumes`, `C234_opacity`, `C234_too_few`, `C235_layers`, `C236_lines_refuted`, `C236_values_iff`, `C237_visible`, `C238_fitted`, `C238_unknown`, `C238_not_fitted`, `C239_repeats`, `C239_value_iteration`, `C240_values`, `C240_greedy`, `C241_statistics`, `C241_reported`, `C242_same`, `C25_probabilities`, `C25_sampled_is_best`, `C25_best_can_be_sampled`, `C26_mixed_infinities_refuted`, `C26_max_selector_partial`, `C27_temperature`, `C27_no_overflow`, `C28_interval`, `C28_zero_weight_never_drawn`, `C29_sweep_contracts`, `C29_solver`, `C29_solution_bounded`, `C29_rejects`, `C29_grids`, `C31_negative_refuted`, `C31_nonnegative_partial`, `C31_may_stop_partial`, `C31_solver_negative_refuted`, `C33_last_write_partial`, `C33_distinct_partial`, `C34_possible_actions_partial`, `C35_interactive`, `C35_alone_partial`, `C35_alone_refuted`, `C36_statistics`, `C36_fit`, `C37_simulate`, `C38_not_caught`, `C38_caught`, `C38_caught_iff`, `C39_out_partial`, `C40_never_created`, `C40_consumed`, `C40_collects`, `C40_reward_alone`, `C41_ordinary_partial`, `C42_values`, `C42_isolated`, `C43_without_schedule_refuted`, `C44_agent_table`, `C44_accepted`, `C44_environment`, `C45_all_possible_partial`, `C45_border_refuted`, `C46_shortest`, `C46_range`, `C46_symmetric`, `C46_periodic`, `C46_zero_iff`, `C46_triangle`, `C47_object`, `C50_maxent_first_reset_partial`, `C50_maxent_no_estimate_refuted`, `C51_visits`, `C51_monotone`, `C51_total`, `C52_equal_refuted`, `C52_weights_partial`, `C52_short_partial`, `C53_ignored_zero`, `C53_default_refuted`, `C53_tuple_refuted`, `C53_matching_actual`, `C53_matching_refuted`, `C53_matching_range_refuted`, `C54_counts`, `C55_ray_partial`, `C55_staying_refuted`, `C56_json_refuted`, `C56_json_partial`, `C57_exact_refuted`, `C58_plain_mdp_refuted`, `C59_walls_reset_transitions_partial`, `C60_only_deterministic_partial`, `C62_upper_bound_partial`, `C63_one_agent_per_name_partial`, `C64_position_refuted`, `C64_refused_first_entry_partial`, `C66_detection_partial`, `C67_greedy_near_optimal`, `C69_nonnegative`, `C69_may_stop`, `C71_grids_have_no_dead_ends`, `C74_depth_refuted`, `C74_own_schedule_partial`, `C75_q_values`, `C75_grids`, `C76_visits`, `C76_nonnegative`, `C77_first_outcome_partial`, `C81_policy_irl_refuted`, `C88_counts`, `C88_learner`, `C88_object`, `C89_last_direction_refuted`, `C89_with_staying_partial`, `C89_actual`, `C97_staying`, `C98_square_refuted`, `C99_no_agents_refuted`
* **`ClassicalDedekindReals.sig_forall_dec`, `ClassicalDedekindReals.sig_not_dec`, `FunctionalExtensionality.functional_extensionality_dep`**: `C142_choices`, `C144_fitted`, `C145_walls_partial`, `C150_fitted`, `C151_fitted`, `C158_names`, `C158_grids`, `C159_constant`, `C159_grids`, `C177_walls`, `C178_solver`, `C197_softmax`, `C197_softmax_probabilities`, `C203_hyptest_refuted`, `C203_hyptest_errors`, `C204_lists`, `C204_floats`, `C207_fit`, `C207_walk`, `C215_hyptest`, `C220_numbers`, `C240_search`, `C240_fit`, `C240_next_step`, `C27_uniform`, `C27_shift`, `C27_sampled_is_possible`, `C29_unique_solution`, `C31_solver_nonnegative_partial`, `C31_solver_may_stop_partial`, `C42_next_step`, `C42_stale`, `C42_second_step`, `C50_hyptest_first_reset_partial`, `C50_hyptest_later_resets_refuted`, `C50_hyptest_none_refuted`, `C53_hyptest_others_partial`, `C53_hyptest_nan_refuted`, `C61_probabilities_nan`, `C61_sampling_raises`, `C67_returns_exist`, `C69_solver_nonnegative`, `C69_solver_may_stop`, `C85_hyptest_refuted`, `C92_numbers_partial`, `C94_moves`, `C94_split`, `C94_rows`, `C97_hex_headings`, `C97_square_headings`
* **`ClassicalDedekindReals.sig_forall_dec`, `ClassicalDedekindReals.sig_not_dec`, `Classical_Prop.classic`, `FunctionalExtensionality.functional_extensionality_dep`**: `C114_probable_partial`, `C119_walk`, `C119_goes_on`, `C129_shortest_path`, `C129_arrives`, `C129_defaults`, `C153_softmax`, `C153_greedy`, `C155_order_refuted`, `C155_single_states_partial`, `C156_cold_bound`, `C156_cold`, `C156_hot_bound`, `C156_hot`, `C156_warmer`, `C160_maxent`, `C160_hypotheses`, `C164_handed_out_refuted`, `C165_integers_refuted`, `C165_floats_partial`, `C166_fit`, `C166_steps`, `C166_sequence`, `C170_probable`, `C174_fit_succeeds`, `C175_fit_succeeds`, `C176_converges`, `C188_value_iteration`, `C193_succeeds`, `C194_own_place`, `C198_accepted_iff`, `C200_rates`, `C201_rates`, `C206_float64`, `C206_defaults`, `C207_shortest_path`, `C207_defaults`, `C208_overflow_refuted`, `C209_same`, `C209_defaults`, `C211_float64`, `C212_probabilities`, `C212_choice`, `C212_float64`, `C212_exp64`, `C213_fit`, `C213_walk`, `C213_defaults`, `C214_range`, `C214_constant_rate`, `C214_decaying_rate`, `C214_same_outcome`, `C214_float64`, `C214_pow64`, `C214_defaults`, `C215_policy`, `C222_own_moves`, `C226_settles`, `C227_exploit`, `C240_softmax`, `C240_float64`, `C241_whole_numbers`, `C241_float64`, `C242_float64`, `C242_defaults`, `C242_fit`, `C243_same`, `C243_large`, `C243_defaults`, `C243_grids`, `C243_walls`, `C243_fit`, `C243_settings`, `ieee_computes`, `C244_runs`, `C244_fit`, `C244_shortest_path`, `C245_statistics`, `C245_fit`, `C246_range`, `C246_any_rate`, `C246_decaying`, `C246_defaults`, `C247_sampled_is_best`, `C247_probabilities`, `C248_greedy_choice`, `C248_move`, `C249_same_answers`, `C27_gibbs`, `C30_mask`, `C30_policies`, `C32_backup`, `C32_unique_solution`, `C32_sweep_contracts`, `C32_solver`, `C32_soft_above_hard`, `C68_value_iteration_moves`, `C37_exploit_partial`, `C37_unvisited_refuted`, `C43_with_schedule_partial`, `C46_kernel`, `C47_average`, `C47_from_nothing`, `C48_one_trajectory_refuted`, `C48_when_it_succeeds_partial`, `C49_schedule_refuted`, `C49_second_fit_refuted`, `C49_integer_refuted`, `C49_actual_schedule`, `C49_two_observations_partial`, `C49_maxent_actual_schedule`, `C49_maxent_rate_refuted`, `C50_first_reset_partial`, `C50_later_resets_refuted`, `C50_no_estimate_refuted`, `C50_maxent_later_resets_refuted`, `C50_hyptest_none_error`, `C53_list_partial`, `C71_search_completes`, `C71_fit_succeeds`, `C78_length_scale_refuted`, `C79_generalisation`, `C80_convergence_refuted`, `C80_without_decay_partial`, `C82_staying_refuted`, `C83_match_refuted`, `C83_settles_partial`, `C84_warning_refuted`, `C85_returned_refuted`, `C86_given_refuted`, `C86_hyptest_refuted`, `C86_policy_refuted`, `C87_zero_iterations_refuted`, `C87_fit_succeeds_partial`, `C90_default_refuted`, `C90_other_normalisation_partial`, `C91_evidence`, `C91_unnormalised`, `C92_one_option_refuted`, `C92_absent_feature_refuted`, `C93_decay_partial`, `C93_no_decay_refuted`, `C93_equal_rates_refuted`, `C95_zero_start_refuted`, `C96_between`
