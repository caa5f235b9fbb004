{"claims": [
{"property": "C01", "status": "proved", "theorems": ["C01_state_roundtrip", "C01_idx_roundtrip", "C01_coordinate_table", "C01_coordinates_of_holed_grid", "C01_reshape", "C01_features_as_grid"], "note": ""},
{"property": "C02", "status": "proved", "theorems": ["C02_shortest_walk", "C02_metric", "C02_distance_matrix", "C02_length_check_refuted"], "note": "The distance claim is proved. C02_length_check_refuted: the length assertion in cube_distance accepts a second argument of the wrong length (operator precedence)."},
{"property": "C03", "status": "proved", "theorems": ["C03_hex_adjacency", "C03_square_adjacency", "C03_symmetric_irreflexive", "C03_neighbours_distinct"], "note": ""},
{"property": "C04", "status": "proved", "theorems": ["C04_action_is_direction", "C04_action_is_displacement", "C04_opposite_action", "C04_reverse_lookup"], "note": ""},
{"property": "C05", "status": "proved", "theorems": ["C05_construction", "C05_transitions", "C05_deterministic"], "note": ""},
{"property": "C06", "status": "proved", "theorems": ["C06_walls_block_exactly", "C06_history_independent", "C06_acceptance", "C06_frame"], "note": ""},
{"property": "C07", "status": "proved", "theorems": ["C07_clear_restores", "C07_add_wall", "C07_documented_range_refuted"], "note": "Proved with half-open coordinate ranges. C07_documented_range_refuted: the docstring's closed range 2-5 is not what the code walls."},
{"property": "C08", "status": "partial", "theorems": ["C08_adjacency_refuted", "C08_adjacency_partial"], "note": "REFUTED by C08_adjacency_refuted (adjacency is not recomputed when walls change); the strongest true variant is C08_adjacency_partial."},
{"property": "C09", "status": "proved", "theorems": ["C09_acceptance", "C09_effect"], "note": ""},
{"property": "C10", "status": "proved", "theorems": ["C10_roundtrip", "C10_reject", "C10_consistency"], "note": ""},
{"property": "C100", "status": "partial", "theorems": ["C100_path", "C100_after_plot", "C100_square", "C100_before_plot_refuted", "C100_hidden_refuted", "C100_agents", "C100_negative_refuted", "C100_negative_exists", "C100_labels"], "note": "Proved for square grids and for hex grids after plot() without hidden cells. REFUTED on hex grids before plot() (AttributeError), for hidden cells (drawn at the origin) and for agents placed at negative indices (ValueError)."},
{"property": "C101", "status": "partial", "theorems": ["C101_range", "C101_constant_refuted"], "note": "Proved if the values differ (C101_range). REFUTED for constant values, which give NaN."},
{"property": "C102", "status": "partial", "theorems": ["C102_features_refuted", "C102_rewards_refuted", "C102_actual_partial"], "note": "REFUTED: every nonzero feature value becomes 1 and rewards are truncated towards zero. C102_actual_partial says exactly what is kept; C56_dict covers binary features and whole rewards."},
{"property": "C103", "status": "partial", "theorems": ["C103_agents_refuted", "C103_walls_refuted"], "note": "REFUTED: with an agent loading always raises; without agents coordinates are taken as state numbers, so walls move."},
{"property": "C104", "status": "proved", "theorems": ["C104_again"], "note": "For agents using value iteration with greedy or softmax selection, and distinct feature names."},
{"property": "C105", "status": "partial", "theorems": ["C105_unnamed_refuted", "C105_unnamed_error", "C105_repeated_refuted", "C105_saved", "C56_dict"], "note": "REFUTED: agents with any other algorithm or selector cannot be exported (AttributeError), and repeated feature names make loading fail. True otherwise (C56_dict, C102_actual_partial)."},
{"property": "C106", "status": "proved", "theorems": ["C106_own", "C106_apart", "C106_interleaved", "C106_new_mdp", "C106_new_environment", "C106_settings"], "note": "World model: objects with identity, any history of calls. C106_apart is for environments with at least one agent; an environment without agents has nothing to fit or step."},
{"property": "C107", "status": "partial", "theorems": ["C107_features_partial", "C107_walls_partial", "C107_clear_walls_refuted", "C107_consume_refuted"], "note": "REFUTED: reset_walls sets the caller's wall array to zero in place (C107_clear_walls_refuted, for every MDP made from an array), and consume_features called on an MDP without agents writes into the caller's feature array. True for every program without these two calls (C107_features_partial, C107_walls_partial); in particular no environment ever changes them."},
{"property": "C108", "status": "partial", "theorems": ["C108_apart_partial", "C108_clear_walls_refuted", "C108_consume_refuted"], "note": "REFUTED: clearing the walls of one MDP makes every MDP with the same wall array show no walls while its transitions still have them; consuming features directly consumes them in the other MDP. C108_apart_partial: no other call has any influence."},
{"property": "C109", "status": "partial", "theorems": ["C109_rest_partial", "C109_shared_plan_refuted", "C109_tree_search_refuted"], "note": "REFUTED: the two attached agents always have the same plan (C109_shared_plan_refuted), and tree search plans from the position in the environment made last. C109_rest_partial: everything but the plan is independent if the MDPs differ."},
{"property": "C11", "status": "proved", "theorems": ["C11_travel_time"], "note": ""},
{"property": "C110", "status": "partial", "theorems": ["C110_new_environment", "C110_fit_refuted", "C110_moves_other_refuted"], "note": "REFUTED: with another number of agents no agent of the first environment can be fitted any more (C110_fit_refuted, for all reachable environments); with the same number, moving an agent in one moves the mark of an agent of the other. C110_new_environment says exactly what the first environment becomes."},
{"property": "C111", "status": "partial", "theorems": ["C111_kept_partial", "C111_value_iteration_partial", "C111_tree_search_refuted"], "note": "Proved for algorithms that do not discard their result first, such as value iteration. REFUTED for tree search: after a failed fit every step raises AttributeError."},
{"property": "C112", "status": "partial", "theorems": ["C112_walls_refuted", "C112_meal_refuted", "C112_kept_partial", "C112_undisturbed_partial", "kept_fit_new"], "note": "REFUTED: after walls were changed, or after food the opponents want was eaten by an ordinary step, the kept values are stale and the plan is the opposite of the one made with an empty cache. C112_kept_partial: if transitions and ordinary features are as when the cache was begun, other agents want ordinary features only and nobody consumes more than one feature, every fit gives exactly what it would give with an empty cache, exceptions included. C112_undisturbed_partial says which calls may come between. Earlier fits may have raised or been interrupted: the entries they left are covered (kept_after, C112_raises_example)."},
{"property": "C113", "status": "partial", "theorems": ["C113_latest_fit_partial", "C113_not_fitted", "C113_no_values_refuted", "C113_reset_refuted", "C113_failed_policy_refuted"], "note": "REFUTED: get_agent_q_values returns None before the first fit; after a reset the policy queries return None although the agent is still fitted and can be stepped; a fit that raises because no value is known leaves the new values next to the old policy. C113_latest_fit_partial: otherwise, after a successful fit and any calls that neither fit the agent nor reset, all three report that fit, for every algorithm and selector. C113_not_fitted: the policy queries raise before the first fit, whatever was called."},
{"property": "C114", "status": "partial", "theorems": ["C114_ties_refuted", "C114_unique_best_partial", "C114_probable_partial", "C114_afterwards_partial"], "note": "REFUTED: step draws the policy again, so with ties (or softmax) another action may be taken than the one reported. True with greedy selection and a unique best action (C114_unique_best_partial); the action taken always has a positive reported probability, for greedy and softmax selection (C114_probable_partial); after the step the reported policy has the action taken in the state left, for every selector (C114_afterwards_partial)."},
{"property": "C115", "status": "partial", "theorems": ["C115_live_partial", "C115_reset_partial", "C115_snapshot_refuted", "C115_edit_refuted"], "note": "REFUTED: the list is the environment's own: every later step makes it longer (C115_snapshot_refuted) and appending to it changes the reported history (C115_edit_refuted). C115_live_partial: until a reset it always shows the current history; C115_reset_partial: after a reset it keeps what it showed before, for ever."},
{"property": "C116", "status": "proved", "theorems": ["C116_assigned", "C116_until_fitted", "C116_next_fit", "C116_failed_fit", "C116_others", "C116_library"], "note": "C116_others needs that the other agents' algorithms do not look at plans of agents; C116_library: those of the library do not. The new algorithm object is taken not to be shared with another agent (see C109 for sharing)."},
{"property": "C117", "status": "partial", "theorems": ["C117_stale_policy_refuted", "C117_mismatch_refuted", "C117_next_step_partial"], "note": "REFUTED: the values are those of the new algorithm at once, but policy and probabilities are still those of the old one. C117_next_step_partial: the next step follows the new values, and from then on all queries report them."},
{"property": "C118", "status": "partial", "theorems": ["C118_ordinary_table_refuted", "C118_erases_feature_refuted", "C118_reset_refuted", "C118_with_marks_partial"], "note": "REFUTED: a table with ordinary features only is accepted, after which no agent can be fitted and moving an agent overwrites an ordinary feature; a table assigned when agents have moved leaves wrong marks after a reset. C118_with_marks_partial: true for a table with a row marking each agent, without resets or if all agents are at their starting positions."},
{"property": "C119", "status": "proved", "theorems": ["C119_walk", "C119_goes_on"], "note": "Rewards are those the agent planned with: what is consumed on the way is not deducted. The bound is best - 2 g tol / (1-g)^2 - g^n rho / (1-g) after n steps, where rho bounds the rewards."},
{"property": "C12", "status": "proved", "theorems": ["C12_never_into_walls", "C12_single_move", "C12_invalid_action_teleports"], "note": ""},
{"property": "C120", "status": "proved", "theorems": ["C120_tries_every_move"], "note": "For every score and all draws, in every reachable grid environment; C71 says when the fit succeeds."},
{"property": "C121", "status": "partial", "theorems": ["C121_worse_chosen_refuted", "C121_shrunk_partial"], "note": "REFUTED: totals are divided by one more than the number of visits, so every value is the average times N/(N+1); the agent may prefer an action that was worse every time it was tried to one that was better every time (C121_worse_chosen_refuted). C121_shrunk_partial: the exact distance to the average; an action never tried has value 0."},
{"property": "C122", "status": "proved", "theorems": ["C56_dict"], "note": "The part of C56 that holds."},
{"property": "C123", "status": "proved", "theorems": ["C57_plots", "C57_touching"], "note": "The part of C57 that holds."},
{"property": "C124", "status": "proved", "theorems": ["C98_hex", "C98_square_layers"], "note": "The part of C98 that holds."},
{"property": "C125", "status": "proved", "theorems": ["C99_with_agents"], "note": "The part of C99 that holds."},
{"property": "C126", "status": "proved", "theorems": ["C100_path", "C100_after_plot", "C100_square", "C100_agents", "C100_labels"], "note": "The part of C100 that holds."},
{"property": "C127", "status": "proved", "theorems": ["C101_range"], "note": "The part of C101 that holds."},
{"property": "C128", "status": "proved", "theorems": ["C45_never_fails", "C45_in_tree_search"], "note": "The part of C45 that holds."},
{"property": "C129", "status": "proved", "theorems": ["C129_shortest_path", "C129_arrives", "C129_defaults"], "note": "Exact arithmetic. Condition: (1+g) g^k R/(1-g) < tol for k+1 sweeps, and 2 g tol < (1-g)^2 g^(d-1) R at distance d; C129_defaults: met by the default settings for 0 < d <= 100 and 1 <= R <= 10^12."},
{"property": "C13", "status": "proved", "theorems": ["C13_consume", "C13_consume_again", "C13_grid_tables"], "note": ""},
{"property": "C130", "status": "partial", "theorems": ["C130_rewards_attract_refuted", "C129_arrives"], "note": "REFUTED: with a reward of 1e-9, below the default tolerance, planning stops after one sweep and the agent may walk away from it. True under the condition of C129."},
{"property": "C131", "status": "proved", "theorems": ["C131_assigned", "C131_until_fitted", "C131_as_if_given", "C131_next_fit", "C131_wrong_length", "C131_library"], "note": "C131_next_fit is for value iteration. C131_library says which algorithms of the library ignore other agents' reward functions."},
{"property": "C132", "status": "partial", "theorems": ["C132_refused_refuted", "C132_others_refuted", "C132_consumes_refuted", "C131_wrong_length"], "note": "REFUTED: arrays of every length are accepted (C132_refused_refuted, for every environment), after which agents simulating this one can no longer plan (C132_others_refuted); an index beyond the features is accepted, and the next step raises after the agent has moved (C132_consumes_refuted). True variant: the agent's own next fit raises and keeps the plan (C131_wrong_length)."},
{"property": "C133", "status": "proved", "theorems": ["C133_assigned", "C133_later_steps"], "note": "For indices below the number of features; see C132 for others."},
{"property": "C134", "status": "proved", "theorems": ["C134_later_turns"], "note": "Also for calls with refitting; the agent's place in the default plan of others has the new length by all_n_steps."},
{"property": "C135", "status": "proved", "theorems": ["C135_reset_like_new", "C135_library"], "note": "C135_library: value iteration, tree search (default reset_cache) and the null algorithm ignore the counts. Draws are the same on both sides; see C139 for where they come from."},
{"property": "C136", "status": "proved", "theorems": ["C136_seeded", "C136_numpy_seed", "C136_is_a_run", "C136_library"], "note": "How generators change and how draws depend on them is arbitrary. C136_is_a_run: a run with generators is a run of the model with draws as arguments, so all other theorems apply. C136_unseeded_refuted shows that a seed is needed."},
{"property": "C137", "status": "partial", "theorems": ["C137_search_refuted", "C137_same_state_partial", "C137_only_fits_partial", "C136_seeded"], "note": "REFUTED by C137_search_refuted: the compiled search draws from a generator of its own, which neither the selectors' seeds nor np.random.seed called from Python reach. True variants: runs that start with that generator in the same state are the same (C137_same_state_partial); only fits change its state (C137_only_fits_partial); C136_seeded, for algorithms without random choices."},
{"property": "C138", "status": "proved", "theorems": ["C138_schedule"], "note": "Compared with a run of the agent's own calls only, so two interleavings agree with each other. Calls that fit the agent, move it as part of a sequence, change walls or reset are excluded. C138_unseeded_refuted: without a seed the order decides."},
{"property": "C139", "status": "partial", "theorems": ["C139_reset_repeats_refuted", "C139_no_draws_partial"], "note": "REFUTED by C139_reset_repeats_refuted: a reset leaves the generators where they are, so ties are broken differently. C139_no_draws_partial: true if the draws do not matter, agents are fitted before they act and no walls were assigned."},
{"property": "C14", "status": "proved", "theorems": ["C14_add", "C14_move", "C14_remove", "C14_add_remove", "C14_remove_without_agents_refuted"], "note": "Removal is lossless whenever there is at least one agent; C14_remove_without_agents_refuted shows the boundary case of zero agents, where every feature is dropped."},
{"property": "C140", "status": "proved", "theorems": ["C140_fit", "C140_any_action"], "note": "Where an impossible action leads is C34."},
{"property": "C141", "status": "proved", "theorems": ["C141_same_rewards", "C141_order", "C141_plan_stable"], "note": "C141_same_rewards holds for any backup. C141_plan_stable compares any two fits of an agent in the life of an environment."},
{"property": "C142", "status": "proved", "theorems": ["C142_scaling", "C142_choices"], "note": ""},
{"property": "C143", "status": "partial", "theorems": ["C143_multiplied_refuted", "C143_finer_partial"], "note": "REFUTED by C143_multiplied_refuted: planning with rewards near the tolerance stops before they have spread. C143_finer_partial: it is the same as dividing the tolerance by the factor, so the plan of a multiplied reward function is that of a finer tolerance."},
{"property": "C144", "status": "proved", "theorems": ["C144_rewards", "C144_fitted"], "note": ""},
{"property": "C145", "status": "partial", "theorems": ["C145_walls_refuted", "C145_walls_partial"], "note": "REFUTED by C145_walls_refuted for punished states: a blocked action counts as free of cost. C145_walls_partial: true if no state is punished."},
{"property": "C146", "status": "proved", "theorems": ["C146_between", "C146_fit"], "note": ""},
{"property": "C147", "status": "proved", "theorems": ["C147_actions", "C147_probabilities", "C147_policy", "C147_library"], "note": "C147_needs_tidy (an example) shows that a selector that returns an array it keeps has that array changed."},
{"property": "C148", "status": "proved", "theorems": ["C148_bounds"], "note": "Concrete cases: C149_example."},
{"property": "C149", "status": "proved", "theorems": ["C149_longer", "C149_never_above_best"], "note": ""},
{"property": "C15", "status": "proved", "theorems": ["C15_conserved", "C15_from_start"], "note": "For environments whose consumed features are valid indices; the other case is C62."},
{"property": "C150", "status": "proved", "theorems": ["C150_discount", "C150_fitted"], "note": "Concrete cases: C149_example."},
{"property": "C151", "status": "proved", "theorems": ["C151_best", "C151_fitted", "C151_grid"], "note": "The condition of C151_fitted is that of C29: enough sweeps for the tolerance."},
{"property": "C152", "status": "proved", "theorems": ["C152_back", "C152_fewest"], "note": ""},
{"property": "C153", "status": "proved", "theorems": ["C153_softmax", "C153_greedy", "C153_random"], "note": ""},
{"property": "C154", "status": "proved", "theorems": ["C154_matching", "C154_sight", "C154_difference", "C154_learners"], "note": "C154_learners is for any way to count features, so for both learners."},
{"property": "C155", "status": "partial", "theorems": ["C155_order_refuted", "C155_single_states_partial"], "note": "REFUTED: whatever the settings, one iteration on a trajectory of one state and a longer one gives different weights in the two orders, as earlier trajectories are divided by the lengths of later ones (see C52); true variant: trajectories of a single state each."},
{"property": "C156", "status": "proved", "theorems": ["C156_cold_bound", "C156_cold", "C156_hot_bound", "C156_hot", "C156_warmer"], "note": "Rows with an infinite positive value are the subject of C61. Floating-point rounding is not modelled."},
{"property": "C157", "status": "proved", "theorems": ["C157_two_steps", "C157_schedules"], "note": "C157_eaters (an example) shows that the order matters if both consume the same feature."},
{"property": "C158", "status": "proved", "theorems": ["C158_names", "C158_grids"], "note": "The solver's own values for the two grids agree up to twice the planner's precision; they need not be equal, as sweeps go through the states in order (C158_example)."},
{"property": "C159", "status": "proved", "theorems": ["C159_constant", "C159_grids"], "note": "Where a state is punished the claim fails: C159_example."},
{"property": "C16", "status": "proved", "theorems": ["C16_marks_only_position", "C16_until_eaten", "C16_renewed", "C16_on_a_state", "C16_one_hot", "C16_bad_position_erases"], "note": "C16_until_eaten and C16_renewed: the mark is set by every move and stays until it is consumed. C16_bad_position_erases shows why positions below the index range are excluded."},
{"property": "C160", "status": "proved", "theorems": ["C160_maxent", "C160_matching", "C160_sight", "C160_difference", "C160_learners", "C160_hypotheses", "C160_grids"], "note": "C160_grids: grids made from features in another order are such MDPs."},
{"property": "C161", "status": "proved", "theorems": ["C161_increments"], "note": ""},
{"property": "C162", "status": "partial", "theorems": ["C162_returned_refuted", "C162_reset_partial", "C162_grids"], "note": "REFUTED: a fit without reset adds to the array returned earlier. True from the next fit with reset on (C162_reset_partial). C162_grids: on grids the counts are as assumed."},
{"property": "C163", "status": "partial", "theorems": ["C163_failed_refuted", "C163_reset_partial"], "note": "REFUTED: the trajectories counted before the failure stay added, and with reset the old estimate is gone. A later fit with reset does not depend on it (C163_reset_partial)."},
{"property": "C164", "status": "partial", "theorems": ["C164_handed_out_refuted", "C164_after_reset_partial"], "note": "REFUTED: the learner hands out its own array, and the next fit changes it. True after the first reset of what was handed out before it (C164_after_reset_partial)."},
{"property": "C165", "status": "partial", "theorems": ["C165_integers_refuted", "C165_floats_partial"], "note": "REFUTED: with an array of integers every fit to a move raises TypeError. With floats fitting succeeds as in C48 (C165_floats_partial)."},
{"property": "C166", "status": "proved", "theorems": ["C166_fit", "C166_steps", "C166_sequence"], "note": "Consumed features are assumed to be in range (compare C62); selectors are those of the library. Longer sequences with refitting fail (C22)."},
{"property": "C167", "status": "proved", "theorems": ["C167_coordinates", "C167_agents"], "note": ""},
{"property": "C168", "status": "proved", "theorems": ["C168_out"], "note": "The part of C39 that holds."},
{"property": "C169", "status": "proved", "theorems": ["C169_latest_fit", "C113_not_fitted"], "note": "The part of C113 that holds."},
{"property": "C17", "status": "proved", "theorems": ["C17_accepts_iff", "C17_rejects", "C17_result"], "note": ""},
{"property": "C170", "status": "proved", "theorems": ["C170_probable", "C170_unique_best", "C170_afterwards"], "note": "The part of C114 that holds."},
{"property": "C171", "status": "proved", "theorems": ["C171_same_outcome", "C171_kept", "C171_undisturbed"], "note": "The parts of C41 and C112 that hold."},
{"property": "C172", "status": "proved", "theorems": ["C172_ray"], "note": "The part of C55 that holds."},
{"property": "C173", "status": "proved", "theorems": ["C173_detection"], "note": "The part of C66 that holds."},
{"property": "C174", "status": "proved", "theorems": ["C174_fit_succeeds", "C87_grids"], "note": "The part of C87 that holds."},
{"property": "C175", "status": "proved", "theorems": ["C175_fit_succeeds", "C90_grids"], "note": "The part of C90 that holds."},
{"property": "C176", "status": "proved", "theorems": ["C176_converges"], "note": "The part of C80 that holds."},
{"property": "C177", "status": "proved", "theorems": ["C177_walls"], "note": "The part of C145 that holds."},
{"property": "C178", "status": "proved", "theorems": ["C178_best", "C178_solver"], "note": "The part of C31 that holds."},
{"property": "C179", "status": "proved", "theorems": ["C179_distribution"], "note": "The part of C33 that holds."},
{"property": "C18", "status": "proved", "theorems": ["C18_reset"], "note": "The history before the reset may contain resets, so a second reset is covered."},
{"property": "C180", "status": "proved", "theorems": ["C180_features", "C180_walls"], "note": "The part of C107 that holds."},
{"property": "C181", "status": "proved", "theorems": ["C181_rest"], "note": "The part of C109 that holds."},
{"property": "C182", "status": "proved", "theorems": ["C182_next_step"], "note": "The part of C117 that holds."},
{"property": "C183", "status": "proved", "theorems": ["C183_live", "C183_reset"], "note": "The part of C115 that holds."},
{"property": "C184", "status": "proved", "theorems": ["C184_same_state", "C184_only_fits"], "note": "The part of C137 that holds."},
{"property": "C185", "status": "proved", "theorems": ["C185_opacity", "C185_limited", "C185_too_few"], "note": ""},
{"property": "C186", "status": "partial", "theorems": ["C186_colours_refuted", "C186_ten_partial", "C186_given"], "note": "REFUTED: from the tenth feature on all have the same colour. True for up to ten features (C186_ten_partial) and if different colours are given (C186_given)."},
{"property": "C187", "status": "proved", "theorems": ["C187_typed", "C187_only_typed", "C187_refused"], "note": ""},
{"property": "C188", "status": "proved", "theorems": ["C188_kept", "C188_reset", "C188_result", "C188_value_iteration", "C188_null"], "note": ""},
{"property": "C189", "status": "partial", "theorems": ["C189_list_refuted", "C189_array_partial"], "note": "REFUTED: a list always raises TypeError. C189_array_partial: arrays are accepted."},
{"property": "C19", "status": "proved", "theorems": ["C19_step", "C19_rejects", "C19_failed_step"], "note": "for every algorithm and action selector (they are parameters); C19_failed_step covers calls that raise"},
{"property": "C190", "status": "proved", "theorems": ["C190_fresh", "C190_json"], "note": ""},
{"property": "C191", "status": "partial", "theorems": ["C191_start_refuted"], "note": "REFUTED for every environment with an agent away from its starting place; what holds is C192."},
{"property": "C192", "status": "proved", "theorems": ["C192_saved"], "note": ""},
{"property": "C193", "status": "proved", "theorems": ["C193_succeeds", "C193_wrong_length"], "note": ""},
{"property": "C194", "status": "proved", "theorems": ["C194_own_place"], "note": "C33_certain_step_refuted shows what can happen to the first state."},
{"property": "C195", "status": "proved", "theorems": ["C195_two_steps", "C195_schedules"], "note": "Generalises C157."},
{"property": "C196", "status": "proved", "theorems": ["C196_harmless"], "note": "C64_position_refuted is the other case."},
{"property": "C197", "status": "proved", "theorems": ["C197_greedy", "C197_softmax", "C197_greedy_probabilities", "C197_softmax_probabilities", "C197_rejected"], "note": "What holds of C26."},
{"property": "C198", "status": "proved", "theorems": ["C198_accepted_iff"], "note": "What holds of C48."},
{"property": "C199", "status": "proved", "theorems": ["C199_weights", "C199_two", "C199_at_most"], "note": "What holds of C52."},
{"property": "C20", "status": "proved", "theorems": ["C20_history", "C20_reported", "C20_connected", "C20_count"], "note": ""},
{"property": "C200", "status": "proved", "theorems": ["C200_rates"], "note": "What holds of C93."},
{"property": "C201", "status": "proved", "theorems": ["C201_rates"], "note": "What holds of C49."},
{"property": "C202", "status": "partial", "theorems": ["C202_never_refuted", "C202_grids"], "note": "REFUTED: no fit of a tree search without an agent succeeds (C202_never_refuted). C202_grids: an interactive one refuses and is left alone, as claimed; one that is not interactive forgets its result and raises AttributeError."},
{"property": "C203", "status": "partial", "theorems": ["C203_maxent_refuted", "C203_maxent_lists_refuted", "C203_hyptest_refuted", "C203_hyptest_errors", "C203_floats"], "note": "REFUTED: with an array of integers no fit of either algorithm succeeds, and maximum-entropy inference accepts no list. C203_floats says that the model of floats is the one used elsewhere. What holds is C204."},
{"property": "C204", "status": "proved", "theorems": ["C204_lists", "C204_floats"], "note": "C204_floats says that the model of floats is the one used elsewhere."},
{"property": "C205", "status": "proved", "theorems": ["C205_others_untouched", "C205_own_steps"], "note": "The step counter part needs the consumed features to be indices of the feature table (see C62). Every agent has the algorithm object it was made with; one object assigned to two agents is outside the model."},
{"property": "C206", "status": "proved", "theorems": ["C206_solver", "C206_solution_bounded", "C206_grids", "C206_float64", "C206_defaults"], "note": "Every operation of the iteration, the sums of rewards and the convergence test is rounded; sums are added from left to right; overflow is excluded by C242 and C243. 'Exact solution' is the solution for the discount as it is stored (0.9 rounded to a float64)."},
{"property": "C207", "status": "proved", "theorems": ["C207_fit", "C207_walk", "C207_shortest_path", "C207_defaults"], "note": "As for C206. Choosing the best action only compares, which is exact."},
{"property": "C208", "status": "partial", "theorems": ["C208_overflow_refuted"], "note": "REFUTED: with rewards of zero or more and a move whose expected reward is so large that its exponential overflows, the log of the summed exponentials is infinite and the solver raises ValueError (weight 1000 on a 1 by 3 grid: C208_example). What holds is C209."},
{"property": "C209", "status": "proved", "theorems": ["C209_same", "C209_defaults", "C209_grids"], "note": "Overflow of the exponential is modelled, rounding is not."},
{"property": "C21", "status": "proved", "theorems": ["C21_step_multi"], "note": "complete description of the call as rounds, including the rounds that raise"},
{"property": "C210", "status": "partial", "theorems": ["C210_out_of_range_refuted"], "note": "REFUTED in double precision, bit by bit: with the softmax probabilities of the action values 0 and 3 and the largest draw below 1 the compiled choice returns 2, one past the last action; numpy's choice returns 1. What holds is C211."},
{"property": "C211", "status": "proved", "theorems": ["C211_numpy", "C211_numba", "C211_float64"], "note": "Rounding is modelled, overflow is not. Sums are added from left to right, which numpy does for fewer than eight numbers and numba always."},
{"property": "C212", "status": "proved", "theorems": ["C212_probabilities", "C212_choice", "C212_float64", "C212_exp64"], "note": "As for C211; the exponential is any function with a relative and an absolute error bound that is exact at zero (C212_exp64: the correctly rounded one is). numpy's check that probabilities sum to one compares the exact sum."},
{"property": "C213", "status": "proved", "theorems": ["C213_fit", "C213_walk", "C213_defaults"], "note": "As for C206 and C212: overflow is not modelled, sums are added from left to right."},
{"property": "C214", "status": "proved", "theorems": ["C214_range", "C214_constant_rate", "C214_decaying_rate", "C214_same_outcome", "C214_float64", "C214_pow64", "C214_defaults"], "note": "Rounding is any function with the properties collected in rounding, never_above_one and halves_exact; C206_float64 and C214_float64 show that round-to-nearest binary64 without overflow has them. The power and the exponential are any functions with given error bounds (C214_pow64: the correctly rounded power is one). With the kernel the accuracy theorems cover grids with 4, 5 or 6 actions (whole degrees); C214_range and C214_same_outcome cover all."},
{"property": "C215", "status": "proved", "theorems": ["C215_policy", "C215_maxent", "C215_hyptest"], "note": "The part of C50 that holds. C50_example runs it for policy learning."},
{"property": "C216", "status": "proved", "theorems": ["C216_kept", "C216_value_iteration"], "note": "The part of C111 that holds. C111_kept_example meets the hypotheses."},
{"property": "C217", "status": "proved", "theorems": ["C217_kept", "C217_undisturbed"], "note": "The part of C112 that holds. C112_hypotheses meets the hypotheses."},
{"property": "C218", "status": "proved", "theorems": ["C218_finer"], "note": "The part of C143 that holds, for value iteration without soft backups. The only hypothesis is a positive factor."},
{"property": "C219", "status": "proved", "theorems": ["C219_contrast"], "note": "The part of C89 that holds; see C172 for rays."},
{"property": "C22", "status": "partial", "theorems": ["C22_beyond_one_turn_refuted", "C22_within_one_turn_partial"], "note": "REFUTED by C22_beyond_one_turn_refuted: refitting on the step after a complete turn raises; within one turn it holds, C22_within_one_turn_partial."},
{"property": "C220", "status": "proved", "theorems": ["C220_numbers"], "note": "The part of C92 that holds. hyptest_example meets the hypotheses."},
{"property": "C221", "status": "proved", "theorems": ["C221_shrunk"], "note": "The part of C121 that holds. C120_example is such a search."},
{"property": "C222", "status": "proved", "theorems": ["C222_own_moves"], "note": "The part of C43 that holds. C71_example meets the hypotheses."},
{"property": "C223", "status": "proved", "theorems": ["C223_older", "C223_fresh"], "note": "The parts of C162 and C163 that hold; C162_grids says that on grids the counts are as assumed, C161_example runs such fits."},
{"property": "C224", "status": "proved", "theorems": ["C224_handed_out"], "note": "The part of C164 that holds; C164_example runs it."},
{"property": "C225", "status": "proved", "theorems": ["C225_with_marks"], "note": "The part of C118 that holds; C118_example shows an assigned table."},
{"property": "C226", "status": "proved", "theorems": ["C226_settles"], "note": "The part of C83 that holds."},
{"property": "C227", "status": "proved", "theorems": ["C37_expand", "C227_exploit"], "note": "The part of C37 that holds; C37_example."},
{"property": "C228", "status": "proved", "theorems": ["C228_first_outcome", "C228_equation"], "note": "The parts of C77 and C45 that hold; C45_example and C228_example meet the hypotheses."},
{"property": "C229", "status": "proved", "theorems": ["C229_dictionary", "C229_json"], "note": "The parts of C102 and C56 that hold; C102_example runs it."},
{"property": "C23", "status": "proved", "theorems": ["C23_schedule", "C23_rejected"], "note": "a negative total or non-positive number of turns raises; negative current moves are outside the property"},
{"property": "C230", "status": "proved", "theorems": ["C230_no_draws"], "note": "The part of C139 that holds for selectors that never draw; C239 covers greedy selection without ties."},
{"property": "C231", "status": "proved", "theorems": ["C231_adjacency"], "note": "The part of C08 that holds."},
{"property": "C232", "status": "proved", "theorems": ["C232_within_one_turn"], "note": "The part of C22 that holds; C22_example runs it."},
{"property": "C233", "status": "proved", "theorems": ["C233_names", "C233_consumes"], "note": "The parts of C63 and C62 that hold; C17_example meets the hypotheses."},
{"property": "C234", "status": "proved", "theorems": ["C234_opacity", "C234_too_few"], "note": "imshow limiting opacities to the range from 0 to 1 and multiplying them by alpha is part of the model. C234_example runs it."},
{"property": "C235", "status": "proved", "theorems": ["C235_layers"], "note": "Cells have their centres at whole numbers, as imshow draws them."},
{"property": "C236", "status": "partial", "theorems": ["C236_lines_refuted", "C236_values_iff"], "note": "REFUTED by C236_lines_refuted for every shape that is not as wide as it is high (both axes use the first dimension); C236_values_iff: it holds exactly for square shapes."},
{"property": "C237", "status": "proved", "theorems": ["C237_visible"], "note": "A hexagon lies within the circle of the outer radius round its centre; the theorem covers the circle."},
{"property": "C238", "status": "proved", "theorems": ["C238_fitted", "C238_unknown", "C238_not_fitted"], "note": "Default radius and no hidden cells, as the environment calls it. Colours are not modelled."},
{"property": "C239", "status": "proved", "theorems": ["C239_repeats", "C239_value_iteration"], "note": "Strengthens C230: draws may matter elsewhere, only the plans that occur must leave no choice. Walls must not be assigned in the calls considered. C135_library and C136_library show that value iteration meets ignores_records and deterministic; C239_example is a run."},
{"property": "C24", "status": "partial", "theorems": ["C24_interactive_refuted"], "note": "REFUTED in general by C24_interactive_refuted: the interactive call never moves any agent."},
{"property": "C240", "status": "proved", "theorems": ["C240_search", "C240_values", "C240_fit", "C240_next_step", "C240_greedy", "C240_softmax", "C240_float64"], "note": "Floating point counterpart of C71 and C42. Overflow is not modelled here (see C245). C240_greedy and C240_softmax discharge picks_possible for the two selectors of the library; C240_plugin and C240_example meet the hypotheses."},
{"property": "C241", "status": "proved", "theorems": ["C241_statistics", "C241_reported", "C241_whole_numbers", "C241_float64"], "note": "Floating point counterpart of C36 and C221: the rewards of the iterations are those of the rounded iterations themselves. Overflow is excluded by C245. C241_example is such a fit."},
{"property": "C242", "status": "proved", "theorems": ["C242_same", "C242_float64", "C242_defaults", "C242_fit"], "note": "agrees ro ro' M says that two arithmetics give the same results for exact results up to M; ro' is arbitrary beyond. Complements C206 and C207, whose arithmetic has no largest number. C242_example gives such an arithmetic and weights of 1e300."},
{"property": "C243", "status": "proved", "theorems": ["C243_same", "C243_large", "C243_defaults", "C243_grids", "C243_walls", "C243_fit", "C243_settings", "ieee_computes"], "note": "NumB is Flocq's formalisation of binary64, rounding to nearest, ties to even. Sums are added from left to right; numpy may add in another order. msim leaves out the published adjacency matrix, which planning does not use. C243_example is a grid; C243_bits computes two sweeps bit by bit."},
{"property": "C244", "status": "proved", "theorems": ["C244_runs", "C244_fit", "C244_shortest_path"], "note": "NumB is Flocq's binary64 as in C243. Calls of step_proba are left out: the published probabilities 1/n are rounded in double precision and exact in the real model. The published adjacency matrix is not compared. mdp_val is the MDP of the real numbers the double precision numbers stand for. C244_example is an instance."},
{"property": "C245", "status": "proved", "theorems": ["C245_statistics", "C245_fit"], "note": "IEEE 754 counterpart of C241; NumB is Flocq's binary64 as in C243. The rewards of the iterations are those the double precision iterations themselves report. Where an action has several possible successors the value is that of one of them, as in the code. C245_example is an instance with two agents."},
{"property": "C246", "status": "proved", "theorems": ["C246_range", "C246_any_rate", "C246_decaying", "C246_defaults"], "note": "IEEE 754 counterpart of C214; NumB is Flocq's binary64 as in C243. In C246_range the decay factor (np.power) is any function with values between zero and one, in C246_decaying the correctly rounded power; the kernel is not included. In the accuracy statement 0.3 stands for the nearest double. C246_example and C246_decaying_example are instances with three observations."},
{"property": "C247", "status": "proved", "theorems": ["C247_sampled_is_best", "C247_probabilities"], "note": "IEEE 754 counterpart of C25; NumB is Flocq's binary64 as in C243. Infinities and NaN among the values are the constructors NInf, PInf and NaN; the sum of the probabilities is that of the real numbers they stand for. C247_example is an instance with an impossible action, a tie and a state without values."},
{"property": "C248", "status": "proved", "theorems": ["C248_greedy_choice", "C248_move"], "note": "Combines C245 and C247: how accurate the values are is in C245. Possible means a non-zero transition probability. C248_example: the two agents of C245_example."},
{"property": "C249", "status": "proved", "theorems": ["C249_same_answers"], "note": "IEEE 754 counterpart of the theorems about these questions over the reals (such as C10 and C12), which it carries over; NumB is Flocq's binary64 as in C243, and mdp_val replaces every number by the real number it stands for. C249_example is an instance with two actions."},
{"property": "C25", "status": "proved", "theorems": ["C25_probabilities", "C25_sampled_is_best", "C25_best_can_be_sampled"], "note": ""},
{"property": "C26", "status": "partial", "theorems": ["C26_mixed_infinities_refuted", "C26_flagged_states_partial", "C26_flagged_probabilities_partial", "C26_max_selector_partial", "C26_all_nan_rejected"], "note": "REFUTED by C26_mixed_infinities_refuted: a state with both +inf and -inf is flagged although its values are known; the exact set of flagged states is in the _partial theorems. Stepping from a flagged state raises: see C19."},
{"property": "C27", "status": "proved", "theorems": ["C27_temperature", "C27_gibbs", "C27_uniform", "C27_shift", "C27_no_overflow", "C27_sampled_is_possible"], "note": "Over the reals; floating-point rounding is not modelled."},
{"property": "C28", "status": "proved", "theorems": ["C28_interval", "C28_zero_weight_never_drawn"], "note": ""},
{"property": "C29", "status": "proved", "theorems": ["C29_unique_solution", "C29_sweep_contracts", "C29_solver", "C29_solution_bounded", "C29_rejects", "C29_grids"], "note": "C29_grids: every grid MDP meets the hypotheses"},
{"property": "C30", "status": "proved", "theorems": ["C30_mask", "C30_policies"], "note": ""},
{"property": "C31", "status": "partial", "theorems": ["C31_negative_refuted", "C31_nonnegative_partial", "C31_may_stop_partial", "C31_solver_negative_refuted", "C31_solver_nonnegative_partial", "C31_solver_may_stop_partial"], "note": "REFUTED for negative rewards by C31_negative_refuted: impossible actions count with value 0. C31_nonnegative_partial: holds without negative rewards. C31_may_stop_partial: what the values mean in general. The C31_solver_ theorems say the same of the values the solver returns."},
{"property": "C32", "status": "proved", "theorems": ["C32_backup", "C32_unique_solution", "C32_sweep_contracts", "C32_solver", "C32_soft_above_hard"], "note": ""},
{"property": "C33", "status": "partial", "theorems": ["C33_not_a_distribution_refuted", "C33_certain_step_refuted", "C33_last_write_partial", "C33_distinct_partial"], "note": "REFUTED by C33_not_a_distribution_refuted: entries are assigned, not accumulated. C33_certain_step_refuted: even where the next step is certain all entries can be zero. C33_last_write_partial says what is returned; C33_distinct_partial proves the property when all possible state/action pairs lead to different states."},
{"property": "C34", "status": "partial", "theorems": ["C34_teleport_refuted", "C34_isolated_refuted", "C34_stale_refuted", "C34_possible_actions_partial", "C68_value_iteration_moves"], "note": "REFUTED: with the Null algorithm and greedy selection an impossible action takes the agent to state 0 (C34_teleport_refuted); with value iteration this happens from a state without possible actions and after a change of walls. C34_possible_actions_partial: holds whenever the selector picks a possible action; C68_value_iteration_moves: holds for value iteration otherwise."},
{"property": "C35", "status": "partial", "theorems": ["C35_interactive", "C35_alone_partial", "C35_alone_refuted"], "note": "REFUTED without interaction by C35_alone_refuted: if the first turn of the schedule has no moves but later turns have, the iteration never ends. C35_alone_partial: otherwise it holds; with interaction it always holds, C35_interactive."},
{"property": "C36", "status": "proved", "theorems": ["C36_statistics", "C36_fit"], "note": "C36_fit: for the fit of an agent in any reachable environment."},
{"property": "C37", "status": "partial", "theorems": ["C37_expand", "C37_simulate", "C37_exploit_partial", "C37_unvisited_refuted", "C37_search_refuted"], "note": "REFUTED: if the current node has no visits the score is not a number and the first successor is taken (C37_unvisited_refuted); this happens in real searches (C37_search_refuted). C37_exploit_partial: holds when the current node has been visited."},
{"property": "C38", "status": "proved", "theorems": ["C38_not_caught", "C38_caught", "C38_caught_iff"], "note": ""},
{"property": "C39", "status": "partial", "theorems": ["C39_pays_repeatedly_refuted", "C39_eaten_catches_refuted", "C39_out_partial"], "note": "REFUTED twice: an eaten agent pays again at every overlap check while the primary agent stays on it, and an eaten predator still catches. The strongest true variant is C39_out_partial: once out, an agent stays out, never moves again and never consumes."},
{"property": "C40", "status": "proved", "theorems": ["C40_never_created", "C40_consumed", "C40_collects", "C40_reward_alone"], "note": "Includes the closed form of the simulated reward without interaction."},
{"property": "C41", "status": "partial", "theorems": ["C41_stale_values_refuted", "C41_ordinary_partial"], "note": "REFUTED by C41_stale_values_refuted: the key lists only consumption of features and where the others are, so values computed when another agent's feature row marked a different state are reused. The strongest true variant is C41_ordinary_partial: the same outcome, exceptions included, if opponents care about ordinary features only and no agent consumes more than one feature."},
{"property": "C42", "status": "proved", "theorems": ["C42_values", "C42_next_step", "C42_stale", "C42_second_step", "C42_isolated"], "note": "For every grid environment, every score, settings, schedule and draws."},
{"property": "C43", "status": "partial", "theorems": ["C43_without_schedule_refuted", "C43_with_schedule_partial"], "note": "REFUTED by C43_without_schedule_refuted: fitting without a schedule raises TypeError in every environment. The strongest true variant is C43_with_schedule_partial: passing the agents' own moves explicitly works."},
{"property": "C44", "status": "proved", "theorems": ["C44_agent_table", "C44_accepted", "C44_environment"], "note": "C44_environment: for the search made for an agent of any reachable environment."},
{"property": "C45", "status": "partial", "theorems": ["C45_never_fails", "C45_in_tree_search", "C45_all_possible_partial", "C45_border_refuted"], "note": "The matrix is always invertible. REFUTED for next states with an impossible action (C45_border_refuted): such an action's own value is minus infinity. C45_all_possible_partial: the equation holds where everything is possible in the next state; C75 gives the equation in general."},
{"property": "C46", "status": "proved", "theorems": ["C46_shortest", "C46_range", "C46_symmetric", "C46_periodic", "C46_zero_iff", "C46_triangle", "C46_kernel"], "note": ""},
{"property": "C47", "status": "proved", "theorems": ["C47_average", "C47_from_nothing", "C47_object"], "note": "C47_object: the same holds of the learner as an object with its arrays in memory. Also with the kernel's credits. Conditional on fit succeeding: see C48."},
{"property": "C48", "status": "partial", "theorems": ["C48_one_trajectory_refuted", "C48_when_it_succeeds_partial"], "note": "REFUTED: the loop variable of the actions shadows that of the trajectories, so a trajectory with more moves than there are trajectories raises IndexError. C48_when_it_succeeds_partial: success exactly when no trajectory has more."},
{"property": "C49", "status": "partial", "theorems": ["C49_schedule_refuted", "C49_second_fit_refuted", "C49_integer_refuted", "C49_actual_schedule", "C49_two_observations_partial", "C49_maxent_actual_schedule", "C49_maxent_rate_refuted"], "note": "REFUTED: the n-th rate is lr (n!)^-d (C49_actual_schedule), a second fit goes on from the reduced rate, and an integer decay raises ValueError. True for the first two observations of the first fit (C49_two_observations_partial). In maximum-entropy IRL the (j+1)-th step uses even less (C49_maxent_actual_schedule, C49_maxent_rate_refuted)."},
{"property": "C50", "status": "partial", "theorems": ["C50_first_reset_partial", "C50_later_resets_refuted", "C50_no_estimate_refuted", "C50_maxent_first_reset_partial", "C50_maxent_later_resets_refuted", "C50_maxent_no_estimate_refuted", "C50_hyptest_first_reset_partial", "C50_hyptest_later_resets_refuted", "C50_hyptest_none_refuted", "C50_hyptest_none_error"], "note": "REFUTED for policy learning: after the first reset the estimate and the stored original are the same array, so later resets do nothing; without an initial estimate, fitting after a reset raises TypeError. The first reset works (C50_first_reset_partial). The same three facts hold for maximum-entropy IRL (C50_maxent_...) and hypothesis testing (C50_hyptest_...)."},
{"property": "C51", "status": "proved", "theorems": ["C51_visits", "C51_monotone", "C51_total"], "note": ""},
{"property": "C52", "status": "partial", "theorems": ["C52_equal_refuted", "C52_weights_partial", "C52_short_partial"], "note": "REFUTED: the running counts are divided by the trajectory's length again for every trajectory, so earlier trajectories weigh less. C52_weights_partial gives the actual weights; the property holds if all trajectories but the first have length one (C52_short_partial)."},
{"property": "C53", "status": "partial", "theorems": ["C53_list_partial", "C53_ignored_zero", "C53_default_refuted", "C53_tuple_refuted", "C53_matching_actual", "C53_matching_refuted", "C53_matching_range_refuted", "C53_hyptest_others_partial", "C53_hyptest_nan_refuted"], "note": "REFUTED: for maximum-entropy IRL the default (the empty tuple) sets every weight to zero, and a tuple of two or more features makes fitting fail; feature matching removes whole trajectories instead of features. True for a list given to maximum-entropy IRL (C53_list_partial, C53_ignored_zero). In hypothesis testing ignored features get NaN (C53_hyptest_nan_refuted) and the others are not affected (C53_hyptest_others_partial)."},
{"property": "C54", "status": "proved", "theorems": ["C54_counts"], "note": ""},
{"property": "C55", "status": "partial", "theorems": ["C55_ray_partial", "C55_staying_refuted"], "note": "Proved for every direction (C55_ray_partial). REFUTED for the staying action, for which the loop never ends (C55_staying_refuted)."},
{"property": "C56", "status": "partial", "theorems": ["C56_dict", "C56_json_refuted", "C56_json_partial"], "note": "Proved through a dictionary (C56_dict). REFUTED through JSON: the loader passes no feature names, so every ordinary feature becomes zero (C56_json_refuted); everything else is preserved (C56_json_partial)."},
{"property": "C57", "status": "partial", "theorems": ["C57_plots", "C57_touching", "C57_exact_refuted"], "note": "Proved up to drawing tolerance: adjacent cells are drawn touching, all others clearly apart (C57_touching). Exactly equal distances are REFUTED because the inner radius uses the truncated constant 0.86602540 (C57_exact_refuted)."},
{"property": "C58", "status": "partial", "theorems": ["C58_plain_mdp_refuted"], "note": "REFUTED: the constructor raises for every argument."},
{"property": "C59", "status": "partial", "theorems": ["C59_assigned_transitions_refuted", "C59_walls_reset_transitions_partial"], "note": "REFUTED by C59_assigned_transitions_refuted; what holds is C59_walls_reset_transitions_partial."},
{"property": "C60", "status": "partial", "theorems": ["C60_stochastic_refuted", "C60_only_deterministic_partial"], "note": "REFUTED by C60_stochastic_refuted: drawing always raises AttributeError."},
{"property": "C61", "status": "proved", "theorems": ["C61_probabilities_nan", "C61_sampling_raises"], "note": ""},
{"property": "C62", "status": "partial", "theorems": ["C62_low_consumes_refuted", "C62_upper_bound_partial"], "note": "REFUTED by C62_low_consumes_refuted: only the upper bound is checked; the strongest true variant is C62_upper_bound_partial."},
{"property": "C63", "status": "partial", "theorems": ["C63_same_name_refuted", "C63_one_agent_per_name_partial"], "note": "REFUTED by C63_same_name_refuted; what holds is C63_one_agent_per_name_partial."},
{"property": "C64", "status": "partial", "theorems": ["C64_failed_construction_refuted", "C64_position_refuted", "C64_refused_first_entry_partial"], "note": "REFUTED by C64_failed_construction_refuted (n_agents is incremented before the position is checked); C64_position_refuted: whenever an agent is refused for its position, every construction that would have succeeded raises AttributeError afterwards; C64_refused_first_entry_partial is a harmless case."},
{"property": "C65", "status": "partial", "theorems": ["C65_reset_keeps_records_refuted", "C18_reset", "C135_reset_like_new"], "note": "REFUTED by C65_reset_keeps_records_refuted: consumption records, step counter and fitted state survive; what is restored is C18_reset, and C135_reset_like_new says that nothing but these records differs for agents that are fitted before they act."},
{"property": "C66", "status": "partial", "theorems": ["C66_negative_position_refuted", "C66_negative_feature_refuted", "C66_detection_partial"], "note": "REFUTED for negative positions and indices; C66_detection_partial: exact for non-negative ones."},
{"property": "C67", "status": "proved", "theorems": ["C67_greedy_near_optimal", "C67_returns_exist"], "note": "C67_returns_exist: every behaviour that acts has a total return, so the comparison is never vacuous."},
{"property": "C68", "status": "proved", "theorems": ["C68_value_iteration_moves"], "note": ""},
{"property": "C69", "status": "proved", "theorems": ["C69_solver_nonnegative", "C69_solver_may_stop", "C69_nonnegative", "C69_may_stop"], "note": "C69_solver_*: for what the solver returns, from some number of iterations on, up to the tolerance."},
{"property": "C70", "status": "proved", "theorems": ["C35_interactive"], "note": ""},
{"property": "C71", "status": "proved", "theorems": ["C71_search_completes", "C71_fit_succeeds", "C71_grids_have_no_dead_ends"], "note": ""},
{"property": "C72", "status": "partial", "theorems": ["C72_indifferent_opponent_refuted", "C71_search_completes"], "note": "REFUTED: an opponent whose reward function is zero everywhere makes the search raise TypeError. C71 covers opponents with a non-zero reward entry."},
{"property": "C73", "status": "partial", "theorems": ["C73_cached_consumer_refuted", "C71_search_completes"], "note": "REFUTED: with caching, an agent that consumes two features raises ValueError. C71 covers caching when each agent consumes at most one feature."},
{"property": "C74", "status": "partial", "theorems": ["C74_depth_refuted", "C74_own_schedule_partial"], "note": "REFUTED in general: the other agents' moves in the schedule are counted too. C74_own_schedule_partial: holds if the schedule contains the planning agent only."},
{"property": "C75", "status": "proved", "theorems": ["C75_q_values", "C75_grids"], "note": ""},
{"property": "C76", "status": "proved", "theorems": ["C76_visits", "C76_nonnegative"], "note": ""},
{"property": "C77", "status": "partial", "theorems": ["C77_stochastic_refuted", "C77_first_outcome_partial"], "note": "REFUTED: only the first possible outcome of each action is used (C77_first_outcome_partial says exactly this)."},
{"property": "C78", "status": "partial", "theorems": ["C78_length_scale_refuted", "C46_kernel"], "note": "REFUTED: the kernel multiplies by the squared length scale instead of dividing, so a larger one always generalises less."},
{"property": "C79", "status": "proved", "theorems": ["C79_generalisation", "C79_hex_turns", "C79_square_turns"], "note": ""},
{"property": "C80", "status": "partial", "theorems": ["C80_convergence_refuted", "C80_without_decay_partial"], "note": "REFUTED with decay: the value stays below a bound less than one. True without decay (C80_without_decay_partial)."},
{"property": "C81", "status": "partial", "theorems": ["C81_policy_irl_refuted"], "note": "REFUTED: mdp.n_actions fails on a list and mdp[n] on a single MDP."},
{"property": "C82", "status": "partial", "theorems": ["C82_staying_refuted", "C79_generalisation"], "note": "REFUTED: staying is treated as one more direction next to 0 and 5. C79 covers grids without staying."},
{"property": "C83", "status": "partial", "theorems": ["C83_match_refuted", "C83_settles_partial"], "note": "REFUTED: expected counts grow with the number of visitation steps and observed frequencies do not, so with two or more steps no weights match. C83_settles_partial: an iteration leaves the weights as they are exactly if the counts match."},
{"property": "C84", "status": "partial", "theorems": ["C84_warning_refuted", "C83_settles_partial"], "note": "REFUTED: the warning compares the signed mean error with the tolerance, so fits whose expected counts are always far too large give no warning."},
{"property": "C85", "status": "partial", "theorems": ["C85_returned_refuted", "C85_hyptest_refuted"], "note": "REFUTED, also for hypothesis testing: the returned array is the learner's own, and the next fit changes it."},
{"property": "C86", "status": "partial", "theorems": ["C86_given_refuted", "C86_hyptest_refuted", "C86_policy_refuted"], "note": "REFUTED, also for hypothesis testing and policy learning: the caller's array is updated in place."},
{"property": "C87", "status": "partial", "theorems": ["C87_zero_iterations_refuted", "C87_fit_succeeds_partial", "C87_grids"], "note": "REFUTED for an iteration limit of zero or less. True for positive limits (C87_fit_succeeds_partial)."},
{"property": "C88", "status": "proved", "theorems": ["C88_counts", "C88_learner", "C88_object"], "note": "For moves between different states; see C55 for staying."},
{"property": "C89", "status": "partial", "theorems": ["C89_last_direction_refuted", "C89_with_staying_partial", "C89_actual"], "note": "REFUTED on grids without staying: the last direction is left out. True if staying is allowed (C89_with_staying_partial)."},
{"property": "C90", "status": "partial", "theorems": ["C90_default_refuted", "C90_other_normalisation_partial", "C90_grids"], "note": "REFUTED: the default normalisation 'relative' raises NotImplementedError at the first move, so no fit ever returns (C90_default_refuted). True for every other value (C90_other_normalisation_partial), including unknown names, which are accepted silently."},
{"property": "C91", "status": "proved", "theorems": ["C91_evidence", "C91_unnormalised"], "note": "C91_unnormalised is the case without normalisation."},
{"property": "C92", "status": "partial", "theorems": ["C92_one_option_refuted", "C92_absent_feature_refuted", "C92_numbers_partial"], "note": "REFUTED: where the possible actions are equally good under a hypothesis, 0/0 makes the weight NaN for good; in particular any move from a state with one possible action makes all weights NaN. C92_numbers_partial: the weight is a number exactly if every single move gave evidence."},
{"property": "C93", "status": "partial", "theorems": ["C93_decay_partial", "C93_no_decay_refuted", "C93_equal_rates_refuted"], "note": "True with a positive decay (C93_decay_partial). REFUTED without decay, where the asymmetry is not used, and for an asymmetry of one, which is rejected."},
{"property": "C94", "status": "proved", "theorems": ["C94_moves", "C94_split", "C94_rows"], "note": ""},
{"property": "C95", "status": "partial", "theorems": ["C95_zero_start_refuted", "C93_decay_partial"], "note": "REFUTED: the weights start at zero."},
{"property": "C96", "status": "proved", "theorems": ["C96_between"], "note": ""},
{"property": "C97", "status": "proved", "theorems": ["C97_hex_headings", "C97_square_headings", "C97_staying"], "note": ""},
{"property": "C98", "status": "partial", "theorems": ["C98_hex", "C98_square_layers", "C98_square_transposed_partial", "C98_square_refuted"], "note": "Proved for hex grids and for feature layers of square grids. REFUTED for state values on square grids, which are drawn transposed (C98_square_refuted, C98_square_transposed_partial)."},
{"property": "C99", "status": "partial", "theorems": ["C99_with_agents", "C99_no_agents_refuted"], "note": "Proved if there is an agent (C99_with_agents). REFUTED without agents: the slice features[:-0] is empty and no feature is drawn."}
]}
