{"id": "C01", "title": "State ids and grid coordinates are two names for the same cells", "statement": "On a grid MDP of shape (W,H), converting a state id to coordinates and back (and coordinates to an id and back) is the identity; ids run over exactly 0..W*H-1; the coordinate table, the id/index conversions and the reshaping of per-state vectors into a grid all use the same row-major numbering; out-of-range ids or coordinates raise instead of wrapping.", "quantifier": "every grid shape, every state id, every coordinate pair, every per-state vector", "why_tests_cant": "The shape is unbounded and every function must use the same ordering; tests fix one 15x10 grid.", "anchors": ["maMDP/grid_utils.py:grid_coords", "maMDP/mdp.py:GridMDP.state_to_idx", "maMDP/mdp.py:GridMDP.idx_to_state", "maMDP/mdp.py:GridMDP.flat_to_grid", "maMDP/mdp.py:GridMDP.features_as_grid"]}
{"id": "C02", "title": "Hex distance is the length of a shortest walk", "statement": "The distance between two offset-coordinate hex cells is a non-negative integer, is a metric (zero only on equal cells, symmetric, triangle inequality) and equals the smallest number of single-cell hex moves joining the cells.", "quantifier": "all pairs (and triples) of integer cells, including negative coordinates", "why_tests_cant": "Minimality over all walks and the metric laws range over unboundedly many cells and walks.", "anchors": ["maMDP/grid_utils.py:offset_to_cube", "maMDP/grid_utils.py:cube_distance", "maMDP/grid_utils.py:offset_distance", "maMDP/grid_utils.py:hex_dist"]}
{"id": "C03", "title": "Adjacency is exactly the geometric neighbourhood", "statement": "Hex adjacency marks exactly the six parity-dependent neighbours of a cell that lie on the grid, square adjacency exactly the four orthogonal ones; both are symmetric with empty diagonal.", "quantifier": "every list of distinct cells / every grid shape, every pair of states", "why_tests_cant": "Grid sizes are unbounded; the parity rule must hold at every column.", "anchors": ["maMDP/grid_utils.py:hex_adjacency", "maMDP/grid_utils.py:square_adjacency"]}
{"id": "C04", "title": "Every adjacent pair has exactly one action and an action is a direction", "statement": "Asking for the action between two adjacent states always returns an action (never falls through), non-adjacent states raise ValueError; an action always denotes the same geometric displacement wherever it is taken, different neighbours of a cell get different actions, and the action that undoes a move is the opposite one (a+3 mod 6 on hex grids, a+2 mod 4 on square grids).", "quantifier": "every grid shape, every pair of states", "why_tests_cant": "Holds per pair of cells on unbounded grids; parity cases interact with displacement.", "anchors": ["maMDP/grid_utils.py:get_action_from_states_hex", "maMDP/grid_utils.py:get_action_from_states_square"]}
{"id": "C05", "title": "Grid transition function is exactly the grid geometry", "statement": "The transition array of a square or hex grid MDP contains only 0 and 1; entry (s,a,t) is 1 iff t is the in-grid neighbour of s in direction a, or self transitions are enabled, a is the last action and t = s; hence each (state, action) has at most one successor and each ordered pair of neighbouring states exactly one action.", "quantifier": "every grid shape, with or without self transitions, every (s,a,t)", "why_tests_cant": "Unbounded shapes; tests check two 2x2 grids literally.", "anchors": ["maMDP/mdp.py:SquareGridMDP._get_sas", "maMDP/mdp.py:HexGridMDP._get_sas"]}
{"id": "C06", "title": "Walls block exactly the walled states", "statement": "After assigning walls, a transition has its original probability if neither end is walled and probability 0 otherwise; only the most recently assigned wall array matters, whatever was assigned before; an invalid one-dimensional wall array (wrong length, values other than 0/1) raises and changes nothing.", "quantifier": "every MDP with a shape, every sequence of wall assignments, every transition", "why_tests_cant": "Quantifies over histories of assignments and all transitions.", "anchors": ["maMDP/mdp.py:MDP.walls", "maMDP/mdp.py:MDP._get_walls"]}
{"id": "C07", "title": "Clearing walls restores the original dynamics; adding walls adds exactly the rectangle", "statement": "Clearing walls restores the transition function the MDP was built with, for any earlier wall history; adding a wall by X/Y coordinates walls exactly the addressed cells and keeps all earlier walls; if any addressed cell is off the grid it raises and the MDP is unchanged.", "quantifier": "every grid MDP, every wall history, every coordinate argument", "why_tests_cant": "Histories and ranges are unbounded.", "anchors": ["maMDP/mdp.py:GridMDP.add_wall_xy", "maMDP/mdp.py:GridMDP.reset_walls"]}
{"id": "C08", "title": "The published adjacency matrix agrees with the dynamics", "statement": "At any time mdp.adjacency[s,t] is 1 exactly when some action can move from s to t (i.e. exactly when is_adjacent(s,t)).", "quantifier": "every MDP and every history of wall assignments, every state pair", "why_tests_cant": "Needs every history of wall assignments, not one construction.", "anchors": ["maMDP/mdp.py:MDP.sas", "maMDP/mdp.py:MDP.walls", "maMDP/mdp.py:MDP.is_adjacent", "maMDP/mdp.py:MDP.adjacency"]}
{"id": "C09", "title": "Transition functions are validated on assignment", "statement": "Assigning a transition array is accepted iff it has shape (states, actions, states) and all entries lie in [0,1]; a rejected array leaves the MDP unchanged; the MDP is treated as deterministic iff every entry is 0 or 1.", "quantifier": "every candidate array", "why_tests_cant": "Ranges over all arrays; entry values are continuous.", "anchors": ["maMDP/mdp.py:MDP.sas"]}
{"id": "C10", "title": "State trajectories and action sequences are inverse to each other", "statement": "For a deterministic MDP, converting a trajectory of successive neighbours into state-action pairs and executing these actions reproduces the trajectory; a trajectory with a non-adjacent step raises AttributeError, an empty one ValueError; is_adjacent, the pair-to-action lookup and the list of valid actions agree with one another.", "quantifier": "every MDP built by the grid classes (any shape, any walls), every trajectory of any length", "why_tests_cant": "Trajectories are unbounded.", "anchors": ["maMDP/mdp.py:MDP._trajectory_to_state_action", "maMDP/mdp.py:MDP._state_pair_to_action", "maMDP/mdp.py:MDP.is_adjacent", "maMDP/mdp.py:MDP.state_valid_actions", "maMDP/mdp.py:MDP.get_next_state"]}
{"id": "C11", "title": "Wall-free grids are connected and the hex/square distance is the travel time", "statement": "On a grid without walls every state can be reached from every state by valid actions, in exactly as many moves as their grid distance and in no fewer.", "quantifier": "every grid shape, every pair of states", "why_tests_cant": "Needs induction over paths on arbitrary grids.", "anchors": ["maMDP/mdp.py:GridMDP", "maMDP/mdp.py:MDP.get_next_state", "maMDP/grid_utils.py:offset_distance"]}
{"id": "C12", "title": "Moves never enter or leave a wall", "statement": "If an agent stands on an unwalled state and takes an action listed as valid there, it ends on an unwalled, adjacent state; so no sequence of valid actions ever reaches a walled state.", "quantifier": "every grid MDP, every wall pattern, every sequence of valid actions", "why_tests_cant": "Unbounded action sequences over all wall patterns.", "anchors": ["maMDP/mdp.py:MDP.get_next_state", "maMDP/mdp.py:MDP.walls", "maMDP/mdp.py:MDP.state_valid_actions"]}
{"id": "C13", "title": "Consuming features removes exactly what it reports", "statement": "Consuming a list of features at a state sets those of them that are positive there to zero, changes no other cell, and returns for each feature 1 if it was positive there and 0 otherwise; consuming again reports nothing.", "quantifier": "every feature array, every list of feature indices (duplicates included), every state", "why_tests_cant": "All index lists, including duplicates and order, over arbitrary arrays.", "anchors": ["maMDP/mdp.py:MDP.consume_features"]}
{"id": "C14", "title": "Adding and removing agent features is lossless for ordinary features", "statement": "Adding agent features appends one-hot rows and leaves the existing rows untouched; removing them, if there are any, gives back exactly the ordinary feature rows in their current state; moving an agent changes only its own row.", "quantifier": "every MDP, every positive number of agents, every sequence of moves", "why_tests_cant": "Any number of agents and moves.", "anchors": ["maMDP/mdp.py:MDP.add_agent_feature", "maMDP/mdp.py:MDP.update_agent_feature", "maMDP/mdp.py:MDP.remove_agent_features"]}
{"id": "C15", "title": "Feature consumption is conserved over any history", "statement": "In an environment, for every ordinary feature, the number of cells still holding it plus the total number the agents report having consumed equals the number of cells that held it when the environment was created (or last reset, counting from there), over any sequence of fits, steps, multi-steps, teleports, and failed calls, provided the consumed features are indices of the feature table (otherwise see C62).", "quantifier": "every environment, every finite sequence of API calls, including calls that raise", "why_tests_cant": "Interleavings of agents and calls are unbounded.", "anchors": ["maMDP/environments.py:Environment.step", "maMDP/environments.py:Environment._consume_features", "maMDP/environments.py:Environment.step_multi", "maMDP/mdp.py:MDP.consume_features", "maMDP/agents.py:AttachedAgent"]}
{"id": "C16", "title": "An agent's feature row marks its position and nothing else", "statement": "At all times the feature row of an agent contains no non-zero entry except at that agent's own position, where it is 1 unless it has been consumed since the agent last moved; if no agent consumes agent features it is always exactly one-hot at the agent's position.", "quantifier": "every environment with any number of agents, every sequence of API calls with in-range positions", "why_tests_cant": "Inductive invariant over all call sequences.", "anchors": ["maMDP/agents.py:AttachedAgent.position", "maMDP/mdp.py:MDP.update_agent_feature", "maMDP/environments.py:Environment"]}
{"id": "C17", "title": "Environment construction validates its agents", "statement": "Constructing an environment succeeds exactly when every agent's reward function has (ordinary features + number of agents) entries, its consumed features are smaller than that number and its position is a state (negative positions count from the end; for negative consumed features see C62); on success, names being distinct (see C63), agent i's feature row is (number of ordinary features + i) and every agent starts at its given position with an empty record. Agent features left in the MDP by an earlier environment are dropped first.", "quantifier": "every MDP, every list of agent specifications", "why_tests_cant": "All numbers of agents and specifications.", "anchors": ["maMDP/environments.py:Environment._set_mdp_and_agents", "maMDP/agents.py:AttachedAgent.__init__"]}
{"id": "C18", "title": "Reset restores the starting state", "statement": "After any history, reset puts every agent back on its starting state with a one-entry history, and restores every feature cell (consumed features, agent rows) to what it was right after construction; a second reset does the same again.", "quantifier": "every environment, every history of API calls before each reset", "why_tests_cant": "Unbounded histories; aliasing between stored originals and live arrays only shows on later resets.", "anchors": ["maMDP/environments.py:Environment.reset", "maMDP/agents.py:AttachedAgent.reset", "maMDP/mdp.py:MDP.reset"]}
{"id": "C19", "title": "A step changes only what it should", "statement": "A successful step moves the named agent to the successor of its current state under the action its policy selects, appends it to its history, increments the step counter, consumes that agent's features there, and changes no other agent's position, history or consumption record. A step of an unknown or unfitted agent raises and changes nothing.", "quantifier": "every environment, agent, policy and random draw", "why_tests_cant": "Frame conditions range over all states, agents and random choices.", "anchors": ["maMDP/environments.py:Environment.step", "maMDP/agents.py:AttachedAgent.step"]}
{"id": "C20", "title": "Position history is the walk the agent took", "statement": "As long as agents are only moved by stepping, an agent's position history starts with its starting state, ends with its current position, has one entry per step taken since construction or reset, and consecutive entries are connected by the transition function under some action whenever the policy only picks valid actions.", "quantifier": "every environment, every sequence of fit/step/multi-step/reset calls on any agents", "why_tests_cant": "Induction over unbounded histories with several agents interleaved.", "anchors": ["maMDP/agents.py:AttachedAgent.step", "maMDP/agents.py:AttachedAgent.reset", "maMDP/environments.py:Environment.get_agent_position_history"]}
{"id": "C21", "title": "Multi-step returns the visited positions and stops at a catch", "statement": "step_multi performs the requested number of steps and returns the positions in order, unless a step lands the agent on an agent it consumes and stopping is enabled: then it stops right after the first such step and returns False; with stopping disabled it always performs all steps.", "quantifier": "every environment, agent, number of steps, and random draws", "why_tests_cant": "Any number of steps; catch position depends on all agents.", "anchors": ["maMDP/environments.py:Environment.step_multi", "maMDP/environments.py:Environment._check_agents_caught"]}
{"id": "C22", "title": "Re-fitting multi-step can take any number of steps", "statement": "step_multi with refitting enabled works for any requested number of steps.", "quantifier": "every environment and requested number of steps", "why_tests_cant": "Depends on the relation between requested steps and the agent's moves per turn for all values.", "anchors": ["maMDP/environments.py:Environment.step_multi", "maMDP/environments.py:get_n_moves_plan"]}
{"id": "C23", "title": "Planning moves are distributed over turns greedily", "statement": "The planning schedule has one entry per turn, entry t being the number of planned moves falling into turn t when moves are laid out consecutively from the current move; no entry exceeds the moves per turn, the total is the requested total capped at the moves left in the horizon; a current move beyond the first turn raises ValueError.", "quantifier": "all integers n_turns, n_moves, n_total_plan_moves and every non-negative current move", "why_tests_cant": "Four unbounded integers.", "anchors": ["maMDP/environments.py:get_n_moves_plan"]}
{"id": "C24", "title": "Interactive multi-step moves the agents in turn order", "statement": "step_multi_interactive moves each listed agent its number of moves per turn, in order, for the given number of turns.", "quantifier": "every environment and every argument combination", "why_tests_cant": "All argument combinations.", "anchors": ["maMDP/environments.py:Environment.step_multi_interactive"]}
{"id": "C25", "title": "Greedy selection is a uniform distribution over the best actions", "statement": "With max action selection, in every state with at least one known action value (and not mixing plus and minus infinity, see C26) the action probabilities are non-negative, sum to one, are equal on the actions of maximal value and zero elsewhere; the sampled action is always one of the maximal ones and every maximal one can be sampled; NaN values are treated as minus infinity.", "quantifier": "every Q array (with NaN and infinities), every random draw", "why_tests_cant": "All arrays of extended reals, all draws.", "anchors": ["maMDP/algorithms/action_selection.py:MaxActionSelector", "maMDP/algorithms/action_selection.py:random_max", "maMDP/algorithms/action_selection.py:ActionSelector.get_pi", "maMDP/algorithms/action_selection.py:ActionSelector.get_pi_p"]}
{"id": "C26", "title": "States without any known action value are flagged", "statement": "A state's selected action is -1 (and its action probabilities NaN) exactly when none of its action values is known (all NaN), so that stepping from such a state raises instead of moving the agent; an array that is NaN everywhere is rejected.", "quantifier": "every Q array and state, both selectors", "why_tests_cant": "All NaN patterns.", "anchors": ["maMDP/algorithms/action_selection.py:ActionSelector.get_pi", "maMDP/algorithms/action_selection.py:ActionSelector.get_pi_p", "maMDP/algorithms/action_selection.py:check_q_values", "maMDP/agents.py:AttachedAgent.step"]}
{"id": "C27", "title": "Softmax probabilities are the Gibbs distribution", "statement": "For finite-or-minus-infinity action values and temperature T>0, softmax returns exp(q/T)/sum exp(q/T): non-negative, summing to one, zero exactly on minus-infinite values, ordered like the values, invariant under adding a constant, and uniform if every value is minus infinity; the internal shift by the maximum keeps every exponent non-positive; a non-positive temperature is rejected.", "quantifier": "all vectors of values, all temperatures", "why_tests_cant": "Continuous parameters.", "anchors": ["maMDP/algorithms/action_selection.py:softmax", "maMDP/algorithms/action_selection.py:SoftmaxActionSelector"]}
{"id": "C28", "title": "Sampling follows the given probabilities", "statement": "Drawing an index by inverting the cumulative sums with a uniform variable selects index i exactly when the variable falls in an interval of length equal to i's normalised weight; an index of weight zero is never drawn.", "quantifier": "all weight vectors with positive sum, all uniform draws in [0,1)", "why_tests_cant": "Continuous draw; statistical tests only sample it.", "anchors": ["maMDP/algorithms/mcts.py:rand_choice_nb", "maMDP/algorithms/action_selection.py:SoftmaxActionSelector._get_pi"]}
{"id": "C29", "title": "Value iteration converges to the unique optimal value function", "statement": "With 0<discount<1, the Bellman operator the solver iterates has exactly one fixed point; each sweep contracts the sup-distance to it by the discount; when the solver stops because the change was below tol, the returned values are within discount*tol/(1-discount) of the fixed point; without early stopping the error is at most discount^max_iter times the initial error. A discount outside (0,1) is rejected.", "quantifier": "every MDP (stochastic ones included), reward function, features, discount, tolerance, iteration limit", "why_tests_cant": "Convergence over all MDPs and unboundedly many sweeps.", "anchors": ["maMDP/algorithms/dynamic_programming.py:solve_value_iteration", "maMDP/algorithms/dynamic_programming.py:state_value_iterator", "maMDP/algorithms/dynamic_programming.py:get_state_action_values", "maMDP/algorithms/dynamic_programming.py:delta_update"]}
{"id": "C30", "title": "Solver Q values mask exactly the impossible actions", "statement": "After solving, a Q value is minus infinity exactly when the action has no successor in that state, and finite otherwise; so a max or softmax policy only picks possible actions wherever one exists.", "quantifier": "every MDP, reward function and parameter setting, every random draw", "why_tests_cant": "All MDPs and draws.", "anchors": ["maMDP/algorithms/dynamic_programming.py:solve_value_iteration", "maMDP/algorithms/action_selection.py:MaxActionSelector", "maMDP/algorithms/action_selection.py:SoftmaxActionSelector"]}
{"id": "C31", "title": "Optimal values only count possible actions", "statement": "The value function that value iteration converges to is the optimal discounted value over the actions that are possible in each state.", "quantifier": "every MDP and reward function, including negative rewards", "why_tests_cant": "All reward functions; sign matters.", "anchors": ["maMDP/algorithms/dynamic_programming.py:state_value_iterator", "maMDP/algorithms/dynamic_programming.py:solve_value_iteration"]}
{"id": "C32", "title": "Soft value iteration bounds hard value iteration", "statement": "One soft backup of a state lies between the hard maximum and the hard maximum plus log(number of actions) up to the documented regularisation, is monotone in the value estimate and contracts by the discount.", "quantifier": "every MDP, value estimate, discount", "why_tests_cant": "Continuous inputs.", "anchors": ["maMDP/algorithms/dynamic_programming.py:state_value_iterator"]}
{"id": "C33", "title": "Probabilistic stepping returns a probability distribution", "statement": "step_proba returns, for each state, the probability of being there after one step from the given distribution under the agent's action probabilities; in particular the result sums to one.", "quantifier": "every environment, policy and starting distribution", "why_tests_cant": "All policies and distributions.", "anchors": ["maMDP/agents.py:AttachedAgent.step_proba", "maMDP/environments.py:Environment.step_proba"]}
{"id": "C34", "title": "A fitted agent only moves to adjacent states", "statement": "After fitting, stepping an agent either raises or moves it along a possible transition; it never teleports.", "quantifier": "every environment, algorithm, selector and draw", "why_tests_cant": "All environments incl. fully walled-in states.", "anchors": ["maMDP/agents.py:AttachedAgent.step", "maMDP/mdp.py:MDP.get_next_state", "maMDP/algorithms/base.py:Null"]}
{"id": "C35", "title": "A tree-search iteration is a legal bounded walk", "statement": "One search iteration always terminates; the primary agent's visited states form a walk from its starting state along possible transitions; in interactive mode it visits exactly the planned number of states unless it is caught, and never more.", "quantifier": "every MDP, every move schedule with equally many turns per agent, every random draw, any number of agents", "why_tests_cant": "Loop over turns and actors with unbounded schedules.", "anchors": ["maMDP/algorithms/mcts.py:mcts_iteration", "maMDP/algorithms/mcts.py:get_actions_states", "maMDP/algorithms/mcts.py:MCTS_next_node"]}
{"id": "C36", "title": "Search statistics are exact", "statement": "After any number of search iterations, the visit count of a state is the number of times it occurs in the recorded iterations and its accumulated value is the sum over these occurrences of the iteration's reward.", "quantifier": "every number of iterations, every sequence of visited states and rewards", "why_tests_cant": "Unbounded iteration counts.", "anchors": ["maMDP/algorithms/mcts.py:run_mcts"]}
{"id": "C37", "title": "Tree policy expands before exploiting", "statement": "While expanding, an unvisited successor is always chosen if there is one (each can be chosen) and expansion then ends; otherwise the successor maximising the UCT score is chosen; after expansion successors are chosen at random; the result is always one of the successors.", "quantifier": "every value and visit array, successor list, exploration constant, draw", "why_tests_cant": "All statistics states, incl. unvisited current node.", "anchors": ["maMDP/algorithms/mcts.py:MCTS_next_node", "maMDP/algorithms/mcts.py:UCB"]}
{"id": "C38", "title": "Overlap resolution: who eats whom", "statement": "Checking overlaps deactivates exactly the agents sharing a state with an agent that consumes them (up to the point where the primary agent is caught), charges the catch cost exactly when the primary agent is caught, and otherwise adds the value of the agents the primary agent eats.", "quantifier": "any number of agents, any consumption relation, any positions", "why_tests_cant": "All relations over any number of agents.", "anchors": ["maMDP/algorithms/mcts.py:check_agent_overlap"]}
{"id": "C39", "title": "An eaten agent is out of the game", "statement": "Within one search iteration each opponent yields its reward to the primary agent at most once, and an opponent that has been eaten cannot catch the primary agent.", "quantifier": "every iteration", "why_tests_cant": "Needs all interleavings of moves within an iteration.", "anchors": ["maMDP/algorithms/mcts.py:check_agent_overlap", "maMDP/algorithms/mcts.py:mcts_iteration"]}
{"id": "C40", "title": "Consumed features pay once per search iteration", "statement": "Within a search iteration, an ordinary feature consumed by an active agent at a state is gone for the rest of the iteration: later visits to that state collect nothing for it; ordinary features are never created.", "quantifier": "every iteration, agent count and schedule", "why_tests_cant": "All interleavings.", "anchors": ["maMDP/algorithms/mcts.py:mcts_iteration"]}
{"id": "C41", "title": "Caching opponent policies does not change results", "statement": "Running the search with caching enabled uses, for every opponent move, the same opponent action values as without caching.", "quantifier": "every environment and search history", "why_tests_cant": "Cache keys must determine the solved problem for every history.", "anchors": ["maMDP/algorithms/mcts.py:mcts_iteration"]}
{"id": "C42", "title": "Tree search yields values for the current state only", "statement": "Fitting with tree search gives a Q value for exactly the possible actions in the agent's current state and NaN elsewhere; so the next step moves along a possible transition, and stepping again from a different state without refitting raises.", "quantifier": "every MDP, position, number of iterations, draws", "why_tests_cant": "All MDPs and draws.", "anchors": ["maMDP/algorithms/mcts.py:MCTS._fit", "maMDP/algorithms/mcts.py:get_MCTS_action_values"]}
{"id": "C43", "title": "Agents with tree search can be fitted without a schedule", "statement": "Fitting a tree-search agent without giving a move schedule plans with the agents' own moves per turn.", "quantifier": "every environment", "why_tests_cant": "All environments.", "anchors": ["maMDP/algorithms/mcts.py:MCTS._fit", "maMDP/algorithms/mcts.py:run_mcts", "maMDP/algorithms/mcts.py:extract_agent_info"]}
{"id": "C44", "title": "Agent information extraction is faithful", "statement": "The extracted agent table maps each agent's feature index to its place, marks agent A as consuming agent B exactly when B's feature index is among A's consumed features, and gives the primary agent's reward weight of each opponent as its value (0 for itself).", "quantifier": "any number of agents and features", "why_tests_cant": "Any number of agents.", "anchors": ["maMDP/algorithms/mcts.py:extract_agent_info", "maMDP/algorithms/mcts.py:get_agent_values", "maMDP/algorithms/mcts.py:get_agent_consumes", "maMDP/algorithms/mcts.py:extract_all_agent_info"]}
{"id": "C45", "title": "Successor representation solves the uniform-policy Bellman equation", "statement": "With discount below one the matrix to invert is nonsingular; the resulting Q values satisfy q(s,a) = r(s) + gamma * mean over a' of q(next(s,a),a') for possible actions, and are minus infinity exactly for impossible ones.", "quantifier": "every deterministic transition array, discount in [0,1), rewards", "why_tests_cant": "All matrices.", "anchors": ["maMDP/algorithms/successor_representation.py:get_sa_sr", "maMDP/algorithms/successor_representation.py:get_sr_q_values"]}
{"id": "C46", "title": "Angular distance and generalisation kernel", "statement": "The angular distance is the shortest distance around the circle: in [0,180], symmetric, 360-periodic, zero exactly for equal directions, triangle inequality; the kernel is maximal (= variance) at equal directions and decreases with distance.", "quantifier": "all angles", "why_tests_cant": "Continuous.", "anchors": ["maMDP/algorithms/policy_learning.py:degdist", "maMDP/algorithms/policy_learning.py:deg_sq_exp_kernel"]}
{"id": "C47", "title": "Policy learning is an exponential average of observed actions", "statement": "Without decay, after observing a sequence of actions the learned values are the exponentially weighted average of the one-hot observations and the initial values; starting from zero they stay in [0,1] and sum to 1-(1-lr)^n.", "quantifier": "every observation sequence, learning rate", "why_tests_cant": "Unbounded sequences.", "anchors": ["maMDP/algorithms/policy_learning.py:TDGeneralPolicyLearner._fit_TD_policy"]}
{"id": "C48", "title": "Policy learning accepts any list of trajectories", "statement": "Fitting succeeds for every list of trajectories of neighbouring states (one MDP or one MDP per trajectory), whatever their lengths.", "quantifier": "every list of valid trajectories", "why_tests_cant": "Lengths and counts of trajectories are unbounded.", "anchors": ["maMDP/algorithms/policy_learning.py:TDGeneralPolicyLearner.fit", "maMDP/algorithms/policy_learning.py:TDGeneralPolicyLearner._fit_TD_policy"]}
{"id": "C49", "title": "Learning-rate decay follows the documented schedule", "statement": "With decay d>0 the learning rate used for the n-th observation is learning_rate * n^-d.", "quantifier": "every decay, learning rate, observation count", "why_tests_cant": "All n.", "anchors": ["maMDP/algorithms/policy_learning.py:TDGeneralPolicyLearner._fit_TD_policy", "maMDP/algorithms/irl.py:MaxCausalEntIRL._solve_maxcausalent"]}
{"id": "C50", "title": "Learner reset restores the initial estimate every time", "statement": "Resetting a learner returns its estimate to the one given at construction, no matter how often it has been fitted and reset, and it can be fitted again afterwards.", "quantifier": "every history of fits and resets", "why_tests_cant": "Aliasing shows only after particular histories.", "anchors": ["maMDP/algorithms/policy_learning.py:TDGeneralPolicyLearner.reset", "maMDP/algorithms/irl.py:MaxCausalEntIRL.reset", "maMDP/algorithms/irl.py:HyptestIRL.reset"]}
{"id": "C51", "title": "State visitation frequencies are expected visit counts", "statement": "The state visitation iterator returns the sum over the first n time steps of the state distribution reached from the start distribution under the policy; it is non-negative, monotone in n, and its total is n when every state's policy leads somewhere.", "quantifier": "every transition array, policy, start distribution, n", "why_tests_cant": "All MDPs and n.", "anchors": ["maMDP/algorithms/irl.py:state_visitation_iterator"]}
{"id": "C52", "title": "Empirical feature expectations weight trajectories equally", "statement": "Maximum-entropy IRL's observed feature expectation averages the per-trajectory visit frequencies, every trajectory counting equally.", "quantifier": "every list of trajectories", "why_tests_cant": "All counts and lengths.", "anchors": ["maMDP/algorithms/irl.py:MaxCausalEntIRL._solve_maxcausalent"]}
{"id": "C53", "title": "Ignored features, and only those, are excluded from inference", "statement": "The ignore_features argument (tuple or list; default: nothing ignored) zeroes exactly the listed features' weights and leaves the inference for the others unaffected.", "quantifier": "every argument value and data set, for each IRL class taking the argument", "why_tests_cant": "All argument shapes.", "anchors": ["maMDP/algorithms/irl.py:MaxCausalEntIRL.fit", "maMDP/algorithms/irl.py:MFFeatureMatching.fit"]}
{"id": "C54", "title": "Feature matching counts the features of chosen states", "statement": "Feature-matching IRL returns, per feature, the total amount of that feature over all visited states except each trajectory's first.", "quantifier": "every list of trajectories and feature arrays", "why_tests_cant": "Unbounded data.", "anchors": ["maMDP/algorithms/irl.py:MFFeatureMatching.fit"]}
{"id": "C55", "title": "Line-of-sight feature counting terminates and counts the ray", "statement": "Counting the features in the direction of a move visits exactly the states on the straight ray from the current state up to the grid border or wall, each once, and terminates.", "quantifier": "every grid, wall pattern, state and action", "why_tests_cant": "Termination on all grids.", "anchors": ["maMDP/algorithms/irl.py:get_eyeline_features", "maMDP/algorithms/irl.py:get_trajectory_eyeline_features"]}
{"id": "C56", "title": "Saving and loading an environment preserves it", "statement": "Exporting a hex environment to a dictionary and importing it with the same feature names gives an environment with the same shape, walls, transition function, ordinary features, and agents (name, position, moves, rewards, consumed features, algorithm, selector); likewise through JSON.", "quantifier": "every hex environment (binary features, integer rewards, value-iteration agents)", "why_tests_cant": "All environments.", "anchors": ["maMDP/env_io.py:hex_env_to_dict", "maMDP/env_io.py:hex_environment_from_dict", "maMDP/env_io.py:hex_env_to_json", "maMDP/env_io.py:hex_environment_from_json"]}
{"id": "C57", "title": "Drawn hexagons touch exactly when states are adjacent", "statement": "The plotted centre positions of two hex cells are one hexagon apart exactly when the states are adjacent in the MDP.", "quantifier": "all cells of all grids", "why_tests_cant": "Parity convention of drawing and adjacency must agree everywhere.", "anchors": ["maMDP/plotting.py:draw_hexagons", "maMDP/mdp.py:HexGridMDP.state_to_position", "maMDP/grid_utils.py:hex_adjacency"]}
{"id": "C58", "title": "A plain MDP can be built from features and transitions", "statement": "Constructing the base MDP class from a feature array and a transition array of matching sizes succeeds.", "quantifier": "every feature array and transition array", "why_tests_cant": "All array contents and sizes.", "anchors": ["maMDP/mdp.py:MDP.__init__", "maMDP/mdp.py:MDP.walls"]}
{"id": "C59", "title": "An assigned transition function stays in force", "statement": "A transition array assigned by the user is what the MDP uses from then on; assigning walls only removes the transitions into and out of walled states.", "quantifier": "every grid MDP, transition array and wall array", "why_tests_cant": "Histories of assignments.", "anchors": ["maMDP/mdp.py:MDP.sas", "maMDP/mdp.py:MDP.walls"]}
{"id": "C60", "title": "Stochastic transition functions can be simulated", "statement": "For an MDP whose transition array contains probabilities strictly between 0 and 1, asking for the next state draws a state of positive probability.", "quantifier": "every MDP, state and action", "why_tests_cant": "All probability tables.", "anchors": ["maMDP/mdp.py:MDP.get_next_state"]}
{"id": "C61", "title": "A plus-infinite action value is not usable with softmax", "statement": "If some state has a plus-infinite action value, softmax reports NaN probabilities for that state, and sampling a policy raises ValueError, whatever the other states' values are.", "quantifier": "every Q array, temperature and random draw", "why_tests_cant": "All arrays of extended reals.", "anchors": ["maMDP/algorithms/action_selection.py:softmax", "maMDP/algorithms/action_selection.py:SoftmaxActionSelector._get_pi"]}
{"id": "C62", "title": "Consumed features are checked at construction", "statement": "An agent whose list of consumed features contains an index outside the feature table is rejected when the environment is constructed, so that stepping never fails half-way for that reason.", "quantifier": "every MDP and agent specification", "why_tests_cant": "All lists of indices, including negative ones.", "anchors": ["maMDP/environments.py:Environment._set_mdp_and_agents", "maMDP/mdp.py:MDP.consume_features", "maMDP/environments.py:Environment.step"]}
{"id": "C63", "title": "Every agent given to the constructor is in the environment", "statement": "Constructing an environment from a dictionary of agents gives an environment with one attached agent per entry.", "quantifier": "every list of agent specifications, names repeated or not", "why_tests_cant": "All combinations of names.", "anchors": ["maMDP/environments.py:Environment._set_mdp_and_agents"]}
{"id": "C64", "title": "A failed construction leaves the MDP usable", "statement": "If constructing an environment raises, the MDP can still be used afterwards as if the attempt had not been made.", "quantifier": "every MDP and list of agent specifications", "why_tests_cant": "Every point at which construction can fail.", "anchors": ["maMDP/environments.py:Environment._set_mdp_and_agents", "maMDP/mdp.py:MDP.add_agent_feature", "maMDP/mdp.py:MDP.remove_agent_features"]}
{"id": "C65", "title": "A reset environment is like a new one", "statement": "After a reset the environment behaves as it did right after construction: step counter, consumption records and fitted state included.", "quantifier": "every environment and history", "why_tests_cant": "All histories before the reset.", "anchors": ["maMDP/environments.py:Environment.reset", "maMDP/agents.py:AttachedAgent.reset"]}
{"id": "C66", "title": "Catching is detected wherever it happens", "statement": "A multi-step call that stops on catching stops as soon as the stepping agent stands on the same state as an agent whose marker feature is among the features it consumes, however positions and feature indices are written (Python's negative indices included).", "quantifier": "every environment, agents, positions and consumed features", "why_tests_cant": "All positions and indices in all histories.", "anchors": ["maMDP/environments.py:Environment.step_multi"]}
{"id": "C67", "title": "Acting greedily on the solver's result is near optimal", "statement": "With non-negative rewards, if the iteration limit is large enough for the tolerance to be reached, every behaviour that always takes an action of greatest returned Q value has total discounted return between V* - 2*eps/(1-discount) and V*, where V* is the optimal value and eps = discount*tol/(1-discount).", "quantifier": "every MDP (stochastic ones included), non-negative rewards, discount, tolerance, iteration limit, tie-breaking and history-dependent choice among best actions", "why_tests_cant": "Infinite-horizon returns of all policies.", "anchors": ["maMDP/algorithms/dynamic_programming.py:solve_value_iteration", "maMDP/algorithms/dynamic_programming.py:ValueIteration._fit"]}
{"id": "C68", "title": "Value-iteration agents move along possible transitions", "statement": "After fitting an agent that plans with value iteration and selects greedily or by softmax, and any further calls on any agents except changing the walls, a successful step of the agent from a state with a possible action takes it along a possible transition.", "quantifier": "every grid environment, history of calls (failing ones included), random draw", "why_tests_cant": "All histories and draws.", "anchors": ["maMDP/algorithms/dynamic_programming.py:ValueIteration._fit", "maMDP/algorithms/action_selection.py:MaxActionSelector", "maMDP/algorithms/action_selection.py:SoftmaxActionSelector", "maMDP/environments.py:Environment.step", "maMDP/agents.py:AttachedAgent.step"]}
{"id": "C69", "title": "For non-negative rewards values are optimal returns", "statement": "If no state has a negative reward, the values that value iteration converges to are the greatest total discounted return achievable by taking a possible action wherever there is one; in general they are the greatest return of an agent that may stop in any state where an action is impossible.", "quantifier": "every MDP, discount and non-negative rewards", "why_tests_cant": "All behaviours, including history-dependent ones, over infinite horizons.", "anchors": ["maMDP/algorithms/dynamic_programming.py:solve_value_iteration", "maMDP/algorithms/dynamic_programming.py:state_value_iterator"]}
{"id": "C70", "title": "An interactive search iteration is a legal bounded walk", "statement": "With interaction on, every search iteration ends; the primary agent's visited states are a walk from its state along possible transitions; it visits as many states as its schedule plans, or fewer, and this only if an agent that consumes it (itself included, if it consumes its own feature) stands in its state at the end.", "quantifier": "every MDP, scoring rule, random draw, any number of agents, every schedule giving all agents equally many turns", "why_tests_cant": "All draws and schedules.", "anchors": ["maMDP/algorithms/mcts.py:mcts_iteration", "maMDP/algorithms/mcts.py:get_actions_states"]}
{"id": "C71", "title": "Tree search runs to its end", "statement": "Fitting an agent with tree search and a regular move schedule succeeds and gives one value per state, if every agent taking part stands where something is possible, opponents have some preference and can be simulated, and (with caching) no agent consumes two different features.", "quantifier": "every grid environment and history, any number of agents, scoring rule, random draws, number of iterations", "why_tests_cant": "All draws, histories and schedules; no crash may occur at any depth.", "anchors": ["maMDP/algorithms/mcts.py:MCTS._fit", "maMDP/algorithms/mcts.py:run_mcts", "maMDP/algorithms/mcts.py:mcts_iteration", "maMDP/algorithms/mcts.py:get_opponent_next_state"]}
{"id": "C72", "title": "Tree search can plan against any opponent", "statement": "Interactive tree search works whatever the other agents' reward functions are.", "quantifier": "every environment and reward functions", "why_tests_cant": "All reward functions.", "anchors": ["maMDP/algorithms/mcts.py:get_opponent_next_state", "maMDP/algorithms/mcts.py:mcts_iteration"]}
{"id": "C73", "title": "Caching opponents' plans changes speed, not success", "statement": "A tree search that succeeds without caching also succeeds with caching.", "quantifier": "every environment and settings", "why_tests_cant": "All environments.", "anchors": ["maMDP/algorithms/mcts.py:mcts_iteration", "maMDP/algorithms/mcts.py:get_opponent_next_state"]}
{"id": "C74", "title": "A search that ignores other agents plans the agent's own moves", "statement": "Without interaction, one search iteration visits as many states as the schedule gives the planning agent moves.", "quantifier": "every MDP, schedule, random draw", "why_tests_cant": "All schedules.", "anchors": ["maMDP/algorithms/mcts.py:mcts_iteration"]}
{"id": "C75", "title": "Successor-representation Q values are expected reward totals", "statement": "For deterministic transitions and discount below one, the Q value of a possible action is the expected discounted total reward of taking it and then choosing uniformly among all actions, the walk ending at the first impossible choice; it equals the state's reward plus the discounted mean over the next state's actions, impossible ones counting as that state's reward; impossible actions get minus infinity.", "quantifier": "every deterministic transition array (all grids with walls included), reward weights, features and discount in [0,1)", "why_tests_cant": "Infinite expectations over all walks on arrays of any size.", "anchors": ["maMDP/algorithms/successor_representation.py:get_sa_sr", "maMDP/algorithms/successor_representation.py:get_sr_q_values"]}
{"id": "C76", "title": "Successor-representation entries are discounted visit counts", "statement": "Each entry is the expected discounted number of visits to a state-action pair under uniform action choice; entries are non-negative and every row's total lies between 1 and 1/(1-discount).", "quantifier": "every deterministic transition array and discount in [0,1)", "why_tests_cant": "Infinite expectations over all walks.", "anchors": ["maMDP/algorithms/successor_representation.py:get_sa_sr"]}
{"id": "C77", "title": "The successor representation respects outcome probabilities", "statement": "If an action has several outcomes, the successor representation weighs them by their probabilities.", "quantifier": "every stochastic transition array", "why_tests_cant": "All arrays.", "anchors": ["maMDP/algorithms/successor_representation.py:get_sa_sr"]}
{"id": "C78", "title": "A larger length scale generalises more widely", "statement": "Raising the generalisation kernel's length scale raises its value between different directions.", "quantifier": "all directions and length scales", "why_tests_cant": "Real-valued inputs.", "anchors": ["maMDP/algorithms/policy_learning.py:deg_sq_exp_kernel"]}
{"id": "C79", "title": "Observed actions are generalised to neighbouring directions", "statement": "With the kernel, observing an action credits it fully and every other action less, the more turns it is away; on hex grids one turn means adjacent cells, and half a circle of turns is straight back on both grids.", "quantifier": "every action, number of actions and length scale", "why_tests_cant": "All actions and length scales.", "anchors": ["maMDP/algorithms/policy_learning.py:deg_sq_exp_kernel", "maMDP/algorithms/policy_learning.py:TDGeneralPolicyLearner._fit_TD_policy"]}
{"id": "C80", "title": "Policy learning converges on a constant policy", "statement": "If the same action is observed again and again, its value approaches one.", "quantifier": "every learning rate below one, decay, observation count", "why_tests_cant": "A limit.", "anchors": ["maMDP/algorithms/policy_learning.py:TDGeneralPolicyLearner._fit_TD_policy"]}
{"id": "C81", "title": "The imitation function accepts trajectories", "statement": "TDPolicyIRL predicts actions for every list of trajectories, with one MDP or one per trajectory.", "quantifier": "every list of trajectories", "why_tests_cant": "All inputs.", "anchors": ["maMDP/algorithms/policy_learning.py:TDPolicyIRL"]}
{"id": "C82", "title": "Generalisation respects directions when agents may stay", "statement": "With the stay action allowed, observing a direction is still generalised to the adjacent directions first.", "quantifier": "every length scale", "why_tests_cant": "All length scales.", "anchors": ["maMDP/algorithms/policy_learning.py:TDGeneralPolicyLearner._fit_TD_policy"]}
{"id": "C83", "title": "Maximum-entropy IRL matches the observed features", "statement": "When fitting stops before the iteration limit, the expected feature counts of the returned reward weights match the observed ones within the tolerance.", "quantifier": "every MDP, trajectory list, tolerance and settings", "why_tests_cant": "All data sets; convergence.", "anchors": ["maMDP/algorithms/irl.py:MaxCausalEntIRL._solve_maxcausalent"]}
{"id": "C84", "title": "Maximum-entropy IRL warns when it has not converged", "statement": "Fitting warns exactly when no tried estimate reproduces the observed features within the tolerance, and not otherwise.", "quantifier": "every MDP, trajectory list and settings", "why_tests_cant": "All data sets.", "anchors": ["maMDP/algorithms/irl.py:MaxCausalEntIRL._solve_maxcausalent"]}
{"id": "C85", "title": "Estimates returned by fitting do not change afterwards", "statement": "The weights returned by one call of fit keep their values when the learner is fitted again.", "quantifier": "every history of fits", "why_tests_cant": "Aliasing shows only after particular histories.", "anchors": ["maMDP/algorithms/irl.py:MaxCausalEntIRL.fit"]}
{"id": "C86", "title": "Fitting leaves the caller's initial estimate unchanged", "statement": "An initial estimate passed to the constructor keeps its values when the learner is fitted.", "quantifier": "every initial estimate and data set", "why_tests_cant": "Aliasing.", "anchors": ["maMDP/algorithms/irl.py:MaxCausalEntIRL.__init__", "maMDP/algorithms/irl.py:MaxCausalEntIRL.fit"]}
{"id": "C87", "title": "Maximum-entropy IRL fits whenever its settings are accepted", "statement": "If the constructor accepts the settings and the trajectories lie in the MDP, fitting returns one weight per feature.", "quantifier": "every accepted settings, MDP and trajectory list", "why_tests_cant": "All inputs.", "anchors": ["maMDP/algorithms/irl.py:MaxCausalEntIRL.__init__", "maMDP/algorithms/irl.py:MaxCausalEntIRL.fit"]}
{"id": "C88", "title": "Line-of-sight inference adds up what was seen", "statement": "Line-of-sight IRL counts, for every move of a trajectory, the features of the states seen in its direction, normalises each trajectory's counts to shares of one, and adds the trajectories up.", "quantifier": "every grid, wall pattern, list of trajectories of adjacent states", "why_tests_cant": "Unbounded data on all grids.", "anchors": ["maMDP/algorithms/irl.py:get_trajectory_eyeline_features", "maMDP/algorithms/irl.py:SimpleActionIRL.fit"]}
{"id": "C89", "title": "Line-of-sight difference compares the chosen direction with all others", "statement": "The difference variant subtracts what is seen in all other directions from what is seen in the chosen one.", "quantifier": "every grid, wall pattern, trajectory", "why_tests_cant": "All moves on all grids.", "anchors": ["maMDP/algorithms/irl.py:get_trajectory_eyeline_features_diff", "maMDP/algorithms/irl.py:SimpleActionFeatureDiffIRL.fit"]}
{"id": "C90", "title": "Hypothesis testing works with its default settings", "statement": "With accepted settings, fitting a hypothesis-testing learner to trajectories of adjacent states returns one weight per feature.", "quantifier": "every accepted settings, list of MDPs, list of trajectories with at least one move", "why_tests_cant": "All inputs and settings.", "anchors": ["maMDP/algorithms/irl.py:HyptestIRL.__init__", "maMDP/algorithms/irl.py:HyptestIRL._single_move", "maMDP/algorithms/irl.py:HyptestIRL.fit"]}
{"id": "C91", "title": "Evidence is how good the move was under each hypothesis", "statement": "With z-score normalisation a move's evidence for a feature is the standard score of the chosen action among the possible actions, by their values to an agent rewarded by that feature alone: mean zero and mean square one over the possible actions, in the order of the values, positive exactly if the action is better than average. Without normalisation it is that action's value itself.", "quantifier": "every MDP, move between adjacent states, feature, soft or standard values", "why_tests_cant": "All MDPs; reals.", "anchors": ["maMDP/algorithms/irl.py:HyptestIRL._single_move", "maMDP/algorithms/irl.py:zscore_nb"]}
{"id": "C92", "title": "Hypothesis testing gives numbers", "statement": "The estimated weights are numbers (not NaN) after any sequence of moves.", "quantifier": "every MDP, trajectory list, initial weights", "why_tests_cant": "Degenerate states appear only in some data.", "anchors": ["maMDP/algorithms/irl.py:HyptestIRL._solve_hyptest", "maMDP/algorithms/irl.py:zscore_nb"]}
{"id": "C93", "title": "Hypothesis testing uses the documented learning rates", "statement": "The n-th move changes each weight by learning_rate * n^-decay times its distance to the evidence, multiplied by the asymmetry if the evidence is weaker than the weight and divided by it otherwise; an asymmetry of one is allowed.", "quantifier": "every settings, trajectory list, number of moves", "why_tests_cant": "Unbounded sequences of observations.", "anchors": ["maMDP/algorithms/irl.py:HyptestIRL._solve_hyptest", "maMDP/algorithms/irl.py:HyptestIRL.__init__"]}
{"id": "C94", "title": "Only the sequence of moves matters", "statement": "Hypothesis testing gives the same estimates after each move however the moves are divided into trajectories; it records one row of weights per move and one per trajectory, the latter being the weights after the trajectory's last move.", "quantifier": "every trajectory list and every way to cut trajectories", "why_tests_cant": "All divisions of unbounded data.", "anchors": ["maMDP/algorithms/irl.py:HyptestIRL._solve_hyptest", "maMDP/algorithms/irl.py:HyptestIRL.fit"]}
{"id": "C95", "title": "Hypothesis testing starts from one", "statement": "Without initial weights, every weight starts at 1, as documented.", "quantifier": "every settings and data set", "why_tests_cant": "All data.", "anchors": ["maMDP/algorithms/irl.py:HyptestIRL.__init__", "maMDP/algorithms/irl.py:HyptestIRL._solve_hyptest"]}
{"id": "C96", "title": "Estimates move towards the evidence without overshooting", "statement": "If the learning rate times the asymmetry is at most one, then after each move every weight that is a number lies between its previous value and the evidence, and has changed if these differ.", "quantifier": "every settings, trajectory list, number of moves", "why_tests_cant": "Unbounded sequences of observations; reals.", "anchors": ["maMDP/algorithms/irl.py:HyptestIRL._solve_hyptest"]}
{"id": "C97", "title": "Arrows point the way the agent moves", "statement": "The arrows drawn for a trajectory on a hex or square grid start at the drawn centre of the state left and point in the direction of the action taken, the same direction for the same action everywhere; staying draws an arrow of length zero.", "quantifier": "every grid, state, valid action", "why_tests_cant": "All states of all grids; parity of columns.", "anchors": ["maMDP/plotting.py:plot_trajectory", "maMDP/mdp.py:HexGridMDP.state_to_position", "maMDP/mdp.py:SquareGridMDP.state_to_position"]}
{"id": "C98", "title": "Values are drawn at their states", "statement": "Plotting state values draws the value of each state at the position where the features, agents and trajectories of that state are drawn.", "quantifier": "every grid and value array", "why_tests_cant": "All states of all grids.", "anchors": ["maMDP/plotting.py:plot_grid_values", "maMDP/plotting.py:draw_hexagons", "maMDP/mdp.py:HexGridMDP.plot_state_values", "maMDP/mdp.py:SquareGridMDP.plot_state_values"]}
{"id": "C99", "title": "All ordinary features are drawn", "statement": "Plotting an MDP or environment draws every ordinary feature (those not marking agents) and no agent feature.", "quantifier": "every MDP, with and without agents", "why_tests_cant": "All numbers of features and agents.", "anchors": ["maMDP/plotting.py:plot_hex_grids", "maMDP/plotting.py:plot_grids", "maMDP/mdp.py:HexGridMDP.plot", "maMDP/mdp.py:SquareGridMDP.plot"]}
{"id": "C100", "title": "Paths and agents are drawn where they are", "statement": "Trajectories, sequence labels and agents are drawn at the centres of the states concerned, in order, whatever was plotted before and for every position the environment accepts.", "quantifier": "every grid, trajectory, sequence of labels, agents", "why_tests_cant": "All states, order of calls.", "anchors": ["maMDP/plotting.py:plot_trajectory", "maMDP/plotting.py:plot_sequence", "maMDP/plotting.py:plot_agent", "maMDP/mdp.py:HexGridMDP.state_to_position", "maMDP/environments.py:Environment.plot"]}
{"id": "C101", "title": "Colours span the whole scale", "statement": "State values are mapped to colours so that the smallest gets the lowest and the largest the highest colour, all others in between in proportion, and every visible state gets a colour.", "quantifier": "every list of values", "why_tests_cant": "All lists of reals.", "anchors": ["maMDP/plotting.py:draw_hexagons", "maMDP/mdp.py:HexGridMDP.plot_state_values"]}
{"id": "C102", "title": "Saving keeps graded values", "statement": "Exporting an environment with any feature values and rewards to a dictionary and loading it again keeps these values.", "quantifier": "every hex environment", "why_tests_cant": "All values.", "anchors": ["maMDP/env_io.py:hex_env_to_dict", "maMDP/env_io.py:hex_environment_from_dict"]}
{"id": "C103", "title": "Both formats can be loaded", "statement": "A dictionary exported in the documented 'coords' format can be loaded like one in the 'index' format, with the same result.", "quantifier": "every hex environment", "why_tests_cant": "All environments.", "anchors": ["maMDP/env_io.py:hex_env_to_dict", "maMDP/env_io.py:hex_environment_from_dict"]}
{"id": "C104", "title": "Saving a loaded environment changes nothing", "statement": "Exporting an environment loaded from an exported dictionary gives the same dictionary, also when the original had graded feature values or fractional rewards.", "quantifier": "every hex environment", "why_tests_cant": "All environments.", "anchors": ["maMDP/env_io.py:hex_env_to_dict", "maMDP/env_io.py:hex_environment_from_dict"]}
{"id": "C105", "title": "Every hex environment can be saved and loaded", "statement": "Exporting succeeds for every algorithm and action selector the library offers, and what was exported can be loaded, whatever the feature names.", "quantifier": "every hex environment, every list of feature names of the right length", "why_tests_cant": "All environments and names.", "anchors": ["maMDP/env_io.py:hex_env_to_dict", "maMDP/env_io.py:hex_environment_from_dict"]}
{"id": "C106", "title": "Separate environments do not interfere", "statement": "With any number of MDPs, environments and agents in one program, a call on an environment has the effect it would have alone, and an environment with at least one agent is unchanged by calls on MDPs and environments with which it shares neither an MDP nor an agent nor a wall array; this includes environments whose MDPs were made from the same feature array.", "quantifier": "every program, i.e. every sequence of constructor and method calls on all objects, interleaved in any order", "why_tests_cant": "All interleavings; tests use one environment at a time.", "anchors": ["maMDP/environments.py:Environment", "maMDP/agents.py:Agent", "maMDP/mdp.py:MDP", "maMDP/algorithms/base.py:Algorithm"]}
{"id": "C107", "title": "The caller's arrays are left alone", "statement": "The arrays of features and walls given to constructors are never modified by the library, whatever is done with the MDPs and environments made from them.", "quantifier": "every program", "why_tests_cant": "All histories.", "anchors": ["maMDP/mdp.py:MDP.__init__", "maMDP/mdp.py:GridMDP.reset_walls", "maMDP/mdp.py:MDP.consume_features", "maMDP/mdp.py:MDP.add_agent_feature"]}
{"id": "C108", "title": "MDPs made from the same arrays are independent", "statement": "Two MDPs constructed from the same feature array or the same wall array do not influence each other: no call on one changes features, walls or transitions of the other.", "quantifier": "every program, every pair of MDPs", "why_tests_cant": "All histories.", "anchors": ["maMDP/mdp.py:MDP.__init__", "maMDP/mdp.py:GridMDP.reset_walls", "maMDP/mdp.py:MDP.consume_features"]}
{"id": "C109", "title": "One agent in two environments", "statement": "An Agent object given to two environments acts in each of them as if it were only there: its plan, position, history and consumption in one are not influenced by the other.", "quantifier": "every program, every pair of environments with an agent in common, every algorithm", "why_tests_cant": "All interleavings.", "anchors": ["maMDP/agents.py:Agent._attach", "maMDP/agents.py:AttachedAgent", "maMDP/algorithms/base.py:Algorithm._attach", "maMDP/algorithms/mcts.py:MCTS.create_agent_info"]}
{"id": "C110", "title": "Two environments with the same MDP", "statement": "Making a second environment from an MDP that is already used by an environment leaves the first one usable, and their agents do not disturb each other.", "quantifier": "every program, every pair of environments with the same MDP", "why_tests_cant": "All interleavings.", "anchors": ["maMDP/environments.py:Environment.__init__", "maMDP/mdp.py:MDP.add_agent_feature", "maMDP/mdp.py:MDP.remove_agent_features"]}
{"id": "C111", "title": "A failed fit keeps the earlier plan", "statement": "If fit raises because planning fails, the agent keeps the plan it had and can be stepped as before.", "quantifier": "every environment, agent, algorithm and reason of failure", "why_tests_cant": "All histories and failures.", "anchors": ["maMDP/environments.py:Environment.fit", "maMDP/algorithms/base.py:Algorithm.fit", "maMDP/algorithms/base.py:Algorithm.reset", "maMDP/algorithms/mcts.py:MCTS._fit"]}
{"id": "C112", "title": "Keeping the cache between fits", "statement": "With reset_cache=False, a fit that reuses the opponents' values cached by earlier fits of the same object gives the same values and plan as a fit that starts with an empty cache; keeping the cache changes only speed.", "quantifier": "every sequence of fits of a tree search object, in every environment, with any calls between the fits, and all random draws", "why_tests_cant": "All histories and draws.", "anchors": ["maMDP/algorithms/mcts.py:MCTS.__init__", "maMDP/algorithms/mcts.py:MCTS._fit", "maMDP/algorithms/mcts.py:MCTS.clear_cache", "maMDP/algorithms/mcts.py:run_mcts", "maMDP/algorithms/mcts.py:mcts_iteration"]}
{"id": "C113", "title": "The queries report the latest fit", "statement": "get_agent_q_values, get_agent_pi and get_agent_pi_p return the action values of the agent's latest fit and the policy and probabilities that belong to them, one row per state, until the agent is fitted again; before the first fit they raise AttributeError.", "quantifier": "every environment, agent, algorithm and selector; every sequence of calls after the fit", "why_tests_cant": "All histories of calls.", "anchors": ["maMDP/environments.py:Environment.get_agent_q_values", "maMDP/environments.py:Environment.get_agent_pi", "maMDP/environments.py:Environment.get_agent_pi_p", "maMDP/agents.py:AttachedAgent.get_policy", "maMDP/agents.py:AttachedAgent.reset"]}
{"id": "C114", "title": "The step taken is the one reported", "statement": "The action get_agent_pi reports for an agent's state is the one its next step takes, and the step taken always has a positive probability in get_agent_pi_p.", "quantifier": "every environment, fitted agent and random draw; every sequence of calls between the fit and the step", "why_tests_cant": "All histories and draws.", "anchors": ["maMDP/environments.py:Environment.step", "maMDP/environments.py:Environment.get_agent_pi", "maMDP/environments.py:Environment.get_agent_pi_p", "maMDP/agents.py:AttachedAgent.step", "maMDP/agents.py:AttachedAgent.get_policy"]}
{"id": "C115", "title": "A position history obtained earlier", "statement": "The list get_agent_position_history returns is a record of the agent's positions at that moment: later calls do not change it, and changing it does not change the environment.", "quantifier": "every environment, agent and sequence of calls after obtaining the list", "why_tests_cant": "All histories of calls.", "anchors": ["maMDP/environments.py:Environment.get_agent_position_history", "maMDP/agents.py:AttachedAgent.step", "maMDP/agents.py:AttachedAgent.reset"]}
{"id": "C116", "title": "Replacing an agent's algorithm", "statement": "Assigning another algorithm to an agent of an environment changes nothing but the agent's plan: until it is fitted with the new algorithm it cannot be stepped and its policy queries raise AttributeError; the next fit uses the new algorithm; all calls for other agents behave as if the assignment had not been made.", "quantifier": "every reachable environment, agent and new algorithm (fitted before or not), and every sequence of calls afterwards", "why_tests_cant": "All histories of calls and all algorithms.", "anchors": ["maMDP/agents.py:AttachedAgent.algorithm", "maMDP/algorithms/base.py:Algorithm._attach", "maMDP/environments.py:Environment.fit", "maMDP/environments.py:Environment.step"]}
{"id": "C117", "title": "Assigning an algorithm that was fitted before", "statement": "If an algorithm that has already been fitted is assigned to an agent, the queries report its action values and the policy and probabilities that belong to them, and the agent follows them.", "quantifier": "every reachable environment, fitted agent and fitted algorithm, and every sequence of calls afterwards", "why_tests_cant": "All histories of calls.", "anchors": ["maMDP/agents.py:AttachedAgent.algorithm", "maMDP/environments.py:Environment.get_agent_pi", "maMDP/environments.py:Environment.get_agent_pi_p", "maMDP/environments.py:Environment.get_agent_q_values"]}
{"id": "C118", "title": "Replacing the features of an MDP in use", "statement": "Assigning a new table of features to the MDP of an environment puts these features in force and changes nothing else: agents can still be fitted, are marked exactly where they stand, also after a reset, and moving them changes no ordinary feature.", "quantifier": "every reachable environment, every table, and every sequence of calls afterwards", "why_tests_cant": "All tables and histories of calls.", "anchors": ["maMDP/mdp.py:MDP.features", "maMDP/mdp.py:MDP.update_agent_feature", "maMDP/mdp.py:MDP.reset", "maMDP/environments.py:Environment.reset"]}
{"id": "C119", "title": "Following a plan collects the planned return", "statement": "An agent with non-negative rewards that is planned once by value iteration with enough iterations, selects greedily and then walks, earns along its position history a discounted total of the rewards it planned with that never exceeds the best possible return, and falls short of it by at most an amount that depends on the tolerance and goes to zero with the number of steps; a further step always succeeds, whatever is done with other agents in between.", "quantifier": "every grid environment, agent, discount, tolerance and number of iterations from some number on; every sequence of calls that does not fit, reposition or reset the agent or change walls", "why_tests_cant": "All environments and histories; the bound holds in the limit of unboundedly many steps.", "anchors": ["maMDP/algorithms/dynamic_programming.py:solve_value_iteration", "maMDP/algorithms/dynamic_programming.py:ValueIteration._fit", "maMDP/environments.py:Environment.step", "maMDP/environments.py:Environment.fit", "maMDP/algorithms/action_selection.py:MaxActionSelector"]}
{"id": "C120", "title": "Tree search tries every possible move", "statement": "When the number of iterations is at least the number of possible actions, a tree search tries every possible first action at least once, whatever the random draws, exploration constant and opponents' behaviour, provided that the agent moves first and is not already standing with an agent that consumes it.", "quantifier": "every grid environment, agent, schedule, setting and random draw", "why_tests_cant": "All environments and draws.", "anchors": ["maMDP/algorithms/mcts.py:run_mcts", "maMDP/algorithms/mcts.py:MCTS_next_node", "maMDP/algorithms/mcts.py:mcts_iteration", "maMDP/algorithms/mcts.py:MCTS._fit"]}
{"id": "C121", "title": "Tree search reports average rewards", "statement": "The value tree search reports for an action is the average reward of the iterations that visited the state it leads to, so that of two actions tried the one with the better average is preferred.", "quantifier": "every grid environment, agent, schedule, setting and random draw", "why_tests_cant": "All environments and draws.", "anchors": ["maMDP/algorithms/mcts.py:run_mcts", "maMDP/algorithms/mcts.py:get_MCTS_action_values", "maMDP/algorithms/mcts.py:MCTS._fit"]}
{"id": "C122", "title": "Saving to a dictionary and loading preserves an environment", "statement": "Exporting a hex environment to a dictionary and importing it with the same feature names succeeds and gives an environment with the same shape, walls, transition function, ordinary features and agents (name, position, moves, rewards, consumed features, algorithm, selector).", "quantifier": "every hex environment with binary features, integer rewards and value-iteration agents, after every history of calls", "why_tests_cant": "All environments and histories.", "anchors": ["maMDP/env_io.py:hex_env_to_dict", "maMDP/env_io.py:hex_environment_from_dict"]}
{"id": "C123", "title": "Adjacent hexagons are drawn touching", "statement": "Plotting a hex grid draws the cells of two states touching (up to a small drawing tolerance) if the cells are neighbours and clearly apart otherwise; between free cells this is the case exactly if the MDP reports them as adjacent.", "quantifier": "all pairs of cells of all hex grids, after any wall changes", "why_tests_cant": "All grid sizes.", "anchors": ["maMDP/plotting.py:draw_hexagons", "maMDP/mdp.py:HexGridMDP.plot", "maMDP/mdp.py:GridMDP.is_adjacent"]}
{"id": "C124", "title": "Values on hex grids and feature layers on square grids are drawn at their states", "statement": "On hex grids the value of every visible state is drawn at that state's position and nowhere else; on square grids the feature layers show every feature at the position of its state.", "quantifier": "every grid size, value array, set of hidden cells, feature layer", "why_tests_cant": "All grid sizes and arrays.", "anchors": ["maMDP/plotting.py:draw_hexagons", "maMDP/mdp.py:HexGridMDP.plot_state_values", "maMDP/mdp.py:SquareGridMDP.plot"]}
{"id": "C125", "title": "With agents, exactly the ordinary features are drawn", "statement": "Plotting an environment that has agents draws every ordinary feature, with its current values at the right cells, and no agent feature.", "quantifier": "every reachable environment with at least one agent", "why_tests_cant": "All environments and histories.", "anchors": ["maMDP/environments.py:Environment.plot", "maMDP/mdp.py:GridMDP.plot"]}
{"id": "C126", "title": "Paths, labels and agents are drawn at their states once the grid is plotted", "statement": "On square grids, and on hex grids after plot, trajectories are drawn as arrows from each state's centre to the next one's, in order; sequence labels count the states from one at their positions; agents at non-negative positions are drawn at the centre of the cell they stand on.", "quantifier": "every grid, trajectory within it, and reachable environment", "why_tests_cant": "All grids, trajectories and environments.", "anchors": ["maMDP/mdp.py:GridMDP.plot_trajectory", "maMDP/mdp.py:GridMDP.plot_sequence", "maMDP/environments.py:Environment.plot", "maMDP/agents.py:AttachedAgent.plot"]}
{"id": "C127", "title": "Colours span the whole scale when values differ", "statement": "If the values shown are not all equal, the smallest gets the lowest and the largest the highest colour, all others lie in between in proportion.", "quantifier": "every list of values, with any cells left out, that has two different values", "why_tests_cant": "All lists of values.", "anchors": ["maMDP/plotting.py:draw_hexagons"]}
{"id": "C128", "title": "The successor representation always exists", "statement": "For every discount below one the matrix to be inverted for the successor representation is invertible, so that computing it never raises; in particular not during a tree search in an environment.", "quantifier": "every transition array and discount in [0,1); every reachable environment", "why_tests_cant": "All matrices of all sizes.", "anchors": ["maMDP/algorithms/successor_representation.py:get_sa_sr", "maMDP/algorithms/mcts.py:MCTS._fit"]}
{"id": "C129", "title": "A planned agent with a single goal walks there along a shortest path", "statement": "If only one state carries a reward, an agent planned by value iteration with greedy selection comes one move closer with every step, from whichever of the possible moves tie, and after as many steps as the fewest possible moves it stands on that state, provided the sweeps suffice and the tolerance is small compared with the discounted reward; with the default settings this is so up to 100 moves away for rewards between 1 and 10^12.", "quantifier": "every grid environment, walls and agents, every goal at a finite distance, every discount, tolerance and number of sweeps meeting the condition, every random draw, with any calls for other agents in between", "why_tests_cant": "All environments, distances and schedules.", "anchors": ["maMDP/algorithms/dynamic_programming.py:ValueIteration._fit", "maMDP/algorithms/dynamic_programming.py:solve_value_iteration", "maMDP/algorithms/action_selection.py:MaxActionSelector.get_pi", "maMDP/environments.py:Environment.step"]}
{"id": "C130", "title": "Any positive reward attracts a planned agent", "statement": "If only one state carries a reward, and it is positive and can be reached, an agent planned by value iteration with the default settings moves towards it.", "quantifier": "every grid environment, agent and positive reward", "why_tests_cant": "All environments and rewards.", "anchors": ["maMDP/algorithms/dynamic_programming.py:ValueIteration._fit", "maMDP/algorithms/dynamic_programming.py:solve_value_iteration", "maMDP/algorithms/action_selection.py:MaxActionSelector.get_pi", "maMDP/environments.py:Environment.step"]}
{"id": "C131", "title": "A new reward function counts from the next fit on", "statement": "Assigning an agent's reward_function changes nothing by itself: until the agent is fitted again, every call (its own steps included) does and returns what it would have without the assignment; the next fit plans with the new function, and an agent that had not planned yet is exactly as if it had been given that function at construction; with the wrong number of entries the next fit raises AttributeError and the old plan stays. Unknown names raise KeyError.", "quantifier": "every reachable environment, agent, array, and every sequence of calls before and after that does not fit the agent; other agents' algorithms that do not look at the reward function (all of the library's, except tree search simulating the agent)", "why_tests_cant": "All environments and sequences of calls.", "anchors": ["maMDP/agents.py:AttachedAgent.fit", "maMDP/agents.py:AttachedAgent.step", "maMDP/algorithms/base.py:Algorithm.fit", "maMDP/environments.py:Environment.agents"]}
{"id": "C132", "title": "Attributes of attached agents are validated when assigned", "statement": "Assigning a reward function with the wrong number of entries, or consumed features that do not exist, to an agent of an environment raises an exception, as it does at construction.", "quantifier": "every reachable environment, agent and value", "why_tests_cant": "All environments and values.", "anchors": ["maMDP/agents.py:AttachedAgent", "maMDP/environments.py:Environment._set_mdp_and_agents"]}
{"id": "C133", "title": "New consumed features count from the next step on", "statement": "Assigning an agent's consumes (indices below the number of features) changes nothing by itself; from then on every successful step of the agent removes and counts exactly those of the newly listed features that are present on the state it reaches, whatever is called in between.", "quantifier": "every reachable environment, agent, list of indices and sequence of later calls", "why_tests_cant": "All environments and sequences of calls.", "anchors": ["maMDP/agents.py:AttachedAgent", "maMDP/environments.py:Environment._consume_features", "maMDP/environments.py:Environment.step"]}
{"id": "C134", "title": "A new number of moves per turn counts at once", "statement": "After assigning an agent's n_moves, a multi-step call for it without a number of steps makes exactly that many steps, whatever was called in between; with zero or a negative number it raises ValueError.", "quantifier": "every reachable environment, agent, number and sequence of later calls", "why_tests_cant": "All environments and sequences of calls.", "anchors": ["maMDP/agents.py:AttachedAgent", "maMDP/environments.py:Environment.step_multi", "maMDP/environments.py:Environment._get_all_agents_n_steps"]}
{"id": "C135", "title": "After a reset an environment behaves like a new one", "statement": "After any calls and a reset, every sequence of calls in which agents are fitted before they act gets exactly the answers (positions returned, exceptions raised) it would get in a newly made environment with the same walls, and leaves the same positions, histories, features and plans; only the counts of consumed features and of steps differ. This holds if planning does not look at those counts, as none of the library's algorithms does.", "quantifier": "every environment of agents not fitted before, every sequence of calls before the reset and after it, and all random draws", "why_tests_cant": "All histories before the reset and all programs after it.", "anchors": ["maMDP/environments.py:Environment.reset", "maMDP/agents.py:AttachedAgent.reset", "maMDP/environments.py:Environment.step", "maMDP/environments.py:Environment.fit"]}
{"id": "C136", "title": "Seeded runs are reproducible", "statement": "If every agent's action selector was given a seed and the algorithms make no random choices (value iteration, say), the same program of calls gives the same answers and the same final environment whatever the state of numpy's global generator, and whatever other code seeds, draws or searches in between. Without selector seeds it suffices to call np.random.seed before the program, if nothing else draws from numpy's generator.", "quantifier": "every environment, program, seeds, states of the generators and interference by other code", "why_tests_cant": "All programs and all interference by other code.", "anchors": ["maMDP/algorithms/action_selection.py:MaxActionSelector", "maMDP/algorithms/action_selection.py:SoftmaxActionSelector", "maMDP/algorithms/action_selection.py:random_max", "maMDP/agents.py:AttachedAgent.get_policy"]}
{"id": "C137", "title": "Tree search can be made reproducible", "statement": "A run with tree-search agents, all of whose selectors are seeded, and with np.random.seed called at the start, gives the same answers every time.", "quantifier": "every environment, program and seeds", "why_tests_cant": "All programs and generator states.", "anchors": ["maMDP/algorithms/mcts.py:run_mcts", "maMDP/algorithms/mcts.py:MCTS_next_node", "maMDP/algorithms/action_selection.py:MaxActionSelector"]}
{"id": "C138", "title": "A seeded agent's path does not depend on the schedule", "statement": "If an agent's selector was given a seed, its path, history and policy while it follows its plan are the same however its calls are interleaved with fits, steps and moves of other agents, with probability queries about them and with draws by other code.", "quantifier": "every reachable environment, agent and interleaving", "why_tests_cant": "All interleavings.", "anchors": ["maMDP/algorithms/action_selection.py:MaxActionSelector", "maMDP/environments.py:Environment.step", "maMDP/agents.py:AttachedAgent.step", "maMDP/agents.py:AttachedAgent.get_policy"]}
{"id": "C139", "title": "A reset makes a seeded run repeat", "statement": "If all selectors are seeded, calling reset and repeating the calls made since the environment was new gives the same answers again.", "quantifier": "every environment and program", "why_tests_cant": "All programs.", "anchors": ["maMDP/environments.py:Environment.reset", "maMDP/agents.py:AttachedAgent.reset", "maMDP/algorithms/action_selection.py:MaxActionSelector"]}
{"id": "C140", "title": "Agents without preferences choose uniformly", "statement": "Fitting an agent that uses the Null algorithm always succeeds, leaves the world unchanged and values every state and action at 1; with greedy selection every action then has the same probability in every state, and any action, possible or not, may be the one taken.", "quantifier": "every reachable environment, agent, position and action", "why_tests_cant": "All environments and draws.", "anchors": ["maMDP/algorithms/base.py:Null", "maMDP/algorithms/action_selection.py:MaxActionSelector", "maMDP/environments.py:Environment.fit"]}
{"id": "C141", "title": "Only the rewards of states matter to a plan", "statement": "Value iteration gives the same values, Q values and policy for two reward functions that reward every state alike: the order in which features are listed, features of weight zero, and rewards split over several features make no difference. So an agent that cares only about ordinary features nobody consumes makes the same plan at any time, wherever the agents are, whatever was consumed and however often the environment was reset, as long as the walls stay.", "quantifier": "every transition table, pair of reward functions and settings; every environment, agent and sequence of calls", "why_tests_cant": "All reward functions and histories.", "anchors": ["maMDP/algorithms/dynamic_programming.py:solve_value_iteration", "maMDP/algorithms/dynamic_programming.py:ValueIteration", "maMDP/environments.py:Environment.fit"]}
{"id": "C142", "title": "Rewards and tolerance have no unit", "statement": "Multiplying rewards and tolerance by the same positive factor multiplies the values and Q values that value iteration finds by that factor, exactly and after any number of sweeps, and leaves errors and impossible actions as they were. Greedy selection then makes the same choices with the same draws, and softmax selection does if its temperature is multiplied too.", "quantifier": "every transition table, reward function, settings, factor, draws", "why_tests_cant": "All rewards and factors, any number of sweeps.", "anchors": ["maMDP/algorithms/dynamic_programming.py:solve_value_iteration", "maMDP/algorithms/dynamic_programming.py:state_value_iterator", "maMDP/algorithms/action_selection.py:MaxActionSelector", "maMDP/algorithms/action_selection.py:SoftmaxActionSelector"]}
{"id": "C143", "title": "Multiplying all rewards never changes the plan", "statement": "Multiplying an agent's reward function by a positive factor leaves its plan unchanged.", "quantifier": "every environment, agent and positive factor", "why_tests_cant": "All factors.", "anchors": ["maMDP/algorithms/dynamic_programming.py:solve_value_iteration", "maMDP/algorithms/dynamic_programming.py:ValueIteration"]}
{"id": "C144", "title": "Larger rewards never lower values", "statement": "If one reward function rewards every state at least as much as another, the best values under it are at least as large in every state, and so are the values that value iteration finds, up to twice its error bound, once enough sweeps are allowed.", "quantifier": "every transition table, discount, and pair of reward functions, one above the other", "why_tests_cant": "All pairs of reward functions.", "anchors": ["maMDP/algorithms/dynamic_programming.py:solve_value_iteration", "maMDP/algorithms/dynamic_programming.py:state_value_iterator"]}
{"id": "C145", "title": "Adding walls never raises values", "statement": "On a grid with additional walls, the best values and (up to twice the error bound) the fitted values are nowhere larger than without them.", "quantifier": "every grid, pair of sets of walls, one containing the other, and reward function", "why_tests_cant": "All walls and rewards.", "anchors": ["maMDP/algorithms/dynamic_programming.py:solve_value_iteration", "maMDP/mdp.py:MDP.walls"]}
{"id": "C146", "title": "Tree search without interaction promises no more than the best walk pays", "statement": "After a successful fit of an agent whose tree search ignores the other agents, the value reported for a move it can make from its state is finite and lies between any bounds lo <= 0 <= hi on what the walks of the scheduled length that start in its state and visit the state moved to pay it. A walk pays the agent's weights times the features of the visited states as they are now, except that a feature it consumes pays once per state and its own position counts in the state it comes from.", "quantifier": "every reachable environment, every agent with a non-interactive tree search, every score function, number of iterations, schedule, and random choices made by the search", "why_tests_cant": "The values are averages over random walks of a tree grown in an order that depends on all previous draws; tests sample a few of them.", "anchors": ["maMDP/algorithms/mcts.py:mcts_iteration", "maMDP/algorithms/mcts.py:run_mcts", "maMDP/algorithms/mcts.py:get_MCTS_action_values", "maMDP/environments.py:Environment.fit"]}
{"id": "C147", "title": "Asking for a policy changes no array that existed before", "statement": "Working out actions or action probabilities from a Q array, whether it succeeds or raises, leaves the given array and every other array that existed before the call (such as policies returned earlier) as it was, and a policy it returns is a new array; the probabilities an agent has just worked out are not touched when its actions are worked out. This holds for the library's selectors, whose results are those the other properties describe, and for any selector of the user's own that writes only to the array it is given and to arrays it creates, and returns one of these - even if it returns the very array it was given.", "quantifier": "every Q array, every set of other arrays, every such selector", "why_tests_cant": "Aliasing depends on what each selector returns; tests look at the arrays they know of.", "anchors": ["maMDP/algorithms/action_selection.py:ActionSelector.get_pi", "maMDP/algorithms/action_selection.py:ActionSelector.get_pi_p", "maMDP/algorithms/action_selection.py:MaxActionSelector", "maMDP/algorithms/action_selection.py:SoftmaxActionSelector", "maMDP/agents.py:AttachedAgent.get_policy"]}
{"id": "C148", "title": "Values stay within what rewards allow", "statement": "If every state's reward lies between lo <= 0 and hi >= 0, every value and every Q value of a possible action that value iteration reports lies between lo/(1-g) and hi/(1-g), g being the discount, however few sweeps are allowed and whatever the tolerance.", "quantifier": "every transition table, reward function, discount, number of sweeps and tolerance", "why_tests_cant": "All rewards and settings, including those under which planning stops early.", "anchors": ["maMDP/algorithms/dynamic_programming.py:solve_value_iteration", "maMDP/algorithms/dynamic_programming.py:state_value_iterator"]}
{"id": "C149", "title": "Planning longer never lowers values when nothing is punished", "statement": "If no state has a negative reward, allowing more sweeps or a smaller tolerance never lowers a reported value, and values and Q values are never negative and never above the best ones: stopping early only underestimates.", "quantifier": "every transition table, non-negative reward function, discount, pair of settings", "why_tests_cant": "All rewards and settings.", "anchors": ["maMDP/algorithms/dynamic_programming.py:solve_value_iteration", "maMDP/algorithms/dynamic_programming.py:state_value_iterator"]}
{"id": "C150", "title": "A larger discount never lowers values when nothing is punished", "statement": "If no state has a negative reward, the best values under a larger discount are nowhere smaller, and the fitted values are not smaller by more than the error bound of the larger discount, once enough sweeps are allowed.", "quantifier": "every transition table, non-negative reward function, pair of discounts", "why_tests_cant": "All rewards and discounts.", "anchors": ["maMDP/algorithms/dynamic_programming.py:solve_value_iteration", "maMDP/algorithms/dynamic_programming.py:state_value_iterator"]}
{"id": "C151", "title": "What cannot be reached does not matter", "statement": "The best value of a state, and the best values of the actions in it, depend only on the rewards and transitions of states that can be reached from it; fitted values agree up to twice the error bound. On a grid, rewards of cells cut off by walls make no difference.", "quantifier": "every pair of transition tables and reward functions that agree on what can be reached; every grid and sequence of wall assignments", "why_tests_cant": "All worlds and rewards.", "anchors": ["maMDP/algorithms/dynamic_programming.py:solve_value_iteration", "maMDP/mdp.py:MDP.walls", "maMDP/mdp.py:GridMDP"]}
{"id": "C152", "title": "Every journey can be made back", "statement": "On a square or hex grid with any walls, taking the opposite actions in reverse order leads back from where a sequence of valid actions leads, through valid actions only; so the fewest moves from one cell to another are as many as back.", "quantifier": "every grid, sequence of wall assignments, cell and sequence of valid actions", "why_tests_cant": "All grids, walls and paths, of any length.", "anchors": ["maMDP/mdp.py:SquareGridMDP", "maMDP/mdp.py:HexGridMDP", "maMDP/mdp.py:MDP.walls", "maMDP/mdp.py:MDP.state_valid_actions", "maMDP/mdp.py:MDP.get_next_state"]}
{"id": "C153", "title": "Simulated opponents choose as their settings say", "statement": "When tree search simulates another agent that plans, the agent takes an action according to the values of its own plan (value iteration with its reward function on the given features): with greedy selection one of the best possible actions, each of them for equally many draws; with softmax selection each action with its Gibbs probability at the configured temperature, impossible ones never; and it goes to the most probable outcome of the action. A simulated agent that moves at random goes to any state one move away, and only there.", "quantifier": "every transition table, reward function, feature table, planner settings, temperature, state with a possible action, and random draw", "why_tests_cant": "All plans, temperatures and draws.", "anchors": ["maMDP/algorithms/mcts.py:get_opponent_next_state", "maMDP/algorithms/action_selection.py:softmax", "maMDP/algorithms/mcts.py:rand_choice_nb"]}
{"id": "C154", "title": "The order of trajectories does not matter to learners that add features up", "statement": "Feature matching and both line-of-sight learners give the same weights in whatever order the pairs of an MDP and its trajectory are given, from nothing or from an earlier estimate; so do the line-of-sight totals of several trajectories in one MDP, normalised or not.", "quantifier": "every list of MDPs with as many trajectories, every rearrangement", "why_tests_cant": "All numbers of trajectories and all rearrangements.", "anchors": ["maMDP/algorithms/irl.py:MFFeatureMatching.fit", "maMDP/algorithms/irl.py:SimpleActionIRL", "maMDP/algorithms/irl.py:SimpleActionFeatureDiffIRL"]}
{"id": "C155", "title": "The order of trajectories does not matter to maximum-entropy inference", "statement": "Fitting the maximum-entropy learner to the same trajectories in another order gives the same weights.", "quantifier": "every MDP, learner, list of trajectories and rearrangement", "why_tests_cant": "All numbers and lengths of trajectories and all rearrangements.", "anchors": ["maMDP/algorithms/irl.py:MaxCausalEntIRL"]}
{"id": "C156", "title": "Softmax selection lies between greedy and even choice", "statement": "For a positive temperature the probabilities of softmax selection differ from those of greedy selection by at most the number of actions times exp(-D/T), where D is by how much the best action is ahead, so they tend to the greedy ones as the temperature goes to zero; they differ from an even choice among the actions with finite values by at most exp(D/T)-1, where D is the largest difference, so they tend to it as the temperature grows; and raising the temperature never makes a best action more probable.", "quantifier": "every table of Q values and every temperature, in all states with a finite and no infinite positive value", "why_tests_cant": "Limits and all tables of values.", "anchors": ["maMDP/algorithms/action_selection.py:SoftmaxActionSelector", "maMDP/algorithms/action_selection.py:MaxActionSelector", "maMDP/algorithms/action_selection.py:softmax"]}
{"id": "C157", "title": "Interleaving of agents that consume nothing does not matter", "statement": "If no agent consumes anything, the steps of different agents can be interleaved in any way: two schedules that contain the same steps of each agent in the same order lead to the same environment, and every call returns or raises the same.", "quantifier": "every reachable environment and every pair of schedules, of any length, including calls that raise", "why_tests_cant": "All interleavings of any number of steps.", "anchors": ["maMDP/environments.py:Environment.step", "maMDP/agents.py:AttachedAgent"]}
{"id": "C158", "title": "Planning has no preferred side", "statement": "Renaming states and actions changes no value: if two decision problems are the same up to a renaming and give the same rewards, corresponding states and actions have the same optimal values. In particular a grid and its mirror image (square grids in both directions or with axes swapped; hex grids with an odd number of columns mirrored, with an even number turned by half a turn), with mirrored walls and rewards, have mirrored values, and plans found by the library for the two differ by no more than the planner's precision allows.", "quantifier": "every MDP and renaming; every grid, symmetry, walls, wall changes, rewards, discount factor", "why_tests_cant": "All sizes, walls and rewards.", "anchors": ["maMDP/mdp.py:SquareGridMDP", "maMDP/mdp.py:HexGridMDP", "maMDP/algorithms/dynamic_programming.py:ValueIteration"]}
{"id": "C159", "title": "A reward that is the same everywhere changes no preference", "statement": "If every outcome is certain, every state that can be entered can be left and no state is punished, adding the same non-negative amount to the reward of every state adds the same amount to the value of every possible action and so changes no preference between possible actions; in grids the values found by the library then differ by that amount up to the planner's precision.", "quantifier": "every such MDP, every grid with any walls and wall changes, all non-negative rewards and amounts, every discount factor", "why_tests_cant": "All grids, rewards and amounts.", "anchors": ["maMDP/algorithms/dynamic_programming.py:solve_value_iteration", "maMDP/algorithms/dynamic_programming.py:ValueIteration"]}
{"id": "C160", "title": "The order of features does not matter to inference", "statement": "If the features of an MDP are listed in another order (and so are the initial weights and the features to ignore), every learner gives the same weights in that order: maximum entropy (with the same warning and learning rate), feature matching, both line-of-sight learners and hypothesis testing (after every move).", "quantifier": "every MDP, order of features, trajectories, settings, initial weights and ignored features for which the fit succeeds", "why_tests_cant": "All numbers and orders of features and all trajectories.", "anchors": ["maMDP/algorithms/irl.py:MaxCausalEntIRL", "maMDP/algorithms/irl.py:MFFeatureMatching.fit", "maMDP/algorithms/irl.py:SimpleActionIRL", "maMDP/algorithms/irl.py:SimpleActionFeatureDiffIRL", "maMDP/algorithms/irl.py:HyptestIRL"]}
{"id": "C161", "title": "Line-of-sight estimates can be built up call by call", "statement": "Fitting a line-of-sight learner to some trajectories and then, without resetting, to others is the same as fitting it to all of them in one call: the same estimate and the same exception if there is one.", "quantifier": "every MDP, list of trajectories, way to split it and earlier history", "why_tests_cant": "All lists and splits, including failing ones.", "anchors": ["maMDP/algorithms/irl.py:SimpleActionIRL", "maMDP/algorithms/irl.py:SimpleActionFeatureDiffIRL"]}
{"id": "C162", "title": "Estimates returned by line-of-sight fitting do not change afterwards", "statement": "The weights returned by one call of fit of a line-of-sight learner keep their values when the learner is fitted again.", "quantifier": "every history of fits, with and without reset", "why_tests_cant": "All histories and data.", "anchors": ["maMDP/algorithms/irl.py:SimpleActionIRL", "maMDP/algorithms/irl.py:SimpleActionFeatureDiffIRL"]}
{"id": "C163", "title": "A failed line-of-sight fit leaves the learner as it was", "statement": "If fitting a line-of-sight learner raises an exception, its estimate is the one it had before.", "quantifier": "every learner, list of trajectories and position of the one that cannot be counted", "why_tests_cant": "All positions of the failure and all histories.", "anchors": ["maMDP/algorithms/irl.py:SimpleActionIRL", "maMDP/algorithms/irl.py:SimpleActionFeatureDiffIRL"]}
{"id": "C164", "title": "Q values handed out by a policy learner do not change", "statement": "The array returned by get_q_values of a policy learner keeps its values when the learner is fitted again or reset.", "quantifier": "every history of fits and resets", "why_tests_cant": "All histories.", "anchors": ["maMDP/algorithms/policy_learning.py:TDGeneralPolicyLearner"]}
{"id": "C165", "title": "Policy learning can start from any numbers", "statement": "A policy learner can be fitted from every initial estimate with one number for each action, integers or floating-point numbers.", "quantifier": "every initial estimate, learning rate, decay, kernel and list of valid trajectories", "why_tests_cant": "All estimates and trajectories.", "anchors": ["maMDP/algorithms/policy_learning.py:TDGeneralPolicyLearner"]}
{"id": "C166", "title": "Agents that plan with value iteration never get stuck", "statement": "Fitting an agent that plans with value iteration (discount between 0 and 1, at least one sweep) never raises, whatever the walls, features and rewards are; and once fitted, each of its steps succeeds, whatever calls on any agent, moves, resets and new walls come in between. A sequence of steps succeeds too: without refitting always, with refitting if it is within one turn.", "quantifier": "every environment, agent, settings, history of calls and random draws", "why_tests_cant": "All wall layouts, including those that leave an agent no possible move, and all histories.", "anchors": ["maMDP/algorithms/dynamic_programming.py:ValueIteration", "maMDP/environments.py:Environment.fit", "maMDP/environments.py:Environment.step", "maMDP/environments.py:Environment.step_multi"]}
{"id": "C167", "title": "Coordinates of a state are found by number", "statement": "get_state_coords gives for every state number the coordinates state_to_idx gives; negative numbers count from the end, numbers outside that range raise IndexError and anything that is not an int AssertionError. The coordinates it gives for the position of an agent are always those of the cell where the agent is marked, also for negative positions.", "quantifier": "every grid and number; every reachable environment and agent", "why_tests_cant": "All shapes, numbers and histories.", "anchors": ["maMDP/mdp.py:GridMDP.get_state_coords", "maMDP/mdp.py:GridMDP.state_to_idx"]}
{"id": "C168", "title": "An eaten agent takes no more part in a simulated game", "statement": "Once an opponent has been eaten in a search iteration it stays out for the rest of the iteration: it never moves again, nothing is recorded for it and it consumes nothing. (For what it still does see C39.)", "quantifier": "every search, iteration, opponent and random draw", "why_tests_cant": "All iterations of any length.", "anchors": ["maMDP/algorithms/mcts.py:mcts_iteration"]}
{"id": "C169", "title": "After a successful fit the queries report it", "statement": "After a successful fit, and after any calls that neither fit that agent nor reset, get_agent_q_values, get_agent_pi and get_agent_pi_p report the values of that fit and a policy and probabilities that belong to them, one row per state. Before the first fit the policy queries raise AttributeError.", "quantifier": "every environment, agent, algorithm, selector and sequence of such calls", "why_tests_cant": "All sequences of calls.", "anchors": ["maMDP/environments.py:Environment.get_agent_q_values", "maMDP/environments.py:Environment.get_agent_pi", "maMDP/environments.py:Environment.get_agent_pi_p"]}
{"id": "C170", "title": "A step is one the reported probabilities allow", "statement": "With greedy or softmax selection the action a step takes has a positive reported probability; with greedy selection and a unique best action it is the reported one; and after the step the reported policy has, in the state left, the action taken.", "quantifier": "every environment, fitted agent, random draw and sequence of calls between fit and step", "why_tests_cant": "All draws and histories.", "anchors": ["maMDP/environments.py:Environment.step", "maMDP/environments.py:Environment.get_agent_pi", "maMDP/environments.py:Environment.get_agent_pi_p"]}
{"id": "C171", "title": "Caching changes nothing when opponents want ordinary features", "statement": "If the opponents want ordinary features only and no agent consumes more than one feature, a tree search with caching gives the same result as one without, exceptions included; and a fit that keeps the cache of earlier fits gives the same as one with an empty cache as long as only calls that leave walls and ordinary features alone come in between.", "quantifier": "every such search and environment, every sequence of such calls and fits, all random draws", "why_tests_cant": "All searches and histories.", "anchors": ["maMDP/algorithms/mcts.py:MCTS._fit", "maMDP/algorithms/mcts.py:mcts_iteration"]}
{"id": "C172", "title": "Looking in a direction counts the states on the ray", "statement": "Counting the features in a direction visits exactly the states on the straight ray from the current state to the border or the first wall, each once, and ends.", "quantifier": "every grid, walls, wall changes, state and direction other than staying", "why_tests_cant": "All sizes and walls.", "anchors": ["maMDP/algorithms/irl.py:get_eyeline_features"]}
{"id": "C173", "title": "Catching is detected for positions and features written as plain numbers", "statement": "An agent counts as having caught another exactly if one of the features it consumes, written as a non-negative number, marks an agent whose position is written as the same number as its own.", "quantifier": "every reachable environment and agent", "why_tests_cant": "All histories.", "anchors": ["maMDP/environments.py:Environment.step_multi"]}
{"id": "C174", "title": "Maximum-entropy inference succeeds with a positive iteration limit", "statement": "If the settings are accepted, the iteration limit is positive and the trajectories lie in the MDP and start where something is possible, fitting returns one weight per feature; on grids every trajectory of states of the grid that starts where something is possible will do.", "quantifier": "every accepted settings, MDP, list of trajectories, ignored features and earlier history", "why_tests_cant": "All MDPs and trajectories.", "anchors": ["maMDP/algorithms/irl.py:MaxCausalEntIRL"]}
{"id": "C175", "title": "Hypothesis testing succeeds with every normalisation but the default", "statement": "If the settings are accepted and the normalisation is not 'relative', fitting to trajectories of adjacent states with at least one move succeeds; on grids every list of walks will do.", "quantifier": "every accepted settings, list of MDPs, walks and earlier history except a reset without initial weights", "why_tests_cant": "All MDPs and trajectories.", "anchors": ["maMDP/algorithms/irl.py:HyptestIRL"]}
{"id": "C176", "title": "Policy learning without decay converges", "statement": "Without decay, if the same action is observed often enough, its value is as close to one as desired and never above it.", "quantifier": "every learning rate up to one, precision, list of MDPs and trajectories", "why_tests_cant": "A limit over all numbers of observations.", "anchors": ["maMDP/algorithms/policy_learning.py:TDGeneralPolicyLearner"]}
{"id": "C177", "title": "Where nothing is punished walls never raise values", "statement": "If no state has a negative reward, additional walls make no best value larger, and no fitted value by more than twice the error bound.", "quantifier": "every grid, pair of sets of walls one containing the other, all non-negative rewards and discount factors", "why_tests_cant": "All grids, walls and rewards.", "anchors": ["maMDP/algorithms/dynamic_programming.py:solve_value_iteration", "maMDP/mdp.py:MDP.walls"]}
{"id": "C178", "title": "Where nothing is punished value iteration finds the best return", "statement": "If no state has a negative reward, the values are the largest expected discounted returns over all policies that only take possible actions; those the solver returns are within its error bound of them once it is allowed enough sweeps.", "quantifier": "every MDP, non-negative rewards, discount factor and tolerance", "why_tests_cant": "All policies and MDPs.", "anchors": ["maMDP/algorithms/dynamic_programming.py:solve_value_iteration"]}
{"id": "C179", "title": "Probabilistic stepping is a distribution where outcomes differ", "statement": "If the action probabilities and the starting probabilities are distributions and no two different pairs of a possible starting state and an action lead to the same state, step_proba returns for each state the probability of being there after one step, and these sum to one.", "quantifier": "every reachable environment, agent and starting distribution of this kind", "why_tests_cant": "All distributions and environments.", "anchors": ["maMDP/environments.py:Environment.step_proba", "maMDP/agents.py:AttachedAgent.step_proba"]}
{"id": "C180", "title": "Environments leave the caller's arrays alone", "statement": "The feature array given to a constructor is never changed by a program that does not call consume_features itself, nor the wall array by one that does not call reset_walls, whatever else is done with the MDPs and environments made from them.", "quantifier": "every program of this kind", "why_tests_cant": "All programs.", "anchors": ["maMDP/mdp.py:MDP", "maMDP/environments.py:Environment"]}
{"id": "C181", "title": "One agent object in environments on different MDPs shares its plan only", "statement": "A call on one environment changes nothing about an environment on another MDP except possibly the plans of agents they have in common.", "quantifier": "every program, pair of environments and call", "why_tests_cant": "All programs.", "anchors": ["maMDP/environments.py:Environment", "maMDP/agents.py:Agent"]}
{"id": "C182", "title": "After an algorithm was assigned the next step follows it", "statement": "If an algorithm that has been fitted is assigned to an agent, its next step follows the new values, and from then on values, policy and probabilities reported belong to them.", "quantifier": "every reachable environment, agent, fitted algorithm and sequence of calls that neither fit the agent nor reset", "why_tests_cant": "All histories.", "anchors": ["maMDP/agents.py:AttachedAgent.algorithm", "maMDP/environments.py:Environment.step"]}
{"id": "C183", "title": "A history obtained earlier shows the current one until a reset", "statement": "The list get_agent_position_history returned shows the agent's current history after any calls other than a reset; after a reset it shows what it showed before it, for ever.", "quantifier": "every reachable environment, agent and sequence of calls", "why_tests_cant": "All sequences of calls.", "anchors": ["maMDP/environments.py:Environment.get_agent_position_history"]}
{"id": "C184", "title": "Tree searches repeat from the same state of their generator", "statement": "Two runs with seeded selectors, the same calls and the generator of the compiled search in the same state at the start are the same, as long as nothing else searches in between; calls that plan nothing leave that generator alone.", "quantifier": "every environment, seeds and sequence of calls", "why_tests_cant": "All runs.", "anchors": ["maMDP/algorithms/mcts.py:MCTS._fit", "maMDP/algorithms/action_selection.py:ActionSelector"]}
{"id": "C185", "title": "Hexagonal layers are shaded by how much of a feature there is", "statement": "Plotting a hexagonal grid with agents draws one layer for each ordinary feature, each cell as opaque as its amount of the feature (limited to the range from 0 to 1) times the layer's alpha (one half if none is given), and a layer of walls that is opaque exactly at walls and invisible elsewhere. Given colours and alphas are used in order; with fewer than there are ordinary features plotting raises IndexError.", "quantifier": "every reachable environment with agents, colours and alphas", "why_tests_cant": "All grids, tables and histories.", "anchors": ["maMDP/plotting.py:plot_hex_grids", "maMDP/mdp.py:HexGridMDP.plot"]}
{"id": "C186", "title": "Different features are drawn in different colours", "statement": "Without given colours, plotting a hexagonal grid draws different features in different colours.", "quantifier": "every reachable environment with agents", "why_tests_cant": "All numbers of features.", "anchors": ["maMDP/plotting.py:plot_hex_grids", "maMDP/mdp.py:HexGridMDP.plot"]}
{"id": "C187", "title": "Environments accept lists and arrays and refuse other types", "statement": "The constructor of an environment treats a reward function given as a list like the array of its numbers. Nothing but integer positions and one-dimensional arrays or lists is accepted: the first entry of a wrong type, if those before it are valid, raises TypeError (or AttributeError if the reward function does not have one dimension).", "quantifier": "every MDP and list of entries, each with any kind of position and reward function", "why_tests_cant": "All lists of agents and combinations of types.", "anchors": ["maMDP/environments.py:Environment", "maMDP/agents.py:Agent"]}
{"id": "C188", "title": "A planner used on its own keeps its last good result", "statement": "Fitting an algorithm directly replaces its values and action values by the new ones, of the right shape and independent of earlier fits, if it succeeds, and keeps the earlier ones if it raises. After a reset it has none until a fit succeeds. Value iteration on a grid accepts exactly the arrays with one number for each feature; Null gives the value one to everything.", "quantifier": "every algorithm that depends on MDP and reward function only, every MDP, grid, wall changes, argument and earlier result", "why_tests_cant": "All arguments and histories.", "anchors": ["maMDP/algorithms/base.py:Algorithm.fit", "maMDP/algorithms/base.py:Null", "maMDP/algorithms/dynamic_programming.py:ValueIteration"]}
{"id": "C189", "title": "A reward function for planning may be a list", "statement": "Fitting an algorithm with a reward function given as a list of numbers works like fitting it with the array of these numbers, as the error message says and as environments do.", "quantifier": "every algorithm, MDP and list", "why_tests_cant": "All lists.", "anchors": ["maMDP/algorithms/base.py:Algorithm.fit"]}
{"id": "C190", "title": "A new environment survives saving and loading exactly", "statement": "Exporting a newly made hex environment to a dictionary and importing it with the same feature names gives an environment that is equal in every respect, so that every later sequence of calls has the same effects and results; without ordinary features the same holds through JSON.", "quantifier": "every new hex environment (any walls set before, binary features, integer rewards, unfitted value-iteration agents with distinct names)", "why_tests_cant": "All environments and all later histories.", "anchors": ["maMDP/env_io.py:hex_env_to_dict", "maMDP/env_io.py:hex_environment_from_dict", "maMDP/env_io.py:hex_environment_from_json", "maMDP/environments.py:Environment"]}
{"id": "C191", "title": "Resetting a loaded environment returns to the original start", "statement": "After an environment is saved, loaded and reset, agents are where a reset of the original puts them.", "quantifier": "every hex environment after any history", "why_tests_cant": "All histories before saving.", "anchors": ["maMDP/env_io.py:hex_env_to_dict", "maMDP/env_io.py:hex_environment_from_dict", "maMDP/environments.py:Environment.reset"]}
{"id": "C192", "title": "Resetting a loaded environment returns to what was saved", "statement": "Whatever is done with a loaded environment, a reset succeeds and returns every agent to where it stood when the environment was saved, with a history of that place only, and the ordinary features to what they were then.", "quantifier": "every hex environment after any history, every later sequence of calls", "why_tests_cant": "All histories before saving and after loading.", "anchors": ["maMDP/env_io.py:hex_env_to_dict", "maMDP/env_io.py:hex_environment_from_dict", "maMDP/environments.py:Environment.reset"]}
{"id": "C193", "title": "Probabilistic stepping never fails for value-iteration agents", "statement": "Once an agent that plans with value iteration has been fitted, step_proba succeeds at any time, from the agent's own place or from any weights with one entry for each state and a positive sum, and returns one entry for each state; weights of another length raise AssertionError.", "quantifier": "every environment, agent, history of calls since the fit (steps, moves, resets, new walls), starting weights and random draws", "why_tests_cant": "All histories and weights.", "anchors": ["maMDP/environments.py:Environment.step_proba", "maMDP/agents.py:Agent"]}
{"id": "C194", "title": "Probabilistic stepping from the agent's own place is right except for the first state", "statement": "From the agent's own place, step_proba gives every state but the first the probability of the action that leads there, or zero if no possible action does; the first state too, if every action is possible where the agent stands.", "quantifier": "every environment, fitted value-iteration agent, history of calls and random draws", "why_tests_cant": "All environments and histories.", "anchors": ["maMDP/environments.py:Environment.step_proba", "maMDP/agents.py:Agent"]}
{"id": "C195", "title": "Interleaving of agents with different tastes does not matter", "statement": "If the agents consume different features and nobody consumes another agent, the steps of different agents can be interleaved in any way: two schedules that contain the same steps of each agent in the same order lead to the same environment, and every call returns or raises the same.", "quantifier": "every reachable environment and every pair of schedules, of any length, including calls that raise", "why_tests_cant": "All interleavings of any number of steps.", "anchors": ["maMDP/environments.py:Environment.step", "maMDP/environments.py:Environment._consume_features", "maMDP/mdp.py:MDP.consume_features", "maMDP/agents.py:AttachedAgent"]}
{"id": "C196", "title": "Refusing an agent for its reward function or its consumed features does no harm", "statement": "If the constructor of an environment refuses an agent because of the number of its rewards or because of the features it consumes, every later construction with the same MDP succeeds or raises, and yields the same environment, as if the attempt had not been made.", "quantifier": "every MDP, list of agents, position of the refused agent in it, and later list of agents", "why_tests_cant": "Every point at which construction can fail.", "anchors": ["maMDP/environments.py:Environment._set_mdp_and_agents", "maMDP/mdp.py:MDP.add_agent_feature", "maMDP/mdp.py:MDP.remove_agent_features"]}
{"id": "C197", "title": "Which states are flagged", "statement": "If no state has both plus and minus infinity among its action values (no plus infinity at all, for softmax probabilities), a state's selected action is -1 exactly when none of its action values is known; its action probabilities are then all NaN, and otherwise all numbers; an array in which nothing is known is rejected.", "quantifier": "every Q array without such rows, every state, both selectors", "why_tests_cant": "All NaN patterns.", "anchors": ["maMDP/algorithms/action_selection.py:ActionSelector.get_pi", "maMDP/algorithms/action_selection.py:ActionSelector.get_pi_p", "maMDP/algorithms/action_selection.py:check_q_values"]}
{"id": "C198", "title": "Which lists of trajectories policy learning accepts", "statement": "Fitting a policy learner with trajectories of neighbouring states succeeds exactly if no trajectory has more moves than there are trajectories, and there is at least one trajectory or an initial estimate.", "quantifier": "every list of valid trajectories, one MDP or one MDP per trajectory", "why_tests_cant": "Lengths and counts of trajectories are unbounded.", "anchors": ["maMDP/algorithms/policy_learning.py:TDGeneralPolicyLearner.fit", "maMDP/algorithms/policy_learning.py:TDGeneralPolicyLearner._fit_TD_policy"]}
{"id": "C199", "title": "How much each trajectory counts in maximum-entropy inference", "statement": "In the observed feature expectation a trajectory counts with its average, divided by the lengths of all trajectories after it; with nonnegative features the expectation is never more than with equal weights.", "quantifier": "every list of trajectories and every feature", "why_tests_cant": "All counts and lengths.", "anchors": ["maMDP/algorithms/irl.py:MaxCausalEntIRL._solve_maxcausalent"]}
{"id": "C200", "title": "Hypothesis testing with a decay uses the documented learning rates", "statement": "With a positive decay the n-th move changes each weight by learning_rate * n^-decay times its distance to the evidence, multiplied by the asymmetry if the evidence is weaker than the weight and divided by it otherwise.", "quantifier": "every settings with a positive decay, trajectory list, number of moves", "why_tests_cant": "Unbounded sequences of observations.", "anchors": ["maMDP/algorithms/irl.py:HyptestIRL._solve_hyptest"]}
{"id": "C201", "title": "The learning rates of policy learning", "statement": "With decay d>0 the n-th observation of the first fit counts with learning_rate * (n!)^-d.", "quantifier": "every decay, learning rate, list of trajectories, number of observations", "why_tests_cant": "All n.", "anchors": ["maMDP/algorithms/policy_learning.py:TDGeneralPolicyLearner._fit_TD_policy"]}
{"id": "C202", "title": "Tree search without an environment", "statement": "A tree-search object that is not interactive can be fitted to an MDP, a reward function and a position without being attached to an agent in an environment, like value iteration; an interactive one refuses and is left as it was.", "quantifier": "every MDP, reward function, setting of interactive, and history of calls on the object", "why_tests_cant": "All histories of calls.", "anchors": ["maMDP/algorithms/mcts.py:MCTS._fit", "maMDP/algorithms/mcts.py:MCTS.create_agent_info", "maMDP/algorithms/base.py:Algorithm.fit"]}
{"id": "C203", "title": "Initial weights of other types", "statement": "Inverse reinforcement learning gives the same result for initial weights that are an array of integers or a list as for the array of floats with the same numbers.", "quantifier": "every setting, MDP, list of trajectories and initial weights", "why_tests_cant": "All inputs.", "anchors": ["maMDP/algorithms/irl.py:MaxCausalEntIRL._solve_maxcausalent", "maMDP/algorithms/irl.py:HyptestIRL._solve_hyptest"]}
{"id": "C204", "title": "Hypothesis testing accepts a list of initial weights", "statement": "Hypothesis testing with a list of initial weights succeeds or raises and returns the same as with the array of floats with the same numbers; the list is not changed, and after a successful fit the weights are in an array of floats.", "quantifier": "every setting, MDP, list of trajectories and initial weights", "why_tests_cant": "All inputs.", "anchors": ["maMDP/algorithms/irl.py:HyptestIRL._solve_hyptest", "maMDP/algorithms/irl.py:HyptestIRL.fit"]}
{"id": "C205", "title": "Calls for one agent leave the other agents' records alone", "statement": "Whatever is called for other agents, whether it returns or raises, and whatever walls are assigned, an agent that is not itself called and not reset keeps its position, history, consumption record, plan and policy; and while only one agent is fitted and stepped, its history grows by one entry exactly when the step counter does.", "quantifier": "every environment, agent and sequence of calls", "why_tests_cant": "All sequences of calls, including those that raise.", "anchors": ["maMDP/environments.py:Environment.step", "maMDP/environments.py:Environment.step_multi", "maMDP/environments.py:Environment.fit", "maMDP/environments.py:Environment.set_agent_position", "maMDP/environments.py:Environment.get_agent_position_history"]}
{"id": "C206", "title": "Value iteration is accurate in floating point", "statement": "With every arithmetic operation rounded as in IEEE 754 double precision, value iteration on grids returns without raising, marks exactly the impossible actions as such, and returns values and action values within an explicit bound of the exact solution; with the default settings within 1e-7, if there are at most 1000 features and the sizes of their weights sum to at most 1000 in every state.", "quantifier": "every grid, walls, features, reward function, discount, tolerance and number of iterations; every rounding with a relative and an absolute error bound", "why_tests_cant": "All inputs, and rounding errors that build up over any number of iterations.", "anchors": ["maMDP/algorithms/dynamic_programming.py:solve_value_iteration", "maMDP/algorithms/dynamic_programming.py:state_value_iterator", "maMDP/algorithms/dynamic_programming.py:get_state_action_values", "maMDP/algorithms/dynamic_programming.py:delta_update", "maMDP/algorithms/dynamic_programming.py:ValueIteration"]}
{"id": "C207", "title": "Agents that plan in floating point walk near-best paths, and to a single goal along a shortest one", "statement": "An agent that plans with value iteration in floating point can be fitted, collects nearly the best return from where it stands, and, if the only reward is at one goal, reaches the goal along a shortest path; with the default settings from up to 100 moves away, if the reward is at least 1 and features and weights are bounded as above.", "quantifier": "every environment on a grid, agent, goal, and sequence of steps and draws", "why_tests_cant": "All grids and walks, with rounding in every operation of the planner.", "anchors": ["maMDP/algorithms/dynamic_programming.py:ValueIteration._fit", "maMDP/algorithms/dynamic_programming.py:solve_value_iteration", "maMDP/environments.py:Environment.fit", "maMDP/environments.py:Environment.step", "maMDP/algorithms/action_selection.py:MaxActionSelector"]}
{"id": "C208", "title": "Soft value iteration copes with any finite rewards", "statement": "Value iteration with the soft backup, used for maximum causal entropy inverse reinforcement learning, returns finite values for every finite reward function.", "quantifier": "every MDP, reward function, discount, tolerance and number of iterations; every largest number of the floating point format", "why_tests_cant": "All inputs; the exponential overflows only for large rewards.", "anchors": ["maMDP/algorithms/dynamic_programming.py:solve_value_iteration", "maMDP/algorithms/dynamic_programming.py:state_value_iterator", "maMDP/algorithms/dynamic_programming.py:ValueIteration", "maMDP/algorithms/irl.py:MaxCausalEntIRL"]}
{"id": "C209", "title": "Soft value iteration never overflows with moderate rewards", "statement": "Value iteration with the soft backup gives the same result whether or not the exponential can overflow, if the size of every state's reward is at most w and exp((w + ln(number of actions + 1)) / (1 - discount)) is below the largest number; in double precision with the default discount on every grid if rewards are at most 60 in size.", "quantifier": "every MDP, reward function, discount, tolerance and number of iterations; every largest number of the floating point format", "why_tests_cant": "All inputs and any number of iterations, over which the values build up.", "anchors": ["maMDP/algorithms/dynamic_programming.py:solve_value_iteration", "maMDP/algorithms/dynamic_programming.py:state_value_iterator", "maMDP/algorithms/dynamic_programming.py:ValueIteration"]}
{"id": "C210", "title": "A draw always selects one of the actions", "statement": "In the compiled code that tree search uses to pick an opponent's action, every draw in [0, 1) selects one of the actions.", "quantifier": "every vector of action probabilities and every draw", "why_tests_cant": "The draws that go wrong are the few largest ones, and for most probabilities there are none.", "anchors": ["maMDP/algorithms/mcts.py:rand_choice_nb", "maMDP/algorithms/mcts.py:get_opponent_next_state", "maMDP/algorithms/action_selection.py:softmax"]}
{"id": "C211", "title": "Random choices in floating point select possible actions", "statement": "With cumulative sums rounded after every operation, numpy's choice (used by the softmax selector) always selects an action whose probability is positive. The choice of the compiled tree search selects one with positive probability, if it selects an action at all, and it selects one for every draw up to an explicit bound; in double precision and with up to seven actions for all draws below 1 - 1e-13.", "quantifier": "every vector of representable non-negative weights, every draw in [0, 1), every rounding with a relative and an absolute error bound", "why_tests_cant": "All weights and draws, with rounding in every operation.", "anchors": ["maMDP/algorithms/mcts.py:rand_choice_nb", "maMDP/algorithms/action_selection.py:SoftmaxActionSelector._get_pi"]}
{"id": "C212", "title": "Softmax is accurate in floating point and never selects an impossible action", "statement": "With every operation rounded, the softmax selector's probabilities lie between zero and one, are zero for impossible actions and within an explicit bound of the exact ones; choosing by them never raises and never selects an impossible action if there is a possible one. In double precision the error is below 1e-12 with up to seven actions and temperatures from 1e-10.", "quantifier": "every row of action values without NaN or plus infinity, every temperature and draw, every rounding and every exponential with error bounds", "why_tests_cant": "All inputs, with rounding in every operation.", "anchors": ["maMDP/algorithms/action_selection.py:softmax", "maMDP/algorithms/action_selection.py:SoftmaxActionSelector._get_pi_p", "maMDP/algorithms/action_selection.py:SoftmaxActionSelector._get_pi"]}
{"id": "C213", "title": "Agents that plan and sample in floating point act without errors and move legally", "statement": "An agent that plans with value iteration and chooses by softmax, both with rounding after every operation, can be fitted on every grid. From then on stepping it never raises, and it only moves from a state to one that a possible action leads to, whatever is drawn and whatever other calls are made that leave its plan, its position and the walls alone. In double precision this holds with the default settings and temperatures from 1e-10.", "quantifier": "every environment on a grid, agent, temperature, and sequence of calls and draws", "why_tests_cant": "All grids and walks, with rounding in every operation of the planner and the selector.", "anchors": ["maMDP/algorithms/dynamic_programming.py:ValueIteration._fit", "maMDP/algorithms/action_selection.py:SoftmaxActionSelector._get_pi", "maMDP/algorithms/action_selection.py:softmax", "maMDP/environments.py:Environment.fit", "maMDP/environments.py:Environment.step"]}
{"id": "C214", "title": "Policy learning is accurate in floating point", "statement": "With rounding after every operation, the action values a policy learner reports stay between 0 and 1 over any sequence of fits and resets, if they start there. Without decay they differ from the exact weighted average of what was observed by at most a fixed small multiple of the unit roundoff divided by the learning rate, however many observations there are; with decay the difference grows at most with the square of the number of observations. Rounding never changes whether a fit succeeds, nor which exception it raises. In double precision with the default learning rate and no decay the difference is at most 2e-15.", "quantifier": "every learning rate up to one, decay, initial values, kernel setting and sequence of fits and resets", "why_tests_cant": "All trajectories of all lengths, with rounding in every operation: errors could accumulate or push an estimate above one.", "anchors": ["maMDP/algorithms/policy_learning.py:TDGeneralPolicyLearner.fit", "maMDP/algorithms/policy_learning.py:TDGeneralPolicyLearner._fit_TD_policy", "maMDP/algorithms/policy_learning.py:TDGeneralPolicyLearner.reset", "maMDP/algorithms/policy_learning.py:degdist", "maMDP/algorithms/policy_learning.py:deg_sq_exp_kernel"]}
{"id": "C215", "title": "The first reset of a learner restores its initial estimate", "statement": "If a policy learner, a maximum-entropy learner or a hypothesis-testing learner was given an initial estimate, then after any number of fits the first reset makes it report the estimate it was given (for maximum-entropy inference the learning rate is the configured one again).", "quantifier": "every setting, initial estimate and sequence of fits before the reset", "why_tests_cant": "All histories of fits; arrays may be shared between the estimate in use and the stored one.", "anchors": ["maMDP/algorithms/policy_learning.py:TDGeneralPolicyLearner.reset", "maMDP/algorithms/irl.py:MaxCausalEntIRL.reset", "maMDP/algorithms/irl.py:HyptestIRL.reset"]}
{"id": "C216", "title": "A failed fit of value iteration keeps the earlier plan", "statement": "If fitting an agent fails and its algorithm does not discard its result before planning, the environment is exactly as before the call: plan, policy, positions, records. Value iteration is such an algorithm.", "quantifier": "every reachable environment, agent, schedule and failing fit", "why_tests_cant": "All histories and all ways of failing.", "anchors": ["maMDP/environments.py:Environment.fit", "maMDP/agents.py:Agent.fit", "maMDP/algorithms/dynamic_programming.py:ValueIteration._fit"]}
{"id": "C217", "title": "Keeping the search cache is harmless while the problem stays the same", "statement": "If other agents want ordinary features only and each agent consumes at most one feature, a tree search that keeps its cache of opponents' values from earlier fits gives exactly the plan (or exception) it would give with an empty cache, as long as transitions, ordinary features and reward functions are as when the cache was begun. This is so after any number of fits, position changes and other calls that change none of these.", "quantifier": "every environment, cache built by any earlier fits, and draws", "why_tests_cant": "All histories of fits and all random draws.", "anchors": ["maMDP/algorithms/mcts.py:MCTS._fit", "maMDP/algorithms/mcts.py:run_mcts", "maMDP/algorithms/mcts.py:mcts_iteration"]}
{"id": "C218", "title": "Multiplying rewards is the same as dividing the tolerance", "statement": "Value iteration with all rewards multiplied by a positive number gives the multiplied values and action values of value iteration with the tolerance divided by that number, and fails exactly when that fails, with the same exception.", "quantifier": "every reward function, transition table, discount, tolerance, iteration limit and positive factor", "why_tests_cant": "All problems and factors.", "anchors": ["maMDP/algorithms/dynamic_programming.py:solve_value_iteration", "maMDP/algorithms/dynamic_programming.py:state_value_iterator"]}
{"id": "C219", "title": "Line-of-sight difference with staying compares the chosen direction with all others", "statement": "On a grid where agents may stay, for trajectories that never stay, the line-of-sight difference of a feature is the sum over all moves of what is seen in the chosen direction minus what is seen in the other directions on average, where a direction sees the states on its ray up to the first wall or border.", "quantifier": "every grid with staying, walls, trajectories and feature", "why_tests_cant": "All grids, wall layouts and trajectories.", "anchors": ["maMDP/algorithms/irl.py:SimpleActionFeatureDiffIRL.fit", "maMDP/algorithms/irl.py:get_trajectory_eyeline_features_diff"]}
{"id": "C220", "title": "When hypothesis testing gives a number", "statement": "After a successful fit a feature's weight is a number exactly if its initial weight was one and every single move of every trajectory gave evidence that is a number for this feature.", "quantifier": "every setting, MDPs, trajectories and feature", "why_tests_cant": "All trajectories: one move without evidence spoils the weight for good.", "anchors": ["maMDP/algorithms/irl.py:HyptestIRL.fit"]}
{"id": "C221", "title": "What tree search reports for an action", "statement": "The value tree search reports for a possible action from the planning agent's state is 0 if its next state was never visited, and otherwise the average total reward of the visits to that state, times N/(N+1) for N visits; it differs from the average by the average divided by N+1.", "quantifier": "every environment, agent, settings, schedule and draws", "why_tests_cant": "All searches and random draws.", "anchors": ["maMDP/algorithms/mcts.py:MCTS._fit", "maMDP/algorithms/mcts.py:run_mcts"]}
{"id": "C222", "title": "Tree search can be fitted with the schedule of the agents' own moves", "statement": "Fitting tree search with a schedule listing the moves of the agents it considers succeeds without caching, if every considered agent stands where it can do something and has moves, and opponents to be simulated want something.", "quantifier": "every environment, agent, settings and draws", "why_tests_cant": "All environments and random draws.", "anchors": ["maMDP/algorithms/mcts.py:MCTS._fit", "maMDP/environments.py:Environment.fit"]}
{"id": "C223", "title": "Line-of-sight fitting with reset starts afresh", "statement": "Fitting with reset gives the estimate a new learner gives, whatever was fitted before, failed fits included. From then on arrays that existed before never change, whatever is fitted later.", "quantifier": "every learner history, MDPs and trajectories", "why_tests_cant": "All histories of fits, with arrays shared between caller and learner.", "anchors": ["maMDP/algorithms/irl.py:SimpleActionIRL.fit", "maMDP/algorithms/irl.py:SimpleActionFeatureDiffIRL.fit"]}
{"id": "C224", "title": "Action values handed out before the first reset of a policy learner stay", "statement": "The action values a policy learner handed out before its first reset keep the numbers they had at that reset, whatever is fitted or reset afterwards.", "quantifier": "every setting, fits before the reset and calls after it", "why_tests_cant": "All histories, with arrays shared between caller and learner.", "anchors": ["maMDP/algorithms/policy_learning.py:TDGeneralPolicyLearner.get_q_values", "maMDP/algorithms/policy_learning.py:TDGeneralPolicyLearner.reset", "maMDP/algorithms/policy_learning.py:TDGeneralPolicyLearner.fit"]}
{"id": "C225", "title": "Features can be replaced by a table that marks the agents", "statement": "If agents consume ordinary features only, assigning a feature table of the right size in which each agent's row marks its state succeeds, changes nothing but the features, and afterwards each agent's row marks exactly its state after any sequence of calls (with resets, if the agents stood at their starting places).", "quantifier": "every reachable environment, table and sequence of later calls", "why_tests_cant": "All histories before and after the assignment.", "anchors": ["maMDP/mdp.py:MDP.features", "maMDP/environments.py:Environment.step", "maMDP/environments.py:Environment.reset"]}
{"id": "C226", "title": "Maximum-entropy inference rests exactly where the counts match", "statement": "An iteration of maximum-entropy inference leaves the weights as they are exactly if the observed feature expectations equal the expected ones under these weights.", "quantifier": "every setting, MDP, trajectories and iteration", "why_tests_cant": "All problems and all iterations.", "anchors": ["maMDP/algorithms/irl.py:MaxCausalEntIRL._solve_maxcausalent"]}
{"id": "C227", "title": "Tree search takes the best successor once all were visited", "statement": "At a node that was visited, if all successors were visited, the tree policy takes a successor whose upper-confidence score is largest. If some successor was not visited it takes such a one.", "quantifier": "every values, visit counts, successors, exploration constant and draw", "why_tests_cant": "All search states and random draws.", "anchors": ["maMDP/algorithms/mcts.py:MCTS_next_node"]}
{"id": "C228", "title": "What the successor representation depends on", "statement": "The successor representation depends only on the first possible outcome of each action and on which actions are possible. Where every action is possible in the next state of a move, the value of the move is the reward of the state plus the discounted mean of the next state's values.", "quantifier": "every transition table, discount, reward function and features", "why_tests_cant": "All tables and sizes.", "anchors": ["maMDP/algorithms/successor_representation.py:get_sa_sr", "maMDP/algorithms/successor_representation.py:get_sr_q_values"]}
{"id": "C229", "title": "What saving a hex environment keeps", "statement": "Saving to a dictionary and loading gives an environment with the same grid, walls, agents and positions in which every nonzero feature value is 1 and rewards are truncated towards zero. With whole rewards, saving to JSON and loading gives one with all ordinary features zero and everything else kept.", "quantifier": "every hex environment with known algorithms and distinct feature names", "why_tests_cant": "All environments and histories before saving.", "anchors": ["maMDP/env_io.py:hex_env_to_dict", "maMDP/env_io.py:hex_environment_from_dict", "maMDP/env_io.py:hex_env_to_json", "maMDP/env_io.py:hex_environment_from_json"]}
{"id": "C230", "title": "Runs whose draws do not matter repeat after a reset", "statement": "If draws have no influence, agents are fitted before they act and no walls were assigned, then after any run and a reset a program gives the same answers as on the new environment.", "quantifier": "every environment, earlier run, states of the generators and later program", "why_tests_cant": "All histories and generator states.", "anchors": ["maMDP/environments.py:Environment.reset", "maMDP/environments.py:Environment.step", "maMDP/algorithms/action_selection.py:MaxActionSelector"]}
{"id": "C231", "title": "The published adjacency matrix is that of the grid without walls", "statement": "After any sequence of wall changes the adjacency matrix has a one exactly where an action leads from one state to the other on the grid without walls. Between states that are not walls it agrees with the adjacency query, and the query never reports neighbours the matrix does not have.", "quantifier": "every grid, walls and sequence of wall changes", "why_tests_cant": "All grids and histories of wall changes.", "anchors": ["maMDP/mdp.py:MDP.adjacency", "maMDP/mdp.py:MDP.is_adjacent", "maMDP/mdp.py:MDP.walls"]}
{"id": "C232", "title": "Re-fitting multi-step within one turn only fails if a fit or a step fails", "statement": "If a multi-step call that refits asks for at most one turn of moves, all agents have moves and the schedule is well formed, the only exceptions it raises are those of an ordinary fit or step it makes in a state reached by ordinary calls.", "quantifier": "every environment, number of steps within a turn, schedule and draws", "why_tests_cant": "All environments and draws.", "anchors": ["maMDP/environments.py:Environment.step_multi"]}
{"id": "C233", "title": "One agent per name", "statement": "A new environment has exactly one agent for every name given, made from one of the agents given with that name, and no agent consumes a feature number beyond the number of features, whatever is done later.", "quantifier": "every MDP and list of agents, and every history for the consumed features", "why_tests_cant": "All lists of agents, with repeated names.", "anchors": ["maMDP/environments.py:Environment.__init__", "maMDP/agents.py:Agent"]}
{"id": "C234", "title": "Square layers are as opaque as there is of a feature", "statement": "Plotting a square grid draws one layer for each ordinary feature in its colour and one layer of walls. At the point where a state is, a feature's layer is as opaque as there is of the feature, limited to the range from 0 to 1, times the opacity of the layer (one half unless given); the wall layer is fully opaque on walls and invisible elsewhere. With fewer colours or opacities than features plotting raises IndexError.", "quantifier": "every reachable environment on a grid, colours, opacities and state", "why_tests_cant": "All histories, feature values, shapes, colours and opacities.", "anchors": ["maMDP/mdp.py:SquareGridMDP.plot", "maMDP/plotting.py:plot_grids"]}
{"id": "C235", "title": "Grid lines of plotted layers lie between the cells", "statement": "The image of each layer of a square grid has one column for each column of the grid and one row for each row, and grid lines are drawn exactly at the edges of these cells, for both axes.", "quantifier": "every grid shape and layer", "why_tests_cant": "All shapes.", "anchors": ["maMDP/plotting.py:plot_grids"]}
{"id": "C236", "title": "Grid lines of plotted state values lie between the cells", "statement": "In a plot of state values of a square grid the grid lines are drawn exactly at the edges of the cells of the image.", "quantifier": "every grid shape and values", "why_tests_cant": "All shapes: unit tests use square ones, where it holds.", "anchors": ["maMDP/plotting.py:plot_grid_values", "maMDP/mdp.py:SquareGridMDP.plot_state_values"]}
{"id": "C237", "title": "All of a hex grid is visible", "statement": "The limits of the axes of a plotted hex grid include every point of every hexagon drawn.", "quantifier": "every radius, shape, hidden cells and values", "why_tests_cant": "All shapes and choices of hidden cells.", "anchors": ["maMDP/plotting.py:plot_hex_grids"]}
{"id": "C238", "title": "Plots of an agent's state values show the latest plan", "statement": "After an agent was fitted, and any calls that neither fit it again nor reset the environment, plotting its state values shows one value for each state, that of the latest plan: on a hex grid at the position of the state and nothing elsewhere, on a square grid with columns and rows exchanged. For an unknown name it raises ValueError, and before the first fit AttributeError.", "quantifier": "every reachable environment, agent, fit and sequence of calls", "why_tests_cant": "All histories of calls.", "anchors": ["maMDP/environments.py:Environment.plot_state_values", "maMDP/mdp.py:SquareGridMDP.plot_state_values", "maMDP/mdp.py:HexGridMDP.plot_state_values"]}
{"id": "C239", "title": "A reset makes runs repeat if plans leave no choice", "statement": "If no plan leaves an agent a choice (no state has two best actions), a reset makes runs repeat: whatever was done before it, and whatever the random generators have become, the same calls get the answers they got in the new environment, provided agents are fitted before they act and walls are not assigned. For agents planning with value iteration and wanting ordinary features nobody consumes it is enough that the plans made in the new environment have no ties.", "quantifier": "every environment, sequence of calls before and after the reset, and states of the generators", "why_tests_cant": "All histories and all draws.", "anchors": ["maMDP/environments.py:Environment.reset", "maMDP/algorithms/action_selection.py:MaxActionSelector", "maMDP/algorithms/action_selection.py:random_max"]}
{"id": "C240", "title": "Tree search in floating point runs to its end", "statement": "With every arithmetic operation rounded as in floating point, and under the same conditions as in exact arithmetic (the agents considered can move, the schedule is playable, opponents want something), fitting a tree-search agent completes whatever the tree policy scores and whatever is drawn, the values reported are the rounded means of the statistics gathered and lie at the agent's state only, and the agent's next step succeeds along a possible transition. Opponents simulated by greedy or softmax choice only ever take possible actions; in double precision with up to seven actions this holds for softmax at temperatures of at least 1e-10 and draws below 1 - 1e-13.", "quantifier": "every rounding with bounded relative and absolute error, reachable environment, search configuration, schedule and sequence of draws", "why_tests_cant": "All roundings, environments and draws.", "anchors": ["maMDP/algorithms/mcts.py:run_mcts", "maMDP/algorithms/mcts.py:mcts_iteration", "maMDP/algorithms/mcts.py:MCTS_next_node", "maMDP/algorithms/mcts.py:get_opponent_next_state", "maMDP/algorithms/mcts.py:rand_choice_nb"]}
{"id": "C241", "title": "Tree search in floating point reports accurate values", "statement": "With every arithmetic operation rounded, the states visited in each iteration of a tree search form a walk from the agent's state, visits are counted exactly while whole numbers are represented exactly, the accumulated value of a state differs from the sum of the rewards of the iterations through it by a bounded rounding error, and so does the value reported for an action from that sum divided by one more than the number of visits. In double precision, up to a million visits, the reported value is correct to one part in 10^9 of the mean absolute reward (and 10^-20).", "quantifier": "every rounding with bounded relative and absolute error, reachable environment, search configuration, schedule, sequence of draws and number of iterations", "why_tests_cant": "All roundings, environments, draws and numbers of iterations.", "anchors": ["maMDP/algorithms/mcts.py:run_mcts", "maMDP/algorithms/mcts.py:mcts_iteration", "maMDP/algorithms/mcts.py:get_MCTS_action_values"]}
{"id": "C242", "title": "Value iteration in floating point does not overflow", "statement": "Value iteration, with every operation rounded as in floating point, never produces a number (reward, action value, state value, change of value) larger than about twice the largest value the weights and discount allow. So arithmetic that goes wrong beyond some larger size, in whatever way, gives exactly the same values, action values and errors, for every number of sweeps and tolerance. In double precision with the default discount and up to 1000 features this holds whenever the sizes of the weights of each state's features sum to at most 1e300.", "quantifier": "every rounding with bounded relative and absolute error, every arithmetic that agrees with it up to a size, environment with certain transitions, reward function, tolerance and number of sweeps", "why_tests_cant": "All environments, weights and numbers of sweeps; what happens beyond the largest number is arbitrary.", "anchors": ["maMDP/algorithms/dynamic_programming.py:solve_value_iteration", "maMDP/algorithms/dynamic_programming.py:state_value_iterator", "maMDP/algorithms/dynamic_programming.py:ValueIteration"]}
{"id": "C243", "title": "Value iteration with IEEE 754 numbers gives finite, accurate values", "statement": "Value iteration carried out on IEEE 754 double precision numbers, bit by bit and with signed zeros, infinities and NaN, never meets an infinity or NaN as long as the transitions are certain, all numbers given are finite and the weights leave room below the largest number (1e300 per state with the default discount and up to 1000 features). It raises the errors, and reports the values and action values, of arithmetic on rounded real numbers. Grids made from such numbers, also after walls were set, added or removed, are the grids made from the real numbers they stand for. With the default settings and weights of up to 1000 per state, all values and action values of possible actions are finite and within 1e-7 of the exact solution, and those of impossible actions are minus infinity.", "quantifier": "every grid, feature table, wall array, reward function, tolerance and number of sweeps, given as double precision numbers", "why_tests_cant": "All numbers of double precision and all grids; signed zeros, overflow and NaN at any step.", "anchors": ["maMDP/algorithms/dynamic_programming.py:solve_value_iteration", "maMDP/algorithms/dynamic_programming.py:state_value_iterator", "maMDP/algorithms/dynamic_programming.py:delta_update", "maMDP/algorithms/dynamic_programming.py:ValueIteration", "maMDP/mdp.py:GridMDP"]}
{"id": "C244", "title": "Agents that plan with IEEE 754 numbers walk the shortest way to a goal", "statement": "Build a grid and an environment from finite IEEE 754 double precision numbers, let the agents plan by value iteration with discount 0.9 and choose greedily, and make any calls of fit, step, step_multi, step_multi_interactive, set_agent_position, reset and the setter of the walls. The environment then shows the same positions, histories, consumed features, policies, action values, features and transitions as one over real numbers whose agents plan with rounding, and every next call returns the same or raises the same error. Planning never fails. With the default settings an agent whose only rewarded state is at most 100 moves away, with a reward of at least 1, reaches it along a shortest path.", "quantifier": "every grid, environment, sequence of calls (without step_proba) and seed, with features of size up to F >= 1 and up to 1000 weights whose sizes times F sum to at most 1e300", "why_tests_cant": "All histories over all double precision inputs; planning, greedy choice and movement must agree at every step.", "anchors": ["maMDP/algorithms/dynamic_programming.py:ValueIteration", "maMDP/algorithms/dynamic_programming.py:solve_value_iteration", "maMDP/algorithms/action_selection.py:MaxActionSelector", "maMDP/environments.py:Environment.fit", "maMDP/environments.py:Environment.step", "maMDP/environments.py:Environment.step_multi", "maMDP/environments.py:Environment.reset", "maMDP/mdp.py:GridMDP"]}
{"id": "C245", "title": "Tree search with IEEE 754 numbers does not overflow and reports accurate values", "statement": "Fit an agent by tree search with IEEE 754 double precision numbers, from features, reward weights and a cost of size at most 2^100, with at most 2^50 features and scheduled moves and fewer than 2^25 agents. Whatever is drawn and whatever the tree policy scores, every value of the result is a finite number and every action value is finite or NaN; visits are counted exactly while iterations times moves stay below 2^53 - 1; and the value of every action possible where the agent stands is the total reward of the iterations through the state the action leads to, divided by one more than the number of visits, correct to nine digits (of the mean size) for up to a million visits.", "quantifier": "every environment, agent, schedule, configuration, tree policy, sequence of draws and number of iterations, with inputs of the sizes given", "why_tests_cant": "Rounding and overflow depend on all numbers and on the order of an unbounded number of additions.", "anchors": ["maMDP/algorithms/mcts.py:run_mcts", "maMDP/algorithms/mcts.py:mcts_iteration", "maMDP/algorithms/mcts.py:get_MCTS_action_values", "maMDP/algorithms/mcts.py:MCTS._fit"]}
{"id": "C246", "title": "Policy learning with IEEE 754 numbers stays between zero and one", "statement": "A policy learner (without the kernel) that calculates with IEEE 754 double precision numbers, made with a finite learning rate of at most one, decay factors between zero and one if it decays, and initial action values between zero and one, reports only finite action values between zero and one, after any calls of fit and reset, whether they raise or not: nothing overflows or becomes NaN. Without decay, the values after a fit differ from those calculated with exact numbers by at most 5e-16 divided by the learning rate; with a decaying rate, by at most n * 5e-16 + n^2 * 3e-16 after n observations, if powers are rounded correctly. With the default learning rate of 0.3 and no decay, a new learner that is fitted reports for every action the sum over its observations of 0.3 * 0.7^(number of later observations), off by at most 2e-15, however many observations there are.", "quantifier": "every learning rate, decay, initial values and sequence of calls (range); every MDP with finite transition probabilities and every list of trajectories (accuracy)", "why_tests_cant": "Rounding errors accumulate over an unbounded number of observations, and any of the infinitely many histories could step out of the range.", "anchors": ["maMDP/algorithms/policy_learning.py:TDGeneralPolicyLearner.fit", "maMDP/algorithms/policy_learning.py:TDGeneralPolicyLearner._fit_TD_policy", "maMDP/algorithms/policy_learning.py:TDGeneralPolicyLearner.reset"]}
{"id": "C247", "title": "Greedy selection with IEEE 754 numbers picks a best action and gives equal shares", "statement": "Give the greedy action selector action values that are IEEE 754 double precision numbers (finite, infinite or NaN; at least one action, at most a billion, and some known value). It does not fail. In every state with a known value that does not mix the two infinities, the sampled action has the greatest value of all, as a real number, whatever is drawn. The probabilities it reports are finite numbers: zero for every other action and 1/k, correct to fifteen digits, for each of the k best ones; and they add up to one to fifteen digits.", "quantifier": "every array of action values with these sizes, every state and all draws", "why_tests_cant": "Equality of maxima, signed zeros and rounded shares depend on the exact bits of infinitely many arrays.", "anchors": ["maMDP/algorithms/action_selection.py:MaxActionSelector", "maMDP/algorithms/action_selection.py:ActionSelector.get_pi", "maMDP/algorithms/action_selection.py:ActionSelector.get_pi_p"]}
{"id": "C248", "title": "A greedy tree search agent with IEEE 754 numbers takes a possible action of greatest value", "statement": "Fit an agent by tree search with IEEE 754 double precision numbers, with inputs of the sizes of C245, and let the greedy selector choose from the action values. If any action is possible where the agent stands, the selector does not fail, and its choice for that state is an action that is possible there, with a finite value, and no possible action has a greater value - whatever is drawn during the search and for the choice, and whatever the tree policy scores. On a deterministic MDP (finite transition probabilities, none negative) the next state for this choice exists and is one the action can lead to.", "quantifier": "every environment, agent, schedule, configuration, tree policy, all draws of the search and of the selector, with inputs of the sizes given", "why_tests_cant": "Infinitely many combinations of draws and rounding errors decide which action gets which value, and NaN marks the other actions and states.", "anchors": ["maMDP/algorithms/mcts.py:MCTS._fit", "maMDP/algorithms/mcts.py:get_MCTS_action_values", "maMDP/algorithms/action_selection.py:MaxActionSelector", "maMDP/algorithms/action_selection.py:ActionSelector.get_pi", "maMDP/mdp.py:MDP.get_next_state"]}
{"id": "C249", "title": "Questions about an MDP with IEEE 754 numbers are answered exactly", "statement": "Take an MDP whose transition probabilities are finite IEEE 754 double precision numbers. Turning a trajectory or a pair of states into actions, asking whether two states are adjacent, which actions are valid in a state and where an action leads gives exactly the answer, or the error, that follows from the real numbers the probabilities stand for: rounding and signed zeros have no influence.", "quantifier": "every such MDP, all trajectories, states and actions, in and out of range", "why_tests_cant": "There are infinitely many MDPs, and a signed zero or the smallest subnormal number in one entry could change an answer.", "anchors": ["maMDP/mdp.py:MDP._trajectory_to_state_action", "maMDP/mdp.py:MDP._state_pair_to_action", "maMDP/mdp.py:MDP.is_adjacent", "maMDP/mdp.py:MDP.state_valid_actions", "maMDP/mdp.py:MDP.get_next_state"]}
