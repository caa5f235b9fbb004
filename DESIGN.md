# Formal model of maMDP (tobywise/multi_agent_mdp) in Rocq

Everything is in `rocq/theories` (logical name `Verif`). `properties.jsonl` lists the
properties in English, `MANIFEST.json` maps each one to its theorems, `seeded/LOG.jsonl` records
the wrong programs the theorems were tested against.

This file is generated by `tools/design.py`; the properties by `tools/props.py`, the manifest by
`tools/manifest.py`, the table of axioms by `tools/assumptions.py`.

## 1. How the code is modelled

* **Functions.** Every Python function is a total, executable Gallina function with the same
  control flow. Loops over ranges are folds over `seq`; `while` loops take fuel and running out of
  fuel is the explicit outcome `Err Diverges`, so that termination is itself a theorem.
* **Exceptions** are values: `res A := Ok a | Err e` with one constructor per Python exception class.
  Methods that can raise *after* having changed something return the changed state together with the
  `res`, so partial effects are visible.
* **Numbers.** Floating point is idealised, except for value iteration, softmax and policy learning in C206 to C214 (see section 5): arrays hold elements of a type with a `Num` record
  (0, 1, +, -, *, /, <, =, injection of integers). Theorems are about the instance over `R`
  (or generic in it); the instance over `Q` makes the same definitions executable, and the
  concrete examples and counter-examples are evaluated there by `vm_compute`. NaN and the
  infinities, which the code uses as markers, are explicit: `fval A := NaN | NInf | PInf | Fin a`.
* **Arrays** are nested lists; in-range reads are `nth`, writes are `upd`. Indices that come from the
  user follow Python's rules (negative wrap-around, IndexError). Where the identity of an array
  matters (learners that hand out or keep their own array) arrays live in an explicit heap.
* **Randomness** is a draw passed as an argument (a natural number for "choose one of these", a real
  in [0,1) for inverse-CDF sampling). Theorems quantify over all draws. Where it matters which generator is
  drawn from (C136–C139), the generators are part of the state.
* **Plug-ins.** An agent's algorithm and action selector are parameters of the environment model, so the
  environment theorems hold for every algorithm and selector, and are then instantiated with
  value iteration, the null algorithm, tree search, greedy and softmax selection. A flag per agent says whether
  its algorithm discards the earlier result before planning (`pl_forgets`; tree search does).

## 2. File layout

`*Model.v` definitions only, each with a comment citing file and lines in /repo;
`*Spec.v` small specifications (no reference to the model's helpers);
`*Proofs.v` lemmas; `*Props.v` (and the files named after a topic) the property theorems, with
concrete examples meeting their hypotheses.

| files | code |
|---|---|
| `PyBase`, `PyProofs`, `RSum`, `LinProofs` | Python and numpy primitives; sums, matrices |
| `Grid*` | grid_utils.py, grid helpers of mdp.py |
| `MDP*` | mdp.py: `MDP`, `GridMDP`, `HexGridMDP`, `SquareGridMDP` |
| `Action*`, `Softmax*` | algorithms/action_selection.py |
| `Env*`, `Step*`, `Plan*`, `Proba*` | environments.py, agents.py, algorithms/base.py |
| `VI*`, `Goal*` | algorithms/dynamic_programming.py |
| `MCTS*` | algorithms/mcts.py |
| `SR*` | algorithms/successor_representation.py |
| `PL*`, `TDObj*` | algorithms/policy_learning.py |
| `IRL*`, `Hyp*`, `Sight*` | algorithms/irl.py |
| `Plot*` | plotting.py and the plotting methods of mdp.py, agents.py, environments.py |
| `IO*` | env_io.py |
| `Query*`, `Hist*` | queries of environments.py; position histories as list objects |
| `Set*` | assigning an agent's `algorithm`, `reward_function`, `consumes`, `n_moves` and the MDP's `features` while an environment is in use |
| `Rng*` | the random number generators behind action_selection.py and mcts.py: who draws from which |
| `Again*` | an environment after a reset, compared with a new one |
| `World*` | several MDPs, environments and agents at once: which objects and arrays they share |

## 3. Approach per group of properties

| ids | what is modelled | how it is proved |
|---|---|---|
| C01–C04 | coordinates, distances, adjacency, directions | div/mod arithmetic, parity case analysis, walks as an inductive relation |
| C05–C09, C58–C60 | construction, walls, transition functions | loop invariants, induction over histories of calls |
| C10–C12 | trajectories, travel times, walls | induction on trajectories and distance |
| C13–C24, C62–C66 | the environment as a transition system | inductive invariants over all sequences of calls |
| C25–C28, C61 | action selection, sampling | list lemmas, real analysis for exp |
| C29–C32, C67–C69 | value iteration | contraction in the sup norm, completeness of R |
| C33, C34, C68 | stepping of fitted agents | composition of environment and solver |
| C35–C44, C70–C74 | tree search | invariants of the iteration loop with fuel |
| C45, C75–C77 | successor representation | correctness of elimination, sup-norm argument for invertibility |
| C46–C50, C78–C82 | policy learning | real arithmetic, induction over observations |
| C51–C55, C83–C89 | inverse reinforcement learning | induction over iterations; induction along rays of the grid |
| C85, C86, C90–C96 | hypothesis testing | induction over observations; heap of arrays |
| C57, C97–C101 | plotting | parity case analysis over R |
| C56, C102–C105 | saving and loading | composition of the two conversions |
| C106–C110 | sharing of arrays, MDPs and agents | a world of objects with identity; invariant of ownership over all histories |
| C113, C114 | queries about plans, and the steps that follow | facts about one agent kept by every call, by induction over histories |
| C115 | the list object of a position history | histories in a heap of lists; simulation by the plain model |
| C116-C118 | assignments to an agent's algorithm and to the features | commutation of the assignment with every call for other agents; knowledge about one agent kept by calls; invariants of environments |
| C119 | a planned agent walking through any calls | greedy moves lose little per step; discounted sum along the position history by induction |
| C129, C130 | the same, with a single goal | optimal values are a geometric function of the distance; an approximate plan keeps the order |
| C131–C134 | assignments to an agent's other attributes | commutation of the assignment with every call; invariants of environments |
| C135, C139 | a reset, compared with a new environment | simulation up to consumption and step counts; two runs in lockstep |
| C136–C138 | the generators as part of the state | simulation of runs whose generators differ; projection on one agent's calls |
| C140 | the null algorithm | composition of environment, algorithm and selection |
| C141 | value iteration under two reward functions; any sequence of calls | rewards determine the run; invariant: the feature's row is never touched |
| C142, C143 | value iteration and selectors with multiplied rewards | simulation, sweep by sweep; counterexample |
| C144, C145 | best values and fitted values under larger rewards and more walls | contraction argument; error bound of C29; counterexample |
| C146 | values of a tree search without interaction | values are totals over visits (C36), each iteration's reward is what its walk pays (C40) and walks have the scheduled length; weighted-average argument |
| C147 | arrays as objects in memory (HeapModel.v), `get_pi`, `get_pi_p`, `get_policy` | copy and in-place writes tracked through any selector that writes only to what it is given or creates; the library selectors agree with ActionModel.v |
| C148 | `solve_value_iteration` (VIAnytime.v) | invariant of the in-place sweeps: values stay in the interval; any invariant of single updates carries over to the solver (`solver_kept`) |
| C149 | `solve_value_iteration` | invariant "no update lowers a value", and below the fixed point; induction over sweeps, with the smaller tolerance stopping later |
| C150 | `solve_value_iteration` | contraction argument of C144 with the discount as the varying part |
| C151 | `solve_value_iteration`, grids with walls | contraction argument restricted to the states reachable with positive probability |
| C152 | grids, walls, `state_valid_actions`, `get_next_state` (JourneyProps.v) | the opposite action undoes a move (C04); induction over the path |
| C153 | `get_opponent_next_state` (MCTSOpp.v) | the Gibbs form of softmax (C27) and inversion sampling (C28) applied to the masked values (C30); the assertion holds because the most probable outcome has positive probability |
| C154 | `fit_matching`, `trajectory_eyeline`, `trajectory_eyeline_diff`, `fit_simple` (IRLOrder.v) | the steps of the loops commute; a fold of commuting steps does not depend on the order |
| C155 | `fit_maxent` (IRLOrder.v) | the expected counts depend on the first states only, so not on the order; the observed ones do (C52); one iteration shows the difference |
| C156 | softmax and greedy probabilities (SoftmaxLimit.v) | weights relative to the best value lie between 0 and 1; the total lies between the number of best actions and that plus n exp(-D/T) |
| C157 | `env_step` on schedules (Schedule.v) | a step without consumption is a function of the agent and the transitions, plus writes to the agent's own row and entry; such writes commute; schedules by bringing the first step of an agent to the front |
| C158 | `solve_value_iteration`, grids (VISymm.v) | an optimal value of the renamed problem, renamed back, is an optimal value; optimal values are unique; the symmetries of `edge` by cases on directions |
| C159 | `solve_value_iteration`, grids (VIShift.v) | the shifted optimal value satisfies the optimality equation of the shifted rewards; impossible actions count 0 and so matter only if something is punished |
| C160 | all learners (IRLFeat.v) | planning depends on the state rewards only (C141); sums, means and normalisation do not depend on order; induction over iterations, moves and trajectories |
| C161–C163 | line-of-sight learners as objects (SightModel.v, SightProps.v) | arrays in memory; induction over the loop of `fit` and over histories of calls |
| C164, C165 | policy learners as objects (TDObjModel.v, TDObjProps.v) | arrays with addresses and types in memory; simulation by PLModel; induction over histories of calls |
| C166 | environment and value iteration (VIFit.v) | invariant over all calls: the named agent's Q table has the grid's shape and only finite values or minus infinity |
| C167 | coordinate table of a grid, positions in environments (CoordProps.v) | index arithmetic; C16 for the marks |
| C185, C186 | colours and opacities of hexagonal layers (ShadeModel.v, ShadeProps.v) | C99 for the layers, C01 for the cells |
| C187–C189 | checks of argument types, planners without an agent (ArgModel.v, ArgProps.v) | case analysis on kinds of arguments, induction over the entries; totality of value iteration from VIFit.v |
| C190–C192 | saving, loading and resetting (IOModel.v, EnvModel.v; IOFresh.v) | the MDP read back is equal field by field and the entries read back are those the environment was made from; C18 applied to the loaded environment |
| C193, C194 | probabilistic steps of value-iteration agents (EnvModel.v; ProbaPlace.v) | totality of the loop over pairs; C33_last_write_partial with uniqueness of the action between neighbours |
| C195 | steps of agents with different tastes (EnvModel.v; Tastes.v) | a step writes only rows that concern the agent; adjacent steps commute; schedules by induction |
| C196 | failed constructions (EnvModel.v, MDPModel.v; FailProps.v) | the table grows by the accepted agents only; removing them gives the table without agents |
| C197–C201 | what holds of C26, C48, C52, C93, C49 (Flagged.v, Restated.v) | from the partial theorems of these properties |
| C202 | tree search without an agent (KindModel.v; KindProps.v) | induction on the calls; the matrix of C45 can always be inverted |
| C203, C204 | initial weights of other types (KindModel.v; KindProps.v) | case analysis up to the first update; refinement of fit_maxent and fit_hyptest |
| C205 | do_op and the queries (EnvModel.v; Own.v) | induction on the calls; sums of histories |
| C206 | solve_value_iteration on rounded numbers (`NumF`, RoundModel.v; Flocq for float64) | every backup is within an error of the exact one and the iteration contracts; bounds on all values met; for the defaults, numbers |
| C207 | agents planning in rounded arithmetic (RoundWalk.v) | the walks of C119 and C129, for any planner with a given accuracy |
| C208 | solve_value_iteration with the soft backup and an exponential that overflows (OverModel.v) | refuted: the value of the state becomes infinite in the second sweep at the latest |
| C209 | the same | invariant: all values stay below the bound, so no exponential overflows; numbers for float64 |
| C210 | rand_choice_nb on IEEE 754 double precision numbers (Coq.Floats.SpecFloat) | refuted: computed |
| C211 | rand_choice_nb and numpy's choice on rounded numbers | cumulative sums are monotone and strictly grow only at positive weights; error bound for the last one |
| C212 | softmax and the softmax choice on rounded numbers | error of every exponential, of their sum and of the quotients |
| C213 | agents with the rounded planner and the rounded softmax selector (SoftRoundWalk.v) | the walk invariant of C119 with C206 and C212 |
| C214 | the policy learner on rounded numbers (PLRoundModel.v) | the rounded learner runs beside the exact one; the distance is an invariant of update, fit and reset |
| C215–C233 | true variants of refuted properties as properties of their own | stated next to the theorem with the suffix `_partial` they repeat |
| C234–C237 | shading of square layers, grid lines, limits of the axes | opacities per state from C99; edges of cells as half-integers; bounds on the centres of hexagons |
| C238 | `Environment.plot_state_values` | invariant of the plan under all calls (as C113), then C98 |
| C239 | runs after a reset when no plan leaves a choice | invariant over all runs: every stored plan draws one policy; then C135 and the stability of plans (C141) |
| C240 | the search with each operation rounded, and the softmax selection of simulated opponents | invariants of the search loop over the rounded instance; error bounds of the rounded softmax (C212) |
| C241 | statistics and reported values of the rounded search | invariant of the search loop: counts and totals are folds of rounded additions over the visits; error bound for rounded sums (C206) |
| C242 | value iteration over two rounded instances that agree up to a size | equality of every intermediate result by induction over folds, sweeps and iterations, from bounds on partial sums |
| C243 | value iteration and grids over IEEE 754 binary64 numbers (Flocq) | simulation: each number stands for a real number, each operation for the rounded one, by induction over folds, sweeps and iterations; then C206 |
| C244 | environments, agents, greedy selection and value iteration over IEEE 754 binary64 numbers | simulation of every call by the environment over real numbers with rounding, with the sizes of features and weights as part of the relation; then C207 |
| C245 | run_mcts, mcts_iteration and MCTS._fit over IEEE 754 binary64 numbers | invariant of the iteration: the reward stays below 2 * moves * 2^250, a number of the format, so no sum is rounded beyond it; then induction over the iterations |
| C246 | TDGeneralPolicyLearner over IEEE 754 binary64 numbers | invariant: every stored number is finite and in [0,1] (one update keeps it there, by C214's lemma); accuracy by running the learner with rounded reals alongside |
| C247 | MaxActionSelector over IEEE 754 binary64 numbers | comparisons agree with those of the real numbers, so C25 gives the best actions; the share 1/k is rounded once |
| C248 | MCTS._fit followed by MaxActionSelector over IEEE 754 binary64 numbers | only possible actions get a value (from the code that fills the row); then C245 and C247 |
| C249 | trajectory_to_state_action, state_pair_to_action, is_adjacent, state_valid_actions, get_next_state over IEEE 754 binary64 numbers | the comparisons agree with those of the real numbers entry by entry; induction over the rows |
| C120, C121 | what tree searches try, and the values they report | the first move of an iteration; pigeonhole over iterations; the statistics of C36 |
| C122–C128 | the parts of C45, C56, C57, C98–C101 that hold | the theorems of those properties |
| C168–C184 | the parts of C39, C113, C114, C41 and C112, C55, C66, C87, C90, C80, C145, C31, C33, C107, C109, C117, C115, C137 that hold | the `_partial` theorems of those properties, restated without the suffix beside them |
| C111 | failing fits | case analysis on reachable environments |
| C112 | a tree search keeping its cache | simulation of searches with different caches; soundness of entries as invariant over all sequences of fits |

Every property could be expressed in the model. Where the code violates the property a user would rely
on, a theorem with suffix `_refuted` shows it (for a whole class of inputs, or by a concrete witness),
and the strongest true variant is proved next to it with suffix `_partial`; the property's status is then
"partial". Such properties are statements about the code as it is: they cannot be strengthened to
"proved" without changing /repo.

## 4. Trusted base

* Coq 8.16.1 kernel (and coqchk), `vm_compute` for the evaluation of closed examples.
* The standard library's axioms listed in section 7: those of the real numbers
  (`ClassicalDedekindReals.sig_forall_dec`, `ClassicalDedekindReals.sig_not_dec`), functional
  extensionality, and excluded middle where the library's exp, ln, sqrt or trigonometry is used. No other axioms.
* The reading of the Python code recorded in the model comments, and Python's and numpy's documented
  behaviour for the primitives in `PyBase.v` (indexing, slicing, argmax, where, argwhere, reshape, sum).

## 5. What is not modelled

* **Floating point.** Value iteration and agents that plan with it are also modelled with rounding after every operation (C206,
  C207: `RoundModel.v`), with sums added from left to right and without overflow. The overflow of the exponential in soft value iteration is
  modelled, without rounding, in `OverModel.v` (C208, C209). Random choices and softmax are modelled with rounding in
  `SoftRoundModel.v` (C210 to C213), policy learning in `PLRoundModel.v` (C214), tree search in `MCTSRoundModel.v`
  (C240, C241). That value iteration does not overflow is C242 (`OverRound.v`); grids and value iteration over IEEE 754 numbers, bit by bit, are in `IEEEModel.v` (C243), agents that plan with them in C244, tree search in C245, policy learning in C246 and greedy selection in C247. Elsewhere rounding, overflow and underflow are not modelled; NaN and infinities only where the code uses or
  produces them in exact arithmetic. Sampling is exact.
* **Identity of arrays and objects** is modelled for MDPs, environments and agents (`World*`, C106–C110) and for
  the learners' arrays (C50, C85, C86, C161–C165), position histories (C115) and what the action selectors read and write (C147), not elsewhere: the other models treat arrays as values. In `World*` the
  caller does not write into arrays or change attributes, makes MDPs from arrays of their own (not from the
  live table of another MDP), and an algorithm whose last construction failed is taken to be attached as before.
* **Plug-ins** are assumed not to modify the environment they are given. The library's own do not.
* **Tree search**: the unused successor representation in `_fit`,
  the dead function `solve_all_value_iteration`, numba's unchecked array bounds (the model raises IndexError).
* **np.linalg.inv** is modelled by Gaussian elimination with exact numbers.
* **Policy learning**: initial values given as Python lists; the parts of `TDPolicyIRL` behind its
  unconditional failure (C81).
* **IRL**: initial weights of the wrong length; `MaxCausalEntIRL` with a list of MDPs (fails with
  AttributeError); printing and progress bars.
* **Plotting**: colours (except which colour and opacity a layer gets), markers, sizes, rendering by matplotlib; images are at integer points as `imshow` documents.
* **Saving**: the text of JSON (numbers, lists and dictionaries survive it exactly); writing files.
* **Probabilistic stepping** from a position vector with total zero (0/0).
* `setup.py`, examples and notebooks.

Simplifications inside modelled functions are stated in the comment of the definition concerned.

## 6. Results

| id | property | status | theorems | remarks |
|---|---|---|---|---|
| C01 | State ids and grid coordinates are two names for the same cells | proved | `C01_state_roundtrip`, `C01_idx_roundtrip`, `C01_coordinate_table`, `C01_coordinates_of_holed_grid`, `C01_reshape`, `C01_features_as_grid` |  |
| C02 | Hex distance is the length of a shortest walk | proved | `C02_shortest_walk`, `C02_metric`, `C02_distance_matrix`, `C02_length_check_refuted` | The distance claim is proved. C02_length_check_refuted: the length assertion in cube_distance accepts a second argument of the wrong length (operator precedence). |
| C03 | Adjacency is exactly the geometric neighbourhood | proved | `C03_hex_adjacency`, `C03_square_adjacency`, `C03_symmetric_irreflexive`, `C03_neighbours_distinct` |  |
| C04 | Every adjacent pair has exactly one action and an action is a direction | proved | `C04_action_is_direction`, `C04_action_is_displacement`, `C04_opposite_action`, `C04_reverse_lookup` |  |
| C05 | Grid transition function is exactly the grid geometry | proved | `C05_construction`, `C05_transitions`, `C05_deterministic` |  |
| C06 | Walls block exactly the walled states | proved | `C06_walls_block_exactly`, `C06_history_independent`, `C06_acceptance`, `C06_frame` |  |
| C07 | Clearing walls restores the original dynamics; adding walls adds exactly the rectangle | proved | `C07_clear_restores`, `C07_add_wall`, `C07_documented_range_refuted` | Proved with half-open coordinate ranges. C07_documented_range_refuted: the docstring's closed range 2-5 is not what the code walls. |
| C08 | The published adjacency matrix agrees with the dynamics | partial | `C08_adjacency_refuted`, `C08_adjacency_partial` | REFUTED by C08_adjacency_refuted (adjacency is not recomputed when walls change); the strongest true variant is C08_adjacency_partial. |
| C09 | Transition functions are validated on assignment | proved | `C09_acceptance`, `C09_effect` |  |
| C10 | State trajectories and action sequences are inverse to each other | proved | `C10_roundtrip`, `C10_reject`, `C10_consistency` |  |
| C11 | Wall-free grids are connected and the hex/square distance is the travel time | proved | `C11_travel_time` |  |
| C12 | Moves never enter or leave a wall | proved | `C12_never_into_walls`, `C12_single_move`, `C12_invalid_action_teleports` |  |
| C13 | Consuming features removes exactly what it reports | proved | `C13_consume`, `C13_consume_again`, `C13_grid_tables` |  |
| C14 | Adding and removing agent features is lossless for ordinary features | proved | `C14_add`, `C14_move`, `C14_remove`, `C14_add_remove`, `C14_remove_without_agents_refuted` | Removal is lossless whenever there is at least one agent; C14_remove_without_agents_refuted shows the boundary case of zero agents, where every feature is dropped. |
| C15 | Feature consumption is conserved over any history | proved | `C15_conserved`, `C15_from_start` | For environments whose consumed features are valid indices; the other case is C62. |
| C16 | An agent's feature row marks its position and nothing else | proved | `C16_marks_only_position`, `C16_until_eaten`, `C16_renewed`, `C16_on_a_state`, `C16_one_hot`, `C16_bad_position_erases` | C16_until_eaten and C16_renewed: the mark is set by every move and stays until it is consumed. C16_bad_position_erases shows why positions below the index range are excluded. |
| C17 | Environment construction validates its agents | proved | `C17_accepts_iff`, `C17_rejects`, `C17_result` |  |
| C18 | Reset restores the starting state | proved | `C18_reset` | The history before the reset may contain resets, so a second reset is covered. |
| C19 | A step changes only what it should | proved | `C19_step`, `C19_rejects`, `C19_failed_step` | for every algorithm and action selector (they are parameters); C19_failed_step covers calls that raise |
| C20 | Position history is the walk the agent took | proved | `C20_history`, `C20_reported`, `C20_connected`, `C20_count` |  |
| C21 | Multi-step returns the visited positions and stops at a catch | proved | `C21_step_multi` | complete description of the call as rounds, including the rounds that raise |
| C22 | Re-fitting multi-step can take any number of steps | partial | `C22_beyond_one_turn_refuted`, `C22_within_one_turn_partial` | REFUTED by C22_beyond_one_turn_refuted: refitting on the step after a complete turn raises; within one turn it holds, C22_within_one_turn_partial. |
| C23 | Planning moves are distributed over turns greedily | proved | `C23_schedule`, `C23_rejected` | a negative total or non-positive number of turns raises; negative current moves are outside the property |
| C24 | Interactive multi-step moves the agents in turn order | partial | `C24_interactive_refuted` | REFUTED in general by C24_interactive_refuted: the interactive call never moves any agent. |
| C25 | Greedy selection is a uniform distribution over the best actions | proved | `C25_probabilities`, `C25_sampled_is_best`, `C25_best_can_be_sampled` |  |
| C26 | States without any known action value are flagged | partial | `C26_mixed_infinities_refuted`, `C26_flagged_states_partial`, `C26_flagged_probabilities_partial`, `C26_max_selector_partial`, `C26_all_nan_rejected` | REFUTED by C26_mixed_infinities_refuted: a state with both +inf and -inf is flagged although its values are known; the exact set of flagged states is in the _partial theorems. Stepping from a flagged state raises: see C19. |
| C27 | Softmax probabilities are the Gibbs distribution | proved | `C27_temperature`, `C27_gibbs`, `C27_uniform`, `C27_shift`, `C27_no_overflow`, `C27_sampled_is_possible` | Over the reals; floating-point rounding is not modelled. |
| C28 | Sampling follows the given probabilities | proved | `C28_interval`, `C28_zero_weight_never_drawn` |  |
| C29 | Value iteration converges to the unique optimal value function | proved | `C29_unique_solution`, `C29_sweep_contracts`, `C29_solver`, `C29_solution_bounded`, `C29_rejects`, `C29_grids` | C29_grids: every grid MDP meets the hypotheses |
| C30 | Solver Q values mask exactly the impossible actions | proved | `C30_mask`, `C30_policies` |  |
| C31 | Optimal values only count possible actions | partial | `C31_negative_refuted`, `C31_nonnegative_partial`, `C31_may_stop_partial`, `C31_solver_negative_refuted`, `C31_solver_nonnegative_partial`, `C31_solver_may_stop_partial` | REFUTED for negative rewards by C31_negative_refuted: impossible actions count with value 0. C31_nonnegative_partial: holds without negative rewards. C31_may_stop_partial: what the values mean in general. The C31_solver_ theorems say the same of the values the solver returns. |
| C32 | Soft value iteration bounds hard value iteration | proved | `C32_backup`, `C32_unique_solution`, `C32_sweep_contracts`, `C32_solver`, `C32_soft_above_hard` |  |
| C33 | Probabilistic stepping returns a probability distribution | partial | `C33_not_a_distribution_refuted`, `C33_certain_step_refuted`, `C33_last_write_partial`, `C33_distinct_partial` | REFUTED by C33_not_a_distribution_refuted: entries are assigned, not accumulated. C33_certain_step_refuted: even where the next step is certain all entries can be zero. C33_last_write_partial says what is returned; C33_distinct_partial proves the property when all possible state/action pairs lead to different states. |
| C34 | A fitted agent only moves to adjacent states | partial | `C34_teleport_refuted`, `C34_isolated_refuted`, `C34_stale_refuted`, `C34_possible_actions_partial`, `C68_value_iteration_moves` | REFUTED: with the Null algorithm and greedy selection an impossible action takes the agent to state 0 (C34_teleport_refuted); with value iteration this happens from a state without possible actions and after a change of walls. C34_possible_actions_partial: holds whenever the selector picks a possible action; C68_value_iteration_moves: holds for value iteration otherwise. |
| C35 | A tree-search iteration is a legal bounded walk | partial | `C35_interactive`, `C35_alone_partial`, `C35_alone_refuted` | REFUTED without interaction by C35_alone_refuted: if the first turn of the schedule has no moves but later turns have, the iteration never ends. C35_alone_partial: otherwise it holds; with interaction it always holds, C35_interactive. |
| C36 | Search statistics are exact | proved | `C36_statistics`, `C36_fit` | C36_fit: for the fit of an agent in any reachable environment. |
| C37 | Tree policy expands before exploiting | partial | `C37_expand`, `C37_simulate`, `C37_exploit_partial`, `C37_unvisited_refuted`, `C37_search_refuted` | REFUTED: if the current node has no visits the score is not a number and the first successor is taken (C37_unvisited_refuted); this happens in real searches (C37_search_refuted). C37_exploit_partial: holds when the current node has been visited. |
| C38 | Overlap resolution: who eats whom | proved | `C38_not_caught`, `C38_caught`, `C38_caught_iff` |  |
| C39 | An eaten agent is out of the game | partial | `C39_pays_repeatedly_refuted`, `C39_eaten_catches_refuted`, `C39_out_partial` | REFUTED twice: an eaten agent pays again at every overlap check while the primary agent stays on it, and an eaten predator still catches. The strongest true variant is C39_out_partial: once out, an agent stays out, never moves again and never consumes. |
| C40 | Consumed features pay once per search iteration | proved | `C40_never_created`, `C40_consumed`, `C40_collects`, `C40_reward_alone` | Includes the closed form of the simulated reward without interaction. |
| C41 | Caching opponent policies does not change results | partial | `C41_stale_values_refuted`, `C41_ordinary_partial` | REFUTED by C41_stale_values_refuted: the key lists only consumption of features and where the others are, so values computed when another agent's feature row marked a different state are reused. The strongest true variant is C41_ordinary_partial: the same outcome, exceptions included, if opponents care about ordinary features only and no agent consumes more than one feature. |
| C42 | Tree search yields values for the current state only | proved | `C42_values`, `C42_next_step`, `C42_stale`, `C42_second_step`, `C42_isolated` | For every grid environment, every score, settings, schedule and draws. |
| C43 | Agents with tree search can be fitted without a schedule | partial | `C43_without_schedule_refuted`, `C43_with_schedule_partial` | REFUTED by C43_without_schedule_refuted: fitting without a schedule raises TypeError in every environment. The strongest true variant is C43_with_schedule_partial: passing the agents' own moves explicitly works. |
| C44 | Agent information extraction is faithful | proved | `C44_agent_table`, `C44_accepted`, `C44_environment` | C44_environment: for the search made for an agent of any reachable environment. |
| C45 | Successor representation solves the uniform-policy Bellman equation | partial | `C45_never_fails`, `C45_in_tree_search`, `C45_all_possible_partial`, `C45_border_refuted` | The matrix is always invertible. REFUTED for next states with an impossible action (C45_border_refuted): such an action's own value is minus infinity. C45_all_possible_partial: the equation holds where everything is possible in the next state; C75 gives the equation in general. |
| C46 | Angular distance and generalisation kernel | proved | `C46_shortest`, `C46_range`, `C46_symmetric`, `C46_periodic`, `C46_zero_iff`, `C46_triangle`, `C46_kernel` |  |
| C47 | Policy learning is an exponential average of observed actions | proved | `C47_average`, `C47_from_nothing`, `C47_object` | C47_object: the same holds of the learner as an object with its arrays in memory. Also with the kernel's credits. Conditional on fit succeeding: see C48. |
| C48 | Policy learning accepts any list of trajectories | partial | `C48_one_trajectory_refuted`, `C48_when_it_succeeds_partial` | REFUTED: the loop variable of the actions shadows that of the trajectories, so a trajectory with more moves than there are trajectories raises IndexError. C48_when_it_succeeds_partial: success exactly when no trajectory has more. |
| C49 | Learning-rate decay follows the documented schedule | partial | `C49_schedule_refuted`, `C49_second_fit_refuted`, `C49_integer_refuted`, `C49_actual_schedule`, `C49_two_observations_partial`, `C49_maxent_actual_schedule`, `C49_maxent_rate_refuted` | REFUTED: the n-th rate is lr (n!)^-d (C49_actual_schedule), a second fit goes on from the reduced rate, and an integer decay raises ValueError. True for the first two observations of the first fit (C49_two_observations_partial). In maximum-entropy IRL the (j+1)-th step uses even less (C49_maxent_actual_schedule, C49_maxent_rate_refuted). |
| C50 | Learner reset restores the initial estimate every time | partial | `C50_first_reset_partial`, `C50_later_resets_refuted`, `C50_no_estimate_refuted`, `C50_maxent_first_reset_partial`, `C50_maxent_later_resets_refuted`, `C50_maxent_no_estimate_refuted`, `C50_hyptest_first_reset_partial`, `C50_hyptest_later_resets_refuted`, `C50_hyptest_none_refuted`, `C50_hyptest_none_error` | REFUTED for policy learning: after the first reset the estimate and the stored original are the same array, so later resets do nothing; without an initial estimate, fitting after a reset raises TypeError. The first reset works (C50_first_reset_partial). The same three facts hold for maximum-entropy IRL (C50_maxent_...) and hypothesis testing (C50_hyptest_...). |
| C51 | State visitation frequencies are expected visit counts | proved | `C51_visits`, `C51_monotone`, `C51_total` |  |
| C52 | Empirical feature expectations weight trajectories equally | partial | `C52_equal_refuted`, `C52_weights_partial`, `C52_short_partial` | REFUTED: the running counts are divided by the trajectory's length again for every trajectory, so earlier trajectories weigh less. C52_weights_partial gives the actual weights; the property holds if all trajectories but the first have length one (C52_short_partial). |
| C53 | Ignored features, and only those, are excluded from inference | partial | `C53_list_partial`, `C53_ignored_zero`, `C53_default_refuted`, `C53_tuple_refuted`, `C53_matching_actual`, `C53_matching_refuted`, `C53_matching_range_refuted`, `C53_hyptest_others_partial`, `C53_hyptest_nan_refuted` | REFUTED: for maximum-entropy IRL the default (the empty tuple) sets every weight to zero, and a tuple of two or more features makes fitting fail; feature matching removes whole trajectories instead of features. True for a list given to maximum-entropy IRL (C53_list_partial, C53_ignored_zero). In hypothesis testing ignored features get NaN (C53_hyptest_nan_refuted) and the others are not affected (C53_hyptest_others_partial). |
| C54 | Feature matching counts the features of chosen states | proved | `C54_counts` |  |
| C55 | Line-of-sight feature counting terminates and counts the ray | partial | `C55_ray_partial`, `C55_staying_refuted` | Proved for every direction (C55_ray_partial). REFUTED for the staying action, for which the loop never ends (C55_staying_refuted). |
| C56 | Saving and loading an environment preserves it | partial | `C56_dict`, `C56_json_refuted`, `C56_json_partial` | Proved through a dictionary (C56_dict). REFUTED through JSON: the loader passes no feature names, so every ordinary feature becomes zero (C56_json_refuted); everything else is preserved (C56_json_partial). |
| C57 | Drawn hexagons touch exactly when states are adjacent | partial | `C57_plots`, `C57_touching`, `C57_exact_refuted` | Proved up to drawing tolerance: adjacent cells are drawn touching, all others clearly apart (C57_touching). Exactly equal distances are REFUTED because the inner radius uses the truncated constant 0.86602540 (C57_exact_refuted). |
| C58 | A plain MDP can be built from features and transitions | partial | `C58_plain_mdp_refuted` | REFUTED: the constructor raises for every argument. |
| C59 | An assigned transition function stays in force | partial | `C59_assigned_transitions_refuted`, `C59_walls_reset_transitions_partial` | REFUTED by C59_assigned_transitions_refuted; what holds is C59_walls_reset_transitions_partial. |
| C60 | Stochastic transition functions can be simulated | partial | `C60_stochastic_refuted`, `C60_only_deterministic_partial` | REFUTED by C60_stochastic_refuted: drawing always raises AttributeError. |
| C61 | A plus-infinite action value is not usable with softmax | proved | `C61_probabilities_nan`, `C61_sampling_raises` |  |
| C62 | Consumed features are checked at construction | partial | `C62_low_consumes_refuted`, `C62_upper_bound_partial` | REFUTED by C62_low_consumes_refuted: only the upper bound is checked; the strongest true variant is C62_upper_bound_partial. |
| C63 | Every agent given to the constructor is in the environment | partial | `C63_same_name_refuted`, `C63_one_agent_per_name_partial` | REFUTED by C63_same_name_refuted; what holds is C63_one_agent_per_name_partial. |
| C64 | A failed construction leaves the MDP usable | partial | `C64_failed_construction_refuted`, `C64_position_refuted`, `C64_refused_first_entry_partial` | REFUTED by C64_failed_construction_refuted (n_agents is incremented before the position is checked); C64_position_refuted: whenever an agent is refused for its position, every construction that would have succeeded raises AttributeError afterwards; C64_refused_first_entry_partial is a harmless case. |
| C65 | A reset environment is like a new one | partial | `C65_reset_keeps_records_refuted`, `C18_reset`, `C135_reset_like_new` | REFUTED by C65_reset_keeps_records_refuted: consumption records, step counter and fitted state survive; what is restored is C18_reset, and C135_reset_like_new says that nothing but these records differs for agents that are fitted before they act. |
| C66 | Catching is detected wherever it happens | partial | `C66_negative_position_refuted`, `C66_negative_feature_refuted`, `C66_detection_partial` | REFUTED for negative positions and indices; C66_detection_partial: exact for non-negative ones. |
| C67 | Acting greedily on the solver's result is near optimal | proved | `C67_greedy_near_optimal`, `C67_returns_exist` | C67_returns_exist: every behaviour that acts has a total return, so the comparison is never vacuous. |
| C68 | Value-iteration agents move along possible transitions | proved | `C68_value_iteration_moves` |  |
| C69 | For non-negative rewards values are optimal returns | proved | `C69_solver_nonnegative`, `C69_solver_may_stop`, `C69_nonnegative`, `C69_may_stop` | C69_solver_*: for what the solver returns, from some number of iterations on, up to the tolerance. |
| C70 | An interactive search iteration is a legal bounded walk | proved | `C35_interactive` |  |
| C71 | Tree search runs to its end | proved | `C71_search_completes`, `C71_fit_succeeds`, `C71_grids_have_no_dead_ends` |  |
| C72 | Tree search can plan against any opponent | partial | `C72_indifferent_opponent_refuted`, `C71_search_completes` | REFUTED: an opponent whose reward function is zero everywhere makes the search raise TypeError. C71 covers opponents with a non-zero reward entry. |
| C73 | Caching opponents' plans changes speed, not success | partial | `C73_cached_consumer_refuted`, `C71_search_completes` | REFUTED: with caching, an agent that consumes two features raises ValueError. C71 covers caching when each agent consumes at most one feature. |
| C74 | A search that ignores other agents plans the agent's own moves | partial | `C74_depth_refuted`, `C74_own_schedule_partial` | REFUTED in general: the other agents' moves in the schedule are counted too. C74_own_schedule_partial: holds if the schedule contains the planning agent only. |
| C75 | Successor-representation Q values are expected reward totals | proved | `C75_q_values`, `C75_grids` |  |
| C76 | Successor-representation entries are discounted visit counts | proved | `C76_visits`, `C76_nonnegative` |  |
| C77 | The successor representation respects outcome probabilities | partial | `C77_stochastic_refuted`, `C77_first_outcome_partial` | REFUTED: only the first possible outcome of each action is used (C77_first_outcome_partial says exactly this). |
| C78 | A larger length scale generalises more widely | partial | `C78_length_scale_refuted`, `C46_kernel` | REFUTED: the kernel multiplies by the squared length scale instead of dividing, so a larger one always generalises less. |
| C79 | Observed actions are generalised to neighbouring directions | proved | `C79_generalisation`, `C79_hex_turns`, `C79_square_turns` |  |
| C80 | Policy learning converges on a constant policy | partial | `C80_convergence_refuted`, `C80_without_decay_partial` | REFUTED with decay: the value stays below a bound less than one. True without decay (C80_without_decay_partial). |
| C81 | The imitation function accepts trajectories | partial | `C81_policy_irl_refuted` | REFUTED: mdp.n_actions fails on a list and mdp[n] on a single MDP. |
| C82 | Generalisation respects directions when agents may stay | partial | `C82_staying_refuted`, `C79_generalisation` | REFUTED: staying is treated as one more direction next to 0 and 5. C79 covers grids without staying. |
| C83 | Maximum-entropy IRL matches the observed features | partial | `C83_match_refuted`, `C83_settles_partial` | REFUTED: expected counts grow with the number of visitation steps and observed frequencies do not, so with two or more steps no weights match. C83_settles_partial: an iteration leaves the weights as they are exactly if the counts match. |
| C84 | Maximum-entropy IRL warns when it has not converged | partial | `C84_warning_refuted`, `C83_settles_partial` | REFUTED: the warning compares the signed mean error with the tolerance, so fits whose expected counts are always far too large give no warning. |
| C85 | Estimates returned by fitting do not change afterwards | partial | `C85_returned_refuted`, `C85_hyptest_refuted` | REFUTED, also for hypothesis testing: the returned array is the learner's own, and the next fit changes it. |
| C86 | Fitting leaves the caller's initial estimate unchanged | partial | `C86_given_refuted`, `C86_hyptest_refuted`, `C86_policy_refuted` | REFUTED, also for hypothesis testing and policy learning: the caller's array is updated in place. |
| C87 | Maximum-entropy IRL fits whenever its settings are accepted | partial | `C87_zero_iterations_refuted`, `C87_fit_succeeds_partial`, `C87_grids` | REFUTED for an iteration limit of zero or less. True for positive limits (C87_fit_succeeds_partial). |
| C88 | Line-of-sight inference adds up what was seen | proved | `C88_counts`, `C88_learner`, `C88_object` | For moves between different states; see C55 for staying. |
| C89 | Line-of-sight difference compares the chosen direction with all others | partial | `C89_last_direction_refuted`, `C89_with_staying_partial`, `C89_actual` | REFUTED on grids without staying: the last direction is left out. True if staying is allowed (C89_with_staying_partial). |
| C90 | Hypothesis testing works with its default settings | partial | `C90_default_refuted`, `C90_other_normalisation_partial`, `C90_grids` | REFUTED: the default normalisation 'relative' raises NotImplementedError at the first move, so no fit ever returns (C90_default_refuted). True for every other value (C90_other_normalisation_partial), including unknown names, which are accepted silently. |
| C91 | Evidence is how good the move was under each hypothesis | proved | `C91_evidence`, `C91_unnormalised` | C91_unnormalised is the case without normalisation. |
| C92 | Hypothesis testing gives numbers | partial | `C92_one_option_refuted`, `C92_absent_feature_refuted`, `C92_numbers_partial` | REFUTED: where the possible actions are equally good under a hypothesis, 0/0 makes the weight NaN for good; in particular any move from a state with one possible action makes all weights NaN. C92_numbers_partial: the weight is a number exactly if every single move gave evidence. |
| C93 | Hypothesis testing uses the documented learning rates | partial | `C93_decay_partial`, `C93_no_decay_refuted`, `C93_equal_rates_refuted` | True with a positive decay (C93_decay_partial). REFUTED without decay, where the asymmetry is not used, and for an asymmetry of one, which is rejected. |
| C94 | Only the sequence of moves matters | proved | `C94_moves`, `C94_split`, `C94_rows` |  |
| C95 | Hypothesis testing starts from one | partial | `C95_zero_start_refuted`, `C93_decay_partial` | REFUTED: the weights start at zero. |
| C96 | Estimates move towards the evidence without overshooting | proved | `C96_between` |  |
| C97 | Arrows point the way the agent moves | proved | `C97_hex_headings`, `C97_square_headings`, `C97_staying` |  |
| C98 | Values are drawn at their states | partial | `C98_hex`, `C98_square_layers`, `C98_square_transposed_partial`, `C98_square_refuted` | Proved for hex grids and for feature layers of square grids. REFUTED for state values on square grids, which are drawn transposed (C98_square_refuted, C98_square_transposed_partial). |
| C99 | All ordinary features are drawn | partial | `C99_with_agents`, `C99_no_agents_refuted` | Proved if there is an agent (C99_with_agents). REFUTED without agents: the slice features[:-0] is empty and no feature is drawn. |
| C100 | Paths and agents are drawn where they are | partial | `C100_path`, `C100_after_plot`, `C100_square`, `C100_before_plot_refuted`, `C100_hidden_refuted`, `C100_agents`, `C100_negative_refuted`, `C100_negative_exists`, `C100_labels` | Proved for square grids and for hex grids after plot() without hidden cells. REFUTED on hex grids before plot() (AttributeError), for hidden cells (drawn at the origin) and for agents placed at negative indices (ValueError). |
| C101 | Colours span the whole scale | partial | `C101_range`, `C101_constant_refuted` | Proved if the values differ (C101_range). REFUTED for constant values, which give NaN. |
| C102 | Saving keeps graded values | partial | `C102_features_refuted`, `C102_rewards_refuted`, `C102_actual_partial` | REFUTED: every nonzero feature value becomes 1 and rewards are truncated towards zero. C102_actual_partial says exactly what is kept; C56_dict covers binary features and whole rewards. |
| C103 | Both formats can be loaded | partial | `C103_agents_refuted`, `C103_walls_refuted` | REFUTED: with an agent loading always raises; without agents coordinates are taken as state numbers, so walls move. |
| C104 | Saving a loaded environment changes nothing | proved | `C104_again` | For agents using value iteration with greedy or softmax selection, and distinct feature names. |
| C105 | Every hex environment can be saved and loaded | partial | `C105_unnamed_refuted`, `C105_unnamed_error`, `C105_repeated_refuted`, `C105_saved`, `C56_dict` | REFUTED: agents with any other algorithm or selector cannot be exported (AttributeError), and repeated feature names make loading fail. True otherwise (C56_dict, C102_actual_partial). |
| C106 | Separate environments do not interfere | proved | `C106_own`, `C106_apart`, `C106_interleaved`, `C106_new_mdp`, `C106_new_environment`, `C106_settings` | World model: objects with identity, any history of calls. C106_apart is for environments with at least one agent; an environment without agents has nothing to fit or step. |
| C107 | The caller's arrays are left alone | partial | `C107_features_partial`, `C107_walls_partial`, `C107_clear_walls_refuted`, `C107_consume_refuted` | REFUTED: reset_walls sets the caller's wall array to zero in place (C107_clear_walls_refuted, for every MDP made from an array), and consume_features called on an MDP without agents writes into the caller's feature array. True for every program without these two calls (C107_features_partial, C107_walls_partial); in particular no environment ever changes them. |
| C108 | MDPs made from the same arrays are independent | partial | `C108_apart_partial`, `C108_clear_walls_refuted`, `C108_consume_refuted` | REFUTED: clearing the walls of one MDP makes every MDP with the same wall array show no walls while its transitions still have them; consuming features directly consumes them in the other MDP. C108_apart_partial: no other call has any influence. |
| C109 | One agent in two environments | partial | `C109_rest_partial`, `C109_shared_plan_refuted`, `C109_tree_search_refuted` | REFUTED: the two attached agents always have the same plan (C109_shared_plan_refuted), and tree search plans from the position in the environment made last. C109_rest_partial: everything but the plan is independent if the MDPs differ. |
| C110 | Two environments with the same MDP | partial | `C110_new_environment`, `C110_fit_refuted`, `C110_moves_other_refuted` | REFUTED: with another number of agents no agent of the first environment can be fitted any more (C110_fit_refuted, for all reachable environments); with the same number, moving an agent in one moves the mark of an agent of the other. C110_new_environment says exactly what the first environment becomes. |
| C111 | A failed fit keeps the earlier plan | partial | `C111_kept_partial`, `C111_value_iteration_partial`, `C111_tree_search_refuted` | Proved for algorithms that do not discard their result first, such as value iteration. REFUTED for tree search: after a failed fit every step raises AttributeError. |
| C112 | Keeping the cache between fits | partial | `C112_walls_refuted`, `C112_meal_refuted`, `C112_kept_partial`, `C112_undisturbed_partial`, `kept_fit_new` | REFUTED: after walls were changed, or after food the opponents want was eaten by an ordinary step, the kept values are stale and the plan is the opposite of the one made with an empty cache. C112_kept_partial: if transitions and ordinary features are as when the cache was begun, other agents want ordinary features only and nobody consumes more than one feature, every fit gives exactly what it would give with an empty cache, exceptions included. C112_undisturbed_partial says which calls may come between. Earlier fits may have raised or been interrupted: the entries they left are covered (kept_after, C112_raises_example). |
| C113 | The queries report the latest fit | partial | `C113_latest_fit_partial`, `C113_not_fitted`, `C113_no_values_refuted`, `C113_reset_refuted`, `C113_failed_policy_refuted` | REFUTED: get_agent_q_values returns None before the first fit; after a reset the policy queries return None although the agent is still fitted and can be stepped; a fit that raises because no value is known leaves the new values next to the old policy. C113_latest_fit_partial: otherwise, after a successful fit and any calls that neither fit the agent nor reset, all three report that fit, for every algorithm and selector. C113_not_fitted: the policy queries raise before the first fit, whatever was called. |
| C114 | The step taken is the one reported | partial | `C114_ties_refuted`, `C114_unique_best_partial`, `C114_probable_partial`, `C114_afterwards_partial` | REFUTED: step draws the policy again, so with ties (or softmax) another action may be taken than the one reported. True with greedy selection and a unique best action (C114_unique_best_partial); the action taken always has a positive reported probability, for greedy and softmax selection (C114_probable_partial); after the step the reported policy has the action taken in the state left, for every selector (C114_afterwards_partial). |
| C115 | A position history obtained earlier | partial | `C115_live_partial`, `C115_reset_partial`, `C115_snapshot_refuted`, `C115_edit_refuted` | REFUTED: the list is the environment's own: every later step makes it longer (C115_snapshot_refuted) and appending to it changes the reported history (C115_edit_refuted). C115_live_partial: until a reset it always shows the current history; C115_reset_partial: after a reset it keeps what it showed before, for ever. |
| C116 | Replacing an agent's algorithm | proved | `C116_assigned`, `C116_until_fitted`, `C116_next_fit`, `C116_failed_fit`, `C116_others`, `C116_library` | C116_others needs that the other agents' algorithms do not look at plans of agents; C116_library: those of the library do not. The new algorithm object is taken not to be shared with another agent (see C109 for sharing). |
| C117 | Assigning an algorithm that was fitted before | partial | `C117_stale_policy_refuted`, `C117_mismatch_refuted`, `C117_next_step_partial` | REFUTED: the values are those of the new algorithm at once, but policy and probabilities are still those of the old one. C117_next_step_partial: the next step follows the new values, and from then on all queries report them. |
| C118 | Replacing the features of an MDP in use | partial | `C118_ordinary_table_refuted`, `C118_erases_feature_refuted`, `C118_reset_refuted`, `C118_with_marks_partial` | REFUTED: a table with ordinary features only is accepted, after which no agent can be fitted and moving an agent overwrites an ordinary feature; a table assigned when agents have moved leaves wrong marks after a reset. C118_with_marks_partial: true for a table with a row marking each agent, without resets or if all agents are at their starting positions. |
| C119 | Following a plan collects the planned return | proved | `C119_walk`, `C119_goes_on` | Rewards are those the agent planned with: what is consumed on the way is not deducted. The bound is best - 2 g tol / (1-g)^2 - g^n rho / (1-g) after n steps, where rho bounds the rewards. |
| C120 | Tree search tries every possible move | proved | `C120_tries_every_move` | For every score and all draws, in every reachable grid environment; C71 says when the fit succeeds. |
| C121 | Tree search reports average rewards | partial | `C121_worse_chosen_refuted`, `C121_shrunk_partial` | REFUTED: totals are divided by one more than the number of visits, so every value is the average times N/(N+1); the agent may prefer an action that was worse every time it was tried to one that was better every time (C121_worse_chosen_refuted). C121_shrunk_partial: the exact distance to the average; an action never tried has value 0. |
| C122 | Saving to a dictionary and loading preserves an environment | proved | `C56_dict` | The part of C56 that holds. |
| C123 | Adjacent hexagons are drawn touching | proved | `C57_plots`, `C57_touching` | The part of C57 that holds. |
| C124 | Values on hex grids and feature layers on square grids are drawn at their states | proved | `C98_hex`, `C98_square_layers` | The part of C98 that holds. |
| C125 | With agents, exactly the ordinary features are drawn | proved | `C99_with_agents` | The part of C99 that holds. |
| C126 | Paths, labels and agents are drawn at their states once the grid is plotted | proved | `C100_path`, `C100_after_plot`, `C100_square`, `C100_agents`, `C100_labels` | The part of C100 that holds. |
| C127 | Colours span the whole scale when values differ | proved | `C101_range` | The part of C101 that holds. |
| C128 | The successor representation always exists | proved | `C45_never_fails`, `C45_in_tree_search` | The part of C45 that holds. |
| C129 | A planned agent with a single goal walks there along a shortest path | proved | `C129_shortest_path`, `C129_arrives`, `C129_defaults` | Exact arithmetic. Condition: (1+g) g^k R/(1-g) < tol for k+1 sweeps, and 2 g tol < (1-g)^2 g^(d-1) R at distance d; C129_defaults: met by the default settings for 0 < d <= 100 and 1 <= R <= 10^12. |
| C130 | Any positive reward attracts a planned agent | partial | `C130_rewards_attract_refuted`, `C129_arrives` | REFUTED: with a reward of 1e-9, below the default tolerance, planning stops after one sweep and the agent may walk away from it. True under the condition of C129. |
| C131 | A new reward function counts from the next fit on | proved | `C131_assigned`, `C131_until_fitted`, `C131_as_if_given`, `C131_next_fit`, `C131_wrong_length`, `C131_library` | C131_next_fit is for value iteration. C131_library says which algorithms of the library ignore other agents' reward functions. |
| C132 | Attributes of attached agents are validated when assigned | partial | `C132_refused_refuted`, `C132_others_refuted`, `C132_consumes_refuted`, `C131_wrong_length` | REFUTED: arrays of every length are accepted (C132_refused_refuted, for every environment), after which agents simulating this one can no longer plan (C132_others_refuted); an index beyond the features is accepted, and the next step raises after the agent has moved (C132_consumes_refuted). True variant: the agent's own next fit raises and keeps the plan (C131_wrong_length). |
| C133 | New consumed features count from the next step on | proved | `C133_assigned`, `C133_later_steps` | For indices below the number of features; see C132 for others. |
| C134 | A new number of moves per turn counts at once | proved | `C134_later_turns` | Also for calls with refitting; the agent's place in the default plan of others has the new length by all_n_steps. |
| C135 | After a reset an environment behaves like a new one | proved | `C135_reset_like_new`, `C135_library` | C135_library: value iteration, tree search (default reset_cache) and the null algorithm ignore the counts. Draws are the same on both sides; see C139 for where they come from. |
| C136 | Seeded runs are reproducible | proved | `C136_seeded`, `C136_numpy_seed`, `C136_is_a_run`, `C136_library` | How generators change and how draws depend on them is arbitrary. C136_is_a_run: a run with generators is a run of the model with draws as arguments, so all other theorems apply. C136_unseeded_refuted shows that a seed is needed. |
| C137 | Tree search can be made reproducible | partial | `C137_search_refuted`, `C137_same_state_partial`, `C137_only_fits_partial`, `C136_seeded` | REFUTED by C137_search_refuted: the compiled search draws from a generator of its own, which neither the selectors' seeds nor np.random.seed called from Python reach. True variants: runs that start with that generator in the same state are the same (C137_same_state_partial); only fits change its state (C137_only_fits_partial); C136_seeded, for algorithms without random choices. |
| C138 | A seeded agent's path does not depend on the schedule | proved | `C138_schedule` | Compared with a run of the agent's own calls only, so two interleavings agree with each other. Calls that fit the agent, move it as part of a sequence, change walls or reset are excluded. C138_unseeded_refuted: without a seed the order decides. |
| C139 | A reset makes a seeded run repeat | partial | `C139_reset_repeats_refuted`, `C139_no_draws_partial` | REFUTED by C139_reset_repeats_refuted: a reset leaves the generators where they are, so ties are broken differently. C139_no_draws_partial: true if the draws do not matter, agents are fitted before they act and no walls were assigned. |
| C140 | Agents without preferences choose uniformly | proved | `C140_fit`, `C140_any_action` | Where an impossible action leads is C34. |
| C141 | Only the rewards of states matter to a plan | proved | `C141_same_rewards`, `C141_order`, `C141_plan_stable` | C141_same_rewards holds for any backup. C141_plan_stable compares any two fits of an agent in the life of an environment. |
| C142 | Rewards and tolerance have no unit | proved | `C142_scaling`, `C142_choices` |  |
| C143 | Multiplying all rewards never changes the plan | partial | `C143_multiplied_refuted`, `C143_finer_partial` | REFUTED by C143_multiplied_refuted: planning with rewards near the tolerance stops before they have spread. C143_finer_partial: it is the same as dividing the tolerance by the factor, so the plan of a multiplied reward function is that of a finer tolerance. |
| C144 | Larger rewards never lower values | proved | `C144_rewards`, `C144_fitted` |  |
| C145 | Adding walls never raises values | partial | `C145_walls_refuted`, `C145_walls_partial` | REFUTED by C145_walls_refuted for punished states: a blocked action counts as free of cost. C145_walls_partial: true if no state is punished. |
| C146 | Tree search without interaction promises no more than the best walk pays | proved | `C146_between`, `C146_fit` |  |
| C147 | Asking for a policy changes no array that existed before | proved | `C147_actions`, `C147_probabilities`, `C147_policy`, `C147_library` | C147_needs_tidy (an example) shows that a selector that returns an array it keeps has that array changed. |
| C148 | Values stay within what rewards allow | proved | `C148_bounds` | Concrete cases: C149_example. |
| C149 | Planning longer never lowers values when nothing is punished | proved | `C149_longer`, `C149_never_above_best` |  |
| C150 | A larger discount never lowers values when nothing is punished | proved | `C150_discount`, `C150_fitted` | Concrete cases: C149_example. |
| C151 | What cannot be reached does not matter | proved | `C151_best`, `C151_fitted`, `C151_grid` | The condition of C151_fitted is that of C29: enough sweeps for the tolerance. |
| C152 | Every journey can be made back | proved | `C152_back`, `C152_fewest` |  |
| C153 | Simulated opponents choose as their settings say | proved | `C153_softmax`, `C153_greedy`, `C153_random` |  |
| C154 | The order of trajectories does not matter to learners that add features up | proved | `C154_matching`, `C154_sight`, `C154_difference`, `C154_learners` | C154_learners is for any way to count features, so for both learners. |
| C155 | The order of trajectories does not matter to maximum-entropy inference | partial | `C155_order_refuted`, `C155_single_states_partial` | REFUTED: whatever the settings, one iteration on a trajectory of one state and a longer one gives different weights in the two orders, as earlier trajectories are divided by the lengths of later ones (see C52); true variant: trajectories of a single state each. |
| C156 | Softmax selection lies between greedy and even choice | proved | `C156_cold_bound`, `C156_cold`, `C156_hot_bound`, `C156_hot`, `C156_warmer` | Rows with an infinite positive value are the subject of C61. Floating-point rounding is not modelled. |
| C157 | Interleaving of agents that consume nothing does not matter | proved | `C157_two_steps`, `C157_schedules` | C157_eaters (an example) shows that the order matters if both consume the same feature. |
| C158 | Planning has no preferred side | proved | `C158_names`, `C158_grids` | The solver's own values for the two grids agree up to twice the planner's precision; they need not be equal, as sweeps go through the states in order (C158_example). |
| C159 | A reward that is the same everywhere changes no preference | proved | `C159_constant`, `C159_grids` | Where a state is punished the claim fails: C159_example. |
| C160 | The order of features does not matter to inference | proved | `C160_maxent`, `C160_matching`, `C160_sight`, `C160_difference`, `C160_learners`, `C160_hypotheses`, `C160_grids` | C160_grids: grids made from features in another order are such MDPs. |
| C161 | Line-of-sight estimates can be built up call by call | proved | `C161_increments` |  |
| C162 | Estimates returned by line-of-sight fitting do not change afterwards | partial | `C162_returned_refuted`, `C162_reset_partial`, `C162_grids` | REFUTED: a fit without reset adds to the array returned earlier. True from the next fit with reset on (C162_reset_partial). C162_grids: on grids the counts are as assumed. |
| C163 | A failed line-of-sight fit leaves the learner as it was | partial | `C163_failed_refuted`, `C163_reset_partial` | REFUTED: the trajectories counted before the failure stay added, and with reset the old estimate is gone. A later fit with reset does not depend on it (C163_reset_partial). |
| C164 | Q values handed out by a policy learner do not change | partial | `C164_handed_out_refuted`, `C164_after_reset_partial` | REFUTED: the learner hands out its own array, and the next fit changes it. True after the first reset of what was handed out before it (C164_after_reset_partial). |
| C165 | Policy learning can start from any numbers | partial | `C165_integers_refuted`, `C165_floats_partial` | REFUTED: with an array of integers every fit to a move raises TypeError. With floats fitting succeeds as in C48 (C165_floats_partial). |
| C166 | Agents that plan with value iteration never get stuck | proved | `C166_fit`, `C166_steps`, `C166_sequence` | Consumed features are assumed to be in range (compare C62); selectors are those of the library. Longer sequences with refitting fail (C22). |
| C167 | Coordinates of a state are found by number | proved | `C167_coordinates`, `C167_agents` |  |
| C168 | An eaten agent takes no more part in a simulated game | proved | `C168_out` | The part of C39 that holds. |
| C169 | After a successful fit the queries report it | proved | `C169_latest_fit`, `C113_not_fitted` | The part of C113 that holds. |
| C170 | A step is one the reported probabilities allow | proved | `C170_probable`, `C170_unique_best`, `C170_afterwards` | The part of C114 that holds. |
| C171 | Caching changes nothing when opponents want ordinary features | proved | `C171_same_outcome`, `C171_kept`, `C171_undisturbed` | The parts of C41 and C112 that hold. |
| C172 | Looking in a direction counts the states on the ray | proved | `C172_ray` | The part of C55 that holds. |
| C173 | Catching is detected for positions and features written as plain numbers | proved | `C173_detection` | The part of C66 that holds. |
| C174 | Maximum-entropy inference succeeds with a positive iteration limit | proved | `C174_fit_succeeds`, `C87_grids` | The part of C87 that holds. |
| C175 | Hypothesis testing succeeds with every normalisation but the default | proved | `C175_fit_succeeds`, `C90_grids` | The part of C90 that holds. |
| C176 | Policy learning without decay converges | proved | `C176_converges` | The part of C80 that holds. |
| C177 | Where nothing is punished walls never raise values | proved | `C177_walls` | The part of C145 that holds. |
| C178 | Where nothing is punished value iteration finds the best return | proved | `C178_best`, `C178_solver` | The part of C31 that holds. |
| C179 | Probabilistic stepping is a distribution where outcomes differ | proved | `C179_distribution` | The part of C33 that holds. |
| C180 | Environments leave the caller's arrays alone | proved | `C180_features`, `C180_walls` | The part of C107 that holds. |
| C181 | One agent object in environments on different MDPs shares its plan only | proved | `C181_rest` | The part of C109 that holds. |
| C182 | After an algorithm was assigned the next step follows it | proved | `C182_next_step` | The part of C117 that holds. |
| C183 | A history obtained earlier shows the current one until a reset | proved | `C183_live`, `C183_reset` | The part of C115 that holds. |
| C184 | Tree searches repeat from the same state of their generator | proved | `C184_same_state`, `C184_only_fits` | The part of C137 that holds. |
| C185 | Hexagonal layers are shaded by how much of a feature there is | proved | `C185_opacity`, `C185_limited`, `C185_too_few` |  |
| C186 | Different features are drawn in different colours | partial | `C186_colours_refuted`, `C186_ten_partial`, `C186_given` | REFUTED: from the tenth feature on all have the same colour. True for up to ten features (C186_ten_partial) and if different colours are given (C186_given). |
| C187 | Environments accept lists and arrays and refuse other types | proved | `C187_typed`, `C187_only_typed`, `C187_refused` |  |
| C188 | A planner used on its own keeps its last good result | proved | `C188_kept`, `C188_reset`, `C188_result`, `C188_value_iteration`, `C188_null` |  |
| C189 | A reward function for planning may be a list | partial | `C189_list_refuted`, `C189_array_partial` | REFUTED: a list always raises TypeError. C189_array_partial: arrays are accepted. |
| C190 | A new environment survives saving and loading exactly | proved | `C190_fresh`, `C190_json` |  |
| C191 | Resetting a loaded environment returns to the original start | partial | `C191_start_refuted` | REFUTED for every environment with an agent away from its starting place; what holds is C192. |
| C192 | Resetting a loaded environment returns to what was saved | proved | `C192_saved` |  |
| C193 | Probabilistic stepping never fails for value-iteration agents | proved | `C193_succeeds`, `C193_wrong_length` |  |
| C194 | Probabilistic stepping from the agent's own place is right except for the first state | proved | `C194_own_place` | C33_certain_step_refuted shows what can happen to the first state. |
| C195 | Interleaving of agents with different tastes does not matter | proved | `C195_two_steps`, `C195_schedules` | Generalises C157. |
| C196 | Refusing an agent for its reward function or its consumed features does no harm | proved | `C196_harmless` | C64_position_refuted is the other case. |
| C197 | Which states are flagged | proved | `C197_greedy`, `C197_softmax`, `C197_greedy_probabilities`, `C197_softmax_probabilities`, `C197_rejected` | What holds of C26. |
| C198 | Which lists of trajectories policy learning accepts | proved | `C198_accepted_iff` | What holds of C48. |
| C199 | How much each trajectory counts in maximum-entropy inference | proved | `C199_weights`, `C199_two`, `C199_at_most` | What holds of C52. |
| C200 | Hypothesis testing with a decay uses the documented learning rates | proved | `C200_rates` | What holds of C93. |
| C201 | The learning rates of policy learning | proved | `C201_rates` | What holds of C49. |
| C202 | Tree search without an environment | partial | `C202_never_refuted`, `C202_grids` | REFUTED: no fit of a tree search without an agent succeeds (C202_never_refuted). C202_grids: an interactive one refuses and is left alone, as claimed; one that is not interactive forgets its result and raises AttributeError. |
| C203 | Initial weights of other types | partial | `C203_maxent_refuted`, `C203_maxent_lists_refuted`, `C203_hyptest_refuted`, `C203_hyptest_errors`, `C203_floats` | REFUTED: with an array of integers no fit of either algorithm succeeds, and maximum-entropy inference accepts no list. C203_floats says that the model of floats is the one used elsewhere. What holds is C204. |
| C204 | Hypothesis testing accepts a list of initial weights | proved | `C204_lists`, `C204_floats` | C204_floats says that the model of floats is the one used elsewhere. |
| C205 | Calls for one agent leave the other agents' records alone | proved | `C205_others_untouched`, `C205_own_steps` | The step counter part needs the consumed features to be indices of the feature table (see C62). Every agent has the algorithm object it was made with; one object assigned to two agents is outside the model. |
| C206 | Value iteration is accurate in floating point | proved | `C206_solver`, `C206_solution_bounded`, `C206_grids`, `C206_float64`, `C206_defaults` | Every operation of the iteration, the sums of rewards and the convergence test is rounded; sums are added from left to right; overflow is excluded by C242 and C243. 'Exact solution' is the solution for the discount as it is stored (0.9 rounded to a float64). |
| C207 | Agents that plan in floating point walk near-best paths, and to a single goal along a shortest one | proved | `C207_fit`, `C207_walk`, `C207_shortest_path`, `C207_defaults` | As for C206. Choosing the best action only compares, which is exact. |
| C208 | Soft value iteration copes with any finite rewards | partial | `C208_overflow_refuted` | REFUTED: with rewards of zero or more and a move whose expected reward is so large that its exponential overflows, the log of the summed exponentials is infinite and the solver raises ValueError (weight 1000 on a 1 by 3 grid: C208_example). What holds is C209. |
| C209 | Soft value iteration never overflows with moderate rewards | proved | `C209_same`, `C209_defaults`, `C209_grids` | Overflow of the exponential is modelled, rounding is not. |
| C210 | A draw always selects one of the actions | partial | `C210_out_of_range_refuted` | REFUTED in double precision, bit by bit: with the softmax probabilities of the action values 0 and 3 and the largest draw below 1 the compiled choice returns 2, one past the last action; numpy's choice returns 1. What holds is C211. |
| C211 | Random choices in floating point select possible actions | proved | `C211_numpy`, `C211_numba`, `C211_float64` | Rounding is modelled, overflow is not. Sums are added from left to right, which numpy does for fewer than eight numbers and numba always. |
| C212 | Softmax is accurate in floating point and never selects an impossible action | proved | `C212_probabilities`, `C212_choice`, `C212_float64`, `C212_exp64` | As for C211; the exponential is any function with a relative and an absolute error bound that is exact at zero (C212_exp64: the correctly rounded one is). numpy's check that probabilities sum to one compares the exact sum. |
| C213 | Agents that plan and sample in floating point act without errors and move legally | proved | `C213_fit`, `C213_walk`, `C213_defaults` | As for C206 and C212: overflow is not modelled, sums are added from left to right. |
| C214 | Policy learning is accurate in floating point | proved | `C214_range`, `C214_constant_rate`, `C214_decaying_rate`, `C214_same_outcome`, `C214_float64`, `C214_pow64`, `C214_defaults` | Rounding is any function with the properties collected in rounding, never_above_one and halves_exact; C206_float64 and C214_float64 show that round-to-nearest binary64 without overflow has them. The power and the exponential are any functions with given error bounds (C214_pow64: the correctly rounded power is one). With the kernel the accuracy theorems cover grids with 4, 5 or 6 actions (whole degrees); C214_range and C214_same_outcome cover all. |
| C215 | The first reset of a learner restores its initial estimate | proved | `C215_policy`, `C215_maxent`, `C215_hyptest` | The part of C50 that holds. C50_example runs it for policy learning. |
| C216 | A failed fit of value iteration keeps the earlier plan | proved | `C216_kept`, `C216_value_iteration` | The part of C111 that holds. C111_kept_example meets the hypotheses. |
| C217 | Keeping the search cache is harmless while the problem stays the same | proved | `C217_kept`, `C217_undisturbed` | The part of C112 that holds. C112_hypotheses meets the hypotheses. |
| C218 | Multiplying rewards is the same as dividing the tolerance | proved | `C218_finer` | The part of C143 that holds, for value iteration without soft backups. The only hypothesis is a positive factor. |
| C219 | Line-of-sight difference with staying compares the chosen direction with all others | proved | `C219_contrast` | The part of C89 that holds; see C172 for rays. |
| C220 | When hypothesis testing gives a number | proved | `C220_numbers` | The part of C92 that holds. hyptest_example meets the hypotheses. |
| C221 | What tree search reports for an action | proved | `C221_shrunk` | The part of C121 that holds. C120_example is such a search. |
| C222 | Tree search can be fitted with the schedule of the agents' own moves | proved | `C222_own_moves` | The part of C43 that holds. C71_example meets the hypotheses. |
| C223 | Line-of-sight fitting with reset starts afresh | proved | `C223_older`, `C223_fresh` | The parts of C162 and C163 that hold; C162_grids says that on grids the counts are as assumed, C161_example runs such fits. |
| C224 | Action values handed out before the first reset of a policy learner stay | proved | `C224_handed_out` | The part of C164 that holds; C164_example runs it. |
| C225 | Features can be replaced by a table that marks the agents | proved | `C225_with_marks` | The part of C118 that holds; C118_example shows an assigned table. |
| C226 | Maximum-entropy inference rests exactly where the counts match | proved | `C226_settles` | The part of C83 that holds. |
| C227 | Tree search takes the best successor once all were visited | proved | `C37_expand`, `C227_exploit` | The part of C37 that holds; C37_example. |
| C228 | What the successor representation depends on | proved | `C228_first_outcome`, `C228_equation` | The parts of C77 and C45 that hold; C45_example and C228_example meet the hypotheses. |
| C229 | What saving a hex environment keeps | proved | `C229_dictionary`, `C229_json` | The parts of C102 and C56 that hold; C102_example runs it. |
| C230 | Runs whose draws do not matter repeat after a reset | proved | `C230_no_draws` | The part of C139 that holds for selectors that never draw; C239 covers greedy selection without ties. |
| C231 | The published adjacency matrix is that of the grid without walls | proved | `C231_adjacency` | The part of C08 that holds. |
| C232 | Re-fitting multi-step within one turn only fails if a fit or a step fails | proved | `C232_within_one_turn` | The part of C22 that holds; C22_example runs it. |
| C233 | One agent per name | proved | `C233_names`, `C233_consumes` | The parts of C63 and C62 that hold; C17_example meets the hypotheses. |
| C234 | Square layers are as opaque as there is of a feature | proved | `C234_opacity`, `C234_too_few` | imshow limiting opacities to the range from 0 to 1 and multiplying them by alpha is part of the model. C234_example runs it. |
| C235 | Grid lines of plotted layers lie between the cells | proved | `C235_layers` | Cells have their centres at whole numbers, as imshow draws them. |
| C236 | Grid lines of plotted state values lie between the cells | partial | `C236_lines_refuted`, `C236_values_iff` | REFUTED by C236_lines_refuted for every shape that is not as wide as it is high (both axes use the first dimension); C236_values_iff: it holds exactly for square shapes. |
| C237 | All of a hex grid is visible | proved | `C237_visible` | A hexagon lies within the circle of the outer radius round its centre; the theorem covers the circle. |
| C238 | Plots of an agent's state values show the latest plan | proved | `C238_fitted`, `C238_unknown`, `C238_not_fitted` | Default radius and no hidden cells, as the environment calls it. Colours are not modelled. |
| C239 | A reset makes runs repeat if plans leave no choice | proved | `C239_repeats`, `C239_value_iteration` | Strengthens C230: draws may matter elsewhere, only the plans that occur must leave no choice. Walls must not be assigned in the calls considered. C135_library and C136_library show that value iteration meets ignores_records and deterministic; C239_example is a run. |
| C240 | Tree search in floating point runs to its end | proved | `C240_search`, `C240_values`, `C240_fit`, `C240_next_step`, `C240_greedy`, `C240_softmax`, `C240_float64` | Floating point counterpart of C71 and C42. Overflow is not modelled here (see C245). C240_greedy and C240_softmax discharge picks_possible for the two selectors of the library; C240_plugin and C240_example meet the hypotheses. |
| C241 | Tree search in floating point reports accurate values | proved | `C241_statistics`, `C241_reported`, `C241_whole_numbers`, `C241_float64` | Floating point counterpart of C36 and C221: the rewards of the iterations are those of the rounded iterations themselves. Overflow is excluded by C245. C241_example is such a fit. |
| C242 | Value iteration in floating point does not overflow | proved | `C242_same`, `C242_float64`, `C242_defaults`, `C242_fit` | agrees ro ro' M says that two arithmetics give the same results for exact results up to M; ro' is arbitrary beyond. Complements C206 and C207, whose arithmetic has no largest number. C242_example gives such an arithmetic and weights of 1e300. |
| C243 | Value iteration with IEEE 754 numbers gives finite, accurate values | proved | `C243_same`, `C243_large`, `C243_defaults`, `C243_grids`, `C243_walls`, `C243_fit`, `C243_settings`, `ieee_computes` | NumB is Flocq's formalisation of binary64, rounding to nearest, ties to even. Sums are added from left to right; numpy may add in another order. msim leaves out the published adjacency matrix, which planning does not use. C243_example is a grid; C243_bits computes two sweeps bit by bit. |
| C244 | Agents that plan with IEEE 754 numbers walk the shortest way to a goal | proved | `C244_runs`, `C244_fit`, `C244_shortest_path` | NumB is Flocq's binary64 as in C243. Calls of step_proba are left out: the published probabilities 1/n are rounded in double precision and exact in the real model. The published adjacency matrix is not compared. mdp_val is the MDP of the real numbers the double precision numbers stand for. C244_example is an instance. |
| C245 | Tree search with IEEE 754 numbers does not overflow and reports accurate values | proved | `C245_statistics`, `C245_fit` | IEEE 754 counterpart of C241; NumB is Flocq's binary64 as in C243. The rewards of the iterations are those the double precision iterations themselves report. Where an action has several possible successors the value is that of one of them, as in the code. C245_example is an instance with two agents. |
| C246 | Policy learning with IEEE 754 numbers stays between zero and one | proved | `C246_range`, `C246_any_rate`, `C246_decaying`, `C246_defaults` | IEEE 754 counterpart of C214; NumB is Flocq's binary64 as in C243. In C246_range the decay factor (np.power) is any function with values between zero and one, in C246_decaying the correctly rounded power; the kernel is not included. In the accuracy statement 0.3 stands for the nearest double. C246_example and C246_decaying_example are instances with three observations. |
| C247 | Greedy selection with IEEE 754 numbers picks a best action and gives equal shares | proved | `C247_sampled_is_best`, `C247_probabilities` | IEEE 754 counterpart of C25; NumB is Flocq's binary64 as in C243. Infinities and NaN among the values are the constructors NInf, PInf and NaN; the sum of the probabilities is that of the real numbers they stand for. C247_example is an instance with an impossible action, a tie and a state without values. |
| C248 | A greedy tree search agent with IEEE 754 numbers takes a possible action of greatest value | proved | `C248_greedy_choice`, `C248_move` | Combines C245 and C247: how accurate the values are is in C245. Possible means a non-zero transition probability. C248_example: the two agents of C245_example. |
| C249 | Questions about an MDP with IEEE 754 numbers are answered exactly | proved | `C249_same_answers` | IEEE 754 counterpart of the theorems about these questions over the reals (such as C10 and C12), which it carries over; NumB is Flocq's binary64 as in C243, and mdp_val replaces every number by the real number it stands for. C249_example is an instance with two actions. |

## 7. Axioms per theorem (`Print Assumptions`)

* **closed under the global context (no axioms)**: `C01_state_roundtrip`, `C01_idx_roundtrip`, `C01_coordinate_table`, `C01_coordinates_of_holed_grid`, `C01_reshape`, `C01_features_as_grid`, `C02_shortest_walk`, `C02_metric`, `C02_distance_matrix`, `C02_length_check_refuted`, `C03_hex_adjacency`, `C03_square_adjacency`, `C03_symmetric_irreflexive`, `C03_neighbours_distinct`, `C04_action_is_direction`, `C04_action_is_displacement`, `C04_opposite_action`, `C04_reverse_lookup`, `C05_deterministic`, `C07_documented_range_refuted`, `C08_adjacency_refuted`, `C103_walls_refuted`, `C106_own`, `C106_apart`, `C106_interleaved`, `C106_new_mdp`, `C106_new_environment`, `C106_settings`, `C107_features_partial`, `C107_walls_partial`, `C107_consume_refuted`, `C108_apart_partial`, `C108_consume_refuted`, `C109_rest_partial`, `C109_shared_plan_refuted`, `C109_tree_search_refuted`, `C110_new_environment`, `C110_moves_other_refuted`, `C112_walls_refuted`, `C112_meal_refuted`, `kept_fit_new`, `C113_latest_fit_partial`, `C114_ties_refuted`, `C116_next_fit`, `C116_library`, `C117_mismatch_refuted`, `C121_worse_chosen_refuted`, `C130_rewards_attract_refuted`, `C131_library`, `C132_others_refuted`, `C132_consumes_refuted`, `C135_library`, `C136_seeded`, `C136_numpy_seed`, `C136_is_a_run`, `C136_library`, `C137_search_refuted`, `C137_same_state_partial`, `C137_only_fits_partial`, `C139_reset_repeats_refuted`, `C14_remove`, `C14_remove_without_agents_refuted`, `C143_multiplied_refuted`, `C145_walls_refuted`, `C147_actions`, `C147_probabilities`, `C147_policy`, `C147_library`, `C16_bad_position_erases`, `C161_increments`, `C162_reset_partial`, `C163_reset_partial`, `C164_after_reset_partial`, `C167_coordinates`, `C169_latest_fit`, `C180_features`, `C180_walls`, `C181_rest`, `C184_same_state`, `C184_only_fits`, `C187_typed`, `C187_only_typed`, `C188_kept`, `C188_reset`, `C188_result`, `C188_null`, `C189_list_refuted`, `C189_array_partial`, `C197_rejected`, `C203_maxent_refuted`, `C203_maxent_lists_refuted`, `C203_floats`, `C210_out_of_range_refuted`, `C223_older`, `C223_fresh`, `C224_handed_out`, `C23_schedule`, `C23_rejected`, `C24_interactive_refuted`, `C26_flagged_states_partial`, `C26_flagged_probabilities_partial`, `C26_all_nan_rejected`, `C33_not_a_distribution_refuted`, `C33_certain_step_refuted`, `C34_teleport_refuted`, `C34_isolated_refuted`, `C34_stale_refuted`, `C37_search_refuted`, `C39_pays_repeatedly_refuted`, `C39_eaten_catches_refuted`, `C41_stale_values_refuted`, `C59_assigned_transitions_refuted`, `C60_stochastic_refuted`, `C62_low_consumes_refuted`, `C63_same_name_refuted`, `C64_failed_construction_refuted`, `C65_reset_keeps_records_refuted`, `C66_negative_position_refuted`, `C66_negative_feature_refuted`, `C72_indifferent_opponent_refuted`, `C73_cached_consumer_refuted`, `C77_stochastic_refuted`, `C79_hex_turns`, `C79_square_turns`, `C98_square_transposed_partial`
* **`ClassicalDedekindReals.sig_forall_dec`, `FunctionalExtensionality.functional_extensionality_dep`**: `C05_construction`, `C05_transitions`, `C06_walls_block_exactly`, `C06_history_independent`, `C06_acceptance`, `C06_frame`, `C07_clear_restores`, `C07_add_wall`, `C08_adjacency_partial`, `C09_acceptance`, `C09_effect`, `C10_roundtrip`, `C10_reject`, `C10_consistency`, `C100_path`, `C100_after_plot`, `C100_square`, `C100_before_plot_refuted`, `C100_hidden_refuted`, `C100_agents`, `C100_negative_refuted`, `C100_negative_exists`, `C100_labels`, `C101_range`, `C101_constant_refuted`, `C102_features_refuted`, `C102_rewards_refuted`, `C102_actual_partial`, `C103_agents_refuted`, `C104_again`, `C105_unnamed_refuted`, `C105_unnamed_error`, `C105_repeated_refuted`, `C105_saved`, `C56_dict`, `C107_clear_walls_refuted`, `C108_clear_walls_refuted`, `C11_travel_time`, `C110_fit_refuted`, `C111_kept_partial`, `C111_value_iteration_partial`, `C111_tree_search_refuted`, `C112_kept_partial`, `C112_undisturbed_partial`, `C113_not_fitted`, `C113_no_values_refuted`, `C113_reset_refuted`, `C113_failed_policy_refuted`, `C114_unique_best_partial`, `C114_afterwards_partial`, `C115_live_partial`, `C115_reset_partial`, `C115_snapshot_refuted`, `C115_edit_refuted`, `C116_assigned`, `C116_until_fitted`, `C116_failed_fit`, `C116_others`, `C117_stale_policy_refuted`, `C117_next_step_partial`, `C118_ordinary_table_refuted`, `C118_erases_feature_refuted`, `C118_reset_refuted`, `C118_with_marks_partial`, `C12_never_into_walls`, `C12_single_move`, `C12_invalid_action_teleports`, `C120_tries_every_move`, `C121_shrunk_partial`, `C57_plots`, `C57_touching`, `C98_hex`, `C98_square_layers`, `C99_with_agents`, `C45_never_fails`, `C45_in_tree_search`, `C13_consume`, `C13_consume_again`, `C13_grid_tables`, `C131_assigned`, `C131_until_fitted`, `C131_as_if_given`, `C131_next_fit`, `C131_wrong_length`, `C132_refused_refuted`, `C133_assigned`, `C133_later_steps`, `C134_later_turns`, `C135_reset_like_new`, `C138_schedule`, `C139_no_draws_partial`, `C14_add`, `C14_move`, `C14_add_remove`, `C140_fit`, `C140_any_action`, `C141_same_rewards`, `C141_order`, `C141_plan_stable`, `C142_scaling`, `C143_finer_partial`, `C144_rewards`, `C146_between`, `C146_fit`, `C148_bounds`, `C149_longer`, `C149_never_above_best`, `C15_conserved`, `C15_from_start`, `C150_discount`, `C151_best`, `C151_grid`, `C152_back`, `C152_fewest`, `C153_random`, `C154_matching`, `C154_sight`, `C154_difference`, `C154_learners`, `C157_two_steps`, `C157_schedules`, `C16_marks_only_position`, `C16_until_eaten`, `C16_renewed`, `C16_on_a_state`, `C16_one_hot`, `C160_matching`, `C160_sight`, `C160_difference`, `C160_learners`, `C160_grids`, `C162_returned_refuted`, `C162_grids`, `C163_failed_refuted`, `C167_agents`, `C168_out`, `C17_accepts_iff`, `C17_rejects`, `C17_result`, `C170_unique_best`, `C170_afterwards`, `C171_same_outcome`, `C171_kept`, `C171_undisturbed`, `C172_ray`, `C173_detection`, `C87_grids`, `C90_grids`, `C178_best`, `C179_distribution`, `C18_reset`, `C182_next_step`, `C183_live`, `C183_reset`, `C185_opacity`, `C185_limited`, `C185_too_few`, `C186_colours_refuted`, `C186_ten_partial`, `C186_given`, `C187_refused`, `C19_step`, `C19_rejects`, `C19_failed_step`, `C190_fresh`, `C190_json`, `C191_start_refuted`, `C192_saved`, `C193_wrong_length`, `C195_two_steps`, `C195_schedules`, `C196_harmless`, `C197_greedy`, `C197_greedy_probabilities`, `C199_weights`, `C199_two`, `C199_at_most`, `C20_history`, `C20_reported`, `C20_connected`, `C20_count`, `C202_never_refuted`, `C202_grids`, `C205_others_untouched`, `C205_own_steps`, `C206_solver`, `C206_solution_bounded`, `C206_grids`, `C209_grids`, `C21_step_multi`, `C211_numpy`, `C211_numba`, `C215_maxent`, `C216_kept`, `C216_value_iteration`, `C217_kept`, `C217_undisturbed`, `C218_finer`, `C219_contrast`, `C22_beyond_one_turn_refuted`, `C22_within_one_turn_partial`, `C221_shrunk`, `C225_with_marks`, `C37_expand`, `C228_first_outcome`, `C228_equation`, `C229_dictionary`, `C229_json`, `C230_no_draws`, `C231_adjacency`, `C232_within_one_turn`, `C233_names`, `C233_consumes`, `C234_opacity`, `C234_too_few`, `C235_layers`, `C236_lines_refuted`, `C236_values_iff`, `C237_visible`, `C238_fitted`, `C238_unknown`, `C238_not_fitted`, `C239_repeats`, `C239_value_iteration`, `C240_values`, `C240_greedy`, `C241_statistics`, `C241_reported`, `C242_same`, `C25_probabilities`, `C25_sampled_is_best`, `C25_best_can_be_sampled`, `C26_mixed_infinities_refuted`, `C26_max_selector_partial`, `C27_temperature`, `C27_no_overflow`, `C28_interval`, `C28_zero_weight_never_drawn`, `C29_sweep_contracts`, `C29_solver`, `C29_solution_bounded`, `C29_rejects`, `C29_grids`, `C31_negative_refuted`, `C31_nonnegative_partial`, `C31_may_stop_partial`, `C31_solver_negative_refuted`, `C33_last_write_partial`, `C33_distinct_partial`, `C34_possible_actions_partial`, `C35_interactive`, `C35_alone_partial`, `C35_alone_refuted`, `C36_statistics`, `C36_fit`, `C37_simulate`, `C38_not_caught`, `C38_caught`, `C38_caught_iff`, `C39_out_partial`, `C40_never_created`, `C40_consumed`, `C40_collects`, `C40_reward_alone`, `C41_ordinary_partial`, `C42_values`, `C42_isolated`, `C43_without_schedule_refuted`, `C44_agent_table`, `C44_accepted`, `C44_environment`, `C45_all_possible_partial`, `C45_border_refuted`, `C46_shortest`, `C46_range`, `C46_symmetric`, `C46_periodic`, `C46_zero_iff`, `C46_triangle`, `C47_object`, `C50_maxent_first_reset_partial`, `C50_maxent_no_estimate_refuted`, `C51_visits`, `C51_monotone`, `C51_total`, `C52_equal_refuted`, `C52_weights_partial`, `C52_short_partial`, `C53_ignored_zero`, `C53_default_refuted`, `C53_tuple_refuted`, `C53_matching_actual`, `C53_matching_refuted`, `C53_matching_range_refuted`, `C54_counts`, `C55_ray_partial`, `C55_staying_refuted`, `C56_json_refuted`, `C56_json_partial`, `C57_exact_refuted`, `C58_plain_mdp_refuted`, `C59_walls_reset_transitions_partial`, `C60_only_deterministic_partial`, `C62_upper_bound_partial`, `C63_one_agent_per_name_partial`, `C64_position_refuted`, `C64_refused_first_entry_partial`, `C66_detection_partial`, `C67_greedy_near_optimal`, `C69_nonnegative`, `C69_may_stop`, `C71_grids_have_no_dead_ends`, `C74_depth_refuted`, `C74_own_schedule_partial`, `C75_q_values`, `C75_grids`, `C76_visits`, `C76_nonnegative`, `C77_first_outcome_partial`, `C81_policy_irl_refuted`, `C88_counts`, `C88_learner`, `C88_object`, `C89_last_direction_refuted`, `C89_with_staying_partial`, `C89_actual`, `C97_staying`, `C98_square_refuted`, `C99_no_agents_refuted`
* **`ClassicalDedekindReals.sig_forall_dec`, `ClassicalDedekindReals.sig_not_dec`, `FunctionalExtensionality.functional_extensionality_dep`**: `C142_choices`, `C144_fitted`, `C145_walls_partial`, `C150_fitted`, `C151_fitted`, `C158_names`, `C158_grids`, `C159_constant`, `C159_grids`, `C177_walls`, `C178_solver`, `C197_softmax`, `C197_softmax_probabilities`, `C203_hyptest_refuted`, `C203_hyptest_errors`, `C204_lists`, `C204_floats`, `C207_fit`, `C207_walk`, `C215_hyptest`, `C220_numbers`, `C240_search`, `C240_fit`, `C240_next_step`, `C27_uniform`, `C27_shift`, `C27_sampled_is_possible`, `C29_unique_solution`, `C31_solver_nonnegative_partial`, `C31_solver_may_stop_partial`, `C42_next_step`, `C42_stale`, `C42_second_step`, `C50_hyptest_first_reset_partial`, `C50_hyptest_later_resets_refuted`, `C50_hyptest_none_refuted`, `C53_hyptest_others_partial`, `C53_hyptest_nan_refuted`, `C61_probabilities_nan`, `C61_sampling_raises`, `C67_returns_exist`, `C69_solver_nonnegative`, `C69_solver_may_stop`, `C85_hyptest_refuted`, `C92_numbers_partial`, `C94_moves`, `C94_split`, `C94_rows`, `C97_hex_headings`, `C97_square_headings`
* **`ClassicalDedekindReals.sig_forall_dec`, `ClassicalDedekindReals.sig_not_dec`, `Classical_Prop.classic`, `FunctionalExtensionality.functional_extensionality_dep`**: `C114_probable_partial`, `C119_walk`, `C119_goes_on`, `C129_shortest_path`, `C129_arrives`, `C129_defaults`, `C153_softmax`, `C153_greedy`, `C155_order_refuted`, `C155_single_states_partial`, `C156_cold_bound`, `C156_cold`, `C156_hot_bound`, `C156_hot`, `C156_warmer`, `C160_maxent`, `C160_hypotheses`, `C164_handed_out_refuted`, `C165_integers_refuted`, `C165_floats_partial`, `C166_fit`, `C166_steps`, `C166_sequence`, `C170_probable`, `C174_fit_succeeds`, `C175_fit_succeeds`, `C176_converges`, `C188_value_iteration`, `C193_succeeds`, `C194_own_place`, `C198_accepted_iff`, `C200_rates`, `C201_rates`, `C206_float64`, `C206_defaults`, `C207_shortest_path`, `C207_defaults`, `C208_overflow_refuted`, `C209_same`, `C209_defaults`, `C211_float64`, `C212_probabilities`, `C212_choice`, `C212_float64`, `C212_exp64`, `C213_fit`, `C213_walk`, `C213_defaults`, `C214_range`, `C214_constant_rate`, `C214_decaying_rate`, `C214_same_outcome`, `C214_float64`, `C214_pow64`, `C214_defaults`, `C215_policy`, `C222_own_moves`, `C226_settles`, `C227_exploit`, `C240_softmax`, `C240_float64`, `C241_whole_numbers`, `C241_float64`, `C242_float64`, `C242_defaults`, `C242_fit`, `C243_same`, `C243_large`, `C243_defaults`, `C243_grids`, `C243_walls`, `C243_fit`, `C243_settings`, `ieee_computes`, `C244_runs`, `C244_fit`, `C244_shortest_path`, `C245_statistics`, `C245_fit`, `C246_range`, `C246_any_rate`, `C246_decaying`, `C246_defaults`, `C247_sampled_is_best`, `C247_probabilities`, `C248_greedy_choice`, `C248_move`, `C249_same_answers`, `C27_gibbs`, `C30_mask`, `C30_policies`, `C32_backup`, `C32_unique_solution`, `C32_sweep_contracts`, `C32_solver`, `C32_soft_above_hard`, `C68_value_iteration_moves`, `C37_exploit_partial`, `C37_unvisited_refuted`, `C43_with_schedule_partial`, `C46_kernel`, `C47_average`, `C47_from_nothing`, `C48_one_trajectory_refuted`, `C48_when_it_succeeds_partial`, `C49_schedule_refuted`, `C49_second_fit_refuted`, `C49_integer_refuted`, `C49_actual_schedule`, `C49_two_observations_partial`, `C49_maxent_actual_schedule`, `C49_maxent_rate_refuted`, `C50_first_reset_partial`, `C50_later_resets_refuted`, `C50_no_estimate_refuted`, `C50_maxent_later_resets_refuted`, `C50_hyptest_none_error`, `C53_list_partial`, `C71_search_completes`, `C71_fit_succeeds`, `C78_length_scale_refuted`, `C79_generalisation`, `C80_convergence_refuted`, `C80_without_decay_partial`, `C82_staying_refuted`, `C83_match_refuted`, `C83_settles_partial`, `C84_warning_refuted`, `C85_returned_refuted`, `C86_given_refuted`, `C86_hyptest_refuted`, `C86_policy_refuted`, `C87_zero_iterations_refuted`, `C87_fit_succeeds_partial`, `C90_default_refuted`, `C90_other_normalisation_partial`, `C91_evidence`, `C91_unnormalised`, `C92_one_option_refuted`, `C92_absent_feature_refuted`, `C93_decay_partial`, `C93_no_decay_refuted`, `C93_equal_rates_refuted`, `C95_zero_start_refuted`, `C96_between`
