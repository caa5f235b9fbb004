# Formal model of maMDP (tobywise/multi_agent_mdp) in Rocq

Everything is in `rocq/theories` (logical name `Verif`). `properties.jsonl` lists the
properties in English, `MANIFEST.json` maps each one to its theorems, `seeded/LOG.jsonl` records
the wrong programs the theorems were tested against.

This file is generated by `tools/design.py`; the properties by `tools/props.py`, the manifest by
`tools/manifest.py`, the table of axioms by `tools/assumptions.py`.

## 1. How the code is modelled

* **Functions.** Every Python function is a total, executable Gallina function with the same
  control flow. Loops over ranges are folds over `seq`; `while` loops take fuel and running out of
  fuel is the explicit outcome `Err Diverges`, so that termination is itself a theorem.
* **Exceptions** are values: `res A := Ok a | Err e` with one constructor per Python exception class.
  Methods that can raise *after* having changed something return the changed state together with the
  `res`, so partial effects are visible.
* **Numbers.** Floating point is idealised, except for value iteration, softmax and policy learning in C206 to C214 (see section 5): arrays hold elements of a type with a `Num` record
  (0, 1, +, -, *, /, <, =, injection of integers). Theorems are about the instance over `R`
  (or generic in it); the instance over `Q` makes the same definitions executable, and the
  concrete examples and counter-examples are evaluated there by `vm_compute`. NaN and the
  infinities, which the code uses as markers, are explicit: `fval A := NaN | NInf | PInf | Fin a`.
* **Arrays** are nested lists; in-range reads are `nth`, writes are `upd`. Indices that come from the
  user follow Python's rules (negative wrap-around, IndexError). Where the identity of an array
  matters (learners that hand out or keep their own array) arrays live in an explicit heap.
* **Randomness** is a draw passed as an argument (a natural number for "choose one of these", a real
  in [0,1) for inverse-CDF sampling). Theorems quantify over all draws. Where it matters which generator is
  drawn from (C136–C139), the generators are part of the state.
* **Plug-ins.** An agent's algorithm and action selector are parameters of the environment model, so the
  environment theorems hold for every algorithm and selector, and are then instantiated with
  value iteration, the null algorithm, tree search, greedy and softmax selection. A flag per agent says whether
  its algorithm discards the earlier result before planning (`pl_forgets`; tree search does).

## 2. File layout

`*Model.v` definitions only, each with a comment citing file and lines in /repo;
`*Spec.v` small specifications (no reference to the model's helpers);
`*Proofs.v` lemmas; `*Props.v` (and the files named after a topic) the property theorems, with
concrete examples meeting their hypotheses.

| files | code |
|---|---|
| `PyBase`, `PyProofs`, `RSum`, `LinProofs` | Python and numpy primitives; sums, matrices |
| `Grid*` | grid_utils.py, grid helpers of mdp.py |
| `MDP*` | mdp.py: `MDP`, `GridMDP`, `HexGridMDP`, `SquareGridMDP` |
| `Action*`, `Softmax*` | algorithms/action_selection.py |
| `Env*`, `Step*`, `Plan*`, `Proba*` | environments.py, agents.py, algorithms/base.py |
| `VI*`, `Goal*` | algorithms/dynamic_programming.py |
| `MCTS*` | algorithms/mcts.py |
| `SR*` | algorithms/successor_representation.py |
| `PL*`, `TDObj*` | algorithms/policy_learning.py |
| `IRL*`, `Hyp*`, `Sight*` | algorithms/irl.py |
| `Plot*` | plotting.py and the plotting methods of mdp.py, agents.py, environments.py |
| `IO*` | env_io.py |
| `Query*`, `Hist*` | queries of environments.py; position histories as list objects |
| `Set*` | assigning an agent's `algorithm`, `reward_function`, `consumes`, `n_moves` and the MDP's `features` while an environment is in use |
| `Rng*` | the random number generators behind action_selection.py and mcts.py: who draws from which |
| `Again*` | an environment after a reset, compared with a new one |
| `World*` | several MDPs, environments and agents at once: which objects and arrays they share |

## 3. Approach per group of properties

| ids | what is modelled | how it is proved |
|---|---|---|
| C01–C04 | coordinates, distances, adjacency, directions | div/mod arithmetic, parity case analysis, walks as an inductive relation |
| C05–C09, C58–C60 | construction, walls, transition functions | loop invariants, induction over histories of calls |
| C10–C12 | trajectories, travel times, walls | induction on trajectories and distance |
| C13–C24, C62–C66 | the environment as a transition system | inductive invariants over all sequences of calls |
| C25–C28, C61 | action selection, sampling | list lemmas, real analysis for exp |
| C29–C32, C67–C69 | value iteration | contraction in the sup norm, completeness of R |
| C33, C34, C68 | stepping of fitted agents | composition of environment and solver |
| C35–C44, C70–C74 | tree search | invariants of the iteration loop with fuel |
| C45, C75–C77 | successor representation | correctness of elimination, sup-norm argument for invertibility |
| C46–C50, C78–C82 | policy learning | real arithmetic, induction over observations |
| C51–C55, C83–C89 | inverse reinforcement learning | induction over iterations; induction along rays of the grid |
| C85, C86, C90–C96 | hypothesis testing | induction over observations; heap of arrays |
| C57, C97–C101 | plotting | parity case analysis over R |
| C56, C102–C105 | saving and loading | composition of the two conversions |
| C106–C110 | sharing of arrays, MDPs and agents | a world of objects with identity; invariant of ownership over all histories |
| C113, C114 | queries about plans, and the steps that follow | facts about one agent kept by every call, by induction over histories |
| C115 | the list object of a position history | histories in a heap of lists; simulation by the plain model |
| C116-C118 | assignments to an agent's algorithm and to the features | commutation of the assignment with every call for other agents; knowledge about one agent kept by calls; invariants of environments |
| C119 | a planned agent walking through any calls | greedy moves lose little per step; discounted sum along the position history by induction |
| C129, C130 | the same, with a single goal | optimal values are a geometric function of the distance; an approximate plan keeps the order |
| C131–C134 | assignments to an agent's other attributes | commutation of the assignment with every call; invariants of environments |
| C135, C139 | a reset, compared with a new environment | simulation up to consumption and step counts; two runs in lockstep |
| C136–C138 | the generators as part of the state | simulation of runs whose generators differ; projection on one agent's calls |
| C140 | the null algorithm | composition of environment, algorithm and selection |
| C141 | value iteration under two reward functions; any sequence of calls | rewards determine the run; invariant: the feature's row is never touched |
| C142, C143 | value iteration and selectors with multiplied rewards | simulation, sweep by sweep; counterexample |
| C144, C145 | best values and fitted values under larger rewards and more walls | contraction argument; error bound of C29; counterexample |
| C146 | values of a tree search without interaction | values are totals over visits (C36), each iteration's reward is what its walk pays (C40) and walks have the scheduled length; weighted-average argument |
| C147 | arrays as objects in memory (HeapModel.v), `get_pi`, `get_pi_p`, `get_policy` | copy and in-place writes tracked through any selector that writes only to what it is given or creates; the library selectors agree with ActionModel.v |
| C148 | `solve_value_iteration` (VIAnytime.v) | invariant of the in-place sweeps: values stay in the interval; any invariant of single updates carries over to the solver (`solver_kept`) |
| C149 | `solve_value_iteration` | invariant "no update lowers a value", and below the fixed point; induction over sweeps, with the smaller tolerance stopping later |
| C150 | `solve_value_iteration` | contraction argument of C144 with the discount as the varying part |
| C151 | `solve_value_iteration`, grids with walls | contraction argument restricted to the states reachable with positive probability |
| C152 | grids, walls, `state_valid_actions`, `get_next_state` (JourneyProps.v) | the opposite action undoes a move (C04); induction over the path |
| C153 | `get_opponent_next_state` (MCTSOpp.v) | the Gibbs form of softmax (C27) and inversion sampling (C28) applied to the masked values (C30); the assertion holds because the most probable outcome has positive probability |
| C154 | `fit_matching`, `trajectory_eyeline`, `trajectory_eyeline_diff`, `fit_simple` (IRLOrder.v) | the steps of the loops commute; a fold of commuting steps does not depend on the order |
| C155 | `fit_maxent` (IRLOrder.v) | the expected counts depend on the first states only, so not on the order; the observed ones do (C52); one iteration shows the difference |
| C156 | softmax and greedy probabilities (SoftmaxLimit.v) | weights relative to the best value lie between 0 and 1; the total lies between the number of best actions and that plus n exp(-D/T) |
| C157 | `env_step` on schedules (Schedule.v) | a step without consumption is a function of the agent and the transitions, plus writes to the agent's own row and entry; such writes commute; schedules by bringing the first step of an agent to the front |
| C158 | `solve_value_iteration`, grids (VISymm.v) | an optimal value of the renamed problem, renamed back, is an optimal value; optimal values are unique; the symmetries of `edge` by cases on directions |
| C159 | `solve_value_iteration`, grids (VIShift.v) | the shifted optimal value satisfies the optimality equation of the shifted rewards; impossible actions count 0 and so matter only if something is punished |
| C160 | all learners (IRLFeat.v) | planning depends on the state rewards only (C141); sums, means and normalisation do not depend on order; induction over iterations, moves and trajectories |
| C161–C163 | line-of-sight learners as objects (SightModel.v, SightProps.v) | arrays in memory; induction over the loop of `fit` and over histories of calls |
| C164, C165 | policy learners as objects (TDObjModel.v, TDObjProps.v) | arrays with addresses and types in memory; simulation by PLModel; induction over histories of calls |
| C166 | environment and value iteration (VIFit.v) | invariant over all calls: the named agent's Q table has the grid's shape and only finite values or minus infinity |
| C167 | coordinate table of a grid, positions in environments (CoordProps.v) | index arithmetic; C16 for the marks |
| C185, C186 | colours and opacities of hexagonal layers (ShadeModel.v, ShadeProps.v) | C99 for the layers, C01 for the cells |
| C187–C189 | checks of argument types, planners without an agent (ArgModel.v, ArgProps.v) | case analysis on kinds of arguments, induction over the entries; totality of value iteration from VIFit.v |
| C190–C192 | saving, loading and resetting (IOModel.v, EnvModel.v; IOFresh.v) | the MDP read back is equal field by field and the entries read back are those the environment was made from; C18 applied to the loaded environment |
| C193, C194 | probabilistic steps of value-iteration agents (EnvModel.v; ProbaPlace.v) | totality of the loop over pairs; C33_last_write_partial with uniqueness of the action between neighbours |
| C195 | steps of agents with different tastes (EnvModel.v; Tastes.v) | a step writes only rows that concern the agent; adjacent steps commute; schedules by induction |
| C196 | failed constructions (EnvModel.v, MDPModel.v; FailProps.v) | the table grows by the accepted agents only; removing them gives the table without agents |
| C197–C201 | what holds of C26, C48, C52, C93, C49 (Flagged.v, Restated.v) | from the partial theorems of these properties |
| C202 | tree search without an agent (KindModel.v; KindProps.v) | induction on the calls; the matrix of C45 can always be inverted |
| C203, C204 | initial weights of other types (KindModel.v; KindProps.v) | case analysis up to the first update; refinement of fit_maxent and fit_hyptest |
| C205 | do_op and the queries (EnvModel.v; Own.v) | induction on the calls; sums of histories |
| C206 | solve_value_iteration on rounded numbers (`NumF`, RoundModel.v; Flocq for float64) | every backup is within an error of the exact one and the iteration contracts; bounds on all values met; for the defaults, numbers |
| C207 | agents planning in rounded arithmetic (RoundWalk.v) | the walks of C119 and C129, for any planner with a given accuracy |
| C208 | solve_value_iteration with the soft backup and an exponential that overflows (OverModel.v) | refuted: the value of the state becomes infinite in the second sweep at the latest |
| C209 | the same | invariant: all values stay below the bound, so no exponential overflows; numbers for float64 |
| C210 | rand_choice_nb on IEEE 754 double precision numbers (Coq.Floats.SpecFloat) | refuted: computed |
| C211 | rand_choice_nb and numpy's choice on rounded numbers | cumulative sums are monotone and strictly grow only at positive weights; error bound for the last one |
| C212 | softmax and the softmax choice on rounded numbers | error of every exponential, of their sum and of the quotients |
| C213 | agents with the rounded planner and the rounded softmax selector (SoftRoundWalk.v) | the walk invariant of C119 with C206 and C212 |
| C214 | the policy learner on rounded numbers (PLRoundModel.v) | the rounded learner runs beside the exact one; the distance is an invariant of update, fit and reset |
| C215–C233 | true variants of refuted properties as properties of their own | stated next to the theorem with the suffix `_partial` they repeat |
| C234–C237 | shading of square layers, grid lines, limits of the axes | opacities per state from C99; edges of cells as half-integers; bounds on the centres of hexagons |
| C238 | `Environment.plot_state_values` | invariant of the plan under all calls (as C113), then C98 |
| C239 | runs after a reset when no plan leaves a choice | invariant over all runs: every stored plan draws one policy; then C135 and the stability of plans (C141) |
| C240 | the search with each operation rounded, and the softmax selection of simulated opponents | invariants of the search loop over the rounded instance; error bounds of the rounded softmax (C212) |
| C241 | statistics and reported values of the rounded search | invariant of the search loop: counts and totals are folds of rounded additions over the visits; error bound for rounded sums (C206) |
| C242 | value iteration over two rounded instances that agree up to a size | equality of every intermediate result by induction over folds, sweeps and iterations, from bounds on partial sums |
| C243 | value iteration and grids over IEEE 754 binary64 numbers (Flocq) | simulation: each number stands for a real number, each operation for the rounded one, by induction over folds, sweeps and iterations; then C206 |
| C244 | environments, agents, greedy selection and value iteration over IEEE 754 binary64 numbers | simulation of every call by the environment over real numbers with rounding, with the sizes of features and weights as part of the relation; then C207 |
| C245 | run_mcts, mcts_iteration and MCTS._fit over IEEE 754 binary64 numbers | invariant of the iteration: the reward stays below 2 * moves * 2^250, a number of the format, so no sum is rounded beyond it; then induction over the iterations |
| C246 | TDGeneralPolicyLearner over IEEE 754 binary64 numbers | invariant: every stored number is finite and in [0,1] (one update keeps it there, by C214's lemma); accuracy by running the learner with rounded reals alongside |
| C247 | MaxActionSelector over IEEE 754 binary64 numbers | comparisons agree with those of the real numbers, so C25 gives the best actions; the share 1/k is rounded once |
| C248 | MCTS._fit followed by MaxActionSelector over IEEE 754 binary64 numbers | only possible actions get a value (from the code that fills the row); then C245 and C247 |
| C249 | trajectory_to_state_action, state_pair_to_action, is_adjacent, state_valid_actions, get_next_state over IEEE 754 binary64 numbers | the comparisons agree with those of the real numbers entry by entry; induction over the rows |
| C120, C121 | what tree searches try, and the values they report | the first move of an iteration; pigeonhole over iterations; the statistics of C36 |
| C122–C128 | the parts of C45, C56, C57, C98–C101 that hold | the theorems of those properties |
| C168–C184 | the parts of C39, C113, C114, C41 and C112, C55, C66, C87, C90, C80, C145, C31, C33, C107, C109, C117, C115, C137 that hold | the `_partial` theorems of those properties, restated without the suffix beside them |
| C111 | failing fits | case analysis on reachable environments |
| C112 | a tree search keeping its cache | simulation of searches with different caches; soundness of entries as invariant over all sequences of fits |

Every property could be expressed in the model. Where the code violates the property a user would rely
on, a theorem with suffix `_refuted` shows it (for a whole class of inputs, or by a concrete witness),
and the strongest true variant is proved next to it with suffix `_partial`; the property's status is then
"partial". Such properties are statements about the code as it is: they cannot be strengthened to
"proved" without changing /repo.

## 4. Trusted base

* Coq 8.16.1 kernel (and coqchk), `vm_compute` for the evaluation of closed examples.
* The standard library's axioms listed in section 7: those of the real numbers
  (`ClassicalDedekindReals.sig_forall_dec`, `ClassicalDedekindReals.sig_not_dec`), functional
  extensionality, and excluded middle where the library's exp, ln, sqrt or trigonometry is used. No other axioms.
* The reading of the Python code recorded in the model comments, and Python's and numpy's documented
  behaviour for the primitives in `PyBase.v` (indexing, slicing, argmax, where, argwhere, reshape, sum).

## 5. What is not modelled

* **Floating point.** Value iteration and agents that plan with it are also modelled with rounding after every operation (C206,
  C207: `RoundModel.v`), with sums added from left to right and without overflow. The overflow of the exponential in soft value iteration is
  modelled, without rounding, in `OverModel.v` (C208, C209). Random choices and softmax are modelled with rounding in
  `SoftRoundModel.v` (C210 to C213), policy learning in `PLRoundModel.v` (C214), tree search in `MCTSRoundModel.v`
  (C240, C241). That value iteration does not overflow is C242 (`OverRound.v`); grids and value iteration over IEEE 754 numbers, bit by bit, are in `IEEEModel.v` (C243), agents that plan with them in C244, tree search in C245, policy learning in C246 and greedy selection in C247. Elsewhere rounding, overflow and underflow are not modelled; NaN and infinities only where the code uses or
  produces them in exact arithmetic. Sampling is exact.
* **Identity of arrays and objects** is modelled for MDPs, environments and agents (`World*`, C106–C110) and for
  the learners' arrays (C50, C85, C86, C161–C165), position histories (C115) and what the action selectors read and write (C147), not elsewhere: the other models treat arrays as values. In `World*` the
  caller does not write into arrays or change attributes, makes MDPs from arrays of their own (not from the
  live table of another MDP), and an algorithm whose last construction failed is taken to be attached as before.
* **Plug-ins** are assumed not to modify the environment they are given. The library's own do not.
* **Tree search**: the unused successor representation in `_fit`,
  the dead function `solve_all_value_iteration`, numba's unchecked array bounds (the model raises IndexError).
* **np.linalg.inv** is modelled by Gaussian elimination with exact numbers.
* **Policy learning**: initial values given as Python lists; the parts of `TDPolicyIRL` behind its
  unconditional failure (C81).
* **IRL**: initial weights of the wrong length; `MaxCausalEntIRL` with a list of MDPs (fails with
  AttributeError); printing and progress bars.
* **Plotting**: colours (except which colour and opacity a layer gets), markers, sizes, rendering by matplotlib; images are at integer points as `imshow` documents.
* **Saving**: the text of JSON (numbers, lists and dictionaries survive it exactly); writing files.
* **Probabilistic stepping** from a position vector with total zero (0/0).
* `setup.py`, examples and notebooks.

Simplifications inside modelled functions are stated in the comment of the definition concerned.

## 6. Results

@@RESULTS@@

## 7. Axioms per theorem (`Print Assumptions`)

@@AXIOMS@@
