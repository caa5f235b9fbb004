(** Model of maMDP/algorithms/mcts.py. Definitions only.

    Random draws are arguments: [rnd t] is the draw made in step [t] of a search iteration. The UCT score
    needs logarithm and square root, so it is a parameter [score] of the search; [uct] below is the
    code's score over the reals. Compiled code does not check array bounds; the model raises IndexError. *)
From Coq Require Import String List ZArith Bool Reals.
From Verif Require Import PyBase MDPModel ActionModel SoftmaxModel EnvModel VIModel.
Import ListNotations.
Local Open Scope nat_scope.

Section MCTS.
Context {A : Type} {NA : Num A}.

(** mcts.py 26-37 [get_actions_states]: [np.argwhere(sas[node])], (action, next state) pairs in
    row-major order. *)
Definition get_actions_states (sas : list (list (list A))) (node : Z) : res (list (nat * nat)) :=
  let* s := py_index (length sas) node in
  let mat := nth s sas [] in
  Ok (concat (map (fun '(a, row) => map (fun t => (a, t)) (where_ (fun x => negb (neqb x n0)) row))
                  (combine (seq 0 (length mat)) mat))).

(** mcts.py 187: [np.argmax] of floats: the first NaN if there is one, else the first maximum. *)
Definition fargmax (l : list (fval A)) : res nat :=
  match where_ isnan l with
  | i :: _ => Ok i
  | [] => let* mx := fmax_list l in Ok (nth 0 (where_ (feqb mx) l) 0)
  end.

(** mcts.py 81, 175 and 191: [np.random.choice(l)]: raises ValueError if there is nothing to choose from. *)
Definition pick (l : list nat) (draw : nat) : res nat :=
  match l with [] => Err ValueError | _ => Ok (nth (draw mod length l) l 0) end.

(** mcts.py 126-147 and 184: Score of moving from [node] (a possibly negative index) to a state: visits and values are the
    arrays [N] and [V]. *)
Definition scorer := list A -> list A -> A -> Z -> nat -> fval A.

(** mcts.py 150-193 [MCTS_next_node]. *)
Definition mcts_next_node (score : scorer) (expand : bool) (V N : list A) (states : list nat) (C : A) (node : Z)
    (draw : nat) : res (nat * bool) :=
  let unexplored := filter (fun s => neqb (nth s N n0) n0) states in
  if expand && negb (length unexplored =? 0) then
    let* x := pick unexplored draw in Ok (x, false)
  else if expand then
    let* i := fargmax (map (score V N C node) states) in Ok (nth i states 0, true)
  else
    let* x := pick states draw in Ok (x, false).

(** mcts.py 196-238 [check_agent_overlap]: reward, activity, whether the primary agent was caught. The
    pairs are [np.where(consumes_agents)]. The current activity is not consulted. *)
Definition true_pairs (m : list (list bool)) : list (nat * nat) :=
  concat (map (fun '(i, row) => map (fun j => (i, j)) (where_ (fun b => b) row)) (combine (seq 0 (length m)) m)).
(** mcts.py 221-238: the loop over pairs. *)
Fixpoint overlap_loop (pairs : list (nat * nat)) (nodes : list Z) (cost : A) (values : list A) (reward : A)
    (active : list bool) : A * list bool * bool :=
  match pairs with
  | [] => (reward, active, false)
  | (a1, a2) :: r =>
    if (nth a1 nodes 0 =? nth a2 nodes 0)%Z then
      let active' := upd active a2 false in
      if a2 =? 0 then (nadd reward cost, active', true)
      else overlap_loop r nodes cost values (if a1 =? 0 then nadd reward (nth a2 values n0) else reward) active'
    else overlap_loop r nodes cost values reward active
  end.
(** mcts.py 196-238 [check_agent_overlap]. *)
Definition check_agent_overlap (consumes_agents : list (list bool)) (nodes : list Z) (cost : A)
    (active : list bool) (values : list A) : A * list bool * bool :=
  overlap_loop (true_pairs consumes_agents) nodes cost values n0 active.

(** mcts.py 80-116: How opponents move: at random, by solving the MDP and selecting with [select], or a setting the
    code does not implement. *)
Inductive opp_policy :=
| OppRandom
| OppSolve (select : list (fval A) -> nat -> res nat)
| OppUnsupported.

(** mcts.py 40-122 [get_opponent_next_state]. [q] are precomputed Q values. The opponent algorithm "sr"
    raises (line 91); [OppUnsupported] stands for it and for unknown settings. The assertion in
    118-120 always holds for a randomly chosen successor. *)
Definition opp_next_state (pol : opp_policy) (states : list nat) (node : Z) (rf : list A) (features : list (list A))
    (sas : list (list (list A))) (max_iter : Z) (discount tol : A) (q : option (list (list (fval A)))) (draw : nat)
    : res (nat * option (list (list (fval A)))) :=
  match pol with
  | OppUnsupported => Err NotImplementedErr
  | OppRandom => let* x := pick states draw in Ok (x, q)
  | OppSolve select =>
    let* qv := match q with
               | Some qv => Ok qv
               | None => let* (_, qv) := solve_value_iteration hard_backup rf features max_iter discount sas tol in Ok qv
               end in
    let* s := py_index (length sas) node in
    let* a := select (nth s qv []) draw in
    let t := argmax (nth a (nth s sas []) []) in
    if existsb (fun row => nltb n0 (nth t row n0)) (nth s sas []) then Ok (t, Some qv) else Err AssertionError
  end.

(** mcts.py 404-409: The key under which opponent Q values are cached: positions of the other agents, and the
    consumption record of the features the opponent cares about (lines 407-409: with one such feature
    [itemgetter] returns its record itself). *)
Definition cache_key := (list Z * list (list Z))%type.
(** mcts.py 715: for each agent a dictionary, newest entry first. *)
Definition cache := list (list (cache_key * option (list (list (fval A))))).
(** mcts.py 413: equality of keys. *)
Definition key_eqb (k k' : cache_key) : bool :=
  if list_eq_dec Z.eq_dec (fst k) (fst k') then
    if list_eq_dec (list_eq_dec Z.eq_dec) (snd k) (snd k') then true else false
  else false.
(** mcts.py 411-415 and 431-433: lookup. *)
Definition cache_find (c : cache) (agent : nat) (k : cache_key) : option (option (list (list (fval A)))) :=
  match find (fun e => key_eqb k (fst e)) (nth agent c []) with Some e => Some (snd e) | None => None end.
(** mcts.py 453-455: a new entry. *)
Definition cache_put (c : cache) (agent : nat) (k : cache_key) (q : option (list (list (fval A)))) : cache :=
  upd c agent ((k, q) :: nth agent c []).

(** mcts.py 242-268: The fixed inputs of a search iteration (arguments of [mcts_iteration], lines 242-268). The code takes
    boolean masks over features and reward functions with one entry per feature; where the lengths
    differ the code raises and the model does not (environments and [Algorithm.fit] reject such agents). *)
Record search := mkSearch {
  s_interactive : bool;
  s_sas : list (list (list A));
  s_features : list (list A);
  s_start : list Z;
  s_n_moves : list (list Z);
  s_consumes_agents : list (list bool);
  s_consumes : list (list bool);
  s_values : list A;
  s_rewards : list (list A);
  s_feature_idx : list nat;
  s_C : A;
  s_cost : A;
  s_policy : opp_policy;
  s_caching : bool;
  s_max_iter : Z;
  s_discount : A;
  s_tol : A
}.

(** mcts.py 314-349: The local variables of [mcts_iteration] (lines 314-349). *)
Record it_state := mkIt {
  it_total : Z;
  it_expand : bool;
  it_reward : A;
  it_visited : list nat;
  it_nodes : list Z;
  it_actor : nat;
  it_features : list (list A);
  it_moves : list Z;
  it_turns : list nat;
  it_active : list bool;
  it_consumed : list (list Z);
  it_cache : cache;
  it_others : list (list nat)
}.
(** mcts.py 314-349: their initial values. *)
Definition it_start (c : search) (k : cache) : it_state :=
  let n := length (s_start c) in
  mkIt 0 true n0 [] (s_start c) 0 (s_features c) (repeat 0%Z n) (repeat 0 n) (repeat true n)
       (repeat [] (length (s_features c))) k (repeat [] (n - 1)).
(** mcts.py 315 [n_steps]. *)
Definition n_steps (c : search) : Z := zsum (map zsum (s_n_moves c)).

(** mcts.py 358-360: mark the actor's position in its feature row. *)
Definition mark_actor (c : search) (st : it_state) : res (list (list A)) :=
  let fi := nth (it_actor st) (s_feature_idx c) 0 in
  let row := map (fun _ => n0) (nth fi (it_features st) []) in
  let* p := py_index (length row) (nth (it_actor st) (it_nodes st) 0%Z) in
  Ok (upd (it_features st) fi (upd row p n1)).

(** mcts.py 399-460: an opponent's move. Returns its new node, the cache and the record of its states. *)
Definition preferences (rf : list A) : list nat := where_ (fun x => negb (neqb x n0)) rf.
(** mcts.py 404-406 [other_agent_nodes]. *)
Definition others_nodes (nodes : list Z) (a : nat) : list Z := firstn a nodes ++ skipn (S a) nodes.
(** mcts.py 399-460: an opponent's move. *)
Definition opponent_move (c : search) (st : it_state) (features : list (list A)) (states : list nat) (draw : nat)
    : res (nat * cache) :=
  let a := it_actor st in
  let rf := nth a (s_rewards c) [] in
  match preferences rf with
  | [] => Err TypeError
  | prefs =>
    let key := (others_nodes (it_nodes st) a, map (fun f => nth f (it_consumed st) []) prefs) in
    let go q := opp_next_state (s_policy c) states (nth a (it_nodes st) 0%Z) rf features (s_sas c) (s_max_iter c)
                  (s_discount c) (s_tol c) q draw in
    match (if s_caching c then cache_find (it_cache st) a key else None) with
    | Some q => let* (x, _) := go q in Ok (x, it_cache st)
    | None =>
      let* (x, q) := go None in
      Ok (x, if s_caching c then cache_put (it_cache st) a key q else it_cache st)
    end
  end.

(** mcts.py 462-483: the actor consumes what it can at [node]. With caching, the truth value of an array
    with more than one element raises ValueError. *)
Definition consume_at (features : list (list A)) (mask : list bool) (p : nat) : list (list A) :=
  map (fun '(b, row) => if (b : bool) then upd row p n0 else row) (combine mask features).
(** mcts.py 465-478: the record of what was consumed. *)
Definition record_consumed (caching : bool) (features : list (list A)) (mask : list bool) (p : nat) (node : Z)
    (consumed : list (list Z)) : res (list (list Z)) :=
  if caching then
    match where_ (fun b => b) mask with
    | [] => Ok consumed
    | [f] => if neqb (get2 n0 features f p) n0 then Ok consumed else Ok (upd consumed f (nth f consumed [] ++ [node]))
    | _ => Err ValueError
    end
  else Ok consumed.

(** mcts.py 355-488: the actor makes a move. [inr] means that the primary agent was caught. *)
Definition it_move (score : scorer) (c : search) (V N : list A) (rnd : nat -> nat) (st : it_state) : res (it_state + it_state) :=
  let a := it_actor st in
  let* features := mark_actor c st in
  let '(added, active, caught) :=
    if s_interactive c then check_agent_overlap (s_consumes_agents c) (it_nodes st) (s_cost c) (it_active st) (s_values c)
    else (n0, it_active st, false) in
  let reward := nadd (it_reward st) added in
  if caught then
    Ok (inr (mkIt (it_total st) (it_expand st) reward (it_visited st) (it_nodes st) a features (it_moves st)
                  (it_turns st) active (it_consumed st) (it_cache st) (it_others st)))
  else
    let* acts := get_actions_states (s_sas c) (nth a (it_nodes st) 0%Z) in
    let states := map snd acts in
    let draw := rnd (Z.to_nat (it_total st)) in
    let* (expand, reward', visited, nodes, k, others) :=
      if a =? 0 then
        let rewards := state_rewards (length (s_sas c)) (nth 0 (s_rewards c) []) features in
        let* (x, expand) := mcts_next_node score (it_expand st) V N states (s_C c) (nth 0 (it_nodes st) 0%Z) draw in
        Ok (expand, nadd reward (nth x rewards n0), it_visited st ++ [x], upd (it_nodes st) 0 (Z.of_nat x),
            it_cache st, it_others st)
      else if s_interactive c && nth a active false then
        let* (x, k) := opponent_move c st features states draw in
        Ok (it_expand st, reward, it_visited st, upd (it_nodes st) a (Z.of_nat x), k,
            upd (it_others st) (a - 1) (nth (a - 1) (it_others st) [] ++ [x]))
      else Ok (it_expand st, reward, it_visited st, it_nodes st, it_cache st, it_others st) in
    let* (features', consumed) :=
      if nth a active false then
        let node := nth a nodes 0%Z in
        let* p := py_index (length (s_sas c)) node in
        let* consumed := record_consumed (s_caching c) features (nth a (s_consumes c) []) p node (it_consumed st) in
        Ok (consume_at features (nth a (s_consumes c) []) p, consumed)
      else Ok (features, it_consumed st) in
    Ok (inl (mkIt (it_total st + 1) expand reward' visited nodes a features'
                  (upd (it_moves st) a (nth a (it_moves st) 0 + 1)%Z) (it_turns st) active consumed k others)).

(** mcts.py 490-505: who moves next. *)
Definition it_next (c : search) (k : Z) (st : it_state) : it_state :=
  let a := it_actor st in
  if s_interactive c && (nth a (it_moves st) 0 =? k)%Z then
    mkIt (it_total st) (it_expand st) (it_reward st) (it_visited st) (it_nodes st)
         (if a <? length (it_moves st) - 1 then S a else 0) (it_features st) (upd (it_moves st) a 0%Z)
         (upd (it_turns st) a (S (nth a (it_turns st) 0))) (it_active st) (it_consumed st) (it_cache st) (it_others st)
  else st.

(** mcts.py 353-505: one pass through the loop body. *)
Definition it_body (score : scorer) (c : search) (V N : list A) (rnd : nat -> nat) (st : it_state) : res (it_state + it_state) :=
  let a := it_actor st in
  match nth_error (s_n_moves c) a with
  | None => Err IndexError
  | Some row =>
    match nth_error row (nth a (it_turns st) 0) with
    | None => Err IndexError
    | Some k =>
      let* r := if (0 <? k)%Z then it_move score c V N rnd st else Ok (inl st) in
      match r with
      | inl st' => Ok (inl (it_next c k st'))
      | inr st' => Ok (inr st')
      end
    end
  end.

(** mcts.py 353: The loop. The flag tells whether the primary agent was caught; [Diverges] that the fuel ran out. *)
Fixpoint it_loop (score : scorer) (c : search) (V N : list A) (rnd : nat -> nat) (fuel : nat) (st : it_state) : res (it_state * bool) :=
  match fuel with
  | O => Err Diverges
  | S fuel' =>
    if (it_total st <? n_steps c)%Z then
      let* r := it_body score c V N rnd st in
      match r with
      | inl st' => it_loop score c V N rnd fuel' st'
      | inr st' => Ok (st', true)
      end
    else Ok (st, false)
  end.

(** mcts.py 241-514 [mcts_iteration]: reward, visited states, cache, states of the others. *)
Definition mcts_iteration (score : scorer) (c : search) (V N : list A) (k : cache) (rnd : nat -> nat) (fuel : nat)
    : res (A * list nat * cache * list (list nat)) :=
  let* (st, _) := it_loop score c V N rnd fuel (it_start c k) in
  Ok (it_reward st, it_visited st, it_cache st, it_others st).

(** * Agent information *)

(** mcts.py 906-929: One agent as passed in [agent_info] and [opponent_info]: start state, moves per turn, features it
    consumes, reward function, feature index. *)
Record info := mkInfo {
  i_pos : Z; i_n_moves : Z; i_consumes : list Z; i_reward : list A; i_feature : nat }.

(** mcts.py 517-548 [extract_agent_info]: [consumes[list] = 1] on an array of zeros. *)
Definition consume_mask (i : info) : res (list bool) :=
  foldM (fun m z => let* j := py_index (length m) z in Ok (upd m j true)) (i_consumes i) (map (fun _ => false) (i_reward i)).

(** mcts.py 551-568 [get_agent_values]. *)
Definition agent_value (l : list info) (a : nat) : A :=
  if a =? 0 then n0 else nth (i_feature (nth a l (mkInfo 0 0 [] [] 0))) (i_reward (nth 0 l (mkInfo 0 0 [] [] 0))) n0.

(** mcts.py 571-585 [get_agent_consumes]; [agent_idx] maps feature indices to places (for repeated indices
    the last place is kept). *)
Definition agent_of_feature (l : list info) (f : nat) : option nat :=
  match filter (fun a => i_feature (nth a l (mkInfo 0 0 [] [] 0)) =? f) (seq 0 (length l)) with
  | [] => None
  | x :: r => Some (last r x)
  end.
(** mcts.py 577-583: one row of [consumes_agents]. *)
Definition consumes_row (l : list info) (mask : list bool) : list bool :=
  fold_left (fun row f => match agent_of_feature l f with Some a => upd row a true | None => row end)
            (where_ (fun b => b) mask) (map (fun _ => false) l).

(** mcts.py 588-618 [extract_all_agent_info], and the settings of the search. The reward functions are
    stacked, so they must have equal lengths. *)
Definition make_search (interactive : bool) (features : list (list A)) (sas : list (list (list A)))
    (l : list info) (n_moves : list (list Z)) (C cost : A) (pol : opp_policy) (caching : bool)
    (max_iter : Z) (discount tol : A) : res search :=
  if negb (forallb (fun i => length (i_reward i) =? length (i_reward (nth 0 l (mkInfo 0 0 [] [] 0)))) l) then Err ValueError
  else
    let* masks := mapM consume_mask l in
    Ok (mkSearch interactive sas features (map i_pos l) n_moves (map (consumes_row l) masks) masks
          (map (agent_value l) (seq 0 (length l))) (map i_reward l) (map i_feature l) C cost pol caching max_iter discount tol).

(** * The search *)

(** mcts.py 756-759: backpropagation. *)
Definition backprop (VN : list A * list A) (reward : A) (visited : list nat) : list A * list A :=
  fold_left (fun '(V, N) v => (upd V v (nadd (nth v V n0) reward), upd N v (nadd (nth v N n0) n1))) visited VN.

(** mcts.py 721-765: the iterations. [rnd i] are the draws of iteration [i]. *)
Fixpoint search_loop (score : scorer) (c : search) (rnd : nat -> nat -> nat) (fuel i todo : nat)
    (V N : list A) (k : cache) (states : list (list nat)) : res (list A * list A * cache * list (list nat)) :=
  match todo with
  | O => Ok (V, N, k, states)
  | S todo' =>
    let* (reward, visited, k', _) := mcts_iteration score c V N k (rnd i) fuel in
    let '(V', N') := backprop (V, N) reward visited in
    search_loop score c rnd fuel (S i) todo' V' N' k' (states ++ [visited])
  end.

(** mcts.py 621-770 [run_mcts]. Without a schedule the agents' moves per turn, a list of numbers, are
    used where a list of lists is needed: [sum] of a number raises TypeError in the first iteration. *)
Definition run_mcts (score : scorer) (interactive : bool) (n_iter : Z) (features : list (list A)) (sas : list (list (list A)))
    (l : list info) (C : A) (n_moves : option (list (list Z))) (cost : A) (pol : opp_policy) (caching : bool)
    (max_iter : Z) (discount tol : A) (k : option cache) (rnd : nat -> nat -> nat) (fuel : nat)
    : res (list A * list A * cache * list (list nat)) :=
  let* c := make_search interactive features sas l (match n_moves with Some m => m | None => [] end) C cost pol caching max_iter discount tol in
  match n_moves with
  | None => if (0 <? n_iter)%Z then Err TypeError
            else Ok (zeros1 (length sas), zeros1 (length sas), match k with Some k' => k' | None => repeat [] (length l) end, [])
  | Some _ =>
    search_loop score c rnd fuel 0 (Z.to_nat n_iter) (zeros1 (length sas)) (zeros1 (length sas))
      (match k with Some k' => k' | None => repeat [] (length l) end) []
  end.

(** mcts.py 773-782 [get_MCTS_action_values]: (action, value, next state). *)
Definition mcts_action_values (node : Z) (sas : list (list (list A))) (V N : list A) : res (list (nat * A * nat)) :=
  let* acts := get_actions_states sas node in
  Ok (map (fun '(a, t) => (a, ndiv (nth t V n0) (nadd n1 (nth t N n0)), t)) acts).

(** mcts.py 995-998: the Q values. *)
Definition mcts_q (n_states n_actions : nat) (position : Z) (values : list (nat * A * nat)) : res (list (list (fval A))) :=
  let* p := py_index n_states position in
  Ok (upd (repeat (repeat NaN n_actions) n_states) p
          (fold_left (fun row '(a, x, _) => upd row a (Fin x)) values (repeat NaN n_actions))).

(** mcts.py 824-882: the settings of an [MCTS] object. *)
Record mcts_config := mkMCTS {
  mc_n_iter : Z; mc_C : A; mc_cost : A; mc_interactive : bool; mc_policy : opp_policy; mc_caching : bool;
  mc_max_iter : Z; mc_discount : A; mc_tol : A }.

(** mcts.py 892-931 [create_agent_info]. *)
Definition agent_info (a : attached A) : info :=
  mkInfo (at_pos a) (at_n_moves a) (at_consumes a) (at_reward a) (at_feature_idx a).
(** mcts.py 906-931: the agent first, then the others. *)
Definition all_info (interactive : bool) (e : env A) (a : attached A) : list info :=
  agent_info a :: (if interactive then map agent_info (filter (fun b => negb (String.eqb (at_name b) (at_name a))) (e_agents e)) else []).

(** mcts.py 933-1000 [MCTS._fit] for an agent in an environment, with the default [reset_cache]: every fit
    starts with an empty cache. The successor representation (lines 947-948) is computed but not used. *)
Definition mcts_fit (score : scorer) (cfg : mcts_config) (e : env A) (a : attached A) (n_moves : option (list (list Z)))
    (rnd : nat -> nat -> nat) (fuel : nat) : res (fitted A) :=
  let m := e_mdp e in
  let* (V, N, _, _) := run_mcts score (mc_interactive cfg) (mc_n_iter cfg) (m_features m) (m_sas m)
      (all_info (mc_interactive cfg) e a) (mc_C cfg) n_moves (mc_cost cfg) (mc_policy cfg) (mc_caching cfg)
      (mc_max_iter cfg) (mc_discount cfg) (mc_tol cfg) None rnd fuel in
  let* values := mcts_action_values (at_pos a) (m_sas m) V N in
  let* q := mcts_q (m_n_states m) (m_n_actions m) (at_pos a) values in
  Ok (map Fin V, q).

End MCTS.
Arguments opp_policy A : clear implicits. Arguments search A : clear implicits. Arguments it_state A : clear implicits.
Arguments info A : clear implicits. Arguments mcts_config A : clear implicits. Arguments cache A : clear implicits.
Arguments scorer A : clear implicits.

(** mcts.py 125-147 [UCB], one state. If the current node has no visits, [np.log] gives minus infinity
    and its square root NaN. *)
Definition uct : scorer R := fun V N C node s =>
  match py_index (length N) node with
  | Err _ => NaN
  | Ok p =>
    if Reqb (nth p N 0%R) 0 then NaN
    else Fin (nth s V 0 / (1 + nth s N 0) + C * sqrt (2 * ln (nth p N 0) / (1 + nth s N 0)))%R
  end.

(** mcts.py 99-111: opponent action selection, greedy (also for temperature zero), or softmax with a
    positive temperature; [u] turns a draw into a number in [0, 1). *)
Definition select_max {A} `{Num A} (row : list (fval A)) (draw : nat) : res nat := random_max row draw.
(** mcts.py 106-111: softmax selection. *)
Definition select_softmax (temperature : R) (u : nat -> R) (row : list (fval R)) (draw : nat) : res nat :=
  let* ps := mapM (fun v => match fin_of v with Some x => Ok x | None => Err ValueError end) (softmax row temperature) in
  Ok (rand_choice_nb ps (u draw)).
