(** Model of maMDP/environments.py, maMDP/agents.py and the base class of maMDP/algorithms/base.py
    (plotting methods excluded). Definitions only.

    Algorithms and action selectors are plug-ins: they are parameters, wrapped by the checks the
    library performs on what they return. A plug-in may depend on the whole environment, the
    requested number of moves and a random seed; it may raise any exception. It is assumed not to
    modify the environment, except that an algorithm may discard its own earlier result. *)
From Coq Require Import String List ZArith Bool.
From Verif Require Import PyBase GridModel MDPModel ActionModel.
Import ListNotations.
Local Open Scope nat_scope.

(** * environments.py 10-41 [get_n_moves_plan] *)

(** environments.py 33: Bound of a Python slice on a sequence of length [n]. *)
Definition slice_bound (n : nat) (i : Z) : nat :=
  if (i <? 0)%Z then Z.to_nat (Z.max 0 (i + Z.of_nat n)) else Z.to_nat (Z.min i (Z.of_nat n)).

(** environments.py 32-33: [plan_array = np.zeros(size); plan_array[a:b] = 1], as a list of 0/1. *)
Definition plan_array (size : nat) (a b : Z) : list Z :=
  map (fun i => if (slice_bound size a <=? i)%nat && (i <? slice_bound size b)%nat then 1%Z else 0%Z) (seq 0 size).

(** environments.py 34 [i.sum()] and 36 [sum(n_moves_plan)]. *)
Definition zsum (l : list Z) : Z := fold_right Z.add 0%Z l.

(** environments.py 10-41 [get_n_moves_plan]. [np.zeros] of a negative size raises ValueError; [np.split] into zero sections raises
    ZeroDivisionError and into a negative number of sections ValueError. The assertion in line 39
    always holds. *)
Definition get_n_moves_plan (current_move n_turns n_moves n_total : Z) : res (list Z) :=
  if (n_moves <=? current_move)%Z then Err ValueError
  else if (n_turns * n_moves <? 0)%Z then Err ValueError
  else if (n_turns =? 0)%Z then Err ZeroDivisionError
  else if (n_turns <? 0)%Z then Err ValueError
  else
    let arr := plan_array (Z.to_nat (n_turns * n_moves)) current_move (current_move + n_total) in
    let plan := map zsum (chunks (Z.to_nat n_turns) (Z.to_nat n_moves) arr) in
    if (zsum plan <=? n_total)%Z then Ok plan else Err AssertionError.

Section Env.
Context {A : Type} {NA : Num A}.

(** base.py 12-14 and 66-69: What an algorithm has stored after a successful fit: values and Q values. *)
Definition fitted := (list (fval A) * list (list (fval A)))%type.

(** agents.py 64-102: an attached agent. [at_fit] is the state of its algorithm (base.py 10-14,
    [fit_complete] and the two arrays); [at_start] is the private starting position. *)
Record attached := mkAttached {
  at_name : string;
  at_n_moves : Z;
  at_reward : list A;
  at_consumes : list Z;
  at_consumed : list nat;
  at_idx : nat;
  at_feature_idx : nat;
  at_fit : option fitted;
  at_start : Z;
  at_pos : Z;
  at_hist : list Z;
  at_pi : option (list Z);
  at_pi_p : option (list (list (fval A)))
}.

(** environments.py 44-75. [e_agents] is the dictionary of attached agents, keyed by [at_name], in
    insertion order; [e_names] is [agent_names]. *)
Record env := mkEnv {
  e_mdp : mdp A;
  e_names : list string;
  e_agents : list attached;
  e_n_agents : nat;
  e_n_steps : nat
}.

(** One entry of the dictionary passed to the constructor: the unattached agent (agents.py 16-54)
    with its name, moves per turn and algorithm state, and the tuple (position, reward, consumes).
    Keys are agent objects, so names may repeat. *)
Record spec := mkSpec {
  sp_name : string;
  sp_n_moves : Z;
  sp_fit : option fitted;
  sp_pos : Z;
  sp_reward : list A;
  sp_consumes : list Z
}.

(** The plug-ins of the agents, by agent name: [_fit] (base.py 71-78), [_get_pi] and [_get_pi_p]
    (action_selection.py). The numbers are random seeds. [pl_forgets] says whether [_fit] starts by
    discarding the earlier result, as tree search does (mcts.py 941-942, base.py 80-88). *)
Record plugins := mkPlugins {
  pl_fit : string -> env -> option (list (list Z)) -> nat -> res fitted;
  pl_pi : string -> nat -> list (list (fval A)) -> res (list Z);
  pl_pi_p : string -> list (list (fval A)) -> res (list (list (fval A)));
  pl_forgets : string -> bool
}.

(** agents.py 149 [self.__position = new_position]. *)
Definition set_pos_only (a : attached) (p : Z) : attached :=
  mkAttached (at_name a) (at_n_moves a) (at_reward a) (at_consumes a) (at_consumed a) (at_idx a)
    (at_feature_idx a) (at_fit a) (at_start a) p (at_hist a) (at_pi a) (at_pi_p a).
(** agents.py 178 and 229: [position_history]. *)
Definition set_hist (a : attached) (h : list Z) : attached :=
  mkAttached (at_name a) (at_n_moves a) (at_reward a) (at_consumes a) (at_consumed a) (at_idx a)
    (at_feature_idx a) (at_fit a) (at_start a) (at_pos a) h (at_pi a) (at_pi_p a).
(** agents.py 153-154 and 227-228: [pi] and [pi_p]. *)
Definition set_policy (a : attached) (pi : option (list Z)) (pi_p : option (list (list (fval A)))) : attached :=
  mkAttached (at_name a) (at_n_moves a) (at_reward a) (at_consumes a) (at_consumed a) (at_idx a)
    (at_feature_idx a) (at_fit a) (at_start a) (at_pos a) (at_hist a) pi pi_p.
(** base.py 66-69 and 84-86: the state of the agent's algorithm. *)
Definition set_fit (a : attached) (f : option fitted) : attached :=
  mkAttached (at_name a) (at_n_moves a) (at_reward a) (at_consumes a) (at_consumed a) (at_idx a)
    (at_feature_idx a) f (at_start a) (at_pos a) (at_hist a) (at_pi a) (at_pi_p a).
(** environments.py 242: [consumed]. *)
Definition set_consumed (a : attached) (c : list nat) : attached :=
  mkAttached (at_name a) (at_n_moves a) (at_reward a) (at_consumes a) c (at_idx a)
    (at_feature_idx a) (at_fit a) (at_start a) (at_pos a) (at_hist a) (at_pi a) (at_pi_p a).

(** environments.py 171, 202 and others, [self.agents[agent_name]]; 155 [self.__agents[name] = ...]. Dictionary lookup and assignment. *)
Definition find_agent (l : list attached) (name : string) : option attached :=
  find (fun a => String.eqb (at_name a) name) l.
(** environments.py 155, assignment to the dictionary of attached agents. *)
Definition put_agent (l : list attached) (a : attached) : list attached :=
  if existsb (fun b => String.eqb (at_name b) (at_name a)) l
  then map (fun b => if String.eqb (at_name b) (at_name a) then a else b) l
  else l ++ [a].

(** environments.py 91: the environment with its MDP object changed (helper). *)
Definition with_mdp (e : env) (m : mdp A) : env := mkEnv m (e_names e) (e_agents e) (e_n_agents e) (e_n_steps e).
(** environments.py 155: the environment with one attached agent changed (helper). *)
Definition with_agent (e : env) (a : attached) : env :=
  mkEnv (e_mdp e) (e_names e) (put_agent (e_agents e) a) (e_n_agents e) (e_n_steps e).
(** environments.py 204 and 226 [self.n_steps += 1]. *)
Definition tick (e : env) : env := mkEnv (e_mdp e) (e_names e) (e_agents e) (e_n_agents e) (S (e_n_steps e)).

(** * Construction *)

(** agents.py 137-149: setter of [position], once [__starting_position] is set. The message at line
    142 has two placeholders and one argument, so the intended ValueError is an IndexError. *)
Definition move_agent (m : mdp A) (a : attached) (p : Z) : mdp A * attached * res unit :=
  if (Z.of_nat (m_n_states m) <=? p)%Z then (m, a, Err IndexError)
  else match update_agent_feature m (at_idx a) p with
       | (m', Ok _) => (m', set_pos_only a p, Ok tt)
       | (m', Err e) => (m', a, Err e)
       end.

(** agents.py 56-102 [Agent._attach], [AttachedAgent.__init__]. *)
Definition attach (m : mdp A) (idx : nat) (s : spec) : mdp A * res attached :=
  match add_agent_feature m (sp_pos s) with
  | (m1, Err e) => (m1, Err e)
  | (m1, Ok _) =>
    let a := mkAttached (sp_name s) (sp_n_moves s) (sp_reward s) (sp_consumes s)
               (repeat 0 (length (sp_reward s))) idx (idx + m_n_non_agent m) (sp_fit s)
               (sp_pos s) (sp_pos s) [sp_pos s] None None in
    match move_agent m1 a (sp_pos s) with
    | (m2, a', Ok _) => (m2, Ok a')
    | (m2, _, Err e) => (m2, Err e)
    end
  end.

(** environments.py 109-155: one iteration. Type checks are enforced by the types. *)
Definition attach_checked (n_feat n_ag : nat) (m : mdp A) (idx : nat) (s : spec) : mdp A * res attached :=
  if negb (length (sp_reward s) =? n_feat + n_ag) then (m, Err AttributeError)
  else if existsb (fun i => (Z.of_nat (length (sp_reward s)) - 1 <? i)%Z) (sp_consumes s) then (m, Err ValueError)
  else attach m idx s.

(** environments.py 109-155: the loop over the agents. *)
Fixpoint attach_all (n_feat n_ag : nat) (m : mdp A) (idx : nat) (ss : list spec) (acc : list attached)
    : mdp A * res (list attached) :=
  match ss with
  | [] => (m, Ok acc)
  | s :: r =>
    match attach_checked n_feat n_ag m idx s with
    | (m', Err e) => (m', Err e)
    | (m', Ok a) => attach_all n_feat n_ag m' (S idx) r (put_agent acc a)
    end
  end.

(** environments.py 45-75 and 85-155: the constructor. The MDP object is modified even if the
    construction raises. *)
Definition make_env (m : mdp A) (ss : list spec) : mdp A * res env :=
  let cleaned := if (0 <? m_n_agents m) then remove_agent_features m else Ok m in
  match cleaned with
  | Err e => (m, Err e)
  | Ok m0 =>
    match attach_all (m_n_features m0) (length ss) m0 0 ss [] with
    | (m1, Err e) => (m1, Err e)
    | (m1, Ok ags) => (m1, Ok (mkEnv m1 (map sp_name ss) ags (length ags) 0))
    end
  end.

(** * Methods. Each returns the environment after the call and the result or exception. *)

(** environments.py 157-165 [_check_agent_name] and the lookup in [self.agents]. *)
Definition lookup (e : env) (name : string) : res attached :=
  if existsb (String.eqb name) (e_names e) then
    match find_agent (e_agents e) name with Some a => Ok a | None => Err KeyError end
  else Err ValueError.

(** agents.py 151-154 [get_policy]. *)
Definition get_policy (pl : plugins) (a : attached) (seed : nat) : attached * res unit :=
  match at_fit a with
  | None => (a, Err TypeError)
  | Some (_, q) =>
    match get_pi_p (pl_pi_p pl (at_name a)) q with
    | Err e => (a, Err e)
    | Ok p =>
      let a1 := set_policy a (at_pi a) (Some p) in
      match get_pi (pl_pi pl (at_name a) seed) q with
      | Err e => (a1, Err e)
      | Ok pi => (set_policy a (Some pi) (Some p), Ok tt)
      end
    end
  end.

(** base.py 25-69 [Algorithm.fit]: the checks around [_fit]. *)
Definition alg_fit (pl : plugins) (e : env) (a : attached) (n_moves : option (list (list Z))) (seed : nat) : res fitted :=
  if negb (length (at_reward a) =? m_n_features (e_mdp e)) then Err AttributeError
  else
    let* vq := pl_fit pl (at_name a) e n_moves seed in
    let '(v, q) := vq in
    if negb (length v =? m_n_states (e_mdp e)) then Err AssertionError
    else if negb (length q =? m_n_states (e_mdp e)) then Err AssertionError
    else if negb (forallb (fun row => length row =? m_n_actions (e_mdp e)) q) then Err AssertionError
    else Ok (v, q).

(** What a [fit] that raises leaves behind: base.py 40-51. The checks of the reward function come
    before [_fit], so only after them can an algorithm have discarded its earlier result. *)
Definition failed_fit (pl : plugins) (e : env) (a : attached) : env :=
  if (length (at_reward a) =? m_n_features (e_mdp e)) && pl_forgets pl (at_name a)
  then with_agent e (set_fit a None) else e.

(** environments.py 167-182 [fit], agents.py 156-162. *)
Definition env_fit (pl : plugins) (e : env) (name : string) (n_moves : option (list (list Z))) (seed seed' : nat)
    : env * res unit :=
  match lookup e name with
  | Err x => (e, Err x)
  | Ok a =>
    match alg_fit pl e a n_moves seed with
    | Err x => (failed_fit pl e a, Err x)
    | Ok f =>
      let '(a', r) := get_policy pl (set_fit a (Some f)) seed' in (with_agent e a', r)
    end
  end.

(** agents.py 164-179 [AttachedAgent.step]: agent and MDP afterwards. *)
Definition agent_step (pl : plugins) (m : mdp A) (a : attached) (seed : nat) : mdp A * attached * res unit :=
  match at_fit a with
  | None => (m, a, Err AttributeError)
  | Some _ =>
    match get_policy pl a seed with
    | (a1, Err x) => (m, a1, Err x)
    | (a1, Ok _) =>
      match at_pi a1 with
      | None => (m, a1, Err TypeError)
      | Some pi =>
        match (let* i := py_index (length pi) (at_pos a1) in Ok (nth i pi 0%Z)) with
        | Err x => (m, a1, Err x)
        | Ok act =>
          if (act <? 0)%Z then (m, a1, Err ValueError)
          else match get_next_state m (at_pos a1) act with
          | Err x => (m, a1, Err x)
          | Ok s' =>
            match move_agent m a1 (Z.of_nat s') with
            | (m2, a2, Err x) => (m2, a2, Err x)
            | (m2, a2, Ok _) =>
              let a3 := set_hist a2 (at_hist a2 ++ [at_pos a2]) in
              match update_agent_feature m2 (at_idx a3) (at_pos a3) with
              | (m3, Err x) => (m3, a3, Err x)
              | (m3, Ok _) => (m3, a3, Ok tt)
              end
            end
          end
        end
      end
    end
  end.

(** environments.py 230-242 [_consume_features]. Adding arrays of different lengths raises
    ValueError (broadcasting of one-element arrays is not modelled). *)
Definition env_consume (e : env) (a : attached) : env * res unit :=
  match at_consumes a with
  | [] => (e, Ok tt)
  | idx =>
    match consume_features (e_mdp e) idx (at_pos a) with
    | (m', Err x) => (with_mdp e m', Err x)
    | (m', Ok c) =>
      let e1 := with_mdp e m' in
      if length (at_consumed a) =? length c then
        (with_agent e1 (set_consumed a (map (fun '(x, y) => x + y) (combine (at_consumed a) c))), Ok tt)
      else (e1, Err ValueError)
    end
  end.

(** environments.py 184-206 [step]. *)
Definition env_step (pl : plugins) (e : env) (name : string) (seed : nat) : env * res Z :=
  match lookup e name with
  | Err x => (e, Err x)
  | Ok a =>
    match agent_step pl (e_mdp e) a seed with
    | (m1, a1, Err x) => (with_agent (with_mdp e m1) a1, Err x)
    | (m1, a1, Ok _) =>
      let e1 := with_agent (with_mdp e m1) a1 in
      match env_consume e1 a1 with
      | (e2, Err x) => (e2, Err x)
      | (e2, Ok _) => (tick e2, Ok (at_pos a1))
      end
    end
  end.

(** environments.py 244-254 [_check_agents_caught]. *)
Definition caught (e : env) (a : attached) : bool :=
  existsb (fun f => existsb (fun b => (Z.of_nat (at_feature_idx b) =? f)%Z && (at_pos a =? at_pos b)%Z) (e_agents e))
          (at_consumes a).

(** environments.py 256-269 [_get_all_agents_n_steps] with a primary agent. *)
Definition all_n_steps (e : env) (primary : string) : res (list Z) :=
  mapM (fun nm => match find_agent (e_agents e) nm with Some a => Ok (at_n_moves a) | None => Err KeyError end)
       (primary :: filter (fun nm => negb (String.eqb nm primary)) (e_names e)).

(** environments.py 272-290 and 321-353: The [n_steps] argument of [step_multi]: None, an int, a list, or something else. *)
Inductive steps_arg := StepsDefault | StepsInt (n : Z) | StepsList (l : list Z) | StepsOther.

(** environments.py 402 and 404: the list of positions, or [False]. *)
Inductive multi_result := Positions (l : list Z) | StoppedCaught.

(** environments.py 366-392: the plan for step [i] and the fit. *)
Definition step_plan (i : nat) (n_turns : Z) (n_agent_steps plan : list Z) : res (list (list Z)) :=
  mapM (fun '(j, n_moves) =>
          match nth_error n_agent_steps j with
          | None => Err IndexError
          | Some k => get_n_moves_plan (if (j =? 0)%nat then Z.of_nat i else 0%Z) n_turns k n_moves
          end) (combine (seq 0 (length plan)) plan).

(** environments.py 366-392: the fit of one step, if [refit]. *)
Definition refit_step (pl : plugins) (e : env) (name : string) (refit : bool) (i : nat) (n_turns : Z)
    (n_agent_steps plan : list Z) (seed seed' : nat) : env * res unit :=
  if refit then
    match step_plan i n_turns n_agent_steps plan with
    | Err x => (e, Err x)
    | Ok p => env_fit pl e name (Some p) seed seed'
    end
  else (e, Ok tt).

(** environments.py 365-404: the loop. [rnd] supplies three seeds per step. *)
Fixpoint multi_loop (pl : plugins) (e : env) (name : string) (refit stop : bool) (n_turns : Z)
    (n_agent_steps plan : list Z) (rnd : nat -> nat) (i todo : nat) (acc : list Z) : env * res multi_result :=
  match todo with
  | O => (e, Ok (Positions acc))
  | S todo' =>
    match refit_step pl e name refit i n_turns n_agent_steps plan (rnd (3 * i)) (rnd (3 * i + 1)) with
    | (e1, Err x) => (e1, Err x)
    | (e1, Ok _) =>
      match env_step pl e1 name (rnd (3 * i + 2)) with
      | (e2, Err x) => (e2, Err x)
      | (e2, Ok p) =>
        let was_caught := match find_agent (e_agents e2) name with Some a => caught e2 a | None => false end in
        if was_caught && stop then (e2, Ok StoppedCaught)
        else multi_loop pl e2 name refit stop n_turns n_agent_steps plan rnd (S i) todo' (acc ++ [p])
      end
    end
  end.

(** environments.py 272-404 [step_multi]. A [n_steps] that is neither None, int nor list leaves
    [n_steps_primary_agent] unbound. *)
Definition step_multi (pl : plugins) (e : env) (name : string) (n_steps : steps_arg) (n_moves_plan : option (list Z))
    (n_turns_plan : Z) (refit stop : bool) (rnd : nat -> nat) : env * res multi_result :=
  match lookup e name with
  | Err x => (e, Err x)
  | Ok a =>
    match all_n_steps e name with
    | Err x => (e, Err x)
    | Ok n_agent_steps =>
      let plan := match n_moves_plan with None => n_agent_steps | Some p => p end in
      if negb (length plan =? length (e_agents e)) then (e, Err ValueError)
      else
        match n_steps with
        | StepsList [] => (e, Err IndexError)
        | _ =>
          if negb (forallb (fun i => (0 <? i)%Z) plan) then (e, Err ValueError)
          else
            match (match n_steps with
                   | StepsDefault => Ok (at_n_moves a)
                   | StepsInt n => Ok n
                   | StepsList (n :: _) => Ok n
                   | _ => Err UnboundLocalError
                   end) with
            | Err x => (e, Err x)
            | Ok n => multi_loop pl e name refit stop n_turns_plan n_agent_steps plan rnd 0 (Z.to_nat n) []
            end
        end
    end
  end.

(** environments.py 406-508 [step_multi_interactive]: with [n_moves = None], [agent_name] is read
    before it is bound. Otherwise the call in 488-497 passes [n_steps] twice (positionally and by
    keyword) and an unknown keyword, so it raises TypeError before running [step_multi]. The model
    has the arguments that decide what happens: agent names, the per-agent moves and whether the
    planning arguments cause an earlier exception. An agent's [n_moves] entry must exist for the
    argument expression [n_moves[n][t]]. *)
Definition step_multi_interactive (e : env) (agent_names : option (list string))
    (n_moves : option (list (list Z))) : env * res unit :=
  match n_moves with
  | None => (e, Err UnboundLocalError)
  | Some [] => (e, Err IndexError)
  | Some (row0 :: rows) =>
    let names := match agent_names with Some l => l | None => e_names e end in
    match mapM (fun nm => lookup e nm) names with
    | Err x => (e, Err x)
    | Ok _ =>
      if (length row0 =? 0) || (length names =? 0) then (e, Ok tt)
      else (e, Err TypeError)
    end
  end.

(** environments.py 510-517 [reset], agents.py 225-229, mdp.py 305-306. *)
Fixpoint reset_agents (e : env) (l : list attached) : env * res unit :=
  match l with
  | [] => (e, Ok tt)
  | a :: r =>
    match move_agent (e_mdp e) a (at_start a) with
    | (m', _, Err x) => (with_mdp e m', Err x)
    | (m', a', Ok _) =>
      reset_agents (with_agent (with_mdp e m') (set_hist (set_policy a' None None) [at_start a'])) r
    end
  end.
(** environments.py 510-517 [reset]. *)
Definition env_reset (e : env) : env * res unit :=
  match reset_agents e (e_agents e) with
  | (e1, Err x) => (e1, Err x)
  | (e1, Ok _) =>
    match reset_mdp (e_mdp e1) with
    | Ok m => (with_mdp e1 m, Ok tt)
    | Err x => (e1, Err x)
    end
  end.

(** environments.py 519-529 [set_agent_position]. *)
Definition set_agent_position (e : env) (name : string) (p : Z) : env * res unit :=
  match lookup e name with
  | Err x => (e, Err x)
  | Ok a =>
    match move_agent (e_mdp e) a p with
    | (m', a', r) => (with_agent (with_mdp e m') a', r)
    end
  end.

(** environments.py 531-543 [get_agent_position_history]. *)
Definition get_history (e : env) (name : string) : res (list Z) :=
  let* a := lookup e name in Ok (at_hist a).

(** environments.py 559-574 [get_agent_pi] (and 576-591 [get_agent_pi_p], which is the same). *)
Definition get_agent_pi (e : env) (name : string) : res (option (list Z)) :=
  let* a := lookup e name in
  match at_fit a with None => Err AttributeError | Some _ => Ok (at_pi a) end.
(** environments.py 576-591 [get_agent_pi_p]. *)
Definition get_agent_pi_p (e : env) (name : string) : res (option (list (list (fval A)))) :=
  let* a := lookup e name in
  match at_fit a with None => Err AttributeError | Some _ => Ok (at_pi_p a) end.

(** agents.py 181-222 [step_proba]: the value computed. Probabilities may be NaN, so they are [fval];
    a NaN factor gives NaN. Division by a zero sum is outside the model ([ndiv]). *)
Definition fmul (p : fval A) (x : A) : fval A := match p with Fin a => Fin (nmul a x) | v => v end.
(** agents.py 211-222: the loop over states and actions. *)
Definition proba_loop (m : mdp A) (pi_p : list (list (fval A))) (position : list A) : res (list (fval A)) :=
  foldM (fun acc s =>
    foldM (fun acc' act =>
      let* t := get_next_state m (Z.of_nat s) (Z.of_nat act) in
      match nth_error pi_p s with
      | None => Err IndexError
      | Some prow => Ok (upd acc' t (fmul (nth act prow NaN) (nth s position n0)))
      end)
      (seq 0 (length (nth 0 pi_p []))) acc)
    (where_ (fun x => nltb n0 x) position) (repeat (Fin n0) (m_n_states m)).
(** agents.py 181-222 [AttachedAgent.step_proba]. *)
Definition agent_step_proba (pl : plugins) (m : mdp A) (a : attached) (position : option (list A)) (seed : nat)
    : attached * res (list (fval A)) :=
  match (match position with
         | Some p => Ok p
         | None => let* i := py_index (m_n_states m) (at_pos a) in Ok (upd (zeros1 (m_n_states m)) i n1)
         end) with
  | Err x => (a, Err x)
  | Ok pos =>
    if negb (length pos =? m_n_states m) then (a, Err AssertionError)
    else
      let pos' := map (fun x => ndiv x (nsum pos)) pos in
      match at_fit a with
      | None => (a, Err AttributeError)
      | Some _ =>
        match get_policy pl a seed with
        | (a1, Err x) => (a1, Err x)
        | (a1, Ok _) =>
          match at_pi_p a1 with
          | None => (a1, Err TypeError)
          | Some pi_p => (a1, proba_loop m pi_p pos')
          end
        end
      end
  end.

(** environments.py 208-228 [step_proba]. *)
Definition env_step_proba (pl : plugins) (e : env) (name : string) (position : option (list A)) (seed : nat)
    : env * res (list (fval A)) :=
  match lookup e name with
  | Err x => (e, Err x)
  | Ok a =>
    match agent_step_proba pl (e_mdp e) a position seed with
    | (a', Err x) => (with_agent e a', Err x)
    | (a', Ok r) => (tick (with_agent e a'), Ok r)
    end
  end.

(** base.py 97-107 [Null._fit]. *)
Definition null_fit (e : env) : res fitted :=
  Ok (repeat (Fin n1) (m_n_states (e_mdp e)),
      repeat (repeat (Fin n1) (m_n_actions (e_mdp e))) (m_n_states (e_mdp e))).

(** * Histories of API calls *)

(** environments.py 167-529 and mdp.py 108-139: the calls that change an environment, with their arguments. *)
Inductive op :=
| OFit (name : string) (n_moves : option (list (list Z))) (seed seed' : nat)
| OStep (name : string) (seed : nat)
| OStepMulti (name : string) (n_steps : steps_arg) (plan : option (list Z)) (n_turns : Z) (refit stop : bool) (rnd : nat -> nat)
| OStepProba (name : string) (position : option (list A)) (seed : nat)
| OInteractive (names : option (list string)) (n_moves : option (list (list Z)))
| OSetPosition (name : string) (p : Z)
| OSetWalls (walls : list A)
| OReset.

(** environments.py 167-529: The environment after a call, whether it returned or raised. *)
Definition do_op (pl : plugins) (e : env) (o : op) : env :=
  match o with
  | OFit nm k s s' => fst (env_fit pl e nm k s s')
  | OStep nm s => fst (env_step pl e nm s)
  | OStepMulti nm n p t rf st rnd => fst (step_multi pl e nm n p t rf st rnd)
  | OStepProba nm p s => fst (env_step_proba pl e nm p s)
  | OInteractive l n => fst (step_multi_interactive e l n)
  | OSetPosition nm p => fst (set_agent_position e nm p)
  | OSetWalls w => match set_walls (e_mdp e) w with Ok m => with_mdp e m | Err _ => e end
  | OReset => fst (env_reset e)
  end.
(** environments.py 167-529: a sequence of calls. *)
Definition run (pl : plugins) (e : env) (l : list op) : env := fold_left (do_op pl) l e.

End Env.
Arguments attached A : clear implicits. Arguments env A : clear implicits. Arguments spec A : clear implicits.
Arguments plugins A : clear implicits. Arguments op A : clear implicits. Arguments fitted A : clear implicits.
