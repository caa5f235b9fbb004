(** Model of attributes a user may assign while an environment is in use: an attached agent's [algorithm]
    (maMDP/agents.py) and the [features] of the MDP (maMDP/mdp.py). Definitions only. *)
From Coq Require Import String List ZArith Bool.
From Verif Require Import PyBase GridModel MDPModel ActionModel EnvModel.
Import ListNotations.

Section Set_.
Context {A : Type} {NA : Num A}.

(** agents.py 108-114 (setter of [algorithm]) and base.py 18-21 [_attach], called as
    [env.agents[name].algorithm = alg]; [f] is what [alg] has stored from an earlier fit, if any. The stored
    policy of the agent is not touched. The look-up in the dictionary raises KeyError for an unknown name. The
    new algorithm object is taken not to be used by another agent. *)
Definition set_algorithm (e : env A) (name : string) (f : option (fitted A)) : env A * res unit :=
  match find_agent (e_agents e) name with
  | None => (e, Err KeyError)
  | Some a => (with_agent e (set_fit a f), Ok tt)
  end.

(** agents.py 108-114: which [_fit] each agent's algorithm has, once [name] has been given the algorithm whose
    [_fit] (base.py 71-78) is [alg] and which discards earlier results first if [forgets]. *)
Definition with_algorithm (pl : plugins A) (name : string)
    (alg : env A -> option (list (list Z)) -> nat -> res (fitted A)) (forgets : bool) : plugins A :=
  mkPlugins (fun nm e n s => if String.eqb nm name then alg e n s else pl_fit pl nm e n s)
            (pl_pi pl) (pl_pi_p pl)
            (fun nm => if String.eqb nm name then forgets else pl_forgets pl nm).

(** mdp.py 87-102 (setter of [features]), called as [env.mdp.features = table]. [n_agents] and the number of
    ordinary features (mdp.py 33) stay as they were. *)
Definition assign_features (e : env A) (table : list (list A)) : env A * res unit :=
  match set_features (e_mdp e) table with
  | Ok m => (with_mdp e m, Ok tt)
  | Err x => (e, Err x)
  end.

(** agents.py 72-74: the attributes [n_moves], [reward_function] and [consumes] of an attached agent (no setters:
    whatever is assigned is stored). *)
Definition set_reward (a : attached A) (w : list A) : attached A :=
  mkAttached (at_name a) (at_n_moves a) w (at_consumes a) (at_consumed a) (at_idx a)
    (at_feature_idx a) (at_fit a) (at_start a) (at_pos a) (at_hist a) (at_pi a) (at_pi_p a).
(** agents.py 74. *)
Definition set_consumes (a : attached A) (c : list Z) : attached A :=
  mkAttached (at_name a) (at_n_moves a) (at_reward a) c (at_consumed a) (at_idx a)
    (at_feature_idx a) (at_fit a) (at_start a) (at_pos a) (at_hist a) (at_pi a) (at_pi_p a).
(** agents.py 72. *)
Definition set_n_moves (a : attached A) (n : Z) : attached A :=
  mkAttached (at_name a) n (at_reward a) (at_consumes a) (at_consumed a) (at_idx a)
    (at_feature_idx a) (at_fit a) (at_start a) (at_pos a) (at_hist a) (at_pi a) (at_pi_p a).

(** agents.py 72-74, assigned as [env.agents[name].reward_function = w], and likewise; the look-up in the dictionary
    (environments.py 82-83) raises KeyError for an unknown name. [w] is a one-dimensional array; assigning anything
    else is not modelled. *)
Definition assign_attr (h : attached A -> attached A) (e : env A) (name : string) : env A * res unit :=
  match find_agent (e_agents e) name with
  | None => (e, Err KeyError)
  | Some a => (with_agent e (h a), Ok tt)
  end.
(** agents.py 73. *)
Definition assign_reward (e : env A) (name : string) (w : list A) : env A * res unit := assign_attr (fun a => set_reward a w) e name.
(** agents.py 74. *)
Definition assign_consumes (e : env A) (name : string) (c : list Z) : env A * res unit := assign_attr (fun a => set_consumes a c) e name.
(** agents.py 72. *)
Definition assign_n_moves (e : env A) (name : string) (n : Z) : env A * res unit := assign_attr (fun a => set_n_moves a n) e name.

End Set_.
