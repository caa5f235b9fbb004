(** Vocabulary for the walks of agents that follow a plan. *)
From Coq Require Import String List ZArith Reals.
From Verif Require Import PyBase MDPModel ActionModel EnvModel EnvSpec VIModel QuerySpec.
Import ListNotations.

(** What a walk through the states [ps] collects: each state pays its reward on arrival, the [i]-th one
    discounted by [g ^ i]. *)
Fixpoint discounted (g : R) (r : nat -> R) (ps : list nat) : R :=
  match ps with [] => 0%R | p :: ps' => (r p + g * discounted g r ps')%R end.

(** The agent [nm] plans with value iteration, with this discount, tolerance and greatest number of
    iterations, and takes a best action, breaking ties by arbitrary draws. *)
Definition plans_greedily (pl : plugins R) (nm : string) (g tol : R) (iters : Z) : Prop :=
  (forall e a n seed, NoDup (map at_name (e_agents e)) -> agent_named e nm a -> pl_fit pl nm e n seed = vi_fit g tol iters (e_mdp e) (at_reward a)) /\
  (forall seed, exists draws, pl_pi pl nm seed = max_get_pi draws) /\ pl_pi_p pl nm = max_get_pi_p.

(** The same for any way [F] of planning with the MDP and the agent's reward weights. *)
Definition plans_with (F : mdp R -> list R -> res (fitted R)) (pl : plugins R) (nm : string) : Prop :=
  (forall e a n seed, NoDup (map at_name (e_agents e)) -> agent_named e nm a -> pl_fit pl nm e n seed = F (e_mdp e) (at_reward a)) /\
  (forall seed, exists draws, pl_pi pl nm seed = max_get_pi draws) /\ pl_pi_p pl nm = max_get_pi_p.

(** Calls that let the agent [nm] go on with its plan: they neither fit it, nor put it elsewhere, nor reset
    the environment, nor change the walls. *)
Definition lets_walk (nm : string) (o : op R) : Prop :=
  leaves_plan nm o /\ match o with OSetPosition nm' _ => nm' <> nm | OSetWalls _ => False | _ => True end.
