(** Vocabulary for assigning reward functions while an environment is in use. *)
From Coq Require Import String List ZArith.
From Verif Require Import PyBase GridModel MDPModel EnvModel SetModel.
Import ListNotations.

(** Calls that do not plan for agent [nm]; stepping it along its plan is allowed. *)
Definition not_planning {A} (nm : string) (o : op A) : Prop :=
  match o with
  | OFit nm' _ _ _ => nm' <> nm
  | OStepMulti nm' _ _ _ true _ _ => nm' <> nm
  | _ => True
  end.

(** Two environments that differ at most in the reward function of [nm]. *)
Definition same_but_reward {A} (nm : string) (e1 e2 : env A) : Prop :=
  e_mdp e1 = e_mdp e2 /\ e_names e1 = e_names e2 /\ e_n_agents e1 = e_n_agents e2 /\ e_n_steps e1 = e_n_steps e2 /\
  Forall2 (fun a b => a = b \/ at_name a = nm /\ at_name b = nm /\ set_reward a [] = set_reward b []) (e_agents e1) (e_agents e2).

(** The algorithm of [nm'] does not look at the reward function of [nm]. *)
Definition ignores_reward {A} (pl : plugins A) (nm' nm : string) : Prop :=
  forall e1 e2 n s, same_but_reward nm e1 e2 -> pl_fit pl nm' e1 n s = pl_fit pl nm' e2 n s.

(** The entry of an agent in the dictionary given to the constructor, with another reward function for [nm]. *)
Definition with_reward {A} (nm : string) (w : list A) (s : spec A) : spec A :=
  if String.eqb (sp_name s) nm then mkSpec (sp_name s) (sp_n_moves s) (sp_fit s) (sp_pos s) w (sp_consumes s) else s.
