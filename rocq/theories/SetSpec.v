(** Vocabulary for assignments made while an environment is in use. *)
From Coq Require Import String List ZArith Reals.
From Verif Require Import PyBase GridModel MDPModel EnvModel.
Import ListNotations.

(** Calls that do not plan or act for agent [nm]; moving it by hand, changing walls and resetting are allowed. *)
Definition not_acting {A} (nm : string) (o : op A) : Prop :=
  match o with
  | OFit nm' _ _ _ => nm' <> nm
  | OStep nm' _ => nm' <> nm
  | OStepMulti nm' _ _ _ _ _ _ => nm' <> nm
  | OStepProba nm' _ _ => nm' <> nm
  | OInteractive _ _ | OSetPosition _ _ | OSetWalls _ | OReset => True
  end.

(** Two environments that differ at most in the plans their agents have. *)
Definition same_but_plans {A} (e1 e2 : env A) : Prop :=
  e_mdp e1 = e_mdp e2 /\ e_names e1 = e_names e2 /\ e_n_agents e1 = e_n_agents e2 /\ e_n_steps e1 = e_n_steps e2 /\
  map (fun a => set_fit a None) (e_agents e1) = map (fun a => set_fit a None) (e_agents e2).

(** The algorithm of agent [nm] does not look at the plans agents have. *)
Definition ignores_plans {A} (pl : plugins A) (nm : string) : Prop :=
  forall e1 e2 n s, same_but_plans e1 e2 -> pl_fit pl nm e1 n s = pl_fit pl nm e2 n s.

(** A table of features whose last rows mark the agents of [e], one each, at the states given by [at_state]. *)
Definition marked_at (e : env R) (table : list (list R)) (at_state : attached R -> nat) : Prop :=
  forall a, In a (e_agents e) ->
    exists row, nth_error table (m_n_features (e_mdp e) - m_n_agents (e_mdp e) + at_idx a) = Some row /\
      forall t, t < m_n_states (e_mdp e) -> nth t row 0%R = if Nat.eqb t (at_state a) then 1%R else 0%R.
