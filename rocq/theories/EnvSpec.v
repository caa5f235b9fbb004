(** Independent vocabulary for environments. *)
From Coq Require Import String List ZArith Reals Bool.
From Verif Require Import PyBase GridModel MDPModel MDPSpec EnvModel.
Import ListNotations.
Local Open Scope nat_scope.

(** The state an agent stands on: a position may be given as a negative index. *)
Definition stands_on {A} (m : mdp A) (pos : Z) (s : nat) : Prop := py_index (m_n_states m) pos = Ok s.

(** Number of states where feature [f] is present (has a positive value). *)
Definition holding {A} `{Num A} (m : mdp A) (f : nat) : nat :=
  length (filter (fun t => nltb n0 (get2 n0 (m_features m) f t)) (seq 0 (m_n_states m))).

(** How often the agents together report having consumed feature [f]. *)
Definition total_consumed {A} (e : env A) (f : nat) : nat :=
  list_sum (map (fun a => nth f (at_consumed a) 0) (e_agents e)).

(** The agent of that name. *)
Definition agent_named {A} (e : env A) (name : string) (a : attached A) : Prop :=
  In a (e_agents e) /\ at_name a = name.

(** Every feature the agents consume is a valid index of the feature table (negative ones count from
    the end, as in Python). *)
Definition consumes_in_range {A} (e : env A) : Prop :=
  forall a, In a (e_agents e) -> forall z, In z (at_consumes a) ->
    (- Z.of_nat (m_n_features (e_mdp e)) <= z < Z.of_nat (m_n_features (e_mdp e)))%Z.

(** Environments a user can have: an MDP of a grid class, after any changes of its walls, or the MDP
    of an environment used before; from it an environment is built, and then any sequence of API
    calls is made. *)
Inductive reachable (pl : plugins R) : env R -> Prop :=
| reach_new : forall m ss m' e, usable pl m -> make_env m ss = (m', Ok e) -> reachable pl e
| reach_op : forall e o, reachable pl e -> reachable pl (do_op pl e o)
with usable (pl : plugins R) : mdp R -> Prop :=
| usable_grid : forall k feats w0 shape st m cs, grid_mdp k feats w0 shape st = Ok m -> usable pl (after_wall_calls m cs)
| usable_again : forall e, reachable pl e -> usable pl (e_mdp e).
Scheme reachable_ind2 := Induction for reachable Sort Prop with usable_ind2 := Induction for usable Sort Prop.

(** The ordinary features of an MDP: those that do not mark agents. *)
Definition n_ordinary (m : mdp R) : nat := m_n_features m - m_n_agents m.

(** What the constructor requires of an agent's entry, given the numbers of ordinary features, agents
    and states. *)
Definition valid_entry (n_feat n_ag n_states : nat) (s : spec R) : Prop :=
  length (sp_reward s) = n_feat + n_ag /\
  (forall z, In z (sp_consumes s) -> (z < Z.of_nat (n_feat + n_ag))%Z) /\
  (- Z.of_nat n_states <= sp_pos s < Z.of_nat n_states)%Z.

(** A newly attached agent: number [i], feature row [f], nothing consumed, on its starting position. *)
Definition fresh (a : attached R) (s : spec R) (i f : nat) : Prop :=
  at_name a = sp_name s /\ at_n_moves a = sp_n_moves s /\ at_reward a = sp_reward s /\ at_consumes a = sp_consumes s /\
  at_consumed a = repeat 0 (length (sp_reward s)) /\ at_idx a = i /\ at_feature_idx a = f /\
  at_start a = sp_pos s /\ at_pos a = sp_pos s /\ at_hist a = [sp_pos s] /\ at_pi a = None /\ at_pi_p a = None.
