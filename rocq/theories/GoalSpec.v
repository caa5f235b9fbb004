(** Vocabulary for agents on their way to a goal. *)
From Coq Require Import List ZArith Reals.
From Verif Require Import MDPModel MDPSpec.
Import ListNotations.

(** From [i], [d] is the least number of possible moves that lead to [goal]. *)
Definition fewest_moves (m : mdp R) (i goal d : nat) : Prop :=
  (exists acts, travels m i acts goal /\ length acts = d) /\ forall acts, travels m i acts goal -> d <= length acts.

(** The only state with a reward is [goal], and its reward is [R0]. *)
Definition only_goal (m : mdp R) (r : nat -> R) (goal : nat) (R0 : R) : Prop :=
  goal < m_n_states m /\ r goal = R0 /\ forall t, t < m_n_states m -> t <> goal -> r t = 0%R.
