(** What policy learning should compute. *)
From Coq Require Import List ZArith Reals.
From Verif Require Import PyBase RSum MDPModel.
Import ListNotations.
Local Open Scope R_scope.

(** Product of [f] over a list. *)
Definition prodf {A} (f : A -> R) (l : list A) : R := fold_right (fun x p => f x * p) 1 l.

(** [obs 0], [obs 1], ... are observed in turn, [n] of them, and the estimate moves towards each by the
    fraction [rate i]: the initial estimate keeps weight (1 - rate 0)(1 - rate 1)..., and observation [i] gets
    weight rate i, reduced by everything that comes later. *)
Definition weighted_average (n : nat) (rate obs : nat -> R) (start : R) : R :=
  prodf (fun i => 1 - rate i) (seq 0 n) * start + sumf (fun i => rate i * prodf (fun j => 1 - rate j) (seq (S i) (n - S i)) * obs i) (seq 0 n).

(** The actions taken along each trajectory; none for an empty one. *)
Definition taken (m : mdp R) (t : list Z) (acts : list nat) : Prop :=
  match t with [] => acts = [] | _ => exists sa, trajectory_to_state_action m t = Ok sa /\ acts = map snd sa end.
(** All actions observed in a list of trajectories, one MDP for each. *)
Inductive observed : list (mdp R) -> list (list Z) -> list nat -> Prop :=
| observed_none : observed [] [] []
| observed_more : forall m ms t ts a acts, taken m t a -> observed ms ts acts -> observed (m :: ms) (t :: ts) (a ++ acts).
