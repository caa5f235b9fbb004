(** Vocabulary for value iteration with rounded numbers. *)
From Coq Require Import String List ZArith Reals.
From Verif Require Import PyBase ActionSpec RSum MDPModel EnvModel VIModel VISpec VIWalkSpec RoundModel.
Import ListNotations.
Local Open Scope R_scope.

(** Every action leads to one state for sure, or nowhere: all transition probabilities are 0 or 1. *)
Definition sure (sas : list (list (list R))) : Prop := forall mat row x, In mat sas -> In row mat -> In x row -> x = 0 \/ x = 1.

(** The sum of the sizes of a state's feature weights: nothing cancels in it. *)
Definition weight_of (rf : list R) (features : list (list R)) (t : nat) : R :=
  sumf (fun i => Rabs (nth i rf 0 * nth t (nth i features []) 0)) (seq 0 (length rf)).

(** Bounds for rounding with relative error [u] and absolute error [eta], for [n] features and states of weight at most [w]. *)
Section Bounds.
Variables (u eta : R).
(** How far a reward that was summed with rounding is from the exact one. *)
Definition reward_error (n : nat) (w : R) : R := ((1 + u) ^ S n - 1) * w + 2 * INR n * eta * (1 + u) ^ n.
(** No value met while iterating is larger than this. *)
Definition largest_value (n : nat) (w g : R) : R := ((w + reward_error n w) * (1 + u) + eta * (2 + u)) / (1 - g * (1 + u) ^ 2).
(** How far a rounded backup is from the exact one. *)
Definition backup_error (n : nat) (w g : R) : R := reward_error n w + 2 * (u * largest_value n w g + eta).
End Bounds.

(** The agent [nm] plans with value iteration in rounded arithmetic, with this discount, tolerance and greatest number of iterations, and
    takes a best action, breaking ties by arbitrary draws. *)
Definition plans_rounded (rnd : R -> R) (pl : plugins R) (nm : string) (g tol : R) (iters : Z) : Prop :=
  plans_with (@vi_fit R (NumF rnd) g tol iters) pl nm.
