(** Error bounds for random choices in floating point. *)
From Coq Require Import Reals.
From Verif Require Import RoundSpec.
Local Open Scope R_scope.

Section Bounds.
(** [u], [eta]: relative and absolute error of rounding; [ux], [etax]: of the exponential; [T]: temperature; [n]: number of actions. *)
Variables (u eta ux etax T : R).
(** Relative and absolute error of a sum of [n] numbers. *)
Definition sum_rel (n : nat) : R := (1 + u) ^ S n - 1.
Definition sum_abs (n : nat) : R := 2 * INR n * eta * (1 + u) ^ n.
(** How far the last cumulative sum of normalised weights may be from one. *)
Definition last_error (n : nat) : R := u + 2 * sum_rel n + 3 * sum_abs n + INR n * eta.
(** Relative and absolute error of the exponent, and absolute error of the exponential. *)
Definition exponent_rel : R := 2 * u + u * u.
Definition exponent_abs : R := (1 + u) * (eta / T) + eta.
Definition term_error : R := 2 * exponent_rel * (1 + exponent_abs) + exponent_abs + ux + etax.
(** Error of the sum of the exponentials, and of a probability. *)
Definition total_error (n : nat) : R := INR n * term_error + sum_rel n * (INR n * (1 + term_error)) + sum_abs n.
Definition prob_error (n : nat) : R := u + eta + term_error + total_error n.
(** How far normalised probabilities may be from summing to one. *)
Definition norm_error (n : nat) : R := 3 * u + INR n * eta + 3 * sum_rel n + 2 * sum_abs n.
(** Precise enough to choose among [n] actions; [atol] is numpy's tolerance for the sum of probabilities. *)
Definition precise (atol : R) (n : nat) : Prop :=
  exponent_rel <= / 2 /\ INR n * prob_error n <= / 4 /\ sum_rel n <= / 8 /\ sum_abs n <= / 8 /\ norm_error n <= atol /\ norm_error n < 1.
End Bounds.
