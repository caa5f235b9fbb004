(** What the successor representation means, independent of matrices. *)
From Coq Require Import List Reals.
From Verif Require Import PyBase PyProofs RSum.
Import ListNotations.
Local Open Scope R_scope.

(** Action [a] in state [s] can lead to [t]. *)
Definition leads_to (sas : list (list (list R))) (s a t : nat) : Prop := get3 0 sas s a t <> 0.
(** Action [a] is impossible in [s]. *)
Definition impossible (sas : list (list (list R))) (s a : nat) : Prop := forall t, ~ leads_to sas s a t.
(** Every action has at most one outcome. *)
Definition deterministic (sas : list (list (list R))) : Prop := forall s a t t', leads_to sas s a t -> leads_to sas s a t' -> t = t'.

(** Average of [f] over the first [n] numbers. *)
Definition mean (n : nat) (f : nat -> R) : R := sumf f (seq 0 n) / INR n.

(** [gains_within sas nA g v n s a x]: [x] is the expected discounted total of [v] over the first [n] steps
    of someone who starts with action [a] in [s], collects [v] of the pair they are in at every step,
    then chooses uniformly among all [nA] actions, and stops at an impossible action. *)
Inductive gains_within (sas : list (list (list R))) (nA : nat) (g : R) (v : nat -> nat -> R) : nat -> nat -> nat -> R -> Prop :=
| gains_none : forall s a, gains_within sas nA g v 0 s a 0
| gains_stop : forall n s a, impossible sas s a -> gains_within sas nA g v (S n) s a (v s a)
| gains_go : forall n s a t f, leads_to sas s a t -> (forall b, (b < nA)%nat -> gains_within sas nA g v n t b (f b)) ->
    gains_within sas nA g v (S n) s a (v s a + g * mean nA f).
(** [x] is the expected discounted total over the infinite walk. *)
Definition total_gain (sas : list (list (list R))) (nA : nat) (g : R) (v : nat -> nat -> R) (s a : nat) (x : R) : Prop :=
  forall eps, 0 < eps -> exists n0, forall n, (n0 <= n)%nat -> (exists y, gains_within sas nA g v n s a y) /\
    forall y, gains_within sas nA g v n s a y -> Rabs (x - y) < eps.
