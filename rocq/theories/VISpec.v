(** Independent vocabulary for solving MDPs. *)
From Coq Require Import List ZArith Reals.
From Verif Require Import PyBase ActionSpec RSum.
Import ListNotations.
Local Open Scope R_scope.

(** A finite MDP: taking action [a] in state [s] leads to state [t] with probability [prob sas s a t].
    The probabilities of an action sum to at most one (to zero where it is impossible). *)
Definition prob (sas : list (list (list R))) (s a t : nat) : R := nth t (nth a (nth s sas []) []) 0.
Definition n_states (sas : list (list (list R))) : nat := length sas.
Definition n_actions (sas : list (list (list R))) : nat := length (nth 0 sas []).
Definition is_mdp (sas : list (list (list R))) : Prop :=
  (0 < n_actions sas)%nat /\
  forall mat, In mat sas -> length mat = n_actions sas /\
    forall row, In row mat -> length row = n_states sas /\ (forall x, In x row -> 0 <= x) /\ Rsum row <= 1.

(** An action is possible in a state if it has a successor there. *)
Definition possible (sas : list (list (list R))) (s a : nat) : Prop := exists t, (t < n_states sas)%nat /\ 0 < prob sas s a t.

(** Reward of a state: the weights of the features present there. *)
Definition reward_of (rf : list R) (features : list (list R)) (t : nat) : R :=
  sumf (fun i => nth i rf 0 * nth t (nth i features []) 0) (seq 0 (length rf)).

(** Value of taking [a] in [s] when the value of being in a state is [V]: the reward is that of the state
    reached. *)
Definition action_value (sas : list (list (list R))) (r : nat -> R) (g : R) (V : nat -> R) (s a : nat) : R :=
  sumf (fun t => prob sas s a t * (r t + g * V t)) (seq 0 (n_states sas)).

(** [x] is the greatest of [f 0], ..., [f (n-1)]. *)
Definition greatest (n : nat) (f : nat -> R) (x : R) : Prop :=
  (exists a, (a < n)%nat /\ f a = x) /\ forall a, (a < n)%nat -> f a <= x.

(** The Bellman optimality equation. *)
Definition optimal (sas : list (list (list R))) (r : nat -> R) (g : R) (V : nat -> R) : Prop :=
  forall s, (s < n_states sas)%nat -> greatest (n_actions sas) (action_value sas r g V s) (V s).

(** Its soft counterpart, with the regularisation [eps]. *)
Definition log_sum_exp (eps : R) (l : list R) : R := ln (Rsum (map exp l) + eps).
Definition soft_optimal (eps : R) (sas : list (list (list R))) (r : nat -> R) (g : R) (V : nat -> R) : Prop :=
  forall s, (s < n_states sas)%nat -> V s = log_sum_exp eps (map (action_value sas r g V s) (seq 0 (n_actions sas))).

(** The two functions differ by at most [c] on the first [n] states. *)
Definition near (n : nat) (c : R) (U V : nat -> R) : Prop := forall s, (s < n)%nat -> Rabs (U s - V s) <= c.

(** ** Optimality over all behaviours

    A behaviour chooses an action from the states visited so far (latest first). Its expected discounted
    return over [k] steps, after history [h] in state [s]. An action without successors ends the
    episode. *)
Definition behaviour := list nat -> nat -> nat.
Fixpoint return_ (sas : list (list (list R))) (r : nat -> R) (g : R) (k : nat) (b : behaviour) (h : list nat) (s : nat) : R :=
  match k with
  | O => 0
  | S k' => sumf (fun t => prob sas s (b h s) t * (r t + g * return_ sas r g k' b (s :: h) t)) (seq 0 (n_states sas))
  end.
(** Its expected discounted return over all steps. *)
Definition total_return (sas : list (list (list R))) (r : nat -> R) (g : R) (b : behaviour) (s : nat) (x : R) : Prop :=
  Un_cv (fun k => return_ sas r g k b [] s) x.
(** [x] is the best total return from [s] among the behaviours satisfying [ok], and it is attained. *)
Definition best_return (sas : list (list (list R))) (r : nat -> R) (g : R) (ok : behaviour -> Prop) (s : nat) (x : R) : Prop :=
  (exists b, ok b /\ total_return sas r g b s x) /\
  forall b y, ok b -> total_return sas r g b s y -> y <= x.
(** Behaviours that only take actions, and those that take a possible action wherever there is one. *)
Definition acts (sas : list (list (list R))) (b : behaviour) : Prop := forall h s, (b h s < n_actions sas)%nat.
Definition acts_possibly (sas : list (list (list R))) (b : behaviour) : Prop :=
  forall h s, (b h s < n_actions sas)%nat /\ ((exists a, (a < n_actions sas)%nat /\ possible sas s a) -> possible sas s (b h s)).
