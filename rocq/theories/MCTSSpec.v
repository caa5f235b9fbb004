(** Independent vocabulary for tree search. *)
From Coq Require Import List ZArith Reals Bool.
From Verif Require Import PyBase EnvModel RSum MCTSModel.
Import ListNotations.
Local Open Scope nat_scope.

(** Some action leads from state [s] to state [t]. *)
Definition can_go (sas : list (list (list R))) (s t : nat) : Prop := exists a, get3 0%R sas s a t <> 0%R.

(** The states [l] can be visited one after the other, coming from [s]. *)
Fixpoint walk (sas : list (list (list R))) (s : nat) (l : list nat) : Prop :=
  match l with [] => True | t :: r => can_go sas s t /\ walk sas t r end.

(** The schedule gives each of [n] agents the same number of turns, and no negative number of moves. *)
Definition regular_schedule (n : nat) (m : list (list Z)) : Prop :=
  length m = n /\ (exists turns, forall row, In row m -> length row = turns) /\ forall row k, In row m -> In k row -> (0 <= k)%Z.
(** All moves planned for agent [i]. *)
Definition planned (m : list (list Z)) (i : nat) : Z := zsum (nth i m []).

(** How often [s] occurs in [l]. *)
Definition occurrences (s : nat) (l : list nat) : nat := count_occ Nat.eq_dec l s.

(** The opponents' action selection always ends. *)
Definition terminates {A} (p : opp_policy A) : Prop :=
  match p with OppSolve sel => forall row d, sel row d <> Err Diverges | _ => True end.

(** Agent [i] consumes agent [j] and is in the same state. *)
Definition eats (consumes : list (list bool)) (nodes : list Z) (i j : nat) : bool :=
  nth j (nth i consumes []) false && (nth i nodes 0 =? nth j nodes 0)%Z.
(** What the primary agent (place 0 of [n]) gains by eating. *)
Definition eaten_value (n : nat) (consumes : list (list bool)) (nodes : list Z) (values : list R) : R :=
  sumf (fun j => if eats consumes nodes 0 j then nth j values 0%R else 0%R) (seq 0 n).

(** The UCT score of state [t] seen from state [s]: mean value plus exploration bonus. *)
Definition uct_score (V N : list R) (C : R) (s t : nat) : R :=
  (nth t V 0 / (1 + nth t N 0) + C * sqrt (2 * ln (nth s N 0) / (1 + nth t N 0)))%R.

(** The agent of place [i] consumes feature [f]. *)
Definition takes (consumes : list (list bool)) (i f : nat) : Prop := nth f (nth i consumes []) false = true.
