(** Independent vocabulary for action selection. *)
From Coq Require Import List ZArith Reals.
From Verif Require Import PyBase.
Import ListNotations.

(** Order of the extended reals; NaN is read as minus infinity. *)
Definition fle (x y : fval R) : Prop :=
  match x, y with
  | NaN, _ => True | NInf, _ => True
  | _, PInf => True
  | Fin a, Fin b => (a <= b)%R
  | _, _ => False
  end.

(** Action [a] has the greatest value in its row. *)
Definition best_action (row : list (fval R)) (a : nat) : Prop :=
  a < length row /\ forall b, b < length row -> fle (nth b row NaN) (nth a row NaN).

(** Some action value is known. *)
Definition some_known (row : list (fval R)) : Prop := exists v, In v row /\ v <> NaN.

(** The row does not mix plus and minus infinity. *)
Definition unmixed (row : list (fval R)) : Prop := ~ (In PInf row /\ In NInf row).

Definition Rsum (l : list R) : R := fold_right Rplus 0%R l.

Definition distribution (l : list R) : Prop := (forall x, In x l -> (0 <= x)%R) /\ Rsum l = 1%R.

(** Gibbs weight of an action value at temperature [T]: zero unless the value is finite. *)
Definition gibbs_weight (T : R) (v : fval R) : R := match v with Fin a => exp (a / T) | _ => 0%R end.

(** Share of the total weight held by the first [i] indices. *)
Definition cum_share (ps : list R) (i : nat) : R := (Rsum (firstn i ps) / Rsum ps)%R.
