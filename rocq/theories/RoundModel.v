(** Floating-point arithmetic: the numbers of the code are rounded after every operation. Definitions only.

    The model's functions are written once for any kind of numbers ([Num]); here they get numbers that are rounded, as numpy's float64 are.
    Overflow is not modelled: the largest exponent is unbounded. Sums are rounded from left to right; numpy may add in another order. *)
From Coq Require Import List ZArith Reals.
From Verif Require Import PyBase.
Local Open Scope R_scope.

(** A way of rounding with relative error at most [u] and, for numbers close to zero, absolute error at most [eta]. IEEE 754's
    rounding to nearest, which numpy uses, is one (RoundExample.v). *)
Record rounding (rnd : R -> R) (u eta : R) : Prop := {
  rd_u : 0 <= u;
  rd_eta : 0 <= eta;
  rd_le : forall x y, x <= y -> rnd x <= rnd y;
  rd_opp : forall x, rnd (- x) = - rnd x;
  rd_idem : forall x, rnd (rnd x) = rnd x;
  rd_one : rnd 1 = 1;
  rd_err : forall x, Rabs (rnd x - x) <= u * Rabs x + eta
}.

(** numpy's float64: the result of every operation is rounded; comparisons are exact. Used for the code of
    dynamic_programming.py 12-185. *)
Definition NumF (rnd : R -> R) : Num R := {|
  n0 := 0; n1 := 1;
  nadd := fun x y => rnd (x + y); nsub := fun x y => rnd (x - y);
  nmul := fun x y => rnd (x * y); ndiv := fun x y => rnd (x / y);
  nltb := Rltb; neqb := Reqb; nofZ := fun z => rnd (IZR z) |}.
