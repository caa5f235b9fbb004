(** IEEE 754 double precision with signed zeros, infinities and NaN, bit by bit: the numbers of numpy's float64, as formalised by Flocq. Definitions only.

    The model's functions are written once for any kind of numbers ([Num]); here they get these. Sums are added from left to right; numpy may add in another order. *)
From Coq Require Import List ZArith.
From Flocq Require Import Core BinarySingleNaN.
From Verif Require Import PyBase.

#[global] Instance ieee_prec : Prec_gt_0 53 := eq_refl.
#[global] Instance ieee_emax : Prec_lt_emax 53 1024 := eq_refl.

(** A number of type float64. NaNs are not told apart. *)
Definition b64 : Type := binary_float 53 1024.

(** numpy's float64: operations round to nearest, ties to even; they overflow to infinities, and give NaN where IEEE 754 says so; a comparison with NaN is false.
    Used for the code of dynamic_programming.py 12-185. *)
Definition NumB : Num b64 := {|
  n0 := B754_zero false; n1 := Bone;
  nadd := Bplus mode_NE; nsub := Bminus mode_NE; nmul := Bmult mode_NE; ndiv := Bdiv mode_NE;
  nltb := Bltb; neqb := Beqb; nofZ := fun z => binary_normalize 53 1024 _ _ mode_NE z 0 false |}.
