(** Tree search in floating point: maMDP/algorithms/mcts.py with every operation rounded (RoundModel.v). The functions of MCTSModel.v are written for any kind
    of numbers; here is the part that needs a rounded exponential. Definitions only. Overflow is not modelled. *)
From Coq Require Import List ZArith Reals.
From Verif Require Import PyBase ActionModel SoftmaxModel RoundModel SoftRoundModel MCTSModel.
Import ListNotations.
Local Open Scope R_scope.

(** mcts.py 106-111: softmax selection by a simulated opponent. [ex] is the rounded exponential, [us] turns a draw into a number in [0, 1). The compiled code
    does not check the index; an index out of range is returned as it is. *)
Definition select_softmax_r (rnd ex : R -> R) (temperature : R) (us : nat -> R) (row : list (fval R)) (draw : nat) : res nat :=
  let* ps := mapM (fun v => match fin_of v with Some x => Ok x | None => Err ValueError end) (softmax_r rnd ex row temperature) in
  Ok (@rand_choice_nb R (NumF rnd) ps (us draw)).
