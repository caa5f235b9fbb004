(** Policy learning in floating point: maMDP/algorithms/policy_learning.py 8-152, with every operation rounded (RoundModel.v). Definitions only.
    The functions of PLModel.v are used with rounded numbers ([NumF]); what PLModel.v writes with real numbers is written again here. *)
From Coq Require Import List ZArith Reals Bool.
From Verif Require Import PyBase MDPModel PLModel RoundModel.
Import ListNotations.
Local Open Scope R_scope.

Section Rounded.
(** Rounding, [np.exp] and [np.power]. *)
Variables (rnd ex : R -> R) (pw : R -> R -> R).

(** policy_learning.py 8-12 [degdist]. numpy's [%] is exact up to one rounding. *)
Definition degdist_r (x y : R) : R := Rabs (rnd (rnd (pymod (rnd (rnd (x - y) + 180)) 360) - 180)).
(** policy_learning.py 14-21 [deg_sq_exp_kernel] with variance 1. [ls ** 2] is taken to be rounded correctly. *)
Definition kernel_r (x y ls : R) : R := rnd (1 * ex (- rnd (rnd (rnd (degdist_r x y * degdist_r x y) / 2) * rnd (ls * ls)))).
(** policy_learning.py 111-112: the "reward" vector for action [a] out of [n], with the kernel. *)
Definition kernel_reward_r (ls : R) (n a : nat) : res (list R) :=
  Ok (map (fun i => kernel_r (rnd (INR i * rnd (360 / INR n))) (rnd (INR a * rnd (360 / INR n))) ls) (seq 0 n)).
(** policy_learning.py 118 [np.power(self.n_states, -self.learning_rate_decay)], as in PLModel.v. *)
Definition decay_factor_r (d : decay_arg) (n : nat) : res R :=
  match d with DecayInt _ => Err ValueError | DecayFloat r => Ok (pw (INR n) (- r)) end.
(** policy_learning.py 46-71 [TDGeneralPolicyLearner(learning_rate, decay, Q, kernel, ls)]: the configuration and the new learner. *)
Definition td_learner_r (lr : R) (d : decay_arg) (Q : option (list R)) (kernel : bool) (ls : R) : res (td_config R * learner R) :=
  if negb (Rltb 0 lr) then Err AssertionError else
  if Rltb (decay_value d) 0 then Err AssertionError else
  let c := mkTD lr (Rltb 0 (decay_value d)) (decay_factor_r d) (if kernel then kernel_reward_r ls else @onehot_reward R (NumF rnd)) in
  Ok (c, @new_learner R c Q).
(** policy_learning.py 128-152 [fit]. *)
Definition fit_learner_r (c : td_config R) (arg : mdp_arg R) (ts : list (list Z)) (l : learner R) : learner R * res unit := @fit_learner R (NumF rnd) c arg ts l.
(** policy_learning.py 73-82 and 128-152: a sequence of calls; exceptions of [fit] are caught. *)
Inductive learner_call_r := FitR (arg : mdp_arg R) (ts : list (list Z)) | ResetR.
(** policy_learning.py 73-82 and 128-152: one call. *)
Definition after_call_r (c : td_config R) (l : learner R) (k : learner_call_r) : learner R :=
  match k with FitR arg ts => fst (fit_learner_r c arg ts l) | ResetR => reset_learner c l end.
End Rounded.
