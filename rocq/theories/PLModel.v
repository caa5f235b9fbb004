(** Model of maMDP/algorithms/policy_learning.py. *)
From Coq Require Import List ZArith Reals Bool.
From Verif Require Import PyBase MDPModel.
Import ListNotations.

(** ** Angles (over the reals) *)
(** policy_learning.py 12: Python's float [%]: the result has the sign of the divisor. *)
Definition pymod (x m : R) : R := (x - m * IZR (Int_part (x / m)))%R.
(** policy_learning.py 8-12 [degdist]. *)
Definition degdist (x y : R) : R := Rabs (pymod ((x - y) + 180) 360 - 180).
(** policy_learning.py 14-21 [deg_sq_exp_kernel]. Note the precedence in [dist ** 2 / 2 * ls ** 2]. *)
Definition deg_sq_exp_kernel (x y ls variance : R) : R := (variance * exp (- (Rpow_def.pow (degdist x y) 2 / 2 * Rpow_def.pow ls 2)))%R.
(** policy_learning.py 111-112: the "reward" vector for action [a] out of [n], with the kernel. *)
Definition kernel_reward (ls : R) (n a : nat) : res (list R) :=
  Ok (map (fun i => deg_sq_exp_kernel (INR i * (360 / INR n)) (INR a * (360 / INR n)) ls 1) (seq 0 n)).
(** policy_learning.py 46-61: The [decay] argument, 46-61: an integer or a float. *)
Inductive decay_arg := DecayInt (z : Z) | DecayFloat (r : R).
(** policy_learning.py 46-61: the number given as [decay]. *)
Definition decay_value (d : decay_arg) : R := match d with DecayInt z => IZR z | DecayFloat r => r end.
(** policy_learning.py 118 [np.power(self.n_states, -self.learning_rate_decay)]: numpy raises ValueError for an integer to a
    negative integer power (the line is reached only if the decay is positive). *)
Definition decay_factor (d : decay_arg) (n : nat) : res R :=
  match d with DecayInt _ => Err ValueError | DecayFloat r => Ok (Rpower (INR n) (- r)) end.

Section Learner.
Context {A : Type} `{Num A}.

(** policy_learning.py 107-110: one-hot; IndexError if there is no such action. *)
Definition onehot_reward (n a : nat) : res (list A) := if (a <? n)%nat then Ok (upd (zeros1 n) a n1) else Err IndexError.

(** policy_learning.py 46-71: Constructor arguments, lines 46-71. [c_decaying] is [decay > 0] and [c_factor n] is [n ** -decay];
    [c_reward n a] is the "reward" vector for action [a] out of [n] actions (one-hot or kernel). *)
Record td_config := mkTD { c_lr : A; c_decaying : bool; c_factor : nat -> res A; c_reward : nat -> nat -> res (list A) }.

(** policy_learning.py 62-71: The learner's attributes. [l_Q = None] is Python's None; [QObj] is the 0-dimensional object array
    [np.array(None)]. [l_shared] says that [self.Q] and [self.original_Q] are the same array object, so
    that in-place updates of one change the other. Q given by the caller is taken as a float array; the
    caller's own reference to it is not modelled. *)
Inductive qval := QNone | QObj | QArr (q : list A).
(** policy_learning.py 62-71: the attributes that change. *)
Record learner := mkLearner { l_Q : qval; l_orig : qval; l_shared : bool; l_adj : A; l_n : nat; l_done : bool }.

(** policy_learning.py 46-71 [__init__] after the assertions: [np.array(Q).copy()]. *)
Definition new_learner (c : td_config) (Q : option (list A)) : learner :=
  mkLearner (match Q with None => QNone | Some q => QArr q end) (match Q with None => QObj | Some q => QArr q end) false (c_lr c) 1 false.

(** policy_learning.py 73-77 [reset] and 79-82 [reset_learning_rate]. *)
Definition reset_learner (c : td_config) (l : learner) : learner := mkLearner (l_orig l) (l_orig l) true (c_lr c) 1 false.

(** policy_learning.py 114-125: one observation. [self.Q += rate * delta] works in place. Subtracting None raises TypeError;
    arrays of different lengths raise ValueError (length one, which numpy would broadcast, does not occur
    with grids). *)
Definition move_towards (rate : A) (reward q : list A) : list A := map (fun '(r, x) => nadd x (nmul rate (nsub r x))) (combine reward q).
(** policy_learning.py 104-125: one observation. *)
Definition observe (c : td_config) (n_actions a : nat) (l : learner) : learner * res unit :=
  match c_reward c n_actions a, l_Q l with
  | Err e, _ => (l, Err e)
  | Ok reward, QArr q =>
    if negb (length reward =? length q)%nat then (l, Err ValueError) else
    match (if c_decaying c then let* f := c_factor c (l_n l) in Ok (nmul (l_adj l) f) else Ok (c_lr c)) with
    | Err e => (l, Err e)
    | Ok rate =>
      let q' := QArr (move_towards rate reward q) in
      (mkLearner q' (if l_shared l then q' else l_orig l) (l_shared l) (if c_decaying c then rate else l_adj l) (S (l_n l)) (l_done l), Ok tt)
    end
  | Ok _, _ => (l, Err TypeError)
  end.

(** policy_learning.py 102-125: the loop over the actions of one trajectory. The loop variable [n] shadows the trajectory's
    index, so [mdp[n]] is the MDP at the action's position. *)
Fixpoint observe_all (c : td_config) (mdps : list (mdp A)) (i : nat) (acts : list nat) (l : learner) : learner * res unit :=
  match acts with
  | [] => (l, Ok tt)
  | a :: r =>
    match nth_error mdps i with
    | None => (l, Err IndexError)
    | Some m => match observe c (m_n_actions m) a l with
                | (l', Ok _) => observe_all c mdps (S i) r l'
                | x => x
                end
    end
  end.
(** policy_learning.py 94-125: the loop over trajectories. *)
Fixpoint observe_trajectories (c : td_config) (mdps : list (mdp A)) (n : nat) (ts : list (list Z)) (l : learner) : learner * res unit :=
  match ts with
  | [] => (l, Ok tt)
  | [] :: r => observe_trajectories c mdps (S n) r l
  | t :: r =>
    match nth_error mdps n with
    | None => (l, Err IndexError)
    | Some m =>
      match trajectory_to_state_action m t with
      | Err e => (l, Err e)
      | Ok sa => match observe_all c mdps 0 (map snd sa) l with
                 | (l', Ok _) => observe_trajectories c mdps (S n) r l'
                 | x => x
                 end
      end
    end
  end.
(** policy_learning.py 85-125 [_fit_TD_policy]. *)
Definition fit_td (c : td_config) (mdps : list (mdp A)) (ts : list (list Z)) (l : learner) : learner * res unit :=
  match l_Q l, mdps with
  | QNone, [] => (l, Err IndexError)
  | Q, _ =>
    let Q' := match Q, mdps with QNone, m :: _ => QArr (zeros1 (m_n_actions m)) | _, _ => Q end in
    observe_trajectories c mdps 0 ts (mkLearner Q' (l_orig l) (match Q with QNone => false | _ => l_shared l end) (l_adj l) 1 (l_done l))
  end.
(** policy_learning.py 128-152 [fit] with one MDP, or a list of MDPs. *)
Inductive mdp_arg := OneMDP (m : mdp A) | ManyMDPs (ms : list (mdp A)).
(** policy_learning.py 128-152 [fit]. *)
Definition fit_learner (c : td_config) (arg : mdp_arg) (ts : list (list Z)) (l : learner) : learner * res unit :=
  match arg with
  | ManyMDPs ms => if negb (length ts =? length ms)%nat then (l, Err AttributeError)
                   else let '(l', r) := fit_td c ms ts l in (match r with Ok _ => mkLearner (l_Q l') (l_orig l') (l_shared l') (l_adj l') (l_n l') true | Err _ => l' end, r)
  | OneMDP m => let '(l', r) := fit_td c (repeat m (length ts)) ts l in (match r with Ok _ => mkLearner (l_Q l') (l_orig l') (l_shared l') (l_adj l') (l_n l') true | Err _ => l' end, r)
  end.
(** policy_learning.py 154-165 [get_q_values]: the same for every state. *)
Definition learner_q_values (l : learner) : qval := l_Q l.

(** policy_learning.py 172-218 [TDPolicyIRL]: line 174 reads [mdp.n_actions], which a list does not have (AttributeError); line
    184 indexes [mdp[n]], which a single MDP does not support (TypeError). So nothing after line 184 is ever
    reached, and it is not modelled. *)
Definition td_policy_irl (arg : mdp_arg) (ts : list (list Z)) : res (list A * list (list nat)) :=
  match arg with
  | ManyMDPs _ => Err AttributeError
  | OneMDP m => match ts with [] => Ok (zeros1 (m_n_actions m), []) | _ => Err TypeError end
  end.

End Learner.
Arguments td_config A : clear implicits. Arguments learner A : clear implicits. Arguments qval A : clear implicits. Arguments mdp_arg A : clear implicits.

(** policy_learning.py 46-71 [TDGeneralPolicyLearner(learning_rate, decay, Q, kernel, ls)]: the configuration and the new learner. *)
Definition td_learner (lr : R) (d : decay_arg) (Q : option (list R)) (kernel : bool) (ls : R) : res (td_config R * learner R) :=
  if negb (nltb n0 lr) then Err AssertionError else
  if nltb (decay_value d) n0 then Err AssertionError else
  let c := mkTD lr (nltb n0 (decay_value d)) (decay_factor d) (if kernel then kernel_reward ls else onehot_reward) in
  Ok (c, new_learner c Q).
