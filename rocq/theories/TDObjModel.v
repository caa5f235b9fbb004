(** Model of the objects of maMDP/algorithms/policy_learning.py 41-165: TDGeneralPolicyLearner, with its arrays in memory and their
    types. [PLModel] has the same code with arrays as values. *)
From Coq Require Import List ZArith Bool.
From Verif Require Import PyBase MDPModel PLModel.
Import ListNotations.

Section TDObj.
Context {A : Type} `{Num A}.

(** policy_learning.py 46-71: an array of numbers of integer or of floating-point type. *)
Record arr := mkArr { a_int : bool; a_vals : list A }.
(** policy_learning.py 67-71: None, the object [np.array(None)], or (the address of) an array. *)
Inductive tref := RNone | RObj | RArr (a : nat).
(** policy_learning.py 62-71: the attributes that change. *)
Record tdobj := mkTdo { o_Q : tref; o_orig : tref; o_adj : A; o_n : nat; o_done : bool }.
(** policy_learning.py 10-146: the learner and the arrays in memory. *)
Definition tstate := (tdobj * list arr)%type.
(** policy_learning.py 10-146: stands for reading an address out of range, which no run does. *)
Definition no_arr : arr := mkArr false [].

(** policy_learning.py 46-71 [__init__] after the assertions: [self.Q = Q] is the caller's array, [np.array(Q).copy()] a new one. *)
Definition new_td (c : td_config A) (Q : option nat) (h : list arr) : tstate :=
  match Q with
  | None => (mkTdo RNone RObj (c_lr c) 1 false, h)
  | Some a => (mkTdo (RArr a) (RArr (length h)) (c_lr c) 1 false, h ++ [nth a h no_arr])
  end.
(** policy_learning.py 73-82 [reset]. *)
Definition reset_td (c : td_config A) (s : tstate) : tstate := (mkTdo (o_orig (fst s)) (o_orig (fst s)) (c_lr c) 1 false, snd s).
(** policy_learning.py 104-125: one observation. Adding floats to an array of integers in place raises (a subclass of) TypeError,
    after the adjusted learning rate has been stored. *)
Definition observe_obj (c : td_config A) (n_actions a : nat) (s : tstate) : tstate * res unit :=
  let '(o, h) := s in
  match c_reward c n_actions a with
  | Err e => (s, Err e)
  | Ok reward =>
    match o_Q o with
    | RArr p =>
      let q := nth p h no_arr in
      if negb (length reward =? length (a_vals q))%nat then (s, Err ValueError) else
      match (if c_decaying c then let* f := c_factor c (o_n o) in Ok (nmul (o_adj o) f) else Ok (c_lr c)) with
      | Err e => (s, Err e)
      | Ok rate =>
        let adj := if c_decaying c then rate else o_adj o in
        if a_int q then ((mkTdo (o_Q o) (o_orig o) adj (o_n o) (o_done o), h), Err TypeError)
        else ((mkTdo (o_Q o) (o_orig o) adj (S (o_n o)) (o_done o), upd h p (mkArr false (move_towards rate reward (a_vals q)))), Ok tt)
      end
    | _ => (s, Err TypeError)
    end
  end.
(** policy_learning.py 102-125: the loop over the actions of one trajectory (see [observe_all]). *)
Fixpoint observe_obj_all (c : td_config A) (mdps : list (mdp A)) (i : nat) (acts : list nat) (s : tstate) : tstate * res unit :=
  match acts with
  | [] => (s, Ok tt)
  | a :: r =>
    match nth_error mdps i with
    | None => (s, Err IndexError)
    | Some m => match observe_obj c (m_n_actions m) a s with (s', Ok _) => observe_obj_all c mdps (S i) r s' | x => x end
    end
  end.
(** policy_learning.py 94-125: the loop over trajectories. *)
Fixpoint observe_obj_trajectories (c : td_config A) (mdps : list (mdp A)) (n : nat) (ts : list (list Z)) (s : tstate) : tstate * res unit :=
  match ts with
  | [] => (s, Ok tt)
  | [] :: r => observe_obj_trajectories c mdps (S n) r s
  | t :: r =>
    match nth_error mdps n with
    | None => (s, Err IndexError)
    | Some m =>
      match trajectory_to_state_action m t with
      | Err e => (s, Err e)
      | Ok sa => match observe_obj_all c mdps 0 (map snd sa) s with (s', Ok _) => observe_obj_trajectories c mdps (S n) r s' | x => x end
      end
    end
  end.
(** policy_learning.py 85-125 [_fit_TD_policy]. *)
Definition fit_td_obj (c : td_config A) (mdps : list (mdp A)) (ts : list (list Z)) (s : tstate) : tstate * res unit :=
  let '(o, h) := s in
  match o_Q o with
  | RNone => match mdps with
    | [] => (s, Err IndexError)
    | m :: _ => observe_obj_trajectories c mdps 0 ts (mkTdo (RArr (length h)) (o_orig o) (o_adj o) 1 (o_done o), h ++ [mkArr false (zeros1 (m_n_actions m))])
    end
  | Q => observe_obj_trajectories c mdps 0 ts (mkTdo Q (o_orig o) (o_adj o) 1 (o_done o), h)
  end.
(** policy_learning.py 128-152 [fit]. *)
Definition fit_obj (c : td_config A) (arg : mdp_arg A) (ts : list (list Z)) (s : tstate) : tstate * res unit :=
  let go := fun ms => match fit_td_obj c ms ts s with
    | ((o, h), Ok _) => ((mkTdo (o_Q o) (o_orig o) (o_adj o) (o_n o) true, h), Ok tt)
    | x => x end in
  match arg with
  | ManyMDPs ms => if negb (length ts =? length ms)%nat then (s, Err AttributeError) else go ms
  | OneMDP m => go (repeat m (length ts))
  end.
(** policy_learning.py 154-165 [get_q_values]: the learner's own array, whatever the state. *)
Definition get_q (s : tstate) (state : Z) : tref := o_Q (fst s).
End TDObj.
Arguments arr A : clear implicits. Arguments tdobj A : clear implicits. Arguments tstate A : clear implicits.
