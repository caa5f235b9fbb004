(** Model of the checks of argument types in [Environment.__init__] and [Algorithm.fit], which the other
    models leave to Coq's types (maMDP/environments.py 104-155, maMDP/algorithms/base.py 25-88). Definitions only. *)
From Coq Require Import String List ZArith Bool.
From Verif Require Import PyBase MDPModel EnvModel.
Import ListNotations.
Local Open Scope nat_scope.

Section Arg.
Context {A : Type} {NA : Num A}.

(** environments.py 109-124, base.py 40-44: what can be passed as a reward function: a one-dimensional array, a list
    of numbers, an array or (nested) list whose array does not have one dimension, anything else. *)
Inductive reward_arg :=
  | RVector (l : list A)
  | RList (l : list A)
  | RShapedArray
  | RShapedList
  | ROther.

(** environments.py 106: one entry of the dictionary of agents as it is passed; the position is [None] if it is
    not an int. *)
Record raw_spec := mkRaw {
  rs_name : string;
  rs_n_moves : Z;
  rs_fit : option (fitted A);
  rs_pos : option Z;
  rs_reward : reward_arg;
  rs_consumes : list Z
}.

(** environments.py 109-124: the reward function as an array. *)
Definition raw_reward (r : reward_arg) : res (list A) :=
  match r with
  | RVector l | RList l => Ok l
  | RShapedArray | RShapedList => Err AttributeError
  | ROther => Err TypeError
  end.

(** environments.py 109-129: the checks of types. *)
Definition raw_entry (r : raw_spec) : res (spec A) :=
  let* w := raw_reward (rs_reward r) in
  match rs_pos r with
  | None => Err TypeError
  | Some p => Ok (mkSpec (rs_name r) (rs_n_moves r) (rs_fit r) p w (rs_consumes r))
  end.

(** environments.py 104-155: the loop over the agents. *)
Fixpoint attach_raw (n_feat n_ag : nat) (m : mdp A) (idx : nat) (rs : list raw_spec) (acc : list (attached A))
    : mdp A * res (list (attached A)) :=
  match rs with
  | [] => (m, Ok acc)
  | r :: rest =>
    match raw_entry r with
    | Err x => (m, Err x)
    | Ok s =>
      match attach_checked n_feat n_ag m idx s with
      | (m', Err x) => (m', Err x)
      | (m', Ok a) => attach_raw n_feat n_ag m' (S idx) rest (put_agent acc a)
      end
    end
  end.

(** environments.py 45-75 and 85-155: the constructor. *)
Definition make_env_raw (m : mdp A) (rs : list raw_spec) : mdp A * res (env A) :=
  let cleaned := if (0 <? m_n_agents m) then remove_agent_features m else Ok m in
  match cleaned with
  | Err e => (m, Err e)
  | Ok m0 =>
    match attach_raw (m_n_features m0) (length rs) m0 0 rs [] with
    | (m1, Err e) => (m1, Err e)
    | (m1, Ok ags) => (m1, Ok (mkEnv m1 (map rs_name rs) ags (length ags) 0))
    end
  end.

(** base.py 40-44: only an array passes [not isinstance(r, np.ndarray) or isinstance(r, list)]. *)
Definition fit_reward (r : reward_arg) : res (list A) :=
  match r with
  | RVector l => Ok l
  | RShapedArray => Err AttributeError
  | RList _ | RShapedList | ROther => Err TypeError
  end.

(** base.py 25-69 [Algorithm.fit] of an algorithm used without an agent, whose [_fit] is [solve] and depends on
    the MDP and the reward function only: value iteration and [Null]. The state of the object is the result of
    the last fit, which the assignments in 67-69 replace. *)
Definition fit_alone (solve : mdp A -> list A -> res (fitted A)) (m : mdp A) (state : option (fitted A)) (r : reward_arg)
    : option (fitted A) * res unit :=
  let result :=
    let* w := fit_reward r in
    if negb (length w =? m_n_features m) then Err AttributeError
    else
      let* vq := solve m w in
      if negb (length (fst vq) =? m_n_states m) then Err AssertionError
      else if negb (length (snd vq) =? m_n_states m) then Err AssertionError
      else if negb (forallb (fun row => length row =? m_n_actions m) (snd vq)) then Err AssertionError
      else Ok vq in
  match result with
  | Ok vq => (Some vq, Ok tt)
  | Err x => (state, Err x)
  end.

(** base.py 80-88 [reset]. *)
Definition reset_alone (state : option (fitted A)) : option (fitted A) := None.

(** base.py 99-106: [Null]. *)
Definition null_alone (m : mdp A) (w : list A) : res (fitted A) :=
  Ok (repeat (Fin n1) (m_n_states m), repeat (repeat (Fin n1) (m_n_actions m)) (m_n_states m)).
End Arg.
