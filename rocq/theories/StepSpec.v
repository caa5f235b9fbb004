(** Independent vocabulary for stepping agents. *)
From Coq Require Import String List ZArith Reals Bool.
From Verif Require Import PyBase GridModel MDPModel MDPSpec ActionModel EnvModel EnvSpec.
Import ListNotations.
Local Open Scope nat_scope.

(** Feature [f] of state [t] once agent [a] has been moved to state [s], before it consumes anything:
    the agent's own row marks [s], the rest is as before. *)
Definition moved_feat (e : env R) (a : attached R) (s f t : nat) : R :=
  if f =? at_feature_idx a then (if t =? s then 1%R else 0%R) else feat (e_mdp e) f t.

(** The agent's current policy picks action [act] where it stands. [pl_pi] is the agent's action
    selector, [get_pi] the library's wrapper around it. *)
Definition picks (pl : plugins R) (a : attached R) (seed : nat) (act : Z) : Prop :=
  exists v q pi i, at_fit a = Some (v, q) /\ get_pi (pl_pi pl (at_name a) seed) q = Ok pi /\
    py_index (length pi) (at_pos a) = Ok i /\ act = nth i pi 0%Z.

(** Agents other than [name] are the same in both environments. *)
Definition others_same (e e' : env R) (name : string) : Prop :=
  forall b, at_name b <> name -> (In b (e_agents e') <-> In b (e_agents e)).

(** What is fixed when an agent is attached. *)
Definition same_agent (a b : attached R) : Prop :=
  at_name b = at_name a /\ at_n_moves b = at_n_moves a /\ at_reward b = at_reward a /\ at_consumes b = at_consumes a /\
  at_idx b = at_idx a /\ at_feature_idx b = at_feature_idx a /\ at_start b = at_start a.

(** The named agent stands on an agent it consumes. *)
Definition on_prey (e : env R) (name : string) : Prop :=
  exists a b, agent_named e name a /\ In b (e_agents e) /\
    In (Z.of_nat (at_feature_idx b)) (at_consumes a) /\ at_pos b = at_pos a.

(** One round of a multi-step call: refit if requested ([refit_step]), then step. *)
Definition round (pl : plugins R) (name : string) (refit : bool) (n_turns : Z) (moves plan : list Z) (rnd : nat -> nat)
    (i : nat) (e e' : env R) (p : Z) : Prop :=
  exists e1, refit_step pl e name refit i n_turns moves plan (rnd (3 * i)) (rnd (3 * i + 1)) = (e1, Ok tt) /\
    env_step pl e1 name (rnd (3 * i + 2)) = (e', Ok p).

(** The round raises [x] and leaves environment [e']. *)
Definition round_raises (pl : plugins R) (name : string) (refit : bool) (n_turns : Z) (moves plan : list Z) (rnd : nat -> nat)
    (i : nat) (e e' : env R) (x : exc) : Prop :=
  refit_step pl e name refit i n_turns moves plan (rnd (3 * i)) (rnd (3 * i + 1)) = (e', Err x) \/
  exists e1, refit_step pl e name refit i n_turns moves plan (rnd (3 * i)) (rnd (3 * i + 1)) = (e1, Ok tt) /\
    env_step pl e1 name (rnd (3 * i + 2)) = (e', Err x).

(** Rounds [i], [i+1], ... succeed one after the other; they visit positions [ps], and [ok] holds after
    each of them. *)
Inductive rounds (R1 : nat -> env R -> env R -> Z -> Prop) (ok : env R -> Prop) : nat -> env R -> list Z -> env R -> Prop :=
| rounds_none : forall i e, rounds R1 ok i e [] e
| rounds_more : forall i e e1 e2 p ps, R1 i e e1 p -> ok e1 -> rounds R1 ok (S i) e1 ps e2 -> rounds R1 ok i e (p :: ps) e2.

(** The number of steps a multi-step call asks for. *)
Definition requested (a : attached R) (arg : steps_arg) : option Z :=
  match arg with
  | StepsDefault => Some (at_n_moves a)
  | StepsInt n => Some n
  | StepsList (n :: _) => Some n
  | _ => None
  end.

(** The planning horizons are usable: one positive number per agent. *)
Definition good_plan (e : env R) (plan : list Z) : Prop :=
  length plan = length (e_agents e) /\ forall n, In n plan -> (0 < n)%Z.

(** Calls that do not place agents directly and do not change the walls. *)
Definition walk_op (o : op R) : Prop :=
  match o with OSetPosition _ _ | OSetWalls _ => False | _ => True end.
(** Likewise, without resets and probabilistic steps. *)
Definition counted_op (o : op R) : Prop :=
  match o with OFit _ _ _ _ | OStep _ _ | OStepMulti _ _ _ _ _ _ _ | OInteractive _ _ => True | _ => False end.

(** Total length of the position histories. *)
Definition total_history (e : env R) : nat := list_sum (map (fun a => length (at_hist a)) (e_agents e)).

(** Every action an agent's selector can pick on position [x] satisfies [good x]. *)
Definition plays (pl : plugins R) (good : Z -> Z -> Prop) : Prop :=
  forall nm seed q pi x i, get_pi (pl_pi pl nm seed) q = Ok pi -> py_index (length pi) x = Ok i ->
    (0 <= nth i pi 0)%Z -> good x (nth i pi 0%Z).

(** [h] is a walk from [start] to [pos]: each entry is the successor of the one before under an action
    satisfying [good]. *)
Definition walk_history (m : mdp R) (good : Z -> Z -> Prop) (start pos : Z) (h : list Z) : Prop :=
  (exists rest, h = start :: rest) /\ last h 0%Z = pos /\
  forall i, S i < length h -> exists act s, (0 <= act)%Z /\ good (nth i h 0%Z) act /\
    get_next_state m (nth i h 0%Z) act = Ok s /\ nth (S i) h 0%Z = Z.of_nat s.
