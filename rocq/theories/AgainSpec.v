(** Vocabulary for comparing an environment after a reset with a new one. *)
From Coq Require Import String List ZArith.
From Verif Require Import PyBase GridModel MDPModel ActionModel EnvModel.
Import ListNotations.

Section Again.
Context {A : Type} {NA : Num A}.

(** What a call reports to its caller: the value it returns or the exception it raises. *)
Inductive outcome :=
| Done (r : res unit) | Moved (r : res Z) | MovedMulti (r : res multi_result) | Chances (r : res (list (fval A))).
Definition reports (pl : plugins A) (e : env A) (o : op A) : outcome :=
  match o with
  | OFit nm k s s' => Done (snd (env_fit pl e nm k s s'))
  | OStep nm s => Moved (snd (env_step pl e nm s))
  | OStepMulti nm n p t rf st rnd => MovedMulti (snd (step_multi pl e nm n p t rf st rnd))
  | OStepProba nm p s => Chances (snd (env_step_proba pl e nm p s))
  | OInteractive l n => Done (snd (step_multi_interactive e l n))
  | OSetPosition nm p => Done (snd (set_agent_position e nm p))
  | OSetWalls w => Done (match set_walls (e_mdp e) w with Ok _ => Ok tt | Err x => Err x end)
  | OReset => Done (snd (env_reset e))
  end.
(** What a whole program reports, call by call. *)
Fixpoint reports_all (pl : plugins A) (e : env A) (l : list (op A)) : list outcome :=
  match l with [] => [] | o :: r => reports pl e o :: reports_all pl (do_op pl e o) r end.

(** Agents that differ at most in the record of what was consumed and in the stored plan; the second has no other
    plan than the first. *)
Definition same_agent_but_records (b a : attached A) : Prop :=
  exists c f, b = set_consumed (set_fit a f) c /\ length c = length (at_consumed a) /\ (f = at_fit a \/ at_fit a = None).
(** Environments that differ at most in these records and in the step counter. *)
Definition same_but_records (e' e : env A) : Prop :=
  e_mdp e' = e_mdp e /\ e_names e' = e_names e /\ e_n_agents e' = e_n_agents e /\
  Forall2 same_agent_but_records (e_agents e') (e_agents e).

(** Planning does not look at these records. *)
Definition ignores_records (pl : plugins A) : Prop :=
  forall nm e1 e2 n s, same_but_records e1 e2 -> pl_fit pl nm e1 n s = pl_fit pl nm e2 n s.

(** Whoever acts on a stored plan has one. *)
Definition ready (e : env A) (o : op A) : Prop :=
  match o with
  | OStep nm _ | OStepProba nm _ _ | OStepMulti nm _ _ _ false _ _ =>
    forall a, In a (e_agents e) -> at_name a = nm -> at_fit a <> None
  | _ => True
  end.
(** A program in which every agent is fitted before it acts. *)
Fixpoint prepared (pl : plugins A) (e : env A) (l : list (op A)) : Prop :=
  match l with [] => True | o :: r => ready e o /\ prepared pl (do_op pl e o) r end.

(** The assignments of walls in a program. *)
Definition assigns_walls (o : op A) : bool := match o with OSetWalls _ => true | _ => false end.

End Again.
Arguments outcome A : clear implicits.
