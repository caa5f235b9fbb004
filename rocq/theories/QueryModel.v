(** Model of the queries about an agent's plan (maMDP/environments.py). Definitions only.
    [get_agent_pi] and [get_agent_pi_p] are in [EnvModel]. *)
From Coq Require Import String List ZArith Bool.
From Verif Require Import PyBase GridModel MDPModel ActionModel EnvModel.
Import ListNotations.

Section Query.
Context {A : Type} {NA : Num A}.

(** environments.py 545-557 [get_agent_q_values]: [algorithm.q_values] without a check; None (here [None])
    before the first fit and after [Algorithm.reset] (base.py 9-23, 80-88). *)
Definition get_agent_q_values (e : env A) (name : string) : res (option (list (list (fval A)))) :=
  let* a := lookup e name in Ok (option_map snd (at_fit a)).

End Query.
