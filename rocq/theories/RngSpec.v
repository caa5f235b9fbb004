(** Vocabulary for reproducibility. *)
From Coq Require Import String List ZArith Bool.
From Verif Require Import PyBase GridModel MDPModel ActionModel EnvModel AgainSpec RngModel.
Import ListNotations.

Section Rng.
Context {A : Type} {NA : Num A}.

(** The algorithms make no random choices (value iteration, say). *)
Definition deterministic (pl : plugins A) : Prop := forall nm e n s s', pl_fit pl nm e n s = pl_fit pl nm e n s'.
(** Calls of the library, as opposed to what other code of the process does with the shared generators. *)
Definition library_call (o : rop A) : bool := match o with RForeign _ _ | RSeed _ => false | _ => true end.
Definition undisturbed (o : rop A) : Prop := match o with RForeign _ _ => False | _ => True end.

(** Environment after a program, and everything the caller got. *)
Definition final (pl : plugins A) (D : generators A) (g : rngs) (e : env A) (p : list (rop A)) : env A := snd (fst (r_run pl D g e p)).
Definition answers (pl : plugins A) (D : generators A) (g : rngs) (e : env A) (p : list (rop A)) : list (outcome A) := snd (r_run pl D g e p).

(** Calls by which agent [nm] itself acts on its plan or is moved. *)
Definition acts (nm : string) (o : rop A) : bool :=
  match o with RStep n | RStepProba n _ | RSetPosition n _ => String.eqb n nm | _ => false end.
(** Calls that neither change walls, nor reset, nor plan for [nm], nor move it as part of a sequence. *)
Definition keeps_plan_of (nm : string) (o : rop A) : Prop :=
  match o with
  | RFit n _ | RStepMulti n _ _ _ _ _ => n <> nm
  | RSetWalls _ | RReset => False
  | _ => True
  end.
(** What can be seen of an agent, except what it consumed. *)
Definition seen (a : attached A) := (at_pos a, at_hist a, at_pi a, at_pi_p a, at_fit a).

End Rng.
