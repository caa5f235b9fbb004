(** Vocabulary for what the queries report. *)
From Coq Require Import String List ZArith.
From Verif Require Import PyBase EnvModel.

(** Calls that neither fit the agent [nm] nor reset the environment. *)
Definition leaves_plan {A} (nm : string) (o : op A) : Prop :=
  match o with
  | OFit nm' _ _ _ => nm' <> nm
  | OStepMulti nm' _ _ _ refit _ _ => nm' <> nm \/ refit = false
  | OReset => False
  | _ => True
  end.
(** Calls that do not fit the agent [nm]. *)
Definition never_fits {A} (nm : string) (o : op A) : Prop := o = OReset \/ leaves_plan nm o.
