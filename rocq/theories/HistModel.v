(** Model of the position histories as the Python lists they are: objects that the environment hands out
    and goes on using (maMDP/agents.py, maMDP/environments.py). Definitions only. *)
From Coq Require Import String List ZArith Bool.
From Verif Require Import PyBase GridModel MDPModel ActionModel EnvModel.
Import ListNotations.

Section Hist.
Context {A : Type} {NA : Num A}.

(** agents.py 98, 178 and 229: An environment and the list objects of its agents: [h_lists] are all lists ever made, [h_of] says which of
    them each agent (in the order of the dictionary) uses as [position_history]. The list inside the
    records of [h_env] is not used. *)
Record hworld := mkHWorld { h_env : env A; h_lists : list (list Z); h_of : list nat }.

(** agents.py 98 [self.position_history = [...]]: every attached agent gets a list of its own. *)
Definition h_new (e : env A) : hworld := mkHWorld e (map at_hist (e_agents e)) (seq 0 (length (e_agents e))).

(** agents.py 98, environments.py 531-543: The environment with the histories the lists show. *)
Definition view (w : hworld) : env A :=
  let e := h_env w in
  mkEnv (e_mdp e) (e_names e) (map (fun '(a, i) => set_hist a (nth i (h_lists w) [])) (combine (e_agents e) (h_of w)))
    (e_n_agents e) (e_n_steps e).

(** environments.py 531-543 [get_agent_position_history]: which list object is returned. *)
Definition history_object (w : hworld) (name : string) : res nat :=
  if existsb (String.eqb name) (e_names (h_env w)) then
    match find (fun '(a, _) => String.eqb (at_name a) name) (combine (e_agents (h_env w)) (h_of w)) with
    | Some (_, i) => Ok i
    | None => Err KeyError
    end
  else Err ValueError.

(** agents.py 178 [self.position_history.append(...)] changes the list in place: the lists of all agents
    get the contents the records show after the call. *)
Definition write_all (lists : list (list Z)) (of : list nat) (agents : list (attached A)) : list (list Z) :=
  fold_left (fun ls '(a, i) => upd ls i (at_hist a)) (combine agents of) lists.

(** What a program does: a call, or appending to a list it holds. agents.py 229 in [reset]
    ([self.position_history = [...]]) gives every agent a new list; that [reset] does not raise halfway is
    property C18. *)
Inductive hcall := HCall (o : op A) | HAppend (i : nat) (z : Z).
(** environments.py 167-529 on the lists of agents.py 98, 178 and 229: one step of the program. *)
Definition h_do (pl : plugins A) (w : hworld) (c : hcall) : hworld :=
  match c with
  | HCall OReset =>
    let e := do_op pl (view w) OReset in
    mkHWorld e (h_lists w ++ map at_hist (e_agents e)) (seq (length (h_lists w)) (length (e_agents e)))
  | HCall o =>
    let e := do_op pl (view w) o in
    mkHWorld e (write_all (h_lists w) (h_of w) (e_agents e)) (h_of w)
  | HAppend i z => mkHWorld (h_env w) (upd (h_lists w) i (nth i (h_lists w) [] ++ [z])) (h_of w)
  end.
(** environments.py 167-529 on the lists of agents.py 98, 178 and 229: a whole program. *)
Definition h_run (pl : plugins A) (w : hworld) (l : list hcall) : hworld := fold_left (h_do pl) l w.

End Hist.
Arguments hworld A : clear implicits. Arguments hcall A : clear implicits.
