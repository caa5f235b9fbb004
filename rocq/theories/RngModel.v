(** Model of the random number generators behind action selection and tree search
    (maMDP/algorithms/action_selection.py 163-175 and 225-242, maMDP/algorithms/mcts.py). Definitions only.

    The other models take the random draws of each call as an argument. Here the generators are part of the state:
    each call draws from them and leaves them in another state. A generator's state is a number, which is what the
    plug-ins get as their seed; how a call changes it is a parameter. *)
From Coq Require Import String List ZArith Bool.
From Verif Require Import PyBase GridModel MDPModel ActionModel EnvModel AgainSpec.
Import ListNotations.
Local Open Scope nat_scope.

(** action_selection.py 170-173 and 239-242: the selector of an agent has its own generator if it was given a seed, and uses
    numpy's global one otherwise. The functions of mcts.py are compiled: their [np.random] (mcts.py 23, 81, 103, 175, 191) is a
    third generator, which Python code can neither seed nor read. *)
Record rngs := mkRngs {
  rg_own : string -> option nat;
  rg_global : nat;
  rg_search : nat
}.

(** action_selection.py 163-173 and 225-242, [MaxActionSelector.__init__] and [SoftmaxActionSelector.__init__]: the
    generators of newly made selectors; [start] is [np.random.default_rng]. *)
Definition new_rngs (start : nat -> nat) (seeds : string -> option nat) (global search : nat) : rngs :=
  mkRngs (fun nm => option_map start (seeds nm)) global search.

(** action_selection.py 171-173: the state of the generator an agent's selector draws from. *)
Definition rng_state (g : rngs) (nm : string) : nat := match rg_own g nm with Some s => s | None => rg_global g end.
(** action_selection.py 215 and 289: a draw changes the generator drawn from. *)
Definition rng_advance (g : rngs) (nm : string) (s' : nat) : rngs :=
  match rg_own g nm with
  | Some _ => mkRngs (fun n => if String.eqb n nm then Some s' else rg_own g n) (rg_global g) (rg_search g)
  | None => mkRngs (rg_own g) s' (rg_search g)
  end.

Section Rng.
Context {A : Type} {NA : Num A}.

(** action_selection.py 40, 289; mcts.py 23-191: the state in which selecting actions for given Q values, or a fit, leaves
    the generator it draws from (the number of draws depends on the arguments). *)
Record generators := mkGen {
  gn_pi : string -> nat -> list (list (fval A)) -> nat;
  gn_fit : string -> env A -> option (list (list Z)) -> nat -> nat
}.

(** agents.py 151-154 [get_policy]: [get_pi] draws, but only if [get_pi_p] did not raise. *)
Definition policy_draws (pl : plugins A) (D : generators) (g : rngs) (nm : string) (q : list (list (fval A))) : rngs :=
  match get_pi_p (pl_pi_p pl nm) q with
  | Err _ => g
  | Ok _ => rng_advance g nm (gn_pi D nm (rng_state g nm) q)
  end.

(** environments.py 167-182 [fit], base.py 40-51, agents.py 156-162. *)
Definition r_fit (pl : plugins A) (D : generators) (g : rngs) (e : env A) (nm : string) (n : option (list (list Z)))
    : rngs * env A * res unit :=
  let g' :=
    match lookup e nm with
    | Err _ => g
    | Ok a =>
      if negb (length (at_reward a) =? m_n_features (e_mdp e)) then g
      else
        let g1 := mkRngs (rg_own g) (rg_global g) (gn_fit D nm e n (rg_search g)) in
        match alg_fit pl e a n (rg_search g) with
        | Err _ => g1
        | Ok (_, q) => policy_draws pl D g1 nm q
        end
    end in
  let '(e', r) := env_fit pl e nm n (rg_search g) (rng_state g nm) in (g', e', r).

(** environments.py 184-206 [step], agents.py 164-179. *)
Definition r_step (pl : plugins A) (D : generators) (g : rngs) (e : env A) (nm : string) : rngs * env A * res Z :=
  let g' :=
    match lookup e nm with
    | Err _ => g
    | Ok a => match at_fit a with Some (_, q) => policy_draws pl D g nm q | None => g end
    end in
  let '(e', r) := env_step pl e nm (rng_state g nm) in (g', e', r).

(** environments.py 208-228 [step_proba], agents.py 195-206: nothing is drawn if the position is refused. *)
Definition r_proba (pl : plugins A) (D : generators) (g : rngs) (e : env A) (nm : string) (position : option (list A))
    : rngs * env A * res (list (fval A)) :=
  let g' :=
    match lookup e nm with
    | Err _ => g
    | Ok a =>
      if match position with
         | Some p => length p =? m_n_states (e_mdp e)
         | None => match py_index (m_n_states (e_mdp e)) (at_pos a) with Ok _ => true | Err _ => false end
         end
      then match at_fit a with Some (_, q) => policy_draws pl D g nm q | None => g end
      else g
    end in
  let '(e', r) := env_step_proba pl e nm position (rng_state g nm) in (g', e', r).

(** environments.py 365-404: the loop of [step_multi] (compare [multi_loop]). *)
Fixpoint r_loop (pl : plugins A) (D : generators) (g : rngs) (e : env A) (nm : string) (refit stop : bool) (n_turns : Z)
    (n_agent_steps plan : list Z) (i todo : nat) (acc : list Z) : rngs * env A * res multi_result :=
  match todo with
  | O => (g, e, Ok (Positions acc))
  | S todo' =>
    match (if refit then
             match step_plan i n_turns n_agent_steps plan with
             | Err x => (g, e, Err x)
             | Ok p => r_fit pl D g e nm (Some p)
             end
           else (g, e, Ok tt)) with
    | (g1, e1, Err x) => (g1, e1, Err x)
    | (g1, e1, Ok _) =>
      match r_step pl D g1 e1 nm with
      | (g2, e2, Err x) => (g2, e2, Err x)
      | (g2, e2, Ok p) =>
        let was_caught := match find_agent (e_agents e2) nm with Some a => caught e2 a | None => false end in
        if was_caught && stop then (g2, e2, Ok StoppedCaught)
        else r_loop pl D g2 e2 nm refit stop n_turns n_agent_steps plan (S i) todo' (acc ++ [p])
      end
    end
  end.

(** environments.py 272-404 [step_multi] (compare [step_multi]). *)
Definition r_multi (pl : plugins A) (D : generators) (g : rngs) (e : env A) (nm : string) (n_steps : steps_arg)
    (n_moves_plan : option (list Z)) (n_turns_plan : Z) (refit stop : bool) : rngs * env A * res multi_result :=
  match lookup e nm with
  | Err x => (g, e, Err x)
  | Ok a =>
    match all_n_steps e nm with
    | Err x => (g, e, Err x)
    | Ok n_agent_steps =>
      let plan := match n_moves_plan with None => n_agent_steps | Some p => p end in
      if negb (length plan =? length (e_agents e)) then (g, e, Err ValueError)
      else
        match n_steps with
        | StepsList [] => (g, e, Err IndexError)
        | _ =>
          if negb (forallb (fun i => (0 <? i)%Z) plan) then (g, e, Err ValueError)
          else
            match (match n_steps with
                   | StepsDefault => Ok (at_n_moves a)
                   | StepsInt n => Ok n
                   | StepsList (n :: _) => Ok n
                   | _ => Err UnboundLocalError
                   end) with
            | Err x => (g, e, Err x)
            | Ok n => r_loop pl D g e nm refit stop n_turns_plan n_agent_steps plan 0 (Z.to_nat n) []
            end
        end
    end
  end.

(** environments.py 167-529 and mdp.py 108-139: the calls, without their draws. [RForeign] stands for other code of the same
    process, which seeds numpy's global generator or draws from it, or runs searches of its own; so it may leave the two shared
    generators in any state. [RSeed] is [np.random.seed]. *)
Inductive rop :=
| RFit (name : string) (n_moves : option (list (list Z)))
| RStep (name : string)
| RStepMulti (name : string) (n_steps : steps_arg) (plan : option (list Z)) (n_turns : Z) (refit stop : bool)
| RStepProba (name : string) (position : option (list A))
| RInteractive (names : option (list string)) (n_moves : option (list (list Z)))
| RSetPosition (name : string) (p : Z)
| RSetWalls (walls : list A)
| RReset
| RForeign (global search : nat)
| RSeed (state : nat).

(** environments.py 167-529, mdp.py 108-139: one call. Generators and environment afterwards, and what the caller gets. *)
Definition r_op (pl : plugins A) (D : generators) (g : rngs) (e : env A) (o : rop) : rngs * env A * list (outcome A) :=
  match o with
  | RFit nm n => let '(g', e', r) := r_fit pl D g e nm n in (g', e', [Done r])
  | RStep nm => let '(g', e', r) := r_step pl D g e nm in (g', e', [Moved r])
  | RStepMulti nm n p t rf st => let '(g', e', r) := r_multi pl D g e nm n p t rf st in (g', e', [MovedMulti r])
  | RStepProba nm p => let '(g', e', r) := r_proba pl D g e nm p in (g', e', [Chances r])
  | RInteractive l n => let '(e', r) := step_multi_interactive e l n in (g, e', [Done r])
  | RSetPosition nm p => let '(e', r) := set_agent_position e nm p in (g, e', [Done r])
  | RSetWalls w => match set_walls (e_mdp e) w with Ok m => (g, with_mdp e m, [Done (Ok tt)]) | Err x => (g, e, [Done (Err x)]) end
  | RReset => let '(e', r) := env_reset e in (g, e', [Done r])
  | RForeign gl se => (mkRngs (rg_own g) gl se, e, [])
  | RSeed s => (mkRngs (rg_own g) s (rg_search g), e, [])
  end.
(** environments.py 167-529: a program, call after call. Generators and environment afterwards, and everything the caller got. *)
Fixpoint r_run (pl : plugins A) (D : generators) (g : rngs) (e : env A) (p : list rop) : rngs * env A * list (outcome A) :=
  match p with
  | [] => (g, e, [])
  | o :: r =>
    let '(g1, e1, out) := r_op pl D g e o in
    let '(g2, e2, outs) := r_run pl D g1 e1 r in (g2, e2, out ++ outs)
  end.

End Rng.
Arguments generators A : clear implicits. Arguments rop A : clear implicits.
