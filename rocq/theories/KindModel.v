(** Model of two uses of the algorithms that the other models leave out: a tree search without an environment
    (maMDP/algorithms/base.py 10-88, mcts.py 880-955), and initial reward weights that are an array of integers or a
    Python list (irl.py 124-125, 169-230, 339-340, 401-484). Definitions only. *)
From Coq Require Import List ZArith Reals Bool.
From Verif Require Import PyBase MDPModel EnvModel SRModel IRLModel HypModel ArgModel.
Import ListNotations.
Local Open Scope nat_scope.

Section Alone.
Context {A : Type} {NA : Num A}.

(** base.py 10-19 and mcts.py 863-881: what changes in a tree-search object that has never been attached to an agent
    ([self._agent] and [self._environment] are None): the result of the last fit and the successor representation. *)
Record tree := mkTree { t_result : option (fitted A); t_sr : option (list (list A)) }.
(** mcts.py 863-881 [__init__]. *)
Definition new_tree : tree := mkTree None None.
(** base.py 80-88 [reset]; [V] and [N] (mcts.py 884-887) have no other effect. *)
Definition reset_tree (t : tree) : tree := mkTree None (t_sr t).
(** mcts.py 948: the discount factor 0.99. *)
Definition n99 : A := ndiv (nofn 99) (nofn 100).
(** mcts.py 933-955 [_fit], up to [self._agent.name] in [create_agent_info] (mcts.py 907), which is an AttributeError. *)
Definition tree_fit (interactive : bool) (m : mdp A) (t : tree) : tree * res (fitted A) :=
  if interactive then (t, Err NotImplementedErr)
  else
    let t1 := reset_tree t in
    match t_sr t1 with
    | Some _ => (t1, Err AttributeError)
    | None => match get_sa_sr (m_sas m) n99 with
              | Err x => (t1, Err x)
              | Ok sr => (mkTree (t_result t1) (Some sr), Err AttributeError)
              end
    end.
(** base.py 25-69 [fit]; the checks of the results (56-64) are as in [fit_alone]. *)
Definition fit_tree (interactive : bool) (m : mdp A) (t : tree) (r : reward_arg (A:=A)) : tree * res unit :=
  match fit_reward r with
  | Err x => (t, Err x)
  | Ok w =>
    if negb (length w =? m_n_features m) then (t, Err AttributeError)
    else match tree_fit interactive m t with
         | (t', Err x) => (t', Err x)
         | (t', Ok vq) =>
           if negb (length (fst vq) =? m_n_states m) then (t', Err AssertionError)
           else if negb (length (snd vq) =? m_n_states m) then (t', Err AssertionError)
           else if negb (forallb (fun row => length row =? m_n_actions m) (snd vq)) then (t', Err AssertionError)
           else (mkTree (Some vq) (t_sr t'), Ok tt)
         end
  end.
(** base.py 25-88: calls on such an object. *)
Inductive tree_call := TFit (m : mdp A) (r : reward_arg (A:=A)) | TReset.
(** base.py 25-88. *)
Definition tree_do (interactive : bool) (t : tree) (c : tree_call) : tree :=
  match c with TFit m r => fst (fit_tree interactive m t r) | TReset => reset_tree t end.

(** irl.py 124-125: the initial weights: an array of floats, an array of integers, a list. *)
Inductive weights_arg (X : Type) := WFloat (l : list X) | WInt (l : list X) | WList (l : list X).
Arguments WFloat {X}. Arguments WInt {X}. Arguments WList {X}.

(** irl.py 241-263 [fit] and 169-230 [_solve_maxcausalent] with weights of each kind: the weights and the learning rate
    afterwards; on success the returned weights and whether a warning was given. Adding floats to an array of integers
    in place (215, 218) raises (a subclass of) TypeError; a list cannot be indexed with a tuple or a list (193). *)
Definition fit_maxent_kind (c : maxent_cfg A) (m : mdp A) (ts : list (list Z)) (ig : ignore_arg) (w : weights_arg A) (rate : A)
    : weights_arg A * A * res (list A * bool) :=
  match ts with
  | [] => (w, rate, Err IndexError)
  | [] :: _ => (w, rate, Err TypeError)
  | _ =>
    match (let* v := visited_states (m_n_states m) ts in zero_ignored ig (feature_counts (m_features m) v)) with
    | Err e => (w, rate, Err e)
    | Ok true_F =>
      match w with
      | WList _ => (w, rate, Err TypeError)
      | WInt l =>
        match zero_ignored ig l with
        | Err e => (w, rate, Err e)
        | Ok theta =>
          match x_iter c with
          | 0 => (WInt theta, rate, Err UnboundLocalError)
          | S _ =>
            match (let* d := x_inner c m ts theta in zero_ignored ig d) with
            | Err e => (WInt theta, rate, Err e)
            | Ok d => (WInt theta, if x_decaying c then nmul rate (x_power c 0) else rate, Err TypeError)
            end
          end
        end
      | WFloat l =>
        match zero_ignored ig l with
        | Err e => (w, rate, Err e)
        | Ok theta =>
          let '(theta', rate', r) := maxent_loop c m ts ig true_F (x_iter c) 0 theta rate None in
          (WFloat theta', rate',
           match r with
           | Err e => Err e
           | Ok None => Err UnboundLocalError
           | Ok (Some error) => Ok (theta', negb (nltb (nmean error) (x_tol c)))
           end)
        end
      end
    end
  end.
End Alone.
Arguments tree A : clear implicits. Arguments tree_call A : clear implicits.
Arguments WFloat {X}. Arguments WInt {X}. Arguments WList {X}.

(** irl.py 490-518 [fit] and 401-484 [_solve_hyptest] with weights of each kind: the caller's object and [self.theta]
    afterwards; on success the returned weights, those after each move and those after each trajectory. [R_ += ...]
    (463, 467) changes an array of floats in place, raises (a subclass of) TypeError for an array of integers, and makes a
    new array from a list. *)
Definition fit_hyptest_kind (c : hyp_cfg) (mdps : list (mdp R)) (ts : list (list Z)) (exclude : list Z) (w : weights_arg weight)
    : weights_arg weight * weights_arg weight * res (list weight * list (list weight) * list (list weight)) :=
  match ts with
  | [] => (w, w, Err IndexError)
  | [] :: _ => (w, w, Err TypeError)
  | _ =>
    if negb (length ts =? length mdps) then (w, w, Err AttributeError) else
    if negb (same_shapes mdps) then (w, w, Err AssertionError) else
    let run l := run_all c exclude (combine mdps ts) (mkRun l 1 []) [] in
    let result st (ends : list (list weight)) (r : res unit) : res (list weight * list (list weight) * list (list weight)) :=
      match r with
      | Err e => Err e
      | Ok _ => if length (r_log st) =? 0 then Err ValueError else Ok (r_w st, r_log st, ends)
      end in
    match w with
    | WInt _ => (w, w, Err (object_error c exclude (combine mdps ts)))
    | WFloat l => let '(st, ends, r) := run l in (WFloat (r_w st), WFloat (r_w st), result st ends r)
    | WList l => let '(st, ends, r) := run l in (w, match result st ends r with Ok _ => WFloat (r_w st) | Err _ => w end, result st ends r)
    end
  end.
