(** Model of maMDP/algorithms/dynamic_programming.py. Definitions only. Compiled-code details (numba) and
    rounding are not modelled here (rounding: RoundModel.v; overflow: OverModel.v); the values are exact numbers, so the check for infinities in lines
    106-108 never fires. *)
From Coq Require Import String List ZArith Bool Reals.
From Verif Require Import PyBase MDPModel ActionModel EnvModel.
Import ListNotations.

Section VI.
Context {A : Type} {NA : Num A}.

(** dynamic_programming.py 12-46 [get_state_action_values]. *)
Definition state_action_values (s nA : nat) (sas : list (list (list A))) (reward : list A) (discount : A)
    (values : list A) : list A :=
  let target := map (fun '(r, v) => nadd r (nmul discount v)) (combine reward values) in
  map (fun a => dot (nth a (nth s sas []) []) target) (seq 0 nA).

(** dynamic_programming.py 48-68 [delta_update]. *)
Definition delta_update (delta old_v new_v : A) : A := nmax delta (nabs (nsub old_v new_v)).

(** dynamic_programming.py 119: [action_values.max()]; ValueError if there are no actions (line 119). *)
Definition hard_backup (l : list A) : res A :=
  match l with [] => Err ValueError | x :: r => Ok (fold_left nmax r x) end.

(** dynamic_programming.py 71-132 [state_value_iterator]; [backup] is the choice in lines 116-124
    ([hard_backup] or [soft_backup]). The values are updated in place, so later states see the new
    values of earlier ones. *)
Definition sweep_state (backup : list A -> res A) (reward : list A) (discount : A) (sas : list (list (list A)))
    (acc : list A * A * list (list A)) (s : nat) : res (list A * A * list (list A)) :=
  let '(values, delta, q) := acc in
  let av := state_action_values s (length (nth 0 sas [])) sas reward discount values in
  let* x := backup av in
  Ok (upd values s x, delta_update delta (nth s values n0) x, upd q s av).
(** dynamic_programming.py 72-132 [state_value_iterator]. *)
Definition state_value_iterator (backup : list A -> res A) (values : list A) (delta : A) (reward : list A)
    (discount : A) (sas : list (list (list A))) : res (list A * A * list (list A)) :=
  foldM (sweep_state backup reward discount sas) (seq 0 (length sas))
    (values, delta, zeros2 (length sas) (length (nth 0 sas []))).

(** dynamic_programming.py 166-175, the loop over sweeps. The Q values are unbound before the first. *)
Fixpoint vi_loop (backup : list A -> res A) (k : nat) (values : list A) (q : option (list (list A)))
    (reward : list A) (discount : A) (sas : list (list (list A))) (tol : A) : res (list A * option (list (list A))) :=
  match k with
  | O => Ok (values, q)
  | S k' =>
    let* (values', delta, q') := state_value_iterator backup values n0 reward discount sas in
    if nltb delta tol then Ok (values', Some q')
    else vi_loop backup k' values' (Some q') reward discount sas tol
  end.

(** dynamic_programming.py 164: [np.dot(reward_function, features)], line 164: one entry per state. Line 164's shape check: the
    reward function must have one entry per row of features. *)
Definition state_rewards (n : nat) (rf : list A) (features : list (list A)) : list A :=
  map (fun s => nsum (map (fun '(w, row) => nmul w (nth s row n0)) (combine rf features))) (seq 0 n).

(** dynamic_programming.py 178-183: Q values of actions without successors. *)
Definition mask_q (sas : list (list (list A))) (q : list (list A)) : list (list (fval A)) :=
  map (fun '(mat, row) => map (fun '(trans, x) => if neqb (nsum trans) n0 then NInf else Fin x) (combine mat row))
      (combine sas q).

(** dynamic_programming.py 134-185 [solve_value_iteration]. *)
Definition solve_value_iteration (backup : list A -> res A) (rf : list A) (features : list (list A)) (max_iter : Z)
    (discount : A) (sas : list (list (list A))) (tol : A) : res (list A * list (list (fval A))) :=
  if negb (nltb discount n1 && nltb n0 discount) then Err AssertionError
  else if negb (length rf =? length features)%nat then Err ValueError
  else
    let reward := state_rewards (length sas) rf features in
    let* (values, q) := vi_loop backup (Z.to_nat max_iter) (zeros1 (length sas)) None reward discount sas tol in
    match q with
    | None => Err UnboundLocalError
    | Some q' => Ok (values, mask_q sas q')
    end.

(** dynamic_programming.py 222-237 [ValueIteration._fit], as an agent's algorithm in an environment. *)
Definition vi_fit (discount tol : A) (max_iter : Z) (m : mdp A) (rf : list A) : res (fitted A) :=
  let* (v, q) := solve_value_iteration hard_backup rf (m_features m) max_iter discount (m_sas m) tol in
  Ok (map Fin v, q).

End VI.

(** dynamic_programming.py 120-124, the soft backup: [np.log(np.sum(np.exp(action_values)) + 1e-200)]. *)
Definition soft_eps : R := (/ 10 ^ 200)%R.
(** dynamic_programming.py 124. *)
Definition soft_backup (l : list R) : res R := Ok (ln (nsum (map exp l) + soft_eps))%R.
