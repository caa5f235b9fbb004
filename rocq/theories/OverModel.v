(** Soft value iteration with overflow: maMDP/algorithms/dynamic_programming.py 71-185 with [soft=True], where exponentials beyond the largest
    floating-point number are infinite. Definitions only. Numbers are exact otherwise. *)
From Coq Require Import List ZArith Bool Reals.
From Verif Require Import PyBase VIModel.
Import ListNotations.
Local Open Scope R_scope.

(** dynamic_programming.py 124: [np.log(np.sum(np.exp(action_values)) + 1e-200)]. Numbers from [top] on are infinite. Exponentials are positive, so
    if one of them or a sum of some of them is that large, the sum of all is; the logarithm of infinity is infinity. *)
Definition soft_backup_top (top : R) (l : list R) : fval R :=
  let x := nsum (map exp l) + soft_eps in if Rltb x top then Fin (ln x) else PInf.

(** dynamic_programming.py 106 [np.isinf]. *)
Definition isinf (v : fval R) : bool := match v with PInf | NInf => true | _ => false end.
(** dynamic_programming.py 114: the values are finite when they are used (lines 106-108). *)
Definition finite_part (v : fval R) : R := match v with Fin a => a | _ => 0 end.
(** dynamic_programming.py 48-68 [delta_update] if the new value may be infinite. *)
Definition delta_top (delta : fval R) (old_v : R) (new_v : fval R) : fval R :=
  match delta, new_v with Fin d, Fin x => Fin (delta_update d old_v x) | _, _ => PInf end.

(** dynamic_programming.py 104-130: one state. *)
Definition sweep_state_top (top : R) (reward : list R) (discount : R) (sas : list (list (list R)))
    (acc : list (fval R) * fval R * list (list R)) (s : nat) : res (list (fval R) * fval R * list (list R)) :=
  let '(values, delta, q) := acc in
  if existsb isinf values then Err ValueError
  else
    let old := map finite_part values in
    let av := state_action_values s (length (nth 0 sas [])) sas reward discount old in
    let x := soft_backup_top top av in
    Ok (upd values s x, delta_top delta (nth s old 0) x, upd q s av).
(** dynamic_programming.py 71-132 [state_value_iterator]. *)
Definition sweep_top (top : R) (values : list (fval R)) (delta : fval R) (reward : list R) (discount : R) (sas : list (list (list R)))
    : res (list (fval R) * fval R * list (list R)) :=
  foldM (sweep_state_top top reward discount sas) (seq 0 (length sas)) (values, delta, zeros2 (length sas) (length (nth 0 sas []))).
(** dynamic_programming.py 166-175. *)
Fixpoint vi_loop_top (top : R) (k : nat) (values : list (fval R)) (q : option (list (list R))) (reward : list R) (discount : R)
    (sas : list (list (list R))) (tol : R) : res (list (fval R) * option (list (list R))) :=
  match k with
  | O => Ok (values, q)
  | S k' =>
    let* (values', delta, q') := sweep_top top values (Fin 0) reward discount sas in
    if match delta with Fin d => Rltb d tol | _ => false end then Ok (values', Some q')
    else vi_loop_top top k' values' (Some q') reward discount sas tol
  end.
(** dynamic_programming.py 134-185 [solve_value_iteration]. *)
Definition solve_top (top : R) (rf : list R) (features : list (list R)) (max_iter : Z) (discount : R) (sas : list (list (list R))) (tol : R)
    : res (list (fval R) * list (list (fval R))) :=
  if negb (Rltb discount 1 && Rltb 0 discount) then Err AssertionError
  else if negb (length rf =? length features)%nat then Err ValueError
  else
    let reward := state_rewards (length sas) rf features in
    let* (values, q) := vi_loop_top top (Z.to_nat max_iter) (repeat (Fin 0) (length sas)) None reward discount sas tol in
    match q with
    | None => Err UnboundLocalError
    | Some q' => Ok (values, mask_q sas q')
    end.

(** The numbers that IEEE 754 double precision rounds to infinity start halfway between the largest number and [2^1024]. *)
Definition top64 : R := 2 ^ 1024 - 2 ^ 970.
