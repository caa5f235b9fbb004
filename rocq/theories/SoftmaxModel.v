(** Model of softmax action selection (maMDP/algorithms/action_selection.py) over the extended reals.
    Floating-point rounding, underflow and overflow are not modelled. Definitions only. *)
From Coq Require Import List ZArith Bool Reals.
From Verif Require Import PyBase ActionModel.
Import ListNotations.
Local Open Scope R_scope.

(** action_selection.py 14 (and 284-286): IEEE arithmetic on NaN, infinities and reals, as far as softmax uses it. *)
Definition fsub (x y : fval R) : fval R :=
  match x, y with
  | Fin a, Fin b => Fin (a - b)
  | NaN, _ | _, NaN | NInf, NInf | PInf, PInf => NaN
  | NInf, _ => NInf | PInf, _ => PInf
  | Fin _, PInf => NInf | Fin _, NInf => PInf
  end.
(** action_selection.py 14 and 286: addition. *)
Definition fadd (x y : fval R) : fval R :=
  match x, y with
  | Fin a, Fin b => Fin (a + b)
  | NaN, _ | _, NaN | NInf, PInf | PInf, NInf => NaN
  | NInf, _ | _, NInf => NInf
  | PInf, _ | _, PInf => PInf
  end.
(** action_selection.py 14: division by a finite positive temperature *)
Definition fdiv_t (x : fval R) (t : R) : fval R :=
  match x with Fin a => Fin (a / t) | v => v end.
(** action_selection.py 14 [np.exp]. *)
Definition fexp (x : fval R) : fval R :=
  match x with Fin a => Fin (exp a) | NInf => Fin 0 | v => v end.
(** action_selection.py 14 and 286: division of a non-negative value by a non-negative value *)
Definition fdiv (x y : fval R) : fval R :=
  match x, y with
  | Fin a, Fin b => if Reqb b 0 then (if Reqb a 0 then NaN else PInf) else Fin (a / b)
  | Fin _, PInf => Fin 0
  | PInf, Fin _ => PInf
  | _, _ => NaN
  end.
(** action_selection.py 14 and 286 [np.sum]. *)
Definition fsum (l : list (fval R)) : fval R := fold_left fadd l (Fin 0).

(** action_selection.py 7-15 [softmax]. The rows it receives are NaN-free (see [clean]). *)
Definition softmax (qs : list (fval R)) (temperature : R) : list (fval R) :=
  if forallb isninf qs then map (fun _ => Fin (1 / INR (length qs))) qs
  else match fmax_list qs with
       | Err _ => []
       | Ok mx =>
         let ex := map (fun v => fexp (fdiv_t (fsub v mx) temperature)) qs in
         map (fun e => fdiv e (fsum ex)) ex
       end.

(** action_selection.py 225-242 [SoftmaxActionSelector.__init__]: the accepted temperature. *)
Definition softmax_init (temperature : R) : res R :=
  if Rltb 0 temperature then Ok temperature else Err ValueError.

(** action_selection.py 244-261 [SoftmaxActionSelector._get_pi_p]. *)
Definition softmax_get_pi_p (temperature : R) (q : list (list (fval R))) : res (list (list (fval R))) :=
  Ok (map (fun row => softmax row temperature) q).

(** action_selection.py 263-295 [SoftmaxActionSelector._get_pi]: one row; [u] is the uniform draw.
    [rng.choice] raises ValueError if the weights contain NaN. *)
Definition fin_of (v : fval R) : option R := match v with Fin a => Some a | _ => None end.
(** action_selection.py 282-291: the choice for one state. *)
Definition softmax_choice (prow : list (fval R)) (u : R) : res Z :=
  let ps := if forallb (fun v => feqb v (Fin 0)) prow then map (fun _ => Fin (1 / INR (length prow))) prow
            else map (fun p => fdiv p (fsum prow)) prow in
  let* ws := mapM (fun v => match fin_of v with Some a => Ok a | None => Err ValueError end) ps in
  Ok (Z.of_nat (choice_p ws u)).
(** action_selection.py 280-291: the loop over states. *)
Fixpoint softmax_pi_from (s : nat) (us : nat -> R) (prows : list (list (fval R))) : res (list Z) :=
  match prows with
  | [] => Ok []
  | prow :: r =>
    let* a := softmax_choice prow (us s) in
    let* rest := softmax_pi_from (S s) us r in
    Ok (a :: rest)
  end.
(** action_selection.py 263-295 [SoftmaxActionSelector._get_pi]. *)
Definition softmax_get_pi (temperature : R) (us : nat -> R) (q : list (list (fval R))) : res (list Z) :=
  let* p := softmax_get_pi_p temperature q in softmax_pi_from 0 us p.
