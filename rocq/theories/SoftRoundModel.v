(** Softmax action selection in floating point: maMDP/algorithms/action_selection.py 7-15 and 223-295, with every operation rounded (RoundModel.v).
    Definitions only. Overflow is not modelled. Sums are rounded from left to right, as numpy does for fewer than eight numbers and numba always. *)
From Coq Require Import List ZArith Bool Reals Floats.SpecFloat.
From Verif Require Import PyBase ActionModel SoftmaxModel RoundModel ActionSpec.
Import ListNotations.
Local Open Scope R_scope.

(** [np.exp] as used in action_selection.py 14, for arguments up to zero: relative error at most [ux], absolute error at most [etax] where the result is
    close to zero. *)
Record rounded_exp (rnd ex : R -> R) (ux etax : R) : Prop := {
  re_u : 0 <= ux;
  re_eta : 0 <= etax;
  re_zero : ex 0 = 1;
  re_nn : forall x, 0 <= ex x;
  re_float : forall x, rnd (ex x) = ex x;
  re_err : forall x, x <= 0 -> Rabs (ex x - exp x) <= ux * exp x + etax
}.

Section SoftRound.
Variables (rnd ex : R -> R).

(** action_selection.py 14: subtraction. *)
Definition rsub (x y : fval R) : fval R := match fsub x y with Fin a => Fin (rnd a) | v => v end.
(** action_selection.py 14 and 286: addition. *)
Definition radd (x y : fval R) : fval R := match fadd x y with Fin a => Fin (rnd a) | v => v end.
(** action_selection.py 14: division by a finite positive temperature. *)
Definition rdiv_t (x : fval R) (t : R) : fval R := match fdiv_t x t with Fin a => Fin (rnd a) | v => v end.
(** action_selection.py 14 [np.exp]. *)
Definition rexp (x : fval R) : fval R := match x with Fin a => Fin (ex a) | NInf => Fin 0 | v => v end.
(** action_selection.py 11, 14, 284 and 286: division. *)
Definition rdiv (x y : fval R) : fval R := match fdiv x y with Fin a => Fin (rnd a) | v => v end.
(** action_selection.py 14 and 286 [np.sum]. *)
Definition rsum (l : list (fval R)) : fval R := fold_left radd l (Fin 0).

(** action_selection.py 7-15 [softmax]. *)
Definition softmax_r (qs : list (fval R)) (temperature : R) : list (fval R) :=
  if forallb isninf qs then map (fun _ => Fin (rnd (1 / INR (length qs)))) qs
  else match fmax_list qs with
       | Err _ => []
       | Ok mx =>
         let e := map (fun v => rexp (rdiv_t (rsub v mx) temperature)) qs in
         map (fun x => rdiv x (rsum e)) e
       end.

(** action_selection.py 289 [rng.choice(range(n), p=ps)]: numpy raises ValueError if the probabilities do not sum to one up to [atol], the square root of
    the machine precision (here the exact sum is compared; numpy adds with compensation). *)
Definition choice_r (atol : R) (ws : list R) (u : R) : res Z :=
  if Rltb atol (Rabs (Rsum ws - 1)) then Err ValueError else Ok (Z.of_nat (@choice_p R (NumF rnd) ws u)).
(** action_selection.py 282-291: the choice for one state. *)
Definition softmax_choice_r (atol : R) (prow : list (fval R)) (u : R) : res Z :=
  let ps := if forallb (fun v => feqb v (Fin 0)) prow then map (fun _ => Fin (rnd (1 / INR (length prow)))) prow
            else map (fun p => rdiv p (rsum prow)) prow in
  let* ws := mapM (fun v => match fin_of v with Some a => Ok a | None => Err ValueError end) ps in
  choice_r atol ws u.
(** action_selection.py 245-261 [SoftmaxActionSelector._get_pi_p]. *)
Definition softmax_get_pi_p_r (temperature : R) (q : list (list (fval R))) : res (list (list (fval R))) :=
  Ok (map (fun row => softmax_r row temperature) q).
(** action_selection.py 280-291: the loop over states. *)
Fixpoint softmax_pi_from_r (atol : R) (s : nat) (us : nat -> R) (prows : list (list (fval R))) : res (list Z) :=
  match prows with
  | [] => Ok []
  | prow :: r =>
    let* a := softmax_choice_r atol prow (us s) in
    let* rest := softmax_pi_from_r atol (S s) us r in
    Ok (a :: rest)
  end.
(** action_selection.py 263-295 [SoftmaxActionSelector._get_pi]. *)
Definition softmax_get_pi_r (atol temperature : R) (us : nat -> R) (q : list (list (fval R))) : res (list Z) :=
  let* p := softmax_get_pi_p_r temperature q in softmax_pi_from_r atol 0 us p.
End SoftRound.

(** IEEE 754 double precision, bit by bit, from Coq's standard library: the numbers the compiled code of mcts.py 14-23 computes with. *)
Definition NumFl : Num spec_float := {|
  n0 := S754_zero false; n1 := binary_normalize 53 1024 1 0 false;
  nadd := SFadd 53 1024; nsub := SFsub 53 1024; nmul := SFmul 53 1024; ndiv := SFdiv 53 1024;
  nltb := SFltb; neqb := SFeqb; nofZ := fun z => binary_normalize 53 1024 z 0 false |}.
(** The float64 nearest to [m * 2^e] (mcts.py 22-23). *)
Definition fl (m e : Z) : spec_float := binary_normalize 53 1024 m e false.
