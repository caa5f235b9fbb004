(** Model of maMDP/algorithms/action_selection.py, except softmax (SoftmaxModel.v). Definitions only. *)
From Coq Require Import List ZArith Bool.
From Verif Require Import PyBase.
Import ListNotations.

Section Action.
Context {A : Type} {NA : Num A}.

(** action_selection.py 40, 193, 283 [==] on floats. Comparisons of non-NaN floats; a comparison with NaN is false. *)
Definition feqb (x y : fval A) : bool :=
  match x, y with
  | NInf, NInf => true | PInf, PInf => true | Fin a, Fin b => neqb a b | _, _ => false
  end.
(** action_selection.py 40, 193: the order in which [max] compares floats. *)
Definition fltb (x y : fval A) : bool :=
  match x, y with
  | NInf, Fin _ => true | NInf, PInf => true | Fin _, PInf => true | Fin a, Fin b => nltb a b
  | _, _ => false
  end.

(** action_selection.py 40 and 193. [x.max()] of a NaN-free row; ValueError on an empty one. *)
Definition fmax_list (l : list (fval A)) : res (fval A) :=
  match l with
  | [] => Err ValueError
  | x :: r => Ok (fold_left (fun b y => if fltb b y then y else b) r x)
  end.

(** action_selection.py 17-23 [check_q_values]; type and dimension are enforced by the type. *)
Definition check_q_values (q : list (list (fval A))) : res unit :=
  if forallb (forallb isnan) q then Err ValueError else Ok tt.

(** action_selection.py 65 and 101: [np.isnan(np.nanmean(q_values, axis=1))]. The mean over the non-NaN
    entries is NaN if there are none, and also if both infinities occur (inf - inf). *)
Definition isninf (v : fval A) : bool := match v with NInf => true | _ => false end.
(** action_selection.py 65 and 101, as above: is the entry plus infinity? *)
Definition ispinf (v : fval A) : bool := match v with PInf => true | _ => false end.
(** action_selection.py 65 and 101: one entry of [nan_states]. *)
Definition nan_state (row : list (fval A)) : bool :=
  forallb isnan row || (existsb ispinf row && existsb isninf row).

(** action_selection.py 67-68 and 103-104: a copy of the array with NaN replaced by minus infinity. *)
Definition nan_to_ninf (v : fval A) : fval A := if isnan v then NInf else v.
(** action_selection.py 67-68 and 103-104: the whole array. *)
Definition clean (q : list (list (fval A))) : list (list (fval A)) := map (map nan_to_ninf) q.

(** action_selection.py 48-82 [ActionSelector.get_pi] around a selector's [_get_pi].
    Line 74's boolean mask must have the length of [pi], else IndexError. *)
Definition get_pi (sel : list (list (fval A)) -> res (list Z)) (q : list (list (fval A))) : res (list Z) :=
  let* _ := check_q_values q in
  let* pi := sel (clean q) in
  if negb (length pi =? length q)%nat then Err IndexError
  else Ok (map (fun '(row, a) => if nan_state row then (-1)%Z else a) (combine q pi)).

(** action_selection.py 85-118 [ActionSelector.get_pi_p]. *)
Definition get_pi_p (sel : list (list (fval A)) -> res (list (list (fval A))))
    (q : list (list (fval A))) : res (list (list (fval A))) :=
  let* _ := check_q_values q in
  let* p := sel (clean q) in
  if negb (length p =? length q)%nat then Err IndexError
  else
    let p' := map (fun '(row, prow) => if nan_state row then map (fun _ => NaN) prow else prow) (combine q p) in
    if forallb (fun '(row, prow) => (length row =? length prow)%nat) (combine q p') then Ok p'
    else Err AssertionError.

(** action_selection.py 40 and 193: [np.where(x == x.max())[0]]. *)
Definition max_actions (row : list (fval A)) : res (list nat) :=
  let* mx := fmax_list row in Ok (where_ (feqb mx) row).

(** action_selection.py 25-40 [random_max]: the draw [r] selects one of the maximal positions. *)
Definition random_max (row : list (fval A)) (r : nat) : res nat :=
  let* l := max_actions row in Ok (nth (r mod length l) l 0).

(** action_selection.py 198-220 [MaxActionSelector._get_pi]; [draws s] is the draw made for state [s]. *)
Fixpoint max_get_pi_from (s : nat) (draws : nat -> nat) (q : list (list (fval A))) : res (list Z) :=
  match q with
  | [] => Ok []
  | row :: r =>
    let* a := random_max row (draws s) in
    let* rest := max_get_pi_from (S s) draws r in
    Ok (Z.of_nat a :: rest)
  end.
(** action_selection.py 198-220: from the first state on. *)
Definition max_get_pi (draws : nat -> nat) (q : list (list (fval A))) : res (list Z) :=
  max_get_pi_from 0 draws q.

(** action_selection.py 177-196 [MaxActionSelector._get_pi_p]. *)
Definition max_pi_p_row (row : list (fval A)) : res (list (fval A)) :=
  let* l := max_actions row in
  Ok (map (fun a => if existsb (Nat.eqb a) l then Fin (ndiv n1 (nofZ (Z.of_nat (length l)))) else Fin n0)
          (seq 0 (length row))).
(** action_selection.py 177-196: all states. *)
Definition max_get_pi_p (q : list (list (fval A))) : res (list (list (fval A))) := mapM max_pi_p_row q.

(** [np.random.choice(range(n), p=ps)] with uniform draw [u] in [0,1): numpy's
    [cdf = ps.cumsum(); cdf /= cdf[-1]; cdf.searchsorted(u, side='right')].
    Used in action_selection.py 289. *)
Fixpoint cumsum_from (c : A) (l : list A) : list A :=
  match l with [] => [] | x :: r => nadd c x :: cumsum_from (nadd c x) r end.
(** action_selection.py 289 (numpy's [cumsum]). *)
Definition cumsum (l : list A) : list A := cumsum_from n0 l.
(** action_selection.py 289 (numpy's [cdf] inside [choice]). *)
Definition cdf (ps : list A) : list A :=
  let c := cumsum ps in map (fun x => ndiv x (last c n0)) c.
(** action_selection.py 289 and mcts.py 23 ([np.searchsorted(..., side="right")]). *)
Fixpoint searchsorted_right (l : list A) (u : A) : nat :=
  match l with [] => 0 | x :: r => if nltb u x then 0 else S (searchsorted_right r u) end.
(** action_selection.py 289 [self.rng.choice(range(n_actions), p=ps)]. *)
Definition choice_p (ps : list A) (u : A) : nat := searchsorted_right (cdf ps) u.

(** mcts.py 14-23 [rand_choice_nb] on [np.arange(len(p))]; [u] is the draw of [np.random.random()].
    The lookup [arr[i]] is not bounds-checked in compiled code; the model returns the index. *)
Definition rand_choice_nb (ps : list A) (u : A) : nat :=
  searchsorted_right (cumsum (map (fun x => ndiv x (nsum ps)) ps)) u.

End Action.
