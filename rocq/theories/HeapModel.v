(** Model of the arrays of maMDP/algorithms/action_selection.py as objects in memory: which of them a
    call reads, creates and writes. ActionModel.v models the same functions on values. *)
From Coq Require Import List ZArith Bool.
From Verif Require Import PyBase ActionModel.
Import ListNotations.

Section Heap.
Context {A : Type} {NA : Num A}.

(** numpy arrays the selectors handle (action_selection.py 48-118): Q values and action probabilities
    (2-D, floats), chosen actions (1-D, integers). *)
Inductive arr : Type := AF (q : list (list (fval A))) | AI (pi : list Z).
(** The arrays in existence (action_selection.py 48-118); an array is referred to by its number, and a
    new one gets the next number. Simplification: no two of them overlap, so views are not modelled. *)
Definition heap : Type := list arr.
(** action_selection.py 67, 103 ([copy]) and the arrays created in 185, 211, 255, 281: a new array. *)
Definition alloc (h : heap) (x : arr) : heap * nat := (h ++ [x], length h).
(** action_selection.py 68, 74, 104, 110: assignment to elements, in place. *)
Definition write (h : heap) (l : nat) (x : arr) : heap := upd h l x.
(** action_selection.py 48-118: the contents of an array. *)
Definition read (h : heap) (l : nat) : option arr := nth_error h l.

(** A selector's [_get_pi] or [_get_pi_p] (action_selection.py 120-132): is given an array, may change
    arrays and create new ones, and returns one or raises. *)
Definition selector_h : Type := heap -> nat -> heap * res nat.

(** action_selection.py 17-23 [check_q_values] on an object: 1-D arrays raise AttributeError. *)
Definition check_h (h : heap) (l : nat) : res (list (list (fval A))) :=
  match read h l with
  | Some (AF q) => let* _ := check_q_values q in Ok q
  | Some (AI _) => Err AttributeError
  | None => Err TypeError
  end.

(** action_selection.py 67-68 and 103-104: the copy, then the assignment to its NaN elements. *)
Definition prepare_h (h : heap) (q : list (list (fval A))) : heap * nat :=
  let '(h1, l1) := alloc h (AF q) in (write h1 l1 (AF (clean q)), l1).

(** action_selection.py 48-82 [get_pi]. Line 74 writes into the array the selector returned; with an
    array of the wrong length it raises IndexError, and the assertions of 77-80 come after it. A 2-D
    array whose length fits is written to (its rows become -1) before line 78 rejects it. *)
Definition get_pi_h (sel : selector_h) (h : heap) (l : nat) : heap * res nat :=
  match check_h h l with
  | Err x => (h, Err x)
  | Ok q =>
    let '(h2, l1) := prepare_h h q in
    match sel h2 l1 with
    | (h3, Err x) => (h3, Err x)
    | (h3, Ok lr) =>
      match read h3 lr with
      | None => (h3, Err TypeError)
      | Some (AF p) =>
        if negb (length p =? length q)%nat then (h3, Err IndexError)
        else (write h3 lr (AF (map (fun '(row, prow) => if nan_state row then map (fun _ => Fin (nsub n0 n1)) prow else prow) (combine q p))), Err AssertionError)
      | Some (AI pi) =>
        if negb (length pi =? length q)%nat then (h3, Err IndexError)
        else (write h3 lr (AI (map (fun '(row, a) => if nan_state row then (-1)%Z else a) (combine q pi))), Ok lr)
      end
    end
  end.

(** action_selection.py 85-118 [get_pi_p]. Line 110 writes NaN into the array the selector returned; a
    1-D array raises IndexError there (two indices for one dimension). *)
Definition get_pi_p_h (sel : selector_h) (h : heap) (l : nat) : heap * res nat :=
  match check_h h l with
  | Err x => (h, Err x)
  | Ok q =>
    let '(h2, l1) := prepare_h h q in
    match sel h2 l1 with
    | (h3, Err x) => (h3, Err x)
    | (h3, Ok lr) =>
      match read h3 lr with
      | None => (h3, Err TypeError)
      | Some (AI _) => (h3, Err IndexError)
      | Some (AF p) =>
        if negb (length p =? length q)%nat then (h3, Err IndexError)
        else
          let p' := map (fun '(row, prow) => if nan_state row then map (fun _ => NaN) prow else prow) (combine q p) in
          (write h3 lr (AF p'),
           if forallb (fun '(row, prow) => (length row =? length prow)%nat) (combine q p') then Ok lr else Err AssertionError)
      end
    end
  end.

(** The library's selectors (action_selection.py 177-220 and 249-293): read the given array, create a
    new one for the result. *)
Definition lib_pi (f : list (list (fval A)) -> res (list Z)) : selector_h := fun h l =>
  match read h l with
  | Some (AF q) => match f q with Ok pi => let '(h', l') := alloc h (AI pi) in (h', Ok l') | Err x => (h, Err x) end
  | _ => (h, Err TypeError)
  end.
(** action_selection.py 177-196 and 249-265, likewise. *)
Definition lib_pi_p (f : list (list (fval A)) -> res (list (list (fval A)))) : selector_h := fun h l =>
  match read h l with
  | Some (AF q) => match f q with Ok p => let '(h', l') := alloc h (AF p) in (h', Ok l') | Err x => (h, Err x) end
  | _ => (h, Err TypeError)
  end.

(** agents.py 151-154 [get_policy]: probabilities first, then actions, from the same array of Q values;
    the two results are stored on the agent only when computed. *)
Definition get_policy_h (sel_p sel : selector_h) (h : heap) (l : nat) : heap * res (nat * nat) :=
  match get_pi_p_h sel_p h l with
  | (h1, Err x) => (h1, Err x)
  | (h1, Ok lp) => match get_pi_h sel h1 l with (h2, Err x) => (h2, Err x) | (h2, Ok la) => (h2, Ok (lp, la)) end
  end.

End Heap.
Arguments arr A : clear implicits.
Arguments heap A : clear implicits.
