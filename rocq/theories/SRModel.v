(** Model of maMDP/algorithms/successor_representation.py. *)
From Coq Require Import List ZArith Bool.
From Verif Require Import PyBase.
Import ListNotations.

Section SR.
Context {A : Type} `{Num A}.

(** ** numpy.linalg.inv (outside /repo), successor_representation.py 33
    A x = b is solved for all columns of the identity by Gaussian elimination. The pivot is the first row
    with a non-zero entry; LAPACK takes the largest, which matters for rounding only. Raises LinAlgError
    if there is no pivot, as numpy does. A row is a pair: coefficients and right-hand sides. *)
Definition vscale (c : A) (u : list A) : list A := map (nmul c) u.
(** successor_representation.py 33 (inside [np.linalg.inv]): difference of rows. *)
Definition vsub (u v : list A) : list A := map (fun '(x, y) => nsub x y) (combine u v).
(** successor_representation.py 33 (inside [np.linalg.inv]): Take out the first row whose leading coefficient is not zero. *)
Fixpoint pivot (rows : list (list A * list A)) : option ((list A * list A) * list (list A * list A)) :=
  match rows with
  | [] => None
  | r :: rest =>
    if neqb (nth 0 (fst r) n0) n0 then
      match pivot rest with Some (p, rest') => Some (p, r :: rest') | None => None end
    else Some (r, rest)
  end.
(** successor_representation.py 33 (inside [np.linalg.inv]): [width] is the number of right-hand sides. *)
Fixpoint eliminate (n width : nat) (rows : list (list A * list A)) : res (list (list A)) :=
  match n with
  | 0 => Ok []
  | S n' =>
    match pivot rows with
    | None => Err LinAlgError
    | Some ((cs, b), rest) =>
      let lead := ndiv n1 (nth 0 cs n0) in
      let cs' := vscale lead (tl cs) in
      let b' := vscale lead b in
      let* xs := eliminate n' width (map (fun '(ds, d) => let c := nth 0 ds n0 in (vsub (tl ds) (vscale c cs'), vsub d (vscale c b'))) rest) in
      Ok (map (fun j => nsub (nth j b' n0) (dot cs' (map (fun row => nth j row n0) xs))) (seq 0 width) :: xs)
    end
  end.
(** successor_representation.py 33: [np.eye(n)]. *)
Definition eye (n : nat) : list (list A) := map (fun i => map (fun j => if i =? j then n1 else n0) (seq 0 n)) (seq 0 n).
(** successor_representation.py 33 [np.linalg.inv]. *)
Definition inv (M : list (list A)) : res (list (list A)) :=
  eliminate (length M) (length M) (combine M (eye (length M))).

(** successor_representation.py 23-31: the transition matrix between state-action pairs. [np.argwhere] lists
    the non-zero positions; the first one is taken as the next state. The rows are produced in order of
    [s * n_actions + a] instead of being written into a zero matrix. *)
Definition next_of (row : list A) : option nat := hd_error (where_ (fun x => negb (neqb x n0)) row).
(** successor_representation.py 25-31: one row of the matrix. *)
Definition sa_row (n_states n_actions : nat) (row : list A) : list A :=
  match next_of row with
  | None => zeros1 (n_states * n_actions)
  | Some t => fold_left (fun r a' => upd r (t * n_actions + a') (ndiv n1 (nofZ (Z.of_nat n_actions)))) (seq 0 n_actions) (zeros1 (n_states * n_actions))
  end.
(** successor_representation.py 21-31: the matrix. *)
Definition sa_matrix (sas : list (list (list A))) : list (list A) :=
  let nS := length sas in let nA := length (nth 0 sas []) in
  flat_map (fun s => map (fun a => sa_row nS nA (nth a (nth s sas []) [])) (seq 0 nA)) (seq 0 nS).

(** successor_representation.py 6-35 [get_sa_sr]. *)
Definition mat_sub (M N : list (list A)) : list (list A) := map (fun '(u, v) => vsub u v) (combine M N).
(** successor_representation.py 6-35 [get_sa_sr]. *)
Definition get_sa_sr (sas : list (list (list A))) (gamma : A) : res (list (list A)) :=
  let T := sa_matrix sas in
  inv (mat_sub (eye (length T)) (map (vscale gamma) T)).

(** successor_representation.py 67: [np.dot(theta, features)]: one entry per state; ValueError if the lengths do not match. *)
Definition rewards_of (theta : list A) (features : list (list A)) (n_states : nat) : res (list A) :=
  if (length theta =? length features)%nat
  then Ok (map (fun s => dot theta (map (fun row => nth s row n0) features)) (seq 0 n_states))
  else Err ValueError.

(** successor_representation.py 37-81 [get_sr_q_values]. The number of columns of [features] (line 64) is that
    of its first row. Lines 73-79: minus infinity where the transition row sums to zero. *)
Definition get_sr_q_values (theta : list A) (features sr : list (list A)) (sas : list (list (list A))) (n_states n_actions : nat)
    : res (list (list (fval A))) :=
  if negb (length (nth 0 features []) =? n_states)%nat then Err AssertionError else
  let* reward := rewards_of theta features n_states in
  let rep := flat_map (fun x => repeat x n_actions) reward in
  if negb (forallb (fun row => length row =? length rep)%nat sr) then Err ValueError else
  let qs := map (fun row => dot row rep) sr in
  if negb (length qs =? n_states * n_actions)%nat then Err ValueError else
  Ok (map (fun s => map (fun a => if neqb (nsum (nth a (nth s sas []) [])) n0 then NInf else Fin (nth (s * n_actions + a) qs n0)) (seq 0 n_actions)) (seq 0 n_states)).

End SR.
