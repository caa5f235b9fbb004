(** Shared vocabulary of the model: Python exceptions as values, numbers,
    arrays as nested lists, Python/numpy indexing. Definitions only. Nothing here
    is code of /repo: each comment names the Python or numpy operation meant, and the
    places of /repo that use it are cited at the definitions of the model files. *)
From Coq Require Import List ZArith QArith Reals Bool.
Import ListNotations.

(** Python exceptions that occur in /repo. [Diverges] stands for a loop that
    did not end within the fuel it was given. *)
Inductive exc :=
| TypeError | ValueError | AttributeError | IndexError | KeyError
| AssertionError | NotImplementedErr | UnboundLocalError | ZeroDivisionError
| LinAlgError | Diverges.

(** Result of a call: a value or a raised exception. *)
Inductive res (A : Type) : Type :=
| Ok (a : A)
| Err (e : exc).
Arguments Ok {A} _.
Arguments Err {A} _.

(** Python: run [k] on the value of [m] unless [m] raises. *)
Definition bind {A B} (m : res A) (k : A -> res B) : res B :=
  match m with Ok a => k a | Err e => Err e end.
Notation "'let*' x ':=' m 'in' k" := (bind m (fun x => k))
  (at level 200, x pattern, m at level 100, k at level 200).

(** Python's [for x in l: acc = f(acc, x)] where the body may raise. *)
Fixpoint foldM {A B} (f : B -> A -> res B) (l : list A) (b : B) : res B :=
  match l with
  | [] => Ok b
  | x :: r => let* b' := f b x in foldM f r b'
  end.

(** [[f(x) for x in l]] where [f] may raise. *)
Fixpoint mapM {A B} (f : A -> res B) (l : list A) : res (list B) :=
  match l with
  | [] => Ok []
  | x :: r => let* y := f x in let* ys := mapM f r in Ok (y :: ys)
  end.

(** Python: the call did not raise. *)
Definition is_ok {A} (m : res A) : bool := match m with Ok _ => true | Err _ => false end.

(** Exact numbers standing for floats (idealisation, see DESIGN.md). *)
Class Num (A : Type) := {
  n0 : A; n1 : A;
  nadd : A -> A -> A; nsub : A -> A -> A; nmul : A -> A -> A; ndiv : A -> A -> A;
  nltb : A -> A -> bool;
  neqb : A -> A -> bool;
  nofZ : Z -> A
}.

(** Python: [<] on real numbers. *)
Definition Rltb (x y : R) : bool := if Rlt_dec x y then true else false.
(** Python: [==] on real numbers. *)
Definition Reqb (x y : R) : bool := if Req_EM_T x y then true else false.

(** Exact real arithmetic in place of floats; the theorems use it. *)
#[global] Instance NumR : Num R := {
  n0 := 0%R; n1 := 1%R; nadd := Rplus; nsub := Rminus; nmul := Rmult; ndiv := Rdiv;
  nltb := Rltb; neqb := Reqb; nofZ := IZR }.

(** Exact rational arithmetic in place of floats, which computes; the examples use it. *)
#[global] Instance NumQ : Num Q := {
  n0 := 0%Q; n1 := 1%Q;
  nadd := fun x y => Qred (x + y); nsub := fun x y => Qred (x - y);
  nmul := fun x y => Qred (x * y); ndiv := fun x y => Qred (x / y);
  nltb := fun x y => match Qcompare x y with Lt => true | _ => false end;
  neqb := Qeq_bool; nofZ := inject_Z }.

(** IEEE values the code uses as markers, over exact numbers. *)
Inductive fval (A : Type) : Type :=
| NaN | NInf | PInf | Fin (a : A).
Arguments NaN {A}.
Arguments NInf {A}.
Arguments PInf {A}.
Arguments Fin {A} _.

(** [np.isnan]. *)
Definition isnan {A} (v : fval A) : bool := match v with NaN => true | _ => false end.

(** ** Arrays *)

(** [l[i] = x] for an index in range. *)
Fixpoint upd {A} (l : list A) (i : nat) (x : A) : list A :=
  match l, i with
  | [], _ => []
  | _ :: r, O => x :: r
  | y :: r, S i' => y :: upd r i' x
  end.

(** numpy/Python index normalisation: negative indices count from the end,
    anything outside [-n, n) is an IndexError. *)
Definition py_index (n : nat) (i : Z) : res nat :=
  if (0 <=? i)%Z then
    if (i <? Z.of_nat n)%Z then Ok (Z.to_nat i) else Err IndexError
  else
    if (- Z.of_nat n <=? i)%Z then Ok (Z.to_nat (Z.of_nat n + i)) else Err IndexError.

(** [l[i]], [l[i, j]] and [l[i, j, k]] for indices in range ([d] outside). *)
Definition get1 {A} (d : A) (l : list A) (i : nat) : A := nth i l d.
Definition get2 {A} (d : A) (l : list (list A)) (i j : nat) : A := nth j (nth i l []) d.
Definition get3 {A} (d : A) (l : list (list (list A))) (i j k : nat) : A :=
  nth k (nth j (nth i l []) []) d.

(** [l[i, j] = x] and [l[i, j, k] = x] for indices in range. *)
Definition set2 {A} (l : list (list A)) (i j : nat) (x : A) : list (list A) :=
  upd l i (upd (nth i l []) j x).
Definition set3 {A} (l : list (list (list A))) (i j k : nat) (x : A) : list (list (list A)) :=
  upd l i (set2 (nth i l []) j k x).

(** [np.zeros(n)], [np.zeros((n, m))], [np.zeros((n, m, k))]. *)
Definition zeros1 {A} `{Num A} (n : nat) : list A := repeat n0 n.
Definition zeros2 {A} `{Num A} (n m : nat) : list (list A) := repeat (repeat n0 m) n.
Definition zeros3 {A} `{Num A} (n m k : nat) : list (list (list A)) :=
  repeat (repeat (repeat n0 k) m) n.

(** [np.where(l satisfies p)[0]]: positions, ascending. *)
Fixpoint where_from {A} (p : A -> bool) (i : nat) (l : list A) : list nat :=
  match l with
  | [] => []
  | x :: r => if p x then i :: where_from p (S i) r else where_from p (S i) r
  end.
Definition where_ {A} (p : A -> bool) (l : list A) : list nat := where_from p 0 l.

(** [np.sum] of a row, [np.dot] of two rows, [max] and [abs] of numbers. *)
Definition nsum {A} `{Num A} (l : list A) : A := fold_left nadd l n0.
Definition dot {A} `{Num A} (u v : list A) : A := nsum (map (fun '(x, y) => nmul x y) (combine u v)).
Definition nmax {A} `{Num A} (x y : A) : A := if nltb x y then y else x.
Definition nabs {A} `{Num A} (x : A) : A := if nltb x n0 then nsub n0 x else x.

(** [np.argmax]: first position of a maximal element. *)
Fixpoint argmax_from {A} `{Num A} (bi : nat) (b : A) (i : nat) (l : list A) : nat :=
  match l with
  | [] => bi
  | x :: r => if nltb b x then argmax_from i x (S i) r else argmax_from bi b (S i) r
  end.
Definition argmax {A} `{Num A} (l : list A) : nat :=
  match l with [] => 0 | x :: r => argmax_from 0 x 1 r end.
