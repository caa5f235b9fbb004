(** Independent description of the two grid geometries: what the directions are and what a
    walk is. Nothing here refers to the model of the code. *)
From Coq Require Import ZArith.
Local Open Scope Z_scope.

(** Square grid: direction 0 is +y, 1 is +x, 2 is -y, 3 is -x. *)
Definition square_move (d : nat) (c : Z * Z) : Z * Z :=
  let (x, y) := c in
  match d with
  | 0%nat => (x, y + 1) | 1%nat => (x + 1, y) | 2%nat => (x, y - 1) | _ => (x - 1, y)
  end.

(** Hexagons in "even-q" offset coordinates (even columns are shoved by half a cell towards +y):
    the six neighbours of a cell, in the order +y, then turning towards +x. *)
Definition hex_move (d : nat) (c : Z * Z) : Z * Z :=
  let (x, y) := c in
  if Z.even x then
    match d with
    | 0%nat => (x, y + 1) | 1%nat => (x + 1, y + 1) | 2%nat => (x + 1, y)
    | 3%nat => (x, y - 1) | 4%nat => (x - 1, y)     | _ => (x - 1, y + 1)
    end
  else
    match d with
    | 0%nat => (x, y + 1) | 1%nat => (x + 1, y)     | 2%nat => (x + 1, y - 1)
    | 3%nat => (x, y - 1) | 4%nat => (x - 1, y - 1) | _ => (x - 1, y)
    end.

(** [walk move dirs inside n c c']: [c'] is reached from [c] by [n] moves, never leaving [inside]. *)
Inductive walk (move : nat -> Z * Z -> Z * Z) (dirs : nat) (inside : Z * Z -> Prop)
  : nat -> Z * Z -> Z * Z -> Prop :=
| walk_stop : forall c, walk move dirs inside 0 c c
| walk_move : forall n d c c', (d < dirs)%nat -> inside (move d c) ->
    walk move dirs inside n (move d c) c' -> walk move dirs inside (S n) c c'.

Definition everywhere (c : Z * Z) : Prop := True.

(** The cells of a W x H grid. *)
Definition in_grid (shape : nat * nat) (c : Z * Z) : Prop :=
  0 <= fst c < Z.of_nat (fst shape) /\ 0 <= snd c < Z.of_nat (snd shape).

(** Row-major numbering of the cells. *)
Definition cell_of (shape : nat * nat) (s : nat) : Z * Z :=
  (Z.of_nat (Nat.div s (snd shape)), Z.of_nat (Nat.modulo s (snd shape))).
