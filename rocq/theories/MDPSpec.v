(** Independent description of what a grid world's transitions are. *)
From Coq Require Import List ZArith Reals.
From Verif Require Import GridSpec MDPModel.
Import ListNotations.

Definition move_of (k : gkind) : nat -> Z * Z -> Z * Z :=
  match k with Square => square_move | Hex => hex_move end.
Definition dirs_of (k : gkind) : nat := match k with Square => 4 | Hex => 6 end.
Definition actions_of (k : gkind) (self_tr : bool) : nat :=
  if self_tr then dirs_of k + 1 else dirs_of k.

(** Action [a] leads from state [s] to state [t] on the bare grid. *)
Definition grid_edge (k : gkind) (shape : nat * nat) (self_tr : bool) (s a t : nat) : Prop :=
  (a < dirs_of k /\ move_of k a (cell_of shape s) = cell_of shape t) \/
  (self_tr = true /\ a = dirs_of k /\ t = s).

(** Walls are given as 0/1 per state. *)
Definition is_wall (walls : list R) (s : nat) : Prop := nth s walls 0%R = 1%R.
Definition binary (v : list R) : Prop := Forall (fun x => x = 0%R \/ x = 1%R) v.

(** Action [a] leads from [s] to [t] on the grid with walls. *)
Definition walled_edge (k : gkind) (shape : nat * nat) (self_tr : bool) (walls : list R)
    (s a t : nat) : Prop :=
  grid_edge k shape self_tr s a t /\ ~ is_wall walls s /\ ~ is_wall walls t.

(** ** Calls on an MDP object *)
From Verif Require Import PyBase.

(** The public calls that change walls. A call that raises leaves the object as it was. *)
Inductive wall_call :=
| AssignWalls (w : list R)
| AddWall (x y : list Z)
| ClearWalls.

Definition do_wall_call (m : mdp R) (c : wall_call) : res (mdp R) :=
  match c with
  | AssignWalls w => set_walls m w
  | AddWall x y => add_wall_xy m x y
  | ClearWalls => reset_walls m
  end.

Definition after_wall_call (m : mdp R) (c : wall_call) : mdp R :=
  match do_wall_call m c with Ok m' => m' | Err _ => m end.

Definition after_wall_calls (m : mdp R) (cs : list wall_call) : mdp R := fold_left after_wall_call cs m.

(** [travels m s acts u]: executing the actions [acts], each listed as valid in the state where it
    is taken, leads from state [s] to state [u]. *)
Inductive travels (m : mdp R) : nat -> list nat -> nat -> Prop :=
| travels_stop : forall s, travels m s [] s
| travels_step : forall s a acts t u va,
    state_valid_actions m (Z.of_nat s) = Ok va -> In a va ->
    get_next_state m (Z.of_nat s) (Z.of_nat a) = Ok t ->
    travels m t acts u -> travels m s (a :: acts) u.

(** Consecutive states of a trajectory are adjacent according to the MDP. *)
Fixpoint linked (m : mdp R) (traj : list nat) : Prop :=
  match traj with
  | s :: ((t :: _) as r) => is_adjacent m (Z.of_nat s) (Z.of_nat t) = Ok true /\ linked m r
  | _ => True
  end.

(** Cells addressed by one coordinate argument of [add_wall_xy]: a pair is a half-open range. *)
Definition addressed (arg : list Z) (x : Z) : Prop :=
  match arg with [a; b] => (a <= x < b)%Z | _ => In x arg end.

(** An MDP's feature table has one row per feature and one entry per state. *)
Definition table_ok (m : mdp R) : Prop :=
  m_n_features m = length (m_features m) /\ Forall (fun row => length row = m_n_states m) (m_features m).

(** Value of feature [f] in state [t]. *)
Definition feat (m : mdp R) (f t : nat) : R := get2 0%R (m_features m) f t.

(** Everything except the feature table is the same. *)
Definition same_but_features (m m' : mdp R) : Prop := m' = with_features m (m_features m').
