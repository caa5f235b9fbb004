(** Model of maMDP/mdp.py (plotting methods excluded). Definitions only. *)
From Coq Require Import List ZArith Bool.
From Verif Require Import PyBase GridModel.
Import ListNotations.

(** The two concrete grid classes, mdp.py 473 and 584. *)
Inductive gkind := Square | Hex.

(** mdp.py 29-46, 69-77, 97-102 and 135: Attributes of an MDP object. [m_shape] is [None] for a plain [MDP], which has no
    attribute [shape]. [m_orig_sas], [m_orig_features] are the private copies kept for
    resetting. [feature_names] and [rng] are not modelled. *)
Record mdp (A : Type) := mkMDP {
  m_shape : option (nat * nat);
  m_sas : list (list (list A));
  m_orig_sas : list (list (list A));
  m_deterministic : bool;
  m_adjacency : list (list Z);
  m_n_states : nat;
  m_n_actions : nat;
  m_features : list (list A);
  m_orig_features : list (list A);
  m_n_features : nat;
  m_n_non_agent : nat;
  m_n_agents : nat;
  m_walls : list A
}.
Arguments mkMDP {A} _ _ _ _ _ _ _ _ _ _ _ _ _.
Arguments m_shape {A} _. Arguments m_sas {A} _. Arguments m_orig_sas {A} _.
Arguments m_deterministic {A} _. Arguments m_adjacency {A} _. Arguments m_n_states {A} _.
Arguments m_n_actions {A} _. Arguments m_features {A} _. Arguments m_orig_features {A} _.
Arguments m_n_features {A} _. Arguments m_n_non_agent {A} _. Arguments m_n_agents {A} _.
Arguments m_walls {A} _.

Section Model.
Context {A : Type} {NA : Num A}.

(** The attributes before [__init__] has assigned anything (mdp.py 16-29). *)
Definition blank_mdp (shape : option (nat * nat)) : mdp A :=
  mkMDP shape [] [] true [] 0 0 [] [] 0 0 0 [].

(** [np.sum(sas, axis=1)], entry (i, j). mdp.py 74. *)
Definition sas_sum (sas : list (list (list A))) (i j : nat) : A :=
  nsum (map (fun row => nth j row n0) (nth i sas [])).

(** [self.adjacency = (np.sum(sas, axis=1) > 0).astype(int)]. mdp.py 74. *)
Definition adjacency_of (sas : list (list (list A))) : list (list Z) :=
  let n := length sas in
  map (fun i => map (fun j => if nltb n0 (sas_sum sas i j) then 1%Z else 0%Z) (seq 0 n)) (seq 0 n).

(** mdp.py 63 and 68: All entries of a 3-D array. *)
Definition entries3 (sas : list (list (list A))) : list A := concat (map (@concat A) sas).

(** mdp.py 60: [sas.shape == (n, m, n)]; a nested list is an array of that shape when it is rectangular. *)
Definition sas_shape_ok (sas : list (list (list A))) : bool :=
  let m := length (nth 0 sas []) in
  forallb (fun mat => (length mat =? m)%nat && forallb (fun row => (length row =? length sas)%nat) mat) sas.

(** mdp.py 53-77, setter of [sas]. [np.min] of an empty array raises ValueError.
    The isinstance check is enforced by the type. *)
Definition set_sas (m : mdp A) (sas : list (list (list A))) : res (mdp A) :=
  if negb (sas_shape_ok sas) then Err TypeError
  else match entries3 sas with
  | [] => Err ValueError
  | es =>
    if existsb (fun x => nltb x n0 || nltb n1 x) es then Err AttributeError
    else
      let det := negb (existsb (fun x => nltb n0 x && nltb x n1) es) in
      Ok (mkMDP (m_shape m) sas (m_orig_sas m) det (adjacency_of sas) (length sas)
                (length (nth 0 sas [])) (m_features m) (m_orig_features m) (m_n_features m)
                (m_n_non_agent m) (m_n_agents m) (m_walls m))
  end.

(** mdp.py 87-102, setter of [features]. Every row must have one entry per state
    (an array without rows is accepted). *)
Definition set_features (m : mdp A) (f : list (list A)) : res (mdp A) :=
  if forallb (fun row => (length row =? m_n_states m)%nat) f then
    Ok (mkMDP (m_shape m) (m_sas m) (m_orig_sas m) (m_deterministic m) (m_adjacency m)
              (m_n_states m) (m_n_actions m) f f (length f) (m_n_non_agent m) (m_n_agents m)
              (m_walls m))
  else Err AttributeError.

(** mdp.py 170-173 and 192: the table written in place (helper). *)
Definition with_features (m : mdp A) (f : list (list A)) : mdp A :=
  mkMDP (m_shape m) (m_sas m) (m_orig_sas m) (m_deterministic m) (m_adjacency m)
        (m_n_states m) (m_n_actions m) f (m_orig_features m) (m_n_features m) (m_n_non_agent m)
        (m_n_agents m) (m_walls m).

(** mdp.py 153 and 179: [n_agents] assigned (helper). *)
Definition with_n_agents (m : mdp A) (k : nat) : mdp A :=
  mkMDP (m_shape m) (m_sas m) (m_orig_sas m) (m_deterministic m) (m_adjacency m)
        (m_n_states m) (m_n_actions m) (m_features m) (m_orig_features m) (m_n_features m)
        (m_n_non_agent m) k (m_walls m).

(** mdp.py 138-139: [walls == 1] at state [s]. *)
Definition walled (walls : list A) (s : nat) : bool := neqb (nth s walls n0) n1.

(** mdp.py 138: [self.sas[:, :, walls == 1] = 0]. *)
Definition mask_in (walls : list A) (sas : list (list (list A))) : list (list (list A)) :=
  map (map (fun row => map (fun '(j, x) => if walled walls j then n0 else x)
                           (combine (seq 0 (length row)) row))) sas.

(** mdp.py 139: [self.sas[walls == 1, :, :] = 0]. *)
Definition mask_out (walls : list A) (sas : list (list (list A))) : list (list (list A)) :=
  map (fun '(i, mat) => if walled walls i then map (map (fun _ => n0)) mat else mat)
      (combine (seq 0 (length sas)) sas).

(** mdp.py 108-139, setter of [walls] for a 1-dimensional array (ndim check enforced by the
    type). A plain MDP has no [shape] and raises AttributeError at line 125. The assignments in
    138-139 write into the array in place, so [adjacency] is not recomputed. *)
Definition set_walls (m : mdp A) (walls : list A) : res (mdp A) :=
  match m_shape m with
  | None => Err AttributeError
  | Some (w, h) =>
    if negb (length walls =? w * h)%nat then Err AttributeError
    else if negb (forallb (fun x => neqb x n0 || neqb x n1) walls) then Err ValueError
    else
      let* m1 := set_sas m (m_orig_sas m) in
      Ok (mkMDP (m_shape m1) (mask_out walls (mask_in walls (m_sas m1))) (m_orig_sas m1)
                (m_deterministic m1) (m_adjacency m1) (m_n_states m1) (m_n_actions m1)
                (m_features m1) (m_orig_features m1) (m_n_features m1) (m_n_non_agent m1)
                (m_n_agents m1) walls)
  end.

(** mdp.py 16-46 [MDP.__init__]. The RNG (43-46) is not modelled. *)
Definition init_mdp (shape : option (nat * nat)) (features : list (list A))
    (sas : list (list (list A))) (walls : option (list A)) : res (mdp A) :=
  let* m1 := set_sas (blank_mdp shape) sas in
  let m2 := mkMDP (m_shape m1) (m_sas m1) sas (m_deterministic m1) (m_adjacency m1)
                  (m_n_states m1) (m_n_actions m1) (m_features m1) (m_orig_features m1)
                  (m_n_features m1) (m_n_non_agent m1) (m_n_agents m1) (m_walls m1) in
  let* m3 := set_features m2 features in
  let m4 := mkMDP (m_shape m3) (m_sas m3) (m_orig_sas m3) (m_deterministic m3) (m_adjacency m3)
                  (m_n_states m3) (m_n_actions m3) (m_features m3) (m_orig_features m3)
                  (m_n_features m3) (length features) 0 (m_walls m3) in
  set_walls m4 (match walls with Some w => w | None => zeros1 (length (m_sas m4)) end).

(** [np.zeros(self.shape)], mdp.py 342. *)
Definition zero_grid (shape : nat * nat) : list (list (fval A)) :=
  repeat (repeat (Fin n0) (snd shape)) (fst shape).

(** Number of directions, mdp.py 490 and 601. *)
Definition n_dirs (k : gkind) : nat := match k with Square => 4 | Hex => 6 end.

(** mdp.py 496 and 607: adjacency of the grid's cells. *)
Definition grid_adjacency (k : gkind) (coords : list cell) : res (list (list Z)) :=
  match k with Square => Ok (square_adjacency coords) | Hex => hex_adjacency coords end.

(** mdp.py 505 and 616: the function that names directions. *)
Definition get_action (k : gkind) : nat -> nat -> list (list Z) -> list cell -> res nat :=
  match k with Square => get_action_from_states_square | Hex => get_action_from_states_hex end.

(** mdp.py 503-506 / 615-617: body of the inner loop. *)
Definition sas_pair (k : gkind) (adj : list (list Z)) (coords : list cell) (i : nat)
    (sas : list (list (list A))) (j : nat) : res (list (list (list A))) :=
  if (get2 0%Z adj i j =? 1)%Z then
    let* a := get_action k i j adj coords in
    Ok (set3 sas i a j n1)
  else Ok sas.

(** mdp.py 502-508 / 614-619: body of the outer loop. *)
Definition sas_row (k : gkind) (self_tr : bool) (n_act n : nat) (adj : list (list Z))
    (coords : list cell) (sas : list (list (list A))) (i : nat) : res (list (list (list A))) :=
  let* sas' := foldM (sas_pair k adj coords i) (seq 0 n) sas in
  if self_tr then Ok (set3 sas' i (n_act - 1) i n1) else Ok sas'.

(** mdp.py 488-510 (square) and 599-621 (hex), [_get_sas]. *)
Definition get_sas (k : gkind) (shape : nat * nat) (self_tr : bool) : res (list (list (list A))) :=
  let n_act := if self_tr then n_dirs k + 1 else n_dirs k in
  let coords := snd (grid_coords (zero_grid shape)) in
  let* adj := grid_adjacency k coords in
  let n := fst shape * snd shape in
  foldM (sas_row k self_tr n_act n adj coords) (seq 0 n) (zeros3 n n_act n).

(** mdp.py 328-359 [GridMDP.__init__] for either grid class. The checks in 351-357 always hold
    for the arrays returned by [_get_sas]. *)
Definition grid_mdp (k : gkind) (features : list (list A)) (walls : option (list A))
    (shape : nat * nat) (self_tr : bool) : res (mdp A) :=
  let* sas := get_sas k shape self_tr in
  init_mdp (Some shape) features sas walls.

(** mdp.py 383-384: [np.unravel_index(state, shape)] (raises ValueError out of range). *)
Definition state_to_idx (shape : nat * nat) (state : Z) : res cell :=
  let n := Z.of_nat (fst shape * snd shape) in
  if ((0 <=? state) && (state <? n))%Z then
    Ok (state / Z.of_nat (snd shape), state mod Z.of_nat (snd shape))%Z
  else Err ValueError.

(** mdp.py 371-375 [get_state_coords]: [None] stands for a state that is not a Python int (for which the
    assertion fails); the table is the one made in 345, which nothing assigns again. *)
Definition get_state_coords (m : mdp A) (state : option Z) : res cell :=
  match state, m_shape m with
  | None, _ => Err AssertionError
  | Some s, Some shape =>
      let coords := snd (grid_coords (zero_grid shape)) in
      let* i := py_index (length coords) s in Ok (nth i coords (0, 0)%Z)
  | Some _, None => Err AttributeError
  end.

(** mdp.py 386-387: [np.ravel_multi_index(idx, shape)] (raises ValueError out of range). *)
Definition idx_to_state (shape : nat * nat) (idx : cell) : res Z :=
  let '(x, y) := idx in
  if ((0 <=? x) && (x <? Z.of_nat (fst shape)) && (0 <=? y) && (y <? Z.of_nat (snd shape)))%Z then
    Ok (x * Z.of_nat (snd shape) + y)%Z
  else Err ValueError.

(** mdp.py 378 (and environments.py 34 [np.split]): [l] cut into [k] consecutive chunks of length [h]. *)
Fixpoint chunks {B} (k h : nat) (l : list B) : list (list B) :=
  match k with O => [] | S k' => firstn h l :: chunks k' h (skipn h l) end.

(** mdp.py 377-378: [values.reshape(shape, order='C')]; ValueError if the size differs. *)
Definition flat_to_grid {B} (shape : nat * nat) (values : list B) : res (list (list B)) :=
  if (length values =? fst shape * snd shape)%nat then Ok (chunks (fst shape) (snd shape) values)
  else Err ValueError.

(** mdp.py 380-381 [features_as_grid]. *)
Definition features_as_grid (m : mdp A) : res (list (list (list A))) :=
  match m_shape m with
  | None => Err AttributeError
  | Some sh => mapM (flat_to_grid sh) (m_features m)
  end.

(** mdp.py 408-411: Python's [range(a, b)]. *)
Definition zrange (a b : Z) : list Z := map (fun i => (a + Z.of_nat i)%Z) (seq 0 (Z.to_nat (b - a))).

(** mdp.py 408-411: a tuple of length two is a range, anything else a list of coordinates. *)
Definition coord_list (x : list Z) : list Z :=
  match x with [a; b] => zrange a b | _ => x end.

(** mdp.py 390-417 [add_wall_xy]; the tuple/list check is enforced by the type. *)
Definition add_wall_xy (m : mdp A) (x y : list Z) : res (mdp A) :=
  match m_shape m with
  | None => Err AttributeError
  | Some sh =>
    let* new_walls :=
      foldM (fun ws x_id => foldM (fun ws' y_id =>
          let* s := idx_to_state sh (x_id, y_id) in
          let* i := py_index (length ws') s in
          Ok (upd ws' i n1)) (coord_list y) ws) (coord_list x) (m_walls m) in
    set_walls m new_walls
  end.

(** mdp.py 419-421 [reset_walls]: [self.walls *= 0]. *)
Definition reset_walls (m : mdp A) : res (mdp A) :=
  set_walls m (map (fun x => nmul x n0) (m_walls m)).

(** mdp.py 144-157 [add_agent_feature]. [n_agents] is incremented before the possible IndexError
    at line 155. *)
Definition add_agent_feature (m : mdp A) (position : Z) : mdp A * res unit :=
  let m1 := with_n_agents m (m_n_agents m + 1) in
  match py_index (m_n_states m) position with
  | Err e => (m1, Err e)
  | Ok p =>
    match set_features m1 (m_features m ++ [upd (zeros1 (m_n_states m)) p n1]) with
    | Ok m2 => (m2, Ok tt)
    | Err e => (m1, Err e)
    end
  end.

(** mdp.py 159-173 [update_agent_feature]. The row is zeroed (line 170) before a bad
    position raises (line 171). *)
Definition update_agent_feature (m : mdp A) (agent_idx : nat) (position : Z) : mdp A * res unit :=
  match py_index (length (m_features m))
          (Z.of_nat (m_n_features m) - Z.of_nat (m_n_agents m) + Z.of_nat agent_idx) with
  | Err e => (m, Err e)
  | Ok r =>
    let zero_row := map (fun _ => n0) (nth r (m_features m) []) in
    let m1 := with_features m (upd (m_features m) r zero_row) in
    match py_index (m_n_states m) position with
    | Err e => (m1, Err e)
    | Ok p => (with_features m (upd (m_features m) r (upd zero_row p n1)), Ok tt)
    end
  end.

(** mdp.py 175-179 [remove_agent_features]: the slice [[:-n]] is empty for [n = 0]. *)
Definition remove_agent_features (m : mdp A) : res (mdp A) :=
  let keep := if (m_n_agents m =? 0)%nat then [] else
                firstn (length (m_features m) - m_n_agents m) (m_features m) in
  let* m1 := set_features m keep in
  Ok (with_n_agents m1 0).

(** mdp.py 181-200 [consume_features], loop body. *)
Fixpoint consume_loop (idx : list Z) (state : Z) (m : mdp A) (consumed : list nat)
    : mdp A * res (list nat) :=
  match idx with
  | [] => (m, Ok consumed)
  | f :: r =>
    match py_index (length (m_features m)) f, py_index (m_n_states m) state with
    | Ok fi, Ok si =>
      if nltb n0 (get2 n0 (m_features m) fi si) then
        match py_index (length consumed) f with
        | Ok ci => consume_loop r state (with_features m (set2 (m_features m) fi si n0))
                     (upd consumed ci (nth ci consumed 0 + 1))
        | Err e => (with_features m (set2 (m_features m) fi si n0), Err e)
        end
      else consume_loop r state m consumed
    | _, _ => (m, Err IndexError)
    end
  end.

(** mdp.py 181-200 [consume_features]. *)
Definition consume_features (m : mdp A) (idx : list Z) (state : Z) : mdp A * res (list nat) :=
  consume_loop idx state m (repeat 0 (m_n_features m)).

(** mdp.py 202-224 [get_next_state]. In the non-deterministic branch [self.rng.random] has no
    attribute [choice], so it always raises AttributeError. *)
Definition get_next_state (m : mdp A) (state action : Z) : res nat :=
  if (action <? 0)%Z then Err AssertionError else
  let* s := py_index (m_n_states m) state in
  let* a := py_index (m_n_actions m) action in
  if m_deterministic m then Ok (argmax (nth a (nth s (m_sas m) []) []))
  else Err AttributeError.

(** mdp.py 241-245, 264-273 and 287: [self.sas[s1, :, s2]]. *)
Definition sas_col (m : mdp A) (s1 s2 : nat) : list A :=
  map (fun row => nth s2 row n0) (nth s1 (m_sas m) []).

(** mdp.py 264: [np.max]; ValueError on an empty array. *)
Definition nmax_list (l : list A) : res A :=
  match l with [] => Err ValueError | x :: r => Ok (fold_left nmax r x) end.

(** mdp.py 249-273 [_state_pair_to_action]. *)
Definition state_pair_to_action (m : mdp A) (s1 s2 : Z) (return_max : bool) : res (list nat) :=
  let* i := py_index (m_n_states m) s1 in
  let* j := py_index (m_n_states m) s2 in
  let col := sas_col m i j in
  let* mx := nmax_list col in
  if nltb n0 mx then
    if return_max then Ok [argmax col] else Ok (where_ (fun x => nltb n0 x) col)
  else Err AttributeError.

(** mdp.py 226-247 [_trajectory_to_state_action]: list of (state, action). Line 244's value is
    overwritten by line 245 with the same argmax. An empty trajectory makes [np.zeros((-1, 2))]
    raise ValueError. *)
Fixpoint traj_pairs (m : mdp A) (traj : list Z) : res (list (Z * nat)) :=
  match traj with
  | s :: ((s' :: _) as r) =>
    let* _ := state_pair_to_action m s s' true in
    let* i := py_index (m_n_states m) s in
    let* j := py_index (m_n_states m) s' in
    let* rest := traj_pairs m r in
    Ok ((s, argmax (sas_col m i j)) :: rest)
  | _ => Ok []
  end.
(** mdp.py 226-247 [_trajectory_to_state_action]. *)
Definition trajectory_to_state_action (m : mdp A) (traj : list Z) : res (list (Z * nat)) :=
  match traj with [] => Err ValueError | _ => traj_pairs m traj end.

(** mdp.py 275-287 [is_adjacent]. *)
Definition is_adjacent (m : mdp A) (s1 s2 : Z) : res bool :=
  let* i := py_index (m_n_states m) s1 in
  let* j := py_index (m_n_states m) s2 in
  Ok (existsb (fun x => nltb n0 x) (sas_col m i j)).

(** mdp.py 289-300 [state_valid_actions]: [np.where(sas[state])[0]] lists an action once per
    non-zero entry of its row. *)
Definition state_valid_actions (m : mdp A) (state : Z) : res (list nat) :=
  let* s := py_index (m_n_states m) state in
  let mat := nth s (m_sas m) [] in
  Ok (concat (map (fun '(a, row) => map (fun _ => a) (where_ (fun x => negb (neqb x n0)) row))
                  (combine (seq 0 (length mat)) mat))).

(** mdp.py 305-306 [reset]. *)
Definition reset_mdp (m : mdp A) : res (mdp A) := set_features m (m_orig_features m).

End Model.
