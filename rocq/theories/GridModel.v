(** Model of maMDP/grid_utils.py. Definitions only. *)
From Coq Require Import List ZArith QArith Bool.
From Verif Require Import PyBase.
Import ListNotations.
Local Open Scope Z_scope.

(** grid_utils.py 5-30: a cell of a grid is a pair of coordinates. *)
Notation cell := (Z * Z)%type.

(** Row [i] of [np.array(np.where(~np.isnan(state_grid))).T]: the columns of the
    non-NaN entries of one row, left to right. grid_utils.py 24. *)
Fixpoint row_coords {A} (x y : Z) (row : list (fval A)) : list cell :=
  match row with
  | [] => []
  | v :: r => if isnan v then row_coords x (y + 1) r else (x, y) :: row_coords x (y + 1) r
  end.

(** grid_utils.py 24: all rows, top to bottom. *)
Fixpoint rows_coords {A} (x : Z) (g : list (list (fval A))) : list cell :=
  match g with
  | [] => []
  | row :: r => row_coords x 0 row ++ rows_coords (x + 1) r
  end.

(** grid_utils.py 6-27 [grid_coords]: ids and coordinates of the non-NaN cells in
    row-major order. The ndarray/ndim checks (18-22) are enforced by the type. *)
Definition grid_coords {A} (g : list (list (fval A))) : list nat * list cell :=
  let idx := rows_coords 0 g in (seq 0 (length idx), idx).

(** grid_utils.py 89-105 [offset_to_cube]. [(col + (col & 1)) / 2] is a float
    division of an even number, hence exact; modelled by integer division. *)
Definition offset_to_cube (col row : Z) : list Z :=
  let x := col in
  let z := row - (col + Z.land col 1) / 2 in
  let y := - x - z in
  [x; y; z].

(** grid_utils.py 51-65 [cube_distance]. The assertion is Python's parse of
    [len(a) == 3 & len(b) == 3], i.e. [len(a) == (3 & len(b)) and (3 & len(b)) == 3]. *)
Definition cube_distance (a b : list Z) : res Q :=
  let la := Z.of_nat (length a) in
  let lb := Z.of_nat (length b) in
  if (la =? Z.land 3 lb) && (Z.land 3 lb =? 3) then
    Ok ((Z.abs (nth 0 a 0 - nth 0 b 0) + Z.abs (nth 1 a 0 - nth 1 b 0)
         + Z.abs (nth 2 a 0 - nth 2 b 0)) # 2)
  else Err AssertionError.

(** grid_utils.py 30-48 [offset_distance]. *)
Definition offset_distance (x1 y1 x2 y2 : Z) : res Q :=
  cube_distance (offset_to_cube x1 y1) (offset_to_cube x2 y2).

(** grid_utils.py 68-86 [hex_dist]: distance matrix. *)
Definition hex_dist (XA XB : list cell) : res (list (list Q)) :=
  mapM (fun i => mapM (fun j => offset_distance (fst i) (snd i) (fst j) (snd j)) XB) XA.

(** grid_utils.py 196-210 [hex_adjacency]. *)
Definition hex_adjacency (grid_idx : list cell) : res (list (list Z)) :=
  let* d := hex_dist grid_idx grid_idx in
  Ok (map (map (fun q => if Qeq_bool q 1 then 1 else 0)) d).

(** grid_utils.py 212-222 [square_adjacency]. [cdist == 1] (Euclidean distance
    equal to one) is modelled by its square being one. *)
Definition square_adjacency (grid_idx : list cell) : list (list Z) :=
  map (fun i => map (fun j =>
    if (fst i - fst j) * (fst i - fst j) + (snd i - snd j) * (snd i - snd j) =? 1
    then 1 else 0) grid_idx) grid_idx.

(** grid_utils.py 108-157 [get_action_from_states_hex]. State ids are non-negative
    here ([range] in the callers). Falling through all branches leaves [action]
    unbound. *)
Definition get_action_from_states_hex (A B : nat) (T : list (list Z)) (coords : list cell) : res nat :=
  if get2 0 T A B =? 0 then Err ValueError else
  let '(x1, y1) := nth A coords (0, 0) in
  let '(x2, y2) := nth B coords (0, 0) in
  let dx := x2 - x1 in
  let dy := y2 - y1 in
  if dx =? 0 then
    if dy <? 0 then Ok 3%nat
    else if dy >? 0 then Ok 0%nat
    else Err UnboundLocalError
  else if negb (x1 mod 2 =? 0) then
    if (dx >? 0) && (dy =? 0) then Ok 1%nat
    else if (dx <? 0) && (dy =? 0) then Ok 5%nat
    else if (dx >? 0) && (dy <? 0) then Ok 2%nat
    else if (dx <? 0) && (dy <? 0) then Ok 4%nat
    else Err UnboundLocalError
  else
    if (dx >? 0) && (dy >? 0) then Ok 1%nat
    else if (dx <? 0) && (dy >? 0) then Ok 5%nat
    else if (dx >? 0) && (dy =? 0) then Ok 2%nat
    else if (dx <? 0) && (dy =? 0) then Ok 4%nat
    else Err UnboundLocalError.

(** grid_utils.py 159-194 [get_action_from_states_square]. *)
Definition get_action_from_states_square (A B : nat) (T : list (list Z)) (coords : list cell) : res nat :=
  if get2 0 T A B =? 0 then Err ValueError else
  let '(x1, y1) := nth A coords (0, 0) in
  let '(x2, y2) := nth B coords (0, 0) in
  let dx := x2 - x1 in
  let dy := y2 - y1 in
  if dx =? 0 then
    if dy <? 0 then Ok 2%nat
    else if dy >? 0 then Ok 0%nat
    else Err UnboundLocalError
  else if dx >? 0 then Ok 1%nat
  else if dx <? 0 then Ok 3%nat
  else Err UnboundLocalError.
