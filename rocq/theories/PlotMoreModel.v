(** More of what is drawn: the shading of square layers, grid lines and the visible area (maMDP/plotting.py 17-78, 81-113 and 185-256,
    maMDP/mdp.py 512-531), and plots of an agent's state values (maMDP/environments.py 673-695). Definitions only. *)
From Coq Require Import String List ZArith Bool.
From Verif Require Import PyBase GridModel MDPModel EnvModel PlotModel ShadeModel.
Import ListNotations.
Local Open Scope nat_scope.

Section PlotMore.
Context {A : Type} {NA : Num A}.

(** plotting.py 45-64: one layer of a square grid, as its colour and the opacity of every pixel of the image. The opacity is the transposed
    feature (line 57), which [imshow] limits to the range from 0 to 1 and multiplies by [alpha] (line 64). *)
Definition square_shade (shape : nat * nat) (colours : option (list colour)) (alphas : option (list A)) (ig : nat * list (list A))
    : res (colour * list (list A)) :=
  let '(i, grid) := ig in
  let* c := or_default colours (tab10 i) i in
  let* alpha := or_default alphas (ndiv n1 (nofZ 2)) i in
  Ok (c, map (map (fun v => nmul (clip01 v) alpha)) (transpose n0 (snd shape) grid)).
(** plotting.py 45-64 [plot_grids]: the layers. *)
Definition square_shade_layers (shape : nat * nat) (colours : option (list colour)) (alphas : option (list A)) (grids : list (list (list A)))
    : res (list (colour * list (list A))) :=
  mapM (square_shade shape colours alphas) (combine (seq 0 (length grids)) grids).
(** mdp.py 512-531 [SquareGridMDP.plot]: feature layers, then one layer of walls with [alphas=[1]]. *)
Definition square_shades (m : mdp A) (colours : option (list colour)) (alphas : option (list A)) (wall_colour : colour)
    : res (list (colour * list (list A)) * list (colour * list (list A))) :=
  match m_shape m with
  | None => Err AttributeError
  | Some sh =>
    let* layers := feature_layers m in
    let* fs := square_shade_layers sh colours alphas layers in
    let* w := flat_to_grid sh (m_walls m) in
    let* ws := square_shade_layers sh (Some [wall_colour]) (Some [n1]) [w] in
    Ok (fs, ws)
  end.

(** plotting.py 67-68 and 105-106 [np.arange(-0.5, n, 1)]. *)
Definition ticks (n : nat) : list A := map (fun k => nsub (nofZ (Z.of_nat k)) (ndiv n1 (nofZ 2))) (seq 0 (n + 1)).
(** plotting.py 66-68 [plot_grids]: where grid lines are drawn, as their x coordinates and their y coordinates. [grids.shape] is the number
    of grids followed by the shape of the grid. *)
Definition layer_lines (shape : nat * nat) : list A * list A := (ticks (fst shape), ticks (snd shape)).
(** plotting.py 104-106 [plot_grid_values]: both use [grid.shape[0]]. *)
Definition value_lines (shape : nat * nat) : list A * list A := (ticks (fst shape), ticks (fst shape)).

(** plotting.py 252-253 [np.max]. *)
Definition largest_of (l : list A) : A := match l with [] => n0 | x :: r => max_list x r end.
(** plotting.py 252-253: the limits of both axes, [((left, right), (bottom, top))]. [np.max] of nothing raises ValueError. *)
Definition hex_limits (outer : A) (shape : nat * nat) (hide : list cell) : res ((A * A) * (A * A)) :=
  let cs := flat_map (fun x => flat_map (fun z => if hidden hide x z then [] else [hex_centre outer x z]) (seq 0 (snd shape))) (seq 0 (fst shape)) in
  match cs with
  | [] => Err ValueError
  | _ => Ok ((nsub n0 outer, nadd (largest_of (map fst cs)) outer), (nsub n0 outer, nadd (largest_of (map snd cs)) outer))
  end.

(** What a plot of state values shows: an image, or hexagons with their values and the new table of centres. *)
Inductive value_plot := Image (rows : list (list (fval A))) | Hexagons (drawn : list (point (A:=A) * fval A)) (coords : list (list (point (A:=A)))).
(** environments.py 673-695 [Environment.plot_state_values] with mdp.py 557-575 and 650-668 (default radius, no hidden cells). *)
Definition env_plot_state_values (k : gkind) (e : env A) (name : string) : res value_plot :=
  let* a := lookup e name in
  match at_fit a, m_shape (e_mdp e) with
  | None, _ => Err AttributeError
  | _, None => Err AttributeError
  | Some (values, _), Some sh =>
    match k with
    | Square => let* img := square_values_image sh values in Ok (Image img)
    | Hex => let* dc := hex_values NaN n1 sh [] values in Ok (Hexagons (fst dc) (snd dc))
    end
  end.
(** environments.py 593-597 [to_dict] and [to_json]. *)
Definition env_to_dict (e : env A) : res unit := Err NotImplementedErr.
End PlotMore.
