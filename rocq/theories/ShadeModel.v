(** Model of the colours and opacities of the layers [HexGridMDP.plot] draws (maMDP/plotting.py 260-327,
    maMDP/mdp.py 623-641). Definitions only. *)
From Coq Require Import List ZArith Bool.
From Verif Require Import PyBase GridModel MDPModel PlotModel.
Import ListNotations.
Local Open Scope nat_scope.

Section Shade.
Context {A : Type} {NA : Num A}.

(** plotting.py 288-291: a colour the caller gave, known by a number, or one of the ten of [mpl.cm.tab10]. *)
Inductive colour := Given (i : nat) | Tab10 (i : nat).

(** plotting.py 289 [mpl.cm.tab10(grid)]: matplotlib gives integers beyond the last entry the last colour. *)
Definition tab10 (i : nat) : colour := Tab10 (Nat.min i 9).

(** plotting.py 288-291 and 300-303: [default if given is None else given[i]]. *)
Definition or_default {B} (given : option (list B)) (default : B) (i : nat) : res B :=
  match given with
  | None => Ok default
  | Some l => match nth_error l i with Some b => Ok b | None => Err IndexError end
  end.

(** plotting.py 297 and 305: [colors.Normalize(0, 1, clip=True)] of one number. *)
Definition clip01 (v : A) : A := if nltb v n0 then n0 else if nltb n1 v then n1 else v.

(** plotting.py 287-307: one layer, as its colour and the opacity of every cell. *)
Definition shade (colours : option (list colour)) (alphas : option (list A)) (ig : nat * list (list A))
    : res (colour * list (list A)) :=
  let '(i, grid) := ig in
  let* c := or_default colours (tab10 i) i in
  let* alpha := or_default alphas (ndiv n1 (nofZ 2)) i in
  Ok (c, map (map (fun v => nmul (clip01 v) alpha)) grid).

(** plotting.py 287-308 [plot_hex_grids]: the layers. *)
Definition shade_layers (colours : option (list colour)) (alphas : option (list A)) (grids : list (list (list A)))
    : res (list (colour * list (list A))) :=
  mapM (shade colours alphas) (combine (seq 0 (length grids)) grids).

(** mdp.py 636-639 [HexGridMDP.plot]: feature layers, then one layer of walls with [alphas=[1]]. *)
Definition hex_shades (m : mdp A) (colours : option (list colour)) (alphas : option (list A)) (wall_colour : colour)
    : res (list (colour * list (list A)) * list (colour * list (list A))) :=
  match m_shape m with
  | None => Err AttributeError
  | Some sh =>
    let* layers := feature_layers m in
    let* fs := shade_layers colours alphas layers in
    let* w := flat_to_grid sh (m_walls m) in
    let* ws := shade_layers (Some [wall_colour]) (Some [n1]) [w] in
    Ok (fs, ws)
  end.
End Shade.
