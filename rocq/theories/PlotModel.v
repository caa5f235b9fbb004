(** Model of maMDP/plotting.py and of the plotting methods of maMDP/mdp.py, maMDP/agents.py and
    maMDP/environments.py: what is drawn and where. Colours, markers, sizes, axes limits, ticks and
    the rendering by matplotlib are not modelled; an image shown by [imshow] has its entry in row [i]
    and column [j] at the point (j, i), as matplotlib documents. Definitions only. *)
From Coq Require Import List ZArith Bool.
From Verif Require Import PyBase GridModel MDPModel EnvModel.
Import ListNotations.
Local Open Scope nat_scope.

Section Plot.
Context {A : Type} {NA : Num A}.

(** plotting.py 220-227: a point of the plane. *)
Definition point := (A * A)%type.

(** plotting.py 204: [inner_radius = 0.86602540 * outer_radius]. *)
Definition inner_radius (outer : A) : A := nmul (ndiv (nofZ 86602540) (nofZ 100000000)) outer.

(** plotting.py 220-227: centre of the hexagon in column [x], row [z]. [x % 2] is the parity of [x]. *)
Definition hex_centre (outer : A) (x z : nat) : point :=
  let w := nmul (inner_radius outer) (nofZ 2) in
  let zz := nofZ (Z.of_nat z) in
  let y := if Nat.odd x then nmul zz w else nadd (nmul zz w) (ndiv w (nofZ 2)) in
  (nmul (nmul (nofZ (Z.of_nat x)) outer) (ndiv (nofZ 15) (nofZ 10)), y).

(** plotting.py 219 [(x, z) not in hide_idx]. *)
Definition hidden (hide : list cell) (x z : nat) : bool :=
  existsb (fun '(a, b) => (a =? Z.of_nat x)%Z && (b =? Z.of_nat z)%Z) hide.

(** plotting.py 185-257 [draw_hexagons] with [return_coords=True]: the table of centres, zero for
    hidden cells (line 214). [np.max] at line 252 raises ValueError if nothing was drawn. *)
Definition draw_hexagons (outer : A) (shape : nat * nat) (hide : list cell) : res (list (list point)) :=
  let cells := list_prod (seq 0 (fst shape)) (seq 0 (snd shape)) in
  if existsb (fun '(x, z) => negb (hidden hide x z)) cells then
    Ok (map (fun x => map (fun z => if hidden hide x z then (n0, n0) else hex_centre outer x z)
                          (seq 0 (snd shape))) (seq 0 (fst shape)))
  else Err ValueError.

(** mdp.py 526 and 636: [self.features_as_grid()[:-self.n_agents, :]], the grids given to [plot_grids]
    or [plot_hex_grids], which draw one layer for each. *)
Definition feature_layers (m : mdp A) : res (list (list (list A))) :=
  let* gs := features_as_grid m in
  Ok (firstn (slice_bound (length gs) (- Z.of_nat (m_n_agents m))) gs).

(** mdp.py 636-648: The attribute [coords] of a hexagonal grid: absent until something has been plotted. *)
Definition coords_attr := option (list (list point)).

(** mdp.py 623-641 [HexGridMDP.plot] (plotting.py 260-327): the layers drawn and the new [coords]. *)
Definition hex_plot (m : mdp A) : res (list (list (list A)) * list (list point)) :=
  match m_shape m with
  | None => Err AttributeError
  | Some sh =>
    let* layers := feature_layers m in
    let* coords := draw_hexagons n1 sh [] in
    Ok (layers, coords)
  end.

(** mdp.py 643-648 and 577-581 [state_to_position]. *)
Definition state_to_position (k : gkind) (shape : nat * nat) (coords : coords_attr) (state : Z) : res point :=
  let* idx := state_to_idx shape state in
  match k with
  | Square => Ok (nofZ (fst idx), nofZ (snd idx))
  | Hex =>
    match coords with
    | None => Err AttributeError
    | Some c =>
      let* i := py_index (length c) (fst idx) in
      let row := nth i c [] in
      let* j := py_index (length row) (snd idx) in
      Ok (nth j row (n0, n0))
    end
  end.

(** plotting.py 121-154 [plot_trajectory]: the arrows, as start point and displacement. *)
Fixpoint arrows (ps : list point) : list (point * point) :=
  match ps with
  | (x1, y1) :: (((x2, y2) :: _) as r) => ((x1, y1), (nsub x2 x1, nsub y2 y1)) :: arrows r
  | _ => []
  end.

(** mdp.py 424-446 and 533-555 [plot_trajectory]. *)
Definition trajectory_arrows (k : gkind) (shape : nat * nat) (coords : coords_attr) (traj : list Z)
    : res (list (point * point)) :=
  let* ps := mapM (state_to_position k shape coords) traj in Ok (arrows ps).

(** plotting.py 157-180 and mdp.py 449-471 [plot_sequence]: the numbers written and where. *)
Definition sequence_labels (k : gkind) (shape : nat * nat) (coords : coords_attr) (traj : list Z)
    : res (list (point * nat)) :=
  let* ps := mapM (state_to_position k shape coords) traj in
  let q := ndiv n1 (nofZ 4) in
  Ok (map (fun '(i, (x, y)) => ((nsub x q, nsub y q), i + 1)) (combine (seq 0 (length ps)) ps)).

(** agents.py 231-241 and environments.py 629-643: where the marker of each agent is put. *)
Definition agent_markers (k : gkind) (shape : nat * nat) (coords : coords_attr) (e : env A) : res (list point) :=
  mapM (fun a => state_to_position k shape coords (at_pos a)) (e_agents e).

(** environments.py 628-643 [Environment.plot]. *)
Definition env_plot (k : gkind) (e : env A) : res (list (list (list A)) * list point) :=
  match m_shape (e_mdp e) with
  | None => Err AttributeError
  | Some sh =>
    match k with
    | Square =>
      let* layers := feature_layers (e_mdp e) in
      let* ms := agent_markers Square sh None e in Ok (layers, ms)
    | Hex =>
      let* lc := hex_plot (e_mdp e) in
      let* ms := agent_markers Hex sh (Some (snd lc)) e in Ok (fst lc, ms)
    end
  end.

(** plotting.py 54-63 and 81-103: What [imshow] puts at the point (x, y) of an image given as a list of rows. *)
Definition image_at {B} (rows : list (list B)) (x y : nat) : option B :=
  match nth_error rows y with Some row => nth_error row x | None => None end.

(** plotting.py 54-63: Transposition of an image with [n] columns. *)
Definition transpose {B} (d : B) (n : nat) (g : list (list B)) : list (list B) :=
  map (fun j => map (fun row => nth j row d) g) (seq 0 n).

(** plotting.py 54-63: a feature layer of a square grid is shown transposed, [grids[grid].T]. *)
Definition square_layer_image (shape : nat * nat) (g : list (list A)) : list (list A) := transpose n0 (snd shape) g.

(** mdp.py 557-575 and plotting.py 81-103 [plot_state_values] on a square grid: [ax.imshow(grid)]. *)
Definition square_values_image {B} (shape : nat * nat) (values : list B) : res (list (list B)) :=
  flat_to_grid shape values.

(** mdp.py 650-668 and plotting.py 330-388 [plot_state_values] on a hexagonal grid: the hexagons drawn,
    each with its value, and the new [coords]. The order is that of the loops in [draw_hexagons]. *)
Definition hex_values {B} (d : B) (outer : A) (shape : nat * nat) (hide : list cell) (values : list B)
    : res (list (point * B) * list (list point)) :=
  let* g := flat_to_grid shape values in
  let* coords := draw_hexagons outer shape hide in
  Ok (flat_map (fun x => flat_map (fun z =>
        if hidden hide x z then [] else [(hex_centre outer x z, nth z (nth x g []) d)])
        (seq 0 (snd shape))) (seq 0 (fst shape)), coords).

(** plotting.py 9-11 [normalise] on finite numbers and NaN ([None]): [np.nanmin] and [np.nanmax] skip
    NaN, and a constant array is divided by zero, 0/0 = NaN. An array without numbers gives NaN
    throughout. Infinities are not modelled. *)
Fixpoint somes (l : list (option A)) : list A :=
  match l with [] => [] | Some x :: r => x :: somes r | None :: r => somes r end.
(** plotting.py 11 [np.nanmin]. *)
Definition min_list (x : A) (l : list A) : A := fold_left (fun m y => if nltb y m then y else m) l x.
(** plotting.py 11 [np.nanmax]. *)
Definition max_list (x : A) (l : list A) : A := fold_left (fun m y => if nltb m y then y else m) l x.
(** plotting.py 9-11 [normalise]. *)
Definition normalise (l : list (option A)) : list (option A) :=
  match somes l with
  | [] => map (fun _ => None) l
  | x :: r =>
    let lo := min_list x r in
    let hi := max_list (nsub x lo) (map (fun y => nsub y lo) r) in
    map (fun v => match v with
                  | None => None
                  | Some y => if neqb hi n0 then None else Some (ndiv (nsub y lo) hi)
                  end) l
  end.

End Plot.
