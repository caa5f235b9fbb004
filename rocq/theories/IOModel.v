(** Model of maMDP/env_io.py: environments of hexagonal grids as dictionaries and JSON. Definitions only.

    Numbers written to JSON come back unchanged, lists stay lists: positions, indices and truncated
    rewards are Python ints and survive exactly. Keyword arguments of algorithms and selectors are an
    arbitrary type [K] of JSON values. *)
From Coq Require Import String List ZArith Bool.
From Verif Require Import PyBase GridModel MDPModel EnvModel.
Import ListNotations.
Local Open Scope nat_scope.
Local Open Scope string_scope.

Section IO.
Context {A : Type} {NA : Num A}.
(** Python's [int] on a float: truncation towards zero. *)
Variable trunc : A -> Z.
(** Keyword arguments. *)
Variable K : Type.

(** What an agent's plug-ins are: the attributes [name] of its algorithm (dynamic_programming.py 208;
    other algorithms have none) and of its action selector (action_selection.py 168, 233; other
    selectors have none), with the keyword arguments kept by agents.py 49-51. *)
Record kit := mkKit {
  kit_algorithm : option string;
  kit_algorithm_kwargs : K;
  kit_selector : option string;
  kit_selector_kwargs : K
}.

(** An environment whose MDP is a [HexGridMDP]: [self_transitions] is kept by mdp.py 343; the kits of
    the agents are listed by name. *)
Record world := mkWorld {
  w_env : env A;
  w_self : bool;
  w_kits : list (string * kit)
}.

(** env_io.py 64-67: the plug-ins of one agent. *)
Definition kit_of (w : world) (name : string) : option kit :=
  match find (fun p => String.eqb (fst p) name) (w_kits w) with Some (_, k) => Some k | None => None end.

(** env_io.py 36-44: A list of indices as written to the dictionary: numbers, or coordinates. In the format 'coords' the
    array of coordinates is squeezed, so a single pair is written as a flat list of two numbers. *)
Inductive index_list :=
| Indices (l : list Z)
| Coords (l : list cell).

(** env_io.py 54-57: An agent's position as written. *)
Inductive where_written := AtIndex (p : Z) | AtCoords (c : cell).

(** env_io.py 51-68: the entry of one agent. *)
Record agent_info := mkInfo {
  i_position : where_written;
  i_n_moves : Z;
  i_reward : list Z;
  i_consumes : list Z;
  i_algorithm : string;
  i_algorithm_kwargs : K;
  i_selector : string;
  i_selector_kwargs : K
}.

(** env_io.py 29-70: the dictionary. *)
Record env_dict := mkDict {
  d_size : nat * nat;
  d_features : list (string * index_list);
  d_walls : index_list;
  d_type : string;
  d_self : bool;
  d_agents : list (string * agent_info)
}.

(** env_io.py 13 and 36-44: the [format] argument. *)
Inductive format := FIndex | FCoords.

(** env_io.py 37 and 39: Assignment to a key of a dictionary that keeps insertion order. *)
Fixpoint dict_set {B} (l : list (string * B)) (k : string) (v : B) : list (string * B) :=
  match l with
  | [] => [(k, v)]
  | (k', v') :: r => if String.eqb k' k then (k', v) :: r else (k', v') :: dict_set r k v
  end.

(** env_io.py 37 and 42: [np.where(v)[0].astype(int).tolist()]: the states where [v] is not zero. *)
Definition nonzero (v : list A) : list Z := map Z.of_nat (where_ (fun x => negb (neqb x n0)) v).

(** env_io.py 34-44. *)
Definition write_states (fmt : format) (shape : nat * nat) (v : list A) : res index_list :=
  match fmt with
  | FIndex => Ok (Indices (nonzero v))
  | FCoords => let* cs := mapM (state_to_idx shape) (nonzero v) in Ok (Coords cs)
  end.

(** env_io.py 51-68: the entry of one agent. *)
Definition write_agent (fmt : format) (shape : nat * nat) (w : world) (a : attached A) : res (string * agent_info) :=
  let* p := match fmt with
            | FIndex => Ok (AtIndex (at_pos a))
            | FCoords => let* c := state_to_idx shape (at_pos a) in Ok (AtCoords c)
            end in
  match kit_of w (at_name a) with
  | None => Err KeyError
  | Some k =>
    match kit_algorithm k, kit_selector k with
    | Some an, Some sn =>
      Ok (at_name a, mkInfo p (at_n_moves a) (map trunc (at_reward a)) (at_consumes a) an
                       (kit_algorithm_kwargs k) sn (kit_selector_kwargs k))
    | _, _ => Err AttributeError
    end
  end.

(** env_io.py 13-70 [hex_env_to_dict]. [None] as the list of names raises TypeError in [len]. *)
Definition hex_env_to_dict (w : world) (names : option (list string)) (fmt : format) : res env_dict :=
  let e := w_env w in
  let m := e_mdp e in
  match names with
  | None => Err TypeError
  | Some ns =>
    if negb (Z.of_nat (m_n_features m) - Z.of_nat (length (e_agents e)) =? Z.of_nat (length ns))%Z then Err AttributeError
    else match m_shape m with
    | None => Err AttributeError
    | Some sh =>
      let* fs := foldM (fun d '(f, name) =>
                          let* s := write_states fmt sh (nth f (m_features m) []) in Ok (dict_set d name s))
                       (combine (seq 0 (length ns)) ns) [] in
      let* ws := write_states fmt sh (m_walls m) in
      let* ags := mapM (write_agent fmt sh w) (e_agents e) in
      Ok (mkDict sh fs ws "hex" (w_self w) ags)
    end
  end.

(** env_io.py 107-111: The numbers a nested list of indices contains; assigning to [v[nested list]] sets each of them (numpy
    from 1.23 on; before, two or more pairs of wall coordinates raise IndexError). *)
Definition flat (l : index_list) : list Z :=
  match l with Indices l => l | Coords l => flat_map (fun '(x, y) => [x; y]) l end.

(** env_io.py 108 and 111: [v[states] = 1]. *)
Definition mark (v : list A) (states : index_list) : res (list A) :=
  foldM (fun v s => let* i := py_index (length v) s in Ok (upd v i n1)) (flat states) v.

(** env_io.py 107 [env_dict['features'][f]]. *)
Definition dict_get {B} (l : list (string * B)) (k : string) : res B :=
  match find (fun p => String.eqb (fst p) k) l with Some (_, v) => Ok v | None => Err KeyError end.

(** env_io.py 103-108: the feature table. *)
Definition read_features (d : env_dict) (names : list string) : res (list (list A)) :=
  let n := fst (d_size d) * snd (d_size d) in
  foldM (fun t '(i, name) =>
           let* states := dict_get (d_features d) name in
           let* r := py_index (length t) (Z.of_nat i) in
           let* row := mark (nth r t []) states in
           Ok (upd t r row))
        (combine (seq 0 (length names)) names) (zeros2 (length (d_features d)) n).

(** env_io.py 119-139: one agent. The names checked are those of env_io.py 124-134. A position that is
    not an int is refused later, by environments.py 128-131. *)
Definition read_agent (p : string * agent_info) : res (spec A * (string * kit) * where_written) :=
  let '(name, i) := p in
  if negb (String.eqb (i_algorithm i) "value_iteration") then Err NotImplementedErr
  else if negb (String.eqb (i_selector i) "max" || String.eqb (i_selector i) "softmax") then Err NotImplementedErr
  else
    let pos := match i_position i with AtIndex z => z | AtCoords _ => 0%Z end in
    Ok (mkSpec name (i_n_moves i) None pos (map nofZ (i_reward i)) (i_consumes i),
        (name, mkKit (Some (i_algorithm i)) (i_algorithm_kwargs i) (Some (i_selector i)) (i_selector_kwargs i)),
        i_position i).

(** environments.py 128-131: is the position an int? *)
Definition is_index (p : where_written) : bool := match p with AtIndex _ => true | AtCoords _ => false end.

(** env_io.py 97-143 [hex_environment_from_dict]. The reward functions are lists, so environments.py
    112-126 accept them. The first agent whose position is not an int is refused with TypeError before
    its other checks; agents before it are attached, which cannot be observed since the MDP is new. If an
    earlier agent fails another check the exception is that agent's instead of TypeError (simplified:
    the model reports TypeError). *)
Definition hex_environment_from_dict (d : env_dict) (names : list string) : res world :=
  if negb (String.eqb (d_type d) "hex") then Err NotImplementedErr
  else
    let n := fst (d_size d) * snd (d_size d) in
    let* feats := read_features d names in
    let* walls := mark (zeros1 n) (d_walls d) in
    let* m := grid_mdp Hex feats (Some walls) (d_size d) (d_self d) in
    let* ags := mapM read_agent (d_agents d) in
    if forallb (fun a => is_index (snd a)) ags then
      let* e := snd (make_env m (map (fun a => fst (fst a)) ags)) in
      Ok (mkWorld e (d_self d) (map (fun a => snd (fst a)) ags))
    else Err TypeError.

(** env_io.py 72-94 and 145-148: through JSON, with [return_string=True]. The loader passes no names. *)
Definition hex_env_to_json (w : world) (names : option (list string)) : res env_dict := hex_env_to_dict w names FIndex.
(** env_io.py 145-148 [hex_environment_from_json]. *)
Definition hex_environment_from_json (d : env_dict) : res world := hex_environment_from_dict d [].

End IO.
