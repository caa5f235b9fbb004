(** Several MDPs, environments and agents at the same time: which objects they share. Definitions only.

    A world is a set of objects that refer to each other: arrays of features and of walls (those the
    caller passes in and those the library creates), agents (with the algorithm they own, agents.py
    46), MDPs and environments. The functions of [MDPModel] and [EnvModel] compute the new contents;
    this file says which object receives them. Array views are treated as new arrays: the only view
    the library keeps is the table without agent rows (mdp.py 178), of an array nothing else uses. *)
From Coq Require Import String List ZArith Bool.
From Verif Require Import PyBase GridModel MDPModel ActionModel EnvModel.
Import ListNotations.
Local Open Scope nat_scope.

Section World.
Context {A : Type} {NA : Num A}.

(** An agent object, agents.py 16-54, with the state of its algorithm. *)
Record agent_obj := mkAgent { ag_name : string; ag_moves : Z; ag_fit : option (fitted A) }.
(** An MDP object: its feature table is array [mo_feat] and its walls are array [mo_wall] (mdp.py 98 and
    135 keep the array they are given); the contents of these two fields in [mo_attrs] do not count. *)
Record mdp_obj := mkMdpObj { mo_attrs : mdp A; mo_feat : nat; mo_wall : nat }.
(** An environment object: the MDP it keeps (environments.py 91) and the agent object behind each of
    its attached agents (agents.py 56-61 passes on the algorithm itself), by name. *)
Record env_obj := mkEnvObj { eo_attrs : env A; eo_mdp : nat; eo_agents : list (string * nat) }.
(** mdp.py 98 and 135, environments.py 91, agents.py 46 and 87: all objects there are. *)
Record world := mkWorld {
  w_feats : list (list (list A));
  w_walls : list (list A);
  w_agents : list agent_obj;
  w_mdps : list mdp_obj;
  w_envs : list env_obj
}.

(** mdp.py 135 [self.__walls = walls] (helper). *)
Definition with_walls (m : mdp A) (w : list A) : mdp A :=
  mkMDP (m_shape m) (m_sas m) (m_orig_sas m) (m_deterministic m) (m_adjacency m) (m_n_states m) (m_n_actions m)
        (m_features m) (m_orig_features m) (m_n_features m) (m_n_non_agent m) (m_n_agents m) w.

(** mdp.py 83-106: What the attributes of an MDP object show. *)
Definition see_mdp (w : world) (o : mdp_obj) : mdp A :=
  with_walls (with_features (mo_attrs o) (nth (mo_feat o) (w_feats w) [])) (nth (mo_wall o) (w_walls w) []).
(** agents.py 56-61: The agent object behind an attached agent. *)
Definition agent_of (o : env_obj) (name : string) : option nat :=
  match find (fun p => String.eqb (fst p) name) (eo_agents o) with Some p => Some (snd p) | None => None end.
(** agents.py 104-106: What the algorithm of an attached agent has stored. *)
Definition see_fit (w : world) (o : env_obj) (a : attached A) : attached A :=
  match agent_of o (at_name a) with
  | Some r => match nth_error (w_agents w) r with Some g => set_fit a (ag_fit g) | None => a end
  | None => a
  end.
(** environments.py 77-83: What an environment object shows. *)
Definition see_env (w : world) (o : env_obj) : option (env A) :=
  match nth_error (w_mdps w) (eo_mdp o) with
  | None => None
  | Some mo => Some (mkEnv (see_mdp w mo) (e_names (eo_attrs o)) (map (see_fit w o) (e_agents (eo_attrs o)))
                           (e_n_agents (eo_attrs o)) (e_n_steps (eo_attrs o)))
  end.
(** mdp.py 83-106: what MDP number [i] shows. *)
Definition mdp_at (w : world) (i : nat) : option (mdp A) := option_map (see_mdp w) (nth_error (w_mdps w) i).
(** environments.py 77-83: what environment number [j] shows. *)
Definition env_at (w : world) (j : nat) : option (env A) :=
  match nth_error (w_envs w) j with Some o => see_env w o | None => None end.

(** mdp.py 170-173 and 192: MDP [i] afterwards, its table written in place. *)
Definition put_mdp (w : world) (i : nat) (o : mdp_obj) (m : mdp A) : world :=
  mkWorld (upd (w_feats w) (mo_feat o) (m_features m)) (w_walls w) (w_agents w)
          (upd (w_mdps w) i (mkMdpObj m (mo_feat o) (mo_wall o))) (w_envs w).
(** mdp.py 98: MDP [i] afterwards, with a new table. *)
Definition new_table (w : world) (i : nat) (o : mdp_obj) (m : mdp A) : world :=
  mkWorld (w_feats w ++ [m_features m]) (w_walls w) (w_agents w)
          (upd (w_mdps w) i (mkMdpObj m (length (w_feats w)) (mo_wall o))) (w_envs w).
(** mdp.py 135: MDP [i] afterwards, its walls being array [r]. *)
Definition use_walls (w : world) (i : nat) (o : mdp_obj) (m : mdp A) (r : nat) : world :=
  mkWorld (w_feats w) (w_walls w) (w_agents w) (upd (w_mdps w) i (mkMdpObj m (mo_feat o) r)) (w_envs w).
(** mdp.py 40 and 402: A new array of walls. *)
Definition new_walls (w : world) (l : list A) : world :=
  mkWorld (w_feats w) (w_walls w ++ [l]) (w_agents w) (w_mdps w) (w_envs w).
(** mdp.py 419-421: Array of walls [r] overwritten. *)
Definition put_walls (w : world) (r : nat) (l : list A) : world :=
  mkWorld (w_feats w) (upd (w_walls w) r l) (w_agents w) (w_mdps w) (w_envs w).

(** base.py 66-69: The algorithms of an environment's agents afterwards. *)
Definition put_fit (o : env_obj) (l : list agent_obj) (a : attached A) : list agent_obj :=
  match agent_of o (at_name a) with
  | Some r => match nth_error l r with Some g => upd l r (mkAgent (ag_name g) (ag_moves g) (at_fit a)) | None => l end
  | None => l
  end.
(** environments.py 167-529: environment [j] afterwards. *)
Definition put_env (w : world) (j : nat) (o : env_obj) (e : env A) : world :=
  mkWorld (w_feats w) (w_walls w) (fold_left (put_fit o) (e_agents e) (w_agents w)) (w_mdps w)
          (upd (w_envs w) j (mkEnvObj e (eo_mdp o) (eo_agents o))).

(** One entry of the dictionary given to the constructor of an environment, environments.py 48. *)
Record entry := mkEntry { en_agent : nat; en_pos : Z; en_reward : list A; en_consumes : list Z }.
(** agents.py 56-61: the entry with the agent's own settings and the state of its algorithm. *)
Definition entry_spec (w : world) (x : entry) : option (spec A) :=
  match nth_error (w_agents w) (en_agent x) with
  | Some g => Some (mkSpec (ag_name g) (ag_moves g) (ag_fit g) (en_pos x) (en_reward x) (en_consumes x))
  | None => None
  end.
(** environments.py 109: all entries; [None] if there is no such agent. *)
Fixpoint entry_specs (w : world) (l : list entry) : option (list (spec A)) :=
  match l with
  | [] => Some []
  | x :: r => match entry_spec w x, entry_specs w r with Some s, Some ss => Some (s :: ss) | _, _ => None end
  end.
(** The last agent of a name is the one kept, environments.py 155. *)
Definition agents_by_name (w : world) (l : list entry) : list (string * nat) :=
  rev (map (fun x => (match nth_error (w_agents w) (en_agent x) with Some g => ag_name g | None => EmptyString end, en_agent x)) l).

(** environments.py 45-529 and mdp.py 16-421: The calls a program can make. Arrays are named by their number, objects too. *)
Inductive call :=
| CMdp (k : gkind) (features : nat) (walls : option nat) (shape : nat * nat) (self_tr : bool)
| CEnv (mdp : nat) (agents : list entry)
| COp (env : nat) (o : op A)
| CWalls (mdp walls : nat)
| CAddWall (mdp : nat) (x y : list Z)
| CClearWalls (mdp : nat)
| CConsume (mdp : nat) (features : list Z) (state : Z)
| CReset (mdp : nat).

(** environments.py 510-517 with mdp.py 305-306: the agents are moved in the table as it is; then the
    private copy becomes the table. Every other call writes into the table as it is, and assigned walls
    (mdp.py 135) are a new array here. *)
Definition env_call (pl : plugins A) (w : world) (j : nat) (o : env_obj) (mo : mdp_obj) (e : env A) (c : op A) : world :=
  let i := eo_mdp o in
  match c with
  | OReset =>
    match reset_agents e (e_agents e) with
    | (e1, Err _) => put_env (put_mdp w i mo (e_mdp e1)) j o e1
    | (e1, Ok _) =>
      match reset_mdp (e_mdp e1) with
      | Err _ => put_env (put_mdp w i mo (e_mdp e1)) j o e1
      | Ok m => put_env (new_table (put_mdp w i mo (e_mdp e1)) i mo m) j o (with_mdp e1 m)
      end
    end
  | OSetWalls l =>
    match set_walls (e_mdp e) l with
    | Err _ => w
    | Ok m => put_env (use_walls (new_walls w l) i mo m (length (w_walls w))) j o (with_mdp e m)
    end
  | _ => let e1 := do_op pl e c in put_env (put_mdp w i mo (e_mdp e1)) j o e1
  end.

(** The world after a call, whether it returned or raised. [pl w j] are the plug-ins used in environment
    [j]: an algorithm may read other objects (mcts.py 906-929 reads the environment that its agent
    was attached to last, base.py 20-23).
    - Creating an MDP: mdp.py 328-359, 16-46; without walls a new array is made (line 40).
    - Creating an environment: mdp.py 175-179 and 157 make new tables, 165-173 writes into them. The
      first test says that neither happened.
    - [reset_walls] multiplies the array in place and assigns it again, mdp.py 419-421.
    - [add_wall_xy] works on a copy, mdp.py 402. *)
Definition do_call (pl : world -> nat -> plugins A) (w : world) (c : call) : world :=
  match c with
  | CMdp k f wl shape st =>
    match nth_error (w_feats w) f, (match wl with None => Some None | Some r => option_map Some (nth_error (w_walls w) r) end) with
    | Some ft, Some wt =>
      match grid_mdp k ft wt shape st with
      | Err _ => w
      | Ok m =>
        match wl with
        | Some r => mkWorld (w_feats w) (w_walls w) (w_agents w) (w_mdps w ++ [mkMdpObj m f r]) (w_envs w)
        | None => mkWorld (w_feats w) (w_walls w ++ [m_walls m]) (w_agents w) (w_mdps w ++ [mkMdpObj m f (length (w_walls w))]) (w_envs w)
        end
      end
    | _, _ => w
    end
  | CEnv i l =>
    match nth_error (w_mdps w) i, entry_specs w l with
    | Some mo, Some ss =>
      let m := see_mdp w mo in
      let '(m', r) := make_env m ss in
      let w1 := if (m_n_agents m =? 0) && (length (m_features m') =? length (m_features m)) then put_mdp w i mo m' else new_table w i mo m' in
      match r with
      | Err _ => w1
      | Ok e => mkWorld (w_feats w1) (w_walls w1) (w_agents w1) (w_mdps w1) (w_envs w1 ++ [mkEnvObj e i (agents_by_name w l)])
      end
    | _, _ => w
    end
  | COp j o =>
    match nth_error (w_envs w) j with
    | None => w
    | Some eo =>
      match nth_error (w_mdps w) (eo_mdp eo), see_env w eo with
      | Some mo, Some e => env_call (pl w j) w j eo mo e o
      | _, _ => w
      end
    end
  | CWalls i r =>
    match nth_error (w_mdps w) i, nth_error (w_walls w) r with
    | Some mo, Some l => match set_walls (see_mdp w mo) l with Ok m => use_walls w i mo m r | Err _ => w end
    | _, _ => w
    end
  | CAddWall i x y =>
    match nth_error (w_mdps w) i with
    | Some mo => match add_wall_xy (see_mdp w mo) x y with
                 | Ok m => use_walls (new_walls w (m_walls m)) i mo m (length (w_walls w)) | Err _ => w end
    | None => w
    end
  | CClearWalls i =>
    match nth_error (w_mdps w) i with
    | Some mo =>
      let m := see_mdp w mo in
      let w1 := put_walls w (mo_wall mo) (map (fun x => nmul x n0) (m_walls m)) in
      match reset_walls m with Ok m' => use_walls w1 i mo m' (mo_wall mo) | Err _ => w1 end
    | None => w
    end
  | CConsume i fs s =>
    match nth_error (w_mdps w) i with
    | Some mo => put_mdp w i mo (fst (consume_features (see_mdp w mo) fs s))
    | None => w
    end
  | CReset i =>
    match nth_error (w_mdps w) i with
    | Some mo => match reset_mdp (see_mdp w mo) with Ok m => new_table w i mo m | Err _ => w end
    | None => w
    end
  end.
(** environments.py 45-529 and mdp.py 16-421: a sequence of calls. *)
Definition calls (pl : world -> nat -> plugins A) (w : world) (l : list call) : world := fold_left (do_call pl) l w.

(** agents.py 16-54 and base.py 10-16: Before anything is created there are the caller's arrays and agents that have not been fitted. *)
Definition start (feats : list (list (list A))) (walls : list (list A)) (agents : list (string * Z)) : world :=
  mkWorld feats walls (map (fun g => mkAgent (fst g) (snd g) None) agents) [] [].

End World.
Arguments world A : clear implicits. Arguments call A : clear implicits. Arguments entry A : clear implicits.
Arguments mdp_obj A : clear implicits. Arguments env_obj A : clear implicits. Arguments agent_obj A : clear implicits.
