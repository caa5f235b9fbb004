(** C109 for tree search: an agent in two environments plans from its position in the one made last. *)
From Coq Require Import String List ZArith QArith Bool Lia.
From Verif Require Import PyBase PyProofs GridModel MDPModel MDPProps ActionModel EnvModel EnvProps MCTSModel MCTSProps MCTSRun WorldModel WorldProps WorldProps3.
Import ListNotations.
Local Close Scope Q_scope.
Local Open Scope nat_scope.

Section Search.
Context {A : Type} {NA : Num A}.

(** mcts.py 906-931, 933-1000 with base.py 20-23: the algorithm of agent [a] of environment [e] was attached
    last to agent [ah] of environment [eh]. The MDP, the reward function and the position whose actions
    are valued come from [e]; the simulated agents, with their positions, from [eh]. *)
Definition attached_fit (score : scorer A) (cfg : mcts_config A) (eh : env A) (ah : attached A) (e : env A) (a : attached A) (n_moves : option (list (list Z)))
    (rnd : nat -> nat -> nat) (fuel : nat) : res (fitted A) :=
  let m := e_mdp e in
  let primary := mkInfo (at_pos ah) (at_n_moves ah) (at_consumes ah) (at_reward a) (at_feature_idx ah) in
  let* (V, N, _, _) := run_mcts score (mc_interactive cfg) (mc_n_iter cfg) (m_features m) (m_sas m)
      (primary :: tl (all_info (mc_interactive cfg) eh ah)) (mc_C cfg) n_moves (mc_cost cfg) (mc_policy cfg) (mc_caching cfg)
      (mc_max_iter cfg) (mc_discount cfg) (mc_tol cfg) None rnd fuel in
  let* values := mcts_action_values (at_pos a) (m_sas m) V N in
  let* q := mcts_q (m_n_states m) (m_n_actions m) (at_pos a) values in
  Ok (map Fin V, q).
(** In the environment it was attached to last, this is the search modelled before. *)
Lemma attached_own : forall score cfg e a n rnd fuel, attached_fit score cfg e a e a n rnd fuel = mcts_fit score cfg e a n rnd fuel.
Proof. reflexivity. Qed.

(** The environment an agent object was attached to last. *)
Fixpoint last_with (r j : nat) (l : list (env_obj A)) (acc : option nat) : option nat :=
  match l with
  | [] => acc
  | o :: t => last_with r (S j) t (if existsb (fun p => snd p =? r) (eo_agents o) then Some j else acc)
  end.
Definition home (w : world A) (r : nat) : option nat := last_with r 0 (w_envs w) None.

(** Tree search and greedy choice in environment [j]. *)
Definition by_search (score : scorer A) (cfg : mcts_config A) (w : world A) (j : nat) : plugins A :=
  mkPlugins (fun nm e n _ =>
      match find_agent (e_agents e) nm, nth_error (w_envs w) j with
      | Some a, Some o =>
        match agent_of o nm with
        | Some r => match home w r with
                    | Some h => match env_at w h with
                                | Some eh => match find_agent (e_agents eh) nm with
                                             | Some ah => attached_fit score cfg eh ah e a n (fun _ _ => 0) (passes (length (e_agents eh)) (match n with Some m => m | None => [] end))
                                             | None => Err KeyError end
                                | None => Err KeyError end
                    | None => Err KeyError end
        | None => Err KeyError end
      | _, _ => Err KeyError
      end)
    (fun _ seed => max_get_pi (fun _ => seed)) (fun _ => max_get_pi_p) (fun _ => true).
End Search.

Definition searching : world Q -> nat -> plugins Q := by_search mean_score (ex_cfg false false (9 # 10) (1 # 100))%Q.
(** States in a row; the feature is 1 at state 0 and 1/2 at state 2. The agent at state 1 looks one move ahead.
    Alone, it goes to state 0. Once a second environment has been made where it is at state 3, the
    search is made from there and never visits state 0, so in the first environment it goes to state 2. *)
Definition row_envs : list (call Q) := [CMdp Square 0 None (1, 4) false; CMdp Square 0 None (1, 4) false; CEnv 0 [mkEntry 0 1%Z [1; 0]%Q []]].
Definition another_env : call Q := CEnv 1 [mkEntry 0 3%Z [1; 0]%Q []].
Definition fit_and_step : list (call Q) := [COp 0 (OFit "p" (Some [[1%Z]]) 0 0); COp 0 (OStep "p" 0)]%string.
Theorem C109_tree_search_refuted : exists w, made [[[1; 0; 1 # 2; 0]]]%Q [] [("p"%string, 1%Z)] searching row_envs w /\
  position_in (calls searching w fit_and_step) 0 = Some [0%Z] /\
  behind (do_call searching w another_env) 0 "p" 0 /\ behind (do_call searching w another_env) 1 "p" 0 /\
  position_in (calls searching w (another_env :: fit_and_step)) 0 = Some [2%Z].
Proof. eexists. split; [split; [repeat constructor|reflexivity]|]. split; [vm_compute; reflexivity|]. split; [eexists; vm_compute; repeat split|]. split; [eexists; vm_compute; repeat split|]. vm_compute; reflexivity. Qed.
