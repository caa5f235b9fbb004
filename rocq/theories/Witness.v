(** Concrete cases that meet the hypotheses of theorems proved elsewhere. *)
From Coq Require Import String List ZArith QArith Reals Bool Lia Lra.
From Verif Require Import PyBase PyProofs GridModel GridSpec MDPModel MDPSpec MDPProofs MDPProofs2 MDPProofs3 MDPProofs4 MDPProps ActionModel ActionSpec SoftmaxModel ActionProps EnvModel PlanProps EnvSpec StepSpec EnvProofs EnvProofs2 EnvProofs3 EnvProofs4 EnvProofs5 EnvProps StepProps VIModel VISpec VIProps VIEnvProps MCTSModel MCTSRun MCTSFit VIFit IRLModel IRLVisit PLModel PLSpec PLAngles.
Import ListNotations.
Local Close Scope Q_scope.
Local Open Scope nat_scope.

Lemma vi_greedy_plans : forall g tol mi nm, plans_with_vi (vi_greedy (A:=R) g tol mi) nm g tol mi.
Proof.
  intros g tol mi nm. split; [reflexivity|]. intros e a n seed ND [Ha Na]. cbn [vi_greedy pl_fit]. destruct (find_agent (e_agents e) nm) as [b|] eqn:F.
  - unfold find_agent in F. apply find_some in F. destruct F as [Hb Nb]. apply String.eqb_eq in Nb. assert (b = a) by (eapply same_name_same; eauto; congruence). now subst b.
  - unfold find_agent in F. pose proof (find_none _ _ F a Ha) as X. cbn in X. rewrite Na, String.eqb_refl in X. discriminate.
Qed.
Lemma mcts_greedy_uses : forall score cfg nm, uses_mcts (mcts_greedy (A:=R) score cfg) nm.
Proof.
  intros score cfg nm. split; [reflexivity|]. exists score, cfg. intros e n seed. exists (fun _ _ => 0). eexists. intros a ND [Ha Na]. cbn [mcts_greedy pl_fit]. destruct (find_agent (e_agents e) nm) as [b|] eqn:F.
  - unfold find_agent in F. apply find_some in F. destruct F as [Hb Nb]. apply String.eqb_eq in Nb. assert (b = a) by (eapply same_name_same; eauto; congruence). subst b. reflexivity.
  - unfold find_agent in F. pose proof (find_none _ _ F a Ha) as X. cbn in X. rewrite Na, String.eqb_refl in X. discriminate.
Qed.

(** C166 and C68: two agents in opposite corners of a 2 x 2 grid, planning with value iteration; the first can be fitted and stepped, also
    after walls have been put around it. *)
Example C166_example : let pl := vi_greedy (A:=R) (9/10)%R (1/100)%R 5 in exists e a e1 e2 p, reachable pl e /\ agent_named e "p" a /\
  plans_with_vi pl "p" (9/10)%R (1/100)%R 5 /\ uses_vi pl "p" /\ selects_best pl "p" /\ gives_probabilities pl "p" /\ (0 < 9/10 < 1)%R /\ (0 < 5)%Z /\ consumes_in_range e /\
  env_fit pl e "p" None 0 0 = (e1, Ok tt) /\ env_step pl (run pl e1 [OSetWalls [0; 1; 1; 0]%R; OFit "q" None 0 0]) "p" 0 = (e2, Ok p).
Proof.
  intros pl. destruct (C71_example pl) as (e & a & RE & NA & CR & _). destruct (C34_vi_plugin (9/10)%R (1/100)%R 5 "p") as [UV SB]. assert (GP : gives_probabilities pl "p") by now left.
  destruct (C166_fit pl e "p" a (9/10)%R (1/100)%R 5 None 0 0 RE NA (vi_greedy_plans _ _ _ _) SB GP) as (e1 & EF); [lra|lia|].
  destruct (C166_steps pl e "p" None 0 0 e1 [OSetWalls [0; 1; 1; 0]%R; OFit "q" None 0 0] 0 RE UV SB GP EF) as (e2 & p & ES).
  { destruct (reachable_wf _ _ RE) as (k & shape & st & W). pose proof (in_range_run pl k shape st e [OFit "p" None 0 0; OSetWalls [0; 1; 1; 0]%R; OFit "q" None 0 0] W CR) as X.
    unfold run in *. cbn [fold_left] in *. replace (do_op pl e (OFit "p" None 0 0)) with e1 in X by (cbn [do_op]; now rewrite EF). exact X. }
  exists e, a, e1, e2, p. split; [exact RE|]. split; [exact NA|]. split; [apply vi_greedy_plans|]. split; [exact UV|]. split; [exact SB|]. split; [exact GP|]. split; [lra|]. split; [lia|]. split; [exact CR|]. split; [exact EF|exact ES].
Qed.
(** C42: the same with a tree search of two turns. *)
Example C42_example : let pl := mcts_greedy (A:=R) (mean_score (A:=R)) (ex_cfg true false (9/10)%R (1/100)%R) in exists e a e1, reachable pl e /\ agent_named e "p" a /\
  uses_mcts pl "p" /\ selects_best pl "p" /\ consumes_in_range e1 /\ env_fit pl e "p" (Some [[2]; [1]]%Z) 0 0 = (e1, Ok tt).
Proof.
  intros pl. destruct (C71_example pl) as (e & a & RE & NA & CR & SR & _). destruct (C71_plugin (mean_score (A:=R)) (ex_cfg true false (9/10)%R (1/100)%R) "p") as (RM & SB & GP).
  destruct (C71_fit_succeeds pl e "p" a _ _ _ 0 0 RE NA RM SB GP CR SR) as (e1 & EF). exists e, a, e1. split; [exact RE|]. split; [exact NA|]. split; [apply mcts_greedy_uses|]. split; [exact SB|]. split; [|exact EF].
  destruct (reachable_wf _ _ RE) as (k & shape & st & W). pose proof (in_range_run pl k shape st e [OFit "p" (Some [[2]; [1]]%Z) 0 0] W CR) as X.
  unfold run in X. cbn [fold_left] in X. replace (do_op pl e (OFit "p" (Some [[2]; [1]]%Z) 0 0)) with e1 in X by (cbn [do_op]; now rewrite EF). exact X.
Qed.

(** C07: on a 3 x 3 grid with one wall, two neighbouring cells are walled, a cell off the grid is refused, and clearing gives back the
    transitions of the grid made without walls. *)
Example C07_example : exists m0 mfree m1 m2, grid_mdp (A:=Q) Square [[0; 0; 0; 0; 0; 0; 0; 0; 0]%Q] (Some [0; 0; 0; 0; 0; 0; 0; 0; 1]%Q) (3, 3) false = Ok m0 /\
  grid_mdp (A:=Q) Square [[0; 0; 0; 0; 0; 0; 0; 0; 0]%Q] None (3, 3) false = Ok mfree /\
  add_wall_xy m0 [0; 2]%Z [1]%Z = Ok m1 /\ m_walls m1 = [0; 1; 0; 0; 1; 0; 0; 0; 1]%Q /\ add_wall_xy m1 [2; 5]%Z [0]%Z = Err ValueError /\
  reset_walls m1 = Ok m2 /\ m_sas m2 = m_sas mfree /\ m_sas m1 <> m_sas mfree.
Proof. do 4 eexists. split; [vm_compute; reflexivity|]. split; [vm_compute; reflexivity|]. split; [vm_compute; reflexivity|]. split; [vm_compute; reflexivity|]. split; [vm_compute; reflexivity|]. split; [vm_compute; reflexivity|]. split; [vm_compute; reflexivity|]. vm_compute. discriminate. Qed.

(** C18: an agent walks to a feature and consumes it; the reset puts both back. *)
Example C18_example : exists m m' e e1 e2, grid_mdp (A:=Q) Square [[0; 1; 0; 0]%Q] None (2, 2) false = Ok m /\
  make_env m [mkSpec "q"%string 1%Z None 3%Z [1; 0]%Q [0]%Z] = (m', Ok e) /\ m_features (e_mdp e) = [[0; 1; 0; 0]; [0; 0; 0; 1]]%Q /\
  run (vi_greedy (9 # 10) (1 # 100) 100)%Q e [OFit "q" None 0 0; OStep "q" 0] = e1 /\ m_features (e_mdp e1) = [[0; 0; 0; 0]; [0; 1; 0; 0]]%Q /\ map at_hist (e_agents e1) = [[3; 1]]%Z /\
  env_reset e1 = (e2, Ok tt) /\ m_features (e_mdp e2) = m_features (e_mdp e) /\ map at_hist (e_agents e2) = [[3]]%Z.
Proof. do 5 eexists. split; [vm_compute; reflexivity|]. split; [vm_compute; reflexivity|]. split; [vm_compute; reflexivity|]. split; [vm_compute; reflexivity|]. split; [vm_compute; reflexivity|]. split; [vm_compute; reflexivity|]. split; [vm_compute; reflexivity|]. vmr. Qed.

(** C26: of two states, nothing is known about the second, and the greedy selector flags it. *)
Example C26_example : let q := [[Fin 1; NInf]; [NaN; NaN]]%R in (forall row, In row q -> row <> [] /\ unmixed row) /\
  exists pi, get_pi (max_get_pi (fun _ => 0)) q = Ok pi /\ length pi = 2 /\ nth 1 pi 0%Z = (-1)%Z.
Proof.
  intros q. assert (H : forall row, In row q -> row <> [] /\ unmixed row). { intros row [<-|[<-|[]]]; (split; [discriminate|]); intros [X Y]; cbn in X, Y; intuition discriminate. }
  split; [exact H|]. destruct (C25_sampled_is_best (fun _ => 0) q) as (pi & E & L & _); [intros; now apply H|exists [Fin 1; NInf]%R; split; [now left|exists (Fin 1%R); split; [now left|discriminate]]|].
  exists pi. split; [exact E|]. split; [exact L|]. apply (C26_max_selector_partial _ _ _ H E 1); [cbn; lia|]. intros (v & Hv & N). cbn in Hv. intuition congruence.
Qed.

(** C51: a coin is tossed until the agent, which stays once it is in the second state, gets there. *)
Example C51_example : is_mdp coin_sas /\ let pi := [[1; 0]; [0; 1]]%R in let p0 := [1; 0]%R in length p0 = n_states coin_sas /\ (forall s a u, 0 <= prob coin_sas s a u)%R /\
  (forall s a, 0 <= get2 0 pi s a)%R /\ Forall (fun x => 0 <= x)%R p0 /\ (1 <= 2)%Z /\ state_visitation_iterator coin_sas 2 pi p0 = [3/2; 1/2]%R.
Proof.
  split; [apply C29_hypotheses|]. cbv zeta. split; [reflexivity|]. split.
  { intros s a u. unfold prob, coin_sas. destruct s as [|[|s]]; [| |destruct s]; cbn; (destruct a as [|[|a]]; [| |destruct a]); cbn; try lra; (destruct u as [|[|u]]; [| |destruct u]); cbn; lra. }
  split. { intros s a. unfold get2. destruct s as [|[|s]]; [| |destruct s]; cbn; (destruct a as [|[|a]]; [| |destruct a]); cbn; lra. }
  split; [repeat constructor; lra|]. split; [lia|]. unfold state_visitation_iterator. change (Z.to_nat 2) with 2. cbn. apply f_equal2; [field|apply f_equal2; [field|reflexivity]].
Qed.

(** C79: generalising over the six directions of a hex grid. *)
Example C79_example : exists v, kernel_reward (2/100)%R 6 1 = Ok v /\ (2/100 <> 0)%R /\ (1 < 6) /\ turns 6 2 1 < turns 6 4 1.
Proof. eexists. split; [reflexivity|]. split; [lra|]. split; [lia|]. vm_compute. lia. Qed.
