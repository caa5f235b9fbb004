(** C111: a fit that raises and the plan made before. *)
From Coq Require Import String List ZArith QArith Reals Bool Lia.
From Verif Require Import PyBase PyProofs GridModel MDPModel MDPProps ActionModel EnvModel EnvSpec EnvProofs EnvProofs2 EnvProofs3 EnvProps VIEnvProps MCTSModel MCTSFit MCTSRun.
Import ListNotations.
Local Close Scope Q_scope. Local Close Scope R_scope.
Local Open Scope nat_scope.

Lemma lookup_named : forall pl e nm a, reachable pl e -> agent_named e nm a -> lookup e nm = Ok a.
Proof.
  intros pl e nm a RE [Ha EN]. destruct (reachable_wf _ _ RE) as (k & shape & st & W). destruct (lookup_spec k shape st e nm W) as [(b & EL & Hb & EN')|(_ & X)].
  - rewrite EL. f_equal. eapply same_name_same; eauto; [apply (wf_names _ _ _ _ W)|congruence].
  - elim X. apply (wf_lookup _ _ _ _ W). rewrite <- EN. now apply in_map.
Qed.
Lemma reward_fits : forall pl e a, reachable pl e -> In a (e_agents e) -> length (at_reward a) = m_n_features (e_mdp e).
Proof. intros pl e a RE Ha. destruct (reachable_wf _ _ RE) as (k & shape & st & W). apply (wf_agents _ _ _ _ W a Ha). Qed.

(** Planning is [pl_fit]. If it raises, so does [fit], and with an algorithm that does not begin by discarding
    its result, nothing changes. *)
Theorem C111_kept_partial : forall pl e nm a n s s' x, reachable pl e -> agent_named e nm a -> pl_forgets pl nm = false -> pl_fit pl nm e n s = Err x ->
  env_fit pl e nm n s s' = (e, Err x).
Proof.
  intros pl e nm a n s s' x RE NA PF E. pose proof NA as [Ha EN]. unfold env_fit. rewrite (lookup_named _ _ _ _ RE NA). unfold alg_fit, failed_fit. rewrite (reward_fits _ _ _ RE Ha), Nat.eqb_refl, EN, E, PF. reflexivity.
Qed.
(** C216: a failed fit changes nothing if the algorithm does not discard its result first. *)
Theorem C216_kept : forall pl e nm a n s s' x, reachable pl e -> agent_named e nm a -> pl_forgets pl nm = false -> pl_fit pl nm e n s = Err x ->
  env_fit pl e nm n s s' = (e, Err x).
Proof. exact (@C111_kept_partial). Qed.
(** In particular with value iteration. *)
Theorem C111_value_iteration_partial : forall pl e nm a n s s' x, reachable pl e -> agent_named e nm a -> uses_vi pl nm -> pl_fit pl nm e n s = Err x ->
  env_fit pl e nm n s s' = (e, Err x).
Proof. intros pl e nm a n s s' x RE NA UV E. eapply C111_kept_partial; eauto. apply UV. Qed.
(** C216: value iteration is such an algorithm. *)
Theorem C216_value_iteration : forall pl e nm a n s s' x, reachable pl e -> agent_named e nm a -> uses_vi pl nm -> pl_fit pl nm e n s = Err x ->
  env_fit pl e nm n s s' = (e, Err x).
Proof. exact (@C111_value_iteration_partial). Qed.
(** With tree search, the agent has no plan afterwards: every step raises, and so do [step_proba] and
    [get_agent_pi], whatever was fitted before. *)
Theorem C111_tree_search_refuted : forall pl e nm a score cfg n s s' x, reachable pl e -> agent_named e nm a -> runs_mcts pl nm score cfg -> pl_fit pl nm e n s = Err x ->
  exists e', env_fit pl e nm n s s' = (e', Err x) /\ e_mdp e' = e_mdp e /\ get_agent_pi e' nm = Err AttributeError /\
    (forall r, env_step pl e' nm r = (e', Err AttributeError)) /\ (forall r, env_step_proba pl e' nm None r = (e', Err AttributeError)).
Proof.
  intros pl e nm a score cfg n s s' x RE NA RM E. pose proof NA as [Ha EN]. pose proof (lookup_named _ _ _ _ RE NA) as EL.
  exists (with_agent e (set_fit a None)).
  assert (EF : env_fit pl e nm n s s' = (with_agent e (set_fit a None), Err x)).
  { unfold env_fit. rewrite EL. unfold alg_fit, failed_fit. rewrite (reward_fits _ _ _ RE Ha), Nat.eqb_refl, EN, E, (proj1 RM). reflexivity. }
  assert (RE' : reachable pl (with_agent e (set_fit a None))). { change (reachable pl (fst (with_agent e (set_fit a None), Err (A:=unit) x))). rewrite <- EF. exact (reach_op pl e (OFit nm n s s') RE). }
  assert (NA' : agent_named (with_agent e (set_fit a None)) nm (set_fit a None)).
  { split; [|exact EN]. cbn [with_agent e_agents]. unfold put_agent. replace (existsb _ _) with true; [|symmetry; apply existsb_exists; exists a; split; [exact Ha|apply String.eqb_refl]].
    apply in_map_iff. exists a. split; [|exact Ha]. cbn [set_fit at_name]. now rewrite String.eqb_refl. }
  pose proof (lookup_named _ _ _ _ RE' NA') as EL'.
  assert (WW : with_agent (with_agent e (set_fit a None)) (set_fit a None) = with_agent e (set_fit a None)).
  { unfold with_agent. cbn [e_mdp e_names e_agents e_n_agents e_n_steps]. f_equal. destruct NA' as [IN _]. unfold put_agent at 1. replace (existsb _ _) with true; [|symmetry; apply existsb_exists; exists (set_fit a None); split; [exact IN|apply String.eqb_refl]].
    rewrite <- (map_id (put_agent _ _)) at 2. apply map_ext_in. intros b Hb. destruct (String.eqb_spec (at_name b) (at_name (set_fit a None))) as [X|]; [|reflexivity].
    destruct (reachable_wf _ _ RE') as (k & shape & st & W). eapply same_name_same; [apply (wf_names _ _ _ _ W)|exact IN|exact Hb|auto]. }
  split; [exact EF|]. split; [reflexivity|]. split.
  - unfold get_agent_pi. rewrite EL'. reflexivity.
  - split; intros.
    + unfold env_step. rewrite EL'. cbn [agent_step set_fit at_fit]. change (with_mdp (with_agent e (set_fit a None)) (e_mdp (with_agent e (set_fit a None)))) with (with_agent e (set_fit a None)). change (mkAttached _ _ _ _ _ _ _ None _ _ _ _ _) with (set_fit a None). now rewrite WW.
    + unfold env_step_proba. rewrite EL'. destruct (reachable_wf _ _ RE') as (k & shape & st & W). destruct (wf_agents _ _ _ _ W _ (proj1 NA')) as (_ & _ & _ & _ & (p & SP) & _).
      unfold agent_step_proba. unfold stands_on in SP. rewrite SP. cbn [bind]. rewrite upd_length. unfold zeros1. rewrite repeat_length, Nat.eqb_refl. cbn [negb set_fit at_fit]. change (mkAttached _ _ _ _ _ _ _ None _ _ _ _ _) with (set_fit a None). now rewrite WW.
Qed.
(** For example: the agent is fitted and can step; after a fit without a schedule, which raises, it cannot. *)
Example C111_example : exists m m' e e1 e2, grid_mdp (A:=Q) Square [[0; 1; 0; 0]%Q] None (2, 2) false = Ok m /\ make_env m [mkSpec "p"%string 1%Z None 0%Z [1; 0]%Q []] = (m', Ok e) /\
  let pl := mcts_greedy mean_score (ex_cfg false false (9 # 10) (1 # 100))%Q in
  env_fit pl e "p" (Some [[1]]%Z) 0 0 = (e1, Ok tt) /\ snd (env_step pl e1 "p" 0) = Ok 1%Z /\
  env_fit pl e1 "p" None 0 0 = (e2, Err TypeError) /\ snd (env_step pl e2 "p" 0) = Err AttributeError.
Proof. do 5 eexists. cbv zeta. split; [vm_compute; reflexivity|]. split; [vm_compute; reflexivity|]. split; [vm_compute; reflexivity|]. split; [vm_compute; reflexivity|]. split; vm_compute; reflexivity. Qed.
(** The hypotheses of the first theorem: an algorithm that needs a schedule and keeps its earlier result. *)
Definition needs_schedule {A} `{Num A} : plugins A :=
  mkPlugins (fun _ e n _ => match n with Some _ => null_fit e | None => Err TypeError end) (fun _ seed => max_get_pi (fun _ => seed)) (fun _ => max_get_pi_p) (fun _ => false).
Example C111_kept_example : exists m m' e e1, grid_mdp (A:=Q) Square [[0; 1; 0; 0]%Q] None (2, 2) false = Ok m /\ make_env m [mkSpec "p"%string 1%Z None 0%Z [1; 0]%Q []] = (m', Ok e) /\
  env_fit needs_schedule e "p" (Some [[1]]%Z) 0 0 = (e1, Ok tt) /\ e1 <> e /\ env_fit needs_schedule e1 "p" None 0 0 = (e1, Err TypeError) /\ snd (env_step needs_schedule e1 "p" 0) = Ok 1%Z.
Proof. do 4 eexists. split; [vm_compute; reflexivity|]. split; [vm_compute; reflexivity|]. split; [vm_compute; reflexivity|]. split; [discriminate|]. split; vm_compute; reflexivity. Qed.
