(** Auxiliary facts for assigning a reward function while an environment is in use. *)
From Coq Require Import String List ZArith QArith Reals Bool Lia Lra.
From Verif Require Import PyBase PyProofs GridModel GridSpec MDPModel MDPSpec MDPProofs MDPProofs2 MDPProofs3 MDPProofs4 MDPProps ActionModel EnvModel EnvSpec StepSpec EnvProofs EnvProofs2 EnvProofs3 EnvProofs4 EnvProofs5 EnvProps WorldModel WorldProofs WorldProofs2 QueryModel QuerySpec QueryProofs SetModel SetSpec SetProofs SetRewardSpec.
Import ListNotations.
Local Close Scope Q_scope.
Local Open Scope nat_scope.

Section Swap.
Context {A : Type} {NA : Num A} (nm : string) (w : list A).

(** Giving the agent named [nm] the reward function [w], wherever it is. *)
Definition sr (a : attached A) : attached A := if String.eqb (at_name a) nm then set_reward a w else a.
Definition sre (e : env A) : env A := mkEnv (e_mdp e) (e_names e) (map sr (e_agents e)) (e_n_agents e) (e_n_steps e).
Definition liftr {X} (r : env A * X) : env A * X := (sre (fst r), snd r).

Lemma sr_name : forall a, at_name (sr a) = at_name a. Proof. intros a. unfold sr. now destruct (String.eqb _ _). Qed.
Lemma sr_moves : forall a, at_n_moves (sr a) = at_n_moves a. Proof. intros a. unfold sr. now destruct (String.eqb _ _). Qed.
Lemma sr_consumes : forall a, at_consumes (sr a) = at_consumes a. Proof. intros a. unfold sr. now destruct (String.eqb _ _). Qed.
Lemma sr_consumed : forall a, at_consumed (sr a) = at_consumed a. Proof. intros a. unfold sr. now destruct (String.eqb _ _). Qed.
Lemma sr_idx : forall a, at_idx (sr a) = at_idx a. Proof. intros a. unfold sr. now destruct (String.eqb _ _). Qed.
Lemma sr_fidx : forall a, at_feature_idx (sr a) = at_feature_idx a. Proof. intros a. unfold sr. now destruct (String.eqb _ _). Qed.
Lemma sr_fit : forall a, at_fit (sr a) = at_fit a. Proof. intros a. unfold sr. now destruct (String.eqb _ _). Qed.
Lemma sr_start : forall a, at_start (sr a) = at_start a. Proof. intros a. unfold sr. now destruct (String.eqb _ _). Qed.
Lemma sr_pos : forall a, at_pos (sr a) = at_pos a. Proof. intros a. unfold sr. now destruct (String.eqb _ _). Qed.
Lemma sr_hist : forall a, at_hist (sr a) = at_hist a. Proof. intros a. unfold sr. now destruct (String.eqb _ _). Qed.
Lemma sr_pi : forall a, at_pi (sr a) = at_pi a. Proof. intros a. unfold sr. now destruct (String.eqb _ _). Qed.
Lemma sr_pi_p : forall a, at_pi_p (sr a) = at_pi_p a. Proof. intros a. unfold sr. now destruct (String.eqb _ _). Qed.
Lemma sr_set_policy : forall a x y, set_policy (sr a) x y = sr (set_policy a x y). Proof. intros a x y. unfold sr. cbn [set_policy at_name]. now destruct (String.eqb _ _). Qed.
Lemma sr_set_hist : forall a x, set_hist (sr a) x = sr (set_hist a x). Proof. intros a x. unfold sr. cbn [set_hist at_name]. now destruct (String.eqb _ _). Qed.
Lemma sr_set_pos : forall a x, set_pos_only (sr a) x = sr (set_pos_only a x). Proof. intros a x. unfold sr. cbn [set_pos_only at_name]. now destruct (String.eqb _ _). Qed.
Lemma sr_set_consumed : forall a x, set_consumed (sr a) x = sr (set_consumed a x). Proof. intros a x. unfold sr. cbn [set_consumed at_name]. now destruct (String.eqb _ _). Qed.
Lemma sr_set_fit : forall a x, set_fit (sr a) x = sr (set_fit a x). Proof. intros a x. unfold sr. cbn [set_fit at_name]. now destruct (String.eqb _ _). Qed.
Lemma sr_other : forall a, at_name a <> nm -> sr a = a.
Proof. intros a N. unfold sr. now destruct (String.eqb_spec (at_name a) nm). Qed.

Lemma find_sr : forall l nm', find_agent (map sr l) nm' = option_map sr (find_agent l nm').
Proof.
  induction l as [|a l IH]; intros nm'; [reflexivity|]. unfold find_agent in *. cbn [map find]. rewrite sr_name.
  destruct (String.eqb (at_name a) nm'); [reflexivity|apply IH].
Qed.
Lemma lookup_sr : forall e nm', lookup (sre e) nm' = match lookup e nm' with Ok a => Ok (sr a) | Err x => Err x end.
Proof.
  intros e nm'. unfold lookup. cbn [sre e_names e_agents]. destruct (existsb _ _); [|reflexivity]. rewrite find_sr.
  now destruct (find_agent _ _).
Qed.
Lemma put_sr : forall l a, put_agent (map sr l) (sr a) = map sr (put_agent l a).
Proof.
  intros l a. unfold put_agent. rewrite (existsb_map_ext sr _ (fun b => String.eqb (at_name b) (at_name a))) by (intros x; now rewrite !sr_name).
  destruct (existsb _ _).
  - rewrite !map_map. apply map_ext. intros b. rewrite !sr_name. now destruct (String.eqb (at_name b) (at_name a)).
  - now rewrite map_app.
Qed.
Lemma with_agent_sr : forall e a, with_agent (sre e) (sr a) = sre (with_agent e a).
Proof. intros e a. unfold with_agent, sre. cbn [e_mdp e_names e_agents e_n_agents e_n_steps]. now rewrite put_sr. Qed.
Lemma with_mdp_sr : forall e m, with_mdp (sre e) m = sre (with_mdp e m). Proof. reflexivity. Qed.
Lemma mdp_sr : forall e, e_mdp (sre e) = e_mdp e. Proof. reflexivity. Qed.
Lemma names_sr : forall e, e_names (sre e) = e_names e. Proof. reflexivity. Qed.
Lemma agents_sr : forall e, e_agents (sre e) = map sr (e_agents e). Proof. reflexivity. Qed.
Lemma tick_sr : forall e, tick (sre e) = sre (tick e). Proof. reflexivity. Qed.

Lemma same_sr : forall e, same_but_reward nm (sre e) e.
Proof.
  intros e. unfold same_but_reward. cbn [sre e_mdp e_names e_agents e_n_agents e_n_steps]. do 4 (split; [reflexivity|]).
  induction (e_agents e) as [|a l IH]; constructor; [|exact IH]. unfold sr. destruct (String.eqb_spec (at_name a) nm) as [E|]; [|now left]. right. now rewrite <- E.
Qed.

Context (pl : plugins A) (P_fit : forall nm' e n s, nm' <> nm -> pl_fit pl nm' (sre e) n s = pl_fit pl nm' e n s).

Lemma policy_sr : forall a s, get_policy pl (sr a) s = let '(a', r) := get_policy pl a s in (sr a', r).
Proof.
  intros a s. unfold get_policy. rewrite sr_fit, sr_name, sr_pi. destruct (at_fit a) as [[v q]|]; [|reflexivity].
  destruct (get_pi_p _ q); [|reflexivity]. rewrite sr_set_policy. destruct (get_pi _ q); [|reflexivity]. now rewrite sr_set_policy.
Qed.
Lemma fit_sr : forall e nm' n s s', nm' <> nm -> env_fit pl (sre e) nm' n s s' = liftr (env_fit pl e nm' n s s').
Proof.
  intros e nm' n s s' N. unfold env_fit, liftr. rewrite lookup_sr. destruct (lookup e nm') as [a|x] eqn:L; [|reflexivity].
  apply lookup_in in L. destruct L as [_ L].
  assert (SA : sr a = a) by (apply sr_other; congruence). rewrite SA.
  assert (AF : alg_fit pl (sre e) a n s = alg_fit pl e a n s) by (unfold alg_fit; rewrite mdp_sr; rewrite L; now rewrite P_fit by exact N).
  rewrite AF. destruct (alg_fit pl e a n s) as [v|x].
  - destruct (get_policy pl (set_fit a (Some v)) s') as [a' r] eqn:GP. cbn [fst snd]. apply policy_name in GP. cbn [set_fit at_name] in GP.
    rewrite <- with_agent_sr, (sr_other a'); [reflexivity|congruence].
  - cbn [fst snd]. f_equal. unfold failed_fit. rewrite mdp_sr. destruct (_ && _); [|reflexivity].
    rewrite <- with_agent_sr, sr_other; [reflexivity|]. cbn [set_fit at_name]. congruence.
Qed.
Lemma move_sr : forall m a p, move_agent m (sr a) p = let '(m', a', r) := move_agent m a p in (m', sr a', r).
Proof.
  intros m a p. unfold move_agent. destruct (_ <=? p)%Z; [reflexivity|]. rewrite sr_idx, sr_set_pos.
  now destruct (update_agent_feature m (at_idx a) p) as [m' [u|x]].
Qed.
Lemma astep_sr : forall m a s, agent_step pl m (sr a) s = let '(m', a', r) := agent_step pl m a s in (m', sr a', r).
Proof.
  intros m a s. unfold agent_step. rewrite sr_fit. destruct (at_fit a); [|reflexivity]. rewrite policy_sr. destruct (get_policy pl a s) as [a1 [u|x]]; [|reflexivity].
  rewrite sr_pi. destruct (at_pi a1) as [pi|]; [|reflexivity]. rewrite sr_pos. destruct (py_index _ _) as [i|x]; cbn [bind]; [|reflexivity].
  destruct (_ <? 0)%Z; [reflexivity|]. destruct (get_next_state _ _ _) as [t|x]; [|reflexivity]. rewrite move_sr. destruct (move_agent m a1 (Z.of_nat t)) as [[m2 a2] [v|x]]; [|reflexivity].
  rewrite sr_hist, sr_pos, sr_set_hist, sr_idx, sr_pos. now destruct (update_agent_feature m2 _ _) as [m3 [z|x]].
Qed.
Lemma consume_sr : forall e a, env_consume (sre e) (sr a) = liftr (env_consume e a).
Proof.
  intros e a. unfold env_consume, liftr. rewrite sr_consumes. destruct (at_consumes a) as [|z zs]; [reflexivity|]. rewrite mdp_sr, sr_pos.
  destruct (consume_features (e_mdp e) (z :: zs) (at_pos a)) as [m' [c|x]]; [|reflexivity]. rewrite sr_consumed.
  destruct (_ =? _); [|reflexivity]. cbn [fst snd]. f_equal. now rewrite sr_set_consumed, with_mdp_sr, with_agent_sr.
Qed.
Lemma step_sr : forall e nm' s, env_step pl (sre e) nm' s = liftr (env_step pl e nm' s).
Proof.
  intros e nm' s. unfold env_step, liftr. rewrite lookup_sr. destruct (lookup e nm') as [a|x] eqn:L; [|reflexivity]. rewrite mdp_sr, astep_sr.
  destruct (agent_step pl (e_mdp e) a s) as [[m1 a1] [u|x]]; rewrite with_mdp_sr, with_agent_sr; [|reflexivity]. rewrite consume_sr.
  destruct (env_consume _ a1) as [e2 [v|x]]; cbn [liftr fst snd]; [|reflexivity]. now rewrite sr_pos.
Qed.
Lemma proba_sr : forall e nm' p s, env_step_proba pl (sre e) nm' p s = liftr (env_step_proba pl e nm' p s).
Proof.
  intros e nm' p s. unfold env_step_proba, liftr. rewrite lookup_sr. destruct (lookup e nm') as [a|x] eqn:L; [|reflexivity]. rewrite mdp_sr.
  assert (X : agent_step_proba pl (e_mdp e) (sr a) p s = let '(a', r) := agent_step_proba pl (e_mdp e) a p s in (sr a', r)).
  { unfold agent_step_proba. rewrite sr_pos, sr_fit. destruct (match p with Some p0 => _ | None => _ end); [|reflexivity]. destruct (negb _); [reflexivity|]. destruct (at_fit a); [|reflexivity].
    rewrite policy_sr. destruct (get_policy pl a s) as [a1 [u|z]]; [|reflexivity]. rewrite sr_pi_p. now destruct (at_pi_p a1). }
  rewrite X. destruct (agent_step_proba pl (e_mdp e) a p s) as [a' [r|x]]; rewrite with_agent_sr; reflexivity.
Qed.
Lemma steps_sr : forall e nm', all_n_steps (sre e) nm' = all_n_steps e nm'.
Proof.
  intros e nm'. unfold all_n_steps. rewrite names_sr, agents_sr. generalize (nm' :: filter (fun n => negb (String.eqb n nm')) (e_names e)).
  induction l as [|x l IH]; [reflexivity|]. cbn [mapM]. rewrite IH, find_sr. destruct (find_agent _ x) as [a|]; [|reflexivity].
  cbn [option_map]. now rewrite sr_moves.
Qed.
Lemma caught_sr : forall e a, caught (sre e) (sr a) = caught e a.
Proof.
  intros e a. unfold caught. rewrite agents_sr, sr_consumes. induction (at_consumes a) as [|z l IH]; [reflexivity|]. cbn [existsb]. rewrite IH. f_equal.
  apply existsb_map_ext. intros b. now rewrite sr_fidx, !sr_pos.
Qed.
Lemma refit_sr : forall e nm' rf i t l p s s', (rf = true -> nm' <> nm) -> refit_step pl (sre e) nm' rf i t l p s s' = liftr (refit_step pl e nm' rf i t l p s s').
Proof.
  intros e nm' rf i t l p s s' N. unfold refit_step. destruct rf; [|reflexivity]. destruct (step_plan i t l p); [|reflexivity]. apply fit_sr. now apply N.
Qed.
Lemma loop_sr : forall nm' rf st t l p rnd todo i acc e, (rf = true -> nm' <> nm) ->
  multi_loop pl (sre e) nm' rf st t l p rnd i todo acc = liftr (multi_loop pl e nm' rf st t l p rnd i todo acc).
Proof.
  intros nm' rf st t l p rnd todo. induction todo as [|todo IH]; intros i acc e N; [reflexivity|]. cbn [multi_loop].
  rewrite refit_sr by exact N. destruct (refit_step pl e nm' rf i t l p _ _) as [e1 [u|x]]; [|reflexivity]. cbn [liftr fst snd].
  rewrite step_sr. destruct (env_step pl e1 nm' _) as [e2 [z|x]]; [|reflexivity]. cbn [liftr fst snd].
  replace (match find_agent (e_agents (sre e2)) nm' with Some a => caught (sre e2) a | None => false end)
     with (match find_agent (e_agents e2) nm' with Some a => caught e2 a | None => false end).
  2:{ rewrite agents_sr, find_sr. destruct (find_agent (e_agents e2) nm') as [a|] eqn:F; [|reflexivity]. cbn [option_map]. symmetry. apply caught_sr. }
  destruct (_ && st); [reflexivity|]. now apply IH.
Qed.
Lemma multi_sr : forall e nm' ns pln t rf st rnd, (rf = true -> nm' <> nm) ->
  step_multi pl (sre e) nm' ns pln t rf st rnd = liftr (step_multi pl e nm' ns pln t rf st rnd).
Proof.
  intros e nm' ns pln t rf st rnd N. unfold step_multi. rewrite lookup_sr. destruct (lookup e nm') as [a|x]; [|reflexivity].
  rewrite steps_sr. destruct (all_n_steps e nm') as [nas|x]; [|reflexivity]. rewrite agents_sr, map_length, sr_moves.
  destruct (negb (_ =? _)); [reflexivity|].
  destruct ns as [|n|[|n ns]|]; try reflexivity; (destruct (negb _); [reflexivity|]); now try apply loop_sr.
Qed.
Lemma position_sr : forall e nm' p, set_agent_position (sre e) nm' p = liftr (set_agent_position e nm' p).
Proof.
  intros e nm' p. unfold set_agent_position. rewrite lookup_sr. destruct (lookup e nm') as [a|x]; [|reflexivity]. rewrite mdp_sr, move_sr.
  destruct (move_agent (e_mdp e) a p) as [[m' a'] r]. unfold liftr. cbn [fst snd]. f_equal. rewrite with_mdp_sr; apply with_agent_sr.
Qed.
Lemma reset_agents_sr : forall l e, reset_agents (sre e) (map sr l) = liftr (reset_agents e l).
Proof.
  induction l as [|a l IH]; intros e; [reflexivity|]. cbn [map reset_agents]. rewrite sr_start, mdp_sr, move_sr.
  destruct (move_agent (e_mdp e) a (at_start a)) as [[m' a'] [u|x]]; [|reflexivity].
  rewrite sr_start, sr_set_policy, sr_set_hist, with_mdp_sr, with_agent_sr. apply IH.
Qed.
Lemma reset_sr : forall e, env_reset (sre e) = liftr (env_reset e).
Proof.
  intros e. unfold env_reset. rewrite agents_sr, reset_agents_sr.
  destruct (reset_agents e (e_agents e)) as [e1 [u|x]]; [|reflexivity]. cbn [liftr fst snd]. rewrite mdp_sr. now destruct (reset_mdp (e_mdp e1)).
Qed.
Lemma interactive_sr : forall e l n, step_multi_interactive (sre e) l n = liftr (step_multi_interactive e l n).
Proof.
  intros e l n. unfold step_multi_interactive. destruct n as [[|r rows]|]; try reflexivity. rewrite names_sr.
  set (names := match l with Some l0 => l0 | None => e_names e end).
  assert (X : match mapM (fun x => lookup (sre e) x) names with Ok _ => Ok tt | Err x => Err x end = match mapM (fun x => lookup e x) names with Ok _ => Ok tt | Err x => Err x end).
  { generalize names. clear. induction names as [|x names IH]; [reflexivity|]. cbn [mapM]. rewrite lookup_sr. destruct (lookup e x) as [a|z]; cbn [bind]; [|reflexivity].
    destruct (mapM (fun x0 => lookup (sre e) x0) names), (mapM (fun x0 => lookup e x0) names); cbn [bind]; congruence. }
  destruct (mapM (fun x => lookup (sre e) x) names), (mapM (fun x => lookup e x) names); try discriminate; [|now injection X as ->].
  now destruct (_ || _).
Qed.
Lemma op_sr : forall e o, not_planning nm o -> do_op pl (sre e) o = sre (do_op pl e o).
Proof.
  intros e o H. destruct o; cbn [do_op not_planning] in *.
  - now rewrite fit_sr.
  - now rewrite step_sr.
  - rewrite multi_sr; [reflexivity|]. intros ->. exact H.
  - now rewrite proba_sr.
  - now rewrite interactive_sr.
  - now rewrite position_sr.
  - rewrite mdp_sr. now destruct (set_walls (e_mdp e) walls).
  - now rewrite reset_sr.
Qed.
Lemma run_sr : forall ops e, Forall (not_planning nm) ops -> run pl (sre e) ops = sre (run pl e ops).
Proof.
  induction ops as [|o ops IH]; intros e F; [reflexivity|]. inversion F as [|? ? H F']. subst. cbn [run fold_left]. rewrite op_sr by exact H. now apply IH.
Qed.
End Swap.

(** Assigning a reward function, for agents with different names. *)
Lemma assign_reward_sr : forall {A} (e : env A) nm w, NoDup (map at_name (e_agents e)) -> fst (assign_reward e nm w) = sre nm w e.
Proof.
  intros A e nm w ND. unfold assign_reward, assign_attr. destruct (find_agent (e_agents e) nm) as [a|] eqn:F; cbn [fst].
  - apply find_in in F. destruct F as [F1 F2]. unfold with_agent, sre. f_equal. unfold put_agent. cbn [set_reward at_name]. 
    replace (existsb _ _) with true by (symmetry; apply existsb_exists; exists a; split; [exact F1|apply String.eqb_refl]).
    apply map_ext_in. intros b Hb. unfold sr. rewrite F2. destruct (String.eqb_spec (at_name b) nm) as [N|N]; [|reflexivity].
    assert (b = a); [|now subst]. clear - ND F1 Hb F2 N. induction (e_agents e) as [|c l IH]; [destruct Hb|]. cbn in ND. inversion ND as [|? ? NI ND']. subst.
    destruct F1 as [->|F1], Hb as [->|Hb]; auto; elim NI; [rewrite <- N|rewrite N]; now apply in_map.
  - destruct e as [m ns ags na k]. unfold sre. cbn in *. f_equal. rewrite <- (map_id ags) at 1. apply map_ext_in. intros b Hb. unfold sr.
    destruct (String.eqb_spec (at_name b) nm) as [N|N]; [|reflexivity]. exfalso. unfold find_agent in F. pose proof (find_none _ _ F b Hb) as X. cbn in X. rewrite N, String.eqb_refl in X. discriminate.
Qed.
