(** Auxiliary facts for assignments made while an environment is in use. *)
From Coq Require Import String List ZArith QArith Reals Bool Lia Lra.
From Verif Require Import PyBase PyProofs GridModel GridSpec MDPModel MDPSpec MDPProofs MDPProofs2 MDPProofs3 MDPProofs4 MDPProps ActionModel EnvModel EnvSpec StepSpec EnvProofs EnvProofs2 EnvProofs3 EnvProofs4 EnvProofs5 EnvProps WorldModel WorldProofs WorldProofs2 QueryModel QuerySpec QueryProofs SetModel SetSpec.
Import ListNotations.
Local Close Scope Q_scope.
Local Open Scope nat_scope.

Section Swap.
Context {A : Type} {NA : Num A} (nm : string) (f : option (fitted A)).

(** Giving the agent named [nm] the plan [f], wherever it is. *)
Definition sf (a : attached A) : attached A := if String.eqb (at_name a) nm then set_fit a f else a.
Definition sfe (e : env A) : env A := mkEnv (e_mdp e) (e_names e) (map sf (e_agents e)) (e_n_agents e) (e_n_steps e).

Lemma sf_name : forall a, at_name (sf a) = at_name a.
Proof. intros a. unfold sf. now destruct (String.eqb _ _). Qed.
Lemma sf_other : forall a, at_name a <> nm -> sf a = a.
Proof. intros a N. unfold sf. now destruct (String.eqb_spec (at_name a) nm). Qed.
Lemma find_sf : forall l nm', find_agent (map sf l) nm' = option_map sf (find_agent l nm').
Proof.
  induction l as [|a l IH]; intros nm'; [reflexivity|]. unfold find_agent in *. cbn [map find]. rewrite sf_name.
  destruct (String.eqb (at_name a) nm'); [reflexivity|apply IH].
Qed.
Lemma lookup_sf : forall e nm', lookup (sfe e) nm' = match lookup e nm' with Ok a => Ok (sf a) | Err x => Err x end.
Proof.
  intros e nm'. unfold lookup. cbn [sfe e_names e_agents]. destruct (existsb _ _); [|reflexivity]. rewrite find_sf.
  now destruct (find_agent _ _).
Qed.
Lemma lookup_sf_other : forall e nm', nm' <> nm -> lookup (sfe e) nm' = lookup e nm'.
Proof.
  intros e nm' N. rewrite lookup_sf. destruct (lookup e nm') as [a|] eqn:L; [|reflexivity]. rewrite sf_other; [reflexivity|].
  apply lookup_in in L. destruct L as [_ L]. congruence.
Qed.
Lemma existsb_map_ext : forall {X Y} (g : X -> Y) p q l, (forall x, p (g x) = q x) -> existsb p (map g l) = existsb q l.
Proof. intros X Y g p q l E. induction l as [|x l IH]; [reflexivity|]. cbn [map existsb]. now rewrite E, IH. Qed.
Lemma put_sf : forall l a, put_agent (map sf l) (sf a) = map sf (put_agent l a).
Proof.
  intros l a. unfold put_agent. rewrite (existsb_map_ext sf _ (fun b => String.eqb (at_name b) (at_name a))) by (intros x; now rewrite !sf_name).
  destruct (existsb _ _).
  - rewrite !map_map. apply map_ext. intros b. rewrite !sf_name. now destruct (String.eqb (at_name b) (at_name a)).
  - now rewrite map_app.
Qed.
Lemma with_agent_sf : forall e m a, with_agent (with_mdp (sfe e) m) (sf a) = sfe (with_agent (with_mdp e m) a).
Proof. intros e m a. unfold with_agent, sfe. cbn [with_mdp e_mdp e_names e_agents e_n_agents e_n_steps]. now rewrite put_sf. Qed.
Lemma with_agent_sf0 : forall e a, with_agent (sfe e) (sf a) = sfe (with_agent e a).
Proof. intros e a. unfold with_agent, sfe. cbn [e_mdp e_names e_agents e_n_agents e_n_steps]. now rewrite put_sf. Qed.
Lemma with_agent_other : forall e m a, at_name a <> nm -> with_agent (with_mdp (sfe e) m) a = sfe (with_agent (with_mdp e m) a).
Proof. intros e m a N. rewrite <- with_agent_sf. now rewrite (sf_other a) by exact N. Qed.
Lemma with_agent_other0 : forall e a, at_name a <> nm -> with_agent (sfe e) a = sfe (with_agent e a).
Proof. intros e a N. rewrite <- with_agent_sf0. now rewrite (sf_other a) by exact N. Qed.
Lemma with_mdp_sf : forall e m, with_mdp (sfe e) m = sfe (with_mdp e m). Proof. reflexivity. Qed.

Lemma same_sf : forall e, same_but_plans (sfe e) e.
Proof.
  intros e. unfold same_but_plans. cbn [sfe e_mdp e_names e_agents e_n_agents e_n_steps]. do 4 (split; [reflexivity|]).
  rewrite map_map. apply map_ext. intros a. unfold sf. now destruct (String.eqb _ _).
Qed.

(** ** Calls for other agents *)
Section Other.
Context (pl pl' : plugins A).
Context (P_fit : forall nm' e n s, nm' <> nm -> pl_fit pl' nm' (sfe e) n s = pl_fit pl nm' e n s).
Context (P_pi : pl_pi pl' = pl_pi pl) (P_pp : pl_pi_p pl' = pl_pi_p pl).
Context (P_fg : forall nm', nm' <> nm -> pl_forgets pl' nm' = pl_forgets pl nm').

Definition lift {X} (r : env A * X) : env A * X := (sfe (fst r), snd r).

Lemma policy_same : forall a s, get_policy pl' a s = get_policy pl a s.
Proof. intros a s. unfold get_policy. now rewrite P_pi, P_pp. Qed.
Lemma step_same : forall m a s, agent_step pl' m a s = agent_step pl m a s.
Proof. intros m a s. unfold agent_step. now rewrite policy_same. Qed.

Lemma fit_sf : forall e nm' n s s', nm' <> nm -> env_fit pl' (sfe e) nm' n s s' = lift (env_fit pl e nm' n s s').
Proof.
  intros e nm' n s s' N. unfold env_fit, lift. rewrite lookup_sf_other by exact N. destruct (lookup e nm') as [a|x] eqn:L; [|reflexivity].
  apply lookup_in in L. destruct L as [_ L].
  assert (AF : alg_fit pl' (sfe e) a n s = alg_fit pl e a n s) by (unfold alg_fit; cbn [sfe e_mdp]; rewrite L; now rewrite P_fit by exact N).
  rewrite AF. destruct (alg_fit pl e a n s) as [v|x].
  - rewrite policy_same. destruct (get_policy pl (set_fit a (Some v)) s') as [a' r] eqn:GP. cbn [fst snd].
    rewrite with_agent_other0; [reflexivity|]. apply policy_name in GP. rewrite GP. cbn [set_fit at_name]. congruence.
  - cbn [fst snd]. f_equal. unfold failed_fit. cbn [sfe e_mdp]. rewrite L, P_fg by exact N. destruct (_ && _); [|reflexivity].
    apply with_agent_other0. cbn [set_fit at_name]. congruence.
Qed.

Lemma consume_sf : forall e a, at_name a <> nm -> env_consume (sfe e) a = lift (env_consume e a).
Proof.
  intros e a N. unfold env_consume, lift. destruct (at_consumes a) as [|z zs]; [reflexivity|]. cbn [sfe e_mdp].
  destruct (consume_features (e_mdp e) (z :: zs) (at_pos a)) as [m' [c|x]]; [|reflexivity].
  destruct (_ =? _); [|reflexivity]. cbn [fst snd]. f_equal. change (with_agent (with_mdp (sfe e) m') (set_consumed a (map (fun '(x, y) => x + y) (combine (at_consumed a) c))) = sfe (with_agent (with_mdp e m') (set_consumed a (map (fun '(x, y) => x + y) (combine (at_consumed a) c))))).
  apply with_agent_other. exact N.
Qed.

Lemma step_sf : forall e nm' s, nm' <> nm -> env_step pl' (sfe e) nm' s = lift (env_step pl e nm' s).
Proof.
  intros e nm' s N. unfold env_step, lift. rewrite lookup_sf_other by exact N. destruct (lookup e nm') as [a|x] eqn:L; [|reflexivity].
  apply lookup_in in L. destruct L as [_ L]. cbn [sfe e_mdp]. rewrite step_same.
  destruct (agent_step pl (e_mdp e) a s) as [[m1 a1] r] eqn:ST. apply step_name in ST. assert (N1 : at_name a1 <> nm) by congruence.
  change (mkEnv (e_mdp e) (e_names e) (map sf (e_agents e)) (e_n_agents e) (e_n_steps e)) with (sfe e). rewrite with_agent_other by exact N1.
  destruct r as [u|x]; [|reflexivity]. rewrite consume_sf by exact N1. destruct (env_consume _ a1) as [e2 [v|x]]; reflexivity.
Qed.

Lemma proba_sf : forall e nm' p s, nm' <> nm -> env_step_proba pl' (sfe e) nm' p s = lift (env_step_proba pl e nm' p s).
Proof.
  intros e nm' p s N. unfold env_step_proba, lift. rewrite lookup_sf_other by exact N. destruct (lookup e nm') as [a|x] eqn:L; [|reflexivity].
  apply lookup_in in L. destruct L as [_ L]. cbn [sfe e_mdp].
  assert (X : agent_step_proba pl' (e_mdp e) a p s = agent_step_proba pl (e_mdp e) a p s) by (unfold agent_step_proba; now rewrite policy_same). rewrite X.
  assert (Y : at_name (fst (agent_step_proba pl (e_mdp e) a p s)) = at_name a).
  { unfold agent_step_proba. destruct (match p with Some p0 => _ | None => _ end); [|reflexivity]. destruct (negb _); [reflexivity|]. destruct (at_fit a); [|reflexivity].
    destruct (get_policy pl a s) as [a1 [u|z]] eqn:GP; apply policy_name in GP; [|exact GP]. now destruct (at_pi_p a1). }
  destruct (agent_step_proba pl (e_mdp e) a p s) as [a' r]. cbn [fst] in Y.
  change (mkEnv (e_mdp e) (e_names e) (map sf (e_agents e)) (e_n_agents e) (e_n_steps e)) with (sfe e). rewrite with_agent_other0 by congruence. now destruct r.
Qed.

Lemma steps_sf : forall e nm', all_n_steps (sfe e) nm' = all_n_steps e nm'.
Proof.
  intros e nm'. unfold all_n_steps. cbn [sfe e_agents e_names]. generalize (nm' :: filter (fun n => negb (String.eqb n nm')) (e_names e)).
  induction l as [|x l IH]; [reflexivity|]. cbn [mapM]. rewrite IH, find_sf. destruct (find_agent _ x) as [a|]; [|reflexivity].
  cbn [option_map]. unfold sf. now destruct (String.eqb _ _).
Qed.

Lemma caught_sf : forall e a, caught (sfe e) a = caught e a.
Proof.
  intros e a. unfold caught. cbn [sfe e_agents]. induction (at_consumes a) as [|z l IH]; [reflexivity|]. cbn [existsb]. rewrite IH. f_equal.
  apply existsb_map_ext. intros b. unfold sf. now destruct (String.eqb _ _).
Qed.

Lemma refit_sf : forall e nm' rf i t l p s s', nm' <> nm -> refit_step pl' (sfe e) nm' rf i t l p s s' = lift (refit_step pl e nm' rf i t l p s s').
Proof.
  intros e nm' rf i t l p s s' N. unfold refit_step. destruct rf; [|reflexivity]. destruct (step_plan i t l p); [|reflexivity]. now apply fit_sf.
Qed.

Lemma loop_sf : forall nm' rf st t l p rnd todo i acc e, nm' <> nm ->
  multi_loop pl' (sfe e) nm' rf st t l p rnd i todo acc = lift (multi_loop pl e nm' rf st t l p rnd i todo acc).
Proof.
  intros nm' rf st t l p rnd todo. induction todo as [|todo IH]; intros i acc e N; [reflexivity|]. cbn [multi_loop].
  rewrite refit_sf by exact N. destruct (refit_step pl e nm' rf i t l p _ _) as [e1 [u|x]]; [|reflexivity]. cbn [lift fst snd].
  rewrite step_sf by exact N. destruct (env_step pl e1 nm' _) as [e2 [z|x]]; [|reflexivity]. cbn [lift fst snd].
  replace (match find_agent (e_agents (sfe e2)) nm' with Some a => caught (sfe e2) a | None => false end)
     with (match find_agent (e_agents e2) nm' with Some a => caught e2 a | None => false end).
  2:{ cbn [sfe e_agents]. rewrite find_sf. destruct (find_agent (e_agents e2) nm') as [a|] eqn:F; [|reflexivity]. cbn [option_map].
      rewrite sf_other; [symmetry; apply caught_sf|]. apply find_in in F. destruct F as [_ F]. congruence. }
  destruct (_ && st); [reflexivity|]. now apply IH.
Qed.

Lemma multi_sf : forall e nm' ns pln t rf st rnd, nm' <> nm ->
  step_multi pl' (sfe e) nm' ns pln t rf st rnd = lift (step_multi pl e nm' ns pln t rf st rnd).
Proof.
  intros e nm' ns pln t rf st rnd N. unfold step_multi. rewrite lookup_sf_other by exact N. destruct (lookup e nm') as [a|x]; [|reflexivity].
  rewrite steps_sf. destruct (all_n_steps e nm') as [nas|x]; [|reflexivity]. cbn [sfe e_agents]. rewrite map_length.
  change (mkEnv (e_mdp e) (e_names e) (map sf (e_agents e)) (e_n_agents e) (e_n_steps e)) with (sfe e).
  destruct (negb (_ =? _)); [reflexivity|].
  destruct ns as [|n|[|n ns]|]; try reflexivity; (destruct (negb _); [reflexivity|]); now try apply loop_sf.
Qed.

Lemma move_sf : forall m a p, move_agent m (sf a) p = let '(m', a', r) := move_agent m a p in (m', sf a', r).
Proof.
  intros m a p. unfold move_agent. destruct (_ <=? p)%Z; [reflexivity|].
  replace (at_idx (sf a)) with (at_idx a) by (unfold sf; now destruct (String.eqb _ _)).
  destruct (update_agent_feature m (at_idx a) p) as [m' [u|x]]; [|reflexivity]. f_equal. f_equal. unfold sf. cbn [set_pos_only at_name]. now destruct (String.eqb _ _).
Qed.
Lemma position_sf : forall e nm' p, set_agent_position (sfe e) nm' p = lift (set_agent_position e nm' p).
Proof.
  intros e nm' p. unfold set_agent_position. rewrite lookup_sf. destruct (lookup e nm') as [a|x]; [|reflexivity]. cbn [sfe e_mdp]. rewrite move_sf.
  destruct (move_agent (e_mdp e) a p) as [[m' a'] r]. unfold lift. cbn [fst snd]. f_equal. apply with_agent_sf.
Qed.

Lemma reset_agents_sf : forall l e, reset_agents (sfe e) (map sf l) = lift (reset_agents e l).
Proof.
  induction l as [|a l IH]; intros e; [reflexivity|]. cbn [map reset_agents]. replace (at_start (sf a)) with (at_start a) by (unfold sf; now destruct (String.eqb _ _)).
  cbn [sfe e_mdp]. rewrite move_sf. destruct (move_agent (e_mdp e) a (at_start a)) as [[m' a'] [u|x]]; [|reflexivity].
  change (mkEnv (e_mdp e) (e_names e) (map sf (e_agents e)) (e_n_agents e) (e_n_steps e)) with (sfe e).
  replace (set_hist (set_policy (sf a') None None) [at_start (sf a')]) with (sf (set_hist (set_policy a' None None) [at_start a'])).
  - rewrite with_agent_sf. apply IH.
  - unfold sf. cbn [set_hist set_policy at_name]. now destruct (String.eqb _ _).
Qed.
Lemma reset_sf : forall e, env_reset (sfe e) = lift (env_reset e).
Proof.
  intros e. unfold env_reset. replace (e_agents (sfe e)) with (map sf (e_agents e)) by reflexivity. rewrite reset_agents_sf.
  destruct (reset_agents e (e_agents e)) as [e1 [u|x]]; [|reflexivity]. cbn [lift fst snd]. replace (e_mdp (sfe e1)) with (e_mdp e1) by reflexivity. now destruct (reset_mdp (e_mdp e1)).
Qed.
Lemma interactive_sf : forall e l n, step_multi_interactive (sfe e) l n = lift (step_multi_interactive e l n).
Proof.
  intros e l n. unfold step_multi_interactive. destruct n as [[|r rows]|]; try reflexivity. cbn [sfe e_names].
  change (mkEnv (e_mdp e) (e_names e) (map sf (e_agents e)) (e_n_agents e) (e_n_steps e)) with (sfe e).
  set (names := match l with Some l0 => l0 | None => e_names e end).
  assert (X : match mapM (fun x => lookup (sfe e) x) names with Ok _ => Ok tt | Err x => Err x end = match mapM (fun x => lookup e x) names with Ok _ => Ok tt | Err x => Err x end).
  { generalize names. clear. induction names as [|x names IH]; [reflexivity|]. cbn [mapM]. rewrite lookup_sf. destruct (lookup e x) as [a|z]; cbn [bind]; [|reflexivity].
    destruct (mapM (fun x0 => lookup (sfe e) x0) names), (mapM (fun x0 => lookup e x0) names); cbn [bind]; congruence. }
  destruct (mapM (fun x => lookup (sfe e) x) names), (mapM (fun x => lookup e x) names); try discriminate; [|now injection X as ->].
  now destruct (_ || _).
Qed.

Lemma op_sf : forall e o, not_acting nm o -> do_op pl' (sfe e) o = sfe (do_op pl e o).
Proof.
  intros e o H. destruct o; cbn [do_op not_acting] in *.
  - now rewrite fit_sf.
  - now rewrite step_sf.
  - now rewrite multi_sf.
  - now rewrite proba_sf.
  - now rewrite interactive_sf.
  - now rewrite position_sf.
  - cbn [sfe e_mdp]. now destruct (set_walls (e_mdp e) walls).
  - now rewrite reset_sf.
Qed.
Lemma run_sf : forall ops e, Forall (not_acting nm) ops -> run pl' (sfe e) ops = sfe (run pl e ops).
Proof.
  induction ops as [|o ops IH]; intros e F; [reflexivity|]. inversion F as [|? ? H F']. subst. cbn [run fold_left]. rewrite op_sf by exact H. now apply IH.
Qed.
End Other.
End Swap.

(** Assigning an algorithm, for agents with different names. *)
Lemma set_algorithm_sf : forall {A} (e : env A) nm f, NoDup (map at_name (e_agents e)) -> fst (set_algorithm e nm f) = sfe nm f e.
Proof.
  intros A e nm f ND. unfold set_algorithm. destruct (find_agent (e_agents e) nm) as [a|] eqn:F; cbn [fst].
  - apply find_in in F. destruct F as [F1 F2]. unfold with_agent, sfe. f_equal. unfold put_agent. cbn [set_fit at_name]. 
    replace (existsb _ _) with true by (symmetry; apply existsb_exists; exists a; split; [exact F1|apply String.eqb_refl]).
    apply map_ext_in. intros b Hb. unfold sf. rewrite F2. destruct (String.eqb_spec (at_name b) nm) as [N|N]; [|reflexivity].
    assert (b = a); [|now subst]. clear - ND F1 Hb F2 N. induction (e_agents e) as [|c l IH]; [destruct Hb|]. cbn in ND. inversion ND as [|? ? NI ND']. subst.
    destruct F1 as [->|F1], Hb as [->|Hb]; auto; elim NI; [rewrite <- N|rewrite N]; now apply in_map.
  - destruct e as [m ns ags na k]. unfold sfe. cbn in *. f_equal. rewrite <- (map_id ags) at 1. apply map_ext_in. intros b Hb. unfold sf.
    destruct (String.eqb_spec (at_name b) nm) as [N|N]; [|reflexivity]. exfalso. unfold find_agent in F. pose proof (find_none _ _ F b Hb) as X. cbn in X. rewrite N, String.eqb_refl in X. discriminate.
Qed.
