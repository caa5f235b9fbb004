(** Lemmas about worlds of several objects: names and numbers of agents are fixed, who owns which array. *)
From Coq Require Import String List ZArith Bool Lia.
From Verif Require Import PyBase PyProofs GridModel MDPModel ActionModel EnvModel WorldModel.
Import ListNotations.
Local Open Scope nat_scope.

Section World.
Context {A : Type} {NA : Num A}.
Implicit Types (e : env A) (a : attached A) (w : world A) (pl : plugins A).

Definition names e : list string := map at_name (e_agents e).

Lemma put_names : forall (l : list (attached A)) a, In (at_name a) (map at_name l) -> map at_name (put_agent l a) = map at_name l.
Proof.
  intros l a H. unfold put_agent. replace (existsb (fun b => String.eqb (at_name b) (at_name a)) l) with true.
  - rewrite map_map. apply map_ext. intros b. destruct (String.eqb_spec (at_name b) (at_name a)); auto.
  - symmetry. apply existsb_exists. apply in_map_iff in H. destruct H as (b & E & Hb). exists b. split; [exact Hb|]. now apply String.eqb_eq.
Qed.
Lemma find_in : forall (l : list (attached A)) nm a, find_agent l nm = Some a -> In a l /\ at_name a = nm.
Proof. intros l nm a H. apply find_some in H. destruct H as [H1 H2]. now apply String.eqb_eq in H2. Qed.
Lemma lookup_in : forall e nm a, lookup e nm = Ok a -> In a (e_agents e) /\ at_name a = nm.
Proof. intros e nm a H. unfold lookup in H. destruct (existsb _ _); [|discriminate]. destruct (find_agent _ _) eqn:F; [|discriminate]. inversion H. subst. now apply find_in. Qed.
Lemma with_names : forall e a a', In a (e_agents e) -> at_name a' = at_name a -> names (with_agent e a') = names e.
Proof. intros e a a' H E. unfold names. cbn [with_agent e_agents]. apply put_names. rewrite E. now apply in_map. Qed.

Lemma policy_name : forall pl a s a' r, get_policy pl a s = (a', r) -> at_name a' = at_name a.
Proof.
  intros pl a s a' r H. unfold get_policy in H. destruct (at_fit a) as [[v q]|]; [|now inversion H].
  destruct (get_pi_p _ q); [|now inversion H]. destruct (get_pi _ q); now inversion H.
Qed.
Lemma move_name : forall (m : mdp A) a p m' a' r, move_agent m a p = (m', a', r) -> at_name a' = at_name a.
Proof.
  intros m a p m' a' r H. unfold move_agent in H. destruct (_ <=? _)%Z; [now inversion H|]. destruct (update_agent_feature _ _ _) as [m1 [?|?]]; now inversion H.
Qed.
Lemma step_name : forall pl (m : mdp A) a s m' a' r, agent_step pl m a s = (m', a', r) -> at_name a' = at_name a.
Proof.
  intros pl m a s m' a' r H. unfold agent_step in H. destruct (at_fit a); [|now inversion H].
  destruct (get_policy pl a s) as [a1 [[]|x]] eqn:GP; apply policy_name in GP; [|inversion H; subst; auto].
  destruct (at_pi a1); [|inversion H; subst; auto].
  destruct (let* i := py_index _ _ in _); [|inversion H; subst; auto].
  destruct (_ <? _)%Z; [inversion H; subst; auto|]. destruct (get_next_state _ _ _); [|inversion H; subst; auto].
  destruct (move_agent m a1 _) as [[m2 ag2] [?|?]] eqn:MV; apply move_name in MV; [|inversion H; subst; congruence].
  destruct (update_agent_feature _ _ _) as [m3 [?|?]]; inversion H; subst; cbn; congruence.
Qed.
Lemma consume_names : forall e a, In a (e_agents e) -> names (fst (env_consume e a)) = names e.
Proof.
  intros e a H. unfold env_consume. destruct (at_consumes a); [reflexivity|]. destruct (consume_features _ _ _) as [m' [c|x]]; [|reflexivity].
  destruct (_ =? _); [|reflexivity]. cbn [fst]. apply (with_names (with_mdp e m') a); auto.
Qed.
Lemma fit_names : forall pl e nm n s s', names (fst (env_fit pl e nm n s s')) = names e.
Proof.
  intros pl e nm n s s'. unfold env_fit. destruct (lookup e nm) as [a|] eqn:EL; [|reflexivity]. apply lookup_in in EL. destruct EL as [Ha _].
  destruct (alg_fit pl e a n s) as [f|x].
  - destruct (get_policy pl (set_fit a (Some f)) s') as [a' r] eqn:GP. apply policy_name in GP. cbn [fst]. now apply (with_names e a).
  - unfold failed_fit. destruct (_ && _); [|reflexivity]. now apply (with_names e a).
Qed.
Lemma step_names : forall pl e nm s, names (fst (env_step pl e nm s)) = names e.
Proof.
  intros pl e nm s. unfold env_step. destruct (lookup e nm) as [a|] eqn:EL; [|reflexivity]. apply lookup_in in EL. destruct EL as [Ha _].
  destruct (agent_step pl (e_mdp e) a s) as [[m1 a1] [[]|x]] eqn:ES; apply step_name in ES.
  - assert (N1 : names (with_agent (with_mdp e m1) a1) = names e) by (apply (with_names (with_mdp e m1) a); auto).
    assert (H1 : In (at_name a1) (names (with_agent (with_mdp e m1) a1))) by (rewrite N1, ES; now apply in_map).
    destruct (env_consume (with_agent (with_mdp e m1) a1) a1) as [e2 r] eqn:EC.
    assert (N2 : names e2 = names e).
    { rewrite <- N1. unfold env_consume in EC. destruct (at_consumes a1); [now inversion EC|]. destruct (consume_features _ _ _) as [m' [c|x]]; [|now inversion EC].
      destruct (_ =? _); [|now inversion EC]. inversion EC. unfold names in *. cbn [with_agent with_mdp e_agents]. apply put_names. exact H1. }
    destruct r as [[]|x]; exact N2.
  - cbn [fst]. apply (with_names (with_mdp e m1) a); auto.
Qed.
Lemma proba_names : forall pl e nm p s, names (fst (env_step_proba pl e nm p s)) = names e.
Proof.
  intros pl e nm p s. unfold env_step_proba. destruct (lookup e nm) as [a|] eqn:EL; [|reflexivity]. apply lookup_in in EL. destruct EL as [Ha _].
  destruct (agent_step_proba pl (e_mdp e) a p s) as [a' r] eqn:E.
  assert (K : at_name a' = at_name a).
  { unfold agent_step_proba in E. destruct (match p with Some p0 => _ | None => _ end); [|now inversion E]. destruct (negb _); [now inversion E|]. destruct (at_fit a); [|now inversion E].
    destruct (get_policy pl a s) as [a1 [[]|x]] eqn:GP; apply policy_name in GP; [|inversion E; subst; auto]. destruct (at_pi_p a1); inversion E; subst; auto. }
  destruct r; apply (with_names e a); auto.
Qed.
Lemma loop_names : forall pl nm rf st nt nas plan rnd todo e i acc, names (fst (multi_loop pl e nm rf st nt nas plan rnd i todo acc)) = names e.
Proof.
  intros pl nm rf st nt nas plan rnd. induction todo as [|todo IH]; intros e i acc; cbn [multi_loop]; [reflexivity|].
  destruct (refit_step pl e nm rf i nt nas plan _ _) as [e1 r1] eqn:ER.
  assert (N1 : names e1 = names e).
  { unfold refit_step in ER. destruct rf; [|now inversion ER]. destruct (step_plan _ _ _ _); [|now inversion ER]. pose proof (fit_names pl e nm (Some a) (rnd (3 * i)) (rnd (3 * i + 1))) as F. now rewrite ER in F. }
  destruct r1 as [[]|x]; [|exact N1]. destruct (env_step pl e1 nm (rnd (3 * i + 2))) as [e2 r2] eqn:ES. pose proof (step_names pl e1 nm (rnd (3 * i + 2))) as N2. rewrite ES in N2. cbn [fst] in N2.
  destruct r2 as [p|x]; [|cbn [fst]; congruence]. destruct (_ && st); [cbn [fst]; congruence|]. rewrite IH. congruence.
Qed.
Lemma reset_agents_names : forall l e, incl l (e_agents e) \/ incl (map at_name l) (names e) -> names (fst (reset_agents e l)) = names e.
Proof.
  induction l as [|a l IH]; intros e H; [reflexivity|]. assert (H' : incl (map at_name (a :: l)) (names e)) by (destruct H as [H|H]; [now apply incl_map|exact H]). clear H.
  cbn [reset_agents]. destruct (move_agent (e_mdp e) a (at_start a)) as [[m' a'] [u|x]] eqn:MV; [|reflexivity]. apply move_name in MV.
  assert (N : names (with_agent (with_mdp e m') (set_hist (set_policy a' None None) [at_start a'])) = names e).
  { unfold names. cbn [with_agent with_mdp e_agents]. apply put_names. cbn. rewrite MV. apply H'. now left. }
  rewrite IH; [exact N|]. right. rewrite N. intros x Hx. apply H'. now right.
Qed.
Lemma op_names : forall pl e o, names (do_op pl e o) = names e.
Proof.
  intros pl e o. destruct o; cbn [do_op].
  - apply fit_names.
  - apply step_names.
  - unfold step_multi. destruct (lookup e name); [|reflexivity]. destruct (all_n_steps e name); [|reflexivity]. destruct (negb _); [reflexivity|].
    destruct n_steps as [|z|[|z l0]|]; try reflexivity; destruct (negb _); try reflexivity; apply loop_names.
  - apply proba_names.
  - unfold step_multi_interactive. destruct n_moves as [[|row0 rows]|]; try reflexivity. destruct (mapM _ _); [|reflexivity]. destruct (_ || _); reflexivity.
  - unfold set_agent_position. destruct (lookup e name) as [a|] eqn:EL; [|reflexivity]. apply lookup_in in EL. destruct EL as [Ha _].
    destruct (move_agent (e_mdp e) a p) as [[m' a'] r] eqn:MV. apply move_name in MV. cbn [fst]. apply (with_names (with_mdp e m') a); auto.
  - destruct (set_walls _ _); reflexivity.
  - unfold env_reset. pose proof (reset_agents_names (e_agents e) e (or_introl (incl_refl _))) as N. destruct (reset_agents e (e_agents e)) as [e1 [[]|x]]; cbn [fst] in *; [|exact N].
    destruct (reset_mdp (e_mdp e1)); exact N.
Qed.

(** Without agents nothing happens to the MDP except through walls. *)
Lemma op_no_agents : forall pl e o, e_agents e = [] -> m_features (e_mdp (do_op pl e o)) = m_features (e_mdp e) \/ o = OReset.
Proof.
  intros pl e o H. assert (L : forall nm, exists x, lookup e nm = Err x). { intros nm. unfold lookup. rewrite H. destruct (existsb _ _); cbn; eauto. }
  destruct o; cbn [do_op]; auto; left.
  - unfold env_fit. destruct (L name) as (x & ->). reflexivity.
  - unfold env_step. destruct (L name) as (x & ->). reflexivity.
  - unfold step_multi. destruct (L name) as (x & ->). reflexivity.
  - unfold env_step_proba. destruct (L name) as (x & ->). reflexivity.
  - unfold step_multi_interactive. destruct n_moves as [[|row0 rows]|]; try reflexivity. destruct (mapM _ _); [|reflexivity]. destruct (_ || _); reflexivity.
  - unfold set_agent_position. destruct (L name) as (x & ->). reflexivity.
  - destruct (set_walls (e_mdp e) walls) as [m|] eqn:E; [|reflexivity]. cbn [with_mdp e_mdp]. unfold set_walls in E. destruct (m_shape (e_mdp e)) as [[? ?]|]; [|discriminate].
    destruct (negb _); [discriminate|]. destruct (negb _); [discriminate|]. apply bind_ok in E. destruct E as (m1 & E1 & E). inversion E. cbn. unfold set_sas in E1. destruct (negb _); [discriminate|].
    destruct (entries3 _); [discriminate|]. destruct (existsb _ _); [discriminate|]. now inversion E1.
Qed.

(** Walls change the walls and the transitions only. *)
Lemma set_walls_keeps : forall (m m' : mdp A) l, set_walls m l = Ok m' -> m_features m' = m_features m /\ m_walls m' = l.
Proof.
  intros m m' l E. unfold set_walls in E. destruct (m_shape m) as [[? ?]|]; [|discriminate].
  destruct (negb _); [discriminate|]. destruct (negb _); [discriminate|]. apply bind_ok in E. destruct E as (m1 & E1 & E). inversion E. cbn. unfold set_sas in E1. destruct (negb _); [discriminate|].
  destruct (entries3 _); [discriminate|]. destruct (existsb _ _); [discriminate|]. now inversion E1.
Qed.

(** No call except assigning walls changes the walls. *)
Lemma uaf_walls : forall (m m' : mdp A) i p r, update_agent_feature m i p = (m', r) -> m_walls m' = m_walls m.
Proof. intros m m' i p r H. unfold update_agent_feature in H. destruct (py_index _ _); [|now inversion H]. destruct (py_index (m_n_states m) p); now inversion H. Qed.
Lemma move_walls : forall (m m' : mdp A) a p a' r, move_agent m a p = (m', a', r) -> m_walls m' = m_walls m.
Proof. intros m m' a p a' r H. unfold move_agent in H. destruct (_ <=? _)%Z; [now inversion H|]. destruct (update_agent_feature _ _ _) as [m1 [?|?]] eqn:E; apply uaf_walls in E; inversion H; subst; auto. Qed.
Lemma consume_walls : forall idx s (m m' : mdp A) c r, consume_loop idx s m c = (m', r) -> m_walls m' = m_walls m.
Proof.
  induction idx as [|f idx IH]; intros s m m' c r H; cbn [consume_loop] in H; [now inversion H|].
  destruct (py_index _ f); [|now inversion H]. destruct (py_index (m_n_states m) s); [|now inversion H]. destruct (nltb _ _); [|now apply IH in H].
  destruct (py_index (length c) f); [|now inversion H]. apply IH in H. exact H.
Qed.
Lemma agent_step_walls : forall pl (m m' : mdp A) a s a' r, agent_step pl m a s = (m', a', r) -> m_walls m' = m_walls m.
Proof.
  intros pl m m' a s a' r H. unfold agent_step in H. destruct (at_fit a); [|now inversion H]. destruct (get_policy pl a s) as [a1 [[]|x]]; [|now inversion H].
  destruct (at_pi a1); [|now inversion H]. destruct (let* i := py_index _ _ in _); [|now inversion H]. destruct (_ <? _)%Z; [now inversion H|]. destruct (get_next_state _ _ _); [|now inversion H].
  destruct (move_agent m a1 _) as [[m2 ag2] [?|?]] eqn:MV; apply move_walls in MV; [|inversion H; subst; auto].
  destruct (update_agent_feature _ _ _) as [m3 [?|?]] eqn:U; apply uaf_walls in U; inversion H; subst; congruence.
Qed.
Definition walls_of e := m_walls (e_mdp e).
Lemma fit_walls : forall pl e nm n s s', walls_of (fst (env_fit pl e nm n s s')) = walls_of e.
Proof.
  intros. unfold env_fit. destruct (lookup _ _); [|reflexivity]. destruct (alg_fit _ _ _ _ _); [destruct (get_policy _ _ _); reflexivity|]. unfold failed_fit. destruct (_ && _); reflexivity.
Qed.
Lemma step_walls : forall pl e nm s, walls_of (fst (env_step pl e nm s)) = walls_of e.
Proof.
  intros pl e nm s. unfold env_step. destruct (lookup _ _) as [a|]; [|reflexivity]. destruct (agent_step pl (e_mdp e) a s) as [[m1 a1] [[]|x]] eqn:ES; apply agent_step_walls in ES; [|exact ES].
  destruct (env_consume _ a1) as [e2 r] eqn:EC. assert (walls_of e2 = walls_of e).
  { unfold env_consume in EC. destruct (at_consumes a1); [inversion EC; exact ES|]. destruct (consume_features _ _ _) as [m' [c|x]] eqn:CF; unfold consume_features in CF; apply consume_walls in CF; cbn in CF.
    - destruct (_ =? _); inversion EC; unfold walls_of; cbn; congruence.
    - inversion EC; unfold walls_of; cbn; congruence. }
  destruct r as [[]|x]; exact H.
Qed.
Lemma loop_walls : forall pl nm rf st nt nas plan rnd todo e i acc, walls_of (fst (multi_loop pl e nm rf st nt nas plan rnd i todo acc)) = walls_of e.
Proof.
  intros pl nm rf st nt nas plan rnd. induction todo as [|todo IH]; intros e i acc; cbn [multi_loop]; [reflexivity|].
  destruct (refit_step pl e nm rf i nt nas plan _ _) as [e1 r1] eqn:ER.
  assert (N1 : walls_of e1 = walls_of e).
  { unfold refit_step in ER. destruct rf; [|now inversion ER]. destruct (step_plan _ _ _ _); [|now inversion ER]. pose proof (fit_walls pl e nm (Some a) (rnd (3 * i)) (rnd (3 * i + 1))) as F. now rewrite ER in F. }
  destruct r1 as [[]|x]; [|exact N1]. destruct (env_step pl e1 nm (rnd (3 * i + 2))) as [e2 r2] eqn:ES. pose proof (step_walls pl e1 nm (rnd (3 * i + 2))) as N2. rewrite ES in N2. cbn [fst] in N2.
  destruct r2 as [p|x]; [|cbn [fst]; congruence]. destruct (_ && st); [cbn [fst]; congruence|]. rewrite IH. congruence.
Qed.
Lemma reset_agents_walls : forall l e, walls_of (fst (reset_agents e l)) = walls_of e.
Proof.
  induction l as [|a l IH]; intros e; [reflexivity|]. cbn [reset_agents]. destruct (move_agent (e_mdp e) a (at_start a)) as [[m' a'] [u|x]] eqn:MV; apply move_walls in MV; [|exact MV].
  rewrite IH. exact MV.
Qed.
Lemma reset_mdp_walls : forall (m m' : mdp A), reset_mdp m = Ok m' -> m_walls m' = m_walls m.
Proof. intros m m' H. unfold reset_mdp, set_features in H. destruct (forallb _ _); now inversion H. Qed.
Lemma op_walls : forall pl e o, (forall l, o <> OSetWalls l) -> walls_of (do_op pl e o) = walls_of e.
Proof.
  intros pl e o NW. destruct o; cbn [do_op].
  - apply fit_walls.
  - apply step_walls.
  - unfold step_multi. destruct (lookup e name); [|reflexivity]. destruct (all_n_steps e name); [|reflexivity]. destruct (negb _); [reflexivity|].
    destruct n_steps as [|z|[|z l0]|]; try reflexivity; destruct (negb _); try reflexivity; apply loop_walls.
  - unfold env_step_proba. destruct (lookup e name); [|reflexivity]. destruct (agent_step_proba _ _ _ _ _) as [a' [r|x]]; reflexivity.
  - unfold step_multi_interactive. destruct n_moves as [[|row0 rows]|]; try reflexivity. destruct (mapM _ _); [|reflexivity]. destruct (_ || _); reflexivity.
  - unfold set_agent_position. destruct (lookup e name) as [a|]; [|reflexivity]. destruct (move_agent (e_mdp e) a p) as [[m' a'] r] eqn:MV. apply move_walls in MV. exact MV.
  - elim (NW walls). reflexivity.
  - unfold env_reset. pose proof (reset_agents_walls (e_agents e) e) as N. destruct (reset_agents e (e_agents e)) as [e1 [[]|x]]; cbn [fst] in *; [|exact N].
    destruct (reset_mdp (e_mdp e1)) eqn:E; [|exact N]. apply reset_mdp_walls in E. unfold walls_of in *. cbn. congruence.
Qed.

End World.
