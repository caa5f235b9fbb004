(** Invariant of worlds: who owns which array; what a call leaves unchanged. *)
From Coq Require Import String List ZArith Bool Lia.
From Verif Require Import PyBase PyProofs GridModel MDPModel ActionModel EnvModel WorldModel WorldProofs.
Import ListNotations.
Local Open Scope nat_scope.

Section World.
Context {A : Type} {NA : Num A}.
Implicit Types (e : env A) (a : attached A) (w : world A) (pl : plugins A).

Lemma nth_error_upd : forall B (l : list B) i j x, nth_error (upd l i x) j = if (j =? i) && (i <? length l) then Some x else nth_error l j.
Proof.
  induction l as [|y l IH]; intros [|i] [|j] x; cbn [upd nth_error length]; try reflexivity.
  - rewrite andb_false_r. now destruct j.
  - rewrite IH. reflexivity.
Qed.
Lemma nth_error_upd_same : forall B (l : list B) i x, i < length l -> nth_error (upd l i x) i = Some x.
Proof. intros. rewrite nth_error_upd, Nat.eqb_refl. apply Nat.ltb_lt in H. now rewrite H. Qed.
Lemma nth_error_upd_other : forall B (l : list B) i j x, j <> i -> nth_error (upd l i x) j = nth_error l j.
Proof. intros. rewrite nth_error_upd. apply Nat.eqb_neq in H. now rewrite H. Qed.
Lemma nth_error_lt : forall B (l : list B) i x, nth_error l i = Some x -> i < length l.
Proof. intros B l i x H. apply nth_error_Some. congruence. Qed.
Lemma upd_id : forall B (l : list B) i d, upd l i (nth i l d) = l.
Proof. induction l as [|y l IH]; intros [|i] d; cbn; try reflexivity. now rewrite IH. Qed.

(** ** Construction *)
Lemma NoDup_snoc : forall B (l : list B) x, NoDup l -> ~ In x l -> NoDup (l ++ [x]).
Proof.
  induction l as [|y l IH]; intros x H N; cbn; [repeat constructor; intros []|]. inversion H. subst. constructor; [|apply IH; [assumption|intros X; apply N; now right]].
  intros X. apply in_app_or in X. destruct X as [X|[<-|[]]]; [contradiction|]. apply N. now left.
Qed.
Lemma in_put_names : forall (l : list (attached A)) a x, In x (map at_name (put_agent l a)) -> In x (map at_name l) \/ x = at_name a.
Proof.
  intros l a x H. unfold put_agent in H. destruct (existsb _ _).
  - left. rewrite map_map in H. erewrite map_ext in H; [exact H|]. intros b. cbn. destruct (String.eqb_spec (at_name b) (at_name a)); auto.
  - rewrite map_app in H. apply in_app_or in H. destruct H as [H|[<-|[]]]; auto.
Qed.
Lemma put_nodup : forall (l : list (attached A)) a, NoDup (map at_name l) -> NoDup (map at_name (put_agent l a)).
Proof.
  intros l a H. unfold put_agent. destruct (existsb _ _) eqn:E.
  - rewrite map_map. erewrite map_ext; [exact H|]. intros b. cbn. destruct (String.eqb_spec (at_name b) (at_name a)); auto.
  - rewrite map_app. cbn [map]. apply NoDup_snoc; [exact H|]. intros Hx. apply in_map_iff in Hx. destruct Hx as (b & E' & Hb).
    assert (X : existsb (fun b => String.eqb (at_name b) (at_name a)) l = true) by (apply existsb_exists; exists b; split; [exact Hb|now apply String.eqb_eq]). congruence.
Qed.
Lemma attach_name : forall (m : mdp A) i s m' a, attach m i s = (m', Ok a) -> at_name a = sp_name s /\ length (m_features m') = S (length (m_features m)).
Proof.
  intros m i s m' a H. unfold attach in H. destruct (add_agent_feature m (sp_pos s)) as [m1 [?|?]] eqn:AF; [|discriminate].
  assert (L : length (m_features m1) = S (length (m_features m))).
  { unfold add_agent_feature in AF. destruct (py_index _ _); [|discriminate]. destruct (set_features _ _) as [m2|] eqn:SF; [|discriminate]. inversion AF. subst m2. unfold set_features in SF. destruct (forallb _ _); [|discriminate]. inversion SF. cbn. rewrite app_length. cbn. lia. }
  destruct (move_agent m1 _ _) as [[m2 a'] [u1|x1]] eqn:MV; [|discriminate]. inversion H. subst m2 a'. split; [apply move_name in MV; exact MV|].
  unfold move_agent in MV. destruct (_ <=? _)%Z; [discriminate|]. destruct (update_agent_feature _ _ _) as [m3 [?|?]] eqn:U; [|discriminate]. inversion MV. subst m3.
  unfold update_agent_feature in U. destruct (py_index _ _); [|discriminate]. destruct (py_index (m_n_states m1) _); [|discriminate]. inversion U. cbn. now rewrite upd_length.
Qed.
Lemma attach_features : forall (m : mdp A) i s m' r, attach m i s = (m', r) -> m_features m' = m_features m \/ length (m_features m) < length (m_features m').
Proof.
  intros m i s m' r H. unfold attach in H. destruct (add_agent_feature m (sp_pos s)) as [m1 [u0|x0]] eqn:AF; unfold add_agent_feature in AF.
  - destruct (py_index _ _); [|discriminate]. destruct (set_features _ _) as [m2|] eqn:SF; [|discriminate]. inversion AF. subst m2. unfold set_features in SF. destruct (forallb _ _); [|discriminate].
    assert (L : length (m_features m1) = S (length (m_features m))) by (inversion SF; cbn; rewrite app_length; cbn; lia). right.
    assert (L2 : forall a p m2 a' x, move_agent m1 a p = (m2, a', x) -> length (m_features m2) = length (m_features m1)).
    { intros ag p m2 ag' x MV. unfold move_agent in MV. destruct (_ <=? _)%Z; [now inversion MV|]. destruct (update_agent_feature _ _ _) as [m3 y] eqn:U.
      assert (length (m_features m3) = length (m_features m1)). { unfold update_agent_feature in U. destruct (py_index _ _); [|now inversion U]. destruct (py_index (m_n_states m1) _); inversion U; cbn; now rewrite upd_length. }
      destruct y; inversion MV; subst; auto. }
    destruct (move_agent m1 _ _) as [[m2 a'] [u1|x1]] eqn:MV; apply L2 in MV; inversion H; subst; lia.
  - left. inversion H. subst. destruct (py_index _ _); [|now inversion AF]. destruct (set_features _ _) as [m2|]; [discriminate|]. now inversion AF.
Qed.
Lemma attach_all_names : forall nf na ss (m : mdp A) i acc m' l, attach_all nf na m i ss acc = (m', Ok l) ->
  (NoDup (map at_name acc) -> NoDup (map at_name l)) /\ (forall x, In x (map at_name l) -> In x (map at_name acc) \/ In x (map sp_name ss)).
Proof.
  induction ss as [|s ss IH]; intros m i acc m' l H; cbn [attach_all] in H; [inversion H; subst; auto|].
  destruct (attach_checked nf na m i s) as [m1 [a|x]] eqn:AC; [|discriminate]. apply IH in H. destruct H as [H1 H2].
  unfold attach_checked in AC. destruct (negb _); [discriminate|]. destruct (existsb _ _); [discriminate|]. apply attach_name in AC. destruct AC as [EN _].
  split; [intros N; apply H1, put_nodup, N|]. intros x Hx. destruct (H2 x Hx) as [H3|H3]; [|right; now right]. apply in_put_names in H3. destruct H3 as [H3| ->]; [now left|]. right. left. auto.
Qed.
Lemma attach_all_features : forall nf na ss (m : mdp A) i acc m' r, attach_all nf na m i ss acc = (m', r) ->
  (m_features m' = m_features m /\ (forall l, r = Ok l -> ss = [] /\ l = acc)) \/ length (m_features m) < length (m_features m').
Proof.
  induction ss as [|s ss IH]; intros m i acc m' r H; cbn [attach_all] in H.
  - left. inversion H. split; [reflexivity|]. intros l E. now inversion E.
  - destruct (attach_checked nf na m i s) as [m1 [a|x]] eqn:AC.
    + right. unfold attach_checked in AC. destruct (negb _); [discriminate|]. destruct (existsb _ _); [discriminate|]. apply attach_name in AC. destruct AC as [_ L]. apply IH in H. destruct H as [[E _]|H]; [rewrite E|]; lia.
    + inversion H. subst. unfold attach_checked in AC. destruct (negb _); [left; inversion AC; subst; split; [reflexivity|discriminate]|]. destruct (existsb _ _); [left; inversion AC; subst; split; [reflexivity|discriminate]|].
      apply attach_features in AC. destruct AC as [E|L]; [left; split; [exact E|discriminate]|right; exact L].
Qed.
Lemma make_env_names : forall (m : mdp A) ss m' e, make_env m ss = (m', Ok e) ->
  e_mdp e = m' /\ NoDup (names e) /\ (forall x, In x (names e) -> In x (map sp_name ss)) /\ (ss = [] -> e_agents e = []).
Proof.
  intros m ss m' e H. unfold make_env in H. destruct (if 0 <? m_n_agents m then _ else _) as [m0|]; [|discriminate].
  destruct (attach_all _ _ m0 0 ss []) as [m1 [l|x]] eqn:AA; [|discriminate]. inversion H. subst. split; [reflexivity|]. destruct (attach_all_names _ _ _ _ _ _ _ _ AA) as [H1 H2]. split; [apply H1; constructor|]. split.
  - intros x Hx. destruct (H2 x Hx) as [[]|H3]. exact H3.
  - intros ->. cbn in AA. inversion AA. reflexivity.
Qed.
Lemma make_env_features : forall (m : mdp A) ss m' r, make_env m ss = (m', r) -> m_n_agents m = 0 ->
  (m_features m' = m_features m /\ (forall e, r = Ok e -> e_agents e = [])) \/ length (m_features m) < length (m_features m').
Proof.
  intros m ss m' r H E. unfold make_env in H. rewrite E in H. cbn in H. destruct (attach_all _ _ m 0 ss []) as [m1 [l|x]] eqn:AA; inversion H; subst; destruct (attach_all_features _ _ _ _ _ _ _ _ AA) as [[E1 E2]|L]; auto; left.
  - split; [exact E1|]. intros e Ee. inversion Ee. destruct (E2 l eq_refl) as [_ ->]. reflexivity.
  - split; [exact E1|discriminate].
Qed.
Lemma make_env_walls : forall (m : mdp A) ss m' r, make_env m ss = (m', r) -> m_walls m' = m_walls m.
Proof.
  assert (AW : forall (m : mdp A) i s m' r, attach m i s = (m', r) -> m_walls m' = m_walls m).
  { intros m i s m' r H. unfold attach in H. destruct (add_agent_feature m (sp_pos s)) as [m1 x1] eqn:AF. assert (W1 : m_walls m1 = m_walls m).
    { unfold add_agent_feature in AF. destruct (py_index _ _); [|now inversion AF]. destruct (set_features _ _) as [m2|] eqn:SF; inversion AF; subst; [|reflexivity]. unfold set_features in SF. destruct (forallb _ _); [|discriminate]. now inversion SF. }
    destruct x1 as [?|?]; [|inversion H; subst; exact W1]. destruct (move_agent m1 _ _) as [[m2 a'] [u1|x1]] eqn:MV; apply move_walls in MV; inversion H; subst; congruence. }
  assert (LW : forall nf na ss (m : mdp A) i acc m' r, attach_all nf na m i ss acc = (m', r) -> m_walls m' = m_walls m).
  { induction ss as [|s ss IH]; intros m i acc m' r H; cbn [attach_all] in H; [now inversion H|]. destruct (attach_checked nf na m i s) as [m1 x] eqn:AC.
    assert (W1 : m_walls m1 = m_walls m). { unfold attach_checked in AC. destruct (negb _); [now inversion AC|]. destruct (existsb _ _); [now inversion AC|]. now apply AW in AC. }
    destruct x as [a|x]; [|inversion H; subst; exact W1]. apply IH in H. congruence. }
  intros m ss m' r H. unfold make_env in H. destruct (if 0 <? m_n_agents m then _ else _) as [m0|] eqn:E; [|now inversion H].
  assert (W0 : m_walls m0 = m_walls m). { destruct (0 <? _); [|now inversion E]. unfold remove_agent_features in E. apply bind_ok in E. destruct E as (m2 & SF & E). inversion E. cbn. unfold set_features in SF. destruct (forallb _ _); [|discriminate]. now inversion SF. }
  destruct (attach_all _ _ m0 0 ss []) as [m1 x] eqn:AA. apply LW in AA. destruct x; inversion H; subst; congruence.
Qed.

(** ** Algorithms of agents *)
Lemma put_fit_len : forall o l a, length (put_fit (A:=A) o l a) = length l.
Proof. intros o l a. unfold put_fit. destruct (agent_of o _); [|reflexivity]. destruct (nth_error l n); [|reflexivity]. apply upd_length. Qed.
Lemma puts_len : forall o (as_ : list (attached A)) l, length (fold_left (put_fit o) as_ l) = length l.
Proof. induction as_ as [|a as_ IH]; intros l; cbn; [reflexivity|]. rewrite IH. apply put_fit_len. Qed.
Lemma put_fit_other : forall o l a r, agent_of o (at_name a) <> Some r -> nth_error (put_fit (A:=A) o l a) r = nth_error l r.
Proof. intros o l a r H. unfold put_fit. destruct (agent_of o _) as [r'|]; [|reflexivity]. destruct (nth_error l r') eqn:E; [|reflexivity]. apply nth_error_upd_other. congruence. Qed.
Lemma puts_other : forall o (as_ : list (attached A)) l r, (forall a, In a as_ -> agent_of o (at_name a) <> Some r) -> nth_error (fold_left (put_fit o) as_ l) r = nth_error l r.
Proof. induction as_ as [|a as_ IH]; intros l r H; cbn; [reflexivity|]. rewrite IH; [apply put_fit_other, H; now left|]. intros b Hb. apply H. now right. Qed.
Lemma puts_name : forall o (as_ : list (attached A)) l r, option_map ag_name (nth_error (fold_left (put_fit o) as_ l) r) = option_map ag_name (nth_error l r).
Proof.
  induction as_ as [|a as_ IH]; intros l r; cbn; [reflexivity|]. rewrite IH. unfold put_fit. destruct (agent_of o _) as [r'|]; [|reflexivity]. destruct (nth_error l r') eqn:E; [|reflexivity].
  rewrite nth_error_upd. destruct (Nat.eqb_spec r r') as [->|N]; cbn [andb]; [|reflexivity]. destruct (r' <? length l); [|reflexivity]. now rewrite E.
Qed.
(** Each agent's algorithm holds what the environment computed for it. *)
Lemma puts_same : forall o (as_ : list (attached A)) l a r, NoDup (map at_name as_) -> In a as_ -> agent_of o (at_name a) = Some r -> r < length l ->
  (forall x y, agent_of o x = Some r -> agent_of o y = Some r -> x = y) ->
  exists g, nth_error (fold_left (put_fit o) as_ l) r = Some g /\ ag_fit g = at_fit a.
Proof.
  induction as_ as [|b as_ IH]; intros l a r ND Ha E L INJ; [destruct Ha|]. cbn [map] in ND. inversion ND as [|? ? NI ND']. subst. cbn [fold_left]. destruct Ha as [->|Ha].
  - rewrite puts_other.
    + unfold put_fit. rewrite E. destruct (nth_error l r) as [g|] eqn:G; [|apply nth_error_None in G; lia]. rewrite nth_error_upd_same by exact L. eexists. split; reflexivity.
    + intros b Hb E'. apply NI. rewrite (INJ _ _ E E'). now apply in_map.
  - apply (IH _ a r); auto. now rewrite put_fit_len.
Qed.

(** ** The invariant: [n] is the number of feature arrays the caller has made *)
Record sane (n : nat) (w : world A) : Prop := mkSane {
  s_n : n <= length (w_feats w);
  s_mdp : forall i mo, nth_error (w_mdps w) i = Some mo -> mo_feat mo < length (w_feats w) /\ mo_wall mo < length (w_walls w);
  s_own : forall i i' mo mo', i <> i' -> nth_error (w_mdps w) i = Some mo -> nth_error (w_mdps w) i' = Some mo' -> mo_feat mo = mo_feat mo' -> mo_feat mo < n;
  s_env : forall j eo, nth_error (w_envs w) j = Some eo -> exists mo, nth_error (w_mdps w) (eo_mdp eo) = Some mo /\ (e_agents (eo_attrs eo) <> [] -> n <= mo_feat mo);
  s_names : forall j eo, nth_error (w_envs w) j = Some eo -> NoDup (names (eo_attrs eo)) /\
    (forall x, In x (names (eo_attrs eo)) -> exists r, agent_of eo x = Some r) /\
    (forall x r, agent_of eo x = Some r -> exists g, nth_error (w_agents w) r = Some g /\ ag_name g = x)
}.

(** New MDPs are made from the caller's own arrays. *)
Definition from_given (n : nat) (c : call A) : Prop := match c with CMdp _ f _ _ _ => f < n | _ => True end.

Lemma see_names : forall w o l, map at_name (map (see_fit w o) l) = map at_name l.
Proof. intros w o l. rewrite map_map. apply map_ext. intros a. unfold see_fit. destruct (agent_of o _); [|reflexivity]. destruct (nth_error _ _); reflexivity. Qed.
Lemma see_env_names : forall w o e, see_env w o = Some e -> names e = names (eo_attrs o) /\ (e_agents e = [] <-> e_agents (eo_attrs o) = []).
Proof.
  intros w o e H. unfold see_env in H. destruct (nth_error _ _); [|discriminate]. inversion H. unfold names. cbn. split; [apply see_names|]. destruct (e_agents (eo_attrs o)); cbn; split; auto; discriminate.
Qed.
Lemma see_env_mdp : forall w o mo e, nth_error (w_mdps w) (eo_mdp o) = Some mo -> see_env w o = Some e ->
  e_mdp e = see_mdp w mo /\ m_features (e_mdp e) = nth (mo_feat mo) (w_feats w) [] /\ m_walls (e_mdp e) = nth (mo_wall mo) (w_walls w) [].
Proof. intros w o mo e E H. unfold see_env in H. rewrite E in H. inversion H. cbn. auto. Qed.

End World.
