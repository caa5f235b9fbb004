(** C36, C44 for searches in environments. *)
From Coq Require Import String List ZArith QArith Reals Bool Lia Lra.
From Verif Require Import PyBase PyProofs GridModel GridSpec GridProofs GridProofs2 MDPModel MDPSpec MDPProofs MDPProofs2 MDPProofs3 MDPProofs4 MDPProps ActionModel ActionSpec SoftmaxModel SoftmaxProofs ActionProofs RSum ActionProps EnvModel PlanProps EnvSpec StepSpec EnvProofs EnvProofs2 EnvProofs3 EnvProofs4 EnvProofs5 EnvProps StepProps VIModel VISpec VIProofs VIProofs2 VIProps VIEnvProps MCTSModel MCTSSpec MCTSProofs MCTSProofs2 MCTSProofs3 MCTSProps MCTSWalk MCTSEaten MCTSCache MCTSFit MCTSRun MCTSKept.
Import ListNotations.
Local Close Scope Q_scope. Local Close Scope R_scope.
Local Open Scope nat_scope.

(** The agents of a search for [a]: [a] first, and each other agent exactly once if the search is interactive. *)
Definition lists_agents (interactive : bool) (e : env R) (a : attached R) (l : list (attached R)) : Prop :=
  nth_error l 0 = Some a /\ NoDup (map at_name l) /\ forall b, In b l <-> b = a \/ (interactive = true /\ In b (e_agents e)).
Lemma NoDup_map_filter : forall A B (f : A -> B) p l, NoDup (map f l) -> NoDup (map f (filter p l)).
Proof.
  induction l as [|x l IH]; intros ND; [constructor|]. cbn [map] in ND. inversion ND as [|? ? N1 N2]. subst. cbn [filter]. destruct (p x); [|now apply IH]. cbn [map]. constructor; [|now apply IH].
  intros X. apply N1. apply in_map_iff in X. destruct X as (y & E & Hy). apply filter_In in Hy. apply in_map_iff. exists y. tauto.
Qed.
Lemma searchers_list : forall pl i e a, reachable pl e -> In a (e_agents e) -> lists_agents i e a (searchers i e a).
Proof.
  intros pl i e a RE Ha. destruct (reachable_wf _ _ RE) as (k & shape & st & W). pose proof (wf_names _ _ _ _ W) as ND. split; [reflexivity|]. split.
  - unfold searchers. cbn [map]. constructor.
    + intros X. apply in_map_iff in X. destruct X as (b & E & Hb). destruct i; [|destruct Hb]. apply filter_In in Hb. destruct Hb as [_ Hb]. rewrite E, String.eqb_refl in Hb. discriminate.
    + destruct i; [|constructor]. now apply NoDup_map_filter.
  - intros b. unfold searchers. cbn [In]. split.
    + intros [<-|Hb]; [now left|]. destruct i; [|destruct Hb]. apply filter_In in Hb. right. tauto.
    + intros [->|[-> Hb]]; [now left|]. destruct (String.eqb_spec (at_name b) (at_name a)) as [E|E]; [left; symmetry; eapply same_name_same; eauto|]. right. apply filter_In. split; [exact Hb|]. apply negb_true_iff. now apply String.eqb_neq.
Qed.
Lemma feature_idx_inj : forall pl e a b, reachable pl e -> In a (e_agents e) -> In b (e_agents e) -> at_feature_idx a = at_feature_idx b -> a = b.
Proof.
  intros pl e a b RE Ha Hb E. destruct (reachable_wf _ _ RE) as (k & shape & st & W). destruct (wf_agents _ _ _ _ W a Ha) as (_ & A & _). destruct (wf_agents _ _ _ _ W b Hb) as (_ & B & _).
  assert (EI : at_idx a = at_idx b) by lia. pose proof (wf_idx _ _ _ _ W) as ND. clear - ND EI Ha Hb. revert Ha Hb ND. induction (e_agents e) as [|x l IH]; intros Ha Hb ND; [destruct Ha|]. cbn [map] in ND. inversion ND as [|? ? N1 N2]. subst.
  destruct Ha as [<-|Ha], Hb as [<-|Hb]; auto; exfalso; apply N1; [rewrite EI|rewrite <- EI]; now apply in_map.
Qed.

(** The search made for an agent of an environment is about the right agents: positions, rewards, and who takes
    whom. Agent [i] of the search takes agent [j] exactly if the latter's feature is among those it consumes; the
    planning agent values another agent by its own weight for that agent's feature. *)
Theorem C44_environment : forall pl cfg e a n c, reachable pl e -> In a (e_agents e) -> fit_search cfg e a n = Ok c ->
  exists l, lists_agents (mc_interactive cfg) e a l /\ s_start c = map at_pos l /\ s_rewards c = map at_reward l /\ s_feature_idx c = map at_feature_idx l /\
  (forall i j x y, nth_error l i = Some x -> nth_error l j = Some y ->
     (nth j (nth i (s_consumes_agents c) []) false = true <-> exists z, In z (at_consumes x) /\ py_index (m_n_features (e_mdp e)) z = Ok (at_feature_idx y)) /\
     nth j (s_values c) 0%R = (if j =? 0 then 0%R else nth (at_feature_idx y) (at_reward a) 0%R)) /\
  (forall i x f, nth_error l i = Some x -> (nth f (nth i (s_consumes c) []) false = true <-> exists z, In z (at_consumes x) /\ py_index (m_n_features (e_mdp e)) z = Ok f)).
Proof.
  intros pl cfg e a n c RE Ha FS. pose proof (searchers_list pl (mc_interactive cfg) e a RE Ha) as LA. destruct (reachable_wf _ _ RE) as (k & shape & st & W). set (l := searchers (mc_interactive cfg) e a) in *. exists l. split; [exact LA|].
  destruct LA as (L0 & ND & LI). assert (IN : forall b, In b l -> In b (e_agents e)) by (intros b Hb; apply LI in Hb; destruct Hb as [->|[_ Hb]]; auto).
  assert (EL : all_info (mc_interactive cfg) e a = map agent_info l) by apply all_info_searchers.
  assert (NTH : forall i x, nth_error l i = Some x -> i < length l /\ nth i (map agent_info l) no_info = agent_info x). { intros i x Hx. assert (Hi : i < length l) by (apply nth_error_Some; congruence). split; [exact Hi|]. rewrite (nth_map_lt _ _ _ _ _ _ a) by exact Hi. f_equal. now apply nth_error_nth. }
  unfold fit_search in FS. rewrite EL in FS.
  assert (K1 : NoDup (map i_feature (map agent_info l))).
  { rewrite map_map. cbn [agent_info i_feature]. clear - ND RE IN. induction l as [|x l IH]; [constructor|]. cbn [map] in *. inversion ND as [|? ? N1 N2]. subst. constructor; [|apply IH; [exact N2|intros b Hb; apply IN; now right]].
    intros X. apply in_map_iff in X. destruct X as (y & E & Hy). apply N1. replace x with y; [now apply in_map|]. apply (feature_idx_inj pl e); auto; apply IN; [now right|now left]. }
  assert (K2 : forall i, In i (map agent_info l) -> i_feature i < m_n_features (e_mdp e)).
  { intros i Hi. apply in_map_iff in Hi. destruct Hi as (b & <- & Hb). cbn [agent_info i_feature]. destruct (wf_agents _ _ _ _ W b (IN b Hb)) as (B1 & B2 & _). rewrite (wf_nf _ _ _ _ W). lia. }
  assert (K3 : length (i_reward (nth 0 (map agent_info l) no_info)) = m_n_features (e_mdp e)).
  { destruct (NTH 0 a L0) as [_ ->]. cbn [agent_info i_reward]. apply (wf_agents _ _ _ _ W a Ha). }
  destruct (C44_agent_table _ _ _ _ _ _ _ _ _ _ _ _ _ (m_n_features (e_mdp e)) K1 K2 K3 FS) as (T1 & T2 & T3 & _ & _ & T6 & T7 & T8).
  rewrite map_map in T1, T2, T3. split; [exact T1|]. split; [exact T2|]. split; [exact T3|]. rewrite map_length in *. split.
  - intros i j x y Hx Hy. destruct (NTH i x Hx) as [Li Ex]. destruct (NTH j y Hy) as [Lj Ey]. destruct (NTH 0 a L0) as [_ E0]. split.
    + rewrite (T6 i j Li Lj), Ex, Ey. reflexivity.
    + rewrite (T8 j Lj), Ey, E0. reflexivity.
  - intros i x f Hx. destruct (NTH i x Hx) as [Li Ex]. rewrite (T7 i f Li), Ex. reflexivity.
Qed.

(** What a fit computes: the search makes exactly the given number of iterations, each starting in the agent's
    state, and the value of an action is the total reward of the visits to the state it leads to, divided
    by one more than their number. The [j]-th iteration saw the statistics of the iterations before it. *)
Theorem C36_fit : forall pl score cfg e a n rnd fuel v q, reachable pl e -> In a (e_agents e) -> mcts_fit score cfg e a (Some n) rnd fuel = Ok (v, q) ->
  exists c i states rewards, fit_search cfg e a n = Ok c /\ stands_on (e_mdp e) (at_pos a) i /\ length states = Z.to_nat (mc_n_iter cfg) /\ length rewards = length states /\
    (forall act t, travels (e_mdp e) i [act] t -> nth act (nth i q []) NaN = Fin (value_total rewards states t / (1 + visits states t))%R) /\
    forall j, j < length states -> exists V1 N1 k1 k2 o,
      (forall s, s < m_n_states (e_mdp e) -> nth s N1 0%R = visits (firstn j states) s /\ nth s V1 0%R = value_total (firstn j rewards) (firstn j states) s) /\
      mcts_iteration score c V1 N1 k1 (rnd j) fuel = Ok (nth j rewards 0%R, nth j states [], k2, o).
Proof.
  intros pl score cfg e a n rnd fuel v q RE Ha H. destruct (C42_values pl e a score cfg (Some n) rnd fuel v q RE Ha H) as (i & SO & VO & V & N & k & states & RM & EV & HQ).
  destruct (reachable_wf _ _ RE) as (kk & shape & st & W). pose proof (wf_grid _ _ _ _ W) as G. pose proof (gi_ns _ _ _ _ G) as NS. destruct (grid_shape _ _ _ _ G) as (_ & _ & SH). pose proof SH as [SL _].
  unfold run_mcts in RM. apply bind_ok in RM. destruct RM as (c & FS & RM). fold (fit_search cfg e a n) in FS. destruct (C44_environment pl cfg e a n c RE Ha FS) as (l & (L0 & _) & ST & _).
  assert (SAS : s_sas c = m_sas (e_mdp e)). { unfold fit_search, make_search in FS. destruct (negb _); [discriminate|]. apply bind_ok in FS. destruct FS as (masks & _ & FS). now inversion FS. }
  rewrite SL in RM. destruct l as [|x l]; [discriminate|]. cbn in L0. assert (x = a) by congruence. subst x.
  assert (K1 : shape3 (nst shape) (actions_of kk st) (nst shape) (s_sas c)) by (rewrite SAS; exact SH).
  assert (K2 : 0 < length (s_start c)) by (rewrite ST; cbn; lia).
  assert (K3 : py_index (nst shape) (nth 0 (s_start c) 0%Z) = Ok i) by (rewrite ST; cbn [map nth]; unfold stands_on in SO; rewrite NS in SO; exact SO).
  destruct (C36_statistics score c rnd fuel (nst shape) (actions_of kk st) i _ _ V N k states K1 K2 K3 RM) as (LS & LV & LN & rewards & LR & HS & HJ).
  exists c, i, states, rewards. split; [exact FS|]. split; [exact SO|]. split; [exact LS|]. split; [congruence|]. split.
  - intros act t TR. rewrite (HQ act t TR). assert (Lt : t < nst shape). { rewrite <- NS. rewrite NS. destruct (travels_inv _ _ _ _ G i act [] t) as (u & Hu & _ & _ & TU); [rewrite <- NS; eapply py_index_ok; exact SO|exact TR|]. inversion TU. now subst. } destruct (HS t Lt) as [-> ->]. reflexivity.
  - rewrite LS, NS. exact HJ.
Qed.
