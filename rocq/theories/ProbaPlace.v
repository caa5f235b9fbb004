(** C193, C194: probabilistic steps of agents that plan with value iteration. *)
From Coq Require Import String List ZArith QArith Reals Bool Lia Lra.
From Verif Require Import PyBase PyProofs GridModel GridSpec MDPModel MDPSpec MDPProofs MDPProofs2 MDPProofs3 MDPProofs4 MDPProps ActionModel ActionSpec SoftmaxModel SoftmaxProofs ActionProofs RSum ActionProps EnvModel EnvSpec StepSpec EnvProofs EnvProofs2 EnvProofs3 EnvProofs4 EnvProofs5 EnvProps StepProps ProbaProps VIModel VISpec VIProofs VIProofs2 VIProps VIEnvProps MCTSRun MCTSFit VIFit.
Import ListNotations.
Local Close Scope Q_scope.
Local Open Scope nat_scope.

(** Every action of the grid leads somewhere: to its target if it is possible, to state 0 if not. *)
Lemma next_somewhere : forall k shape st m, grid_inv k shape st m -> forall s act, s < nst shape -> act < actions_of k st ->
  (exists t, t < nst shape /\ walled_edge k shape st (m_walls m) s act t /\ get_next_state m (Z.of_nat s) (Z.of_nat act) = Ok t) \/
  ((forall t, t < nst shape -> ~ walled_edge k shape st (m_walls m) s act t) /\ get_next_state m (Z.of_nat s) (Z.of_nat act) = Ok 0).
Proof.
  intros k shape st m G s act Hs Ha.
  assert (D : (exists t, t < nst shape /\ walled_edge k shape st (m_walls m) s act t) \/ forall t, t < nst shape -> ~ walled_edge k shape st (m_walls m) s act t).
  { assert (X : forall n, n <= nst shape -> (exists t, t < n /\ walled_edge k shape st (m_walls m) s act t) \/ forall t, t < n -> ~ walled_edge k shape st (m_walls m) s act t).
    { induction n as [|n IH]; intros Hn; [right; intros; lia|]. destruct (IH ltac:(lia)) as [(t & Ht & W)|NO]; [left; exists t; split; [lia|exact W]|].
      destruct (inv_edge _ _ _ _ G s act n Hs Ha ltac:(lia)) as [[_ W]|[_ N]]; [left; exists n; split; [lia|exact W]|right; intros t Ht; destruct (Nat.eq_dec t n) as [->|NE]; [exact N|apply NO; lia]]. }
    apply X. lia. }
  destruct D as [(t & Ht & W)|N]; [left; exists t; split; [exact Ht|]; split; [exact W|]; now apply (next_state_edge _ _ _ _ G)|right; split; [exact N|]; now apply (next_state_no_edge _ _ _ _ G)].
Qed.

Lemma writes_total : forall m P pos l acc, (forall s act, In (s, act) l -> (exists t, get_next_state m (Z.of_nat s) (Z.of_nat act) = Ok t) /\ s < length P) -> exists r, foldM (write m P pos) l acc = Ok r.
Proof.
  intros m P pos. induction l as [|[s act] l IH]; intros acc H; [eexists; reflexivity|]. cbn [foldM write]. destruct (H s act (or_introl eq_refl)) as ((t & ->) & L). cbn [bind].
  destruct (nth_error P s) eqn:E; [|apply nth_error_None in E; lia]. cbn [bind]. apply IH. intros s' act' Hin. apply H. now right.
Qed.

Lemma proba_goes : forall pl k shape st nm e a position seed, wf k shape st e -> agent_named e nm a -> has_readable k shape st nm e -> selects_best pl nm -> gives_probabilities pl nm ->
  (forall p, position = Some p -> length p = m_n_states (e_mdp e)) ->
  exists e2 d P, env_step_proba pl e nm position seed = (e2, Ok d) /\ get_agent_pi_p e2 nm = Ok (Some P) /\ action_probs pl a P /\ length P = nst shape /\ forall s, s < nst shape -> length (nth s P []) = actions_of k st.
Proof.
  intros pl k shape st nm e a position seed W NA HR SB GP LP. pose proof NA as [Ha Na]. destruct (HR a NA) as (v & q & F & RD). pose proof (wf_grid _ _ _ _ W) as GI. pose proof (gi_pos _ _ _ _ GI) as PS.
  pose proof (actions_pos k st) as AP. pose proof (gi_ns _ _ _ _ GI) as NS.
  destruct (readable_selects pl nm _ _ _ PS AP RD SB seed) as (pi & Epi & _ & _). destruct (readable_probabilities pl nm _ _ _ PS AP RD GP) as (P & EP).
  assert (GPO : get_policy pl a seed = (set_policy a (Some pi) (Some P), Ok tt)). { unfold get_policy. now rewrite F, Na, EP, Epi. }
  destruct (C26_flagged_probabilities_partial _ _ _ EP) as [LQ SQ]. destruct RD as [LR RR].
  assert (SH : length P = nst shape /\ forall s, s < nst shape -> length (nth s P []) = actions_of k st).
  { split; [lia|]. intros s Hs. destruct (SQ s ltac:(lia)) as [-> _]. apply RR. apply nth_In. lia. }
  assert (EL : lookup e nm = Ok a). { destruct (lookup_spec k shape st e nm W) as [(b & EL & Hb & EN')|(_ & NI)]; [rewrite EL; f_equal; eapply same_name_same; eauto; [apply (wf_names _ _ _ _ W)|congruence]|]. elim NI. apply (wf_lookup _ _ _ _ W). rewrite <- Na. now apply in_map. }
  assert (POS : exists pos, match position with Some p => Ok p | None => let* i := py_index (m_n_states (e_mdp e)) (at_pos a) in Ok (upd (zeros1 (m_n_states (e_mdp e))) i n1) end = Ok pos /\ length pos = m_n_states (e_mdp e)).
  { destruct position as [p|]; [exists p; split; [reflexivity|now apply LP]|]. destruct (wf_agents _ _ _ _ W a Ha) as (_ & _ & _ & _ & (i & SO) & _). unfold stands_on in SO. rewrite SO. cbn [bind]. eexists. split; [reflexivity|]. rewrite upd_length. unfold zeros1. apply repeat_length. }
  destruct POS as (pos & EPOS & LPOS).
  destruct (writes_total (e_mdp e) P (map (fun x => ndiv x (nsum pos)) pos) (pairs (map (fun x => ndiv x (nsum pos)) pos) (length (nth 0 P []))) (repeat (Fin n0) (m_n_states (e_mdp e)))) as (d & ED).
  { intros s act Hin. apply in_pairs in Hin. destruct Hin as [[H1 _] H2]. rewrite map_length, LPOS, NS in H1. destruct SH as [S1 S2]. rewrite (S2 0 PS) in H2. split; [|lia]. destruct (next_somewhere _ _ _ _ GI s act H1 H2) as [(t & _ & _ & ->)|[_ ->]]; eauto. }
  rewrite <- proba_loop_pairs in ED.
  assert (ES : env_step_proba pl e nm position seed = (tick (with_agent e (set_policy a (Some pi) (Some P))), Ok d)).
  { unfold env_step_proba. rewrite EL. unfold agent_step_proba. rewrite EPOS, LPOS, Nat.eqb_refl. cbn [negb]. rewrite F, GPO. cbn [at_pi_p set_policy]. now rewrite ED. }
  eexists _, d, P. split; [exact ES|]. split; [|split; [exists v, q; rewrite Na; auto|exact SH]].
  set (e2 := tick (with_agent e (set_policy a (Some pi) (Some P)))) in *. assert (W2 : wf k shape st e2). { replace e2 with (do_op pl e (OStepProba nm position seed)) by (cbn [do_op]; now rewrite ES). now apply do_op_wf. }
  unfold get_agent_pi_p. assert (H2 : In (set_policy a (Some pi) (Some P)) (e_agents e2)). { unfold e2. cbn [tick with_agent e_agents]. apply (in_put _ a (set_policy a (Some pi) (Some P)) Ha eq_refl). now left. }
  destruct (lookup_spec k shape st e2 nm W2) as [(b & EL2 & Hb & EN2)|(_ & NI)].
  - rewrite EL2. cbn [bind]. assert (b = set_policy a (Some pi) (Some P)) as ->. { eapply same_name_same; eauto; [apply (wf_names _ _ _ _ W2)|]. cbn [set_policy at_name]. congruence. } cbn [set_policy at_fit at_pi_p]. now rewrite F.
  - elim NI. apply (wf_lookup _ _ _ _ W2). rewrite <- Na. change (at_name a) with (at_name (set_policy a (Some pi) (Some P))). now apply in_map.
Qed.

Lemma fitted_state : forall pl e nm n s s' e1 l, reachable pl e -> uses_vi pl nm -> env_fit pl e nm n s s' = (e1, Ok tt) ->
  exists k shape st a, wf k shape st (run pl e1 l) /\ reachable pl (run pl e1 l) /\ has_readable k shape st nm (run pl e1 l) /\ agent_named (run pl e1 l) nm a.
Proof.
  intros pl e nm n s s' e1 l RE VI EF. destruct (reachable_wf _ _ RE) as (k & shape & st & W).
  assert (E1 : e1 = do_op pl e (OFit nm n s s')) by (cbn [do_op]; now rewrite EF).
  assert (W1 : wf k shape st e1) by (rewrite E1; now apply do_op_wf). assert (R1 : reachable pl e1) by (rewrite E1; now constructor).
  pose proof (fit_readable _ _ _ _ _ _ _ _ _ _ W VI EF) as H1.
  assert (H : reachable pl (run pl e1 l) /\ has_readable k shape st nm (run pl e1 l)). { clear E1 EF. revert e1 W1 R1 H1. induction l as [|o l IH]; intros e1 W1 R1 H1; [auto|]. cbn [run fold_left]. apply IH; [now apply do_op_wf|now constructor|now apply op_readable]. }
  assert (IN : In nm (e_names (run pl e1 l))).
  { destruct (run_static pl k shape st l e1 W1) as (-> & _). assert (X : static e e1). { rewrite E1. apply (run_static pl k shape st [OFit nm n s s'] _ W). }
    destruct X as (-> & _). unfold env_fit in EF. destruct (lookup_spec k shape st e nm W) as [(a & EL & Ha & EN)|(EL & _)]; [|rewrite EL in EF; discriminate]. apply (wf_lookup _ _ _ _ W). rewrite <- EN. now apply in_map. }
  assert (W2 : wf k shape st (run pl e1 l)) by now apply run_wf.
  apply (wf_lookup _ _ _ _ W2) in IN. apply in_map_iff in IN. destruct IN as (a & Na & Ha). exists k, shape, st, a. destruct H as [H2 H3]. split; [exact W2|]. split; [exact H2|]. split; [exact H3|]. split; assumption.
Qed.

(** Once fitted, an agent that plans with value iteration can be asked for the outcome of a probabilistic step at any time, from its own
    place or from any weights for the states. *)
Theorem C193_succeeds : forall pl e nm n s s' e1 l position seed, reachable pl e -> uses_vi pl nm -> selects_best pl nm -> gives_probabilities pl nm ->
  env_fit pl e nm n s s' = (e1, Ok tt) -> (forall p, position = Some p -> length p = m_n_states (e_mdp (run pl e1 l)) /\ (0 < Rsum p)%R) ->
  exists e2 d, env_step_proba pl (run pl e1 l) nm position seed = (e2, Ok d) /\ length d = m_n_states (e_mdp (run pl e1 l)).
Proof.
  intros pl e nm n s s' e1 l position seed RE VI SB GP EF LP. destruct (fitted_state _ _ _ _ _ _ _ l RE VI EF) as (k & shape & st & a & W & R & H & NA).
  destruct (proba_goes pl k shape st nm _ a position seed W NA H SB GP) as (e2 & d & P & E & _); [intros p Hp; now apply LP|]. exists e2, d. split; [exact E|].
  destruct (C33_last_write_partial _ _ _ _ _ _ _ R E) as (a' & P' & _ & _ & _ & L & _). exact L.
Qed.

(** Weights of the wrong length are refused. *)
Theorem C193_wrong_length : forall pl e nm a p seed, reachable pl e -> agent_named e nm a -> length p <> m_n_states (e_mdp e) -> env_step_proba pl e nm (Some p) seed = (with_agent e a, Err AssertionError).
Proof.
  intros pl e nm a p seed RE NA L. destruct (reachable_wf _ _ RE) as (k & shape & st & W). pose proof NA as [Ha Na].
  assert (EL : lookup e nm = Ok a). { destruct (lookup_spec k shape st e nm W) as [(b & EL & Hb & EN')|(_ & NI)]; [rewrite EL; f_equal; eapply same_name_same; eauto; [apply (wf_names _ _ _ _ W)|congruence]|]. elim NI. apply (wf_lookup _ _ _ _ W). rewrite <- Na. now apply in_map. }
  unfold env_step_proba. rewrite EL. unfold agent_step_proba. apply Nat.eqb_neq in L. now rewrite L.
Qed.

(** From the agent's own place, the entry of every state but the first is the probability of the action that leads there, or zero if no
    possible action does; also that of the first state, if all actions are possible where the agent stands. *)
Theorem C194_own_place : forall pl e nm n s s' e1 l seed, reachable pl e -> uses_vi pl nm -> selects_best pl nm -> gives_probabilities pl nm ->
  env_fit pl e nm n s s' = (e1, Ok tt) -> let e2 := run pl e1 l in
  exists e3 d P a p, env_step_proba pl e2 nm None seed = (e3, Ok d) /\ get_agent_pi_p e3 nm = Ok (Some P) /\ agent_named e2 nm a /\ stands_on (e_mdp e2) (at_pos a) p /\
    forall t, t < m_n_states (e_mdp e2) -> (t <> 0 \/ forall act, act < m_n_actions (e_mdp e2) -> exists u, travels (e_mdp e2) p [act] u) ->
      (forall act, travels (e_mdp e2) p [act] t -> nth t d NaN = nth act (nth p P []) NaN) /\
      ((forall act, ~ travels (e_mdp e2) p [act] t) -> nth t d NaN = Fin 0%R).
Proof.
  intros pl e nm n s s' e1 l seed RE VI SB GP EF e2. destruct (fitted_state _ _ _ _ _ _ _ l RE VI EF) as (k & shape & st & a & W & R & H & NA). fold e2 in W, R, H, NA.
  destruct (proba_goes pl k shape st nm e2 a None seed W NA H SB GP) as (e3 & d & P & E & EP & AP & LP & SP); [discriminate|].
  pose proof (wf_grid _ _ _ _ W) as GI. pose proof (gi_pos _ _ _ _ GI) as PS. pose proof (gi_ns _ _ _ _ GI) as NS. pose proof NA as [Ha Na].
  destruct (wf_agents _ _ _ _ W a Ha) as (_ & _ & _ & _ & (p & SO) & _). assert (Hp : p < nst shape) by (rewrite <- NS; eapply py_index_ok; exact SO).
  exists e3, d, P, a, p. split; [exact E|]. split; [exact EP|]. split; [exact NA|]. split; [exact SO|].
  destruct (C33_last_write_partial _ _ _ _ _ _ _ R E) as (a' & P' & NA' & AP' & _ & LD & LW). cbv zeta in LW.
  assert (a' = a) as ->. { destruct NA' as [Ha' Na']. eapply same_name_same; eauto; [apply (wf_names _ _ _ _ W)|congruence]. }
  assert (P' = P) as ->. { destruct AP as (v & q & F & X), AP' as (v' & q' & F' & X'). congruence. }
  rewrite (SP 0 PS) in LW.
  assert (ST : forall x, starts e2 a None x = if x =? p then 1%R else 0%R). { intros x. unfold starts, stands_on in *. now rewrite SO. }
  assert (PO : forall x, (0 < starts e2 a None x)%R <-> x = p). { intros x. rewrite ST. destruct (Nat.eqb_spec x p); split; intros; try lra; congruence. }
  assert (TR : forall act t, t < nst shape -> travels (e_mdp e2) p [act] t <-> walled_edge k shape st (m_walls (e_mdp e2)) p act t).
  { intros act t Ht. split.
    - intros T. destruct (travels_inv _ _ _ _ GI p act [] t Hp T) as (u & _ & WE & _ & T'). inversion T' as [x EX|]. subst. exact WE.
    - intros WE. apply (MDPProofs3.travels_one _ _ _ _ GI p act t Hp Ht WE). constructor. }
  intros t Ht SC. pose proof Ht as Ht'. rewrite NS in Ht'. destruct (LW t Ht) as [L1 L2].
  (* possible pairs that lead to t are edges *)
  assert (GO : forall act, act < actions_of k st -> goes e2 p act t -> walled_edge k shape st (m_walls (e_mdp e2)) p act t).
  { intros act La G. unfold goes in G. destruct (next_somewhere _ _ _ _ GI p act Hp La) as [(u & _ & WE & N)|[NO N]]; [assert (u = t) by congruence; now subst u|]. assert (t = 0) by congruence. subst t.
    destruct SC as [C|ALL]; [congruence|]. rewrite (gi_na _ _ _ _ GI) in ALL. destruct (ALL act La) as (u & T). destruct (travels_inv _ _ _ _ GI p act [] u Hp T) as (v & Lv & WE & _). elim (NO v Lv WE). }
  split.
  - intros act T. apply TR in T; [|exact Ht']. pose proof (edge_action _ _ _ _ _ _ (proj1 T)) as La.
    rewrite (L1 p act).
    + rewrite ST, Nat.eqb_refl. unfold times. destruct (nth act (nth p P []) NaN); try reflexivity. now rewrite Rmult_1_r.
    + rewrite PO. split; [lia|]. split; [reflexivity|exact La].
    + unfold goes. now apply (next_state_edge _ _ _ _ GI).
    + intros s2 act2 (_ & S2 & L2') EA G. apply PO in S2. subst s2. apply GO in G; [|exact L2']. assert (act = act2) by (eapply edge_unique_a; [apply T|apply G]). subst act2. destruct EA as [X|[_ X]]; cbn in X; lia.
  - intros NO. apply L2. intros s2 act (_ & S2 & La) G. apply PO in S2. subst s2. apply (NO act). apply TR; [exact Ht'|]. now apply GO.
Qed.

(** The first state is the exception, even for a greedy agent whose next step is certain: next to the food in state 0, in a corner where
    some action is impossible, it goes to state 0 for sure, and the probabilities returned are all zero. *)
Theorem C33_certain_step_refuted : exists m m' e e1 e2, grid_mdp (A:=Q) Square [[1; 0; 0; 0]]%Q None (2, 2) false = Ok m /\
  make_env m [mkSpec "q"%string 1%Z None 1%Z [1; 0]%Q []] = (m', Ok e) /\
  let pl := vi_greedy (9 # 10)%Q (1 # 10)%Q 3 in
  env_fit pl e "q" None 0 0 = (e1, Ok tt) /\ snd (env_step pl e1 "q" 0) = Ok 0%Z /\
  env_step_proba pl e1 "q" None 0 = (e2, Ok [Fin 0; Fin 0; Fin 0; Fin 0])%Q.
Proof. do 5 eexists. split; [vm_compute; reflexivity|]. split; [vm_compute; reflexivity|]. cbv zeta. split; [vm_compute; reflexivity|]. split; vm_compute; reflexivity. Qed.
(** From state 3 it goes to the food in state 1, and this is what is returned. *)
Example C194_example : exists m m' e e1 e2, grid_mdp (A:=Q) Square [[0; 1; 0; 0]]%Q None (2, 2) false = Ok m /\
  make_env m [mkSpec "q"%string 1%Z None 3%Z [1; 0]%Q []] = (m', Ok e) /\
  let pl := vi_greedy (9 # 10)%Q (1 # 10)%Q 3 in
  env_fit pl e "q" None 0 0 = (e1, Ok tt) /\ snd (env_step pl e1 "q" 0) = Ok 1%Z /\
  env_step_proba pl e1 "q" None 0 = (e2, Ok [Fin 0; Fin 1; Fin 0; Fin 0])%Q.
Proof. do 5 eexists. split; [vm_compute; reflexivity|]. split; [vm_compute; reflexivity|]. cbv zeta. split; [vm_compute; reflexivity|]. split; vm_compute; reflexivity. Qed.

(** The hypotheses are met, also after walls have been put around the agent. *)
Example C193_example : let pl := vi_greedy (A:=R) (9/10)%R (1/100)%R 5 in exists e a e1, reachable pl e /\ agent_named e "p" a /\ uses_vi pl "p" /\ selects_best pl "p" /\ gives_probabilities pl "p" /\
  env_fit pl e "p" None 0 0 = (e1, Ok tt) /\ exists e2 d, env_step_proba pl (run pl e1 [OSetWalls [0; 1; 1; 0]%R; OFit "q" None 0 0]) "p" None 0 = (e2, Ok d).
Proof.
  intros pl. destruct (C71_example pl) as (e & a & RE & NA & CR & _). destruct (C34_vi_plugin (9/10)%R (1/100)%R 5 "p") as [UV SB]. assert (GP : gives_probabilities pl "p") by now left.
  assert (PV : plans_with_vi pl "p" (9/10)%R (1/100)%R 5).
  { split; [reflexivity|]. intros e0 b n seed ND [Hb Nb]. cbn [pl vi_greedy pl_fit]. destruct (find_agent (e_agents e0) "p") as [c|] eqn:F.
    - unfold find_agent in F. apply find_some in F. destruct F as [Hc Nc]. apply String.eqb_eq in Nc. assert (c = b) by (eapply same_name_same; eauto; congruence). subst c. reflexivity.
    - unfold find_agent in F. pose proof (find_none _ _ F b Hb) as X. cbn in X. rewrite Nb, String.eqb_refl in X. discriminate. }
  destruct (C166_fit pl e "p" a (9/10)%R (1/100)%R 5 None 0 0 RE NA PV SB GP) as (e1 & EF); [lra|lia|].
  exists e, a, e1. split; [exact RE|]. split; [exact NA|]. split; [exact UV|]. split; [exact SB|]. split; [exact GP|]. split; [exact EF|].
  destruct (C193_succeeds pl e "p" None 0 0 e1 [OSetWalls [0; 1; 1; 0]%R; OFit "q" None 0 0] None 0 RE UV SB GP EF) as (e2 & d & E & _); [discriminate|]. eauto.
Qed.
