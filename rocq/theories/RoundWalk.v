(** C207: agents that plan in rounded arithmetic walk near the best path, and to a single goal along a shortest one. *)
From Coq Require Import String List ZArith QArith Reals Bool Lia Lra Psatz.
From Verif Require Import PyBase PyProofs GridModel GridSpec MDPModel MDPSpec MDPProofs2 ActionModel ActionSpec ActionProofs SoftmaxProofs RSum EnvModel EnvSpec StepSpec EnvProofs EnvProofs3 VISpec VIModel VIProofs VIProofs2 VIProps VIEnvProps MCTSSpec QuerySpec VIWalkSpec VIWalk GoalSpec GoalProps VIFit MCTSRun EnvProps RoundModel RoundSpec RoundProofs RoundProps.
From Flocq Require Import Core.
From Verif Require FitProps.
From Verif Require Import RoundExample.
Import ListNotations.
Local Close Scope Q_scope. Local Open Scope R_scope.

Section Rounded.
Variables (rnd : R -> R) (u eta : R).
Hypothesis RD : rounding rnd u eta.

Lemma float_accurate : forall pl e nm g tol k a w Vs, reachable pl e -> agent_named e nm a -> 0 < g < 1 -> g * (1 + u) ^ 2 < 1 -> rnd tol = tol -> 0 <= w ->
  let sas := m_sas (e_mdp e) in let r := reward_of (at_reward a) (m_features (e_mdp e)) in
  (forall t, (t < m_n_states (e_mdp e))%nat -> weight_of (at_reward a) (m_features (e_mdp e)) t <= w) ->
  let err := backup_error u eta (length (at_reward a)) w g in
  (1 + u) * ((1 + g) * g ^ k * (w / (1 - g)) + 2 * (err / (1 - g))) + eta < tol -> optimal sas r g Vs ->
  forall v q, @vi_fit R (NumF rnd) g tol (Z.of_nat (S k)) (e_mdp e) (at_reward a) = Ok (v, q) -> q_masked sas q /\ accurate sas r g Vs q ((g * tol + err) / (1 - g)).
Proof.
  intros pl e nm g tol k a w Vs RE NA G GU RT W sas r WB err TL O v q FV. destruct (reachable_wf _ _ RE) as (kd & shape & st & WF). pose proof (wf_grid _ _ _ _ WF) as GI.
  destruct (C206_grids pl (e_mdp e) (usable_again _ _ RE)) as [M SU]. fold sas in M, SU. destruct (grid_shape _ _ _ _ GI) as (N & _). pose proof (gi_ns _ _ _ _ GI) as NS. fold sas in N.
  assert (WB' : forall t, (t < n_states sas)%nat -> weight_of (at_reward a) (m_features (e_mdp e)) t <= w) by (intros t Ht; apply WB; lia).
  destruct (C206_solver rnd u eta RD sas (at_reward a) (m_features (e_mdp e)) k g tol w Vs (w / (1 - g)) M SU G GU (reward_length _ _ _ _ RE NA) RT W WB' O) as (v' & q' & E & L1 & L2 & L3 & MQ & _ & CL).
  { apply (C206_solution_bounded sas (at_reward a) (m_features (e_mdp e))); auto. lra. }
  { apply Rmult_le_pos; [exact W|left; apply Rinv_0_lt_compat; lra]. }
  unfold vi_fit in FV. fold sas in FV. rewrite E in FV. cbn [bind] in FV. injection FV as <- <-. destruct (CL TL) as [_ AC]. split; [|exact AC].
  split; [exact L2|]. intros s Hs. split; [auto|]. intros b Hb. destruct (MQ s b Hs Hb) as [Q1 Q2]. split; [|exact Q1]. split; [|exact Q2]. intros X P. destruct (Q1 P) as (x & EX). congruence.
Qed.

(** What the states walked through since planning pay is nearly the best return [x]: less only by twice the planner's error per step, and by what
    is still to come, and never more. *)
Theorem C207_walk : forall pl e nm g tol k n s s' e1 l rho w a i x a', reachable pl e -> plans_rounded rnd pl nm g tol (Z.of_nat (S k)) -> 0 < g < 1 -> g * (1 + u) ^ 2 < 1 -> rnd tol = tol ->
  env_fit pl e nm n s s' = (e1, Ok tt) -> agent_named e nm a -> stands_on (e_mdp e) (at_pos a) i -> state_valid_actions (e_mdp e) (Z.of_nat i) <> Ok [] ->
  let sas := m_sas (e_mdp e) in let r := reward_of (at_reward a) (m_features (e_mdp e)) in
  (forall t, (t < m_n_states (e_mdp e))%nat -> 0 <= r t <= rho /\ weight_of (at_reward a) (m_features (e_mdp e)) t <= w) ->
  let err := backup_error u eta (length (at_reward a)) w g in
  (1 + u) * ((1 + g) * g ^ k * (w / (1 - g)) + 2 * (err / (1 - g))) + eta < tol ->
  best_return sas r g (acts_possibly sas) i x ->
  Forall (lets_walk nm) l -> agent_named (run pl e1 l) nm a' ->
  exists ps, at_hist a' = at_hist a ++ map Z.of_nat ps /\ walk sas i ps /\
    x - 2 * (g * tol + err) / (1 - g) ^ 2 - g ^ length ps * rho / (1 - g) <= discounted g r ps <= x.
Proof.
  intros pl e nm g tol k n s s' e1 l rho w a i x a' RE PG G GU RT EF NA SO SV sas r R0 err TL BR FL NA'.
  destruct (reachable_wf _ _ RE) as (kd & shape & st & WF). pose proof (wf_grid _ _ _ _ WF) as GI. pose proof (grid_is_mdp _ _ _ _ GI) as M. fold sas in M.
  assert (Hi : (i < m_n_states (e_mdp e))%nat) by (eapply py_index_ok; eauto).
  assert (W : 0 <= w) by (destruct (R0 i Hi) as [_ H]; eapply Rle_trans; [|exact H]; eapply Rle_trans; [apply Rabs_pos|apply weight_bounds]).
  destruct (C29_unique_solution sas r g M ltac:(lra)) as (Vs & O & _).
  assert (ACC := float_accurate pl e nm g tol k a w Vs RE NA G GU RT W (fun t Ht => proj2 (R0 t Ht)) TL O). fold sas r err in ACC.
  destruct (walk_chain_any (@vi_fit R (NumF rnd) g tol (Z.of_nat (S k))) pl e nm g ((g * tol + err) / (1 - g)) n s s' e1 l rho a i a' Vs RE PG G EF NA SO SV) as (ps & _ & N & VB & RHO & LV & H1 & _ & H2); auto.
  { intros t Ht. apply (R0 t Ht). }
  fold sas r in N, VB, LV, H2.
  assert (EX : x = Vs i). { eapply best_return_unique; [exact BR|]. apply C31_nonnegative_partial; auto; [lra|intros t Ht; apply R0; lia|apply LV]. } subst x. assert (G1 : 0 < 1 - g) by lra. set (B := rho / (1 - g)) in *.
  assert (B0 : 0 <= B) by (apply Rmult_le_pos; [exact RHO|left; now apply Rinv_0_lt_compat]). exists ps. split; [exact H1|].
  assert (E0 : 0 <= (g * tol + err) / (1 - g)).
  { assert (U := u0 _ _ _ RD). assert (H0 := e0 _ _ _ RD). destruct (room_ok rnd u eta RD (length (at_reward a)) w g W ltac:(lra) GU) as [BP _]. pose proof (reward_error0 rnd u eta RD (length (at_reward a)) w W).
    assert (EP : 0 <= err). { unfold err, backup_error. assert (0 <= u * largest_value u eta (length (at_reward a)) w g) by (now apply Rmult_le_pos). lra. }
    assert (ED : 0 <= err / (1 - g)) by (apply Rmult_le_pos; [exact EP|left; now apply Rinv_0_lt_compat]).
    assert (0 < tol). { eapply Rle_lt_trans; [|exact TL]. assert (0 <= (1 + g) * g ^ k * (w / (1 - g))) by (repeat apply Rmult_le_pos; try lra; [apply pow_le; lra|left; now apply Rinv_0_lt_compat]). assert (0 <= (1 + u) * ((1 + g) * g ^ k * (w / (1 - g)) + 2 * (err / (1 - g)))) by (apply Rmult_le_pos; lra). lra. }
    apply Rmult_le_pos; [|left; now apply Rinv_0_lt_compat]. assert (0 <= g * tol) by (apply Rmult_le_pos; lra). lra. }
  destruct (walk_collects sas r g Vs (2 * ((g * tol + err) / (1 - g))) B G ltac:(lra) B0 VB ps i (proj1 LV) H2) as [H3 H4].
  split; [exact H4|]. replace (2 * (g * tol + err) / (1 - g) ^ 2) with (2 * ((g * tol + err) / (1 - g)) / (1 - g)) by (field; lra).
  replace (g ^ length ps * rho / (1 - g)) with (g ^ length ps * B) by (unfold B; field; lra). exact H3.
Qed.

(** The only reward is [R0] at the goal, [d] moves away. Each of the agent's first [d] moves brings it one move closer. *)
Theorem C207_shortest_path : forall pl e nm g tol k n s s' e1 a i goal R0 d w, reachable pl e -> plans_rounded rnd pl nm g tol (Z.of_nat (S k)) -> 0 < g < 1 -> g * (1 + u) ^ 2 < 1 -> rnd tol = tol ->
  env_fit pl e nm n s s' = (e1, Ok tt) -> agent_named e nm a -> stands_on (e_mdp e) (at_pos a) i -> fewest_moves (e_mdp e) i goal d -> (0 < d)%nat ->
  only_goal (e_mdp e) (reward_of (at_reward a) (m_features (e_mdp e))) goal R0 -> 0 < R0 ->
  (forall t, (t < m_n_states (e_mdp e))%nat -> weight_of (at_reward a) (m_features (e_mdp e)) t <= w) ->
  let err := backup_error u eta (length (at_reward a)) w g in
  (1 + u) * ((1 + g) * g ^ k * (w / (1 - g)) + 2 * (err / (1 - g))) + eta < tol -> 2 * (g * tol + err) < (1 - g) ^ 2 * g ^ (d - 1) * R0 ->
  (forall l a', Forall (lets_walk nm) l -> agent_named (run pl e1 l) nm a' ->
    exists ps, at_hist a' = at_hist a ++ map Z.of_nat ps /\ stands_on (e_mdp e) (at_pos a') (last ps i) /\ walk (m_sas (e_mdp e)) i ps /\
      (forall j, (j < d)%nat -> (j < length ps)%nat -> fewest_moves (e_mdp e) (nth j ps 0%nat) goal (d - 1 - j)) /\
      ((d <= length ps)%nat -> nth (d - 1) ps 0%nat = goal)) /\
  (consumes_in_range e -> forall seeds, length seeds = d ->
    exists a', agent_named (run pl e1 (map (OStep nm) seeds)) nm a' /\ stands_on (e_mdp e) (at_pos a') goal /\ length (at_hist a') = (length (at_hist a) + d)%nat).
Proof.
  intros pl e nm g tol k n s s' e1 a i goal R0 d w RE PG G GU RT EF NA SO FM Hd OG R0p WB err TL TB.
  destruct (reachable_wf _ _ RE) as (kd & shape & st & WF). pose proof (wf_grid _ _ _ _ WF) as GI. pose proof (grid_is_mdp _ _ _ _ GI) as M.
  set (sas := m_sas (e_mdp e)) in *. set (r := reward_of (at_reward a) (m_features (e_mdp e))) in *.
  assert (Hi : (i < m_n_states (e_mdp e))%nat) by (eapply py_index_ok; eauto).
  assert (W : 0 <= w) by (pose proof (WB i Hi) as H; eapply Rle_trans; [|exact H]; eapply Rle_trans; [apply Rabs_pos|apply weight_bounds]).
  destruct (C29_unique_solution sas r g M ltac:(lra)) as (Vs & O & _).
  assert (ACC := float_accurate pl e nm g tol k a w Vs RE NA G GU RT W WB TL O). fold sas r err in ACC.
  assert (TB' : 2 * ((g * tol + err) / (1 - g)) < (1 - g) * g ^ (d - 1) * R0).
  { apply (Rmult_lt_reg_r (1 - g)); [lra|]. replace (2 * ((g * tol + err) / (1 - g)) * (1 - g)) with (2 * (g * tol + err)) by (field; lra). eapply Rlt_le_trans; [exact TB|]. right. ring. }
  split.
  - intros l a' FL NA'. exact (shortest_any _ pl e nm g _ n s s' e1 l a i a' goal R0 d Vs RE PG G EF NA SO FM Hd OG R0p O ACC TB' FL NA').
  - intros CR seeds LS. exact (arrives_any _ pl e nm g _ n s s' e1 a i goal R0 d seeds Vs RE PG G EF NA SO FM Hd OG R0p O ACC TB' CR LS).
Qed.
(** Planning in rounded arithmetic succeeds, whatever the walls, the features and the weights are. *)
Theorem C207_fit : forall pl e nm a g tol k n s s', reachable pl e -> agent_named e nm a -> plans_rounded rnd pl nm g tol (Z.of_nat (S k)) -> 0 < g < 1 -> g * (1 + u) ^ 2 < 1 -> rnd tol = tol ->
  exists e1, env_fit pl e nm n s s' = (e1, Ok tt).
Proof.
  intros pl e nm a g tol k n s s' RE NA (PV & SB & GP) G GU RT. destruct (reachable_wf _ _ RE) as (kd & shape & st & W). pose proof NA as [Ha EN]. pose proof (wf_grid _ _ _ _ W) as GI.
  destruct (grid_shape _ _ _ _ GI) as (NS & NAC & _). destruct (C206_grids pl (e_mdp e) (usable_again _ _ RE)) as [M SU]. pose proof (gi_pos _ _ _ _ GI) as PS.
  destruct (bounded (n_states (m_sas (e_mdp e))) (weight_of (at_reward a) (m_features (e_mdp e))) (fun _ => 0)) as (w & W0 & NW).
  destruct (C29_unique_solution (m_sas (e_mdp e)) (reward_of (at_reward a) (m_features (e_mdp e))) g M ltac:(lra)) as (Vs & O & _).
  destruct (bounded (n_states (m_sas (e_mdp e))) (fun _ => 0) Vs) as (C & C0 & NC).
  destruct (C206_solver rnd u eta RD (m_sas (e_mdp e)) (at_reward a) (m_features (e_mdp e)) k g tol w Vs C M SU G GU (reward_length _ _ _ _ RE NA) RT W0) as (v & q & E & L1 & L2 & L3 & MQ & _); auto.
  { intros t Ht. specialize (NW t Ht). rewrite Rminus_0_r in NW. eapply Rle_trans; [apply Rle_abs|exact NW]. }
  unfold env_fit. rewrite (FitProps.lookup_named _ _ _ _ RE NA). unfold alg_fit. destruct (wf_agents _ _ _ _ W a Ha) as (_ & _ & _ & LRW & _). rewrite LRW, Nat.eqb_refl. cbn [negb].
  rewrite EN, (PV e a n s (wf_names _ _ _ _ W) NA). unfold vi_fit. rewrite E. cbn [bind].
  assert (RDB : readable (nst shape) (actions_of kd st) q).
  { rewrite <- NS, <- NAC. split; [exact L2|]. intros row Hr. apply (In_nth _ _ []) in Hr. destruct Hr as (x & Hx & <-). rewrite L2 in Hx. split; [auto|]. intros z Hz. apply (In_nth _ _ NaN) in Hz.
    destruct Hz as (b & Hb & <-). rewrite L3 in Hb by exact Hx. destruct (MQ x b Hx Hb) as [Q1 Q2]. destruct (possible_dec (m_sas (e_mdp e)) x b); auto. }
  pose proof RDB as [RL RR]. rewrite map_length, L1, RL, NS, (gi_ns _ _ _ _ GI), Nat.eqb_refl. cbn [negb].
  replace (forallb _ _) with true by (symmetry; apply forallb_forall; intros row Hr; apply Nat.eqb_eq; rewrite (gi_na _ _ _ _ GI); now apply RR). cbn [negb].
  pose proof (actions_pos kd st) as AP.
  destruct (readable_selects pl nm _ _ _ PS AP RDB (or_introl SB) s') as (pi & Epi & _). destruct (readable_probabilities pl nm _ _ _ PS AP RDB (or_introl GP)) as (p & Ep).
  unfold get_policy. cbn [at_fit set_fit at_name]. rewrite EN, Ep, Epi. eauto.
Qed.
End Rounded.

(** With the settings ValueIteration has by default, in float64: a goal that is at most 100 moves away is reached along a shortest path, if its reward is
    at least 1, there are at most 1000 features and the sizes of their weights sum to at most 1000 in every state. *)
Theorem C207_defaults : forall pl e nm n s s' e1 a i goal R0 d, reachable pl e -> plans_rounded float64 pl nm g64 tol64 500 ->
  env_fit pl e nm n s s' = (e1, Ok tt) -> agent_named e nm a -> stands_on (e_mdp e) (at_pos a) i -> fewest_moves (e_mdp e) i goal d -> (0 < d <= 100)%nat ->
  only_goal (e_mdp e) (reward_of (at_reward a) (m_features (e_mdp e))) goal R0 -> 1 <= R0 -> (length (at_reward a) <= 1000)%nat ->
  (forall t, (t < m_n_states (e_mdp e))%nat -> weight_of (at_reward a) (m_features (e_mdp e)) t <= 1000) ->
  (forall l a', Forall (lets_walk nm) l -> agent_named (run pl e1 l) nm a' ->
    exists ps, at_hist a' = at_hist a ++ map Z.of_nat ps /\ stands_on (e_mdp e) (at_pos a') (last ps i) /\ walk (m_sas (e_mdp e)) i ps /\
      (forall j, (j < d)%nat -> (j < length ps)%nat -> fewest_moves (e_mdp e) (nth j ps 0%nat) goal (d - 1 - j)) /\
      ((d <= length ps)%nat -> nth (d - 1) ps 0%nat = goal)) /\
  (consumes_in_range e -> forall seeds, length seeds = d ->
    exists a', agent_named (run pl e1 (map (OStep nm) seeds)) nm a' /\ stands_on (e_mdp e) (at_pos a') goal /\ length (at_hist a') = (length (at_hist a) + d)%nat).
Proof.
  intros pl e nm n s s' e1 a i goal R0 d RE PG EF NA SO FM Hd OG HR L3 WB. destruct (default_numbers (length (at_reward a)) L3) as (GB & RT & GU & EB & _ & TL). apply Rabs_le_inv in GB.
  apply (C207_shortest_path float64 u64 eta64 C206_float64 pl e nm g64 tol64 499 n s s' e1 a i goal R0 d 1000); auto; try lra; try lia.
  set (g := g64) in *. assert (P21 : 1 / 10 < (8999 / 10000) ^ 21) by (cbn [pow]; lra).
  assert (P : (1 / 10) ^ 5 <= g ^ 105). { replace 105%nat with (21 * 5)%nat by reflexivity. rewrite pow_mult. apply pow_incr. split; [lra|]. apply Rle_trans with ((8999 / 10000) ^ 21); [lra|]. apply pow_incr. lra. }
  assert (P' : g ^ 105 <= g ^ (d - 1)) by (apply pow_anti; [lra|lia]).
  assert (Q : (1 / 10) ^ 5 * 1 <= g ^ (d - 1) * R0) by (apply Rmult_le_compat; [apply pow_le; lra|lra|lra|lra]).
  assert (Q2 : (99 / 1000) ^ 2 <= (1 - g) ^ 2) by (apply pow_incr; lra).
  apply Rlt_le_trans with ((99 / 1000) ^ 2 * ((1 / 10) ^ 5 * 1)); [cbn [pow]; lra|]. rewrite Rmult_assoc. apply Rmult_le_compat; [apply pow_le; lra| |exact Q2|exact Q]. rewrite Rmult_1_r. apply pow_le. lra.
Qed.

(** ** An agent three squares wide

    Three squares in a row, a reward at the far end, an agent at the other. *)
Definition rounded_greedy (rnd : R -> R) (g tol : R) (mi : Z) : plugins R :=
  mkPlugins (fun nm e _ _ => match find_agent (e_agents e) nm with Some a => @vi_fit R (NumF rnd) g tol mi (e_mdp e) (at_reward a) | None => Err KeyError end)
    (fun _ seed => max_get_pi (fun _ => seed)) (fun _ => max_get_pi_p) (fun _ => false).
Example C207_plugin : forall rnd g tol mi nm, plans_rounded rnd (rounded_greedy rnd g tol mi) nm g tol mi.
Proof.
  intros rnd g tol mi nm. split; [|split; [intros seed; exists (fun _ => seed); reflexivity|reflexivity]]. intros e a n seed ND [Ha Na]. cbn [rounded_greedy pl_fit]. destruct (find_agent (e_agents e) nm) as [b|] eqn:F.
  - unfold find_agent in F. apply find_some in F. destruct F as [Hb Nb]. apply String.eqb_eq in Nb. assert (b = a) by (eapply same_name_same; eauto; congruence). now subst b.
  - unfold find_agent in F. pose proof (find_none _ _ F a Ha) as X. cbn in X. rewrite Na, String.eqb_refl in X. discriminate.
Qed.
Example C207_example : let pl := rounded_greedy float64 g64 tol64 500 in exists m m' e a e1,
  grid_mdp (A:=R) Square [[0; 0; 1]] None (1, 3)%nat false = Ok m /\ make_env m [mkSpec "p"%string 1%Z None 0%Z [5; 0] []] = (m', Ok e) /\
  agent_named e "p" a /\ fewest_moves (e_mdp e) 0 2 2 /\ only_goal (e_mdp e) (reward_of (at_reward a) (m_features (e_mdp e))) 2 5 /\
  env_fit pl e "p" None 0 0 = (e1, Ok tt) /\
  forall x y, exists a', agent_named (run pl e1 [OStep "p" x; OStep "p" y]) "p" a' /\ stands_on (e_mdp e) (at_pos a') 2.
Proof.
  intros pl. destruct (grid_mdp_ok Square [[0; 0; 1]] None (1, 3)%nat false) as (m & EG & G & MW & MF & _ & NF & NAG & NN); [cbn; lia|repeat constructor|reflexivity|apply binary_zeros|].
  assert (U : usable pl m) by exact (usable_grid pl _ _ _ _ _ _ [] EG). pose proof (gi_ns _ _ _ _ G) as NS. change (nst (1, 3)%nat) with 3%nat in NS.
  assert (NO : n_ordinary m = 1%nat) by (unfold n_ordinary; rewrite NF, NAG; reflexivity).
  set (sp := mkSpec "p"%string 1%Z None 0%Z [5; 0] []).
  destruct (proj2 (C17_accepts_iff pl m [sp] U)) as (m' & e & E). { intros s [<-|[]]. rewrite NO, NS. split; [reflexivity|]. split; [intros z []|cbn; lia]. }
  destruct (C17_result pl m [sp] m' e U ltac:(repeat constructor; auto) E) as (EM & _ & _ & _ & LA & HI & NF' & FT & ES & _). cbn [length] in LA, NF'.
  destruct (HI 0%nat sp eq_refl) as (a & EA & (F1 & _ & F3 & F4 & _ & _ & _ & _ & F9 & _) & (p & SP & FA)).
  assert (RE : reachable pl e) by (eapply reach_new; eauto).
  assert (NA : agent_named e "p" a). { split; [eapply nth_error_In; eauto|exact F1]. }
  destruct (reachable_wf _ _ RE) as (kd & shape & st & W). pose proof (wf_grid _ _ _ _ W) as GI. pose proof (gi_ns _ _ _ _ GI) as NS'.
  assert (N3 : nst shape = 3%nat). { destruct (grid_shape _ _ _ _ GI) as (X & _). destruct (grid_shape _ _ _ _ G) as (Y & _). rewrite EM, ES in X. rewrite X in Y. exact Y. }
  assert (GO : forall s t, (s < 3)%nat -> (can_go (m_sas m) s t <-> (t < 3)%nat /\ exists act, walled_edge Square (1, 3)%nat false (m_walls m) s act t)) by (intros s t Hs; exact (go_edge _ _ _ _ G s t Hs)).
  assert (NW : forall s, ~ is_wall (m_walls m) s). { intros s. rewrite MW. unfold is_wall, walls_arg, nst. cbn [fst snd Nat.mul Nat.add]. destruct s as [|[|[|[|]]]]; cbn; lra. }
  assert (FM : fewest_moves (e_mdp e) 0 2 2).
  { apply (fewest_least kd shape st); [exact GI|lia|]. rewrite EM, ES. split.
    - exists 1%nat. split; [apply GO; [lia|]; split; [lia|]; exists 0%nat; split; [left; split; [cbn; lia|reflexivity]|auto]|].
      exists 2%nat. split; [apply GO; [lia|]; split; [lia|]; exists 0%nat; split; [left; split; [cbn; lia|reflexivity]|auto]|reflexivity].
    - intros [|[|x]] P; [discriminate|exfalso|lia]. destruct P as (t & C & T). cbn [path] in T. subst t. apply GO in C; [|lia]. destruct C as (_ & act & [[Ha EQ]|[X _]] & _); [|discriminate].
      cbn in Ha. destruct act as [|[|[|[|]]]]; [| | | |lia]; cbn in EQ; discriminate. }
  destruct (proj1 (table_shape _) (wf_table _ _ _ _ W)) as [LF _]. rewrite EM in LF. rewrite NF', NO in LF.
  assert (WT : forall t, (t < 3)%nat -> nth t (nth 0 (m_features m') []) 0 = if (t =? 2)%nat then 1 else 0).
  { intros t Ht. pose proof (FT 0%nat t ltac:(lia)) as X. unfold feat, get2 in X. rewrite X, MF. destruct t as [|[|[|]]]; [reflexivity|reflexivity|reflexivity|lia]. }
  assert (RW : forall t, (t < 3)%nat -> reward_of (at_reward a) (m_features m') t = if (t =? 2)%nat then 5 else 0).
  { intros t Ht. unfold reward_of. rewrite F3. change (seq 0 (length (sp_reward sp))) with [0%nat; 1%nat]. rewrite !sumf_cons, sumf_nil, WT by exact Ht. cbn [sp sp_reward nth]. destruct (t =? 2)%nat; lra. }
  assert (WW : forall t, (t < 3)%nat -> weight_of (at_reward a) (m_features m') t <= 1000).
  { intros t Ht. unfold weight_of. rewrite F3. change (seq 0 (length (sp_reward sp))) with [0%nat; 1%nat]. rewrite !sumf_cons, sumf_nil, WT by exact Ht. cbn [sp sp_reward nth]. rewrite Rmult_0_l, Rabs_R0. destruct (t =? 2)%nat; [rewrite Rmult_1_r, Rabs_pos_eq; lra|rewrite Rmult_0_r, Rabs_R0; lra]. }
  assert (OG : only_goal (e_mdp e) (reward_of (at_reward a) (m_features (e_mdp e))) 2 5).
  { rewrite EM. split; [rewrite <- EM, NS', N3; lia|]. split; [now rewrite RW by lia|]. intros t Ht NE. rewrite <- EM, NS', N3 in Ht. rewrite RW by exact Ht. destruct (Nat.eqb_spec t 2); [contradiction|reflexivity]. }
  assert (NB := default_numbers 2 ltac:(lia)). destruct NB as (GB & RT & GU & _).
  assert (GR : 0 < g64 < 1) by (apply Rabs_le2_inv in GB; lra).
  destruct (C207_fit float64 u64 eta64 C206_float64 pl e "p" a g64 tol64 499 None 0 0 RE NA (C207_plugin _ _ _ _ _) GR GU RT) as (e1 & EF).
  exists m, m', e, a, e1. split; [exact EG|]. split; [exact E|]. split; [exact NA|]. split; [exact FM|]. split; [exact OG|]. split; [exact EF|]. intros x y.
  destruct (C207_defaults pl e "p" None 0 0 e1 a 0 2 5 2 RE (C207_plugin _ _ _ _ _) EF NA) as [_ AR].
  - unfold stands_on. rewrite F9, NS', N3. reflexivity.
  - exact FM.
  - lia.
  - exact OG.
  - lra.
  - rewrite F3. cbn. lia.
  - intros t Ht. rewrite NS', N3 in Ht. rewrite EM. now apply WW.
  - destruct (AR) with (seeds := [x; y]) as (a' & H1 & H2 & _); [|reflexivity|eauto].
    intros b Hb z Hz. destruct (e_agents e) as [|b0 [|]] eqn:EL; cbn in LA; try lia. cbn in EA. injection EA as ->. destruct Hb as [<-|[]]. rewrite F4 in Hz. destruct Hz.
Qed.

(** C206 applies to the grid of this example. *)
Example C206_example : exists m Vs v q, grid_mdp (A:=R) Square [[0; 0; 1]] None (1, 3)%nat false = Ok m /\ n_states (m_sas m) = 3%nat /\ optimal (m_sas m) (reward_of [5] (m_features m)) g64 Vs /\
  @solve_value_iteration R (NumF float64) (@hard_backup R (NumF float64)) [5] (m_features m) 500 g64 (m_sas m) tol64 = Ok (v, q) /\ forall s, (s < 3)%nat -> Rabs (nth s v 0 - Vs s) <= / 10 ^ 7.
Proof.
  destruct (grid_mdp_ok Square [[0; 0; 1]] None (1, 3)%nat false) as (m & EG & G & _ & MF & _); [cbn; lia|repeat constructor|reflexivity|apply binary_zeros|].
  assert (U : usable (rounded_greedy float64 g64 tol64 500) m) by exact (usable_grid _ _ _ _ _ _ _ [] EG). destruct (C206_grids _ _ U) as [M SU]. destruct (grid_shape _ _ _ _ G) as (NS & _). change (nst (1, 3)%nat) with 3%nat in NS.
  destruct (default_numbers 1 ltac:(lia)) as (GB & _). apply Rabs_le_inv in GB.
  destruct (C29_unique_solution (m_sas m) (reward_of [5] (m_features m)) g64 M ltac:(lra)) as (Vs & O & _).
  destruct (C206_defaults (m_sas m) [5] (m_features m) Vs M SU) as (v & q & E & H & _); [now rewrite MF|cbn; lia| |exact O|].
  - intros t Ht. rewrite MF. unfold weight_of. cbn [length seq]. rewrite sumf_cons, sumf_nil. cbn [nth]. rewrite Rplus_0_r. destruct t as [|[|[|]]]; [| | |lia]; cbn [nth]; rewrite Rabs_pos_eq; lra.
  - exists m, Vs, v, q. split; [exact EG|]. split; [exact NS|]. split; [exact O|]. split; [exact E|]. intros s Hs. apply H. now rewrite NS.
Qed.
