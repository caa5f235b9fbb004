(** C213: agents that plan with value iteration and choose by softmax, all in rounded arithmetic. *)
From Coq Require Import String List ZArith QArith Reals Bool Lia Lra Psatz.
From Verif Require Import PyBase PyProofs GridModel GridSpec MDPModel MDPSpec MDPProofs2 MDPProofs3 MDPProofs4 MDPProps ActionModel ActionSpec ActionProofs ActionProps SoftmaxModel SoftmaxProofs RSum EnvModel PlanProps EnvSpec StepSpec EnvProofs EnvProofs2 EnvProofs3 EnvProofs4 EnvProofs5 StepProps VISpec VIModel VIProofs VIProofs2 VIProps VIEnvProps MCTSSpec QuerySpec VIWalkSpec VIWalk GoalSpec GoalProps VIFit MCTSRun MCTSFit EnvProps RoundModel RoundSpec RoundProofs RoundProps RoundExample RoundWalk SoftRoundModel SoftRoundSpec SoftRound SoftRound2 SoftRoundExample OverExample.
From Verif Require FitProps.
From Verif Require Import VISpec VIWalk MCTSSpec.
Import ListNotations.
Local Close Scope Q_scope. Local Open Scope R_scope.

(** The agent [nm] plans with value iteration and chooses by softmax at temperature [T], in rounded arithmetic; draws are arbitrary. *)
Definition plans_and_samples (rnd ex : R -> R) (atol T : R) (pl : plugins R) (nm : string) (g tol : R) (iters : Z) : Prop :=
  (forall e a n seed, NoDup (map at_name (e_agents e)) -> agent_named e nm a -> pl_fit pl nm e n seed = @vi_fit R (NumF rnd) g tol iters (e_mdp e) (at_reward a)) /\
  (forall seed, exists us, (forall s, 0 <= us s < 1) /\ pl_pi pl nm seed = softmax_get_pi_r rnd ex atol T us) /\ pl_pi_p pl nm = softmax_get_pi_p_r rnd ex T.

(** A possible action leads to exactly one state, from which the agent can move on. *)
Lemma possible_moves : forall k shape st (e : env R) (p : Z) t i act, wf k shape st e -> stands_on (e_mdp e) p i -> (i < n_states (m_sas (e_mdp e)))%nat ->
  (act < n_actions (m_sas (e_mdp e)))%nat -> possible (m_sas (e_mdp e)) i act -> get_next_state (e_mdp e) p (Z.of_nat act) = Ok t -> (t < m_n_states (e_mdp e))%nat ->
  can_go (m_sas (e_mdp e)) i t /\ live (m_sas (e_mdp e)) t.
Proof.
  intros k shape st e p t i act W SO Hi Ha P NX Ht. pose proof (wf_grid _ _ _ _ W) as G. destruct (grid_shape _ _ _ _ G) as (N & NAC & _). pose proof (gi_ns _ _ _ _ G) as NS.
  assert (Hi' : (i < nst shape)%nat) by lia. assert (Ha' : (act < actions_of k st)%nat) by lia.
  assert (ED1 : walled_edge k shape st (m_walls (e_mdp e)) i act t).
  { destruct P as (u & Hu & PU). destruct (inv_edge _ _ _ _ G i act u Hi' Ha' ltac:(lia)) as [[_ WE]|[Z _]]; [|rewrite <- get3_prob, Z in PU; lra].
    pose proof (next_state_edge _ _ _ _ G i act u Hi' ltac:(lia) WE) as X.
    destruct (step_moves _ _ _ _ _ _ _ G NX ltac:(lia)) as (i2 & va & SO2 & EV & [[I TR]|[NI _]]).
    - unfold stands_on in SO, SO2. rewrite SO in SO2. inversion SO2. subst i2. rewrite Nat2Z.id in TR. destruct (travels_inv _ _ _ _ G i act [] t Hi' TR) as (t2 & _ & WE2 & _ & T2). inversion T2. now subst.
    - unfold stands_on in SO, SO2. rewrite SO in SO2. inversion SO2. subst i2. exfalso. apply NI. rewrite Nat2Z.id. apply (possible_valid _ _ _ _ _ _ G Hi' EV). split; [lia|]. exists u. auto. }
  assert (Ht' : (t < nst shape)%nat) by lia. split.
  - apply (go_edge _ _ _ _ G i t Hi'). split; [exact Ht'|eauto].
  - split; [lia|]. destruct ED1 as (E0 & W1 & W2). destruct (edge_back _ _ _ _ _ _ E0) as (b & EB). assert (WB : walled_edge k shape st (m_walls (e_mdp e)) t b i) by (split; auto).
    destruct (in_valid_actions _ _ _ _ G t Ht') as (va & EV & IV). exists b. apply (possible_valid _ _ _ _ _ _ G Ht' EV). apply IV. exists i. auto.
Qed.

Section Rounded.
Variables (rnd ex : R -> R) (u eta ux etax : R).
Hypothesis RD : rounding rnd u eta.
Hypothesis RE : rounded_exp rnd ex ux etax.

Lemma readable_clean : forall ns na q, readable ns na q -> ActionModel.clean q = q.
Proof.
  intros ns na q [_ H]. unfold ActionModel.clean. rewrite <- (map_id q) at 2. apply map_ext_in. intros row Hr. rewrite <- (map_id row) at 2. apply map_ext_in. intros w Hw. destruct (H row Hr) as [_ X]. destruct (X w Hw) as [->|(x & ->)]; reflexivity.
Qed.
Lemma pi_from_r : forall atol T us ns na q s0, 0 < T -> (0 < na)%nat -> precise u eta ux etax T atol na -> (forall s, 0 <= us s < 1) -> readable ns na q ->
  exists pi, softmax_pi_from_r rnd atol s0 us (map (fun row => softmax_r rnd ex row T) q) = Ok pi /\ length pi = length q /\
    forall s, (s < length q)%nat -> exists act, nth s pi 0%Z = Z.of_nat act /\ (act < na)%nat /\ ((exists x, In (Fin x) (nth s q [])) -> exists x, nth act (nth s q []) NaN = Fin x).
Proof.
  intros atol T us ns na q s0 T0 Hna (P1 & P2 & P3 & P4 & P5 & P6) HU [_ H]. clear ns. revert s0. induction q as [|row q IH]; intros s0; [exists []; split; [reflexivity|]; split; [reflexivity|cbn; intros; lia]|].
  destruct (H row (or_introl eq_refl)) as [LR HW]. destruct (C212_choice rnd ex u eta ux etax RD RE T T0 P1 atol row (us s0)) as (a & EA & LA & FA); rewrite ?LR; auto.
  { intros x Hx. destruct (HW x Hx) as [->|(y & ->)]; split; discriminate. } { intros ->. cbn in LR. lia. }
  destruct (IH (fun r Hr => H r (or_intror Hr)) (S s0)) as (pi & EP & LP & HP). exists (Z.of_nat a :: pi). cbn [map softmax_pi_from_r]. rewrite EA. cbn [bind]. rewrite EP. split; [reflexivity|]. split; [cbn; lia|].
  intros [|s] Hs; cbn [nth]; [exists a; rewrite <- LR at 1; auto|]. apply HP. cbn in Hs. lia.
Qed.
Lemma soft_selects : forall pl nm atol T g tol k ns na q, (0 < ns)%nat -> (0 < na)%nat -> readable ns na q -> 0 < T -> precise u eta ux etax T atol na -> plans_and_samples rnd ex atol T pl nm g tol k ->
  forall seed, exists pi p, get_pi (pl_pi pl nm seed) q = Ok pi /\ get_pi_p (pl_pi_p pl nm) q = Ok p /\ length pi = ns /\
    forall s, (s < ns)%nat -> exists act, nth s pi 0%Z = Z.of_nat act /\ (act < na)%nat /\ ((exists x, In (Fin x) (nth s q [])) -> exists x, nth act (nth s q []) NaN = Fin x).
Proof.
  intros pl nm atol T g tol k ns na q Hn Hna RB T0 PR (_ & SB & GP) seed. destruct (SB seed) as (us & HU & ->). rewrite GP. destruct (readable_rows _ _ _ Hn Hna RB) as [RR (row0 & Hr0 & KN)]. pose proof (readable_clean _ _ _ RB) as CL. pose proof RB as [L H].
  assert (CQ : check_q_values q = Ok tt).
  { unfold check_q_values. destruct (forallb (forallb isnan) q) eqn:X; [|reflexivity]. exfalso. rewrite forallb_forall in X. specialize (X _ Hr0). rewrite forallb_forall in X. destruct KN as (w & Hw & NW). specialize (X w Hw). destruct w; try discriminate. congruence. }
  assert (NS : forall row, In row q -> nan_state row = false) by (intros row Hr; destruct (RR row Hr) as (_ & _ & _ & K & UM); exact (proj2 (nan_state_false _) (conj K UM))).
  destruct (pi_from_r atol T us ns na q 0 T0 Hna PR HU RB) as (pi & EP & LP & HP). exists pi.
  set (p := map (fun row => softmax_r rnd ex row T) q). assert (LPP : length p = length q) by apply map_length.
  assert (SL : forall row, In row q -> length (softmax_r rnd ex row T) = length row).
  { intros row Hr. unfold softmax_r. destruct (forallb isninf row) eqn:E; [apply map_length|]. destruct row as [|x row]; [discriminate|]. cbn [fmax_list]. now rewrite !map_length. }
  assert (CO : forall (l : list (list (fval R))) pl, length pl = length l -> (forall row, In row l -> nan_state row = false) -> map (fun '(row, a) => if nan_state row then (-1)%Z else a) (combine l pl) = pl).
  { clear. induction l as [|row l IH]; intros [|a pl] E N; try discriminate; [reflexivity|]. cbn [combine map]. rewrite N by now left. f_equal. apply IH; [cbn in E; lia|intros; apply N; now right]. }
  assert (CP : map (fun '(row, prow) => if nan_state row then map (fun _ => NaN) prow else prow) (combine q p) = p).
  { unfold p. clear - NS. induction q as [|row q IH]; [reflexivity|]. cbn [map combine]. rewrite NS by now left. f_equal. apply IH. intros; apply NS; now right. }
  exists p. split; [|split; [|split; [congruence|intros s Hs; apply HP; congruence]]].
  - unfold get_pi. rewrite CQ, CL. cbn [bind softmax_get_pi_r softmax_get_pi_p_r]. unfold softmax_get_pi_r, softmax_get_pi_p_r. cbn [bind]. rewrite EP. cbn [bind]. rewrite LP, Nat.eqb_refl. cbn [negb]. f_equal. now apply CO.
  - unfold get_pi_p. rewrite CQ, CL. unfold softmax_get_pi_p_r. cbn [bind]. fold p. rewrite LPP, Nat.eqb_refl. cbn [negb]. rewrite CP. cbv zeta.
    replace (forallb _ _) with true; [reflexivity|]. symmetry. apply forallb_forall. intros [row prow] Hc. unfold p in Hc. apply Nat.eqb_eq. clear - Hc SL. induction q as [|r q IH]; [destruct Hc|]. cbn [map combine] in Hc. destruct Hc as [E|Hc]; [injection E as <- <-; symmetry; apply SL; now left|]. apply IH; [intros; apply SL; now right|exact Hc].
Qed.

(** What the planner returns. *)
Lemma planned_table : forall pl e nm a g tol k, reachable pl e -> agent_named e nm a -> 0 < g < 1 -> g * (1 + u) ^ 2 < 1 -> rnd tol = tol ->
  exists v q, @vi_fit R (NumF rnd) g tol (Z.of_nat (S k)) (e_mdp e) (at_reward a) = Ok (v, q) /\ length v = n_states (m_sas (e_mdp e)) /\ readable (n_states (m_sas (e_mdp e))) (n_actions (m_sas (e_mdp e))) q /\
    q_masked (m_sas (e_mdp e)) q.
Proof.
  intros pl e nm a g tol k RE0 NA G GU RT. destruct (C206_grids pl (e_mdp e) (usable_again _ _ RE0)) as [M SU].
  destruct (bounded (n_states (m_sas (e_mdp e))) (weight_of (at_reward a) (m_features (e_mdp e))) (fun _ => 0)) as (w & W0 & NW).
  destruct (C29_unique_solution (m_sas (e_mdp e)) (reward_of (at_reward a) (m_features (e_mdp e))) g M ltac:(lra)) as (Vs & O & _).
  destruct (bounded (n_states (m_sas (e_mdp e))) (fun _ => 0) Vs) as (C & C0 & NC).
  destruct (C206_solver rnd u eta RD (m_sas (e_mdp e)) (at_reward a) (m_features (e_mdp e)) k g tol w Vs C M SU G GU (reward_length _ _ _ _ RE0 NA) RT W0) as (v & q & E & L1 & L2 & L3 & MQ & _); auto.
  { intros t Ht. specialize (NW t Ht). rewrite Rminus_0_r in NW. eapply Rle_trans; [apply Rle_abs|exact NW]. }
  unfold vi_fit. rewrite E. cbn [bind]. do 2 eexists. split; [reflexivity|]. split; [now rewrite map_length|]. split.
  - split; [exact L2|]. intros row Hr. apply (In_nth _ _ []) in Hr. destruct Hr as (x & Hx & <-). rewrite L2 in Hx. split; [auto|]. intros z Hz. apply (In_nth _ _ NaN) in Hz.
    destruct Hz as (b & Hb & <-). rewrite L3 in Hb by exact Hx. destruct (MQ x b Hx Hb) as [Q1 Q2]. destruct (possible_dec (m_sas (e_mdp e)) x b); auto.
  - split; [exact L2|]. intros s Hs. split; [auto|]. intros b Hb. destruct (MQ s b Hs Hb) as [Q1 Q2]. split; [|exact Q1]. split; [|exact Q2]. intros X P. destruct (Q1 P) as (x & EX). congruence.
Qed.

Theorem C213_fit : forall pl e nm a atol T g tol k n s s', reachable pl e -> agent_named e nm a -> plans_and_samples rnd ex atol T pl nm g tol (Z.of_nat (S k)) ->
  0 < T -> precise u eta ux etax T atol (m_n_actions (e_mdp e)) -> 0 < g < 1 -> g * (1 + u) ^ 2 < 1 -> rnd tol = tol -> exists e1, env_fit pl e nm n s s' = (e1, Ok tt).
Proof.
  intros pl e nm a atol T g tol k n s s' RE0 NA PS T0 PR G GU RT. pose proof PS as (PV & _). destruct (reachable_wf _ _ RE0) as (kd & shape & st & W). pose proof NA as [Ha EN]. pose proof (wf_grid _ _ _ _ W) as GI.
  destruct (grid_shape _ _ _ _ GI) as (NS & NAC & _). pose proof (gi_pos _ _ _ _ GI) as PO. pose proof (actions_pos kd st) as AP. destruct (planned_table pl e nm a g tol k RE0 NA G GU RT) as (v & q & E & LV & RB & _).
  unfold env_fit. rewrite (FitProps.lookup_named _ _ _ _ RE0 NA). unfold alg_fit. destruct (wf_agents _ _ _ _ W a Ha) as (_ & _ & _ & LRW & _). rewrite LRW, Nat.eqb_refl. cbn [negb].
  rewrite EN, (PV e a n s (wf_names _ _ _ _ W) NA), E. cbn [bind]. pose proof RB as [RL RR]. rewrite LV, RL, NS, (gi_ns _ _ _ _ GI), Nat.eqb_refl. cbn [negb].
  replace (forallb _ _) with true by (symmetry; apply forallb_forall; intros row Hr; apply Nat.eqb_eq; rewrite (gi_na _ _ _ _ GI), <- NAC; now apply RR). cbn [negb].
  rewrite NS, NAC in RB. rewrite (gi_na _ _ _ _ GI) in PR. destruct (soft_selects pl nm atol T g tol _ _ _ q PO AP RB T0 PR PS s') as (pi & p & Epi & Ep & _).
  unfold get_policy. cbn [at_fit set_fit at_name]. rewrite EN, Ep, Epi. eauto.
Qed.

(** After planning, the agent walks: each state it reaches is one it can go to from the last one, and stepping never raises. *)
Theorem C213_walk : forall pl e nm atol T g tol k n s s' e1 l a i a', reachable pl e -> plans_and_samples rnd ex atol T pl nm g tol (Z.of_nat (S k)) ->
  0 < T -> precise u eta ux etax T atol (m_n_actions (e_mdp e)) -> 0 < g < 1 -> g * (1 + u) ^ 2 < 1 -> rnd tol = tol ->
  env_fit pl e nm n s s' = (e1, Ok tt) -> agent_named e nm a -> stands_on (e_mdp e) (at_pos a) i -> state_valid_actions (e_mdp e) (Z.of_nat i) <> Ok [] ->
  Forall (lets_walk nm) l -> agent_named (run pl e1 l) nm a' ->
  (exists ps, at_hist a' = at_hist a ++ map Z.of_nat ps /\ stands_on (e_mdp e) (at_pos a') (last ps i) /\ walk (m_sas (e_mdp e)) i ps) /\
  (consumes_in_range e -> forall seed, exists e2 p, env_step pl (run pl e1 l) nm seed = (e2, Ok p)).
Proof.
  intros pl e nm atol T g tol k n s s' e1 l a i a' RE0 PS T0 PR G GU RT EF NA SO SV FL NA'. pose proof PS as (PV & SEL & _).
  destruct (reachable_wf _ _ RE0) as (kd & shape & st & W). pose proof (wf_grid _ _ _ _ W) as GI. destruct (grid_shape _ _ _ _ GI) as (N & NAC & _). pose proof (gi_ns _ _ _ _ GI) as NS. pose proof (gi_pos _ _ _ _ GI) as PO. pose proof (actions_pos kd st) as AP.
  assert (Hi : (i < m_n_states (e_mdp e))%nat) by (eapply py_index_ok; eauto). pose proof (live_valid _ _ _ _ _ GI Hi SV) as LV. set (sas := m_sas (e_mdp e)) in *.
  destruct (planned_start_any _ _ _ _ _ _ _ _ _ RE0 PV EF NA) as (v & q & SL & MS & _ & ST). fold sas in MS.
  destruct (planned_table pl e nm a g tol k RE0 NA G GU RT) as (v' & q' & E & _ & RB & MQ). rewrite SL in E. injection E as <- <-. fold sas in RB, MQ. rewrite N, NAC in RB. rewrite (gi_na _ _ _ _ GI) in PR.
  pose proof (soft_selects pl nm atol T g tol _ _ _ q PO AP RB T0 PR PS) as SS.
  assert (W1 : wf kd shape st e1). { replace e1 with (fst (env_fit pl e nm n s s')) by now rewrite EF. eapply muts_wf; [exact W|]. eapply env_fit_muts; eauto. }
  assert (STEP : forall e a seed s i, wf kd shape st e -> m_sas (e_mdp e) = sas -> agent_named e nm a -> at_fit a = Some (v, q) ->
    stands_on (e_mdp e) (at_pos a) i -> live sas i -> moved pl e a seed s -> can_go sas i s /\ live sas s).
  { intros e0 a0 seed0 t b W0 ES0 [Ha0 Na0] F0 SO0 [Hb LB] (v1 & q1 & pi & j & F1 & GP & PJ & An & NX & Ht). rewrite F0 in F1. injection F1 as <- <-. rewrite Na0 in GP. destruct (SS seed0) as (pi' & p & Epi & _ & LP & HP). rewrite GP in Epi. injection Epi as <-.
    pose proof (wf_grid _ _ _ _ W0) as G0. pose proof (gi_ns _ _ _ _ G0) as NS0. unfold stands_on in SO0. rewrite LP, <- NS0, SO0 in PJ. injection PJ as <-.
    destruct (HP b ltac:(lia)) as (act & EA & LA & FA). rewrite EA in NX.
    assert (P : possible sas b act).
    { destruct MQ as [_ MK]. destruct (MK b Hb) as [LR HA]. destruct LB as (a1 & Ha1 & P1). destruct (HA a1 Ha1) as [_ X]. destruct (X P1) as (x & EX). destruct FA as (y & EY); [exists x; rewrite <- EX; apply nth_In; lia|].
      destruct (possible_dec sas b act) as [P|P]; [exact P|]. apply HA in P; [|lia]. congruence. }
    pose proof (possible_moves kd shape st e0 (at_pos a0) t b act W0 SO0) as PM. rewrite ES0 in PM. apply PM; auto. lia. }
  destruct (run_walking pl kd shape st nm sas v q (at_hist a) i (live sas) (can_go sas) STEP l e1 FL W1) as [[ES WK] W2].
  { split; [congruence|]. intros b Hb. destruct (ST b Hb) as (F1 & F2 & F3). split; [exact F1|]. exists []. cbn [map last chain]. rewrite app_nil_r. split; [exact F2|]. split; [exact I|]. split; [|exact LV].
    rewrite F3. eapply stands_same; [|exact SO]. now rewrite (wf_states kd shape st e1 W1), (wf_states kd shape st e W). }
  destruct (WK a' NA') as (F' & ps & H1 & H2 & H3 & _). split.
  - exists ps. split; [exact H1|]. split; [eapply stands_same; [|exact H3]; now rewrite (wf_states _ _ _ _ W2), (wf_states _ _ _ _ W)|]. clear - H2. revert i H2. induction ps as [|t ps IH]; intros i H; [exact I|]. destruct H as [X Y]. split; [exact X|now apply IH].
  - intros CR seed. assert (CR2 : consumes_in_range (run pl e1 l)). { replace (run pl e1 l) with (run pl e (OFit nm n s s' :: l)) by (cbn [run fold_left do_op]; now rewrite EF). eapply in_range_run; eauto. }
    destruct (SS seed) as (pi & p & Epi & Ep & LP & HP). destruct NA' as [Ha' Na']. assert (GPO : get_policy pl a' seed = (set_policy a' (Some pi) (Some p), Ok tt)) by (unfold get_policy; now rewrite F', Na', Ep, Epi).
    pose proof (wf_grid _ _ _ _ W2) as G2. pose proof (gi_ns _ _ _ _ G2) as NS2. assert (Hj : (last ps i < nst shape)%nat) by (rewrite <- NS2; eapply py_index_ok; exact H3). destruct (HP _ Hj) as (act & EA & La & _). unfold stands_on in H3.
    destruct (agent_step_goes pl _ _ _ (run pl e1 l) a' seed _ pi (last ps i) act W2 Ha' GPO eq_refl) as (m2 & a2 & EST); [now rewrite LP, <- NS2|exact EA|now rewrite (gi_na _ _ _ _ G2)|].
    eapply env_step_goes; eauto. split; eauto.
Qed.
End Rounded.

(** With the settings ValueIteration has by default, in float64. *)
Theorem C213_defaults : forall ex ux etax T pl e nm a n s s', rounded_exp float64 ex ux etax -> ux <= / 10 ^ 15 -> etax <= / 10 ^ 25 -> / 10 ^ 10 <= T ->
  reachable pl e -> plans_and_samples float64 ex atol64 T pl nm g64 tol64 500 -> agent_named e nm a ->
  exists e1, env_fit pl e nm n s s' = (e1, Ok tt) /\
    forall l i a', stands_on (e_mdp e) (at_pos a) i -> state_valid_actions (e_mdp e) (Z.of_nat i) <> Ok [] -> Forall (lets_walk nm) l -> agent_named (run pl e1 l) nm a' ->
      (exists ps, at_hist a' = at_hist a ++ map Z.of_nat ps /\ stands_on (e_mdp e) (at_pos a') (last ps i) /\ walk (m_sas (e_mdp e)) i ps) /\
      (consumes_in_range e -> forall seed, exists e2 p, env_step pl (run pl e1 l) nm seed = (e2, Ok p)).
Proof.
  intros ex ux etax T pl e nm a n s s' RX UX EX HT RE0 PS NA. destruct (default_numbers 2 ltac:(lia)) as (GB & RT & GU & _). assert (GR : 0 < g64 < 1) by (apply Rabs_le2_inv in GB; lra). assert (T0 : 0 < T) by lra.
  assert (PR : precise u64 eta64 ux etax T atol64 (m_n_actions (e_mdp e))).
  { destruct (reachable_wf _ _ RE0) as (kd & shape & st & W). destruct (C209_grids pl (e_mdp e) (usable_again _ _ RE0)) as [_ N7]. pose proof (wf_grid _ _ _ _ W) as GI. destruct (grid_shape _ _ _ _ GI) as (_ & NAC & _). rewrite NAC, <- (gi_na _ _ _ _ GI) in N7.
    set (m := m_n_actions (e_mdp e)) in *. pose proof (re_u _ _ _ _ RX). pose proof (re_eta _ _ _ _ RX). destruct (sums64 m N7) as (N & SR & SA & NE). destruct (errors64 m ux etax T N7 ltac:(lra) ltac:(lra) HT) as (_ & NR & RL & PE).
    split; [exact RL|]. split; [apply Rle_trans with (INR m * / 10 ^ 12); [apply Rmult_le_compat_l; lra|lra]|]. unfold atol64. repeat split; lra. }
  destruct (C213_fit float64 ex u64 eta64 ux etax C206_float64 RX pl e nm a atol64 T g64 tol64 499 n s s' RE0 NA PS T0 PR GR GU RT) as (e1 & EF). exists e1. split; [exact EF|].
  intros l i a' SO SV FL NA'. exact (C213_walk float64 ex u64 eta64 ux etax C206_float64 RX pl e nm atol64 T g64 tol64 499 n s s' e1 l a i a' RE0 PS T0 PR GR GU RT EF NA SO SV FL NA').
Qed.

(** ** An agent that samples *)
Definition rounded_softmax (rnd ex : R -> R) (atol T g tol : R) (mi : Z) : plugins R :=
  mkPlugins (fun nm e _ _ => match find_agent (e_agents e) nm with Some a => @vi_fit R (NumF rnd) g tol mi (e_mdp e) (at_reward a) | None => Err KeyError end)
    (fun _ seed => softmax_get_pi_r rnd ex atol T (fun s => INR (seed + s) / (INR (seed + s) + 1))) (fun _ => softmax_get_pi_p_r rnd ex T) (fun _ => false).
Example C213_plugin : forall rnd ex atol T g tol mi nm, plans_and_samples rnd ex atol T (rounded_softmax rnd ex atol T g tol mi) nm g tol mi.
Proof.
  intros rnd ex atol T g tol mi nm. split; [|split; [|reflexivity]].
  - intros e a n seed ND [Ha Na]. cbn [rounded_softmax pl_fit]. destruct (find_agent (e_agents e) nm) as [b|] eqn:F.
    + unfold find_agent in F. apply find_some in F. destruct F as [Hb Nb]. apply String.eqb_eq in Nb. assert (b = a) by (eapply same_name_same; eauto; congruence). now subst b.
    + unfold find_agent in F. pose proof (find_none _ _ F a Ha) as X. cbn in X. rewrite Na, String.eqb_refl in X. discriminate.
  - intros seed. eexists. split; [|reflexivity]. intros s. cbn beta. pose proof (pos_INR (seed + s)) as P. set (x := INR (seed + s)) in *. assert (I : 0 < / (x + 1)) by (apply Rinv_0_lt_compat; lra). split; [apply Rmult_le_pos; lra|].
    apply (Rmult_lt_reg_r (x + 1)); [lra|]. unfold Rdiv. rewrite Rmult_assoc, Rinv_l by lra. lra.
Qed.
Example C213_example : let pl := rounded_softmax float64 exp64 atol64 1 g64 tol64 500 in exists m m' e a e1,
  grid_mdp (A:=R) Square [[0; 0; 1]] None (1, 3)%nat false = Ok m /\ make_env m [mkSpec "p"%string 1%Z None 0%Z [5; 0] []] = (m', Ok e) /\
  agent_named e "p" a /\ stands_on (e_mdp e) (at_pos a) 0 /\ state_valid_actions (e_mdp e) 0%Z <> Ok [] /\ env_fit pl e "p" None 0 0 = (e1, Ok tt) /\
  forall x y, exists e2 p, env_step pl (run pl e1 [OStep "p" x]) "p" y = (e2, Ok p).
Proof.
  intros pl. destruct (grid_mdp_ok Square [[0; 0; 1]] None (1, 3)%nat false) as (m & EG & G & MW & MF & _ & NF & NAG & NN); [cbn; lia|repeat constructor|reflexivity|apply binary_zeros|].
  assert (U : usable pl m) by exact (usable_grid pl _ _ _ _ _ _ [] EG). pose proof (gi_ns _ _ _ _ G) as NS. change (nst (1, 3)%nat) with 3%nat in NS.
  assert (NO : n_ordinary m = 1%nat) by (unfold n_ordinary; rewrite NF, NAG; reflexivity). set (sp := mkSpec "p"%string 1%Z None 0%Z [5; 0] []).
  destruct (proj2 (C17_accepts_iff pl m [sp] U)) as (m' & e & E). { intros s [<-|[]]. rewrite NO, NS. split; [reflexivity|]. split; [intros z []|cbn; lia]. }
  destruct (C17_result pl m [sp] m' e U ltac:(repeat constructor; auto) E) as (EM & _ & _ & _ & LA & HI & NF' & FT & ES & _). cbn [length] in LA, NF'.
  destruct (HI 0%nat sp eq_refl) as (a & EA & (F1 & _ & F3 & F4 & _ & _ & _ & _ & F9 & _) & (p & SP & FA)). assert (RE0 : reachable pl e) by (eapply reach_new; eauto).
  assert (NA : agent_named e "p" a). { split; [eapply nth_error_In; eauto|exact F1]. } destruct (reachable_wf _ _ RE0) as (kd & shape & st & W). pose proof (wf_grid _ _ _ _ W) as GI. pose proof (gi_ns _ _ _ _ GI) as NS'.
  assert (N3 : nst shape = 3%nat). { destruct (grid_shape _ _ _ _ GI) as (X & _). destruct (grid_shape _ _ _ _ G) as (Y & _). rewrite EM, ES in X. rewrite X in Y. exact Y. }
  assert (SO : stands_on (e_mdp e) (at_pos a) 0) by (unfold stands_on; rewrite F9, NS', N3; reflexivity).
  assert (SV : state_valid_actions (e_mdp e) 0%Z <> Ok []).
  { destruct (in_valid_actions _ _ _ _ GI 0%nat ltac:(lia)) as (va & EV & IV). change 0%Z with (Z.of_nat 0). rewrite EV. intros X. injection X as ->.
    assert (C : can_go (m_sas m) 0 1). { apply (go_edge _ _ _ _ G); [cbn; lia|]. split; [cbn; lia|]. exists 0%nat. split; [left; split; [cbn; lia|reflexivity]|]. rewrite MW. unfold is_wall, walls_arg, nst. cbn [fst snd Nat.mul Nat.add]. split; cbn; lra. }
    rewrite <- ES, <- EM in C. apply (go_edge _ _ _ _ GI) in C; [|lia]. destruct C as (H1 & act & WE). apply (IV act). eauto. }
  pose proof u64_small. pose proof eta64_small. destruct (C213_defaults exp64 u64 eta64 1 pl e "p" a None 0 0 C212_exp64) as (e1 & EF & WK); try lra; [exact RE0|apply C213_plugin|exact NA|].
  exists m, m', e, a, e1. split; [exact EG|]. split; [exact E|]. split; [exact NA|]. split; [exact SO|]. split; [exact SV|]. split; [exact EF|]. intros x y.
  assert (CR : consumes_in_range e). { intros b Hb z Hz. destruct (e_agents e) as [|b0 [|]] eqn:EL; cbn in LA; try lia. cbn in EA. injection EA as ->. destruct Hb as [<-|[]]. rewrite F4 in Hz. destruct Hz. }
  assert (W2 : wf kd shape st (run pl e1 [OStep "p" x])). { apply run_wf. replace e1 with (fst (env_fit pl e "p" None 0 0)) by now rewrite EF. eapply muts_wf; [exact W|]. eapply env_fit_muts; eauto. }
  assert (IN : exists a', agent_named (run pl e1 [OStep "p" x]) "p" a').
  { assert (IN : In "p"%string (e_names (run pl e1 [OStep "p" x]))). { replace (run pl e1 [OStep "p" x]) with (run pl e [OFit "p" None 0%nat 0%nat; OStep "p" x]) by (cbn [run fold_left do_op]; now rewrite EF). destruct (run_static pl kd shape st [OFit "p" None 0%nat 0%nat; OStep "p" x] e W) as (-> & _). apply (wf_lookup _ _ _ _ W). destruct NA as [Ha <-]. now apply in_map. }
    apply (wf_lookup _ _ _ _ W2) in IN. apply in_map_iff in IN. destruct IN as (a' & Na & Ha). exists a'. now split. }
  destruct IN as (a' & NA'). destruct (WK [OStep "p" x] 0%nat a' SO SV) as [_ ST]; [repeat constructor|exact NA'|]. apply ST. exact CR.
Qed.
