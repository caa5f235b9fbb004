(** C166: agents that plan with value iteration can always be fitted, and once fitted they can always be stepped. *)
From Coq Require Import String List ZArith QArith Reals Bool Lia Lra.
From Verif Require Import PyBase PyProofs GridModel GridSpec MDPModel MDPSpec MDPProofs MDPProofs2 MDPProofs3 MDPProofs4 MDPProps ActionModel ActionSpec SoftmaxModel SoftmaxProofs ActionProofs RSum ActionProps EnvModel PlanProps EnvSpec StepSpec EnvProofs EnvProofs2 EnvProofs3 EnvProofs4 EnvProofs5 EnvProps StepProps VIModel VISpec VIProofs VIProofs2 VIProps VIEnvProps MCTSRun MCTSFit.
Import ListNotations.
Local Close Scope Q_scope.
Local Open Scope nat_scope.

(** The agent plans with value iteration, with these settings. *)
Definition plans_with_vi (pl : plugins R) (nm : string) (g tol : R) (mi : Z) : Prop :=
  pl_forgets pl nm = false /\ forall e a n seed, NoDup (map at_name (e_agents e)) -> agent_named e nm a -> pl_fit pl nm e n seed = vi_fit g tol mi (e_mdp e) (at_reward a).
Lemma plans_uses : forall pl nm g tol mi, plans_with_vi pl nm g tol mi -> uses_vi pl nm.
Proof. intros pl nm g tol mi [H1 H2]. split; [exact H1|]. exists g, tol, mi. exact H2. Qed.

(** ** Tables of values the selectors can work with *)
Definition readable (ns na : nat) (q : list (list (fval R))) : Prop :=
  length q = ns /\ forall row, In row q -> length row = na /\ forall w, In w row -> w = NInf \/ exists x, w = Fin x.
Lemma solution_readable : forall sas q, is_mdp sas -> solution sas q -> readable (n_states sas) (n_actions sas) q.
Proof.
  intros sas q M (rf & ft & mi & g & tol & v & E). destruct (C30_mask _ _ _ _ _ _ _ _ _ M (or_introl eq_refl) E) as (_ & L & H). split; [exact L|].
  intros row Hr. apply (In_nth _ _ []) in Hr. destruct Hr as (s & Hs & <-). destruct (H s ltac:(lia)) as [LR HA]. split; [exact LR|].
  intros w Hw. apply (In_nth _ _ NaN) in Hw. destruct Hw as (a & Ha & <-). destruct (HA a ltac:(lia)) as [H1 H2]. destruct (possible_dec sas s a) as [P|P]; [right; auto|left; now apply H1].
Qed.
Lemma readable_rows : forall ns na q, 0 < ns -> 0 < na -> readable ns na q ->
  (forall row, In row q -> row <> [] /\ ~ In PInf row /\ ~ In NaN row /\ some_known row /\ unmixed row) /\ (exists row, In row q /\ some_known row).
Proof.
  intros ns na q Hn Ha [L H].
  assert (X : forall row, In row q -> row <> [] /\ ~ In PInf row /\ ~ In NaN row /\ some_known row /\ unmixed row).
  { intros row Hr. destruct (H row Hr) as [LR HW]. assert (NP : ~ In PInf row) by (intros X; destruct (HW _ X) as [Y|(x & Y)]; discriminate).
    split; [intros ->; cbn in LR; lia|]. split; [exact NP|]. split; [intros X; destruct (HW _ X) as [Y|(x & Y)]; discriminate|]. split; [|intros [Y _]; contradiction].
    destruct row as [|w row]; [cbn in LR; lia|]. exists w. split; [now left|]. intros ->. destruct (HW NaN (or_introl eq_refl)) as [Y|(x & Y)]; discriminate. }
  split; [exact X|]. exists (nth 0 q []). assert (I : In (nth 0 q []) q) by (apply nth_In; lia). split; [exact I|]. apply X, I.
Qed.

(** A draw among equal weights is a draw among the row's actions. *)
Lemma uniform_choice : forall (c : R) (row : list (fval R)) u z, (0 < c)%R -> row <> [] -> (0 <= u < 1)%R -> softmax_choice (map (fun _ => Fin c) row) u = Ok z ->
  exists a, z = Z.of_nat a /\ a < length row.
Proof.
  intros c row u z C NE U E. unfold softmax_choice in E.
  assert (MC : forall (d : R) (l : list (fval R)), mapM (fun v => match fin_of v with Some a => Ok a | None => Err ValueError end) (map (fun _ => Fin d) l) = Ok (map (fun _ => d) l)).
  { clear. induction l as [|y l IH]; [reflexivity|]. cbn [map mapM fin_of bind]. rewrite IH. reflexivity. }
  assert (LR : (0 < INR (length row))%R) by (apply lt_0_INR; destruct row; [congruence|cbn; lia]).
  assert (CH : forall d : R, (0 < d)%R -> choice_p (map (fun _ : fval R => d) row) u < length row).
  { intros d D. assert (NN : forall x, In x (map (fun _ : fval R => d) row) -> (0 <= x)%R) by (intros x Hx; apply in_map_iff in Hx; destruct Hx as (? & <- & _); lra).
    assert (PP : (0 < Rsum (map (fun _ => d) row))%R) by (rewrite Rsum_const; now apply Rmult_lt_0_compat).
    destruct (proj1 (choice_p_iff _ u NN PP U _) eq_refl) as [L _]. now rewrite map_length in L. }
  destruct (forallb _ _).
  - rewrite map_map, map_length, MC in E. cbn [bind] in E. injection E as <-. eexists. split; [reflexivity|]. apply CH. apply Rdiv_lt_0_compat; lra.
  - rewrite map_map in E. replace (map (fun _ : fval R => Fin c) row) with (map Fin (map (fun _ : fval R => c) row)) in E by now rewrite map_map.
    rewrite fsum_fin in E. assert (PP : (0 < Rsum (map (fun _ : fval R => c) row))%R) by (rewrite Rsum_const; now apply Rmult_lt_0_compat).
    set (S := Rsum (map (fun _ => c) row)) in *. clearbody S.
    assert (D : fdiv (Fin c) (Fin S) = Fin (c / S)%R) by (cbn; destruct (Reqb S 0) eqn:Z; [apply Reqb_true in Z; lra|reflexivity]).
    rewrite (map_ext _ (fun _ : fval R => Fin (c / S)%R)) in E by (intros; exact D).
    rewrite MC in E. cbn [bind] in E. injection E as <-. eexists. split; [reflexivity|]. apply CH. apply Rdiv_lt_0_compat; lra.
Qed.
Lemma pi_from_nth : forall us prows s0 pi, softmax_pi_from s0 us prows = Ok pi -> length pi = length prows /\
  forall s, s < length prows -> softmax_choice (nth s prows []) (us (s0 + s)) = Ok (nth s pi 0%Z).
Proof.
  intros us. induction prows as [|row prows IH]; intros s0 pi E; cbn [softmax_pi_from] in E.
  - injection E as <-. split; [reflexivity|]. cbn. intros; lia.
  - apply bind_ok in E. destruct E as (z & Ez & E). apply bind_ok in E. destruct E as (rest & Er & E). injection E as <-. destruct (IH _ _ Er) as [L H]. split; [cbn; lia|].
    intros [|s] Hs; cbn [nth]; [now rewrite Nat.add_0_r|]. replace (s0 + S s) with (S s0 + s) by lia. apply H. cbn in Hs. lia.
Qed.

(** Every selector of the library picks an action of the grid in every state. *)
Lemma readable_selects : forall pl nm ns na q, 0 < ns -> 0 < na -> readable ns na q -> selects_best pl nm ->
  forall seed, exists pi, get_pi (pl_pi pl nm seed) q = Ok pi /\ length pi = ns /\ forall s, s < ns -> exists act, nth s pi 0%Z = Z.of_nat act /\ act < na.
Proof.
  intros pl nm ns na q Hn Hna RD SB seed. destruct (readable_rows _ _ _ Hn Hna RD) as [RR KQ]. destruct RD as [L RD].
  assert (RI : forall s, s < ns -> In (nth s q []) q) by (intros; apply nth_In; lia).
  destruct SB as [SB|SB].
  - destruct (SB seed) as (draws & ->). destruct (C25_sampled_is_best draws q) as (pi & E & LP & H); [intros row Hr; apply RR, Hr|exact KQ|]. exists pi. split; [exact E|]. split; [lia|].
    intros s Hs. destruct (RR _ (RI s Hs)) as (_ & _ & _ & K & U). destruct (H s ltac:(lia) K U) as (a & Ea & [La _]). exists a. split; [exact Ea|]. destruct (RD _ (RI s Hs)) as [LR _]. lia.
  - destruct (SB seed) as (T & us & HT & HU & ->). destruct (C27_sampled_is_possible T us q HT HU) as (pi & E & LP & H); [intros row Hr; destruct (RR _ Hr) as (X1 & X2 & _); auto|exact KQ|].
    exists pi. split; [exact E|]. split; [lia|]. intros s Hs. destruct (RD _ (RI s Hs)) as [LR HW].
    assert (DEC : (exists x, In (Fin x) (nth s q [])) \/ forall w, In w (nth s q []) -> w = NInf).
    { clear - HW. revert HW. generalize (nth s q []). intros l. induction l as [|w l IH]; intros HW; [right; intros w []|]. destruct (HW w (or_introl eq_refl)) as [->|(x & ->)]; [|left; exists x; now left].
      destruct IH as [(x & Hx)|Y]; [intros; apply HW; now right|left; exists x; now right|right; intros w [<-|Hw]; auto]. }
    destruct DEC as [X|X]; [destruct (H s ltac:(lia) X) as (a & x & Ea & La & _); exists a; split; [exact Ea|lia]|].
    destruct (RR _ (RI s Hs)) as (NE & _ & NN & _ & _). unfold get_pi in E. apply bind_ok in E. destruct E as ([] & _ & E). apply bind_ok in E. destruct E as (pi0 & E0 & E).
    destruct (negb (length pi0 =? length q)) eqn:LL; [discriminate|]. injection E as <-. apply negb_false_iff, Nat.eqb_eq in LL.
    rewrite (nth_map_combine _ _ _ _ _ _ _ [] 0%Z 0%Z) by lia. cbn beta iota. destruct (RR _ (RI s Hs)) as (_ & _ & _ & K & U). rewrite (proj2 (nan_state_false _) (conj K U)).
    unfold softmax_get_pi in E0. cbn [bind softmax_get_pi_p] in E0. destruct (pi_from_nth _ _ _ _ E0) as [L0 H0]. rewrite map_length in L0, H0.
    assert (LC : length (ActionModel.clean q) = length q) by (unfold ActionModel.clean; apply map_length).
    specialize (H0 s ltac:(lia)). rewrite (nth_map_lt _ _ _ _ _ _ []) in H0 by lia. cbn [Nat.add] in H0.
    assert (CQ : nth s (ActionModel.clean q) [] = nth s q []).
    { unfold ActionModel.clean. rewrite (nth_map_lt _ _ _ _ _ _ []) by lia. rewrite <- map_id. apply map_ext_in. intros w Hw. apply X in Hw. now subst w. }
    rewrite CQ, (softmax_all_ninf _ _ X) in H0. assert (LRP : (0 < INR (length (nth s q [])))%R) by (apply lt_0_INR; lia).
    apply uniform_choice in H0; [destruct H0 as (a & Ea & La); exists a; split; [exact Ea|lia]|apply Rdiv_lt_0_compat; lra|exact NE|apply HU].
Qed.
Lemma readable_probabilities : forall pl nm ns na q, 0 < ns -> 0 < na -> readable ns na q -> gives_probabilities pl nm -> exists p, get_pi_p (pl_pi_p pl nm) q = Ok p.
Proof.
  intros pl nm ns na q Hn Hna RD GP. destruct (readable_rows _ _ _ Hn Hna RD) as [RR KQ]. destruct GP as [->|(T & ->)]; [|now apply softmax_pi_p_total].
  destruct (C25_probabilities q) as (p & E & _); [intros row Hr; apply RR, Hr|exact KQ|eauto].
Qed.

(** ** Fitting *)

(** Fitting an agent that plans with value iteration succeeds, whatever the walls, the features and the reward function are, and
    with or without a schedule of the other agents' moves. *)
Theorem C166_fit : forall pl e nm a g tol mi n s s', reachable pl e -> agent_named e nm a -> plans_with_vi pl nm g tol mi -> selects_best pl nm -> gives_probabilities pl nm ->
  (0 < g < 1)%R -> (0 < mi)%Z -> exists e1, env_fit pl e nm n s s' = (e1, Ok tt).
Proof.
  intros pl e nm a g tol mi n s s' RE NA [_ PV] SB GP G MI. destruct (reachable_wf _ _ RE) as (k & shape & st & W). pose proof NA as [Ha EN]. pose proof (wf_grid _ _ _ _ W) as GI.
  destruct (grid_shape _ _ _ _ GI) as (NS & NAC & _). pose proof (grid_is_mdp _ _ _ _ GI) as M. pose proof (gi_pos _ _ _ _ GI) as PS.
  assert (EL : lookup e nm = Ok a). { destruct (lookup_spec k shape st e nm W) as [(b & EL & Hb & EN')|(_ & NI)]; [rewrite EL; f_equal; eapply same_name_same; eauto; [apply (wf_names _ _ _ _ W)|congruence]|]. elim NI. apply (wf_lookup _ _ _ _ W). rewrite <- EN. now apply in_map. }
  unfold env_fit. rewrite EL. unfold alg_fit. destruct (wf_agents _ _ _ _ W a Ha) as (_ & _ & _ & LRW & _). rewrite LRW, Nat.eqb_refl. cbn [negb].
  rewrite EN, (PV e a n s (wf_names _ _ _ _ W) NA). unfold vi_fit. destruct (wf_table _ _ _ _ W) as (LF & _).
  assert (LRF : length (at_reward a) = length (m_features (e_mdp e))) by congruence.
  destruct (solve_spec hard_backup lmax (m_sas (e_mdp e)) (at_reward a) (m_features (e_mdp e)) (Z.to_nat mi - 1) g tol M G LRF (bk_hard _ M) (fun l l' c => lmax_ne _ l l' c (proj1 M))) as (v & q & E & LV & LQ & _).
  replace (Z.of_nat (S (Z.to_nat mi - 1))) with mi in E by lia. rewrite E. cbn [bind].
  assert (RD : readable (nst shape) (actions_of k st) (mask_q (m_sas (e_mdp e)) q)). { rewrite <- NS, <- NAC. apply solution_readable; [exact M|]. unfold solution. eauto 10. }
  pose proof RD as [RL RR]. rewrite map_length, LV, RL, NS, (gi_ns _ _ _ _ GI), Nat.eqb_refl. cbn [negb].
  replace (forallb _ _) with true by (symmetry; apply forallb_forall; intros row Hr; apply Nat.eqb_eq; rewrite (gi_na _ _ _ _ GI); now apply RR). cbn [negb].
  pose proof (actions_pos k st) as AP.
  destruct (readable_selects pl nm _ _ _ PS AP RD SB s') as (pi & Epi & _). destruct (readable_probabilities pl nm _ _ _ PS AP RD GP) as (p & Ep).
  unfold get_policy. cbn [at_fit set_fit at_name]. rewrite EN, Ep, Epi. eauto.
Qed.

(** ** Stepping *)
Definition has_readable (k : gkind) (shape : nat * nat) (st : bool) (nm : string) (e : env R) : Prop :=
  forall a, agent_named e nm a -> exists v q, at_fit a = Some (v, q) /\ readable (nst shape) (actions_of k st) q.
Lemma kept_readable : forall k shape st nm e e', wf k shape st e -> plan_kept nm e e' -> has_readable k shape st nm e -> has_readable k shape st nm e'.
Proof.
  intros k shape st nm e e' W [S F] H b Hb. destruct (F b Hb) as (a & Ha & [E|(v & q & E & SO)]); [rewrite E; apply H, Ha|].
  exists v, q. split; [exact E|]. destruct (grid_shape _ _ _ _ (wf_grid _ _ _ _ W)) as (<- & <- & _). apply solution_readable; [|exact SO]. eapply grid_is_mdp. apply (wf_grid _ _ _ _ W).
Qed.
Lemma op_readable : forall pl k shape st nm e o, wf k shape st e -> uses_vi pl nm -> has_readable k shape st nm e -> has_readable k shape st nm (do_op pl e o).
Proof.
  intros pl k shape st nm e o W VI H.
  assert (WK : forall e o, wf k shape st e -> has_readable k shape st nm e -> walk_op o -> has_readable k shape st nm (do_op pl e o)).
  { apply kept_by_walking.
    - intros e0 nm' n s s' W0. apply kept_readable; [exact W0|]. eapply fit_plan; eauto.
    - intros e0 nm' s W0. apply kept_readable; [exact W0|]. eapply step_plan_kept; eauto.
    - intros e0 nm' p s W0. apply kept_readable; [exact W0|]. eapply proba_plan_kept; eauto.
    - intros e0 W0. apply kept_readable; [exact W0|]. eapply reset_plan_kept; eauto. }
  destruct o; try (apply WK; [exact W|exact H|exact I]); cbn [do_op].
  - revert H. apply kept_readable; [exact W|]. eapply position_plan_kept; eauto.
  - destruct (set_walls (e_mdp e) walls); [|exact H]. exact H.
Qed.
Lemma fit_readable : forall pl k shape st nm e n s s' e1, wf k shape st e -> uses_vi pl nm -> env_fit pl e nm n s s' = (e1, Ok tt) -> has_readable k shape st nm e1.
Proof.
  intros pl k shape st nm e n s s' e1 W VI EF. pose proof (fit_plan pl k shape st nm e nm n s s' W VI) as FP. rewrite EF in FP. cbn [fst] in FP.
  unfold env_fit in EF. destruct (lookup_spec k shape st e nm W) as [(a & EL & Ha & EN)|(EL & _)]; rewrite EL in EF; [|discriminate].
  destruct (alg_fit pl e a n s) as [f|x] eqn:AF; [|discriminate]. destruct (get_policy pl (set_fit a (Some f)) s') as [a' r] eqn:GP. injection EF as <- _.
  destruct (get_policy_spec _ _ _ _ _ GP) as (J1 & J2 & J3 & J4 & J5 & _). destruct (ident_name _ _ J1) as (N1 & _). cbn [set_fit at_fit at_name] in J5, N1.
  intros b [Hb Nb]. cbn [with_agent e_agents] in Hb. apply (in_put _ a a' Ha N1) in Hb. destruct Hb as [->|[Hb X]]; [|congruence].
  destruct VI as (_ & g & tol & mi & VI). unfold alg_fit in AF. destruct (negb _); [discriminate|]. rewrite EN, (VI e a n s (wf_names _ _ _ _ W)) in AF by (split; assumption).
  apply bind_ok in AF. destruct AF as ([v q] & VF & AF). destruct (negb _); [discriminate|]. destruct (negb _); [discriminate|]. destruct (negb _); [discriminate|]. injection AF as <-.
  exists v, q. split; [exact J5|]. unfold vi_fit in VF. apply bind_ok in VF. destruct VF as ([v2 q2] & SV & VF). injection VF as <- <-.
  destruct (grid_shape _ _ _ _ (wf_grid _ _ _ _ W)) as (<- & <- & _). apply solution_readable; [eapply grid_is_mdp, (wf_grid _ _ _ _ W)|]. unfold solution. eauto 10.
Qed.
Lemma readable_steps : forall pl k shape st nm e a seed, wf k shape st e -> agent_named e nm a -> has_readable k shape st nm e -> selects_best pl nm -> gives_probabilities pl nm -> consumes_in_range e ->
  exists e2 p, env_step pl e nm seed = (e2, Ok p).
Proof.
  intros pl k shape st nm e a seed W NA HR SB GP CR. pose proof NA as [Ha Na]. destruct (HR a NA) as (v & q & F & RD). pose proof (wf_grid _ _ _ _ W) as GI. pose proof (gi_pos _ _ _ _ GI) as PS.
  pose proof (actions_pos k st) as AP. pose proof (gi_ns _ _ _ _ GI) as NS.
  destruct (readable_selects pl nm _ _ _ PS AP RD SB seed) as (pi & Epi & LP & HP). destruct (readable_probabilities pl nm _ _ _ PS AP RD GP) as (p & Ep).
  assert (GPO : get_policy pl a seed = (set_policy a (Some pi) (Some p), Ok tt)). { unfold get_policy. now rewrite F, Na, Ep, Epi. }
  destruct (wf_agents _ _ _ _ W a Ha) as (_ & _ & _ & _ & (i & SO) & _). unfold stands_on in SO. assert (Hi : i < nst shape) by (rewrite <- NS; eapply py_index_ok; exact SO).
  destruct (HP i Hi) as (act & EA & La).
  destruct (agent_step_goes pl _ _ _ e a seed _ pi i act W Ha GPO eq_refl) as (m' & a' & ES); [now rewrite LP, <- NS|exact EA|now rewrite (gi_na _ _ _ _ GI)|].
  eapply env_step_goes; eauto.
Qed.

(** After a successful fit every step succeeds, whatever calls are made in between: steps and fits of any agent, moves, resets and
    new walls, even walls that leave the agent no possible move. *)
Theorem C166_steps : forall pl e nm n s s' e1 l seed, reachable pl e -> uses_vi pl nm -> selects_best pl nm -> gives_probabilities pl nm ->
  env_fit pl e nm n s s' = (e1, Ok tt) -> consumes_in_range (run pl e1 l) -> exists e2 p, env_step pl (run pl e1 l) nm seed = (e2, Ok p).
Proof.
  intros pl e nm n s s' e1 l seed RE VI SB GP EF CR. destruct (reachable_wf _ _ RE) as (k & shape & st & W).
  assert (W1 : wf k shape st e1). { replace e1 with (do_op pl e (OFit nm n s s')) by (cbn [do_op]; now rewrite EF). now apply do_op_wf. }
  pose proof (fit_readable _ _ _ _ _ _ _ _ _ _ W VI EF) as H1.
  assert (H : has_readable k shape st nm (run pl e1 l)). { clear CR EF. revert e1 W1 H1. induction l as [|o l IH]; intros e1 W1 H1; [exact H1|]. cbn [run fold_left]. apply IH; [now apply do_op_wf|now apply op_readable]. }
  assert (IN : In nm (e_names (run pl e1 l))).
  { destruct (run_static pl k shape st l e1 W1) as (-> & _). assert (X : static e e1). { replace e1 with (run pl e [OFit nm n s s']) by (cbn [run fold_left do_op]; now rewrite EF). apply (run_static pl k shape st _ _ W). }
    destruct X as (-> & _). unfold env_fit in EF. destruct (lookup_spec k shape st e nm W) as [(a & EL & Ha & EN)|(EL & _)]; [|rewrite EL in EF; discriminate]. apply (wf_lookup _ _ _ _ W). rewrite <- EN. now apply in_map. }
  assert (W2 : wf k shape st (run pl e1 l)) by now apply run_wf.
  apply (wf_lookup _ _ _ _ W2) in IN. apply in_map_iff in IN. destruct IN as (a & Na & Ha). exact (readable_steps pl k shape st nm _ a seed W2 (conj Ha Na) H SB GP CR).
Qed.

Lemma in_range_run : forall pl k shape st e l, wf k shape st e -> consumes_in_range e -> consumes_in_range (run pl e l).
Proof.
  intros pl k shape st e l W CR b Hb z Hz. destruct (run_static pl k shape st l e W) as (_ & S1 & S2). assert (X : In (ident b) (map ident (e_agents e))) by (rewrite <- S1; now apply in_map).
  apply in_map_iff in X. destruct X as (b0 & EB & Hb0). destruct (ident_name _ _ EB) as (_ & _ & N3 & _). rewrite <- N3 in Hz. pose proof (CR b0 Hb0 z Hz) as Y. unfold mident in S2. injection S2. intros.
  repeat match goal with H : m_n_features _ = _ |- _ => rewrite H; clear H end. exact Y.
Qed.
(** A sequence of steps of such an agent succeeds too: with refitting if it is no longer than the agent's moves per turn (compare C22), and
    without refitting for any number of steps once the agent has been fitted. *)
Theorem C166_sequence : forall pl e nm a arg given nt stop rnd n g tol mi, reachable pl e -> agent_named e nm a ->
  plans_with_vi pl nm g tol mi -> selects_best pl nm -> gives_probabilities pl nm -> (0 < g < 1)%R -> (0 < mi)%Z -> consumes_in_range e ->
  requested a arg = Some n -> (forall plan, plan_used e nm given plan -> good_plan e plan) ->
  ((n <= at_n_moves a)%Z -> (1 <= nt)%Z -> (forall b, In b (e_agents e) -> (0 < at_n_moves b)%Z) -> NoDup (e_names e) ->
   exists e' r, step_multi pl e nm arg given nt true stop rnd = (e', Ok r)) /\
  (forall before fitted s s' sched l, reachable pl before -> env_fit pl before nm sched s s' = (fitted, Ok tt) -> e = run pl fitted l ->
   exists e' r, step_multi pl e nm arg given nt false stop rnd = (e', Ok r)).
Proof.
  intros pl e nm a arg given nt stop rnd n g tol mi RE NA PV SB GP G MI CR RQ HG. destruct (reachable_wf _ _ RE) as (k & shape & st & W).
  pose proof (fun l => in_range_run pl k shape st e l W CR) as CRR.
  assert (NAR : forall l, exists b, agent_named (run pl e l) nm b).
  { intros l. assert (IN : In nm (e_names (run pl e l))). { destruct (run_static pl k shape st l e W) as (-> & _). apply (wf_lookup _ _ _ _ W). destruct NA as [Ha <-]. now apply in_map. }
    apply (wf_lookup _ _ _ _ (run_wf pl k shape st l e W)) in IN. apply in_map_iff in IN. destruct IN as (b & Nb & Hb). exists b. split; assumption. }
  assert (RUN : forall l e0, reachable pl e0 -> reachable pl (run pl e0 l)). { induction l as [|o l IH]; intros e0 R0; [exact R0|]. cbn [run fold_left]. apply IH. now constructor. }
  split.
  - intros Hn HT HM ND. destruct (step_multi pl e nm arg given nt true stop rnd) as [e' [r|x]] eqn:E; [eauto|]. exfalso.
    destruct (C22_within_one_turn_partial _ _ _ _ _ _ _ _ _ _ _ _ RE NA RQ Hn HT HM HG ND E) as (e1 & l & p & s & s' & s3 & -> & H). destruct (NAR l) as (b & Nb).
    destruct (C166_fit pl (run pl e l) nm b g tol mi (Some p) s s' (RUN l e RE) Nb PV SB GP G MI) as (e2 & EF). destruct H as [H|(e3 & H1 & H2)]; [congruence|].
    assert (e3 = e2) by congruence. subst e3. destruct (C166_steps pl (run pl e l) nm (Some p) s s' e2 [] s3 (RUN l e RE) (plans_uses _ _ _ _ _ PV) SB GP EF) as (e4 & z & X); [|cbn [run fold_left] in X; congruence].
    cbn [run fold_left]. replace e2 with (run pl e (l ++ [OFit nm (Some p) s s'])); [apply CRR|]. unfold run in *. rewrite fold_left_app. cbn [fold_left do_op]. now rewrite EF.
  - intros e1 e0 s s' sched l0 RE1 EF EE. destruct (step_multi pl e nm arg given nt false stop rnd) as [e' [r|x]] eqn:E; [eauto|]. exfalso.
    destruct (C21_step_multi _ _ _ _ _ _ _ _ _ _ _ RE E) as [(y & _ & _ & R)|(a' & n' & moves & plan & AN' & RQ' & EM & PU & GPL & H)].
    + destruct R as [R|[R|R]].
      * apply R. apply (wf_lookup _ _ _ _ W). destruct NA as [Ha <-]. now apply in_map.
      * rewrite (R a NA) in RQ. discriminate RQ.
      * destruct (all_n_steps_spec _ _ _ _ _ _ W NA) as (rest & EM' & _). apply (R (match given with Some p => p | None => at_n_moves a :: rest end)); [|apply HG]; unfold plan_used; destruct given; auto.
    + cbv zeta in H. destruct H as (ps & e2 & RS & _ & RR). destruct (rounds_run _ _ _ _ _ _ _ _ _ _ _ _ RS) as (l1 & ->). unfold round_raises, refit_step in RR.
      destruct RR as [RR|(e3 & R1 & R2)]; [discriminate|]. assert (e3 = run pl e l1) by congruence. subst e3.
      assert (RA : run pl e l1 = run pl e0 (l0 ++ l1)) by (rewrite EE; unfold run; now rewrite fold_left_app).
      destruct (C166_steps pl e1 nm sched s s' e0 (l0 ++ l1) (rnd (3 * length ps + 2)) RE1 (plans_uses _ _ _ _ _ PV) SB GP EF) as (e4 & z & X); [rewrite <- RA; apply CRR|]. rewrite <- RA in X. congruence.
Qed.
