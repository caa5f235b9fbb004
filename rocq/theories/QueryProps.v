(** Properties C113 and C114: what an environment reports about an agent's plan, and the steps that follow it. *)
From Coq Require Import String List ZArith QArith Reals Bool Lia Lra.
From Verif Require Import PyBase PyProofs GridModel GridSpec MDPModel MDPSpec MDPProofs MDPProofs2 MDPProofs3 MDPProofs4 MDPProps ActionModel ActionSpec SoftmaxModel SoftmaxProofs ActionProofs RSum ActionProps EnvModel PlanProps EnvSpec StepSpec EnvProofs EnvProofs2 EnvProofs3 EnvProofs4 EnvProofs5 EnvProps StepProps VIModel VISpec VIProofs VIProofs2 VIProps VIEnvProps WorldModel WorldProofs WorldProofs2 WorldNew QueryModel QuerySpec QueryProofs.
Import ListNotations.
Local Close Scope Q_scope.
Local Open Scope nat_scope.

(** ** C113: the queries report the latest fit *)

(** After a fit that succeeded, and any calls that neither fit this agent again nor reset the environment
    (whether they return or raise), the three queries return the action values of that fit, the
    probabilities the selector gives for them, and a policy the selector draws for them. *)
Theorem C113_latest_fit_partial : forall {A} `{Num A} (pl : plugins A) e nm n s s' e1 ops,
  env_fit pl e nm n s s' = (e1, Ok tt) -> Forall (leaves_plan nm) ops ->
  exists v q p pi seed, pl_fit pl nm e n s = Ok (v, q) /\
    length q = m_n_states (e_mdp e) /\ (forall row, In row q -> length row = m_n_actions (e_mdp e)) /\
    get_agent_q_values (run pl e1 ops) nm = Ok (Some q) /\
    get_agent_pi_p (run pl e1 ops) nm = Ok (Some p) /\ get_pi_p (pl_pi_p pl nm) q = Ok p /\ length p = m_n_states (e_mdp e) /\
    get_agent_pi (run pl e1 ops) nm = Ok (Some pi) /\ get_pi (pl_pi pl nm seed) q = Ok pi /\ length pi = m_n_states (e_mdp e).
Proof.
  intros A NA pl e nm n s s' e1 ops E F. destruct (fit_planned _ _ _ _ _ _ _ E) as (v & q & p & EF & LQ & RQ & EP & KN).
  apply (run_keeps pl nm _ (planned_same pl nm q p) (planned_policy pl nm q p EP) ops) in KN; [|exact F].
  destruct (knows_lookup _ _ _ KN) as (a & L & _ & (v' & FT) & PP & pi & seed & PI & GP).
  exists v, q, p, pi, seed. unfold get_agent_q_values, get_agent_pi_p, get_agent_pi. rewrite L. cbn [bind]. rewrite FT, PP, PI. cbn [option_map snd].
  do 6 (split; [first [assumption|reflexivity]|]). split.
  - rewrite <- LQ. unfold get_pi_p in EP. apply bind_ok in EP. destruct EP as (? & _ & EP). apply bind_ok in EP. destruct EP as (p0 & _ & EP).
    destruct (length p0 =? length q) eqn:LP; [|discriminate]. cbn [negb] in EP. apply Nat.eqb_eq in LP. destruct (forallb _ _); [|discriminate]. injection EP as <-. rewrite map_length, combine_length. lia.
  - split; [reflexivity|]. split; [exact GP|]. rewrite <- LQ. unfold get_pi in GP. apply bind_ok in GP. destruct GP as (? & _ & GP). apply bind_ok in GP. destruct GP as (p0 & _ & GP).
    destruct (length p0 =? length q) eqn:LP; [|discriminate]. cbn [negb] in GP. apply Nat.eqb_eq in LP. injection GP as <-. rewrite map_length, combine_length. lia.
Qed.

(** The same, as C169: a property of its own. *)
Theorem C169_latest_fit : forall {A} `{Num A} (pl : plugins A) e nm n s s' e1 ops,
  env_fit pl e nm n s s' = (e1, Ok tt) -> Forall (leaves_plan nm) ops ->
  exists v q p pi seed, pl_fit pl nm e n s = Ok (v, q) /\
    length q = m_n_states (e_mdp e) /\ (forall row, In row q -> length row = m_n_actions (e_mdp e)) /\
    get_agent_q_values (run pl e1 ops) nm = Ok (Some q) /\
    get_agent_pi_p (run pl e1 ops) nm = Ok (Some p) /\ get_pi_p (pl_pi_p pl nm) q = Ok p /\ length p = m_n_states (e_mdp e) /\
    get_agent_pi (run pl e1 ops) nm = Ok (Some pi) /\ get_pi (pl_pi pl nm seed) q = Ok pi /\ length pi = m_n_states (e_mdp e).
Proof. exact (@C113_latest_fit_partial). Qed.

(** Before the first fit the policy queries raise AttributeError, whatever else was called, resets included. *)
Lemma unfitted_knows : forall pl m ss m' e nm ops, usable pl m -> make_env m ss = (m', Ok e) -> In nm (map sp_name ss) ->
  (forall s, In s ss -> sp_name s = nm -> sp_fit s = None) -> Forall (never_fits nm) ops ->
  knows nm (fun a : attached R => at_fit a = None) (run pl e ops).
Proof.
  intros pl m ss m' e nm ops U E I NF F. pose proof (reach_new pl _ _ _ _ U E) as RE. destruct (reachable_wf _ _ RE) as (k & shape & st & W).
  assert (K0 : knows nm (fun a : attached R => at_fit a = None) e).
  { assert (EN : e_names e = map sp_name ss /\ forall a, In a (e_agents e) -> at_name a = nm -> at_fit a = None).
    { unfold make_env in E. destruct (if 0 <? m_n_agents m then _ else _) as [m0|]; [|discriminate]. destruct (attach_all _ _ _ _ _ _) as [m1 [l|x]] eqn:AA; [|discriminate].
      injection E as _ <-. cbn [e_names e_agents]. split; [reflexivity|]. intros a Ha Na. pose proof (attach_all_fit _ _ _ _ _ _ _ _ AA a Ha) as X.
      destruct (find _ (rev ss)) as [sp|] eqn:FS; [|destruct X]. apply find_some in FS. destruct FS as [FS1 FS2]. apply String.eqb_eq in FS2. rewrite X. apply NF; [now apply in_rev|congruence]. }
    destruct EN as [EN K]. split; [|split; [|exact K]].
    - rewrite EN. apply existsb_exists. exists nm. split; [exact I|apply String.eqb_refl].
    - rewrite <- EN in I. apply (wf_lookup _ _ _ _ W) in I. apply in_map_iff in I. destruct I as (a & Na & Ha). exists a. apply find_agent_iff; [apply (wf_names _ _ _ _ W)|auto]. }
  clear E RE W. revert e K0. induction F as [|o ops [->|L] F IH]; intros e K0; [exact K0| |]; cbn [run fold_left]; apply IH.
  - cbn [do_op]. apply reset_keeps; auto. intros a b _ -> _ _ X; exact X.
  - apply op_keeps; auto; [intros a b _ -> _ _ X; exact X|]. intros a s a' r. apply unfitted_policy.
Qed.
Theorem C113_not_fitted : forall pl m ss m' e nm ops, usable pl m -> make_env m ss = (m', Ok e) -> In nm (map sp_name ss) ->
  (forall s, In s ss -> sp_name s = nm -> sp_fit s = None) -> Forall (never_fits nm) ops ->
  get_agent_pi (run pl e ops) nm = Err AttributeError /\ get_agent_pi_p (run pl e ops) nm = Err AttributeError.
Proof.
  intros pl m ss m' e nm ops U E I NF F. destruct (knows_lookup _ _ _ (unfitted_knows _ _ _ _ _ _ _ U E I NF F)) as (a & L & _ & FT).
  unfold get_agent_pi, get_agent_pi_p. rewrite L. cbn [bind]. now rewrite FT.
Qed.
(** Refuted: the action values are reported as None instead. *)
Theorem C113_no_values_refuted : forall pl m ss m' e nm ops, usable pl m -> make_env m ss = (m', Ok e) -> In nm (map sp_name ss) ->
  (forall s, In s ss -> sp_name s = nm -> sp_fit s = None) -> Forall (never_fits nm) ops ->
  get_agent_q_values (run pl e ops) nm = Ok None.
Proof.
  intros pl m ss m' e nm ops U E I NF F. destruct (knows_lookup _ _ _ (unfitted_knows _ _ _ _ _ _ _ U E I NF F)) as (a & L & _ & FT).
  unfold get_agent_q_values. rewrite L. cbn [bind]. now rewrite FT.
Qed.
(** Refuted: after a reset a fitted agent keeps its action values and can be stepped, but its policy and
    probabilities are reported as None. *)
Theorem C113_reset_refuted : forall pl e nm a f, reachable pl e -> agent_named e nm a -> at_fit a = Some f ->
  let e' := fst (env_reset e) in
  get_agent_pi e' nm = Ok None /\ get_agent_pi_p e' nm = Ok None /\ get_agent_q_values e' nm = Ok (Some (snd f)).
Proof.
  intros pl e nm a f RE [Ha Na] FT. destruct (reachable_wf _ _ RE) as (k & shape & st & W). cbv zeta. destruct (env_reset_spec _ _ _ _ W) as (e' & E & M & _ & _ & HB). rewrite E. cbn [fst].
  assert (W' := muts_wf _ _ _ _ _ _ W M). pose proof (muts_static _ _ _ _ _ _ W M) as S. destruct S as (SN & _).
  destruct (lookup_spec _ _ _ _ nm W') as [(b & L & Hb & Nb)|(L & NI)].
  - destruct (HB b Hb) as (a0 & Ha0 & EB). assert (a0 = a). { eapply same_name_same; [apply (wf_names _ _ _ _ W)|exact Ha0|exact Ha|]. rewrite Na, <- Nb, EB. reflexivity. }
    subst a0 b. unfold get_agent_pi, get_agent_pi_p, get_agent_q_values. rewrite L. cbn [bind set_hist set_policy set_pos_only at_fit at_pi at_pi_p]. rewrite FT. auto.
  - exfalso. apply NI. rewrite SN. apply (wf_lookup _ _ _ _ W). apply in_map_iff. eauto.
Qed.
(** Refuted: a fit whose algorithm knows no action value at all raises ValueError after the action values were
    replaced; policy and probabilities are then still those of the fit before. *)
Theorem C113_failed_policy_refuted : forall pl e nm a n s s' v q, reachable pl e -> agent_named e nm a ->
  length (at_reward a) = m_n_features (e_mdp e) -> pl_fit pl nm e n s = Ok (v, q) -> length v = m_n_states (e_mdp e) -> length q = m_n_states (e_mdp e) ->
  (forall row, In row q -> length row = m_n_actions (e_mdp e) /\ ~ some_known row) ->
  exists e', env_fit pl e nm n s s' = (e', Err ValueError) /\ get_agent_q_values e' nm = Ok (Some q) /\
    forall f, at_fit a = Some f -> get_agent_pi e' nm = get_agent_pi e nm /\ get_agent_pi_p e' nm = get_agent_pi_p e nm.
Proof.
  intros pl e nm a n s s' v q RE [Ha Na] LR EF LV LQ HQ. destruct (reachable_wf _ _ RE) as (k & shape & st & W).
  assert (L : lookup e nm = Ok a).
  { destruct (lookup_spec _ _ _ _ nm W) as [(b & L & Hb & Nb)|(L & NI)].
    - rewrite L. f_equal. eapply same_name_same; [apply (wf_names _ _ _ _ W)|exact Hb|exact Ha|congruence].
    - exfalso. apply NI. apply (wf_lookup _ _ _ _ W). apply in_map_iff. eauto. }
  assert (AF : alg_fit pl e a n s = Ok (v, q)).
  { unfold alg_fit. rewrite LR, Nat.eqb_refl, Na, EF. cbn [negb bind]. rewrite LV, LQ, Nat.eqb_refl. cbn [negb].
    replace (forallb _ q) with true; [reflexivity|]. symmetry. apply forallb_forall. intros row Hr. apply Nat.eqb_eq. now apply HQ. }
  destruct (C26_all_nan_rejected q) as [_ NP]; [intros row Hr; now apply HQ|].
  assert (EX : env_fit pl e nm n s s' = (with_agent e (set_fit a (Some (v, q))), Err ValueError)).
  { unfold env_fit. rewrite L, AF. unfold get_policy. cbn [at_fit set_fit]. now rewrite NP. }
  exists (with_agent e (set_fit a (Some (v, q)))). split; [exact EX|].
  assert (L' : lookup (with_agent e (set_fit a (Some (v, q)))) nm = Ok (set_fit a (Some (v, q)))).
  { unfold lookup in *. cbn [with_agent e_names e_agents]. destruct (existsb (String.eqb nm) (e_names e)); [|discriminate].
    pose proof (find_put_same (e_agents e) (set_fit a (Some (v, q)))) as FP. cbn [set_fit at_name] in FP. rewrite Na in FP. rewrite FP; [reflexivity|].
    intros X. rewrite X in L. discriminate. }
  unfold get_agent_q_values, get_agent_pi, get_agent_pi_p. rewrite L', L. cbn [bind set_fit at_fit at_pi at_pi_p option_map snd]. split; [reflexivity|]. intros f ->. auto.
Qed.
(** The hypotheses of [C113_latest_fit_partial] and [C113_reset_refuted] are met. *)
Example C113_example : exists m m' e e1, grid_mdp (A:=Q) Square [[0; 1]%Q] None (2, 1) false = Ok m /\
  make_env m [mkSpec "q"%string 1%Z None 0%Z [1; 0]%Q []] = (m', Ok e) /\
  env_fit (vi_greedy (1 # 2) (1 # 2) 100)%Q e "q" None 0 0 = (e1, Ok tt) /\
  Forall (leaves_plan "q") [OStep "q" 0; OSetPosition "q" 0%Z; OSetWalls [0; 1]%Q; OFit "r" None 0 0] /\
  get_agent_pi (run (vi_greedy (1 # 2) (1 # 2) 100)%Q e1 [OStep "q" 0; OSetPosition "q" 0%Z; OSetWalls [0; 1]%Q; OFit "r" None 0 0]) "q" = get_agent_pi e1 "q".
Proof.
  do 4 eexists. do 3 (split; [vm_compute; reflexivity|]). split; [repeat constructor; discriminate|vm_compute; reflexivity].
Qed.

(** ** C114: the step taken is the one reported *)

(** After every step that succeeds, the policy reported has, in the state the agent left, the action it took. *)
Theorem C114_afterwards_partial : forall pl (e : env R) nm seed e' p, reachable pl e -> env_step pl e nm seed = (e', Ok p) ->
  exists a i pi s, agent_named e nm a /\ get_agent_pi e' nm = Ok (Some pi) /\ py_index (length pi) (at_pos a) = Ok i /\
    (0 <= nth i pi 0)%Z /\ get_next_state (e_mdp e) (at_pos a) (nth i pi 0%Z) = Ok s /\ p = Z.of_nat s.
Proof.
  intros pl e nm seed e' p RE E. destruct (step_success _ _ _ _ _ _ E) as (a & v & q & pi & pp & i & s & a' & L & FT & EP & EI & PI & NN & NS & -> & L' & FT' & PI' & _).
  exists a, i, pi, s. split; [exact (lookup_in _ _ _ L)|]. split; [unfold get_agent_pi; rewrite L'; cbn [bind]; now rewrite FT', PI'|]. auto.
Qed.

(** The same, as C170: a property of its own. *)
Theorem C170_afterwards : forall pl (e : env R) nm seed e' p, reachable pl e -> env_step pl e nm seed = (e', Ok p) ->
  exists a i pi s, agent_named e nm a /\ get_agent_pi e' nm = Ok (Some pi) /\ py_index (length pi) (at_pos a) = Ok i /\
    (0 <= nth i pi 0)%Z /\ get_next_state (e_mdp e) (at_pos a) (nth i pi 0%Z) = Ok s /\ p = Z.of_nat s.
Proof. exact (@C114_afterwards_partial). Qed.

(** What is common to the situations below: a fitted agent about to make a step. *)
Lemma about_to_step : forall pl e nm n s s' e1 ops e3 p seed, reachable pl e -> env_fit pl e nm n s s' = (e1, Ok tt) -> Forall (leaves_plan nm) ops ->
  env_step pl (run pl e1 ops) nm seed = (e3, Ok p) ->
  exists v q pp pi0 seed0 a pi i t, get_pi_p (pl_pi_p pl nm) q = Ok pp /\ get_pi (pl_pi pl nm seed0) q = Ok pi0 /\ get_agent_q_values (run pl e1 ops) nm = Ok (Some q) /\
    get_agent_pi_p (run pl e1 ops) nm = Ok (Some pp) /\ get_agent_pi (run pl e1 ops) nm = Ok (Some pi0) /\ agent_named (run pl e1 ops) nm a /\ at_fit a = Some (v, q) /\
    get_pi (pl_pi pl nm seed) q = Ok pi /\ length pi0 = length q /\ length pi = length q /\ length q = m_n_states (e_mdp (run pl e1 ops)) /\
    (forall row, In row q -> row <> []) /\ (exists row, In row q /\ some_known row) /\
    stands_on (e_mdp (run pl e1 ops)) (at_pos a) i /\ i < length q /\ get_next_state (e_mdp (run pl e1 ops)) (at_pos a) (nth i pi 0%Z) = Ok t /\ p = Z.of_nat t.
Proof.
  intros pl e nm n s s' e1 ops e3 p seed RE E F ES. destruct (C113_latest_fit_partial pl e nm n s s' e1 ops E F) as (v & q & pp & pi0 & seed0 & EF & LQ & RQ & Q1 & Q2 & EP & LP & Q3 & EI & LI).
  destruct (step_success _ _ _ _ _ _ ES) as (a & v2 & q2 & pi & pp2 & i & t & a' & L & FT & EP2 & EI2 & PI & NN & NS & Ep & _).
  assert (q2 = q). { unfold get_agent_q_values in Q1. rewrite L in Q1. cbn [bind] in Q1. rewrite FT in Q1. cbn in Q1. now injection Q1. } subst q2.
  destruct (reachable_wf _ _ RE) as (k & shape & st & W). 
  assert (S : static e (run pl e1 ops)).
  { replace e1 with (do_op pl e (OFit nm n s s')) by (cbn [do_op]; now rewrite E). change (run pl (do_op pl e (OFit nm n s s')) ops) with (run pl e (OFit nm n s s' :: ops)). eapply run_static; eauto. }
  destruct S as (_ & _ & MI). unfold mident in MI. injection MI as _ _ MS MA _ _ _ _.
  assert (LPI : length pi = length q). { unfold get_pi in EI2. apply bind_ok in EI2. destruct EI2 as (? & _ & GP). apply bind_ok in GP. destruct GP as (p0 & _ & GP).
    destruct (length p0 =? length q) eqn:LL; [|discriminate]. cbn [negb] in GP. apply Nat.eqb_eq in LL. injection GP as <-. rewrite map_length, combine_length. lia. }
  exists v2, q, pp, pi0, seed0, a, pi, i, t. do 5 (split; [assumption|]). split; [exact (lookup_in _ _ _ L)|]. split; [exact FT|]. split; [exact EI2|]. split; [congruence|]. split; [exact LPI|].
  split; [congruence|]. split.
  { intros row Hr X. specialize (RQ row Hr). rewrite X, (gi_na _ _ _ _ (wf_grid _ _ _ _ W)) in RQ. cbn in RQ. pose proof (actions_pos k st). lia. }
  split.
  { unfold get_pi in EI. apply bind_ok in EI. destruct EI as ([] & CK & _). now apply check_q_ok. }
  split; [unfold stands_on; rewrite MS, <- LQ, <- LPI; exact PI|]. split; [|split; assumption]. rewrite <- LPI. now apply py_index_ok in PI.
Qed.

(** A greedy agent whose best action in its state is unique makes the step reported beforehand. *)
Theorem C114_unique_best_partial : forall pl e nm n s s' e1 ops e3 p seed, reachable pl e -> env_fit pl e nm n s s' = (e1, Ok tt) -> Forall (leaves_plan nm) ops ->
  (forall sd, exists draws, pl_pi pl nm sd = max_get_pi draws) ->
  let e2 := run pl e1 ops in
  env_step pl e2 nm seed = (e3, Ok p) ->
  exists a i pi q t, agent_named e2 nm a /\ stands_on (e_mdp e2) (at_pos a) i /\ get_agent_q_values e2 nm = Ok (Some q) /\ get_agent_pi e2 nm = Ok (Some pi) /\ p = Z.of_nat t /\
    (some_known (nth i q []) -> unmixed (nth i q []) -> (forall b c, best_action (nth i q []) b -> best_action (nth i q []) c -> b = c) ->
     get_next_state (e_mdp e2) (at_pos a) (nth i pi 0%Z) = Ok t /\ exists b, nth i pi 0%Z = Z.of_nat b /\ best_action (nth i q []) b).
Proof.
  intros pl e nm n s s' e1 ops e3 p seed RE E F G e2 ES.
  destruct (about_to_step _ _ _ _ _ _ _ _ _ _ _ RE E F ES) as (v & q & pp & pi0 & seed0 & a & pi & i & t & EP & EI & Q1 & Q2 & Q3 & NA & FT & EI2 & L0 & L1 & LQ & RQ & SK & SO & Hi & NS & EPt).
  exists a, i, pi0, q, t. do 5 (split; [assumption|]). intros KN UM UQ.
  destruct (G seed0) as (d0 & ED0). destruct (G seed) as (d & ED). rewrite ED0 in EI. rewrite ED in EI2.
  destruct (C25_sampled_is_best d0 q RQ SK) as (x0 & X1 & _ & X3). rewrite EI in X1. injection X1 as <-. destruct (C25_sampled_is_best d q RQ SK) as (x & Y1 & _ & Y3). rewrite EI2 in Y1. injection Y1 as <-.
  destruct (X3 i Hi KN UM) as (b & Eb & Bb). destruct (Y3 i Hi KN UM) as (c & Ec & Bc). assert (b = c) by now apply UQ. subst c.
  rewrite Eb. rewrite Ec in NS. split; [exact NS|]. eauto.
Qed.

(** The same, as C170: a property of its own. *)
Theorem C170_unique_best : forall pl e nm n s s' e1 ops e3 p seed, reachable pl e -> env_fit pl e nm n s s' = (e1, Ok tt) -> Forall (leaves_plan nm) ops ->
  (forall sd, exists draws, pl_pi pl nm sd = max_get_pi draws) ->
  let e2 := run pl e1 ops in
  env_step pl e2 nm seed = (e3, Ok p) ->
  exists a i pi q t, agent_named e2 nm a /\ stands_on (e_mdp e2) (at_pos a) i /\ get_agent_q_values e2 nm = Ok (Some q) /\ get_agent_pi e2 nm = Ok (Some pi) /\ p = Z.of_nat t /\
    (some_known (nth i q []) -> unmixed (nth i q []) -> (forall b c, best_action (nth i q []) b -> best_action (nth i q []) c -> b = c) ->
     get_next_state (e_mdp e2) (at_pos a) (nth i pi 0%Z) = Ok t /\ exists b, nth i pi 0%Z = Z.of_nat b /\ best_action (nth i q []) b).
Proof. exact (@C114_unique_best_partial). Qed.

(** The step follows an action whose reported probability is positive: for greedy selection, and for softmax selection. *)
Definition chosen_with (e : env R) (nm : string) (a : attached R) (i t : nat) : Prop :=
  exists pp act x, get_agent_pi_p e nm = Ok (Some pp) /\ nth act (nth i pp []) NaN = Fin x /\ (0 < x)%R /\
    get_next_state (e_mdp e) (at_pos a) (Z.of_nat act) = Ok t.
Theorem C114_probable_partial : forall pl e nm n s s' e1 ops e3 p seed, reachable pl e -> env_fit pl e nm n s s' = (e1, Ok tt) -> Forall (leaves_plan nm) ops ->
  let e2 := run pl e1 ops in
  env_step pl e2 nm seed = (e3, Ok p) ->
  exists a i q t, agent_named e2 nm a /\ stands_on (e_mdp e2) (at_pos a) i /\ get_agent_q_values e2 nm = Ok (Some q) /\ p = Z.of_nat t /\
    (pl_pi_p pl nm = max_get_pi_p -> (forall sd, exists draws, pl_pi pl nm sd = max_get_pi draws) -> some_known (nth i q []) -> unmixed (nth i q []) -> chosen_with e2 nm a i t) /\
    (forall T, (0 < T)%R -> pl_pi_p pl nm = softmax_get_pi_p T -> (forall sd, exists us, (forall j, 0 <= us j < 1)%R /\ pl_pi pl nm sd = softmax_get_pi T us) ->
       (forall row, In row q -> ~ In PInf row) -> (exists x, In (Fin x) (nth i q [])) -> chosen_with e2 nm a i t).
Proof.
  intros pl e nm n s s' e1 ops e3 p seed RE E F e2 ES.
  destruct (about_to_step _ _ _ _ _ _ _ _ _ _ _ RE E F ES) as (v & q & pp & pi0 & seed0 & a & pi & i & t & EP & EI & Q1 & Q2 & Q3 & NA & FT & EI2 & L0 & L1 & LQ & RQ & SK & SO & Hi & NS & EPt).
  exists a, i, q, t. do 4 (split; [assumption|]). split.
  - intros PP G KN UM. destruct (G seed) as (d & ED). rewrite ED in EI2. rewrite PP in EP.
    destruct (C25_sampled_is_best d q RQ SK) as (x & Y1 & _ & Y3). rewrite EI2 in Y1. injection Y1 as <-. destruct (Y3 i Hi KN UM) as (c & Ec & Bc).
    destruct (C25_probabilities q RQ SK) as (p' & P1 & _ & P3). rewrite EP in P1. injection P1 as <-. destruct (P3 i Hi KN UM) as (best & ps & R1 & R2 & R3 & R4 & R5 & R6 & R7).
    rewrite Ec in NS. exists pp, c, (nth c ps 0%R). assert (Hc : c < length ps) by (rewrite R2; apply Bc). split; [exact Q2|]. split; [rewrite R1; now apply nth_map_lt|]. split; [|exact NS].
    rewrite R7 by exact Hc. destruct (in_dec Nat.eq_dec c best) as [I|I]; [|elim I; now apply R6]. assert (0 < INR (length best))%R by (apply lt_0_INR; destruct best; [contradiction|cbn; lia]).
    unfold Rdiv. rewrite Rmult_1_l. now apply Rinv_0_lt_compat.
  - intros T HT PP G NP FN. destruct (G seed) as (us & HU & ED). rewrite ED in EI2. rewrite PP in EP.
    destruct (C27_sampled_is_possible T us q HT HU) as (x & Y1 & _ & Y3); [intros row Hr; split; [now apply RQ|now apply NP]|exact SK|]. rewrite EI2 in Y1. injection Y1 as <-.
    destruct (Y3 i Hi FN) as (c & y & Ec & Lc & Ey & _). rewrite Ec in NS.
    destruct (C27_gibbs T q pp HT EP i Hi) as (ps & R1 & R2 & R3 & _ & R5 & _); [apply NP; now apply nth_In|exact FN|].
    assert (Hc : c < length ps) by (rewrite R2; exact Lc). exists pp, c, (nth c ps 0%R). split; [exact Q2|]. split; [rewrite R1; now apply nth_map_lt|]. split; [|exact NS].
    assert (0 <= nth c ps 0)%R by (apply R3; now apply nth_In). destruct (Req_EM_T (nth c ps 0%R) 0%R) as [Z|Z]; [|lra]. exfalso. eapply R5; eauto.
Qed.

(** The same, as C170: a property of its own. *)
Theorem C170_probable : forall pl e nm n s s' e1 ops e3 p seed, reachable pl e -> env_fit pl e nm n s s' = (e1, Ok tt) -> Forall (leaves_plan nm) ops ->
  let e2 := run pl e1 ops in
  env_step pl e2 nm seed = (e3, Ok p) ->
  exists a i q t, agent_named e2 nm a /\ stands_on (e_mdp e2) (at_pos a) i /\ get_agent_q_values e2 nm = Ok (Some q) /\ p = Z.of_nat t /\
    (pl_pi_p pl nm = max_get_pi_p -> (forall sd, exists draws, pl_pi pl nm sd = max_get_pi draws) -> some_known (nth i q []) -> unmixed (nth i q []) -> chosen_with e2 nm a i t) /\
    (forall T, (0 < T)%R -> pl_pi_p pl nm = softmax_get_pi_p T -> (forall sd, exists us, (forall j, 0 <= us j < 1)%R /\ pl_pi pl nm sd = softmax_get_pi T us) ->
       (forall row, In row q -> ~ In PInf row) -> (exists x, In (Fin x) (nth i q [])) -> chosen_with e2 nm a i t).
Proof. exact (@C114_probable_partial). Qed.

(** Refuted in general: with ties the policy is drawn again, so the step need not be the one reported. On a
    2 x 2 grid the agent reports action 1 for its state, which leads to state 3, and takes action 2 to state 0. *)
Theorem C114_ties_refuted : exists m m' e e1 e2 pi, grid_mdp (A:=Q) Square ex_ft None (2, 2) false = Ok m /\
  make_env m [mkSpec "q"%string 1%Z None 1%Z [1; 0; 0]%Q []] = (m', Ok e) /\
  env_fit greedy e "q" None 0 1 = (e1, Ok tt) /\ get_agent_pi e1 "q" = Ok (Some pi) /\ nth 1 pi 0%Z = 1%Z /\
  get_next_state (e_mdp e1) 1 1 = Ok 3 /\ get_next_state (e_mdp e1) 1 2 = Ok 0 /\ env_step greedy e1 "q" 2 = (e2, Ok 0%Z).
Proof. do 6 eexists. vmr. Qed.
(** The hypotheses of the positive theorems are met by value iteration on a 2 x 1 grid: the agent reports
    action 1 for state 0 and takes it, whatever the draws. *)
Example C114_example : exists m m' e e1 e2 pi, grid_mdp (A:=Q) Square [[0; 1]%Q] None (2, 1) false = Ok m /\
  make_env m [mkSpec "q"%string 1%Z None 0%Z [1; 0]%Q []] = (m', Ok e) /\
  env_fit (vi_greedy (1 # 2) (1 # 2) 100)%Q e "q" None 0 0 = (e1, Ok tt) /\ get_agent_pi e1 "q" = Ok (Some pi) /\ nth 0 pi 0%Z = 1%Z /\
  get_next_state (e_mdp e1) 0 1 = Ok 1 /\ env_step (vi_greedy (1 # 2) (1 # 2) 100)%Q e1 "q" 7 = (e2, Ok 1%Z).
Proof. do 6 eexists. vmr. Qed.
Example C114_selectors : forall g tol mi nm, pl_pi_p (vi_greedy (A:=R) g tol mi) nm = max_get_pi_p /\ (forall sd, exists draws, pl_pi (vi_greedy (A:=R) g tol mi) nm sd = max_get_pi draws).
Proof. intros. split; [reflexivity|]. intros sd. exists (fun _ => sd). reflexivity. Qed.
