(** Properties C116, C117 and C118: assigning an agent's algorithm, or the features of the MDP, while the
    environment is in use. *)
From Coq Require Import String List ZArith QArith Reals Bool Lia Lra.
From Verif Require Import PyBase PyProofs GridModel GridSpec MDPModel MDPSpec MDPProofs MDPProofs2 MDPProofs3 MDPProofs4 MDPProps ActionModel ActionSpec ActionProofs RSum ActionProps EnvModel PlanProps EnvSpec StepSpec EnvProofs EnvProofs2 EnvProofs3 EnvProofs4 EnvProofs5 EnvProps StepProps VIModel VISpec VIProofs VIProofs2 VIProps VIEnvProps WorldModel WorldProofs WorldProofs2 WorldNew QueryModel QuerySpec QueryProofs QueryProps MCTSModel MCTSRun SetModel SetSpec SetProofs.
Import ListNotations.
Local Close Scope Q_scope.
Local Open Scope nat_scope.

(** ** C116: replacing an agent's algorithm *)

(** The assignment succeeds exactly for the agents of the environment, and keeps everything but the plan:
    positions, histories, consumption, features, walls and the plans of the others. *)
Theorem C116_assigned : forall pl e nm f e' r, reachable pl e -> set_algorithm e nm f = (e', r) ->
  (r = Ok tt <-> exists a, agent_named e nm a) /\ (r <> Ok tt -> r = Err KeyError) /\ same_but_plans e' e /\
  (forall a, In a (e_agents e) -> at_name a <> nm -> In a (e_agents e')) /\
  (r = Ok tt -> get_agent_q_values e' nm = Ok (option_map snd f)).
Proof.
  intros pl e nm f e' r RE E. destruct (reachable_wf _ _ RE) as (k & shape & st & W). pose proof (wf_names _ _ _ _ W) as ND.
  assert (E' : e' = sfe nm f e) by (rewrite <- (set_algorithm_sf e nm f ND), E; reflexivity).
  assert (S : same_but_plans e' e) by (rewrite E'; apply same_sf).
  assert (O : forall a, In a (e_agents e) -> at_name a <> nm -> In a (e_agents e')).
  { intros a Ha N. rewrite E'. cbn [sfe e_agents]. rewrite <- (sf_other nm f a N). now apply in_map. }
  unfold set_algorithm in E. destruct (find_agent (e_agents e) nm) as [a|] eqn:F; injection E as E1 E2; subst r.
  - apply find_agent_iff in F; [|exact ND]. split; [split; [intros _; now exists a|auto]|]. split; [congruence|]. split; [exact S|]. split; [exact O|]. intros _.
    unfold get_agent_q_values. rewrite E', lookup_sf. destruct F as [F1 F2]. rewrite <- F2. rewrite (EnvProofs2.lookup_in _ _ _ _ _ W F1). unfold sf. rewrite F2, String.eqb_refl. reflexivity.
  - split; [split; [discriminate|]|].
    + intros (a & Ha & Na). exfalso. assert (X : find_agent (e_agents e) nm = Some a) by (apply find_agent_iff; auto). congruence.
    + split; [reflexivity|]. split; [exact S|]. split; [exact O|discriminate].
Qed.

(** With an algorithm that has not been fitted, the agent cannot be stepped, and its policy cannot be queried,
    until it is fitted: whatever else is called in between, resets included. *)
Theorem C116_until_fitted : forall pl pl' e nm e' ops, reachable pl e -> set_algorithm e nm None = (e', Ok tt) -> Forall (never_fits nm) ops ->
  let e2 := run pl' e' ops in
  (forall s, env_step pl' e2 nm s = (e2, Err AttributeError)) /\ get_agent_pi e2 nm = Err AttributeError /\ get_agent_pi_p e2 nm = Err AttributeError /\
  get_agent_q_values e2 nm = Ok None.
Proof.
  intros pl pl' e nm e' ops RE E F e2. destruct (reachable_wf _ _ RE) as (k & shape & st & W). pose proof (wf_names _ _ _ _ W) as ND.
  assert (E' : e' = sfe nm None e) by (rewrite <- (set_algorithm_sf e nm None ND), E; reflexivity).
  assert (HA : exists a, In a (e_agents e) /\ at_name a = nm).
  { unfold set_algorithm in E. destruct (find_agent (e_agents e) nm) as [a|] eqn:FA; [|discriminate]. apply find_agent_iff in FA; [|exact ND]. eauto. }
  destruct HA as (a & Ha & Na).
  assert (K0 : knows nm (fun a : attached R => at_fit a = None) e').
  { rewrite E'. split; [|split].
    - cbn [sfe e_names]. apply existsb_exists. exists nm. split; [|apply String.eqb_refl]. apply (wf_lookup _ _ _ _ W). rewrite <- Na. now apply in_map.
    - exists (sf nm None a). cbn [sfe e_agents]. rewrite find_sf. assert (X : find_agent (e_agents e) nm = Some a) by (apply find_agent_iff; auto). now rewrite X.
    - cbn [sfe e_agents]. intros b Hb Nb. apply in_map_iff in Hb. destruct Hb as (c & <- & Hc). rewrite sf_name in Nb. unfold sf. now rewrite Nb, String.eqb_refl. }
  assert (K : knows nm (fun a : attached R => at_fit a = None) e2).
  { unfold e2. clear E E' e2. revert e' K0. induction F as [|o ops [->|L] F IH]; intros e' K0; [exact K0| |]; cbn [run fold_left]; apply IH.
    - cbn [do_op]. apply reset_keeps; auto. intros x y _ -> _ _ X; exact X.
    - apply op_keeps; auto; [intros x y _ -> _ _ X; exact X|]. intros x s x' r. apply unfitted_policy. }
  assert (W' : exists k' shape' st', wf k' shape' st' e').
  { exists k, shape, st. unfold set_algorithm in E. assert (X : find_agent (e_agents e) nm = Some a) by (apply find_agent_iff; auto). rewrite X in E. injection E as <-.
    apply (mut_wf k shape st LAgent e); [exact W|]. exists a, (set_fit a None). repeat split; auto. }
  destruct W' as (k' & shape' & st' & W'). pose proof (run_wf pl' k' shape' st' ops _ W') as W2. fold e2 in W2.
  destruct (knows_lookup _ _ _ K) as (b & L & Nb & FT). split; [|unfold get_agent_pi, get_agent_pi_p, get_agent_q_values; rewrite L; cbn [bind]; rewrite FT; auto].
  intros s. unfold env_step. rewrite L. unfold agent_step. rewrite FT. f_equal. rewrite QueryProofs.with_mdp_id. eapply with_agent_same; [exact W2|]. eapply lookup_in; exact L.
Qed.

(** The next fit uses the new algorithm: if it succeeds, the reported action values are those the new algorithm
    gave for the environment as it was. *)
Theorem C116_next_fit : forall {A} `{Num A} (pl : plugins A) e nm f e' alg fg ops n s s' e2,
  set_algorithm e nm f = (e', Ok tt) -> let pl' := with_algorithm pl nm alg fg in
  env_fit pl' (run pl' e' ops) nm n s s' = (e2, Ok tt) ->
  exists v q, alg (run pl' e' ops) n s = Ok (v, q) /\ get_agent_q_values e2 nm = Ok (Some q).
Proof.
  intros A NA pl e nm f e' alg fg ops n s s' e2 E pl' EF. destruct (C113_latest_fit_partial pl' _ nm n s s' e2 [] EF) as (v & q & p & pi & sd & F & _ & _ & Q & _); [constructor|].
  unfold pl' in F at 1. cbn [with_algorithm pl_fit] in F. rewrite String.eqb_refl in F. eauto.
Qed.

(** If it fails instead, the plan in use so far is kept or lost as is the new algorithm's way, not the old one's. *)
Theorem C116_failed_fit : forall pl e nm f e' alg fg ops n s s' x, reachable pl e -> set_algorithm e nm f = (e', Ok tt) ->
  let pl' := with_algorithm pl nm alg fg in let e2 := run pl' e' ops in alg e2 n s = Err x ->
  exists e3, env_fit pl' e2 nm n s s' = (e3, Err x) /\ (fg = false -> e3 = e2) /\ (fg = true -> get_agent_q_values e3 nm = Ok None /\ same_but_plans e3 e2).
Proof.
  intros pl e nm f e' alg fg ops n s s' x RE E pl' e2 EA. destruct (reachable_wf _ _ RE) as (k & shape & st & W). pose proof (wf_names _ _ _ _ W) as ND.
  pose proof E as E0. unfold set_algorithm in E. destruct (find_agent (e_agents e) nm) as [a|] eqn:FA; [|discriminate]. apply find_agent_iff in FA; [|exact ND]. destruct FA as [Ha Na].
  assert (EE : e' = with_agent e (set_fit a f)) by congruence. clear E.
  assert (W' : wf k shape st e') by (rewrite EE; apply (mut_wf k shape st LAgent e); [exact W|]; exists a, (set_fit a f); repeat split; auto).
  pose proof (run_wf pl' k shape st ops _ W') as W2. fold e2 in W2.
  assert (IN : In nm (e_names e2)).
  { destruct (run_static pl' k shape st ops _ W') as (H1 & _). fold e2 in H1. rewrite H1, EE. apply (wf_lookup _ _ _ _ W). rewrite <- Na. now apply in_map. }
  destruct (lookup_spec _ _ _ _ nm W2) as [(b & L & Hb & Nb)|(_ & N)]; [|contradiction].
  destruct (wf_agents _ _ _ _ W2 b Hb) as (_ & _ & _ & LR & _).
  assert (EF : env_fit pl' e2 nm n s s' = (if fg then with_agent e2 (set_fit b None) else e2, Err x)).
  { unfold env_fit. rewrite L. unfold alg_fit, failed_fit. rewrite LR, Nat.eqb_refl, Nb. cbn [negb andb].
    assert (P1 : pl_fit pl' nm e2 n s = Err x) by (unfold pl' at 1; cbn [with_algorithm pl_fit]; now rewrite String.eqb_refl).
    assert (P2 : pl_forgets pl' nm = fg) by (unfold pl'; cbn [with_algorithm pl_forgets]; now rewrite String.eqb_refl).
    rewrite P1, P2. reflexivity. }
  eexists. split; [exact EF|]. split; [intros ->; reflexivity|]. intros ->.
  assert (SA : set_algorithm e2 nm None = (with_agent e2 (set_fit b None), Ok tt)).
  { unfold set_algorithm. rewrite (proj2 (find_agent_iff _ nm b (wf_names _ _ _ _ W2)) (conj Hb Nb)). reflexivity. }
  assert (ES : with_agent e2 (set_fit b None) = sfe nm None e2) by (rewrite <- (set_algorithm_sf e2 nm None (wf_names _ _ _ _ W2)), SA; reflexivity). rewrite ES. split; [|apply same_sf].
  unfold get_agent_q_values. rewrite lookup_sf, L. unfold sf. rewrite Nb, String.eqb_refl. reflexivity.
Qed.

(** Nobody else notices: as long as the agent itself does not plan or act, every program has the same effects
    and results as without the assignment. *)
Theorem C116_others : forall pl e nm f e' alg fg ops, reachable pl e -> set_algorithm e nm f = (e', Ok tt) -> Forall (not_acting nm) ops ->
  (forall nm', nm' <> nm -> ignores_plans pl nm') ->
  let pl' := with_algorithm pl nm alg fg in let e1 := run pl e ops in let e2 := run pl' e' ops in
  e2 = fst (set_algorithm e1 nm f) /\
  forall nm', nm' <> nm ->
    (forall s, snd (env_step pl' e2 nm' s) = snd (env_step pl e1 nm' s)) /\
    (forall n s s', snd (env_fit pl' e2 nm' n s s') = snd (env_fit pl e1 nm' n s s')) /\
    (forall ns p t rf st rnd, snd (step_multi pl' e2 nm' ns p t rf st rnd) = snd (step_multi pl e1 nm' ns p t rf st rnd)) /\
    (forall p s, snd (env_step_proba pl' e2 nm' p s) = snd (env_step_proba pl e1 nm' p s)) /\
    get_agent_pi e2 nm' = get_agent_pi e1 nm' /\ get_agent_pi_p e2 nm' = get_agent_pi_p e1 nm' /\
    get_agent_q_values e2 nm' = get_agent_q_values e1 nm' /\ get_history e2 nm' = get_history e1 nm'.
Proof.
  intros pl e nm f e' alg fg ops RE E F IG pl' e1 e2. destruct (reachable_wf _ _ RE) as (k & shape & st & W).
  assert (E' : e' = sfe nm f e) by (rewrite <- (set_algorithm_sf e nm f (wf_names _ _ _ _ W)), E; reflexivity).
  assert (P1 : forall nm' e0 n s, nm' <> nm -> pl_fit pl' nm' (sfe nm f e0) n s = pl_fit pl nm' e0 n s).
  { intros nm' e0 n s N. unfold pl'. cbn [with_algorithm pl_fit]. destruct (String.eqb_spec nm' nm); [contradiction|]. apply IG; [exact N|apply same_sf]. }
  assert (P2 : forall nm', nm' <> nm -> pl_forgets pl' nm' = pl_forgets pl nm').
  { intros nm' N. unfold pl'. cbn [with_algorithm pl_forgets]. now destruct (String.eqb_spec nm' nm). }
  assert (E2 : e2 = sfe nm f e1) by (unfold e2, e1; rewrite E'; now apply run_sf).
  split; [rewrite set_algorithm_sf; [exact E2|apply (wf_names _ _ _ _ (run_wf pl k shape st ops e W))]|].
  intros nm' N. rewrite E2. split; [intros s; now rewrite (step_sf nm f pl pl' eq_refl eq_refl)|].
  split; [intros n s s'; now rewrite (fit_sf nm f pl pl' P1 eq_refl eq_refl P2)|].
  split; [intros; now rewrite (multi_sf nm f pl pl' P1 eq_refl eq_refl P2)|].
  split; [intros; now rewrite (proba_sf nm f pl pl' eq_refl eq_refl)|].
  unfold get_agent_pi, get_agent_pi_p, get_agent_q_values, get_history. now rewrite lookup_sf_other by exact N.
Qed.

(** The algorithms of the library do not look at plans. *)
Lemma find_same : forall {A} (l1 l2 : list (attached A)) nm, map (fun a => set_fit a None) l1 = map (fun a => set_fit a None) l2 ->
  match find_agent l1 nm, find_agent l2 nm with Some a, Some b => set_fit a None = set_fit b None | None, None => True | _, _ => False end.
Proof.
  induction l1 as [|a l1 IH]; intros [|b l2] nm E; try discriminate E; [exact I|]. cbn [map] in E. injection E as E1 E2 E3 E4 E5 E6 E7 E8 E9 E10 E11 E12 E13. unfold find_agent. cbn [find]. rewrite E1.
  destruct (String.eqb (at_name b) nm); [unfold set_fit; congruence|]. now apply IH.
Qed.
Theorem C116_library : forall {A} `{Num A} nm,
  (forall g tol mi, ignores_plans (vi_greedy g tol mi) nm) /\ (forall score cfg, ignores_plans (mcts_greedy score cfg) nm) /\ ignores_plans greedy nm.
Proof.
  intros A NA nm. split; [|split].
  - intros g tol mi e1 e2 n s (E1 & _ & _ & _ & E5). pose proof (find_same _ _ nm E5) as F. cbn [vi_greedy pl_fit]. rewrite E1.
    destruct (find_agent (e_agents e1) nm) as [a|], (find_agent (e_agents e2) nm) as [b|]; try contradiction; [|reflexivity].
    assert (X : at_reward a = at_reward b) by (now injection F). now rewrite X.
  - intros score cfg e1 e2 n s (E1 & _ & _ & _ & E5). pose proof (find_same _ _ nm E5) as F. cbn [mcts_greedy pl_fit].
    assert (LL : length (e_agents e1) = length (e_agents e2)) by (rewrite <- (map_length (fun a => set_fit a None) (e_agents e1)), E5; apply map_length). rewrite LL.
    destruct (find_agent (e_agents e1) nm) as [a|], (find_agent (e_agents e2) nm) as [b|]; try contradiction; [|reflexivity].
    unfold mcts_fit. rewrite E1.
    assert (AI : forall x y : attached A, set_fit x None = set_fit y None -> agent_info x = agent_info y /\ at_name x = at_name y /\ at_pos x = at_pos y).
    { intros x y X. injection X as X1 X2 X3 X4 X5 X6 X7 X8 X9 X10 X11 X12. unfold agent_info. now rewrite X1, X2, X3, X4, X7, X9. }
    destruct (AI a b F) as (X1 & X2 & X3). rewrite X3.
    replace (all_info (mc_interactive cfg) e1 a) with (all_info (mc_interactive cfg) e2 b); [reflexivity|].
    unfold all_info. rewrite X1. f_equal. destruct (mc_interactive cfg); [|reflexivity]. rewrite X2.
    clear - E5 AI. revert E5. generalize (e_agents e1) (e_agents e2). induction l as [|x l IH]; intros [|y l2] E; try discriminate E; [reflexivity|]. cbn [map] in E.
    assert (Y : set_fit x None = set_fit y None /\ map (fun a => set_fit a None) l = map (fun a => set_fit a None) l2) by (split; congruence). destruct Y as [Y1 Y2].
    destruct (AI x y Y1) as (Z1 & Z2 & _). cbn [filter]. rewrite Z2. destruct (negb _); cbn [map]; [rewrite Z1; f_equal|]; now apply IH.
  - intros e1 e2 n s (E1 & _). cbn. unfold null_fit. now rewrite E1.
Qed.
(** An agent planning with value iteration is given the Null algorithm, cannot be stepped, is fitted and stepped again. *)
Example C116_example : exists m m' e e1 e2 e3 e4, grid_mdp (A:=Q) Square [[0; 1]%Q] None (2, 1) false = Ok m /\
  make_env m [mkSpec "q"%string 1%Z None 0%Z [1; 0]%Q []] = (m', Ok e) /\ let pl := vi_greedy (1 # 2)%Q (1 # 2)%Q 100 in
  env_fit pl e "q" None 0 0 = (e1, Ok tt) /\ set_algorithm e1 "q" None = (e2, Ok tt) /\
  let pl' := with_algorithm pl "q" (fun e _ _ => null_fit e) false in
  env_step pl' e2 "q" 0 = (e2, Err AttributeError) /\ env_fit pl' e2 "q" None 0 0 = (e3, Ok tt) /\
  get_agent_q_values e3 "q" = Ok (Some (repeat (repeat (Fin 1%Q) 4) 2)) /\ get_agent_q_values e1 "q" <> get_agent_q_values e3 "q" /\ env_step pl' e3 "q" 0 = (e4, Ok 0%Z).
Proof. do 7 eexists. do 2 (split; [vm_compute; reflexivity|]). cbv zeta. do 5 (split; [vm_compute; reflexivity|]). split; [vm_compute; discriminate|vm_compute; reflexivity]. Qed.

(** ** C117: an algorithm that was fitted before *)

(** Refuted: the reported action values are those of the new algorithm at once, but policy and probabilities
    are still those of the old one. *)
Theorem C117_stale_policy_refuted : forall pl e nm a f f' e', reachable pl e -> agent_named e nm a -> at_fit a = Some f ->
  set_algorithm e nm (Some f') = (e', Ok tt) ->
  get_agent_q_values e' nm = Ok (Some (snd f')) /\ get_agent_pi e' nm = get_agent_pi e nm /\ get_agent_pi_p e' nm = get_agent_pi_p e nm.
Proof.
  intros pl e nm a f f' e' RE [Ha Na] FT E. destruct (reachable_wf _ _ RE) as (k & shape & st & W).
  assert (E' : e' = sfe nm (Some f') e) by (rewrite <- (set_algorithm_sf e nm (Some f') (wf_names _ _ _ _ W)), E; reflexivity).
  assert (L : lookup e nm = Ok a) by (rewrite <- Na; now apply (EnvProofs2.lookup_in _ _ _ _ _ W)).
  unfold get_agent_q_values, get_agent_pi, get_agent_pi_p. rewrite E', lookup_sf, L. cbn [bind]. unfold sf. rewrite Na, String.eqb_refl. cbn [set_fit at_fit at_pi at_pi_p option_map]. now rewrite FT.
Qed.
(** Three states in a row with the agent in the middle, both algorithms fitted: the agent reports values for
    which one direction is best, and a policy that takes the other. *)
Theorem C117_mismatch_refuted : exists m m' e e1 e2 f, grid_mdp (A:=Q) Square [[0; 0; 1]; [1; 0; 0]]%Q None (3, 1) false = Ok m /\
  make_env m [mkSpec "q"%string 1%Z None 1%Z [1; 0; 0]%Q []] = (m', Ok e) /\ let pl := vi_greedy (1 # 2)%Q (1 # 2)%Q 100 in
  env_fit pl e "q" None 0 0 = (e1, Ok tt) /\ vi_fit (1 # 2)%Q (1 # 2)%Q 100 (e_mdp e) [0; 1; 0]%Q = Ok f /\
  set_algorithm e1 "q" (Some f) = (e2, Ok tt) /\
  exists pi pi' q, get_agent_pi e2 "q" = Ok (Some pi) /\ get_agent_q_values e2 "q" = Ok (Some q) /\ get_pi (max_get_pi (fun _ => 0)) q = Ok pi' /\ nth 1 pi 0%Z <> nth 1 pi' 0%Z.
Proof. do 6 eexists. do 2 (split; [vm_compute; reflexivity|]). cbv zeta. do 3 (split; [vm_compute; reflexivity|]). do 3 eexists. do 3 (split; [vm_compute; reflexivity|]). discriminate. Qed.

(** What holds: the next step that succeeds follows the new values, and from then on the queries report a
    policy and probabilities for them (until the agent is fitted or the environment reset). *)
Theorem C117_next_step_partial : forall pl e nm f' e' s e2 p ops, reachable pl e ->
  set_algorithm e nm (Some f') = (e', Ok tt) -> env_step pl e' nm s = (e2, Ok p) -> Forall (leaves_plan nm) ops ->
  exists a pp pi0 pi seed i t, agent_named e nm a /\ get_pi (pl_pi pl nm s) (snd f') = Ok pi0 /\ py_index (length pi0) (at_pos a) = Ok i /\
    get_next_state (e_mdp e) (at_pos a) (nth i pi0 0%Z) = Ok t /\ p = Z.of_nat t /\
    let e3 := run pl e2 ops in get_agent_q_values e3 nm = Ok (Some (snd f')) /\
    get_agent_pi_p e3 nm = Ok (Some pp) /\ get_pi_p (pl_pi_p pl nm) (snd f') = Ok pp /\
    get_agent_pi e3 nm = Ok (Some pi) /\ get_pi (pl_pi pl nm seed) (snd f') = Ok pi.
Proof.
  intros pl e nm f' e' s e2 p ops RE E ES F. destruct (reachable_wf _ _ RE) as (k & shape & st & W).
  assert (E' : e' = sfe nm (Some f') e) by (rewrite <- (set_algorithm_sf e nm (Some f') (wf_names _ _ _ _ W)), E; reflexivity).
  destruct (step_success _ _ _ _ _ _ ES) as (a & v & q & pi & pp & i & t & a' & L & FT & EP & EI & PI & NN & NS & Ep & L' & FT' & PI' & PP').
  rewrite E', lookup_sf in L. destruct (lookup e nm) as [a0|x] eqn:L0; [|discriminate]. injection L as <-. pose proof (lookup_in _ _ _ L0) as [Ha0 Na0].
  assert (SF : sf nm (Some f') a0 = set_fit a0 (Some f')) by (unfold sf; now rewrite Na0, String.eqb_refl). rewrite SF in FT, PI, NS. cbn [set_fit at_fit at_pos] in FT, PI, NS. injection FT as ->. cbn [snd].
  assert (KN : knows nm (planned pl nm q pp) e2).
  { assert (EX : existsb (String.eqb nm) (e_names e2) = true /\ find_agent (e_agents e2) nm = Some a').
    { unfold lookup in L'. destruct (existsb _ _); [|discriminate]. destruct (find_agent _ _) eqn:FF; [|discriminate]. injection L' as ->. auto. }
    destruct EX as [X1 X2]. split; [exact X1|]. split; [eauto|]. intros b Hb Nb.
    assert (W' : exists k' shape' st', wf k' shape' st' e').
    { exists k, shape, st. assert (X : find_agent (e_agents e) nm = Some a0) by (apply find_agent_iff; [apply (wf_names _ _ _ _ W)|auto]). unfold set_algorithm in E. rewrite X in E. injection E as <-.
      apply (mut_wf k shape st LAgent e); [exact W|]. exists a0, (set_fit a0 (Some (v, q))). repeat split; auto. }
    destruct W' as (k' & shape' & st' & W'). pose proof (do_op_wf pl _ _ _ _ (OStep nm s) W') as W2. cbn [do_op] in W2. rewrite ES in W2. cbn [fst] in W2.
    assert (b = a'). { eapply same_name_same; [apply (wf_names _ _ _ _ W2)|exact Hb| |]; apply find_in in X2; destruct X2; congruence. } subst b.
    split; [now exists v|]. split; [exact PP'|]. exists pi, s. auto. }
  apply (run_keeps pl nm _ (planned_same pl nm q pp) (planned_policy pl nm q pp EP) ops) in KN; [|exact F].
  destruct (knows_lookup _ _ _ KN) as (b & Lb & _ & (v' & FTb) & PPb & pib & seed & PIb & GPb).
  exists a0, pp, pi, pib, seed, i, t. split; [split; assumption|]. split; [exact EI|]. split; [exact PI|]. split; [rewrite E' in NS; exact NS|]. split; [exact Ep|].
  cbv zeta. unfold get_agent_q_values, get_agent_pi, get_agent_pi_p. rewrite Lb. cbn [bind]. rewrite FTb, PPb, PIb. cbn [option_map snd]. auto.
Qed.

(** The same, as C182: a property of its own. *)
Theorem C182_next_step : forall pl e nm f' e' s e2 p ops, reachable pl e ->
  set_algorithm e nm (Some f') = (e', Ok tt) -> env_step pl e' nm s = (e2, Ok p) -> Forall (leaves_plan nm) ops ->
  exists a pp pi0 pi seed i t, agent_named e nm a /\ get_pi (pl_pi pl nm s) (snd f') = Ok pi0 /\ py_index (length pi0) (at_pos a) = Ok i /\
    get_next_state (e_mdp e) (at_pos a) (nth i pi0 0%Z) = Ok t /\ p = Z.of_nat t /\
    let e3 := run pl e2 ops in get_agent_q_values e3 nm = Ok (Some (snd f')) /\
    get_agent_pi_p e3 nm = Ok (Some pp) /\ get_pi_p (pl_pi_p pl nm) (snd f') = Ok pp /\
    get_agent_pi e3 nm = Ok (Some pi) /\ get_pi (pl_pi pl nm seed) (snd f') = Ok pi.
Proof. exact (@C117_next_step_partial). Qed.

(** ** C118: replacing the features of an MDP in use *)

(** Refuted: a table with the ordinary features only is accepted, and then no agent can be fitted any more. *)
Theorem C118_ordinary_table_refuted : forall pl e table, reachable pl e -> e_agents e <> [] -> length table = n_ordinary (e_mdp e) ->
  (forall row, In row table -> length row = m_n_states (e_mdp e)) ->
  exists e', assign_features e table = (e', Ok tt) /\
    forall nm a n s s', agent_named e nm a -> env_fit pl e' nm n s s' = (e', Err AttributeError).
Proof.
  intros pl e table RE NE LT HR. destruct (reachable_wf _ _ RE) as (k & shape & st & W). unfold assign_features.
  rewrite set_features_ok by (now apply Forall_forall). eexists. split; [reflexivity|]. intros nm a n s s' [Ha Na].
  assert (L : lookup e nm = Ok a) by (rewrite <- Na; now apply (EnvProofs2.lookup_in _ _ _ _ _ W)).
  unfold env_fit. change (lookup (with_mdp e ?m) nm) with (lookup e nm). rewrite L. unfold alg_fit, failed_fit. cbn [with_mdp e_mdp m_n_features].
  destruct (wf_agents _ _ _ _ W a Ha) as (Hi & _ & _ & LR & _). rewrite LR. pose proof (wf_nf _ _ _ _ W) as NF. unfold n_ordinary in LT.
  destruct (Nat.eqb_spec (m_n_features (e_mdp e)) (length table)) as [X|X]; [exfalso; lia|]. reflexivity.
Qed.
(** Refuted: moving an agent then erases an ordinary feature: its row marks the agent's position instead. *)
Theorem C118_erases_feature_refuted : forall pl e table nm a p s, reachable pl e -> agent_named e nm a -> length table = n_ordinary (e_mdp e) ->
  m_n_agents (e_mdp e) <= n_ordinary (e_mdp e) ->
  (forall row, In row table -> length row = m_n_states (e_mdp e)) -> (p < Z.of_nat (m_n_states (e_mdp e)))%Z -> stands_on (e_mdp e) p s ->
  exists e' e'' f, assign_features e table = (e', Ok tt) /\ set_agent_position e' nm p = (e'', Ok tt) /\ f < n_ordinary (e_mdp e) /\
    (forall t, t < m_n_states (e_mdp e) -> get2 0%R (m_features (e_mdp e'')) f t = if t =? s then 1%R else 0%R) /\
    (forall g, g <> f -> nth g (m_features (e_mdp e'')) [] = nth g table []).
Proof.
  intros pl e table nm a p s RE [Ha Na] LT LE HR HP SO. destruct (reachable_wf _ _ RE) as (k & shape & st & W). unfold assign_features.
  rewrite set_features_ok by (now apply Forall_forall).
  assert (L : lookup e nm = Ok a) by (rewrite <- Na; now apply (EnvProofs2.lookup_in _ _ _ _ _ W)).
  destruct (wf_agents _ _ _ _ W a Ha) as (Hi & _ & _ & LR & _). pose proof (wf_nf _ _ _ _ W) as NF. set (f := length table - m_n_agents (e_mdp e) + at_idx a).
  assert (Hf : f < length table) by (unfold f; lia).
  eexists _, _, f. split; [reflexivity|]. unfold set_agent_position. change (lookup (with_mdp e ?m) nm) with (lookup e nm). rewrite L. unfold move_agent. cbn [with_mdp e_mdp m_n_states].
  destruct (Z.leb_spec (Z.of_nat (m_n_states (e_mdp e))) p) as [X|X]; [lia|]. unfold update_agent_feature. cbn [m_features m_n_features m_n_agents m_n_states].
  replace (Z.of_nat (length table) - Z.of_nat (m_n_agents (e_mdp e)) + Z.of_nat (at_idx a))%Z with (Z.of_nat f) by (unfold f; lia). rewrite py_index_nat by exact Hf.
  unfold stands_on in SO. rewrite SO. split; [reflexivity|]. split; [lia|]. cbn [with_agent with_mdp e_mdp with_features m_features].
  assert (LF : length (nth f table []) = m_n_states (e_mdp e)) by (apply HR; now apply nth_In).
  assert (ZR : map (fun _ : R => n0 (A:=R)) (nth f table []) = zeros1 (m_n_states (e_mdp e))) by (unfold zeros1; rewrite <- LF; apply map_const_repeat).
  split.
  - intros t Ht. unfold get2. rewrite nth_upd_same by exact Hf. rewrite ZR. apply feat_onehot; [eapply py_index_ok; exact SO|exact Ht].
  - intros g Ng. apply nth_upd_other. congruence.
Qed.

(** With rows for the agents appended: everything else about the environment is as before. *)
Lemma assigned_wf : forall k shape st e table, wf k shape st e -> length table = m_n_features (e_mdp e) ->
  (forall row, In row table -> length row = m_n_states (e_mdp e)) ->
  exists e', assign_features e table = (e', Ok tt) /\ wf k shape st e' /\ e_agents e' = e_agents e /\ e_names e' = e_names e /\ e_n_steps e' = e_n_steps e /\
    m_features (e_mdp e') = table /\ m_orig_features (e_mdp e') = table /\ m_sas (e_mdp e') = m_sas (e_mdp e) /\ m_walls (e_mdp e') = m_walls (e_mdp e) /\
    m_n_states (e_mdp e') = m_n_states (e_mdp e) /\ m_n_features (e_mdp e') = m_n_features (e_mdp e) /\ m_n_non_agent (e_mdp e') = m_n_non_agent (e_mdp e) /\ m_n_agents (e_mdp e') = m_n_agents (e_mdp e).
Proof.
  intros k shape st e table W LT HR. unfold assign_features. rewrite set_features_ok by (now apply Forall_forall). eexists. split; [reflexivity|].
  split; [|cbn [with_mdp e_mdp e_agents e_names e_n_steps m_features m_orig_features m_sas m_walls m_n_states m_n_features m_n_non_agent m_n_agents]; repeat split; auto].
  assert (FR : Forall (fun row => length row = m_n_states (e_mdp e)) table) by (now apply Forall_forall).
  destruct W as [G T NF OL OF ND LK IX AG]. constructor; cbn [with_mdp e_mdp e_agents e_names m_features m_orig_features m_n_states m_n_features m_n_non_agent m_n_agents]; auto.
  - destruct G. constructor; assumption.
  - split; cbn; auto.
  - lia.
  - intros a Ha. specialize (AG a Ha). unfold agent_ok in *. cbn [m_n_agents m_n_features m_n_non_agent]. unfold stands_on in *. cbn [m_n_states]. rewrite LT. exact AG.
Qed.

Lemma run_marks1 : forall pl k shape st l e, Forall (fun o => position_ok e o /\ (o = OReset -> orig_marks e)) l -> wf k shape st e -> marks1 e -> consumes_ordinary e -> consumes_in_range e ->
  wf k shape st (run pl e l) /\ marks1 (run pl e l).
Proof.
  intros pl k shape st. induction l as [|o l IH]; intros e PO W M CO CR; [auto|]. inversion PO as [|? ? P0 PO']. subst. cbn [run fold_left]. fold (run pl (do_op pl e o) l).
  pose proof (do_op_muts pl k shape st e o W) as MM. assert (S : static e (do_op pl e o)) by (eapply muts_static; eauto).
  apply IH.
  - eapply Forall_impl; [|exact PO']. intros o' [Hp HO]. split; [|intros X; eapply static_orig_marks; eauto].
    destruct o'; cbn in *; auto. destruct S as (_ & _ & X). unfold mident in X. injection X as _ _ E2 _ _ _ _ _. now rewrite E2.
  - now apply do_op_wf.
  - assert (D : o = OReset \/ o <> OReset) by (destruct o; auto; right; discriminate). destruct D as [->|D].
    + cbn [do_op]. destruct (env_reset_spec k shape st e W) as (e2 & E2 & _). rewrite E2. eapply reset_marks1; eauto. now apply P0.
    + destruct P0 as [P0 _]. eapply muts_marks1; eauto.
      * destruct o; cbn; try tauto; try congruence.
      * destruct o; cbn; try tauto; try congruence. cbn in P0. lia.
      * destruct o; cbn; try tauto; congruence.
  - eapply static_ordinary; eauto.
  - eapply static_consumes; eauto.
Qed.

(** What holds: if the assigned table has the ordinary features and then one row per agent marking where it is,
    the table is in force, nothing else changes, and after any further calls without a reset every agent is
    marked exactly where it stands; with resets too, if every agent was at its starting position. *)
Theorem C118_with_marks_partial : forall pl e table state ops, reachable pl e -> eats_only_ordinary e -> length table = m_n_features (e_mdp e) ->
  (forall row, In row table -> length row = m_n_states (e_mdp e)) ->
  (forall a, In a (e_agents e) -> stands_on (e_mdp e) (at_pos a) (state a)) -> marked_at e table state ->
  Forall (position_ok e) ops ->
  (In OReset ops -> forall a, In a (e_agents e) -> stands_on (e_mdp e) (at_start a) (state a)) ->
  exists e', assign_features e table = (e', Ok tt) /\ m_features (e_mdp e') = table /\ m_sas (e_mdp e') = m_sas (e_mdp e) /\ m_walls (e_mdp e') = m_walls (e_mdp e) /\
    e_agents e' = e_agents e /\ e_n_steps e' = e_n_steps e /\
    forall a, In a (e_agents (run pl e' ops)) -> exists s, stands_on (e_mdp (run pl e' ops)) (at_pos a) s /\
      forall t, t < m_n_states (e_mdp e) -> get2 0%R (m_features (e_mdp (run pl e' ops))) (at_feature_idx a) t = if t =? s then 1%R else 0%R.
Proof.
  intros pl e table state ops RE EO LT HR SP MK PO RS. destruct (reachable_wf _ _ RE) as (k & shape & st & W).
  destruct (assigned_wf k shape st e table W LT HR) as (e' & E & W' & EA & EN & ES & EF & EOF & ESA & EW & ENS & ENF & ENN & ENA).
  exists e'. do 6 (split; [assumption|]).
  assert (MR : forall a t, In a (e_agents e) -> t < m_n_states (e_mdp e) -> get2 0%R table (m_n_non_agent (e_mdp e) + at_idx a) t = if t =? state a then 1%R else 0%R).
  { intros a t Ha Ht. destruct (MK a Ha) as (row & NE & HT). pose proof (wf_nf _ _ _ _ W) as NF. replace (m_n_features (e_mdp e) - m_n_agents (e_mdp e)) with (m_n_non_agent (e_mdp e)) in NE by lia.
    unfold get2. erewrite (nth_error_nth _ _ _ NE). now apply HT. }
  assert (M1 : marks1 e').
  { intros a Ha. rewrite EA in Ha. exists (state a). split; [unfold stands_on; rewrite ENS; now apply SP|]. unfold feat, row_index. rewrite EF, ENS, ENN. intros t Ht. now apply MR. }
  assert (CO : consumes_ordinary e').
  { intros a Ha z f Hz Ez. rewrite EA in Ha. specialize (EO a Ha z Hz). rewrite ENF in Ez. rewrite ENN. apply py_index_ok in Ez. unfold n_ordinary in EO. rewrite (wf_nf _ _ _ _ W) in *. lia. }
  assert (CR : consumes_in_range e').
  { intros a Ha z Hz. rewrite EA in Ha. specialize (EO a Ha z Hz). rewrite ENF. unfold n_ordinary in EO. lia. }
  destruct (run_marks1 pl k shape st ops e') as [W2 M2]; auto.
  { apply Forall_forall. intros o Ho. split.
    - rewrite Forall_forall in PO. specialize (PO o Ho). destruct o; cbn in *; auto. now rewrite ENS.
    - intros ->. specialize (RS Ho). intros a Ha. rewrite EA in Ha. exists (state a). split; [unfold stands_on; rewrite ENS; now apply RS|].
      unfold row_index. rewrite EOF, ENS, ENN. intros t Ht. now apply MR. }
  pose proof (run_static pl k shape st ops e' W') as S. destruct S as (_ & _ & X). unfold mident in X. injection X as _ _ X2 _ _ _ X6 _.
  intros a Ha. destruct (M2 a Ha) as (s & H1 & H2). exists s. split; [exact H1|]. intros t Ht.
  destruct (wf_agents _ _ _ _ W2 a Ha) as (_ & -> & _). unfold row_index, feat in H2. rewrite Nat.add_comm. apply H2. rewrite X2, ENS. exact Ht.
Qed.
(** C225: a table with a row marking each agent. *)
Theorem C225_with_marks : forall pl e table state ops, reachable pl e -> eats_only_ordinary e -> length table = m_n_features (e_mdp e) ->
  (forall row, In row table -> length row = m_n_states (e_mdp e)) ->
  (forall a, In a (e_agents e) -> stands_on (e_mdp e) (at_pos a) (state a)) -> marked_at e table state ->
  Forall (position_ok e) ops ->
  (In OReset ops -> forall a, In a (e_agents e) -> stands_on (e_mdp e) (at_start a) (state a)) ->
  exists e', assign_features e table = (e', Ok tt) /\ m_features (e_mdp e') = table /\ m_sas (e_mdp e') = m_sas (e_mdp e) /\ m_walls (e_mdp e') = m_walls (e_mdp e) /\
    e_agents e' = e_agents e /\ e_n_steps e' = e_n_steps e /\
    forall a, In a (e_agents (run pl e' ops)) -> exists s, stands_on (e_mdp (run pl e' ops)) (at_pos a) s /\
      forall t, t < m_n_states (e_mdp e) -> get2 0%R (m_features (e_mdp (run pl e' ops))) (at_feature_idx a) t = if t =? s then 1%R else 0%R.
Proof. exact (@C118_with_marks_partial). Qed.

(** Refuted: a table assigned in the middle of a game, marking the agents where they are, is what a later reset
    restores: an agent that had moved is put back to its start, but is marked where it was when the table was
    assigned. *)
Theorem C118_reset_refuted : forall pl e table state ops nm a, reachable pl e -> length table = m_n_features (e_mdp e) ->
  (forall row, In row table -> length row = m_n_states (e_mdp e)) -> marked_at e table state -> agent_named e nm a ->
  state a < m_n_states (e_mdp e) ->
  exists e' e2 b, assign_features e table = (e', Ok tt) /\ env_reset (run pl e' ops) = (e2, Ok tt) /\ agent_named e2 nm b /\ at_pos b = at_start a /\
    forall t, t < m_n_states (e_mdp e) -> get2 0%R (m_features (e_mdp e2)) (at_feature_idx b) t = if t =? state a then 1%R else 0%R.
Proof.
  intros pl e table state ops nm a RE LT HR MK [Ha Na] HS. destruct (reachable_wf _ _ RE) as (k & shape & st & W).
  destruct (assigned_wf k shape st e table W LT HR) as (e' & E & W' & EA & EN & ES & EF & EOF & ESA & EW & ENS & ENF & ENN & ENA).
  pose proof (run_wf pl k shape st ops e' W') as W2. pose proof (run_static pl k shape st ops e' W') as S.
  destruct (env_reset_spec k shape st _ W2) as (e2 & E2 & MM & F2 & _ & HA). pose proof (muts_static _ _ _ _ _ _ W2 MM) as S2. pose proof (static_trans _ _ _ S S2) as S3.
  pose proof (muts_wf _ _ _ _ _ _ W2 MM) as W3.
  destruct (static_in _ _ a (static_sym _ _ S3)) as (b & Hb & EI); [now rewrite EA|].
  destruct (HA b Hb) as (c & Hc & Eb). unfold ident in EI. injection EI as I1 I2 I3 I4 I5 I6 I7.
  exists e', e2, b. split; [exact E|]. split; [exact E2|]. split; [split; [exact Hb|congruence]|].
  split. { rewrite Eb in I7 |- *. cbn in I7 |- *. exact I7. }
  intros t Ht. rewrite F2. destruct S as (_ & _ & X). unfold mident in X. injection X as _ _ _ _ X4 _ _ _. rewrite X4, EOF, I6.
  destruct (wf_agents _ _ _ _ W a Ha) as (_ & -> & _). destruct (MK a Ha) as (row & NE & HT). pose proof (wf_nf _ _ _ _ W) as NF.
  replace (m_n_features (e_mdp e) - m_n_agents (e_mdp e)) with (m_n_non_agent (e_mdp e)) in NE by lia. unfold get2. rewrite Nat.add_comm. erewrite (nth_error_nth _ _ _ NE). now apply HT.
Qed.
(** An agent starts in the middle of three states and is moved to the last. A table with its mark there is assigned;
    after a reset the agent is in the middle again, its mark is not. A table without a row for the agent is
    accepted; moving the agent then overwrites the feature. *)
Example C118_example : exists m m' e e1 e2 e3 e4 e5, grid_mdp (A:=Q) Square [[0; 0; 1]]%Q None (3, 1) false = Ok m /\
  make_env m [mkSpec "q"%string 1%Z None 1%Z [1; 0]%Q []] = (m', Ok e) /\ set_agent_position e "q" 2 = (e1, Ok tt) /\
  assign_features e1 [[1; 0; 0]; [0; 0; 1]]%Q = (e2, Ok tt) /\ env_reset e2 = (e3, Ok tt) /\
  map at_pos (e_agents e3) = [1]%Z /\ m_features (e_mdp e3) = [[1; 0; 0]; [0; 0; 1]]%Q /\
  assign_features e1 [[1; 0; 0]]%Q = (e4, Ok tt) /\ set_agent_position e4 "q" 1 = (e5, Ok tt) /\ m_features (e_mdp e5) = [[0; 1; 0]]%Q /\
  snd (env_fit (vi_greedy (1 # 2)%Q (1 # 2)%Q 100) e4 "q" None 0 0) = Err AttributeError.
Proof. do 8 eexists. repeat (split; [vm_compute; reflexivity|]). vm_compute; reflexivity. Qed.
