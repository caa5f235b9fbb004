(** C34 for agents with value iteration: grids are MDPs in the sense of [VISpec], and agents that plan
    with value iteration and select greedily or by softmax move along possible transitions. *)
From Coq Require Import String List ZArith QArith Reals Bool Lia Lra.
From Verif Require Import PyBase PyProofs GridModel GridSpec MDPModel MDPSpec MDPProofs MDPProofs2 MDPProofs3 MDPProofs4 MDPProps ActionModel ActionSpec SoftmaxModel SoftmaxProofs ActionProofs RSum ActionProps EnvModel PlanProps EnvSpec StepSpec EnvProofs EnvProofs2 EnvProofs3 EnvProofs4 EnvProofs5 EnvProps StepProps VIModel VISpec VIProofs VIProofs2 VIProps.
Import ListNotations.
Local Close Scope Q_scope.
Local Open Scope nat_scope.

Lemma get3_prob : forall sas s a t, get3 0%R sas s a t = prob sas s a t.
Proof. intros. unfold get3, prob. reflexivity. Qed.

Lemma grid_shape : forall k shape st m, grid_inv k shape st m -> n_states (m_sas m) = nst shape /\ n_actions (m_sas m) = actions_of k st /\
  shape3 (nst shape) (actions_of k st) (nst shape) (m_sas m).
Proof.
  intros k shape st m G. pose proof (inv_shape _ _ _ _ G) as S. pose proof (gi_pos _ _ _ _ G) as P. destruct S as [L S]. 
  split; [exact L|]. split; [|split; assumption]. unfold n_actions. apply (S 0 P).
Qed.

Lemma grid_is_mdp : forall k shape st m, grid_inv k shape st m -> is_mdp (m_sas m).
Proof.
  intros k shape st m G. destruct (grid_shape _ _ _ _ G) as (N & NA & L & S).
  split; [rewrite NA; apply actions_pos|]. intros mat Hm. apply (In_nth _ _ []) in Hm. destruct Hm as (s & Hs & <-). rewrite L in Hs.
  destruct (S s Hs) as [L1 S1]. split; [congruence|]. intros row Hr. apply (In_nth _ _ []) in Hr. destruct Hr as (a & Ha & <-). rewrite L1 in Ha. specialize (S1 a Ha). split; [congruence|].
  assert (E : forall t, t < nst shape -> (nth t (nth a (nth s (m_sas m) []) []) 0 = 1)%R /\ walled_edge k shape st (m_walls m) s a t \/ (nth t (nth a (nth s (m_sas m) []) []) 0 = 0)%R).
  { intros t Ht. destruct (inv_edge _ _ _ _ G s a t Hs Ha Ht) as [[E W]|[E W]]; [left|right]; auto. }
  split.
  - intros x Hx. apply (In_nth _ _ 0%R) in Hx. destruct Hx as (t & Ht & <-). rewrite S1 in Ht. destruct (E t Ht) as [[-> _]| ->]; lra.
  - rewrite (Rsum_nth _). rewrite S1. destruct (Exists_dec (fun t => nth t (nth a (nth s (m_sas m) []) []) 0 = 1)%R (seq 0 (nst shape)) ltac:(intros; apply Req_EM_T)) as [X|X].
    + apply Exists_exists in X. destruct X as (t & Ht & Et). apply in_seq in Ht.
      rewrite (sumf_single _ _ t); [rewrite Et; lra|apply seq_NoDup|apply in_seq; lia|]. intros u Hu Nu. apply in_seq in Hu. destruct (E u ltac:(lia)) as [[_ W]|Z]; [|exact Z].
      exfalso. apply Nu. destruct (E t ltac:(lia)) as [[_ W']|Z]; [|rewrite Z in Et; lra]. eapply edge_unique_t; [apply W|apply W'|apply pos_snd, (gi_pos _ _ _ _ G)].
    + rewrite sumf_0; [lra|]. intros t Ht. apply in_seq in Ht. destruct (E t ltac:(lia)) as [[Z _]|Z]; [|exact Z].
      exfalso. apply X. apply Exists_exists. exists t. split; [apply in_seq; lia|exact Z].
Qed.

(** Every grid MDP, whatever its walls, is an MDP in the sense of the value-iteration theorems; so are
    those of environments in use. *)
Theorem C29_grids : forall pl m, usable pl m -> is_mdp (m_sas m).
Proof.
  intros pl m U. inversion U as [k feats w0 shape st m0 cs E|e RE].
  - destruct (usable_clean _ _ U) as (k' & shape' & st' & C). eapply grid_is_mdp. subst m. apply C.
  - destruct (reachable_wf _ _ RE) as (k & shape & st & W). eapply grid_is_mdp. apply (wf_grid _ _ _ _ W).
Qed.

(** The agent named [nm] plans with value iteration and selects actions greedily or by softmax. *)
Definition uses_vi (pl : plugins R) (nm : string) : Prop :=
  pl_forgets pl nm = false /\ exists g tol mi, forall e a n seed, NoDup (map at_name (e_agents e)) -> agent_named e nm a -> pl_fit pl nm e n seed = vi_fit g tol mi (e_mdp e) (at_reward a).
Definition selects_best (pl : plugins R) (nm : string) : Prop :=
  (forall seed, exists draws, pl_pi pl nm seed = max_get_pi draws) \/
  (forall seed, exists temp us, (0 < temp)%R /\ (forall s, 0 <= us s < 1)%R /\ pl_pi pl nm seed = softmax_get_pi temp us).
(** Calls that leave the walls alone. *)
Definition keeps_walls (o : op R) : Prop := match o with OSetWalls _ => False | _ => True end.

Definition solution (sas : list (list (list R))) (q : list (list (fval R))) : Prop :=
  exists rf features mi g tol v, solve_value_iteration hard_backup rf features mi g sas tol = Ok (v, q).
Definition has_solution (nm : string) (e : env R) : Prop :=
  forall a, agent_named e nm a -> exists v q, at_fit a = Some (v, q) /\ solution (m_sas (e_mdp e)) q.
Definition plan_kept (nm : string) (e e' : env R) : Prop :=
  m_sas (e_mdp e') = m_sas (e_mdp e) /\
  forall b, agent_named e' nm b -> exists a, agent_named e nm a /\ (at_fit b = at_fit a \/ exists v q, at_fit b = Some (v, q) /\ solution (m_sas (e_mdp e)) q).
Lemma plan_kept_has : forall nm e e', plan_kept nm e e' -> has_solution nm e -> has_solution nm e'.
Proof.
  intros nm e e' [S F] H b Hb. destruct (F b Hb) as (a & Ha & [E|E]); rewrite S; [|exact E]. rewrite E. apply H, Ha.
Qed.
Lemma plan_with : forall k shape st nm e a a' m', wf k shape st e -> In a (e_agents e) -> at_name a' = at_name a -> m_sas m' = m_sas (e_mdp e) ->
  (at_fit a' = at_fit a \/ (at_name a = nm -> exists v q, at_fit a' = Some (v, q) /\ solution (m_sas (e_mdp e)) q)) -> plan_kept nm e (with_agent (with_mdp e m') a').
Proof.
  intros k shape st nm e a a' m' W Ha EN ES F. split; [exact ES|]. intros b [Hb Nb]. cbn [with_agent with_mdp e_agents] in Hb. apply (in_put _ a a' Ha EN) in Hb.
  destruct Hb as [->|[Hb _]]; [|exists b; split; [split; assumption|now left]]. exists a. rewrite EN in Nb. split; [split; assumption|]. destruct F as [F|F]; [now left|right; auto].
Qed.
Lemma plan_with0 : forall k shape st nm e a a', wf k shape st e -> In a (e_agents e) -> at_name a' = at_name a ->
  (at_fit a' = at_fit a \/ (at_name a = nm -> exists v q, at_fit a' = Some (v, q) /\ solution (m_sas (e_mdp e)) q)) -> plan_kept nm e (with_agent e a').
Proof. intros k shape st nm e a a' W Ha EN F. pose proof (plan_with k shape st nm e a a' (e_mdp e) W Ha EN eq_refl F) as H. now rewrite with_mdp_id in H. Qed.
Lemma plan_refl : forall nm e, plan_kept nm e e.
Proof. intros nm e. split; [reflexivity|]. intros b Hb. exists b. auto. Qed.
Lemma fit_plan : forall pl k shape st nm e nm' n s s', wf k shape st e -> uses_vi pl nm -> plan_kept nm e (fst (env_fit pl e nm' n s s')).
Proof.
  intros pl k shape st nm e nm' n s s' W (NF & g & tol & mi & VI). unfold env_fit. destruct (lookup_spec k shape st e nm' W) as [(a & EL & Ha & EN)|(EL & _)]; rewrite EL; [|apply plan_refl].
  destruct (alg_fit pl e a n s) as [f|x] eqn:AF.
  2:{ unfold failed_fit. destruct ((_ =? _) && pl_forgets pl (at_name a)) eqn:FF; [|apply plan_refl]. cbn [fst]. apply andb_prop in FF. destruct FF as [_ FF].
      apply (plan_with0 k shape st nm e a); auto. right. intros E. rewrite E, NF in FF. discriminate FF. }
  destruct (get_policy pl (set_fit a (Some f)) s') as [a' r] eqn:GP. destruct (get_policy_spec _ _ _ _ _ GP) as (H1 & H2 & H3 & H4 & H5 & _).
  cbn [fst]. destruct (ident_name _ _ H1) as (N1 & _). apply (plan_with0 k shape st nm e a); auto. right. intros E. rewrite E in EN. subst nm'.
  destruct f as [v q]. exists v, q. split; [rewrite H5; reflexivity|]. unfold alg_fit in AF. destruct (negb _); [discriminate|]. rewrite E, (VI e a n s (wf_names _ _ _ _ W)) in AF by (split; assumption).
  apply bind_ok in AF. destruct AF as ([v' q'] & VF & AF). assert (q' = q).
  { destruct (negb _); [discriminate|]. destruct (negb _); [discriminate|]. destruct (negb _); [discriminate|]. inversion AF. reflexivity. }
  subst q'. unfold vi_fit in VF. apply bind_ok in VF. destruct VF as ([v2 q2] & SV & VF). inversion VF. subst. unfold solution. eauto 10.
Qed.
Lemma step_plan_kept : forall pl k shape st nm e nm' s, wf k shape st e -> plan_kept nm e (fst (env_step pl e nm' s)).
Proof.
  intros pl k shape st nm e0 nm' s W0. destruct (env_step pl e0 nm' s) as [e1 r] eqn:ES. cbn [fst].
  destruct (env_step_full _ _ _ _ _ _ _ _ _ W0 ES) as [(_ & _ & ->)|[(a & a' & x & [Ha EN] & _ & -> & H1 & H2 & H3 & H4 & H5 & _)|H0]].
  + apply plan_refl.
  + destruct (ident_name _ _ H1) as (N1 & _). apply (plan_with0 k shape st nm e0 a); auto.
  + destruct H0 as (a & a2 & s' & [Ha EN] & _ & (W1 & W2 & W3 & W4) & RP & SB & _). destruct (ident_name _ _ W1) as (N1 & _).
    split; [rewrite SB; reflexivity|]. intros b [Hb Nb]. apply (replaced_in _ _ _ _ Ha N1 RP) in Hb. destruct Hb as [->|[Hb _]]; [|exists b; split; [split; assumption|now left]].
    exists a. rewrite N1 in Nb. split; [split; assumption|now left].
Qed.
Lemma proba_plan_kept : forall pl k shape st nm e nm' p s, wf k shape st e -> plan_kept nm e (fst (env_step_proba pl e nm' p s)).
Proof.
  intros pl k shape st nm e0 nm' p s W0. unfold env_step_proba. destruct (lookup_spec k shape st e0 nm' W0) as [(a & EL & Ha & EN)|(EL & _)]; rewrite EL; [|apply plan_refl].
  destruct (agent_step_proba pl (e_mdp e0) a p s) as [a' r] eqn:E.
  assert (K : ident a' = ident a /\ at_fit a' = at_fit a).
  { unfold agent_step_proba in E. destruct (match p with Some p0 => _ | None => _ end) as [pos|x]; [|inversion E; auto].
    destruct (negb _); [inversion E; auto|]. destruct (at_fit a) eqn:F; [|inversion E; subst; auto].
    destruct (get_policy pl a s) as [a1 [[]|x]] eqn:GP; destruct (get_policy_spec _ _ _ _ _ GP) as (H1 & H2 & H3 & H4 & H5 & _).
    - destruct (at_pi_p a1); inversion E; subst; split; congruence.
    - inversion E; subst; split; congruence. }
  destruct K as (K1 & K2). destruct (ident_name _ _ K1) as (N1 & _).
  assert (X : plan_kept nm e0 (with_agent e0 a')). { apply (plan_with0 k shape st nm e0 a); auto. }
  destruct r; cbn [fst]; exact X.
Qed.
Lemma reset_plan_kept : forall k shape st nm e, wf k shape st e -> plan_kept nm e (fst (env_reset e)).
Proof.
  intros k shape st nm e0 W0. destruct (env_reset_spec k shape st e0 W0) as (e1 & E & M & _ & _ & HA). rewrite E. cbn [fst].
  assert (T : tr (e_mdp e1) = tr (e_mdp e0)) by (eapply muts_tr; eauto; cbn; tauto). split; [now inversion T|].
  intros b [Hb Nb]. destruct (HA b Hb) as (a & Ha & ->). exists a. split; [split; [exact Ha|exact Nb]|left; reflexivity].
Qed.
Lemma position_plan_kept : forall k shape st nm e name p, wf k shape st e -> plan_kept nm e (fst (set_agent_position e name p)).
Proof.
  intros k shape st nm e name p W. unfold set_agent_position. destruct (lookup_spec k shape st e name W) as [(a & EL & Ha & EN)|(EL & _)]; rewrite EL; [|apply plan_refl].
  unfold move_agent. destruct (_ <=? p)%Z; [cbn [fst]; apply (plan_with k shape st nm e a); auto|].
  destruct (update_agent_feature (e_mdp e) (at_idx a) p) as [m' r] eqn:UF.
  assert (MS : m_sas m' = m_sas (e_mdp e)).
  { unfold update_agent_feature in UF. repeat match type of UF with context [match ?x with _ => _ end] => destruct x end; inversion UF; reflexivity. }
  destruct r; cbn [fst]; apply (plan_with k shape st nm e a); auto.
Qed.
Lemma op_plan : forall pl k shape st nm e o, wf k shape st e -> uses_vi pl nm -> keeps_walls o -> has_solution nm e -> has_solution nm (do_op pl e o).
Proof.
  intros pl k shape st nm e o W VI KW H.
  assert (WK : forall e o, wf k shape st e -> has_solution nm e -> walk_op o -> has_solution nm (do_op pl e o)).
  { apply kept_by_walking.
    - intros e0 nm' n s s' W0. apply plan_kept_has. eapply fit_plan; eauto.
    - intros e0 nm' s W0. apply plan_kept_has. eapply step_plan_kept; eauto.
    - intros e0 nm' p s W0. apply plan_kept_has. eapply proba_plan_kept; eauto.
    - intros e0 W0. apply plan_kept_has. eapply reset_plan_kept; eauto. }
  destruct o; cbn [keeps_walls] in KW; try contradiction; try (apply WK; [exact W|exact H|exact I]).
  cbn [do_op]. revert H. apply plan_kept_has. eapply position_plan_kept; eauto.
Qed.

Lemma possible_valid : forall k shape st m i va, grid_inv k shape st m -> i < nst shape -> state_valid_actions m (Z.of_nat i) = Ok va ->
  forall a, In a va <-> a < n_actions (m_sas m) /\ possible (m_sas m) i a.
Proof.
  intros k shape st m i va G Hi E a. destruct (in_valid_actions _ _ _ _ G i Hi) as (va' & E' & H). rewrite E in E'. inversion E'. subst va'. rewrite H.
  destruct (grid_shape _ _ _ _ G) as (N & NA & _). unfold possible. rewrite N, NA. split.
  - intros (t & Ht & W). assert (Ha : a < actions_of k st).
    { destruct W as (W & _). unfold grid_edge in W. destruct k, st; unfold actions_of, dirs_of in *; cbn in *; intuition lia. }
    split; [exact Ha|]. exists t. split; [exact Ht|]. destruct (inv_edge _ _ _ _ G i a t Hi Ha Ht) as [[E1 _]|[_ NW]]; [|contradiction]. rewrite <- get3_prob, E1. lra.
  - intros (Ha & t & Ht & P). exists t. split; [exact Ht|]. destruct (inv_edge _ _ _ _ G i a t Hi Ha Ht) as [[_ W]|[E1 _]]; [exact W|]. rewrite <- get3_prob, E1 in P. lra.
Qed.

(** Fit the agent; then make any calls that leave the walls alone, on any agents, with any outcome. If
    the agent now steps successfully from a state where some action is possible, it moves along a
    possible transition. *)
Theorem C68_value_iteration_moves : forall pl e nm n s s' e1 l seed e' p, reachable pl e -> uses_vi pl nm -> selects_best pl nm ->
  env_fit pl e nm n s s' = (e1, Ok tt) -> Forall keeps_walls l -> env_step pl (run pl e1 l) nm seed = (e', Ok p) ->
  exists a i va, agent_named (run pl e1 l) nm a /\ stands_on (e_mdp (run pl e1 l)) (at_pos a) i /\
    state_valid_actions (e_mdp (run pl e1 l)) (Z.of_nat i) = Ok va /\
    (va <> [] -> exists act t, In act va /\ travels (e_mdp (run pl e1 l)) i [act] t /\ p = Z.of_nat t).
Proof.
  intros pl e nm n s s' e1 l seed e' p RE VI SB EF KW ES.
  assert (RE1 : reachable pl e1). { replace e1 with (do_op pl e (OFit nm n s s')) by (cbn [do_op]; now rewrite EF). now constructor. }
  assert (H1 : has_solution nm e1).
  { destruct (reachable_wf _ _ RE) as (k & shape & st & W). unfold env_fit in EF. destruct (lookup_spec k shape st e nm W) as [(a & EL & Ha & EN)|(EL & _)]; rewrite EL in EF; [|discriminate].
    pose proof (fit_plan pl k shape st nm e nm n s s' W VI) as FP. unfold env_fit in FP. rewrite EL in FP. destruct (alg_fit pl e a n s) as [f|x] eqn:AF; [|discriminate].
    destruct (get_policy pl (set_fit a (Some f)) s') as [a' r] eqn:GP. destruct (get_policy_spec _ _ _ _ _ GP) as (J1 & J2 & J3 & J4 & J5 & _). destruct (ident_name _ _ J1) as (N1 & _).
    assert (PI : forall (x y : env R) (u v : res unit), (x, u) = (y, v) -> x = y) by (intros x y u v X; now inversion X). apply PI in EF. cbn [fst] in FP. rewrite EF in FP. subst e1.
    intros b Hb. destruct VI as (_ & g & tol & mi & VI). unfold alg_fit in AF. destruct (negb _); [discriminate|]. rewrite EN, (VI e a n s (wf_names _ _ _ _ W)) in AF by (split; assumption).
    apply bind_ok in AF. destruct AF as ([v q] & VF & AF). assert (EFQ : f = (v, q)). { destruct (negb _); [discriminate|]. destruct (negb _); [discriminate|]. destruct (negb _); [discriminate|]. inversion AF. reflexivity. }
    destruct Hb as [Hb Nb]. cbn [with_agent e_agents] in Hb. apply (in_put _ a a' Ha N1) in Hb. destruct Hb as [->|[Hb X]]; [|cbn in N1; congruence].
    exists v, q. split; [rewrite J5, EFQ; reflexivity|]. unfold vi_fit in VF. apply bind_ok in VF. destruct VF as ([v2 q2] & SV & VF). inversion VF. subst. cbn [with_agent e_mdp]. unfold solution. eauto 10. }
  clear EF RE e. assert (H : has_solution nm (run pl e1 l) /\ reachable pl (run pl e1 l)).
  { clear ES. revert e1 RE1 H1. induction KW as [|o l Ho KW IH]; intros e1 RE1 H1; [split; assumption|]. cbn [run fold_left]. apply IH; [now constructor|].
    destruct (reachable_wf _ _ RE1) as (k & shape & st & W). eapply op_plan; eauto. }
  clear KW H1 RE1. destruct H as [HS RE]. generalize dependent (run pl e1 l). clear e1 l. intros e ES HS RE.
  destruct (C34_possible_actions_partial _ _ _ _ _ _ RE ES) as (a & act & i & va & t & NA & PK & SO & EP & EV & H). exists a, i, va.
  split; [exact NA|]. split; [exact SO|]. split; [exact EV|]. intros NE. destruct H as [[IN TR]|[NI _]]; [exists (Z.to_nat act), t; auto|]. exfalso. apply NI. clear NI.
  destruct (reachable_wf _ _ RE) as (k & shape & st & W). pose proof (wf_grid _ _ _ _ W) as G. destruct (grid_shape _ _ _ _ G) as (N & NAC & _).
  pose proof (gi_ns _ _ _ _ G) as NS. assert (Hi : i < nst shape) by (rewrite <- NS; eapply py_index_ok; eauto).
  pose proof (possible_valid _ _ _ _ _ _ G Hi EV) as PV.
  assert (EX : exists a, a < n_actions (m_sas (e_mdp e)) /\ possible (m_sas (e_mdp e)) i a). { destruct va as [|x va]; [congruence|]. exists x. apply PV. now left. }
  destruct PK as (v & q & pi & j & F & GPI & PJ & EA). destruct (HS a NA) as (v' & q' & F' & rf & ft & mi & g & tol & v2 & SV). rewrite F in F'. inversion F'. subst v' q'.
  destruct (C30_policies hard_backup _ _ _ _ _ _ _ _ (grid_is_mdp _ _ _ _ G) (or_introl eq_refl) ltac:(unfold n_states in *; pose proof (gi_pos _ _ _ _ G); lia) SV) as [P1 P2].
  assert (X : exists pi', get_pi (pl_pi pl (at_name a) seed) q = Ok pi' /\ length pi' = n_states (m_sas (e_mdp e)) /\
     forall s, s < n_states (m_sas (e_mdp e)) -> (exists a, a < n_actions (m_sas (e_mdp e)) /\ possible (m_sas (e_mdp e)) s a) ->
       exists a, nth s pi' 0%Z = Z.of_nat a /\ a < n_actions (m_sas (e_mdp e)) /\ possible (m_sas (e_mdp e)) s a).
  { destruct NA as [_ NA]. rewrite NA. destruct SB as [SB|SB]; [destruct (SB seed) as (draws & ->); apply P1|]. destruct (SB seed) as (temp & us & T0 & U & ->). now apply P2. }
  destruct X as (pi' & X1 & X2 & X3). rewrite GPI in X1. inversion X1. subst pi'. unfold stands_on in SO. rewrite X2, N, <- NS, SO in PJ. inversion PJ. subst j.
  destruct (X3 i ltac:(unfold n_states in *; lia) EX) as (a' & E1 & E2 & E3). rewrite EA, E1, Nat2Z.id. apply PV. auto.
Qed.

(** The two gaps. First, a state without possible actions: on a 2 x 2 grid with walls on the two
    neighbours of the agent's corner, the fitted agent jumps to the opposite corner. Second, walls set after
    fitting: the agent plans its way east, a wall is put there, and its step takes it to state 0. *)
Definition vi_greedy {A} `{Num A} (g tol : A) (mi : Z) : plugins A :=
  mkPlugins (fun nm e _ _ => match find_agent (e_agents e) nm with Some a => vi_fit g tol mi (e_mdp e) (at_reward a) | None => Err KeyError end)
    (fun _ seed => max_get_pi (fun _ => seed)) (fun _ => max_get_pi_p) (fun _ => false).
Theorem C34_isolated_refuted : exists m m' e e1 e2, grid_mdp (A:=Q) Square [[1; 0; 0; 0]%Q] (Some [0; 1; 1; 0]%Q) (2, 2) false = Ok m /\
  make_env m [mkSpec "q"%string 1%Z None 3%Z [1; 0]%Q []] = (m', Ok e) /\
  env_fit (vi_greedy (9 # 10) (1 # 100) 100)%Q e "q" None 0 0 = (e1, Ok tt) /\ env_step (vi_greedy (9 # 10) (1 # 100) 100)%Q e1 "q" 0 = (e2, Ok 0%Z) /\
  state_valid_actions (e_mdp e1) 3 = Ok [].
Proof. do 5 eexists. vmr. Qed.
Theorem C34_stale_refuted : exists m m' e e1 e2 e3, grid_mdp (A:=Q) Square [[0; 1; 0; 0]%Q] None (2, 2) false = Ok m /\
  make_env m [mkSpec "q"%string 1%Z None 3%Z [1; 0]%Q []] = (m', Ok e) /\
  env_fit (vi_greedy (9 # 10) (1 # 100) 100)%Q e "q" None 0 0 = (e1, Ok tt) /\ do_op (vi_greedy (9 # 10) (1 # 100) 100)%Q e1 (OSetWalls [0; 1; 0; 0]%Q) = e2 /\
  env_step (vi_greedy (9 # 10) (1 # 100) 100)%Q e2 "q" 0 = (e3, Ok 0%Z) /\
  state_valid_actions (e_mdp e2) 3 = Ok [2].
Proof. do 6 eexists. vmr. Qed.
(** The hypotheses are met by this plug-in and a run on a 2 x 2 grid. *)
Example C34_vi_plugin : forall g tol mi nm, uses_vi (vi_greedy (A:=R) g tol mi) nm /\ selects_best (vi_greedy (A:=R) g tol mi) nm.
Proof.
  intros g tol mi nm. split; [|left; intros seed; exists (fun _ => seed); reflexivity].
  split; [reflexivity|]. exists g, tol, mi. intros e a n seed ND [Ha Na]. cbn [vi_greedy pl_fit]. destruct (find_agent (e_agents e) nm) as [b|] eqn:F.
  - unfold find_agent in F. apply find_some in F. destruct F as [Hb Nb]. apply String.eqb_eq in Nb. assert (b = a) by (eapply same_name_same; eauto; congruence). now subst b.
  - unfold find_agent in F. pose proof (find_none _ _ F a Ha) as X. cbn in X. rewrite Na, String.eqb_refl in X. discriminate.
Qed.
Example C34_vi_example : exists m m' e e1 e2, grid_mdp (A:=Q) Square [[0; 1; 0; 0]%Q] None (2, 2) false = Ok m /\
  make_env m [mkSpec "q"%string 1%Z None 3%Z [1; 0]%Q []] = (m', Ok e) /\
  env_fit (vi_greedy (9 # 10) (1 # 100) 100)%Q e "q" None 0 0 = (e1, Ok tt) /\ env_step (vi_greedy (9 # 10) (1 # 100) 100)%Q e1 "q" 0 = (e2, Ok 1%Z).
Proof. do 5 eexists. vmr. Qed.
