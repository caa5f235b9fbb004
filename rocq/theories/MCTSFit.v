(** C42, C43: what fitting with tree search yields, and how the agent then steps. *)
From Coq Require Import String List ZArith QArith Reals Bool Lia Lra.
From Verif Require Import PyBase PyProofs GridModel GridSpec MDPModel MDPSpec MDPProofs MDPProofs2 MDPProofs3 MDPProofs4 MDPProps ActionModel ActionSpec SoftmaxModel SoftmaxProofs ActionProofs RSum ActionProps EnvModel PlanProps EnvSpec StepSpec EnvProofs EnvProofs2 EnvProofs3 EnvProofs4 EnvProofs5 EnvProps StepProps VIModel VISpec VIProofs VIProofs2 VIProps VIEnvProps MCTSModel MCTSSpec MCTSProofs MCTSProofs2 MCTSProofs3 MCTSProps MCTSWalk.
Import ListNotations.
Local Close Scope Q_scope.
Local Open Scope nat_scope.

(** The agent named [nm] plans with tree search, with any score for choosing nodes and any settings. *)
Definition uses_mcts (pl : plugins R) (nm : string) : Prop :=
  pl_forgets pl nm = true /\ exists score cfg, forall e n seed, exists rnd fuel, forall a, NoDup (map at_name (e_agents e)) -> agent_named e nm a -> pl_fit pl nm e n seed = mcts_fit score cfg e a n rnd fuel.

(** Action [act] is possible in state [i]. *)
Definition can_do (m : mdp R) (i act : nat) : Prop := exists va, state_valid_actions m (Z.of_nat i) = Ok va /\ In act va.

(** Action values for state [i] only: finite for the possible actions there, NaN everywhere else. *)
Definition values_only_at (m : mdp R) (i : nat) (q : list (list (fval R))) : Prop :=
  length q = m_n_states m /\ (forall row, In row q -> length row = m_n_actions m) /\
  forall s act, s < m_n_states m -> act < m_n_actions m ->
    (s = i /\ can_do m i act -> exists x, nth act (nth s q []) NaN = Fin x) /\
    (~ (s = i /\ can_do m i act) -> nth act (nth s q []) NaN = NaN).

Lemma can_do_edge : forall k shape st m i act, grid_inv k shape st m -> i < nst shape ->
  (can_do m i act <-> act < n_actions (m_sas m) /\ exists t, t < nst shape /\ get3 0%R (m_sas m) i act t <> 0%R).
Proof.
  intros k shape st m i act G Hi. destruct (in_valid_actions _ _ _ _ G i Hi) as (va & E & H). pose proof (possible_valid _ _ _ _ _ _ G Hi E act) as PV.
  assert (X : can_do m i act <-> In act va). { unfold can_do. rewrite E. split; [intros (va' & E' & I'); inversion E'; now subst|eauto]. }
  rewrite X, PV. unfold possible. destruct (grid_shape _ _ _ _ G) as (N & NA & _). rewrite N. split; intros (L & t & Ht & P); (split; [exact L|]); exists t; (split; [exact Ht|]).
  - rewrite get3_prob. lra.
  - rewrite NA in L. destruct (inv_edge _ _ _ _ G i act t Hi L Ht) as [[E1 _]|[E1 _]]; [|contradiction]. rewrite <- get3_prob, E1. lra.
Qed.
Lemma travels_one : forall m i act t, travels m i [act] t -> can_do m i act /\ get_next_state m (Z.of_nat i) (Z.of_nat act) = Ok t.
Proof. intros m i act t T. inversion T as [|? ? ? x ? va E I NX T']. subst. inversion T'. subst. split; [exists va; auto|exact NX]. Qed.
Lemma can_do_dec : forall k shape st m i act, grid_inv k shape st m -> i < nst shape -> can_do m i act \/ ~ can_do m i act.
Proof.
  intros k shape st m i act G Hi. destruct (in_valid_actions _ _ _ _ G i Hi) as (va & E & _). unfold can_do. rewrite E. destruct (in_dec Nat.eq_dec act va) as [I|I]; [left; eauto|right].
  intros (va' & E' & I'). inversion E'. now subst.
Qed.

Lemma fill_row : forall (l : list (nat * R * nat)) row, (forall a x t, In (a, x, t) l -> a < length row) ->
  let r := fold_left (fun row '(a, x, _) => upd row a (Fin x)) l row in
  length r = length row /\ forall a, (forall x t, ~ In (a, x, t) l) -> nth a r NaN = nth a row NaN.
Proof.
  induction l as [|[[a x] t] l IH]; intros row H; cbn [fold_left]; [auto|]. destruct (IH (upd row a (Fin x))) as [L N].
  { intros b y u Hb. rewrite upd_length. eapply H. right. eauto. }
  split; [rewrite L; apply upd_length|]. intros b Hb. rewrite N by (intros y u Hu; apply (Hb y u); now right). apply nth_upd_other. intros ->. apply (Hb x t). now left.
Qed.
Lemma fill_row_in : forall (l : list (nat * R * nat)) row a x t, (forall a x t, In (a, x, t) l -> a < length row) -> In (a, x, t) l -> (forall y u, In (a, y, u) l -> y = x) ->
  nth a (fold_left (fun row '(a, x, _) => upd row a (Fin x)) l row) NaN = Fin x.
Proof.
  induction l as [|[[b y] u] l IH]; intros row a x t H I U; [destruct I|]. cbn [fold_left].
  assert (H' : forall a x t, In (a, x, t) l -> a < length (upd row b (Fin y))) by (intros c z v Hc; rewrite upd_length; eapply H; right; eauto).
  destruct (in_dec (fun p q : nat * R * nat => ltac:(decide equality; [apply Nat.eq_dec|decide equality; [apply Req_EM_T|apply Nat.eq_dec]])) (a, x, t) l) as [I'|I'].
  - apply (IH _ a x t H' I'). intros z v Hz. eapply U. right. eauto.
  - destruct I as [E|I]; [|contradiction]. inversion E. subst b y u. destruct (Exists_dec (fun p : nat * R * nat => fst (fst p) = a) l ltac:(intros p; apply Nat.eq_dec)) as [X|X].
    + apply Exists_exists in X. destruct X as ([[b z] v] & Hb & Eb). cbn in Eb. subst b. assert (z = x) by (apply (U z v); now right). subst z. apply (IH _ a x v H' Hb). intros z' v' Hz. eapply U. right. eauto.
    + destruct (fill_row l (upd row a (Fin x)) H') as [_ N]. rewrite N; [apply nth_upd_same; eapply H; now left|]. intros z v Hz. apply X. apply Exists_exists. exists (a, z, v). auto.
Qed.

(** A successful fit: the values are those of a search, for the agent's state only. *)
Theorem C42_values : forall pl e a score cfg n rnd fuel v q, reachable pl e -> In a (e_agents e) -> mcts_fit score cfg e a n rnd fuel = Ok (v, q) ->
  exists i, stands_on (e_mdp e) (at_pos a) i /\ values_only_at (e_mdp e) i q /\
  exists V N k states, run_mcts score (mc_interactive cfg) (mc_n_iter cfg) (m_features (e_mdp e)) (m_sas (e_mdp e))
      (all_info (mc_interactive cfg) e a) (mc_C cfg) n (mc_cost cfg) (mc_policy cfg) (mc_caching cfg) (mc_max_iter cfg) (mc_discount cfg) (mc_tol cfg) None rnd fuel = Ok (V, N, k, states) /\
    v = map Fin V /\ forall act t, travels (e_mdp e) i [act] t -> nth act (nth i q []) NaN = Fin (nth t V 0 / (1 + nth t N 0))%R.
Proof.
  intros pl e a score cfg n rnd fuel v q RE Ha H. destruct (reachable_wf _ _ RE) as (k & shape & st & W). pose proof (wf_grid _ _ _ _ W) as G. destruct (grid_shape _ _ _ _ G) as (N & NA & [SL SR]). pose proof (gi_ns _ _ _ _ G) as NS.
  assert (MA : m_n_actions (e_mdp e) = actions_of k st) by (apply (gi_na _ _ _ _ G)).
  destruct (wf_agents _ _ _ _ W a Ha) as (_ & _ & _ & _ & (i & SO) & _). exists i. split; [exact SO|].
  assert (Hi : i < nst shape) by (rewrite <- NS; eapply py_index_ok; eauto).
  unfold mcts_fit in H. apply bind_ok in H. destruct H as ([[[V N'] k'] states] & RM & H). apply bind_ok in H. destruct H as (vals & AV & H). apply bind_ok in H. destruct H as (q' & MQ & H).
  assert (E : v = map Fin V /\ q = q') by (now inversion H). clear H. destruct E as [-> ->].
  unfold mcts_action_values in AV. apply bind_ok in AV. destruct AV as (acts & GA & AV). apply get_actions_states_spec in GA. destruct GA as (i' & PI & GA). rewrite SL in PI. unfold stands_on in SO. rewrite NS in SO. assert (i' = i) by congruence. subst i'.
  assert (EV : vals = map (fun '(a, t) => (a, ndiv (nth t V n0) (nadd n1 (nth t N' n0)), t)) acts) by (now inversion AV). subst vals. clear AV.
  unfold mcts_q in MQ. rewrite NS, SO in MQ. cbn [bind] in MQ. assert (OI : forall x y : list (list (fval R)), Ok x = Ok y -> y = x) by (intros ? ? X; now inversion X). apply OI in MQ. clear OI.
  set (vals := map (fun '(a, t) => (a, ndiv (nth t V n0) (nadd n1 (nth t N' n0)), t)) acts) in *.
  assert (IV : forall b x t, In (b, x, t) vals <-> get3 0%R (m_sas (e_mdp e)) i b t <> 0%R /\ x = (nth t V 0 / (1 + nth t N' 0))%R).
  { intros b x t. unfold vals. rewrite in_map_iff. split.
    - intros ([b' t'] & E & I). inversion E. subst. split; [now apply GA|]. reflexivity.
    - intros [I ->]. exists (b, t). split; [reflexivity|now apply GA]. }
  assert (RG : forall b t, get3 0%R (m_sas (e_mdp e)) i b t <> 0%R -> b < actions_of k st /\ t < nst shape).
  { intros b t X. destruct (Nat.lt_ge_cases b (actions_of k st)) as [Lb|Lb].
    - split; [exact Lb|]. destruct (Nat.lt_ge_cases t (nst shape)) as [Lt|Lt]; [exact Lt|]. elim X. unfold get3. apply nth_overflow. rewrite (proj2 (SR i Hi) b Lb). exact Lt.
    - elim X. unfold get3. rewrite nth_overflow; [reflexivity|]. rewrite nth_overflow by (rewrite (proj1 (SR i Hi)); exact Lb). cbn. lia. }
  rewrite MA in MQ.
  assert (LB : forall b x t, In (b, x, t) vals -> b < length (repeat (NaN (A:=R)) (actions_of k st))). { intros b x t I. rewrite repeat_length. apply IV in I. destruct I as [I _]. now apply RG in I. }
  destruct (fill_row vals (repeat NaN (actions_of k st)) LB) as [LR NR].
  assert (Q0 : nth i q' [] = fold_left (fun row '(a, x, _) => upd row a (Fin x)) vals (repeat NaN (actions_of k st))). { rewrite MQ. apply nth_upd_same. now rewrite repeat_length. }
  assert (Q1 : forall s, s < nst shape -> s <> i -> nth s q' [] = repeat NaN (actions_of k st)). { intros s Hs D. rewrite MQ, nth_upd_other by congruence. now rewrite nth_repeat_lt. }
  assert (UN : forall b t u, get3 0%R (m_sas (e_mdp e)) i b t <> 0%R -> get3 0%R (m_sas (e_mdp e)) i b u <> 0%R -> t = u).
  { intros b t u Ht Hu. destruct (RG _ _ Ht) as [Lb Lt]. destruct (RG _ _ Hu) as [_ Lu]. destruct (inv_edge _ _ _ _ G i b t Hi Lb Lt) as [[_ W1]|[Z _]]; [|contradiction]. destruct (inv_edge _ _ _ _ G i b u Hi Lb Lu) as [[_ W2]|[Z _]]; [|contradiction].
    eapply edge_unique_t; [apply W1|apply W2|apply pos_snd, (gi_pos _ _ _ _ G)]. }
  assert (VAL : forall b t, get3 0%R (m_sas (e_mdp e)) i b t <> 0%R -> nth b (nth i q' []) NaN = Fin (nth t V 0 / (1 + nth t N' 0))%R).
  { intros b t X. rewrite Q0. apply (fill_row_in vals _ b _ t LB); [apply IV; auto|]. intros y u I. apply IV in I. destruct I as [I ->]. now rewrite (UN b u t I X). }
  split.
  - split; [rewrite MQ, upd_length, repeat_length; now rewrite NS|]. split.
    + intros row Hr. apply (In_nth _ _ []) in Hr. destruct Hr as (s & Hs & <-). rewrite MQ, upd_length, repeat_length in Hs. rewrite MA. destruct (Nat.eq_dec s i) as [->|D]; [rewrite Q0, LR|rewrite Q1 by assumption]; apply repeat_length.
    + rewrite NS, MA. intros s act Hs Hact. split.
      * intros [-> C]. apply (can_do_edge _ _ _ _ _ _ G Hi) in C. destruct C as (_ & t & _ & X). rewrite (VAL act t X). eauto.
      * intros C. destruct (Nat.eq_dec s i) as [->|D]; [|rewrite Q1 by assumption; apply nth_repeat]. rewrite Q0, NR; [apply nth_repeat|]. intros x t I. apply IV in I. destruct I as [I _]. apply C. split; [reflexivity|].
        apply (can_do_edge _ _ _ _ _ _ G Hi). rewrite NA. split; [exact Hact|]. exists t. split; [now apply RG in I|exact I].
  - exists V, N', k', states. split; [exact RM|]. split; [reflexivity|]. intros act t T. apply VAL.
    apply travels_one in T. destruct T as (C & NX). apply (can_do_edge _ _ _ _ _ _ G Hi) in C. destruct C as (Lb & u & Lu & X). rewrite NA in Lb.
    destruct (inv_edge _ _ _ _ G i act u Hi Lb Lu) as [[_ W1]|[Z _]]; [|contradiction]. rewrite (next_state_edge _ _ _ _ G i act u Hi Lu W1) in NX. inversion NX. now subst u.
Qed.

(** * Selection *)
Lemma select_only_at : forall k shape st (pl : plugins R) nm m i q, grid_inv k shape st m -> selects_best pl nm -> i < nst shape -> values_only_at m i q ->
  ((exists act, can_do m i act) -> forall seed, exists pi, get_pi (pl_pi pl nm seed) q = Ok pi /\ length pi = nst shape /\
     (exists act, nth i pi 0%Z = Z.of_nat act /\ can_do m i act) /\ (forall s, s < nst shape -> s <> i -> nth s pi 0%Z = (-1)%Z)) /\
  ((forall act, ~ can_do m i act) -> forall sel, get_pi_p sel q = Err ValueError).
Proof.
  intros k shape st pl nm m i q G SB Hi (L & LR & H). pose proof (gi_ns _ _ _ _ G) as NS. pose proof (gi_na _ _ _ _ G) as MA. destruct (grid_shape _ _ _ _ G) as (_ & NA & _).
  assert (LR' : forall s, s < nst shape -> length (nth s q []) = m_n_actions m) by (intros s Hs; apply LR, nth_In; lia).
  assert (ENT : forall s w, s < nst shape -> In w (nth s q []) -> w = NaN \/ s = i /\ exists act x, act < m_n_actions m /\ nth act (nth s q []) NaN = w /\ w = Fin x /\ can_do m i act).
  { intros s w Hs Hw. apply (In_nth _ _ NaN) in Hw. destruct Hw as (act & La & <-). rewrite LR' in La by exact Hs. destruct (H s act ltac:(lia) La) as [H1 H2].
    destruct (Nat.eq_dec s i) as [->|D]; [|left; apply H2; tauto]. destruct (can_do_dec _ _ _ _ _ act G Hi) as [C|C]; [|left; apply H2; tauto].
    right. split; [reflexivity|]. destruct (H1 (conj eq_refl C)) as (x & Ex). exists act, x. auto. }
  split.
  - intros (a0 & C0) seed.
    assert (LA0 : a0 < m_n_actions m) by (apply (can_do_edge _ _ _ _ _ _ G Hi) in C0; rewrite MA, <- NA; tauto).
    destruct (H i a0 ltac:(lia) LA0) as [F0 _]. destruct (F0 (conj eq_refl C0)) as (x0 & E0).
    assert (IN0 : In (Fin x0) (nth i q [])) by (rewrite <- E0; apply nth_In; rewrite LR'; assumption).
    assert (K0 : some_known (nth i q [])) by (exists (Fin x0); split; [exact IN0|discriminate]).
    assert (KQ : exists row, In row q /\ some_known row) by (exists (nth i q []); split; [apply nth_In; lia|exact K0]).
    assert (ROWS : forall row, In row q -> row <> [] /\ ~ In PInf row).
    { intros row Hr. apply (In_nth _ _ []) in Hr. destruct Hr as (s & Hs & <-). rewrite L, NS in Hs. split.
      - intros X. pose proof (LR' s Hs) as Y. rewrite X in Y. cbn in Y. lia.
      - intros X. destruct (ENT s _ Hs X) as [Y|(_ & act & x & _ & _ & Y & _)]; discriminate. }
    assert (BEST : exists pi, get_pi (pl_pi pl nm seed) q = Ok pi /\ length pi = length q /\ exists act, nth i pi 0%Z = Z.of_nat act /\ can_do m i act).
    { destruct SB as [SB|SB].
      - destruct (SB seed) as (draws & ->). destruct (C25_sampled_is_best draws q) as (pi & E & Lp & B); [intros row Hr; now apply ROWS|exact KQ|]. exists pi. split; [exact E|]. split; [exact Lp|].
        destruct (B i ltac:(lia) K0) as (act & Ea & La & BA). { intros [X _]. revert X. apply ROWS, nth_In. lia. }
        exists act. split; [exact Ea|]. rewrite LR' in La by exact Hi. specialize (BA a0 ltac:(rewrite LR'; assumption)). rewrite E0 in BA.
        destruct (can_do_dec _ _ _ _ _ act G Hi) as [C|C]; [exact C|]. destruct (H i act ltac:(lia) La) as [_ X]. rewrite X in BA by tauto. destruct BA.
      - destruct (SB seed) as (temp & us & T0 & U & ->). destruct (C27_sampled_is_possible temp us q T0 U ROWS KQ) as (pi & E & Lp & B). exists pi. split; [exact E|]. split; [exact Lp|].
        destruct (B i ltac:(lia) (ex_intro _ x0 IN0)) as (act & x & Ea & La & Ex & _). exists act. split; [exact Ea|]. rewrite LR' in La by exact Hi.
        destruct (can_do_dec _ _ _ _ _ act G Hi) as [C|C]; [exact C|]. destruct (H i act ltac:(lia) La) as [_ X]. rewrite X in Ex by tauto. discriminate. }
    destruct BEST as (pi & E & Lp & B). exists pi. split; [exact E|]. split; [lia|]. split; [exact B|]. intros s Hs D.
    assert (E' := E). unfold get_pi in E'. apply bind_ok in E'. destruct E' as (_ & _ & E'). apply bind_ok in E'. destruct E' as (pi0 & SE & E'). destruct (length pi0 =? length q) eqn:LE; [|discriminate]. apply Nat.eqb_eq in LE.
    destruct (C26_flagged_states_partial _ q pi0 KQ SE LE) as (pi' & E'' & _ & F). rewrite E in E''. inversion E''. subst pi'. destruct (F s ltac:(lia)) as (F1 & _ & _). apply F1. intros (w & Hw & NW). apply NW. destruct (ENT s w Hs Hw) as [X|[X _]]; [exact X|contradiction].
  - intros C sel. apply C26_all_nan_rejected. intros row Hr (w & Hw & NW). apply (In_nth _ _ []) in Hr. destruct Hr as (s & Hs & <-). rewrite L, NS in Hs. destruct (ENT s w Hs Hw) as [X|(_ & act & x & _ & _ & _ & X)]; [contradiction|]. now apply (C act).
Qed.

(** * Stepping *)
Lemma agent_step_goes : forall pl k shape st e a seed a1 pi i act, wf k shape st e -> In a (e_agents e) -> get_policy pl a seed = (a1, Ok tt) -> at_pi a1 = Some pi ->
  py_index (length pi) (at_pos a) = Ok i -> nth i pi 0%Z = Z.of_nat act -> act < m_n_actions (e_mdp e) -> exists m' a', agent_step pl (e_mdp e) a seed = (m', a', Ok tt).
Proof.
  intros pl k shape st e a seed a1 pi i act W Ha GP Api Ei EA La. destruct (get_policy_spec _ _ _ _ _ GP) as (H1 & H2 & H3 & H4 & H5 & H6). destruct (H6 eq_refl) as (v & q & pi' & F & _).
  unfold agent_step. rewrite F, GP, Api, H2, Ei. cbn [bind]. rewrite EA. destruct (Z.ltb_spec (Z.of_nat act) 0); [lia|].
  pose proof (wf_grid _ _ _ _ W) as G. destruct (wf_agents _ _ _ _ W a Ha) as (Hidx & _ & _ & _ & (p & SO) & _).
  assert (NX : exists s, get_next_state (e_mdp e) (at_pos a) (Z.of_nat act) = Ok s).
  { unfold get_next_state. destruct (Z.ltb_spec (Z.of_nat act) 0); [lia|]. unfold stands_on in SO. rewrite SO, py_index_nat by exact La. cbn [bind]. rewrite (gi_det _ _ _ _ G). eauto. }
  destruct NX as (s & NX). rewrite NX. assert (Hs : s < m_n_states (e_mdp e)) by (eapply next_state_lt; eauto).
  destruct (ident_name _ _ H1) as (N1 & N2 & _). rewrite <- N2 in Hidx. pose proof (wf_table _ _ _ _ W) as T. pose proof (wf_nf _ _ _ _ W) as NF.
  destruct (move_agent_spec (e_mdp e) a1 (Z.of_nat s) T NF Hidx) as [(s' & S1 & S2 & EM)|[[X _]|[X _]]]; [|lia|lia].
  unfold stands_on in S1. rewrite py_index_nat in S1 by exact Hs. inversion S1. subst s'. rewrite EM. cbn [at_hist at_pos set_pos_only at_idx set_hist].
  rewrite update_agent_spec; [| |exact NF|exact Hidx].
  - cbn [m_n_states row_set with_features]. rewrite py_index_nat by exact Hs. eauto.
  - apply table_row_set; [exact T|apply onehot_len].
Qed.
Lemma env_step_goes : forall pl k shape st e nm a seed m1 a1, wf k shape st e -> agent_named e nm a -> consumes_in_range e -> agent_step pl (e_mdp e) a seed = (m1, a1, Ok tt) ->
  exists e' p, env_step pl e nm seed = (e', Ok p).
Proof.
  intros pl k shape st e nm a seed m1 a1 W [Ha Na] CR ES. destruct (env_step pl e nm seed) as [e' r] eqn:E. destruct r as [p|x]; [eauto|exfalso].
  assert (EL : lookup e nm = Ok a). { destruct (lookup_spec k shape st e nm W) as [(b & EL & Hb & EN)|(_ & NI)]; [rewrite EL; f_equal; eapply same_name_same; eauto; [apply (wf_names _ _ _ _ W)|congruence]|]. elim NI. apply (wf_lookup _ _ _ _ W). rewrite <- Na. now apply in_map. }
  unfold env_step in E. rewrite EL, ES in E. destruct (agent_step_spec _ _ _ _ _ _ _ _ _ _ W Ha ES) as [(y & X & _)|H]; [discriminate|].
  destruct H as (v & q & pi & i & act & s & _ & F & Epi & Ei & -> & An & NS & Hs & -> & H1 & H2 & H3 & H4 & H5 & H6).
  set (e1 := with_agent (with_mdp e (row_set (e_mdp e) (at_idx a) (onehot (e_mdp e) s))) a1) in *. cbv zeta in E.
  assert (M1 : mut LMove e e1). { exists a, a1, s. split; [exact Ha|]. split; [exact H1|]. split; [exact H3|]. split; [rewrite H2; now apply py_index_nat|reflexivity]. }
  assert (W1 : wf k shape st e1) by (eapply mut_wf; eauto). assert (I1 : In a1 (e_agents e1)) by (eapply with_agent_in; eauto). destruct (ident_name _ _ H1) as (N1 & N2 & N3 & _).
  assert (NF : m_n_features (e_mdp e1) = m_n_features (e_mdp e)) by reflexivity. clearbody e1. unfold env_consume in E. destruct (at_consumes a1) as [|z l] eqn:EC; [discriminate|]. rewrite <- EC in E, N3.
  destruct (consume_features (e_mdp e1) (at_consumes a1) (at_pos a1)) as [m' [c|y]] eqn:CE.
  - destruct (consume_result _ _ _ _ _ _ _ W1 I1 CE) as (g & EM & SH & _ & _ & L). specialize (L c eq_refl). destruct (wf_agents _ _ _ _ W1 a1 I1) as (_ & _ & LC & _). rewrite LC, L, Nat.eqb_refl in E. discriminate.
  - destruct (consume_result _ _ _ _ _ _ _ W1 I1 CE) as (g & EM & SH & _ & X & _). destruct (X y eq_refl) as (_ & z' & Hz & Rz). specialize (CR a Ha z'). rewrite <- N3 in CR. specialize (CR Hz). rewrite NF in Rz. lia.
Qed.

(** The named agent's plan has values for state [i] only. *)
Definition planned_at (e : env R) (nm : string) (i : nat) : Prop :=
  exists a v q, agent_named e nm a /\ at_fit a = Some (v, q) /\ values_only_at (e_mdp e) i q.

(** After a successful fit the plan is for the state the agent stands in, where some action is possible. *)
Lemma fit_plans : forall pl e nm n s s' e1, reachable pl e -> uses_mcts pl nm -> env_fit pl e nm n s s' = (e1, Ok tt) ->
  exists a v q i p, agent_named e1 nm a /\ at_fit a = Some (v, q) /\ values_only_at (e_mdp e1) i q /\ stands_on (e_mdp e1) (at_pos a) i /\ get_pi_p (pl_pi_p pl nm) q = Ok p /\
    e_mdp e1 = e_mdp e /\ reachable pl e1 /\ (exists b, agent_named e nm b /\ at_pos b = at_pos a).
Proof.
  intros pl e nm n s s' e1 RE (_ & score & cfg & UM) EF. assert (RE1 : reachable pl e1). { replace e1 with (do_op pl e (OFit nm n s s')) by (cbn [do_op]; now rewrite EF). now constructor. }
  destruct (reachable_wf _ _ RE) as (k & shape & st & W). unfold env_fit in EF. destruct (lookup_spec k shape st e nm W) as [(a & EL & Ha & EN)|(EL & _)]; rewrite EL in EF; [|discriminate].
  destruct (alg_fit pl e a n s) as [f|x] eqn:AF; [|discriminate]. destruct (get_policy pl (set_fit a (Some f)) s') as [a' r] eqn:GP. assert (PI : e1 = with_agent e a' /\ r = Ok tt) by (now inversion EF). destruct PI as [E1 ->].
  destruct (get_policy_spec _ _ _ _ _ GP) as (J1 & J2 & J3 & J4 & J5 & J6). destruct (J6 eq_refl) as (v & q & pi & F & Epi & Api & p & Ep & _). destruct (ident_name _ _ J1) as (N1 & _). cbn in F, N1, Ep. inversion F. subst f.
  unfold alg_fit in AF. destruct (negb _); [discriminate|]. apply bind_ok in AF. destruct AF as ([v' q'] & PF & AF). assert (v' = v /\ q' = q) by (destruct (negb _); [discriminate|]; destruct (negb _); [discriminate|]; destruct (negb _); [discriminate|]; now inversion AF). destruct H as [-> ->].
  destruct (UM e n s) as (rnd & fuel & UM'). rewrite EN, (UM' a (wf_names _ _ _ _ W) (conj Ha EN)) in PF. destruct (C42_values _ _ _ _ _ _ _ _ _ _ RE Ha PF) as (i & SO & VO & _).
  exists a', v, q, i, p. assert (EM : e_mdp e1 = e_mdp e) by (now rewrite E1). rewrite EM. rewrite J2. cbn [at_pos set_fit]. split; [|split; [exact J5|]; split; [exact VO|]; split; [exact SO|]; split; [now rewrite <- EN|]; split; [reflexivity|]; split; [exact RE1|]; exists a; split; [split; assumption|reflexivity]].
  split; [|now rewrite N1]. rewrite E1. eapply with_agent_in; eauto.
Qed.

(** The next step succeeds and moves along a possible transition. *)
Theorem C42_next_step : forall pl e nm n s s' e1 seed, reachable pl e -> uses_mcts pl nm -> selects_best pl nm -> consumes_in_range e1 ->
  env_fit pl e nm n s s' = (e1, Ok tt) ->
  exists a i act t e2, agent_named e1 nm a /\ stands_on (e_mdp e1) (at_pos a) i /\ travels (e_mdp e1) i [act] t /\ env_step pl e1 nm seed = (e2, Ok (Z.of_nat t)).
Proof.
  intros pl e nm n s s' e1 seed RE UM SB CR EF. destruct (fit_plans _ _ _ _ _ _ _ RE UM EF) as (a & v & q & i & p & NA & F & VO & SO & Ep & EM & RE1 & _). clear EF EM RE.
  destruct (reachable_wf _ _ RE1) as (k & shape & st & W). pose proof (wf_grid _ _ _ _ W) as G. pose proof (gi_ns _ _ _ _ G) as NS. assert (Hi : i < nst shape) by (rewrite <- NS; eapply py_index_ok; eauto).
  destruct (select_only_at _ _ _ _ _ _ _ _ G SB Hi VO) as [S1 S2].
  assert (EX : exists act, can_do (e_mdp e1) i act). { destruct (in_valid_actions _ _ _ _ G i Hi) as ([|x va] & EV & _); [|exists x, (x :: va); split; [exact EV|now left]]. rewrite S2 in Ep; [discriminate|]. intros act (va' & E' & I'). rewrite EV in E'. inversion E'. subst. destruct I'. }
  destruct (S1 EX seed) as (pi & Epi & Lp & (act & EA & C) & _). pose proof NA as [Ha Na].
  assert (GP : get_policy pl a seed = (set_policy a (Some pi) (Some p), Ok tt)). { unfold get_policy. now rewrite F, Na, Ep, Epi. }
  assert (LA : act < m_n_actions (e_mdp e1)). { apply (can_do_edge _ _ _ _ _ _ G Hi) in C. destruct (grid_shape _ _ _ _ G) as (_ & X & _). rewrite (gi_na _ _ _ _ G), <- X. tauto. }
  assert (PI : py_index (length pi) (at_pos a) = Ok i) by (unfold stands_on in SO; rewrite Lp, <- NS; exact SO).
  destruct (agent_step_goes pl _ _ _ e1 a seed _ pi i act W Ha GP eq_refl PI EA LA) as (m' & a' & ES). destruct (env_step_goes _ _ _ _ _ _ _ _ _ _ W NA CR ES) as (e2 & z & EE).
  destruct (C34_possible_actions_partial _ _ _ _ _ _ RE1 EE) as (b & act' & j & va & t & NB & (v2 & q2 & pi2 & j2 & F2 & P2 & P3 & P4) & SO2 & EZ & EV & H).
  assert (b = a) by (destruct NB; eapply same_name_same; eauto; [apply (wf_names _ _ _ _ W)|congruence]). subst b. assert (j = i) by (unfold stands_on in *; congruence). subst j.
  rewrite F in F2. inversion F2. subst v2 q2. rewrite Na, Epi in P2. inversion P2. subst pi2. assert (j2 = i) by congruence. subst j2. rewrite EA in P4. subst act'. rewrite Nat2Z.id in H. subst z.
  destruct H as [[I T]|[NI _]]; [exists a, i, act, t, e2; auto|]. destruct C as (va' & E' & I'). rewrite EV in E'. inversion E'. subst va'. contradiction.
Qed.

(** Stepping with a plan for another state raises ValueError and moves nothing, whatever happened in
    between. *)
Theorem C42_stale : forall pl e nm a v q i j p seed, reachable pl e -> selects_best pl nm -> agent_named e nm a -> at_fit a = Some (v, q) -> values_only_at (e_mdp e) i q -> i < m_n_states (e_mdp e) ->
  get_pi_p (pl_pi_p pl nm) q = Ok p -> stands_on (e_mdp e) (at_pos a) j -> j <> i ->
  exists e', env_step pl e nm seed = (e', Err ValueError) /\ e_mdp e' = e_mdp e /\ exists a', agent_named e' nm a' /\ at_pos a' = at_pos a /\ at_hist a' = at_hist a.
Proof.
  intros pl e nm a v q i j p seed RE SB NA F VO Hi Ep SO D. destruct (reachable_wf _ _ RE) as (k & shape & st & W). pose proof (wf_grid _ _ _ _ W) as G. pose proof (gi_ns _ _ _ _ G) as NS. rewrite NS in Hi.
  destruct (select_only_at _ _ _ _ _ _ _ _ G SB Hi VO) as [S1 S2]. assert (EX : exists act, can_do (e_mdp e) i act). { destruct (in_valid_actions _ _ _ _ G i Hi) as ([|x va] & EV & _); [|exists x, (x :: va); split; [exact EV|now left]]. rewrite S2 in Ep; [discriminate|]. intros act (va' & E' & I'). rewrite EV in E'. inversion E'. subst. destruct I'. }
  destruct (S1 EX seed) as (pi & Epi & Lp & _ & OT). pose proof NA as [Ha Na]. assert (GP : get_policy pl a seed = (set_policy a (Some pi) (Some p), Ok tt)). { unfold get_policy. now rewrite F, Na, Ep, Epi. }
  assert (EL : lookup e nm = Ok a). { destruct (lookup_spec k shape st e nm W) as [(b & EL & Hb & EN)|(_ & NI)]; [rewrite EL; f_equal; eapply same_name_same; eauto; [apply (wf_names _ _ _ _ W)|congruence]|]. elim NI. apply (wf_lookup _ _ _ _ W). rewrite <- Na. now apply in_map. }
  assert (Hj : j < nst shape) by (rewrite <- NS; eapply py_index_ok; eauto). unfold env_step. rewrite EL. unfold agent_step. rewrite F, GP. cbn [set_policy at_pi at_pos]. unfold stands_on in SO. rewrite Lp, <- NS, SO. cbn [bind]. rewrite (OT j Hj D). cbn [Z.ltb Z.compare].
  rewrite with_mdp_id. eexists. split; [reflexivity|]. split; [reflexivity|]. exists (set_policy a (Some pi) (Some p)). split; [|split; reflexivity]. split; [|exact Na]. eapply with_agent_in; eauto.
Qed.
(** In particular: fit, step to another state, step again. *)
Theorem C42_second_step : forall pl e nm n s s' e1 seed e2 t a i seed', reachable pl e -> uses_mcts pl nm -> selects_best pl nm ->
  env_fit pl e nm n s s' = (e1, Ok tt) -> env_step pl e1 nm seed = (e2, Ok (Z.of_nat t)) -> agent_named e nm a -> stands_on (e_mdp e) (at_pos a) i -> t <> i ->
  exists e3, env_step pl e2 nm seed' = (e3, Err ValueError).
Proof.
  intros pl e nm n s s' e1 seed e2 t a i seed' RE UM SB EF ES NA SO D. destruct (fit_plans _ _ _ _ _ _ _ RE UM EF) as (a1 & v & q & i' & p & NA1 & F & VO & SO1 & Ep & EM & RE1 & (b & NB & PB)).
  destruct (reachable_wf _ _ RE) as (k0 & shape0 & st0 & W0). assert (b = a) by (destruct NA, NB; eapply same_name_same; eauto; [apply (wf_names _ _ _ _ W0)|congruence]). subst b. assert (i' = i) by (unfold stands_on in *; rewrite EM, <- PB, SO in SO1; now inversion SO1). subst i'.
  destruct (reachable_wf _ _ RE1) as (k & shape & st & W). assert (RE2 : reachable pl e2). { replace e2 with (do_op pl e1 (OStep nm seed)) by (cbn [do_op]; now rewrite ES). now constructor. }
  destruct (env_step_full _ _ _ _ _ _ _ _ _ W ES) as [(X & _)|[(x & y & z & _ & X & _)|H]]; [discriminate|discriminate|]. destruct H as (b & a2 & u & NB1 & MV & WK & RP & SBF & [(X & _)|(X & _)]); [discriminate|]. inversion X. apply Nat2Z.inj in H0. subst u.
  assert (b = a1) by (destruct NA1, NB1; eapply same_name_same; eauto; [apply (wf_names _ _ _ _ W)|congruence]). subst b.
  destruct WK as (K1 & K2 & K3 & K4). destruct (ident_name _ _ K1) as (N1 & _). destruct NA1 as [Ha1 Na1].
  assert (SN : m_n_states (e_mdp e2) = m_n_states (e_mdp e1) /\ m_n_actions (e_mdp e2) = m_n_actions (e_mdp e1) /\ forall z, state_valid_actions (e_mdp e2) z = state_valid_actions (e_mdp e1) z) by (rewrite SBF; auto). destruct SN as (SN1 & SN2 & SN3).
  assert (IN2 : In a2 (e_agents e2)). { apply (replaced_in _ _ _ _ Ha1 N1 RP). now left. }
  assert (Ht : t < m_n_states (e_mdp e2)). { destruct (reachable_wf _ _ RE2) as (k2 & shape2 & st2 & W2). destruct (wf_agents _ _ _ _ W2 a2 IN2) as (_ & _ & _ & _ & (y & Y) & _). unfold stands_on in Y. rewrite K2 in Y. apply py_index_ok in Y. lia. }
  destruct (C42_stale pl e2 nm a2 v q i t p seed' RE2 SB) as (e3 & E3 & _).
  - split; [exact IN2|congruence].
  - congruence.
  - destruct VO as (V1 & V2 & V3). unfold values_only_at, can_do. rewrite SN1, SN2. setoid_rewrite SN3. split; [exact V1|]. split; [exact V2|exact V3].
  - rewrite SN1. eapply py_index_ok. exact SO1.
  - exact Ep.
  - rewrite K2. now apply py_index_nat.
  - exact D.
  - exists e3. exact E3.
Qed.

(** In a state without possible actions fitting raises. *)
Theorem C42_isolated : forall pl e nm n s s' a i, reachable pl e -> uses_mcts pl nm -> agent_named e nm a -> stands_on (e_mdp e) (at_pos a) i -> state_valid_actions (e_mdp e) (Z.of_nat i) = Ok [] ->
  forall e1 r, env_fit pl e nm n s s' = (e1, r) -> exists x, r = Err x.
Proof.
  intros pl e nm n s s' a i RE UM NA SO EV e1 r EF. destruct r as [[]|x]; [exfalso|eauto].
  destruct (fit_plans _ _ _ _ _ _ _ RE UM EF) as (a1 & v & q & i' & p & NA1 & F & VO & SO1 & Ep & EM & RE1 & (b & NB & PB)).
  destruct (reachable_wf _ _ RE) as (k0 & shape0 & st0 & W0). assert (b = a) by (destruct NA, NB; eapply same_name_same; eauto; [apply (wf_names _ _ _ _ W0)|congruence]). subst b. assert (i' = i) by (unfold stands_on in *; rewrite EM, <- PB, SO in SO1; now inversion SO1). subst i'.
  rewrite EM in *. pose proof (wf_grid _ _ _ _ W0) as G. assert (Hi : i < nst shape0) by (rewrite <- (gi_ns _ _ _ _ G); eapply py_index_ok; eauto).
  assert (X : forall sel, get_pi_p sel q = Err ValueError).
  { apply C26_all_nan_rejected. intros row Hr (w & Hw & NW). destruct VO as (L & LR & H). apply (In_nth _ _ []) in Hr. destruct Hr as (j & Hj & <-). apply (In_nth _ _ NaN) in Hw. destruct Hw as (act & La & <-). rewrite LR in La by (now apply nth_In). apply NW.
    apply (H j act ltac:(lia) La). intros (_ & va & E' & I'). rewrite EV in E'. inversion E'. subst va. destruct I'. }
  rewrite X in Ep. discriminate.
Qed.
