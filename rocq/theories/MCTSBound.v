(** C146: a tree search that ignores the other agents promises no more than the best walk pays, and no less than the worst. *)
From Coq Require Import String List ZArith QArith Reals Bool Lia Lra.
From Verif Require Import PyBase PyProofs GridModel GridSpec MDPModel MDPSpec MDPProofs MDPProofs2 MDPProofs3 MDPProps ActionModel ActionSpec RSum EnvModel EnvSpec StepSpec EnvProofs EnvProofs2 EnvProofs3 EnvProps StepProps VIModel VISpec VIEnvProps MCTSModel MCTSSpec MCTSProofs MCTSProofs2 MCTSProofs3 MCTSProps MCTSWalk MCTSEaten MCTSRun MCTSKept MCTSEnv MCTSTries QueryModel QueryProofs.
Import ListNotations.
Local Close Scope Q_scope. Local Close Scope R_scope.
Local Open Scope nat_scope.

(** The agent consumes feature [f]. *)
Definition consumes_feature (e : env R) (a : attached R) (f : nat) : bool :=
  existsb (fun z => match py_index (m_n_features (e_mdp e)) z with Ok g => g =? f | Err _ => false end) (at_consumes a).
(** What the walk [l] from state [i] pays the agent, according to its reward function and the features as they are
    now: features it consumes pay once per state, and its own position counts as a feature of the state it comes from. *)
Definition pays (e : env R) (a : attached R) (i : nat) (l : list nat) : R :=
  gathered (at_reward a) (m_features (e_mdp e)) (at_feature_idx a) (consumes_feature e a) i l.

Lemma value_between : forall rewards states t lo hi, length rewards = length states -> (lo <= 0 <= hi)%R ->
  (forall j, j < length states -> In t (nth j states []) -> (lo <= nth j rewards 0 <= hi)%R) ->
  (0 <= visits states t /\ lo * visits states t <= value_total rewards states t <= hi * visits states t)%R.
Proof.
  induction rewards as [|r rewards IH]; intros [|l states] t lo hi L B H; try discriminate L; [unfold visits, value_total; cbn; lra|].
  destruct (IH states t lo hi ltac:(cbn in L; lia) B) as (I0 & I1 & I2). { intros j Hj It. apply (H (S j)); [cbn; lia|exact It]. }
  unfold visits, value_total in *. cbn [combine]. rewrite !sumf_cons. cbn [fst snd]. set (o := INR (occurrences t l)). assert (O0 : (0 <= o)%R) by apply pos_INR.
  assert (X : (lo * o <= o * r <= hi * o)%R). { destruct (in_dec Nat.eq_dec t l) as [It|It].
    - specialize (H 0 ltac:(cbn; lia) It). cbn [nth] in H. split; nra.
    - replace o with 0%R; [lra|]. unfold o, occurrences. rewrite (proj1 (count_occ_not_In Nat.eq_dec l t) It). reflexivity. }
  lra.
Qed.
Lemma alone_length : forall score c (V N : list R) k rnd fuel s0 reward visited k' o, 0 < length (s_start c) -> s_interactive c = false -> py_index (length (s_sas c)) (nth 0 (s_start c) 0%Z) = Ok s0 ->
  mcts_iteration score c V N k rnd fuel = Ok (reward, visited, k', o) -> walk (s_sas c) s0 visited /\ Z.of_nat (length visited) = Z.max 0 (n_steps c).
Proof.
  intros score c V N k rnd fuel s0 reward visited k' o Hn INT P0 H. unfold mcts_iteration in H. apply bind_ok in H. destruct H as ([st b] & E & H).
  assert (it_visited st = visited) as <- by (now inversion H). clear H.
  destruct (loop_walk score c V N rnd s0 Hn P0 k fuel st b E) as (_ & W & _). split; [exact W|].
  revert E. apply (it_loop_inv score c V N rnd (alone c) (fun st _ => Z.of_nat (length (it_visited st)) = Z.max 0 (n_steps c))).
  - intros s s' A L B. destruct (alone_body score c V N rnd Hn INT s _ A L B) as (s1 & E & A' & _). now inversion E.
  - intros s s' A L B. destruct (alone_body score c V N rnd Hn INT s _ A L B) as (s1 & E & _). discriminate.
  - intros s (_ & _ & TV & TL) L. lia.
  - now apply alone_start.
Qed.
Lemma gathered_ext : forall rf ft own cs cs' s0 l, (forall f, cs f = cs' f) -> gathered rf ft own cs s0 l = gathered rf ft own cs' s0 l.
Proof. intros rf ft own cs cs' s0 l H. unfold gathered. apply sumf_ext. intros i _. apply sumf_ext. intros f _. unfold held. now rewrite H. Qed.

Theorem C146_between : forall pl score cfg e a n rnd fuel v q i act t, reachable pl e -> In a (e_agents e) -> mc_interactive cfg = false ->
  mcts_fit score cfg e a (Some n) rnd fuel = Ok (v, q) -> stands_on (e_mdp e) (at_pos a) i -> travels (e_mdp e) i [act] t ->
  exists x, nth act (nth i q []) NaN = Fin x /\
    forall lo hi, (lo <= 0 <= hi)%R ->
      (forall l, walk (m_sas (e_mdp e)) i l -> In t l -> Z.of_nat (length l) = Z.max 0 (zsum (map zsum n)) -> (lo <= pays e a i l <= hi)%R) -> (lo <= x <= hi)%R.
Proof.
  intros pl score cfg e a n rnd fuel v q i act t RE Ha INT H SO T.
  destruct (C36_fit pl score cfg e a n rnd fuel v q RE Ha H) as (c & i' & states & rewards & FS & SO' & LS & LR & HQ & HJ). assert (i' = i) by (unfold stands_on in *; congruence). subst i'.
  exists (value_total rewards states t / (1 + visits states t))%R. split; [now apply HQ|]. intros lo hi B HP.
  enough (X : (0 <= visits states t /\ lo * visits states t <= value_total rewards states t <= hi * visits states t)%R).
  { destruct X as (X0 & X1 & X2). set (N := visits states t) in *. set (Y := value_total rewards states t) in *. assert (N1 : (0 < 1 + N)%R) by lra. split.
    - apply (Rmult_le_reg_r (1 + N)); [exact N1|]. unfold Rdiv. rewrite Rmult_assoc, Rinv_l by lra. nra.
    - apply (Rmult_le_reg_r (1 + N)); [exact N1|]. unfold Rdiv. rewrite Rmult_assoc, Rinv_l by lra. nra. }
  apply value_between; [exact LR|exact B|]. intros j Hj It. destruct (HJ j Hj) as (V1 & N1 & k1 & k2 & o & _ & IT).
  destruct (reachable_wf _ _ RE) as (k & shape & st & W). pose proof (wf_grid _ _ _ _ W) as G. pose proof (gi_ns _ _ _ _ G) as NS. destruct (grid_shape _ _ _ _ G) as (_ & NA & SH). pose proof SH as [SL _].
  assert (FS0s : s_start c = map i_pos (all_info (mc_interactive cfg) e a)). { unfold fit_search, make_search in FS. destruct (negb _); [discriminate|]. apply bind_ok in FS. destruct FS as (masks & _ & FS). now inversion FS. }
  destruct (C44_environment pl cfg e a n c RE Ha FS) as (l & (L0 & _ & LI) & ST & RW & FI & CA & CO).
  assert (SAS : s_sas c = m_sas (e_mdp e) /\ s_n_moves c = n /\ s_interactive c = mc_interactive cfg /\ s_features c = m_features (e_mdp e)). { unfold fit_search, make_search in FS. destruct (negb _); [discriminate|]. apply bind_ok in FS. destruct FS as (masks & _ & FS). now inversion FS. }
  destruct SAS as (SAS & NM & SI & SF). destruct l as [|x l]; [discriminate|]. cbn in L0. assert (x = a) by congruence. subst x.
  assert (P0 : py_index (length (s_sas c)) (nth 0 (s_start c) 0%Z) = Ok i). { rewrite SAS, SL, ST. cbn [map nth]. unfold stands_on in SO. rewrite NS in SO. exact SO. }
  destruct (alone_length score c V1 N1 k1 (rnd j) fuel i _ _ _ _ ltac:(rewrite ST; cbn; lia) ltac:(congruence) P0 IT) as [WK LW].
  assert (EP : nth j rewards 0%R = pays e a i (nth j states [])).
  { unfold fit_search, make_search in FS. destruct (negb _); [discriminate|]. apply bind_ok in FS. destruct FS as (masks & MM & FS). destruct (mapM_nth _ _ _ _ _ MM) as [LM SM].
    assert (EC : s_consumes c = masks) by (now inversion FS). rewrite INT in LM, SM. cbn [all_info map length] in LM. specialize (SM 0 (agent_info a) [] ltac:(cbn; lia)). cbn [all_info nth] in SM. destruct (MCTSProps.mask_spec _ _ SM) as [LK _].
    destruct (wf_agents _ _ _ _ W a Ha) as (_ & _ & _ & LRW & _). cbn [agent_info i_reward] in LK. rewrite LRW in LK.
    assert (L1 : length (s_start c) = 1). { rewrite FS0s. rewrite INT. reflexivity. }
    assert (CR := C40_reward_alone score c V1 N1 k1 (rnd j) fuel (m_n_states (e_mdp e)) (m_n_features (e_mdp e)) i (nth j rewards 0%R) (nth j states []) k2 o). rewrite CR; [|..|exact IT].
    - rewrite RW, FI, SF. cbn [map nth]. apply gathered_ext. intros f. apply eq_true_iff_eq. rewrite (CO 0 a f eq_refl). unfold consumes_feature. rewrite existsb_exists. split; intros (z & Hz & E); exists z; (split; [exact Hz|]).
      + rewrite E. apply Nat.eqb_refl.
      + destruct (py_index _ z) as [g|]; [|discriminate]. apply Nat.eqb_eq in E. now subst g.
    - unfold well_shaped. rewrite SF, SAS, EC, L1. split; [pose proof (wf_table _ _ _ _ W) as TB; apply table_shape in TB; exact TB|]. split; [rewrite NS; exact SL|]. split; [exact LM|]. split; [|lia]. intros x Hx. replace x with 0 by lia. exact LK.
    - rewrite RW. cbn [map nth]. exact LRW.
    - rewrite SAS, NS. unfold n_actions in NA. rewrite NA. exact SH.
    - congruence.
    - rewrite <- P0, SAS, SL, NS. reflexivity. }
  rewrite EP. rewrite SAS in WK. apply HP; [exact WK|exact It|]. rewrite LW. unfold n_steps. now rewrite NM.
Qed.

(** In an environment: after a successful fit of an agent that searches alone, the value it reports for a move it can
    make is at most what the best walk over that state pays it, and at least what the worst pays. *)
Theorem C146_fit : forall pl e nm a score cfg n s s' e1 i act t, reachable pl e -> agent_named e nm a -> runs_mcts pl nm score cfg -> mc_interactive cfg = false ->
  env_fit pl e nm (Some n) s s' = (e1, Ok tt) -> stands_on (e_mdp e) (at_pos a) i -> travels (e_mdp e) i [act] t ->
  exists q x, get_agent_q_values e1 nm = Ok (Some q) /\ nth act (nth i q []) NaN = Fin x /\
    forall lo hi, (lo <= 0 <= hi)%R ->
      (forall l, walk (m_sas (e_mdp e)) i l -> In t l -> Z.of_nat (length l) = Z.max 0 (zsum (map zsum n)) -> (lo <= pays e a i l <= hi)%R) -> (lo <= x <= hi)%R.
Proof.
  intros pl e nm a score cfg n s s' e1 i act t RE NA [_ RM] INT EF SO T. destruct (reachable_wf _ _ RE) as (k & shape & st & W).
  destruct (RM e (Some n) s (wf_names _ _ _ _ W)) as (rnd & fuel & _ & PF). specialize (PF a NA).
  destruct (fit_planned _ _ _ _ _ _ _ EF) as (v & q & p & HF & _ & _ & _ & KN). rewrite PF in HF.
  destruct (C146_between _ _ _ _ _ _ _ _ _ _ i act t RE (proj1 NA) INT HF SO T) as (x & HX & HB). exists q, x. split; [|now split].
  destruct (knows_lookup _ _ _ KN) as (b & L & _ & K). unfold get_agent_q_values. rewrite L. cbn [bind]. destruct K as [[w Ew] _]. now rewrite Ew.
Qed.

(** The hypotheses are met by p of C71_example searching alone. *)
Example C146_example : forall pl score, exists e a v q, let cfg := ex_cfg (A:=R) false false (9/10)%R (1/100)%R in
  reachable pl e /\ In a (e_agents e) /\ mc_interactive cfg = false /\ mcts_fit score cfg e a (Some [[2]; [1]]%Z) (fun _ _ => 0) (passes 2 [[2]; [1]]%Z) = Ok (v, q) /\
  stands_on (e_mdp e) (at_pos a) 0 /\ exists t, travels (e_mdp e) 0 [0] t.
Proof.
  intros pl score. destruct (C71_example pl) as (e & a & RE & [Ha EN] & CR & SR & _ & b & AL & PA & PB & CA & FA & NS & NF & CD & _).
  destruct SR as (S1 & S2 & S3 & S4). set (cfg := ex_cfg (A:=R) false false (9/10)%R (1/100)%R).
  assert (SR : searchable cfg e a [[2]; [1]]%Z). { split; [|split; [cbn; lia|split; [discriminate|discriminate]]]. intros x [Hx [Ex|Ex]]; [|discriminate Ex]. apply S1. split; [exact Hx|now left]. }
  destruct (C71_search_completes pl e a score cfg _ RE Ha CR SR (passes 2 [[2]; [1]]%Z) (fun _ _ => 0)) as (v & q & MF & _); [rewrite AL; cbn [length]; lia|].
  exists e, a, v, q. cbv zeta. split; [exact RE|]. split; [exact Ha|]. split; [reflexivity|]. split; [exact MF|]. split; [unfold stands_on; rewrite NS, PA; reflexivity|].
  destruct (reachable_wf _ _ RE) as (k & shape & st & W). pose proof (wf_grid _ _ _ _ W) as G. pose proof (gi_ns _ _ _ _ G) as NS'. assert (H0 : 0 < nst shape) by lia.
  apply (MCTSFit.can_do_edge _ _ _ _ _ _ G H0) in CD. destruct CD as (LA & t & Lt & X). destruct (grid_shape _ _ _ _ G) as (_ & NA & _). rewrite NA in LA. exists t.
  destruct (inv_edge _ _ _ _ G 0 0 t H0 LA Lt) as [[_ WE]|[E _]]; [|contradiction]. apply (MDPProofs3.travels_one _ _ _ _ G 0 0 t H0 Lt WE). constructor.
Qed.
