(** C240: tree search in rounded arithmetic. The proofs follow MCTSRun.v and MCTSFit.v, with rounded numbers. *)
From Coq Require Import String List ZArith QArith Reals Bool Lia Lra.
From Verif Require Import PyBase PyProofs GridModel GridSpec GridProofs GridProofs2 MDPModel MDPSpec MDPProofs MDPProofs2 MDPProofs3 MDPProofs4 MDPProps ActionModel ActionSpec SoftmaxModel SoftmaxProofs ActionProofs RSum ActionProps EnvModel PlanProps EnvSpec StepSpec EnvProofs EnvProofs2 EnvProofs3 EnvProofs4 EnvProofs5 EnvProps StepProps VIModel VISpec VIProofs VIProofs2 VIProps VIEnvProps QuerySpec VIWalkSpec VIWalk GoalSpec GoalProps VIFit MCTSModel MCTSSpec MCTSProofs MCTSProofs2 MCTSProofs3 MCTSProps MCTSWalk MCTSEaten MCTSCache MCTSFit MCTSRun RoundModel RoundSpec RoundProofs RoundProps RoundExample RoundWalk SoftRoundModel SoftRoundSpec SoftRound SoftRound2 SoftRoundExample MCTSRoundModel.
From Verif Require FitProps.
From Verif Require Import MCTSProps MCTSSpec MCTSRun.
Import ListNotations.
Local Close Scope Q_scope.
Local Open Scope nat_scope.

(** Given one value per action, finite or minus infinity, the selection picks an action with a finite value whenever there is one. *)
Definition picks_possible (nA : nat) (select : list (fval R) -> nat -> res nat) : Prop :=
  forall row d, length row = nA -> (forall v, In v row -> v = NInf \/ exists x, v = Fin x) -> (exists x, In (Fin x) row) ->
  exists a x, select row d = Ok a /\ a < nA /\ nth a row NaN = Fin x.
(** Opponents can be simulated: they move at random, or by a plan computed with admissible settings, in arithmetic with relative error [u]. *)
Definition can_simulate_r (ro : R -> R) (u : R) (nA : nat) (pol : opp_policy R) (max_iter : Z) (discount tol : R) : Prop :=
  match pol with
  | OppRandom => True
  | OppSolve select => picks_possible nA select /\ (0 < discount < 1)%R /\ (discount * (1 + u) ^ 2 < 1)%R /\ ro tol = tol /\ (0 < max_iter)%Z
  | OppUnsupported => False
  end.
(** The conditions under which a search for agent [a] completes: as in exact arithmetic ([searchable]), but for the last one. *)
Definition searchable_r (ro : R -> R) (u : R) (cfg : mcts_config R) (e : env R) (a : attached R) (n_moves : list (list Z)) : Prop :=
  (forall b, considered (mc_interactive cfg) e a b -> exists i act, stands_on (e_mdp e) (at_pos b) i /\ can_do (e_mdp e) i act) /\
  playable (mc_interactive cfg) (length (e_agents e)) n_moves /\
  (mc_caching cfg = true -> forall b, considered (mc_interactive cfg) e a b -> forall z z', In z (at_consumes b) -> In z' (at_consumes b) ->
     py_index (m_n_features (e_mdp e)) z = py_index (m_n_features (e_mdp e)) z') /\
  (mc_interactive cfg = true -> forall b, In b (e_agents e) -> b <> a ->
     can_simulate_r ro u (m_n_actions (e_mdp e)) (mc_policy cfg) (mc_max_iter cfg) (mc_discount cfg) (mc_tol cfg) /\ exists f, nth f (at_reward b) 0%R <> 0%R).
(** The agent named [nm] plans with tree search in rounded arithmetic; the loop runs as long as it needs to. *)
Definition runs_mcts_r (ro : R -> R) (pl : plugins R) (nm : string) (score : scorer R) (cfg : mcts_config R) : Prop :=
  pl_forgets pl nm = true /\ forall e n seed, NoDup (map at_name (e_agents e)) -> exists draws fuel, passes (length (e_agents e)) (match n with Some m => m | None => [] end) <= fuel /\
    forall a, agent_named e nm a -> pl_fit pl nm e n seed = @mcts_fit R (NumF ro) score cfg e a n draws fuel.

Section Rounded.
Variables (ro : R -> R) (uu eta : R).
Hypothesis RD : rounding ro uu eta.
#[local] Instance NF : Num R := NumF ro.

(** The largest entry, found in rounded arithmetic, is the largest: comparisons are exact. *)
Lemma argmax_same : forall l : list R, argmax l = @argmax R NumR l.
Proof.
  assert (F : forall l bi b i, argmax_from bi b i l = @argmax_from R NumR bi b i l). { induction l as [|x l IH]; intros bi b i; [reflexivity|]. cbn [argmax_from]. rewrite !IH. reflexivity. }
  intros [|x l]; [reflexivity|]. apply F.
Qed.

Lemma pref_in : forall (rf : list R) f, In f (preferences rf) <-> nth f rf 0%R <> 0%R.
Proof. exact MCTSCache.pref_in. Qed.

(** * Without interaction *)
Section Alone.
Variables (score : scorer R) (c : search R) (V N : list R) (rnd : nat -> nat).
Hypotheses (Hn : 0 < length (s_start c)) (INT : s_interactive c = false).
Definition alone (st : it_state R) : Prop :=
  it_actor st = 0 /\ nth 0 (it_turns st) 0 = 0 /\ it_total st = Z.of_nat (length (it_visited st)) /\ (it_total st <= Z.max 0 (n_steps c))%Z.
Lemma alone_start : forall k, alone (it_start c k).
Proof using Hn. intros k. unfold alone, it_start. cbn [it_actor it_turns it_total it_visited length]. rewrite nth_repeat. repeat split; lia. Qed.
Lemma alone_next : forall k st, it_next c k st = st.
Proof using INT. intros k st. unfold it_next. now rewrite INT. Qed.
Lemma alone_body : forall st r, alone st -> (it_total st < n_steps c)%Z -> it_body score c V N rnd st = Ok r -> 
  (exists st', r = inl st' /\ alone st' /\ ((0 < nth 0 (nth 0 (s_n_moves c) []) 0)%Z -> it_total st' = it_total st + 1)%Z).
Proof using Hn INT.
  intros st r (A0 & T0 & TV & TL) LT B. apply it_body_inv in B. destruct B as (row & k & E1 & E2 & B). rewrite A0, T0 in *.
  assert (K : nth 0 (nth 0 (s_n_moves c) []) 0%Z = k). { rewrite (nth_error_nth _ _ [] E1). now apply nth_error_nth. }
  destruct B as [(KP & [(s1 & M & ->)|(s1 & M & ->)])|(KP & ->)]; rewrite ?alone_next.
  - exists s1. split; [reflexivity|]. apply it_move_ok in M. destruct M as (ft & ad & ac & acts & _ & _ & _ & T1 & A1 & U1 & _ & _ & WH & _). split; [|auto].
    unfold alone. rewrite A1, U1, T1. split; [exact A0|]. split; [exact T0|]. destruct WH as [(_ & x & _ & _ & -> & _)|[(X & _)|(X & _)]]; [|congruence|congruence]. rewrite app_length. cbn. lia.
  - apply it_move_caught in M. destruct M as (ft & ad & ac & _ & OV & _). unfold overlap_of in OV. rewrite INT in OV. discriminate.
  - exists st. split; [reflexivity|]. split; [unfold alone; auto|]. lia.
Qed.
End Alone.

(** * Shapes *)
Section Features.
Variables (score : scorer R) (c : search R) (V N : list R) (rnd : nat -> nat).
Variables (nS nF : nat).
Hypotheses (LC : forall i, length (nth i (s_consumes c) []) = nF \/ length (s_consumes c) <= i)
  (LSC : length (s_consumes c) = length (s_start c)) (Hn : 0 < length (s_start c)).

Lemma shape_mark : forall st ft, shape2 nF nS (it_features st) -> mark_actor c st = Ok ft -> shape2 nF nS ft.
Proof using LC LSC Hn.
  intros st ft [L1 L2] M. destruct (mark_rows _ _ _ _ _ M) as [[M1 M2] M3]. split; [lia|]. intros f Hf. destruct (Nat.eq_dec f (nth (it_actor st) (s_feature_idx c) 0)) as [->|D]; [rewrite M3|rewrite M2 by assumption]; auto.
Qed.
Lemma shape_consume : forall (ft : list (list R)) mask p, shape2 nF nS ft -> length mask = nF -> shape2 nF nS (consume_at ft mask p).
Proof using LC LSC Hn.
  intros ft mask p [L1 L2] LM. split; [rewrite consume_at_length; lia|]. intros f Hf. rewrite consume_at_nth by lia. destruct (nth f mask false); [rewrite upd_length|]; auto.
Qed.
Definition shaped (st : it_state R) : Prop := shape2 nF nS (it_features st) /\ it_actor st < length (s_start c) /\ length (it_moves st) = length (s_start c).
Lemma shaped_start : forall k, shape2 nF nS (s_features c) -> shaped (it_start c k).
Proof using LC LSC Hn. intros k SH. unfold shaped, it_start. cbn [it_features it_actor it_moves]. split; [exact SH|]. split; [exact Hn|apply repeat_length]. Qed.
Lemma next_actor : forall k st, it_actor st < length (s_start c) -> length (it_moves st) = length (s_start c) -> it_actor (it_next c k st) < length (s_start c) /\ length (it_moves (it_next c k st)) = length (s_start c).
Proof using LC LSC Hn. intros k st H1 H2. unfold it_next. destruct (_ && _); [|auto]. cbn [it_actor it_moves]. rewrite upd_length. destruct (Nat.ltb_spec (it_actor st) (length (it_moves st) - 1)); lia. Qed.
Lemma shaped_body : forall st st', shaped st -> it_body score c V N rnd st = Ok (inl st') -> shaped st'.
Proof using LC LSC Hn.
  intros st st' (S1 & S2 & S3) B. apply it_body_inv in B. destruct B as (row & k & _ & _ & [(K & [(s1 & M & E)|(s1 & M & E)])|(K & E)]); [|discriminate|];
  assert (II : forall (x y : it_state R), @inl _ (it_state R) x = inl y -> x = y) by (intros ? ? X; now inversion X); apply II in E; subst st'; unfold shaped.
  - apply it_move_ok in M. destruct M as (ft & ad & ac & acts & MA & _ & _ & _ & A1 & _ & _ & M1 & _ & CO).
    destruct (it_next_fields c k s1) as (_ & _ & _ & _ & -> & _). assert (SF : shape2 nF nS ft) by (eapply shape_mark; eauto).
    split; [|apply next_actor; [now rewrite A1|now rewrite M1, upd_length]]. destruct CO as [(_ & -> & _)|(_ & p & _ & _ & ->)]; [exact SF|]. apply shape_consume; [exact SF|]. destruct (LC (it_actor st)); [assumption|lia].
  - destruct (it_next_fields c k st) as (_ & _ & _ & _ & -> & _). split; [exact S1|]. now apply next_actor.
Qed.

End Features.

(** * One search iteration *)
Section Run.
Variables (score : scorer R) (c : search R) (V N : list R) (rnd : nat -> nat) (nS nF : nat).
Hypotheses (M : is_mdp (s_sas c)) (SU : sure (s_sas c)) (W : well_shaped c nS nF) (ND : no_dead_ends (s_sas c))
  (FI : forall i, i < length (s_start c) -> nth i (s_feature_idx c) 0 < nF)
  (RW : forall i, i < length (s_start c) -> length (nth i (s_rewards c) []) = nF)
  (CA : s_caching c = true -> forall i, i < length (s_start c) -> length (where_ (fun b => b) (nth i (s_consumes c) [])) <= 1)
  (OP : s_interactive c = true -> (1 < length (s_start c) -> can_simulate_r ro uu (n_actions (s_sas c)) (s_policy c) (s_max_iter c) (s_discount c) (s_tol c)) /\
    forall i, 0 < i < length (s_start c) -> exists f, nth f (nth i (s_rewards c) []) 0%R <> 0%R).

(** Q values that solve the problem: known exactly for the possible actions. *)
Definition masked (q : list (list (fval R))) : Prop :=
  length q = nS /\ forall s, s < nS -> length (nth s q []) = n_actions (s_sas c) /\
    forall a, a < n_actions (s_sas c) -> (nth a (nth s q []) NaN = NInf <-> ~ possible (s_sas c) s a) /\ (possible (s_sas c) s a -> exists x, nth a (nth s q []) NaN = Fin x).
Definition sane (k : cache R) : Prop := forall a key q, In (key, Some q) (nth a k []) -> masked q.
Definition standing (z : Z) : Prop := exists s, py_index nS z = Ok s /\ lively (s_sas c) s.
Definition live (st : it_state R) : Prop :=
  shaped c nS nF st /\ length (it_nodes st) = length (s_start c) /\ (forall i, i < length (s_start c) -> standing (nth i (it_nodes st) 0%Z)) /\ sane (it_cache st).

Lemma go_possible : forall s t, s < nS -> can_go (s_sas c) s t -> t < nS /\ exists a, a < n_actions (s_sas c) /\ possible (s_sas c) s a.
Proof using RD M SU W ND FI RW CA OP.
  intros s t Hs (a & G). destruct W as (_ & LS & _). destruct M as [AP MM]. destruct (MM (nth s (s_sas c) [])) as [LM MR]; [apply nth_In; lia|].
  assert (La : a < n_actions (s_sas c)). { destruct (Nat.lt_ge_cases a (n_actions (s_sas c))) as [|L]; [assumption|]. elim G. unfold get3. rewrite (nth_overflow (nth s (s_sas c) [])) by lia. now destruct t. }
  destruct (MR (nth a (nth s (s_sas c) []) [])) as (LR & NR & _); [apply nth_In; lia|].
  assert (Lt : t < nS). { destruct (Nat.lt_ge_cases t nS) as [|L]; [assumption|]. elim G. unfold get3. apply nth_overflow. unfold n_states in LR. lia. }
  split; [exact Lt|]. exists a. split; [exact La|]. exists t. split; [unfold n_states; lia|]. unfold prob. assert (X : (0 <= nth t (nth a (nth s (s_sas c) []) []) 0)%R) by (apply NR, nth_In; unfold n_states in LR; lia).
  unfold get3 in G. lra.
Qed.
Lemma go_standing : forall s t, s < nS -> can_go (s_sas c) s t -> standing (Z.of_nat t).
Proof using RD M SU W ND FI RW CA OP. intros s t Hs G. exists t. split; [apply py_index_nat; eapply go_possible; eauto|]. eapply ND; eauto. Qed.
Lemma moves_there : forall z acts, standing z -> get_actions_states (s_sas c) z = Ok acts ->
  map snd acts <> [] /\ forall t, In t (map snd acts) -> standing (Z.of_nat t).
Proof using RD M SU W ND FI RW CA OP.
  intros z acts (s & P & (t & a & G)) GA. destruct (get_actions_states_spec _ _ _ GA) as (s' & P' & H). destruct W as (_ & LS & _). rewrite LS in P'. assert (s' = s) by congruence. subst s'.
  assert (Hs : s < nS) by (eapply py_index_ok; eauto). split.
  - intros X. apply map_eq_nil in X. subst acts. apply H in G. destruct G.
  - intros u Hu. apply in_map_iff in Hu. destruct Hu as ([b u'] & E & I). cbn in E. subst u'. apply H in I. eapply go_standing; [exact Hs|]. exists b. exact I.
Qed.

Lemma next_node_goes : forall ex states node d, states <> [] -> exists x ex', mcts_next_node score ex V N states (s_C c) node d = Ok (x, ex').
Proof using RD M SU W ND FI RW CA OP.
  intros ex states node d NE. unfold mcts_next_node. destruct (ex && negb _) eqn:E.
  - destruct (pick_ok (filter (fun s => neqb (nth s N n0) n0) states) d) as (x & -> & _).
    { intros X. rewrite X in E. rewrite andb_false_r in E. discriminate. }
    cbn [bind]. eauto.
  - destruct ex.
    + unfold fargmax. destruct (where_ isnan _) as [|i r] eqn:EW; cbn [bind]; [|eauto]. destruct states as [|s r]; [congruence|]. cbn [map fmax_list bind]. eauto.
    + destruct (pick_ok states d NE) as (x & -> & _). cbn [bind]. eauto.
Qed.

Lemma solve_masked : forall rf ft, length rf = length ft -> (0 < s_discount c < 1)%R -> (s_discount c * (1 + uu) ^ 2 < 1)%R -> ro (s_tol c) = s_tol c -> (0 < s_max_iter c)%Z ->
  exists v q, solve_value_iteration hard_backup rf ft (s_max_iter c) (s_discount c) (s_sas c) (s_tol c) = Ok (v, q) /\ masked q.
Proof using RD M SU W ND FI RW CA OP.
  intros rf ft L G GU RT K. destruct W as (_ & LS & _).
  destruct (bounded (n_states (s_sas c)) (weight_of rf ft) (fun _ => 0%R)) as (w & W0 & NW).
  destruct (C29_unique_solution (s_sas c) (reward_of rf ft) (s_discount c) M ltac:(lra)) as (Vs & O & _).
  destruct (bounded (n_states (s_sas c)) (fun _ => 0%R) Vs) as (C & C0 & NC).
  destruct (C206_solver ro uu eta RD (s_sas c) rf ft (Z.to_nat (s_max_iter c) - 1) (s_discount c) (s_tol c) w Vs C M SU G GU L RT W0) as (v & q & E & L1 & L2 & L3 & MQ & _); auto.
  { intros t Ht. specialize (NW t Ht). rewrite Rminus_0_r in NW. eapply Rle_trans; [apply Rle_abs|exact NW]. }
  replace (Z.of_nat (S (Z.to_nat (s_max_iter c) - 1))) with (s_max_iter c) in E by lia. exists v, q. split; [exact E|]. split; [unfold n_states in L2; lia|]. intros s Hs. rewrite <- LS in Hs. split; [now apply L3|].
  intros a Ha. destruct (MQ s a Hs Ha) as [Q1 Q2]. split; [|exact Q1]. split; [|exact Q2]. intros X P. destruct (Q1 P) as (x & EX). congruence.
Qed.

Lemma opp_goes : forall states node rf ft q d, standing node -> states <> [] -> (forall t, In t states -> standing (Z.of_nat t)) -> length rf = length ft ->
  can_simulate_r ro uu (n_actions (s_sas c)) (s_policy c) (s_max_iter c) (s_discount c) (s_tol c) -> (forall qv, q = Some qv -> masked qv) ->
  exists x q', opp_next_state (s_policy c) states node rf ft (s_sas c) (s_max_iter c) (s_discount c) (s_tol c) q d = Ok (x, q') /\ standing (Z.of_nat x) /\ (forall qv, q' = Some qv -> masked qv).
Proof using RD M SU W ND FI RW CA OP.
  intros states node rf ft q d ST NE ALL L CS SQ. pose proof solve_masked as SMK. pose proof go_possible as GPS. pose proof go_standing as GST. unfold opp_next_state. destruct (s_policy c) as [|sel|]; cbn [can_simulate_r] in CS; [| |contradiction].
  - destruct (pick_ok states d NE) as (x & -> & I). cbn [bind]. exists x, q. auto.
  - destruct CS as (PK & G & GU & RT & K).
    assert (QV : exists qv, match q with Some qv => Ok qv | None => let* (_, qv) := solve_value_iteration hard_backup rf ft (s_max_iter c) (s_discount c) (s_sas c) (s_tol c) in Ok qv end = Ok qv /\ masked qv).
    { destruct q as [qv|]; [exists qv; auto|]. destruct (SMK rf ft L G GU RT K) as (v & qv & E & MQ). exists qv. rewrite E. auto. }
    destruct QV as (qv & -> & MQ). cbn [bind]. destruct ST as (s & PS & (t0 & G0)). pose proof W as (_ & LS & _). rewrite LS, PS. cbn [bind].
    assert (Hs : s < nS) by (eapply py_index_ok; eauto). destruct (GPS s t0 Hs G0) as (_ & a0 & La0 & P0). destruct MQ as [LQ MQ]. destruct (MQ s Hs) as [LR HA].
    destruct (PK (nth s qv []) d) as (a & x & -> & La & EX); [exact LR| | |].
    { intros v Hv. apply (In_nth _ _ NaN) in Hv. destruct Hv as (b & Lb & <-). destruct (HA b ltac:(lia)) as [H1 H2]. destruct (possible_dec (s_sas c) s b) as [P|P]; [right; auto|left; now apply H1]. }
    { destruct (proj2 (HA a0 La0) P0) as (x & Ex). exists x. rewrite <- Ex. apply nth_In. lia. }
    cbn [bind]. assert (PA : possible (s_sas c) s a). { destruct (possible_dec (s_sas c) s a) as [P|P]; [exact P|]. apply (proj1 (HA a ltac:(lia))) in P. congruence. }
    destruct PA as (u & Hu & PU). unfold prob in PU. set (row := nth a (nth s (s_sas c) []) []) in *. rewrite argmax_same. destruct (argmax_spec row) as (AL & AM & _). { intros X. rewrite X in PU. destruct u; cbn in PU; lra. }
    assert (PM : (0 < nth (@argmax R NumR row) row 0)%R). { eapply Rlt_le_trans; [exact PU|]. apply AM. apply nth_In. destruct (Nat.lt_ge_cases u (length row)) as [|X]; [assumption|]. rewrite nth_overflow in PU by exact X. lra. }
    assert (EXB : existsb (fun row0 => nltb n0 (nth (@argmax R NumR row) row0 n0)) (nth s (s_sas c) []) = true).
    { apply existsb_exists. exists row. split; [apply nth_In; destruct M as [_ MM]; destruct (MM (nth s (s_sas c) [])) as [-> _]; [apply nth_In; lia|lia]|]. cbn. unfold Rltb. destruct (Rlt_dec 0 (nth (@argmax R NumR row) row 0%R)) as [|XX]; [reflexivity|exact (False_ind _ (XX PM))]. }
    rewrite EXB. exists (@argmax R NumR row), (Some qv). split; [reflexivity|]. split; [eapply GST; [exact Hs|]; exists a; unfold get3; fold row; lra|]. intros q' E. inversion E. subst. split; assumption.
Qed.

Lemma move_goes : forall st, live st -> exists r, it_move score c V N rnd st = Ok r.
Proof using RD M SU W ND FI RW CA OP.
  intros st (SH & LN & SN & SC). pose proof SH as ((S1 & S2) & HA & LM). pose proof W as (_ & LS & LC & LCI & _). set (a := it_actor st) in *. destruct (SN a HA) as (s & PS & LV). unfold it_move. fold a.
  assert (MK : exists ft, mark_actor c st = Ok ft). { unfold mark_actor. fold a. rewrite map_length, (S2 _ (FI a HA)), PS. cbn [bind]. eauto. }
  destruct MK as (ft & MK). rewrite MK. cbn [bind]. assert (SF : shape2 nF nS ft). { eapply shape_mark; [| | |split; [exact S1|exact S2]|exact MK]; [|exact LC|apply W]. intros i. destruct (Nat.lt_ge_cases i (length (s_start c))); [left; auto|right; lia]. }
  fold (overlap_of c st). destruct (overlap_of c st) as [[added active] caught] eqn:OV. destruct caught; [eauto|].
  assert (GA : exists acts, get_actions_states (s_sas c) (nth a (it_nodes st) 0%Z) = Ok acts). { unfold get_actions_states. rewrite LS, PS. cbn [bind]. eauto. }
  destruct GA as (acts & GA). rewrite GA. cbn [bind]. destruct (moves_there _ _ (SN a HA) GA) as [NE ALL].
  match goal with |- exists r, bind ?X _ = Ok r => assert (ST : exists y, X = Ok y /\ exists p, py_index nS (nth a (snd (fst (fst y))) 0%Z) = Ok p) end.
  { destruct (Nat.eqb_spec a 0) as [E|E].
    - destruct (next_node_goes (it_expand st) (map snd acts) (nth 0 (it_nodes st) 0%Z) (rnd (Z.to_nat (it_total st))) NE) as (x & ex & EN). rewrite EN. cbn [bind]. eexists. split; [reflexivity|]. cbn [fst snd].
      destruct (ALL x) as (p & P & _); [exact (next_node_in _ _ _ _ _ _ _ _ _ _ EN)|]. exists p. rewrite E, nth_upd_same by lia. exact P.
    - destruct (s_interactive c && nth a active false) eqn:EI; [|eexists; split; [reflexivity|]; cbn [fst snd]; eauto]. apply andb_true_iff in EI. destruct EI as [EI _]. destruct (OP EI) as [CS PR].
      unfold opponent_move. fold a. assert (NP : preferences (nth a (s_rewards c) []) <> []). { destruct (PR a ltac:(lia)) as (f & Hf). intros X. apply pref_in in Hf. rewrite X in Hf. destruct Hf. }
      destruct (preferences (nth a (s_rewards c) [])) as [|p0 pr]; [congruence|]. set (key := (others_nodes (it_nodes st) a, _)).
      assert (LRW : length (nth a (s_rewards c) []) = length ft) by (destruct SF; rewrite RW; auto).
      assert (GO : forall q, (forall qv, q = Some qv -> masked qv) -> exists x q', opp_next_state (s_policy c) (map snd acts) (nth a (it_nodes st) 0%Z) (nth a (s_rewards c) []) ft (s_sas c) (s_max_iter c) (s_discount c) (s_tol c) q (rnd (Z.to_nat (it_total st))) = Ok (x, q') /\ standing (Z.of_nat x)).
      { intros q Hq. destruct (opp_goes (map snd acts) (nth a (it_nodes st) 0%Z) (nth a (s_rewards c) []) ft q (rnd (Z.to_nat (it_total st))) (SN a HA) NE ALL LRW (CS ltac:(lia)) Hq) as (x & q' & EO & SX & _). eauto. }
      destruct (if s_caching c then cache_find (it_cache st) a key else None) as [q|] eqn:CF.
      + destruct (GO q) as (x & q' & -> & (p & P & _)).
        { intros qv ->. destruct (s_caching c); [|discriminate]. unfold cache_find in CF. destruct (find _ _) as [[k' q']|] eqn:EF; [|discriminate]. apply find_some in EF. destruct EF as [EF _]. inversion CF. cbn in H0. subst q'. eapply SC. exact EF. }
        cbn [bind]. eexists. split; [reflexivity|]. cbn [fst snd]. exists p. rewrite nth_upd_same by lia. exact P.
      + destruct (GO None) as (x & q' & -> & (p & P & _)); [discriminate|]. cbn [bind]. eexists. split; [reflexivity|]. cbn [fst snd]. exists p. rewrite nth_upd_same by lia. exact P. }
  destruct ST as ([[[[[ex rw] vs] nodes] k] ot] & -> & p & P). cbn [fst snd] in P. cbn [bind]. destruct (nth a active false); cbn [bind]; [|eauto]. rewrite LS, P. cbn [bind]. unfold record_consumed.
  destruct (s_caching c) eqn:EC; cbn [bind]; [|eauto]. specialize (CA eq_refl a HA). destruct (where_ (fun b => b) (nth a (s_consumes c) [])) as [|f [|g r]]; cbn [bind]; [eauto| |cbn in CA; lia]. destruct (neqb _ _); cbn [bind]; eauto.
Qed.

Lemma live_start : forall k, sane k -> (forall i, i < length (s_start c) -> standing (nth i (s_start c) 0%Z)) -> live (it_start c k).
Proof using RD M SU W ND FI RW CA OP.
  intros k SK ST. pose proof W as (SF & LS & LC & LCI & HN). split; [|split; [reflexivity|split; [exact ST|exact SK]]]. apply shaped_start; [|exact LC|exact HN|exact SF].
  intros i. destruct (Nat.lt_ge_cases i (length (s_start c))); [left; auto|right; lia].
Qed.

Lemma live_move : forall st st', live st -> it_move score c V N rnd st = Ok (inl st') -> length (it_nodes st') = length (s_start c) /\ (forall i, i < length (s_start c) -> standing (nth i (it_nodes st') 0%Z)) /\ sane (it_cache st').
Proof using RD M SU W ND FI RW CA OP.
  intros st st' (SH & LN & SN & SC) H. pose proof SH as ((S1 & S2) & HA & LM). pose proof W as (_ & LS & LC & LCI & _). apply it_move_ok in H. destruct H as (ft & added & active & acts & MK & OV & GA & _ & _ & _ & _ & _ & WH & _).
  destruct (moves_there _ _ (SN _ HA) GA) as [NE ALL]. destruct WH as [(A0 & x & NN & _ & _ & EN & EC & _)|[(A0 & EI & AC & x & OM & _ & _ & _ & EN & _)|(_ & _ & _ & _ & _ & EN & EC & _)]]; rewrite EN, ?EC.
  - split; [now rewrite upd_length|]. split; [|exact SC]. intros i Hi. destruct (Nat.eq_dec i 0) as [->|D]; [|rewrite nth_upd_other by congruence; auto]. rewrite nth_upd_same by lia. apply ALL. exact (next_node_in _ _ _ _ _ _ _ _ _ _ NN).
  - set (a := it_actor st) in *. assert (SF : shape2 nF nS ft). { eapply shape_mark; [| | |split; [exact S1|exact S2]|exact MK]; [|exact LC|apply W]. intros i. destruct (Nat.lt_ge_cases i (length (s_start c))); [left; auto|right; lia]. }
    destruct (OP EI) as [CS _]. assert (LRW : length (nth a (s_rewards c) []) = length ft) by (destruct SF; rewrite RW; auto).
    unfold opponent_move in OM. fold a in OM. destruct (preferences (nth a (s_rewards c) [])) as [|p0 pr]; [discriminate|]. set (key := (others_nodes (it_nodes st) a, _)) in OM.
    assert (GO : forall q, (forall qv, q = Some qv -> masked qv) -> exists x q', opp_next_state (s_policy c) (map snd acts) (nth a (it_nodes st) 0%Z) (nth a (s_rewards c) []) ft (s_sas c) (s_max_iter c) (s_discount c) (s_tol c) q (rnd (Z.to_nat (it_total st))) = Ok (x, q') /\ standing (Z.of_nat x) /\ (forall qv, q' = Some qv -> masked qv)).
    { intros q Hq. apply opp_goes; auto. apply CS. lia. }
    assert (X : standing (Z.of_nat x) /\ sane (it_cache st')).
    { destruct (if s_caching c then cache_find (it_cache st) a key else None) as [q|] eqn:CF.
      - destruct (GO q) as (y & q' & EO & SY & _).
        { intros qv ->. destruct (s_caching c); [|discriminate]. unfold cache_find in CF. destruct (find _ _) as [[k' q']|] eqn:EF; [|discriminate]. apply find_some in EF. destruct EF as [EF _]. inversion CF. cbn in H0. subst q'. eapply SC. exact EF. }
        rewrite EO in OM. cbn [bind] in OM. inversion OM. subst. auto.
      - destruct (GO None) as (y & q' & EO & SY & MQ); [discriminate|]. rewrite EO in OM. cbn [bind] in OM. inversion OM. subst y. split; [exact SY|]. destruct (s_caching c); [|exact SC].
        intros b key' qv I. unfold cache_put in I. destruct (Nat.eq_dec a b) as [->|D]; [|rewrite nth_upd_other in I by congruence; eapply SC; exact I].
        destruct (Nat.lt_ge_cases b (length (it_cache st))) as [Lb|Lb].
        + rewrite nth_upd_same in I by exact Lb. destruct I as [I|I]; [inversion I; subst; auto|]. eapply SC. exact I.
        + rewrite nth_overflow in I by (rewrite upd_length; exact Lb). destruct I. }
    destruct X as [X1 X2]. split; [now rewrite upd_length|]. split; [|exact X2]. intros i Hi. destruct (Nat.eq_dec i a) as [->|D]; [|rewrite nth_upd_other by congruence; auto]. rewrite nth_upd_same by lia. exact X1.
  - auto.
Qed.

Lemma live_body : forall st st', live st -> it_body score c V N rnd st = Ok (inl st') -> live st'.
Proof using RD M SU W ND FI RW CA OP.
  intros st st' L B. assert (SH' : shaped c nS nF st'). { destruct L as (SH & _). pose proof W as (_ & _ & LC & LCI & HN). eapply shaped_body; [| | |exact SH|exact B]; [|exact LC|exact HN]. intros i. destruct (Nat.lt_ge_cases i (length (s_start c))); [left; auto|right; lia]. }
  split; [exact SH'|]. apply it_body_inv in B. destruct B as (row & k & _ & _ & [(K & [(s1 & MV & E)|(s1 & MV & E)])|(K & E)]); [|discriminate|];
  assert (II : forall (x y : it_state R), @inl _ (it_state R) x = inl y -> x = y) by (intros ? ? X; now inversion X); apply II in E; subst st'.
  - destruct (live_move _ _ L MV) as (H1 & H2 & H3). unfold it_next. destruct (_ && _); cbn [it_nodes it_cache]; auto.
  - destruct L as (_ & H1 & H2 & H3). unfold it_next. destruct (_ && _); cbn [it_nodes it_cache]; auto.
Qed.

Lemma it_loop_goes : forall (P : it_state R -> Prop) (mu : it_state R -> nat),
  (forall st, P st -> (it_total st < n_steps c)%Z -> exists r, it_body score c V N rnd st = Ok r) ->
  (forall st st', P st -> (it_total st < n_steps c)%Z -> it_body score c V N rnd st = Ok (inl st') -> P st' /\ mu st' < mu st) ->
  forall fuel st, P st -> mu st < fuel -> exists st' b, it_loop score c V N rnd fuel st = Ok (st', b).
Proof using RD M SU W ND FI RW CA OP.
  intros P mu H1 H2. induction fuel as [|fuel IH]; intros st HP L; [lia|]. cbn [it_loop]. destruct (Z.ltb_spec (it_total st) (n_steps c)) as [L1|L1]; [|eauto].
  destruct (H1 st HP L1) as ([r|r] & B); rewrite B; cbn [bind]; [|eauto]. destruct (H2 st r HP L1 B). apply IH; [assumption|lia].
Qed.
End Run.

(** Everything a search needs: a well-formed problem without dead ends, agents that can move, feature
    indices and reward functions that fit, with caching at most one consumed feature per agent, and
    opponents that can be simulated and care about something. *)
Definition ready (c : search R) (nS nF : nat) : Prop :=
  is_mdp (s_sas c) /\ sure (s_sas c) /\ well_shaped c nS nF /\ no_dead_ends (s_sas c) /\
  (forall i, i < length (s_start c) -> nth i (s_feature_idx c) 0 < nF) /\
  (forall i, i < length (s_start c) -> length (nth i (s_rewards c) []) = nF) /\
  (s_caching c = true -> forall i, i < length (s_start c) -> length (where_ (fun b => b) (nth i (s_consumes c) [])) <= 1) /\
  (s_interactive c = true -> (1 < length (s_start c) -> can_simulate_r ro uu (n_actions (s_sas c)) (s_policy c) (s_max_iter c) (s_discount c) (s_tol c)) /\
    forall i, 0 < i < length (s_start c) -> exists f, nth f (nth i (s_rewards c) []) 0%R <> 0%R) /\
  (forall i, i < length (s_start c) -> exists s, py_index nS (nth i (s_start c) 0%Z) = Ok s /\ lively (s_sas c) s).
Lemma iteration_completes : forall score c (V N : list R) rnd nS nF k, ready c nS nF -> playable (s_interactive c) (length (s_start c)) (s_n_moves c) -> sane c nS k ->
  forall fuel, passes (length (s_start c)) (s_n_moves c) <= fuel ->
  exists reward visited k' o, mcts_iteration score c V N k rnd fuel = Ok (reward, visited, k', o) /\ sane c nS k'.
Proof.
  intros score c V N rnd nS nF k (M & SU & W & ND & FI & RW & CA & OP & ST) PL SK fuel HF. pose proof W as (_ & _ & _ & _ & HN).
  assert (LS : live c nS nF (it_start c k)) by (apply live_start; auto).
  pose proof (live_body score c V N rnd nS nF M SU W ND FI RW CA OP) as LB. pose proof (move_goes score c V N rnd nS nF M SU W ND FI RW CA OP) as MG. pose proof (it_loop_goes score c V N rnd nS nF M SU W ND FI RW CA OP) as LG.
  assert (GO : exists st b, it_loop score c V N rnd fuel (it_start c k) = Ok (st, b)).
  { unfold playable in PL. destruct (s_interactive c) eqn:EI.
    - destruct PL as (Lm & (T & LT) & NN). assert (ET : T = length (nth 0 (s_n_moves c) [])) by (symmetry; apply LT, nth_In; lia).
      apply (LG (fun st => live c nS nF st /\ follows c T st) (left_over c T)).
      + intros st [L F] LE. unfold it_body. pose proof F as (_ & _ & _ & t & SC). pose proof (sched_open _ _ _ HN Lm LT NN _ _ _ _ _ _ SC LE) as OT.
        assert (HA : it_actor st < length (s_start c)) by (destruct L as ((_ & HA & _) & _); exact HA). rewrite (nth_error_nth' (s_n_moves c) []) by lia.
        assert (TU : nth (it_actor st) (it_turns st) 0 = t) by (pose proof (sc_tu _ _ _ _ _ _ _ _ _ SC (it_actor st) HA) as X; cbn beta in X; now rewrite Nat.ltb_irrefl in X). rewrite TU. rewrite (nth_error_nth' _ 0%Z) by (rewrite LT by (apply nth_In; lia); lia).
        destruct (0 <? _)%Z; [|cbn [bind]; eauto]. destruct (MG st L) as ([r|r] & ->); cbn [bind]; eauto.
      + intros st st' [L F] LE B. destruct (follows_body score c V N rnd T HN Lm LT NN EI st st' F LE B) as [F' DE]. split; [split; [eapply LB; eauto|exact F']|exact DE].
      + split; [exact LS|]. now apply follows_start.
      + unfold left_over. rewrite (room_start c T HN Lm). cbn [it_start it_total]. unfold passes in HF. unfold n_steps. rewrite Z.sub_0_r. lia.
    - apply (LG (fun st => live c nS nF st /\ alone c st) (fun st => Z.to_nat (n_steps c - it_total st))).
      + intros st [L (A0 & T0 & _)] LE. unfold it_body. rewrite A0, T0.
        destruct (s_n_moves c) as [|row m] eqn:EM; [cbn in PL; lia|]. cbn [nth] in PL. destruct row as [|z row]; [cbn in PL; lia|]. cbn [nth_error nth] in *. destruct (Z.ltb_spec 0 z); [|lia]. destruct (MG st L) as ([r|r] & ->); cbn [bind]; eauto.
      + intros st st' [L AL] LE B. destruct (alone_body score c V N rnd HN EI st _ AL LE B) as (s1 & E & A' & T'). inversion E. subst s1. split; [split; [eapply LB; eauto|exact A']|]. specialize (T' PL). lia.
      + split; [exact LS|]. now apply alone_start.
      + cbn [it_start it_total]. rewrite Z.sub_0_r. unfold passes in HF. unfold n_steps. lia. }
  destruct GO as (st & b & E). unfold mcts_iteration. rewrite E. cbn [bind]. do 4 eexists. split; [reflexivity|]. revert E.
  apply (it_loop_inv score c V N rnd (live c nS nF) (fun st _ => sane c nS (it_cache st))).
  - intros s s' L _ B. eapply LB; eauto.
  - intros s s' L _ B. apply it_body_inv in B. destruct B as (row & z & _ & _ & [(K & [(s1 & MV & E)|(s1 & MV & E)])|(K & E)]); try discriminate. assert (s' = s1) by (now inversion E). subst s1. apply it_move_caught in MV. destruct MV as (ft & ad & ac & _ & _ & ->). apply L.
  - intros s L _. apply L.
  - exact LS.
Qed.

Lemma search_completes : forall score c rnd nS nF, ready c nS nF -> playable (s_interactive c) (length (s_start c)) (s_n_moves c) ->
  forall fuel, passes (length (s_start c)) (s_n_moves c) <= fuel ->
  forall todo i V N k states, sane c nS k -> exists r, search_loop score c rnd fuel i todo V N k states = Ok r.
Proof.
  intros score c rnd nS nF RY PL fuel HF. induction todo as [|todo IH]; intros i V N k states SK; cbn [search_loop]; [eauto|].
  destruct (iteration_completes score c V N (rnd i) nS nF k RY PL SK fuel HF) as (rw & vs & k' & o & -> & SK'). cbn [bind]. destruct (backprop (V, N) rw vs) as [V' N']. apply IH. exact SK'.
Qed.

Lemma search_length : forall score c rnd fuel todo i V N k states V' N' k' states', search_loop score c rnd fuel i todo V N k states = Ok (V', N', k', states') -> length V' = length V.
Proof.
  intros score c rnd fuel. induction todo as [|todo IH]; intros i V N k states V' N' k' states' H; cbn [search_loop] in H; [now inversion H|].
  apply bind_ok in H. destruct H as ([[[rw vs] k1] o] & _ & H). destruct (backprop (V, N) rw vs) as [V1 N1] eqn:B. rewrite (IH _ _ _ _ _ _ _ _ _ H). clear - B. unfold backprop in B. revert V N B. induction vs as [|v vs IH]; intros V N B; cbn [fold_left] in B; [now inversion B|].
  rewrite (IH _ _ B). apply upd_length.
Qed.

(** A search for an agent of an environment ends and gives values, whatever the random draws and
    whatever score is used to choose among nodes. *)
Theorem C240_search : forall pl e a score cfg n_moves, reachable pl e -> In a (e_agents e) -> consumes_in_range e -> searchable_r ro uu cfg e a n_moves ->
  forall fuel rnd, passes (length (e_agents e)) n_moves <= fuel -> exists v q, @mcts_fit R (NumF ro) score cfg e a (Some n_moves) rnd fuel = Ok (v, q) /\ length v = m_n_states (e_mdp e).
Proof.
  intros pl e a score cfg nm RE Ha CR (SB1 & SB2 & SB3 & SB4). destruct (reachable_wf _ _ RE) as (k & shape & st & W). pose proof (wf_grid _ _ _ _ W) as G. pose proof (gi_ns _ _ _ _ G) as NS. destruct (grid_shape _ _ _ _ G) as (_ & NA1 & SH). pose proof SH as [SL _]. assert (NA0 : n_actions (m_sas (e_mdp e)) = m_n_actions (e_mdp e)) by (rewrite (gi_na _ _ _ _ G); exact NA1).
  set (l := all_info (mc_interactive cfg) e a). set (nF := m_n_features (e_mdp e)).
  set (others := if mc_interactive cfg then filter (fun b => negb (String.eqb (at_name b) (at_name a))) (e_agents e) else []).
  assert (EL : l = map agent_info (a :: others)). { unfold l, all_info, others. cbn [map]. f_equal. destruct (mc_interactive cfg); reflexivity. }
  assert (CO : forall b, In b (a :: others) -> considered (mc_interactive cfg) e a b /\ agent_ok (e_mdp e) b).
  { intros b [<-|Hb]; [split; [split; auto|now apply (wf_agents _ _ _ _ W)]|]. unfold others in Hb. destruct (mc_interactive cfg) eqn:EI; [|destruct Hb]. apply filter_In in Hb. destruct Hb as [Hb _]. split; [split; auto|now apply (wf_agents _ _ _ _ W)]. }
  assert (OT : forall b, In b others -> b <> a /\ mc_interactive cfg = true /\ In b (e_agents e)).
  { intros b Hb. unfold others in Hb. destruct (mc_interactive cfg); [|destruct Hb]. apply filter_In in Hb. destruct Hb as [Hb E]. split; [|auto]. intros ->. now rewrite String.eqb_refl in E. }
  assert (LL : mc_interactive cfg = true -> length l = length (e_agents e)). { intros EI. rewrite EL, map_length. cbn [length]. unfold others. rewrite EI. apply others_count; [apply (wf_names _ _ _ _ W)|exact Ha]. }
  assert (NTH : forall i, i < length l -> exists b, In b (a :: others) /\ nth i l no_info = agent_info b /\ (0 < i -> In b others)).
  { intros i Hi. rewrite EL in *. rewrite map_length in Hi. exists (nth i (a :: others) a). split; [now apply nth_In|]. split; [now apply nth_map_lt|]. destruct i; [lia|]. intros _. cbn [nth]. apply nth_In. cbn in Hi. lia. }
  assert (RWL : forall i, In i l -> length (i_reward i) = nF). { intros i Hi. rewrite EL in Hi. apply in_map_iff in Hi. destruct Hi as (b & <- & Hb). apply CO in Hb. cbn. apply Hb. }
  destruct (C44_accepted (mc_interactive cfg) (m_features (e_mdp e)) (m_sas (e_mdp e)) l nm (mc_C cfg) (mc_cost cfg) (mc_policy cfg) (mc_caching cfg) (mc_max_iter cfg) (mc_discount cfg) (mc_tol cfg)) as (c & MS).
  { intros i z Hi Hz. rewrite (RWL i Hi). rewrite EL in Hi. apply in_map_iff in Hi. destruct Hi as (b & <- & Hb). apply CO in Hb. cbn in Hz. destruct Hb as [[Hb _] _]. apply (CR b Hb z Hz). }
  { intros i Hi. rewrite (RWL i Hi). symmetry. apply RWL. apply nth_In. rewrite EL. cbn. lia. }
  assert (FIE : forall b, agent_ok (e_mdp e) b -> at_feature_idx b < nF). { intros b (B1 & B2 & _). unfold nF. pose proof (wf_nf _ _ _ _ W). lia. }
  (* the fields of the search *)
  assert (FLD : s_interactive c = mc_interactive cfg /\ s_sas c = m_sas (e_mdp e) /\ s_features c = m_features (e_mdp e) /\ s_start c = map i_pos l /\ s_n_moves c = nm /\ s_rewards c = map i_reward l /\ s_feature_idx c = map i_feature l /\
    s_policy c = mc_policy cfg /\ s_caching c = mc_caching cfg /\ s_max_iter c = mc_max_iter cfg /\ s_discount c = mc_discount cfg /\ length (s_consumes c) = length l /\ s_tol c = mc_tol cfg /\
    (forall i, i < length l -> length (nth i (s_consumes c) []) = nF /\ forall f, nth f (nth i (s_consumes c) []) false = true -> exists z, In z (i_consumes (nth i l no_info)) /\ py_index nF z = Ok f)).
  { clear - MS RWL. unfold make_search in MS. destruct (negb _); [discriminate|]. apply bind_ok in MS. destruct MS as (masks & MM & MS). assert (OI : forall (x y : search R), Ok x = Ok y -> x = y) by (intros ? ? X; now inversion X). apply OI in MS. subst c.
    cbn [s_interactive s_sas s_features s_start s_n_moves s_rewards s_feature_idx s_policy s_caching s_max_iter s_discount s_consumes s_tol]. destruct (mapM_nth _ _ _ _ _ MM) as [LM SM]. repeat (split; [reflexivity|]). split; [exact LM|]. split; [reflexivity|]. intros i Hi.
    destruct (mask_spec _ _ (SM i no_info [] Hi)) as [L S]. rewrite (RWL (nth i l no_info)) in * by (now apply nth_In). split; [exact L|]. intros f Hf. apply S in Hf. apply Hf. }
  destruct FLD as (F1 & F2 & F3 & F4 & F5 & F6 & F7 & F8 & F9 & F10 & F11 & F12 & F14 & F13).
  assert (LST : length (s_start c) = length l) by (rewrite F4; apply map_length).
  assert (RY : ready c (nst shape) nF).
  { unfold ready, well_shaped. rewrite F1, F2, F3, F8, F9, F10, F11, F12, F14, LST, NA0. destruct (C206_grids pl (e_mdp e) (usable_again _ _ RE)) as [MM SU]. split; [exact MM|]. split; [exact SU|]. split; [|split; [eapply C71_grids_have_no_dead_ends; exact RE|]].
    { split; [pose proof (wf_table _ _ _ _ W) as TB; apply table_shape in TB; rewrite NS in TB; exact TB|]. split; [exact SL|]. split; [reflexivity|]. split; [intros i Hi; now apply F13|]. rewrite EL. cbn. lia. }
    split. { intros i Hi. rewrite F7, (nth_map_lt _ _ _ _ _ _ no_info) by exact Hi. destruct (NTH i Hi) as (b & Hb & -> & _). cbn. apply FIE. now apply CO. }
    split. { intros i Hi. rewrite F6, (nth_map_lt _ _ _ _ _ _ no_info) by exact Hi. apply RWL. now apply nth_In. }
    split. { intros EC i Hi. apply count_true. intros f g Hf Hg. destruct (F13 i Hi) as [_ LF]. destruct (LF f Hf) as (z & Hz & Pz). destruct (LF g Hg) as (z' & Hz' & Pz'). destruct (NTH i Hi) as (b & Hb & Eb & _). rewrite Eb in *. cbn in Hz, Hz'.
      pose proof (SB3 EC b (proj1 (CO b Hb)) z z' Hz Hz') as X. fold nF in X. congruence. }
    split. { intros EI. split.
      - intros Hl. destruct (NTH 1 Hl) as (b & _ & _ & Hb). destruct (OT b (Hb ltac:(lia))) as (D & _ & Ib). now apply (SB4 EI b Ib D).
      - intros i Hi. destruct (NTH i ltac:(lia)) as (b & _ & Eb & Hb). destruct (OT b (Hb ltac:(lia))) as (D & _ & Ib). destruct (SB4 EI b Ib D) as (_ & f & Hf). exists f. rewrite F6, (nth_map_lt _ _ _ _ _ _ no_info) by lia. rewrite Eb. exact Hf. }
    intros i Hi. rewrite F4, (nth_map_lt _ _ _ _ _ _ no_info) by exact Hi. destruct (NTH i Hi) as (b & Hb & -> & _). destruct (SB1 b (proj1 (CO b Hb))) as (s & act & SO & CD). unfold stands_on in SO. rewrite NS in SO. exists s. split; [exact SO|].
    apply (can_do_edge _ _ _ _ _ _ G) in CD; [|eapply py_index_ok; exact SO]. destruct CD as (_ & t & _ & X). exists t, act. exact X. }
  assert (PB : playable (s_interactive c) (length (s_start c)) (s_n_moves c)). { rewrite F1, F5, LST. unfold playable in *. destruct (mc_interactive cfg); [|exact SB2]. now rewrite LL. }
  intros fuel rnd HF'. assert (HF : passes (length (s_start c)) (s_n_moves c) <= fuel).
  { rewrite LST, F5. eapply Nat.le_trans; [|exact HF']. unfold passes. apply le_n_S, Nat.add_le_mono_l, Nat.mul_le_mono_r. rewrite EL, map_length. cbn [length]. unfold others. destruct (mc_interactive cfg); [|cbn; destruct (e_agents e); [destruct Ha|cbn; lia]]. rewrite others_count; [lia|apply (wf_names _ _ _ _ W)|exact Ha]. }
  change (NumF ro) with NF. unfold mcts_fit, run_mcts. fold l. change (@make_search R NF) with (@make_search R NumR). rewrite MS. cbn [bind].
  destruct (search_completes score c rnd _ _ RY PB fuel HF (Z.to_nat (mc_n_iter cfg)) 0 (zeros1 (length (m_sas (e_mdp e)))) (zeros1 (length (m_sas (e_mdp e)))) (repeat [] (length l)) []) as ([[[V N] k'] sts] & ES).
  { intros b key q I. rewrite nth_repeat in I. destruct I. }
  rewrite ES. cbn [bind]. destruct (wf_agents _ _ _ _ W a Ha) as (_ & _ & _ & _ & (i & SO) & _). unfold stands_on in SO. rewrite NS in SO.
  unfold mcts_action_values, get_actions_states. rewrite SL, SO. cbn [bind]. unfold mcts_q. rewrite NS, SO. cbn [bind]. do 2 eexists. split; [reflexivity|]. rewrite map_length.
  assert (LV : length V = nst shape); [|lia]. rewrite (search_length _ _ _ _ _ _ _ _ _ _ _ _ _ _ ES). unfold zeros1. rewrite repeat_length. exact SL.
Qed.


(** What a fit gives: a value for each possible action in the agent's state, the rounded mean of the totals of the states visited. *)
Theorem C240_values : forall pl e a score cfg n rnd fuel v q, reachable pl e -> In a (e_agents e) -> @mcts_fit R (NumF ro) score cfg e a n rnd fuel = Ok (v, q) ->
  exists i, stands_on (e_mdp e) (at_pos a) i /\ values_only_at (e_mdp e) i q /\
  exists V N k states, @run_mcts R (NumF ro) score (mc_interactive cfg) (mc_n_iter cfg) (m_features (e_mdp e)) (m_sas (e_mdp e))
      (all_info (mc_interactive cfg) e a) (mc_C cfg) n (mc_cost cfg) (mc_policy cfg) (mc_caching cfg) (mc_max_iter cfg) (mc_discount cfg) (mc_tol cfg) None rnd fuel = Ok (V, N, k, states) /\
    v = map Fin V /\ forall act t, travels (e_mdp e) i [act] t -> nth act (nth i q []) NaN = Fin (ro (nth t V 0 / ro (1 + nth t N 0)))%R.
Proof.
  intros pl e a score cfg n rnd fuel v q RE Ha H. destruct (reachable_wf _ _ RE) as (k & shape & st & W). pose proof (wf_grid _ _ _ _ W) as G. destruct (grid_shape _ _ _ _ G) as (N & NA & [SL SR]). pose proof (gi_ns _ _ _ _ G) as NS.
  assert (MA : m_n_actions (e_mdp e) = actions_of k st) by (apply (gi_na _ _ _ _ G)).
  destruct (wf_agents _ _ _ _ W a Ha) as (_ & _ & _ & _ & (i & SO) & _). exists i. split; [exact SO|].
  assert (Hi : i < nst shape) by (rewrite <- NS; eapply py_index_ok; eauto).
  unfold mcts_fit in H. apply bind_ok in H. destruct H as ([[[V N'] k'] states] & RM & H). apply bind_ok in H. destruct H as (vals & AV & H). apply bind_ok in H. destruct H as (q' & MQ & H).
  assert (E : v = map Fin V /\ q = q') by (now inversion H). clear H. destruct E as [-> ->].
  unfold mcts_action_values in AV. apply bind_ok in AV. destruct AV as (acts & GA & AV). apply get_actions_states_spec in GA. destruct GA as (i' & PI & GA). rewrite SL in PI. unfold stands_on in SO. rewrite NS in SO. assert (i' = i) by congruence. subst i'.
  assert (EV : vals = map (fun '(a, t) => (a, ndiv (nth t V n0) (nadd n1 (nth t N' n0)), t)) acts) by (now inversion AV). subst vals. clear AV.
  unfold mcts_q in MQ. rewrite NS, SO in MQ. cbn [bind] in MQ. assert (OI : forall x y : list (list (fval R)), Ok x = Ok y -> y = x) by (intros ? ? X; now inversion X). apply OI in MQ. clear OI.
  set (vals := map (fun '(a, t) => (a, ndiv (nth t V n0) (nadd n1 (nth t N' n0)), t)) acts) in *.
  assert (IV : forall b x t, In (b, x, t) vals <-> get3 0%R (m_sas (e_mdp e)) i b t <> 0%R /\ x = (ro (nth t V 0 / ro (1 + nth t N' 0)))%R).
  { intros b x t. unfold vals. rewrite in_map_iff. split.
    - intros ([b' t'] & E & I). inversion E. subst. split; [now apply GA|]. reflexivity.
    - intros [I ->]. exists (b, t). split; [reflexivity|now apply GA]. }
  assert (RG : forall b t, get3 0%R (m_sas (e_mdp e)) i b t <> 0%R -> b < actions_of k st /\ t < nst shape).
  { intros b t X. destruct (Nat.lt_ge_cases b (actions_of k st)) as [Lb|Lb].
    - split; [exact Lb|]. destruct (Nat.lt_ge_cases t (nst shape)) as [Lt|Lt]; [exact Lt|]. elim X. unfold get3. apply nth_overflow. rewrite (proj2 (SR i Hi) b Lb). exact Lt.
    - elim X. unfold get3. rewrite nth_overflow; [reflexivity|]. rewrite nth_overflow by (rewrite (proj1 (SR i Hi)); exact Lb). cbn. lia. }
  rewrite MA in MQ.
  assert (LB : forall b x t, In (b, x, t) vals -> b < length (repeat (NaN (A:=R)) (actions_of k st))). { intros b x t I. rewrite repeat_length. apply IV in I. destruct I as [I _]. now apply RG in I. }
  destruct (fill_row vals (repeat NaN (actions_of k st)) LB) as [LR NR].
  assert (Q0 : nth i q' [] = fold_left (fun row '(a, x, _) => upd row a (Fin x)) vals (repeat NaN (actions_of k st))). { rewrite MQ. apply nth_upd_same. now rewrite repeat_length. }
  assert (Q1 : forall s, s < nst shape -> s <> i -> nth s q' [] = repeat NaN (actions_of k st)). { intros s Hs D. rewrite MQ, nth_upd_other by congruence. now rewrite nth_repeat_lt. }
  assert (UN : forall b t u, get3 0%R (m_sas (e_mdp e)) i b t <> 0%R -> get3 0%R (m_sas (e_mdp e)) i b u <> 0%R -> t = u).
  { intros b t u Ht Hu. destruct (RG _ _ Ht) as [Lb Lt]. destruct (RG _ _ Hu) as [_ Lu]. destruct (inv_edge _ _ _ _ G i b t Hi Lb Lt) as [[_ W1]|[Z _]]; [|contradiction]. destruct (inv_edge _ _ _ _ G i b u Hi Lb Lu) as [[_ W2]|[Z _]]; [|contradiction].
    eapply edge_unique_t; [apply W1|apply W2|apply pos_snd, (gi_pos _ _ _ _ G)]. }
  assert (VAL : forall b t, get3 0%R (m_sas (e_mdp e)) i b t <> 0%R -> nth b (nth i q' []) NaN = Fin (ro (nth t V 0 / ro (1 + nth t N' 0)))%R).
  { intros b t X. rewrite Q0. apply (fill_row_in vals _ b _ t LB); [apply IV; auto|]. intros y u I. apply IV in I. destruct I as [I ->]. now rewrite (UN b u t I X). }
  split.
  - split; [rewrite MQ, upd_length, repeat_length; now rewrite NS|]. split.
    + intros row Hr. apply (In_nth _ _ []) in Hr. destruct Hr as (s & Hs & <-). rewrite MQ, upd_length, repeat_length in Hs. rewrite MA. destruct (Nat.eq_dec s i) as [->|D]; [rewrite Q0, LR|rewrite Q1 by assumption]; apply repeat_length.
    + rewrite NS, MA. intros s act Hs Hact. split.
      * intros [-> C]. apply (can_do_edge _ _ _ _ _ _ G Hi) in C. destruct C as (_ & t & _ & X). rewrite (VAL act t X). eauto.
      * intros C. destruct (Nat.eq_dec s i) as [->|D]; [|rewrite Q1 by assumption; apply nth_repeat]. rewrite Q0, NR; [apply nth_repeat|]. intros x t I. apply IV in I. destruct I as [I _]. apply C. split; [reflexivity|].
        apply (can_do_edge _ _ _ _ _ _ G Hi). rewrite NA. split; [exact Hact|]. exists t. split; [now apply RG in I|exact I].
  - exists V, N', k', states. split; [exact RM|]. split; [reflexivity|]. intros act t T. apply VAL.
    apply travels_one in T. destruct T as (C & NX). apply (can_do_edge _ _ _ _ _ _ G Hi) in C. destruct C as (Lb & u & Lu & X). rewrite NA in Lb.
    destruct (inv_edge _ _ _ _ G i act u Hi Lb Lu) as [[_ W1]|[Z _]]; [|contradiction]. rewrite (next_state_edge _ _ _ _ G i act u Hi Lu W1) in NX. inversion NX. now subst u.
Qed.

End Rounded.

Section Environments.
Variables (ro : R -> R) (uu eta : R).
Hypothesis RD : rounding ro uu eta.
(** Fitting with a schedule succeeds. *)
Theorem C240_fit : forall pl e nm a score cfg n_moves s s', reachable pl e -> agent_named e nm a -> runs_mcts_r ro pl nm score cfg -> selects_best pl nm -> gives_probabilities pl nm ->
  consumes_in_range e -> searchable_r ro uu cfg e a n_moves -> exists e1, env_fit pl e nm (Some n_moves) s s' = (e1, Ok tt).
Proof.
  intros pl e nm a score cfg n s s' RE NA RM SB GP CR SR. destruct (reachable_wf _ _ RE) as (k & shape & st & W). pose proof NA as [Ha EN]. pose proof (wf_grid _ _ _ _ W) as G. pose proof (gi_ns _ _ _ _ G) as NS.
  destruct (proj2 RM e (Some n) s (wf_names _ _ _ _ W)) as (rnd & fuel & HF & PF). specialize (PF a NA).
  destruct (C240_search ro uu eta RD pl e a score cfg n RE Ha CR SR fuel rnd HF) as (v & q & MF & LV). destruct (C240_values ro _ _ _ _ _ _ _ _ _ _ RE Ha MF) as (i & SO & VO & _).
  assert (Hi : i < nst shape) by (rewrite <- NS; eapply py_index_ok; exact SO).
  assert (EX : exists act, can_do (e_mdp e) i act). { destruct SR as (S1 & _). destruct (S1 a) as (j & act & SO' & CD); [split; auto|]. unfold stands_on in *. assert (j = i) by congruence. subst j. eauto. }
  assert (EL : lookup e nm = Ok a). { destruct (lookup_spec k shape st e nm W) as [(b & EL & Hb & EN')|(_ & NI)]; [rewrite EL; f_equal; eapply same_name_same; eauto; [apply (wf_names _ _ _ _ W)|congruence]|]. elim NI. apply (wf_lookup _ _ _ _ W). rewrite <- EN. now apply in_map. }
  unfold env_fit. rewrite EL. pose proof VO as (LQ & LR & HQ). unfold alg_fit. destruct (wf_agents _ _ _ _ W a Ha) as (_ & _ & _ & LRW & _). rewrite LRW, Nat.eqb_refl. cbn [negb]. rewrite EN, PF, MF. cbn [bind]. rewrite LV, LQ, !Nat.eqb_refl. cbn [negb].
  replace (forallb (fun row => length row =? m_n_actions (e_mdp e)) q) with true by (symmetry; apply forallb_forall; intros row Hr; apply Nat.eqb_eq; auto). cbn [negb].
  destruct (select_only_at _ _ _ pl nm _ _ _ G SB Hi VO) as [S1 _]. destruct (S1 EX s') as (pi & Epi & _).
  assert (KQ : exists row, In row q /\ some_known row).
  { destruct EX as (act & C). exists (nth i q []). assert (La : act < m_n_actions (e_mdp e)). { pose proof C as C'. apply (can_do_edge _ _ _ _ _ _ G Hi) in C'. destruct (grid_shape _ _ _ _ G) as (_ & X & _). rewrite (gi_na _ _ _ _ G), <- X. tauto. }
    split; [apply nth_In; lia|]. destruct (HQ i act ltac:(lia) La) as [F _]. destruct (F (conj eq_refl C)) as (x & Ex). exists (Fin x). split; [|discriminate]. rewrite <- Ex. apply nth_In. rewrite LR; [exact La|]. apply nth_In. lia. }
  assert (EP : exists p, get_pi_p (pl_pi_p pl nm) q = Ok p).
  { destruct GP as [->|(T & ->)]; [|now apply softmax_pi_p_total]. destruct (C25_probabilities q) as (p & E & _); [|exact KQ|eauto]. intros row Hr X. apply LR in Hr. rewrite X in Hr. cbn in Hr.
    destruct EX as (act & C). apply (can_do_edge _ _ _ _ _ _ G Hi) in C. destruct (grid_shape _ _ _ _ G) as (_ & Y & _). rewrite (gi_na _ _ _ _ G), <- Y in Hr. lia. }
  destruct EP as (p & EP). unfold get_policy. cbn [at_fit set_fit at_name]. rewrite EN, EP, Epi. eauto.
Qed.

(** After a successful fit the plan is for the state the agent stands in, where some action is possible. *)
Lemma fit_plans_r : forall pl e nm score cfg n s s' e1, reachable pl e -> runs_mcts_r ro pl nm score cfg -> env_fit pl e nm n s s' = (e1, Ok tt) ->
  exists a v q i p, agent_named e1 nm a /\ at_fit a = Some (v, q) /\ values_only_at (e_mdp e1) i q /\ stands_on (e_mdp e1) (at_pos a) i /\ get_pi_p (pl_pi_p pl nm) q = Ok p /\
    e_mdp e1 = e_mdp e /\ reachable pl e1 /\ (exists b, agent_named e nm b /\ at_pos b = at_pos a).
Proof.
  intros pl e nm score cfg n s s' e1 RE (_ & UM) EF. assert (RE1 : reachable pl e1). { replace e1 with (do_op pl e (OFit nm n s s')) by (cbn [do_op]; now rewrite EF). now constructor. }
  destruct (reachable_wf _ _ RE) as (k & shape & st & W). unfold env_fit in EF. destruct (lookup_spec k shape st e nm W) as [(a & EL & Ha & EN)|(EL & _)]; rewrite EL in EF; [|discriminate].
  destruct (alg_fit pl e a n s) as [f|x] eqn:AF; [|discriminate]. destruct (get_policy pl (set_fit a (Some f)) s') as [a' r] eqn:GP. assert (PI : e1 = with_agent e a' /\ r = Ok tt) by (now inversion EF). destruct PI as [E1 ->].
  destruct (get_policy_spec _ _ _ _ _ GP) as (J1 & J2 & J3 & J4 & J5 & J6). destruct (J6 eq_refl) as (v & q & pi & F & Epi & Api & p & Ep & _). destruct (ident_name _ _ J1) as (N1 & _). cbn in F, N1, Ep. inversion F. subst f.
  unfold alg_fit in AF. destruct (negb _); [discriminate|]. apply bind_ok in AF. destruct AF as ([v' q'] & PF & AF). assert (v' = v /\ q' = q) by (destruct (negb _); [discriminate|]; destruct (negb _); [discriminate|]; destruct (negb _); [discriminate|]; now inversion AF). destruct H as [-> ->].
  destruct (UM e n s (wf_names _ _ _ _ W)) as (rnd & fuel & _ & UM'). rewrite EN, (UM' a (conj Ha EN)) in PF. destruct (C240_values ro _ _ _ _ _ _ _ _ _ _ RE Ha PF) as (i & SO & VO & _).
  exists a', v, q, i, p. assert (EM : e_mdp e1 = e_mdp e) by (now rewrite E1). rewrite EM. rewrite J2. cbn [at_pos set_fit]. split; [|split; [exact J5|]; split; [exact VO|]; split; [exact SO|]; split; [now rewrite <- EN|]; split; [reflexivity|]; split; [exact RE1|]; exists a; split; [split; assumption|reflexivity]].
  split; [|now rewrite N1]. rewrite E1. eapply with_agent_in; eauto.
Qed.

(** The next step succeeds and moves along a possible transition. *)
Theorem C240_next_step : forall pl e nm score cfg n s s' e1 seed, reachable pl e -> runs_mcts_r ro pl nm score cfg -> selects_best pl nm -> consumes_in_range e1 ->
  env_fit pl e nm n s s' = (e1, Ok tt) ->
  exists a i act t e2, agent_named e1 nm a /\ stands_on (e_mdp e1) (at_pos a) i /\ travels (e_mdp e1) i [act] t /\ env_step pl e1 nm seed = (e2, Ok (Z.of_nat t)).
Proof.
  intros pl e nm score cfg n s s' e1 seed RE UM SB CR EF. destruct (fit_plans_r _ _ _ _ _ _ _ _ _ RE UM EF) as (a & v & q & i & p & NA & F & VO & SO & Ep & EM & RE1 & _). clear EF EM RE.
  destruct (reachable_wf _ _ RE1) as (k & shape & st & W). pose proof (wf_grid _ _ _ _ W) as G. pose proof (gi_ns _ _ _ _ G) as NS. assert (Hi : i < nst shape) by (rewrite <- NS; eapply py_index_ok; eauto).
  destruct (select_only_at _ _ _ _ _ _ _ _ G SB Hi VO) as [S1 S2].
  assert (EX : exists act, can_do (e_mdp e1) i act). { destruct (in_valid_actions _ _ _ _ G i Hi) as ([|x va] & EV & _); [|exists x, (x :: va); split; [exact EV|now left]]. rewrite S2 in Ep; [discriminate|]. intros act (va' & E' & I'). rewrite EV in E'. inversion E'. subst. destruct I'. }
  destruct (S1 EX seed) as (pi & Epi & Lp & (act & EA & C) & _). pose proof NA as [Ha Na].
  assert (GP : get_policy pl a seed = (set_policy a (Some pi) (Some p), Ok tt)). { unfold get_policy. now rewrite F, Na, Ep, Epi. }
  assert (LA : act < m_n_actions (e_mdp e1)). { apply (can_do_edge _ _ _ _ _ _ G Hi) in C. destruct (grid_shape _ _ _ _ G) as (_ & X & _). rewrite (gi_na _ _ _ _ G), <- X. tauto. }
  assert (PI : py_index (length pi) (at_pos a) = Ok i) by (unfold stands_on in SO; rewrite Lp, <- NS; exact SO).
  destruct (agent_step_goes pl _ _ _ e1 a seed _ pi i act W Ha GP eq_refl PI EA LA) as (m' & a' & ES). destruct (env_step_goes _ _ _ _ _ _ _ _ _ _ W NA CR ES) as (e2 & z & EE).
  destruct (C34_possible_actions_partial _ _ _ _ _ _ RE1 EE) as (b & act' & j & va & t & NB & (v2 & q2 & pi2 & j2 & F2 & P2 & P3 & P4) & SO2 & EZ & EV & H).
  assert (b = a) by (destruct NB; eapply same_name_same; eauto; [apply (wf_names _ _ _ _ W)|congruence]). subst b. assert (j = i) by (unfold stands_on in *; congruence). subst j.
  rewrite F in F2. inversion F2. subst v2 q2. rewrite Na, Epi in P2. inversion P2. subst pi2. assert (j2 = i) by congruence. subst j2. rewrite EA in P4. subst act'. rewrite Nat2Z.id in H. subst z.
  destruct H as [[I T]|[NI _]]; [exists a, i, act, t, e2; auto|]. destruct C as (va' & E' & I'). rewrite EV in E'. inversion E'. subst va'. contradiction.
Qed.


End Environments.

(** * Simulated opponents *)
(** A greedy opponent needs comparisons only. *)
Theorem C240_greedy : forall nA, picks_possible nA select_max.
Proof. intros nA row d L H X. destruct (select_max_known row d H X) as (a & x & E & La & EX). exists a, x. split; [exact E|]. split; [lia|exact EX]. Qed.
(** An opponent choosing by softmax, for draws that are not too close to one (see C210 for the others). *)
Theorem C240_softmax : forall rnd ex u eta ux etax T nA us, rounding rnd u eta -> rounded_exp rnd ex ux etax -> (0 < T)%R -> (exponent_rel u <= / 2)%R -> (INR nA * prob_error u eta ux etax T nA <= / 4)%R ->
  (sum_rel u nA <= 1)%R -> (forall d, 0 <= us d < 1 - last_error u eta nA)%R -> picks_possible nA (select_softmax_r rnd ex T us).
Proof.
  intros rnd ex u eta ux etax T nA us RD RE T0 ER PE SR HU row d L H FX. assert (C1 : forall v, In v row -> v <> NaN /\ v <> PInf) by (intros v Hv; destruct (H v Hv) as [->|(x & ->)]; split; discriminate).
  destruct (C212_probabilities rnd ex u eta ux etax RD RE T T0 ER row C1 FX) as (ps & EP & LP & PP). rewrite L in PP.
  assert (GT : (0 < Rsum (map (gibbs_weight T) row))%R) by (apply gibbs_total_pos; [exact C1|destruct FX as (x & Hx); exists (Fin x); split; [exact Hx|discriminate]]).
  assert (SP : (Rabs (Rsum ps - 1) <= / 4)%R).
  { rewrite <- (map_nth_seq _ 0%R ps) at 1. rewrite LP, L. eapply Rle_trans; [|exact PE].
    assert (G : Rsum (map (fun i => gibbs_weight T (nth i row NaN) / Rsum (map (gibbs_weight T) row))%R (seq 0 nA)) = 1%R).
    { transitivity (Rsum (map (fun v => gibbs_weight T v / Rsum (map (gibbs_weight T) row))%R row)); [f_equal; rewrite <- L; apply (map_nth_row (fun v => gibbs_weight T v / Rsum (map (gibbs_weight T) row))%R)|].
      rewrite (map_ext _ (fun v => / Rsum (map (gibbs_weight T) row) * gibbs_weight T v)%R) by (intros; unfold Rdiv; ring). rewrite <- (map_map (gibbs_weight T) (fun x => / Rsum (map (gibbs_weight T) row) * x)%R), Rsum_scal. field. lra. }
    rewrite <- G. eapply Rle_trans; [apply Rsum_map_close|rewrite seq_length; right; reflexivity]. intros i Hi. apply in_seq in Hi. apply PP. lia. }
  assert (PF : forall x, In x ps -> (0 <= x)%R /\ rnd x = x). { intros x Hx. apply (In_nth _ _ 0%R) in Hx. destruct Hx as (i & Hi & <-). rewrite LP, L in Hi. destruct (PP i Hi) as ((? & _) & ? & _). auto. }
  assert (HS : (/ 2 <= Rsum ps)%R) by (apply Rabs_le2_inv in SP; lra).
  destruct (C211_numba rnd u eta RD ps (us d) PF HS (proj1 (HU d))) as [P1 P2]. rewrite LP, L in P1, P2. specialize (P2 SR (proj2 (HU d))). specialize (P1 P2).
  unfold select_softmax_r. rewrite EP. assert (MM : mapM (fun v => match fin_of v with Some a => Ok a | None => Err ValueError end) (map Fin ps) = Ok ps).
  { clear. induction ps as [|y l IH]; [reflexivity|]. cbn [map mapM fin_of bind]. rewrite IH. reflexivity. }
  rewrite MM. cbn [bind]. set (a := @rand_choice_nb R (NumF rnd) ps (us d)) in *. destruct (PP a P2) as (_ & _ & Z & _). assert (Hv : In (nth a row NaN) row) by (apply nth_In; lia).
  destruct (H _ Hv) as [X|(x & X)]; [rewrite (Z X) in P1; lra|]. exists a, x. auto.
Qed.
(** In double precision, with up to seven actions. *)
Theorem C240_float64 : forall ex ux etax T nA us iters t, rounded_exp float64 ex ux etax -> (ux <= / 10 ^ 15)%R -> (etax <= / 10 ^ 25)%R -> (/ 10 ^ 10 <= T)%R -> nA <= 7 -> (forall d, 0 <= us d < 1 - / 10 ^ 13)%R -> (0 < iters)%Z ->
  can_simulate_r float64 u64 nA (OppSolve (select_softmax_r float64 ex T us)) iters g64 (float64 t).
Proof.
  intros ex ux etax T nA us iters t RE UX EX HT L HU K. pose proof C206_float64 as RD. pose proof (re_u _ _ _ _ RE). pose proof (re_eta _ _ _ _ RE). destruct (sums64 nA L) as (N & SR & SA & NE).
  destruct (errors64 nA ux etax T L ltac:(lra) ltac:(lra) HT) as (LE & NR & RL & PE). assert (T0 : (0 < T)%R) by (pose proof (Rinv_0_lt_compat (10 ^ 10) ltac:(lra)); lra).
  assert (GB : (Rabs (g64 - 9 / 10) <= / 10 ^ 15)%R). { unfold g64. eapply Rle_trans; [apply (rd_err _ _ _ RD)|]. pose proof u64_small. pose proof eta64_small. rewrite Rabs_pos_eq by lra. lra. }
  apply Rabs_le2_inv in GB. pose proof u64_small as U. cbn [can_simulate_r]. split; [|split; [lra|split; [|split; [apply (rd_idem _ _ _ RD)|exact K]]]].
  - apply (C240_softmax float64 ex u64 eta64 ux etax T nA us RD RE T0 RL); [|lra|intros d; specialize (HU d); lra]. apply Rle_trans with (INR nA * / 10 ^ 12)%R; [apply Rmult_le_compat_l; lra|lra].
  - assert (X : ((1 + u64) ^ 2 <= 1 + / 100)%R) by nra. assert (0 <= (1 + u64) ^ 2)%R by nra. nra.
Qed.

(** ** Examples *)
(** A plugin that plans so, and the two agents of [C71_example], the second of which is expected to choose by softmax. *)
Definition cfg64 : mcts_config R := mkMCTS 3 1%R 0%R true (OppSolve (select_softmax_r float64 exp64 1%R (fun _ => / 2)%R)) false 5 g64 tol64.
Definition mcts_greedy_r (ro : R -> R) (score : scorer R) (cfg : mcts_config R) : plugins R :=
  mkPlugins (fun nm e n _ => match find_agent (e_agents e) nm with
                             | Some a => @mcts_fit R (NumF ro) score cfg e a n (fun _ _ => 0) (passes (length (e_agents e)) (match n with Some m => m | None => [] end))
                             | None => Err KeyError end)
    (fun _ seed => max_get_pi (fun _ => seed)) (fun _ => max_get_pi_p) (fun _ => true).
Example C240_plugin : forall ro score cfg nm, let pl := mcts_greedy_r ro score cfg in runs_mcts_r ro pl nm score cfg /\ selects_best pl nm /\ gives_probabilities pl nm.
Proof.
  intros ro score cfg nm pl. split; [|split; [left; intros seed; exists (fun _ => seed); reflexivity|now left]].
  split; [reflexivity|]. intros e n seed ND. exists (fun _ _ => 0). eexists. split; [apply le_n|]. intros a [Ha Na]. unfold pl. cbn [mcts_greedy_r pl_fit]. destruct (find_agent (e_agents e) nm) as [b|] eqn:F.
  - unfold find_agent in F. apply find_some in F. destruct F as [Hb Nb]. apply String.eqb_eq in Nb. assert (b = a) by (eapply same_name_same; eauto; congruence). now subst b.
  - unfold find_agent in F. pose proof (find_none _ _ F a Ha) as X. cbn in X. rewrite Na, String.eqb_refl in X. discriminate.
Qed.
Example C240_example : forall pl, exists e a, reachable pl e /\ agent_named e "p" a /\ consumes_in_range e /\ searchable_r float64 u64 cfg64 e a [[2]; [1]]%Z /\ exists b, e_agents e = [a; b].
Proof.
  intros pl. destruct (C71_example pl) as (e & a & RE & NA & CR & (S1 & S2 & S3 & S4) & _ & b & AL & _). exists e, a. split; [exact RE|]. split; [exact NA|]. split; [exact CR|]. split; [|eauto].
  split; [exact S1|]. split; [exact S2|]. split; [exact S3|]. intros I c Hc D. split; [|apply (S4 I c Hc D)]. pose proof u64_small. pose proof eta64_small.
  assert (LA : m_n_actions (e_mdp e) <= 7). { destruct (reachable_wf _ _ RE) as (k & shape & st & W). rewrite (gi_na _ _ _ _ (wf_grid _ _ _ _ W)). destruct k, st; cbn; lia. }
  apply (C240_float64 exp64 u64 eta64 1%R _ (fun _ => / 2)%R 5 (/ 10 ^ 8)%R C212_exp64); [lra|lra|lra|exact LA|intros _; lra|lia].
Qed.
