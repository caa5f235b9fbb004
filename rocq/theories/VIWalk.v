(** C119: an agent that plans once with value iteration and then walks collects nearly the best return. *)
From Coq Require Import String List ZArith QArith Reals Bool Lia Lra.
From Verif Require Import PyBase PyProofs GridModel GridSpec MDPModel MDPSpec MDPProofs MDPProofs2 MDPProofs3 MDPProofs4 MDPProps ActionModel ActionSpec ActionProofs RSum ActionProps EnvModel PlanProps EnvSpec StepSpec EnvProofs EnvProofs2 EnvProofs3 EnvProofs4 EnvProofs5 EnvProps StepProps VIModel VISpec VIProofs VIProofs2 VIProps VIEnvProps MCTSSpec MCTSRun MCTSFit QuerySpec VIWalkSpec FitProps.
From Verif Require QueryProofs.
Import ListNotations.
Local Close Scope Q_scope.
Local Open Scope nat_scope.

(** * Walks keep an invariant *)
Section Walk.
Context (pl : plugins R) (k : gkind) (shape : nat * nat) (st : bool) (nm : string).
Context (sas : list (list (list R))) (v : list (fval R)) (q : list (list (fval R))).
Context (h0 : list Z) (i0 : nat) (L : nat -> Prop) (T : nat -> nat -> Prop).
Fixpoint chain (i : nat) (ps : list nat) : Prop := match ps with [] => True | t :: ps' => T i t /\ chain t ps' end.
Context (step_T : forall e a seed s i, wf k shape st e -> m_sas (e_mdp e) = sas -> agent_named e nm a -> at_fit a = Some (v, q) ->
  stands_on (e_mdp e) (at_pos a) i -> L i -> moved pl e a seed s -> T i s /\ L s).

Lemma chain_snoc : forall ps i t, chain i ps -> T (last ps i) t -> chain i (ps ++ [t]).
Proof.
  induction ps as [|p ps IH]; intros i t C H; cbn [app chain] in *; [auto|]. destruct C as [C1 C2]. split; [exact C1|]. apply IH; [exact C2|].
  clear - H. destruct ps; [exact H|]. replace (last (n :: ps) p) with (last (p :: n :: ps) i); [exact H|]. cbn [last]. generalize dependent n. induction ps; intros; cbn [last] in *; [reflexivity|]. apply IHps. exact H.
Qed.

Definition on_walk (a : attached R) (e : env R) : Prop :=
  at_fit a = Some (v, q) /\ exists ps, at_hist a = h0 ++ map Z.of_nat ps /\ chain i0 ps /\ stands_on (e_mdp e) (at_pos a) (last ps i0) /\ L (last ps i0).
Definition walking (e : env R) : Prop := m_sas (e_mdp e) = sas /\ forall a, agent_named e nm a -> on_walk a e.

Lemma stands_same : forall (e e' : env R) p i, m_n_states (e_mdp e') = m_n_states (e_mdp e) -> stands_on (e_mdp e) p i -> stands_on (e_mdp e') p i.
Proof. unfold stands_on. intros e e' p i ->. auto. Qed.
Lemma wf_states : forall e, wf k shape st e -> m_n_states (e_mdp e) = nst shape.
Proof. intros e W. apply (gi_ns _ _ _ _ (wf_grid _ _ _ _ W)). Qed.

Lemma walking_same : forall e e', wf k shape st e -> wf k shape st e' -> walking e -> m_sas (e_mdp e') = m_sas (e_mdp e) ->
  (forall b, agent_named e' nm b -> exists a, agent_named e nm a /\ at_fit b = at_fit a /\ at_hist b = at_hist a /\ at_pos b = at_pos a) -> walking e'.
Proof.
  intros e e' W W' [H1 H2] ES H. split; [congruence|]. intros b Hb. destruct (H b Hb) as (a & Ha & F1 & F2 & F3). destruct (H2 a Ha) as (A1 & ps & A2 & A3 & A4 & A5).
  split; [congruence|]. exists ps. split; [congruence|]. split; [exact A3|]. split; [|exact A5]. rewrite F3. eapply stands_same; [|exact A4]. now rewrite !wf_states.
Qed.
Lemma other_kept : forall (l : list (attached R)) a' b, at_name a' <> nm -> In b (put_agent l a') -> at_name b = nm -> In b l.
Proof. intros l a' b N H E. apply QueryProofs.put_in_either in H. destruct H as [->|H]; [contradiction|exact H]. Qed.

Lemma fit_walking : forall e nm' n s s', nm' <> nm -> wf k shape st e -> walking e -> walking (fst (env_fit pl e nm' n s s')).
Proof.
  intros e nm' n s s' NE W H. assert (W' : wf k shape st (fst (env_fit pl e nm' n s s'))) by (eapply muts_wf; [exact W|]; eapply env_fit_muts; eauto).
  revert W'. unfold env_fit. destruct (lookup_spec k shape st e nm' W) as [(a & EL & Ha & EN)|(EL & _)]; rewrite EL; [|auto].
  assert (X : forall a', at_name a' = nm' -> wf k shape st (with_agent e a') -> walking (with_agent e a')).
  { intros a' N W'. apply (walking_same e); auto. intros b [Hb Nb]. exists b. split; [split; [|exact Nb]|auto]. cbn [with_agent e_agents] in Hb. eapply other_kept; [|exact Hb|exact Nb]. congruence. }
  destruct (alg_fit pl e a n s) as [f|x].
  - destruct (get_policy pl (set_fit a (Some f)) s') as [a' r] eqn:GP. destruct (get_policy_spec _ _ _ _ _ GP) as (H1 & _). destruct (ident_name _ _ H1) as (N1 & _). cbn [fst]. intros W'. apply X; [|exact W']. now rewrite N1.
  - unfold failed_fit. destruct (_ && _); cbn [fst]; [|auto]. intros W'. now apply X.
Qed.

Lemma last_snoc : forall (ps : list nat) t d, last (ps ++ [t]) d = t.
Proof. intros. apply last_last. Qed.
Lemma step_walking : forall e nm' s, wf k shape st e -> walking e -> walking (fst (env_step pl e nm' s)).
Proof.
  intros e nm' s W H. assert (W' : wf k shape st (fst (env_step pl e nm' s))) by (eapply muts_wf; [exact W|]; eapply env_step_muts; eauto).
  destruct (env_step pl e nm' s) as [e1 r] eqn:ES. cbn [fst] in *.
  destruct (env_step_full _ _ _ _ _ _ _ _ _ W ES) as [(_ & _ & ->)|[(a & a' & x & [Ha EN] & _ & -> & H1 & H2 & H3 & H4 & H5 & _)|H0]]; [exact H| |].
  - destruct (ident_name _ _ H1) as (N1 & _). apply (walking_same e); auto. intros b [Hb Nb]. cbn [with_agent e_agents] in Hb. apply (in_put _ a a' Ha N1) in Hb.
    destruct Hb as [->|[Hb _]]; [exists a|exists b]; (split; [split; [assumption|congruence]|auto]).
  - destruct H0 as (a & a2 & t & [Ha EN] & MV & (W1 & W2 & W3 & W4) & RP & SB & _). destruct (ident_name _ _ W1) as (N1 & _).
    assert (ES1 : m_sas (e_mdp e1) = m_sas (e_mdp e)) by (rewrite SB; reflexivity). pose proof H as [H1 H2]. split; [congruence|].
    intros b [Hb Nb]. apply (replaced_in _ _ _ _ Ha N1 RP) in Hb. destruct Hb as [->|[Hb NB]].
    + assert (NA : agent_named e nm a) by (split; [exact Ha|congruence]). destruct (H2 a NA) as (A1 & ps & A2 & A3 & A4 & A5).
      destruct (step_T e a s t _ W H1 NA A1 A4 A5 MV) as [T1 T2]. split; [congruence|]. exists (ps ++ [t]). rewrite last_snoc.
      split; [rewrite W3, A2, map_app, app_assoc; reflexivity|]. split; [now apply chain_snoc|]. split; [|exact T2].
      unfold stands_on. rewrite W2. apply py_index_nat. rewrite (wf_states _ W'), <- (wf_states _ W). destruct MV as (? & ? & ? & ? & MV). apply MV.
    + destruct (H2 b (conj Hb Nb)) as (A1 & ps & A2 & A3 & A4 & A5). split; [exact A1|]. exists ps. split; [exact A2|]. split; [exact A3|]. split; [|exact A5].
      eapply stands_same; [|exact A4]. now rewrite !wf_states.
Qed.

Lemma op_walking : forall e o, lets_walk nm o -> wf k shape st e -> walking e -> walking (do_op pl e o).
Proof.
  intros e o [LP LW] W H. assert (W' : wf k shape st (do_op pl e o)) by (eapply do_op_wf; eauto).
  destruct o as [n1 kk s s'|n1 s|n1 kk pn t rf stp rnd|n1 po s|names0 kk|n1 z|w|]; cbn [leaves_plan] in *.
  - cbn [do_op]. now apply fit_walking.
  - cbn [do_op]. now apply step_walking.
  - clear W'. cbn [do_op].
    assert (ML : forall nas plan todo i acc e, wf k shape st e -> walking e -> walking (fst (multi_loop pl e n1 rf stp t nas plan rnd i todo acc))).
    { clear e W H. induction todo as [|todo IH]; intros i acc e W Pe; cbn [multi_loop]; [exact Pe|].
      set (s1 := rnd (3 * i)). set (s2 := rnd (3 * i + 1)). set (s3 := rnd (3 * i + 2)).
      assert (RF : walking (fst (refit_step pl e n1 rf i t nas plan s1 s2)) /\ wf k shape st (fst (refit_step pl e n1 rf i t nas plan s1 s2))).
      { unfold refit_step. destruct rf; [|auto]. destruct (step_plan i t nas plan); [|auto]. split; [apply fit_walking; auto; destruct LP; [assumption|discriminate]|].
        eapply muts_wf; [exact W|]. eapply env_fit_muts; eauto. }
      destruct (refit_step pl e n1 rf i t nas plan s1 s2) as [e1 [[]|x]]; cbn [fst] in *; [|apply RF].
      destruct RF as [P1 W1]. pose proof (step_walking e1 n1 s3 W1 P1) as P2.
      assert (W2 : wf k shape st (fst (env_step pl e1 n1 s3))) by (eapply muts_wf; [exact W1|]; eapply env_step_muts; eauto).
      destruct (env_step pl e1 n1 s3) as [e2 [p|x]]; cbn [fst] in *; [|exact P2].
      match goal with |- context [if ?b then _ else _] => destruct b end; cbn [fst]; [exact P2|]. now apply IH. }
    unfold step_multi. destruct (lookup e n1); [|exact H]. destruct (all_n_steps e n1) as [l|]; [|exact H]. destruct (negb _); [exact H|].
    assert (X : forall n, walking (fst (multi_loop pl e n1 rf stp t l (match pn with Some p0 => p0 | None => l end) rnd 0 (Z.to_nat n) []))) by (intros; now apply ML).
    destruct kk as [|n|[|n r]|]; [| |exact H| |]; destruct (negb _); try exact H; first [exact (X _)|exact H].
  - revert W'. cbn [do_op]. unfold env_step_proba. destruct (lookup_spec k shape st e n1 W) as [(a & EL & Ha & EN)|(EL & _)]; rewrite EL; [|auto].
    destruct (agent_step_proba pl (e_mdp e) a po s) as [a' r] eqn:E.
    assert (K : ident a' = ident a /\ at_pos a' = at_pos a /\ at_hist a' = at_hist a /\ at_fit a' = at_fit a).
    { unfold agent_step_proba in E. destruct (match po with Some p0 => _ | None => _ end) as [pos|x]; [|inversion E; auto].
      destruct (negb _); [inversion E; auto|]. destruct (at_fit a) eqn:F; [|inversion E; subst; auto].
      destruct (get_policy pl a s) as [a1 [[]|x]] eqn:GP; destruct (get_policy_spec _ _ _ _ _ GP) as (H1 & H2 & H3 & H4 & H5 & _).
      - destruct (at_pi_p a1); inversion E; subst; repeat split; congruence.
      - inversion E; subst; repeat split; congruence. }
    destruct K as (K1 & K2 & K3 & K4). destruct (ident_name _ _ K1) as (N1 & _).
    assert (X : forall e', wf k shape st e' -> e_mdp e' = e_mdp e -> e_agents e' = put_agent (e_agents e) a' -> walking e').
    { intros e' W' EM EA. apply (walking_same e); auto; [now rewrite EM|]. intros b [Hb Nb]. rewrite EA in Hb. apply (in_put _ a a' Ha N1) in Hb.
      destruct Hb as [->|[Hb _]]; [exists a|exists b]; (split; [split; [assumption|congruence]|auto]). }
    destruct r; cbn [fst]; intros W'; now apply X.
  - clear W'. cbn [do_op]. unfold step_multi_interactive. destruct kk as [[|r0 rows]|]; [exact H| |exact H]. destruct (mapM _ _); [|exact H]. now destruct (_ || _).
  - revert W'. cbn [do_op]. unfold set_agent_position. destruct (lookup_spec k shape st e n1 W) as [(a & EL & Ha & EN)|(EL & _)]; rewrite EL; [|auto].
    destruct (move_agent (e_mdp e) a z) as [[m' a'] r] eqn:MV. cbn [fst]. intros W'. pose proof (WorldProofs.move_name _ _ _ _ _ _ MV) as N1.
    assert (MS : m_sas m' = m_sas (e_mdp e)).
    { unfold move_agent in MV. destruct (_ <=? z)%Z; [now inversion MV|]. destruct (update_agent_feature (e_mdp e) (at_idx a) z) as [m2 r2] eqn:UF.
      assert (E2 : m_sas m2 = m_sas (e_mdp e)) by (unfold update_agent_feature in UF; repeat match type of UF with context [match ?x with _ => _ end] => destruct x end; inversion UF; reflexivity).
      destruct r2; inversion MV; subst; exact E2. }
    apply (walking_same e); auto. intros b [Hb Nb]. exists b. split; [split; [|exact Nb]|auto]. cbn [with_agent with_mdp e_agents] in Hb. eapply other_kept; [|exact Hb|exact Nb]. congruence.
  - destruct LW.
  - destruct LP.
Qed.
Lemma run_walking : forall l e, Forall (lets_walk nm) l -> wf k shape st e -> walking e -> walking (run pl e l) /\ wf k shape st (run pl e l).
Proof.
  induction l as [|o l IH]; intros e F W H; [auto|]. inversion_clear F. cbn [run fold_left]. apply IH; [assumption|eapply do_op_wf; eauto|now apply op_walking].
Qed.
End Walk.

(** * One step of the walk *)
Lemma masked_rows : forall sas q, is_mdp sas -> q_masked sas q ->
  length q = n_states sas /\ forall row, In row q -> row <> [] /\ ~ In PInf row /\ ~ In NaN row.
Proof.
  intros sas q M (L & H). pose proof (proj1 M) as AP. split; [exact L|].
  intros row Hr. apply (In_nth _ _ []) in Hr. destruct Hr as (s & Hs & <-). destruct (H s ltac:(lia)) as [LR HA]. split; [intros X; rewrite X in LR; cbn in LR; lia|].
  assert (ENT : forall w, In w (nth s q []) -> w = NInf \/ exists x, w = Fin x).
  { intros w Hw. apply (In_nth _ _ NaN) in Hw. destruct Hw as (a & Ha & <-). destruct (HA a ltac:(lia)) as [H1 H2].
    destruct (nth a (nth s q []) NaN) eqn:EN; eauto; exfalso; (assert (P : possible sas s a) by (destruct (possible_dec sas s a) as [P|P]; [exact P|apply H1 in P; discriminate])); destruct (H2 P); discriminate. }
  split; intros X; apply ENT in X; destruct X as [X|(x & X)]; discriminate.
Qed.
Definition live (sas : list (list (list R))) (i : nat) : Prop := i < n_states sas /\ exists a, a < n_actions sas /\ possible sas i a.

(** An agent that stands on a live state and draws from these values takes a best action, which is possible
    and leads to a live state. *)
Lemma greedy_moves : forall pl k shape st e nm a seed t i v0 q, wf k shape st e -> agent_named e nm a -> at_fit a = Some (v0, q) ->
  (forall seed, exists draws, pl_pi pl nm seed = max_get_pi draws) ->
  q_masked (m_sas (e_mdp e)) q ->
  stands_on (e_mdp e) (at_pos a) i -> live (m_sas (e_mdp e)) i -> moved pl e a seed t ->
  exists act, act < n_actions (m_sas (e_mdp e)) /\ best_action (nth i q []) act /\ possible (m_sas (e_mdp e)) i act /\
    (forall u, u < n_states (m_sas (e_mdp e)) -> prob (m_sas (e_mdp e)) i act u = if u =? t then 1%R else 0%R) /\ live (m_sas (e_mdp e)) t.
Proof.
  intros pl k shape st e nm a seed t i v0 q W [Ha Na] F SEL E SO [Hi LV] MV.
  pose proof (wf_grid _ _ _ _ W) as G. destruct (grid_shape _ _ _ _ G) as (N & NAC & _). pose proof (grid_is_mdp _ _ _ _ G) as M. pose proof (gi_ns _ _ _ _ G) as NS.
  destruct (masked_rows _ _ M E) as [LQ ROWS].
  destruct MV as (v1 & q1 & pi & j & F1 & GP & PJ & An & NX & Ht). rewrite F in F1. inversion F1. subst v1 q1. rewrite Na in GP. destruct (SEL seed) as (draws & ED). rewrite ED in GP.
  assert (KN : forall s, s < n_states (m_sas (e_mdp e)) -> some_known (nth s q [])).
  { intros s Hs. destruct (ROWS (nth s q []) ltac:(apply nth_In; lia)) as (X & _ & Y). destruct (nth s q []) as [|w row]; [congruence|]. exists w. split; [now left|]. intros ->. apply Y. now left. }
  destruct (C25_sampled_is_best draws q) as (pi' & E1 & L1 & B); [intros row Hr; now apply ROWS|exists (nth i q []); split; [apply nth_In; lia|now apply KN]|].
  rewrite GP in E1. inversion E1. subst pi'. unfold stands_on in SO. rewrite L1, LQ, N, <- NS, SO in PJ. inversion PJ. subst j.
  destruct (B i ltac:(lia) (KN i Hi)) as (act & EA & BA). { intros [X _]. destruct (ROWS (nth i q []) ltac:(apply nth_In; lia)) as (_ & Y & _). contradiction. }
  destruct E as (_ & MK). destruct (MK i Hi) as [LR HA]. pose proof BA as [LA BB].
  assert (P : possible (m_sas (e_mdp e)) i act).
  { destruct LV as (a0 & Ha0 & P0). destruct (HA a0 Ha0) as [_ X]. destruct (X P0) as (x & Ex). specialize (BB a0 ltac:(lia)). rewrite Ex in BB.
    destruct (HA act ltac:(lia)) as [H1 _]. destruct (possible_dec (m_sas (e_mdp e)) i act) as [P|P]; [exact P|]. apply H1 in P. rewrite P in BB. destruct BB. }
  exists act. split; [lia|]. split; [exact BA|]. split; [exact P|].
  assert (Hi' : i < nst shape) by lia. assert (Ha' : act < actions_of k st) by lia.
  assert (ED1 : walled_edge k shape st (m_walls (e_mdp e)) i act t).
  { destruct P as (u & Hu & PU). destruct (inv_edge _ _ _ _ G i act u Hi' Ha' ltac:(lia)) as [[_ WE]|[Z _]]; [|rewrite <- get3_prob, Z in PU; lra].
    pose proof (next_state_edge _ _ _ _ G i act u Hi' ltac:(lia) WE) as X. rewrite EA in NX.
    destruct (step_moves _ _ _ _ _ _ _ G NX ltac:(lia)) as (i2 & va & SO2 & EV & [[I TR]|[NI _]]).
    - unfold stands_on in SO2. rewrite SO in SO2. inversion SO2. subst i2. rewrite Nat2Z.id in TR. destruct (travels_inv _ _ _ _ G i act [] t Hi' TR) as (t2 & _ & WE2 & _ & T2). inversion T2. now subst.
    - unfold stands_on in SO2. rewrite SO in SO2. inversion SO2. subst i2. exfalso. apply NI. rewrite Nat2Z.id. apply (possible_valid _ _ _ _ _ _ G Hi' EV). split; [lia|]. exists u. auto. }
  split.
  - intros u Hu. rewrite <- get3_prob. destruct (inv_edge _ _ _ _ G i act u Hi' Ha' ltac:(lia)) as [[Z WE]|[Z NW]]; rewrite Z; destruct (Nat.eqb_spec u t) as [->|NE]; auto.
    + exfalso. apply NE. eapply edge_unique_t; [apply WE|apply ED1|apply pos_snd, (gi_pos _ _ _ _ G)].
    + contradiction.
  - split; [lia|]. destruct ED1 as (E0 & W1 & W2). destruct (edge_back _ _ _ _ _ _ E0) as (b & EB).
    assert (WB : walled_edge k shape st (m_walls (e_mdp e)) t b i) by (split; auto).
    assert (Ht' : t < nst shape) by lia. destruct (in_valid_actions _ _ _ _ G t Ht') as (va & EV & IV). exists b. apply (possible_valid _ _ _ _ _ _ G Ht' EV). apply IV. exists i. auto.
Qed.

(** * What the walk collects *)
Local Open Scope R_scope.
Lemma walk_collects : forall (sas : list (list (list R))) r g Vs e C, 0 < g < 1 -> 0 <= e -> 0 <= C ->
  (forall s, (s < n_states sas)%nat -> 0 <= Vs s <= C) ->
  forall ps i, (i < n_states sas)%nat -> chain (fun i t => can_go sas i t /\ (t < n_states sas)%nat /\ Vs i - e <= r t + g * Vs t <= Vs i) i ps ->
  Vs i - e / (1 - g) - g ^ length ps * C <= discounted g r ps <= Vs i /\ walk sas i ps.
Proof.
  intros sas r g Vs e C G E0 C0 B. assert (EG : 0 <= e / (1 - g)) by (apply Rmult_le_pos; [lra|left; apply Rinv_0_lt_compat; lra]).
  assert (EQ : e / (1 - g) = e + g * (e / (1 - g))) by (field; lra).
  induction ps as [|t ps IH]; intros i Hi H; cbn [discounted length pow chain walk] in *.
  - specialize (B i Hi). split; [lra|exact I].
  - destruct H as ((CG & Ht & S1 & S2) & H). destruct (IH t Ht H) as ((I1 & I2) & I3). split; [|auto].
    assert (g * (Vs t - e / (1 - g) - g ^ length ps * C) <= g * discounted g r ps) by (apply Rmult_le_compat_l; lra).
    assert (g * discounted g r ps <= g * Vs t) by (apply Rmult_le_compat_l; lra). split; [|lra]. 
    replace (g * g ^ length ps * C) with (g * (g ^ length ps * C)) by ring. lra.
Qed.
(** Action values within [d] of those of the solution. *)
Definition accurate (sas : list (list (list R))) (r : nat -> R) (g : R) (Vs : nat -> R) (q : list (list (fval R))) (d : R) : Prop :=
  forall s a x, (s < n_states sas)%nat -> (a < n_actions sas)%nat -> nth a (nth s q []) NaN = Fin x -> Rabs (x - action_value sas r g Vs s a) <= d.
Lemma greedy_loses : forall sas r g Vs q d i act t, is_mdp sas -> 0 < g < 1 -> (forall t, (t < n_states sas)%nat -> 0 <= r t) -> optimal sas r g Vs -> q_masked sas q -> accurate sas r g Vs q d ->
  (i < n_states sas)%nat -> (act < n_actions sas)%nat -> best_action (nth i q []) act -> possible sas i act -> (t < n_states sas)%nat ->
  (forall u, (u < n_states sas)%nat -> prob sas i act u = if (u =? t)%nat then 1 else 0) -> Vs i - 2 * d <= r t + g * Vs t <= Vs i.
Proof.
  intros sas r g Vs q d s b t M G R0 O (LQ & MQ) AC Hs Hb [_ BA] P' Ht DT. destruct (MQ s Hs) as [LR MA].
  assert (AV : action_value sas r g Vs s b = r t + g * Vs t).
  { unfold action_value. rewrite (sumf_single _ _ t); [rewrite DT, Nat.eqb_refl by exact Ht; ring|apply seq_NoDup|apply in_seq; lia|].
    intros u Hu Nu. apply in_seq in Hu. rewrite DT by lia. destruct (Nat.eqb_spec u t); [contradiction|ring]. }
  rewrite <- AV. split; [|apply (O s Hs), Hb].
  destruct (optimal_possible sas _ g Vs M ltac:(lra) O R0 s Hs) as (a & Ha & EA & PA). specialize (PA (ex_intro _ b (conj Hb P'))). specialize (BA a ltac:(lia)).
  destruct (MA a Ha) as [_ XA]. destruct (XA PA) as (x & EX). destruct (MA b Hb) as [_ XB]. destruct (XB P') as (y & EY). rewrite EX, EY in BA. cbn in BA.
  destruct (Rabs_le2_inv _ _ _ (AC s a x Hs Ha EX)) as [Q1 Q2]. destruct (Rabs_le2_inv _ _ _ (AC s b y Hs Hb EY)) as [Q3 Q4]. lra.
Qed.
(** What the solver returns is masked and accurate. *)
Lemma solver_accurate : forall sas rf features k g tol Vs B v q, is_mdp sas -> 0 < g < 1 -> length rf = length features ->
  optimal sas (reward_of rf features) g Vs -> near (n_states sas) B (fun _ => 0) Vs -> 0 <= B -> (1 + g) * g ^ k * B < tol ->
  solve_value_iteration hard_backup rf features (Z.of_nat (S k)) g sas tol = Ok (v, q) -> q_masked sas q /\ accurate sas (reward_of rf features) g Vs q (g * tol / (1 - g)).
Proof.
  intros sas rf features k g tol Vs B v q M G L O N B0 TL E. split; [now destruct (C30_mask _ _ _ _ _ _ _ _ _ M (or_introl eq_refl) E) as (_ & MQ)|]. apply optimal_fixed in O; [|exact M].
  destruct (solve_spec hard_backup lmax sas rf features k g tol M G L (bk_hard sas M) (fun l l' c => lmax_ne (n_actions sas) l l' c (proj1 M))) as (v' & q' & E' & H1 & H2 & H3 & _ & H5).
  rewrite E in E'. inversion E'. subst v' q. clear E'. destruct (H5 Vs O B B0 N) as [_ J]. destruct (J TL) as [_ QC].
  intros s a x Hs Ha EX. destruct (mask_q_nth sas q' s a M H2 H3 Hs Ha) as (_ & _ & [[_ EQ]|[_ EQ]]); rewrite EQ in EX; [injection EX as <-; now apply QC|discriminate].
Qed.
Lemma best_return_unique : forall sas r g ok s x y, best_return sas r g ok s x -> best_return sas r g ok s y -> x = y.
Proof.
  intros sas r g ok s x y [(b & B1 & B2) B3] [(c & C1 & C2) C3]. apply Rle_antisym; [exact (C3 b x B1 B2)|exact (B3 c y C1 C2)].
Qed.

(** The state after planning: what the agent plans with. *)
Lemma planned_start_any : forall (F : mdp R -> list R -> res (fitted R)) pl e nm n s s' e1 a, reachable pl e ->
  (forall e a n seed, NoDup (map at_name (e_agents e)) -> agent_named e nm a -> pl_fit pl nm e n seed = F (e_mdp e) (at_reward a)) -> env_fit pl e nm n s s' = (e1, Ok tt) -> agent_named e nm a ->
  exists v q, F (e_mdp e) (at_reward a) = Ok (v, q) /\
    m_sas (e_mdp e1) = m_sas (e_mdp e) /\ (exists p, get_pi_p (pl_pi_p pl nm) q = Ok p) /\
    forall b, agent_named e1 nm b -> at_fit b = Some (v, q) /\ at_hist b = at_hist a /\ at_pos b = at_pos a.
Proof.
  intros F pl e nm n s s' e1 a RE PV EF NA. destruct (reachable_wf _ _ RE) as (k & shape & st & W).
  destruct (QueryProofs.fit_planned _ _ _ _ _ _ _ EF) as (v & q & p & FV & _ & _ & GP & KN). rewrite (PV e a n s (wf_names _ _ _ _ W) NA) in FV.
  exists v, q. split; [exact FV|].
  destruct (env_fit_refitted pl k shape st e nm n s s' W) as [RF _]. pose proof EF as EF0. rewrite EF in RF. cbn [fst] in RF. split; [now rewrite (proj1 RF)|]. split; [eauto|].
  intros b [Hb Nb]. destruct KN as (_ & _ & KN). destruct (refitted_in _ _ _ RF Hb) as (c & Hc & IC & PC & HC & _). destruct (ident_name _ _ IC) as (NC & _).
  assert (c = a) by (destruct NA; eapply same_name_same; eauto; [apply (wf_names _ _ _ _ W)|congruence]). subst c.
  split; [|auto]. unfold env_fit in EF. rewrite (lookup_named _ _ _ _ RE NA) in EF. destruct NA as [Ha Na].
  unfold alg_fit in EF. destruct (negb _); [discriminate|]. rewrite Na, (PV e a n s (wf_names _ _ _ _ W) (conj Ha Na)) in EF. rewrite FV in EF. cbn [bind] in EF.
  destruct (negb _); [discriminate|]. destruct (negb _); [discriminate|]. destruct (negb _); [discriminate|].
  match type of EF with context [get_policy ?x ?y ?z] => destruct (get_policy x y z) as [a' r] eqn:GPO end. destruct (get_policy_spec _ _ _ _ _ GPO) as (J1 & J2 & J3 & J4 & J5 & _). destruct (ident_name _ _ J1) as (N1 & _).
  apply (f_equal fst) in EF. cbn [fst] in EF. rewrite <- EF in Hb. cbn [with_agent e_agents] in Hb. apply (in_put _ a a' Ha N1) in Hb. destruct Hb as [->|[_ X]]; [exact J5|]. cbn in N1. congruence.
Qed.
Lemma planned_start : forall F pl e nm n s s' e1 a, reachable pl e -> plans_with F pl nm -> env_fit pl e nm n s s' = (e1, Ok tt) -> agent_named e nm a ->
  exists v q, F (e_mdp e) (at_reward a) = Ok (v, q) /\
    m_sas (e_mdp e1) = m_sas (e_mdp e) /\ (exists p, get_pi_p (pl_pi_p pl nm) q = Ok p) /\
    forall b, agent_named e1 nm b -> at_fit b = Some (v, q) /\ at_hist b = at_hist a /\ at_pos b = at_pos a.
Proof. intros F pl e nm n s s' e1 a RE [PV _]. exact (planned_start_any F pl e nm n s s' e1 a RE PV). Qed.
Lemma reward_length : forall pl e nm a, reachable pl e -> agent_named e nm a -> length (at_reward a) = length (m_features (e_mdp e)).
Proof.
  intros pl e nm a RE [Ha _]. destruct (reachable_wf _ _ RE) as (kd & shape & st & W). rewrite (reward_fits _ _ _ RE Ha). destruct (proj1 (table_shape _) (wf_table _ _ _ _ W)) as [X _]. now rewrite X.
Qed.
Lemma vi_fit_solves : forall g tol mi (m : mdp R) rf v q, vi_fit g tol mi m rf = Ok (v, q) -> exists v', solve_value_iteration hard_backup rf (m_features m) mi g (m_sas m) tol = Ok (v', q).
Proof. intros g tol mi m rf v q FV. unfold vi_fit in FV. apply bind_ok in FV. destruct FV as ([v2 q2] & SV & FV). injection FV as <- <-. eauto. Qed.
Lemma live_valid : forall k shape st m i, grid_inv k shape st m -> (i < m_n_states m)%nat -> state_valid_actions m (Z.of_nat i) <> Ok [] -> live (m_sas m) i.
Proof.
  intros k shape st m i G Hi H. pose proof (gi_ns _ _ _ _ G) as NS. destruct (grid_shape _ _ _ _ G) as (N & _). assert (Hi' : (i < nst shape)%nat) by lia. split; [lia|].
  destruct (in_valid_actions _ _ _ _ G i Hi') as ([|a va] & EV & _); [contradiction|]. exists a. apply (possible_valid _ _ _ _ _ _ G Hi' EV). now left.
Qed.

Lemma walk_chain_any : forall F pl e nm g d n s s' e1 l rho a i a' Vs, reachable pl e -> plans_with F pl nm -> 0 < g < 1 ->
  env_fit pl e nm n s s' = (e1, Ok tt) -> agent_named e nm a -> stands_on (e_mdp e) (at_pos a) i -> state_valid_actions (e_mdp e) (Z.of_nat i) <> Ok [] ->
  let sas := m_sas (e_mdp e) in let r := reward_of (at_reward a) (m_features (e_mdp e)) in
  (forall t, (t < m_n_states (e_mdp e))%nat -> 0 <= r t <= rho) -> optimal sas r g Vs ->
  (forall v q, F (e_mdp e) (at_reward a) = Ok (v, q) -> q_masked sas q /\ accurate sas r g Vs q d) ->
  Forall (lets_walk nm) l -> agent_named (run pl e1 l) nm a' ->
  exists ps, is_mdp sas /\ n_states sas = m_n_states (e_mdp e) /\ (forall t, (t < n_states sas)%nat -> 0 <= Vs t <= rho / (1 - g)) /\ 0 <= rho /\ live sas i /\
    at_hist a' = at_hist a ++ map Z.of_nat ps /\ stands_on (e_mdp (run pl e1 l)) (at_pos a') (last ps i) /\
    chain (fun i t => can_go sas i t /\ (t < n_states sas)%nat /\ Vs i - 2 * d <= r t + g * Vs t <= Vs i) i ps.
Proof.
  intros F pl e nm g d n s s' e1 l rho a i a' Vs RE PG G EF NA SO SV sas r R0 O ACC FL NA'.
  destruct (reachable_wf _ _ RE) as (kd & shape & st & W). pose proof (wf_grid _ _ _ _ W) as GI. pose proof (grid_is_mdp _ _ _ _ GI) as M. destruct (grid_shape _ _ _ _ GI) as (N & _). pose proof (gi_ns _ _ _ _ GI) as NS.
  fold sas in M, N. assert (RT : forall t, (t < n_states sas)%nat -> 0 <= r t <= rho) by (intros t Ht; apply R0; lia).
  assert (Hi : (i < m_n_states (e_mdp e))%nat) by (eapply py_index_ok; eauto). pose proof (live_valid _ _ _ _ _ GI Hi SV) as LV. fold sas in LV.
  destruct (planned_start _ _ _ _ _ _ _ _ _ RE PG EF NA) as (v & q & SL & MS & _ & ST). fold sas in MS. destruct (ACC v q SL) as [MQ AC].
  assert (RHO : 0 <= rho) by (destruct (RT i (proj1 LV)); lra). assert (G1 : 0 < 1 - g) by lra. set (B := rho / (1 - g)) in *.
  assert (NB : near (n_states sas) B (fun _ => 0) Vs). { apply (C29_solution_bounded sas r g Vs rho M ltac:(lra) O). intros t Ht. destruct (RT t Ht). rewrite Rabs_pos_eq; lra. }
  assert (W1 : wf kd shape st e1). { replace e1 with (fst (env_fit pl e nm n s s')) by now rewrite EF. eapply muts_wf; [exact W|]. eapply env_fit_muts; eauto. }
  set (T := fun i t => can_go sas i t /\ (t < n_states sas)%nat /\ Vs i - 2 * d <= r t + g * Vs t <= Vs i).
  assert (STEP : forall e a seed s i, wf kd shape st e -> m_sas (e_mdp e) = sas -> agent_named e nm a -> at_fit a = Some (v, q) ->
    stands_on (e_mdp e) (at_pos a) i -> live sas i -> moved pl e a seed s -> T i s /\ live sas s).
  { intros e0 a0 seed0 t b W0 ES0 NA0 F0 SO0 L0 MV. destruct PG as (_ & SEL & _). pose proof MQ as MQ0. rewrite <- ES0 in MQ0, L0.
    destruct (greedy_moves _ _ _ _ _ _ _ _ _ _ _ _ W0 NA0 F0 SEL MQ0 SO0 L0 MV) as (act & H1 & H2 & H3 & H4 & H5). rewrite ES0 in *. split; [|exact H5].
    split; [|split; [apply H5|]]. { exists act. rewrite get3_prob, H4, Nat.eqb_refl by apply H5. lra. }
    eapply (greedy_loses sas r g Vs q d); eauto; [intros u Hu; now apply RT|apply L0|apply H5]. }
  destruct (run_walking pl kd shape st nm sas v q (at_hist a) i (live sas) T STEP l e1 FL W1) as [[_ WK] _].
  { split; [congruence|]. intros b Hb. destruct (ST b Hb) as (F1 & F2 & F3). split; [exact F1|]. exists []. cbn [map last chain]. rewrite app_nil_r. split; [exact F2|]. split; [exact I|]. split; [|exact LV].
    rewrite F3. eapply stands_same; [|exact SO]. now rewrite (wf_states kd shape st e1 W1), (wf_states kd shape st e W). }
  destruct (WK a' NA') as (_ & ps & H1 & H2 & H3 & _). exists ps. split; [exact M|]. split; [lia|]. split.
  { intros b Hb. split; [eapply optimal_nonneg; eauto; [lra|intros; now apply RT]|]. specialize (NB b Hb). apply Rabs_le2_inv in NB. lra. }
  auto 10.
Qed.
Lemma walk_chain : forall pl e nm g tol k n s s' e1 l rho a i a', reachable pl e -> plans_greedily pl nm g tol (Z.of_nat (S k)) -> 0 < g < 1 ->
  env_fit pl e nm n s s' = (e1, Ok tt) -> agent_named e nm a -> stands_on (e_mdp e) (at_pos a) i -> state_valid_actions (e_mdp e) (Z.of_nat i) <> Ok [] ->
  let sas := m_sas (e_mdp e) in let r := reward_of (at_reward a) (m_features (e_mdp e)) in
  (forall t, (t < m_n_states (e_mdp e))%nat -> 0 <= r t <= rho) -> (1 + g) * g ^ k * (rho / (1 - g)) < tol ->
  Forall (lets_walk nm) l -> agent_named (run pl e1 l) nm a' ->
  exists Vs ps, is_mdp sas /\ n_states sas = m_n_states (e_mdp e) /\ optimal sas r g Vs /\ (forall t, (t < n_states sas)%nat -> 0 <= Vs t <= rho / (1 - g)) /\ 0 <= rho /\ 0 <= g * tol / (1 - g) /\ live sas i /\
    at_hist a' = at_hist a ++ map Z.of_nat ps /\ stands_on (e_mdp (run pl e1 l)) (at_pos a') (last ps i) /\
    chain (fun i t => can_go sas i t /\ (t < n_states sas)%nat /\ Vs i - 2 * (g * tol / (1 - g)) <= r t + g * Vs t <= Vs i) i ps.
Proof.
  intros pl e nm g tol k n s s' e1 l rho a i a' RE PG G EF NA SO SV sas r R0 TL FL NA'.
  destruct (reachable_wf _ _ RE) as (kd & shape & st & W). pose proof (wf_grid _ _ _ _ W) as GI. pose proof (grid_is_mdp _ _ _ _ GI) as M. destruct (grid_shape _ _ _ _ GI) as (N & _). pose proof (gi_ns _ _ _ _ GI) as NS. fold sas in M, N.
  assert (Hi : (i < m_n_states (e_mdp e))%nat) by (eapply py_index_ok; eauto).
  assert (RHO : 0 <= rho) by (destruct (R0 i Hi); lra). assert (B0 : 0 <= rho / (1 - g)) by (apply Rmult_le_pos; [exact RHO|left; apply Rinv_0_lt_compat; lra]).
  destruct (C29_unique_solution sas r g M ltac:(lra)) as (Vs & O & _).
  assert (NB : near (n_states sas) (rho / (1 - g)) (fun _ => 0) Vs). { apply (C29_solution_bounded sas r g Vs rho M ltac:(lra) O). intros t Ht. destruct (R0 t ltac:(lia)). rewrite Rabs_pos_eq; lra. }
  destruct (walk_chain_any (vi_fit g tol (Z.of_nat (S k))) pl e nm g (g * tol / (1 - g)) n s s' e1 l rho a i a' Vs RE PG G EF NA SO SV R0 O) as (ps & H1 & H2 & H3 & H4 & H5 & H6 & H7 & H8); auto.
  { intros v q FV. apply vi_fit_solves in FV. destruct FV as (v' & FV). eapply solver_accurate; eauto. eapply reward_length; eauto. }
  exists Vs, ps. split; [exact H1|]. split; [exact H2|]. split; [exact O|]. split; [exact H3|]. split; [exact H4|]. split.
  { assert (0 < tol). { eapply Rle_lt_trans; [|exact TL]. apply Rmult_le_pos; [|exact B0]. apply Rmult_le_pos; [lra|]. apply pow_le. lra. } apply Rmult_le_pos; [apply Rmult_le_pos; lra|left; apply Rinv_0_lt_compat; lra]. }
  auto.
Qed.

(** Plan once with value iteration, then make any calls that let the agent walk, on any agents, with any
    outcome and any draws. Rewards at the time of planning are between 0 and [rho], and the solver may make
    enough iterations for its tolerance. Then the states the agent was on since form a walk along possible
    moves, and the rewards planned for on it add up, discounted, to nearly the best return [x] of any way
    of acting: never more, and less only by twice the solver's error per step, and by what is still to come. *)
Theorem C119_walk : forall pl e nm g tol k n s s' e1 l rho a i x a', reachable pl e -> plans_greedily pl nm g tol (Z.of_nat (S k)) -> 0 < g < 1 ->
  env_fit pl e nm n s s' = (e1, Ok tt) -> agent_named e nm a -> stands_on (e_mdp e) (at_pos a) i -> state_valid_actions (e_mdp e) (Z.of_nat i) <> Ok [] ->
  let sas := m_sas (e_mdp e) in let r := reward_of (at_reward a) (m_features (e_mdp e)) in
  (forall t, (t < m_n_states (e_mdp e))%nat -> 0 <= r t <= rho) -> (1 + g) * g ^ k * (rho / (1 - g)) < tol ->
  best_return sas r g (acts_possibly sas) i x ->
  Forall (lets_walk nm) l -> agent_named (run pl e1 l) nm a' ->
  exists ps, at_hist a' = at_hist a ++ map Z.of_nat ps /\ walk sas i ps /\
    x - 2 * g * tol / (1 - g) ^ 2 - g ^ length ps * rho / (1 - g) <= discounted g r ps <= x.
Proof.
  intros pl e nm g tol k n s s' e1 l rho a i x a' RE PG G EF NA SO SV sas r R0 TL BR FL NA'.
  destruct (walk_chain pl e nm g tol k n s s' e1 l rho a i a' RE PG G EF NA SO SV R0 TL FL NA') as (Vs & ps & M & N & O & VB & RHO & E0 & LV & H1 & _ & H2). fold sas r in M, N, O, LV, H2, VB.
  assert (EX : x = Vs i). { eapply best_return_unique; [exact BR|]. apply C31_nonnegative_partial; auto; [lra|intros; apply R0; lia|apply LV]. } subst x. assert (G1 : 0 < 1 - g) by lra. set (B := rho / (1 - g)) in *.
  assert (B0 : 0 <= B) by (apply Rmult_le_pos; [exact RHO|left; now apply Rinv_0_lt_compat]). exists ps. split; [exact H1|].
  destruct (walk_collects sas r g Vs (2 * (g * tol / (1 - g))) B G ltac:(lra) B0 VB ps i (proj1 LV) H2) as [H3 H4].
  split; [exact H4|]. replace (2 * g * tol / (1 - g) ^ 2) with (2 * (g * tol / (1 - g)) / (1 - g)) by (field; lra).
  replace (g ^ length ps * rho / (1 - g)) with (g ^ length ps * B) by (unfold B; field; lra). exact H3.
Qed.

Lemma goes_on_any : forall F pl e nm n s s' e1 l a i seed, reachable pl e -> plans_with F pl nm -> (forall v q, F (e_mdp e) (at_reward a) = Ok (v, q) -> q_masked (m_sas (e_mdp e)) q) ->
  env_fit pl e nm n s s' = (e1, Ok tt) -> agent_named e nm a -> stands_on (e_mdp e) (at_pos a) i -> state_valid_actions (e_mdp e) (Z.of_nat i) <> Ok [] ->
  Forall (lets_walk nm) l -> consumes_in_range (run pl e1 l) -> exists e2 t, env_step pl (run pl e1 l) nm seed = (e2, Ok (Z.of_nat t)).
Proof.
  intros F pl e nm n s s' e1 l a i seed RE PG MKD EF NA SO SV FL CR.
  destruct (reachable_wf _ _ RE) as (kd & shape & st & W). pose proof (wf_grid _ _ _ _ W) as GI. set (sas := m_sas (e_mdp e)).
  assert (Hi : (i < m_n_states (e_mdp e))%nat) by (eapply py_index_ok; eauto). pose proof (live_valid _ _ _ _ _ GI Hi SV) as LV. fold sas in LV.
  destruct (planned_start _ _ _ _ _ _ _ _ _ RE PG EF NA) as (v & q & SL & MS & (p & EP) & ST). fold sas in MS. pose proof (MKD v q SL) as MQ. fold sas in MQ.
  assert (RE1 : reachable pl e1). { replace e1 with (do_op pl e (OFit nm n s s')) by (cbn [do_op]; now rewrite EF). now constructor. }
  assert (W1 : wf kd shape st e1). { replace e1 with (fst (env_fit pl e nm n s s')) by now rewrite EF. eapply muts_wf; [exact W|]. eapply env_fit_muts; eauto. }
  assert (STEP : forall e a seed s i, wf kd shape st e -> m_sas (e_mdp e) = sas -> agent_named e nm a -> at_fit a = Some (v, q) ->
    stands_on (e_mdp e) (at_pos a) i -> live sas i -> moved pl e a seed s -> True /\ live sas s).
  { intros e0 a0 seed0 t b W0 ES0 NA0 F0 SO0 L0 MV. destruct PG as (_ & SEL & _). pose proof MQ as MQ0. rewrite <- ES0 in MQ0, L0.
    destruct (greedy_moves _ _ _ _ _ _ _ _ _ _ _ _ W0 NA0 F0 SEL MQ0 SO0 L0 MV) as (act & H1 & H2 & H3 & H4 & H5). rewrite ES0 in *. auto. }
  destruct (run_walking pl kd shape st nm sas v q (at_hist a) i (live sas) (fun _ _ => True) STEP l e1 FL W1) as [[MS2 WK] W2].
  { split; [congruence|]. intros b Hb. destruct (ST b Hb) as (F1 & F2 & F3). split; [exact F1|]. exists []. cbn [map last chain]. rewrite app_nil_r. split; [exact F2|]. split; [exact I|]. split; [|exact LV].
    rewrite F3. eapply stands_same; [|exact SO]. now rewrite (wf_states kd shape st e1 W1), (wf_states kd shape st e W). }
  assert (NA2 : exists b, agent_named (run pl e1 l) nm b).
  { destruct (QueryProofs.fit_planned _ _ _ _ _ _ _ EF) as (v2 & q2 & p2 & _ & _ & _ & GP2 & KN).
    destruct (QueryProofs.run_keeps pl nm (fun _ => True) (fun _ _ _ _ _ _ H => H) (fun _ _ _ _ _ H _ => H) l e1) as (_ & (b & FB) & _); [eapply Forall_impl; [|exact FL]; intros o [X _]; exact X| |].
    - destruct KN as (K1 & K2 & _). split; [exact K1|]. split; [exact K2|]. auto.
    - exists b. apply WorldProofs.find_in in FB. split; apply FB. }
  destruct NA2 as (b & NB). destruct (WK b NB) as (FT & ps & _ & _ & SO2 & LV2). pose proof (wf_grid _ _ _ _ W2) as G2.
  destruct PG as (_ & SEL & _). destruct (SEL seed) as (draws & ED).
  assert (M : is_mdp sas) by (eapply grid_is_mdp; eauto).
  destruct (masked_policies sas q M ltac:(destruct LV; lia) MQ) as [P1 _]. destruct (P1 draws) as (pi & Epi & Lp & BB). rewrite <- ED in Epi.
  destruct (BB _ (proj1 LV2) (proj2 LV2)) as (act & EA & LA & _). pose proof NB as [Hb Nb].
  assert (GP : get_policy pl b seed = (set_policy b (Some pi) (Some p), Ok tt)). { unfold get_policy. now rewrite FT, Nb, EP, Epi. }
  destruct (grid_shape _ _ _ _ G2) as (N2 & A2 & _). rewrite MS2 in N2, A2.
  assert (LA' : (act < m_n_actions (e_mdp (run pl e1 l)))%nat) by (rewrite (gi_na _ _ _ _ G2); lia).
  assert (PI : py_index (length pi) (at_pos b) = Ok (last ps i)). { unfold stands_on in SO2. rewrite Lp, N2, <- (gi_ns _ _ _ _ G2). exact SO2. }
  destruct (agent_step_goes pl _ _ _ (run pl e1 l) b seed _ pi _ act W2 Hb GP eq_refl PI EA LA') as (m' & b' & ES). destruct (env_step_goes _ _ _ _ _ _ _ _ _ _ W2 NB CR ES) as (e2 & z & EE).
  destruct (env_step_full _ _ _ _ _ _ _ _ _ W2 EE) as [(X & _)|[(? & ? & ? & _ & X & _)|(? & ? & t & _ & _ & _ & _ & _ & [(X & _)|(X & _)])]]; try discriminate. exists e2, t. now rewrite EE, X.
Qed.
(** Meanwhile the agent can always take a further step. *)
Theorem C119_goes_on : forall pl e nm g tol k n s s' e1 l a i seed, reachable pl e -> plans_greedily pl nm g tol k ->
  env_fit pl e nm n s s' = (e1, Ok tt) -> agent_named e nm a -> stands_on (e_mdp e) (at_pos a) i -> state_valid_actions (e_mdp e) (Z.of_nat i) <> Ok [] ->
  Forall (lets_walk nm) l -> consumes_in_range (run pl e1 l) -> exists e2 t, env_step pl (run pl e1 l) nm seed = (e2, Ok (Z.of_nat t)).
Proof.
  intros pl e nm g tol k n s s' e1 l a i seed RE PG EF NA. apply (goes_on_any (vi_fit g tol k) pl e nm n s s' e1 l a i seed RE PG); auto.
  intros v q FV. apply vi_fit_solves in FV. destruct FV as (v' & FV). destruct (reachable_wf _ _ RE) as (kd & shape & st & W).
  now destruct (C30_mask _ _ _ _ _ _ _ _ _ (grid_is_mdp _ _ _ _ (wf_grid _ _ _ _ W)) (or_introl eq_refl) FV) as (_ & MQ).
Qed.

(** The plug-in of the examples plans this way. On three squares in a row with rewards 1 in the middle and 2 at
    the end, discount 1/2, at most 11 iterations and tolerance 1/4, planning succeeds with every hypothesis met
    ((1 + 1/2) (1/2)^10 * 2 / (1/2) < 1/4), and then three steps, between which the other agent is put
    elsewhere, collect 1 + 2/2 + 1/4 = 9/4; the best return is 8/3. *)
Example C119_plugin : forall g tol mi nm, plans_greedily (vi_greedy (A:=R) g tol mi) nm g tol mi.
Proof.
  intros g tol mi nm. destruct (C34_vi_plugin g tol mi nm) as [_ _]. split; [|split; [intros seed; exists (fun _ => seed); reflexivity|reflexivity]].
  intros e a n seed ND [Ha Na]. cbn [vi_greedy pl_fit]. destruct (find_agent (e_agents e) nm) as [b|] eqn:F.
  - unfold find_agent in F. apply find_some in F. destruct F as [Hb Nb]. apply String.eqb_eq in Nb. assert (b = a) by (eapply same_name_same; eauto; congruence). now subst b.
  - unfold find_agent in F. pose proof (find_none _ _ F a Ha) as X. cbn in X. rewrite Na, String.eqb_refl in X. discriminate.
Qed.
Example C119_example : let pl := (vi_greedy (1 # 2) (1 # 4) 11)%Q in exists m m' e e1, grid_mdp (A:=Q) Square [[0; 1; 2]%Q] None (3, 1)%nat false = Ok m /\
  make_env m [mkSpec "p"%string 1%Z None 0%Z [1; 0; 0]%Q []; mkSpec "q"%string 1%Z None 1%Z [0; 0; 0]%Q []] = (m', Ok e) /\
  env_fit pl e "p" None 0%nat 0%nat = (e1, Ok tt) /\ state_valid_actions (e_mdp e) 0 = Ok [1%nat] /\
  map at_hist (e_agents (run pl e1 [OStep "p" 0; OSetPosition "q" 2%Z; OStepMulti "p" (StepsInt 2) None 1%Z false false (fun _ => 0)]%nat)) = [[0; 1; 2; 1]; [1]]%Z.
Proof. do 4 eexists. vmr. Qed.
