(** Every behaviour has a total discounted return, and concrete cases for C30, C32, C67, C69, C148 and C150. *)
From Coq Require Import List ZArith Reals Bool Lia Lra.
From Verif Require Import PyBase PyProofs RSum ActionModel ActionSpec ActionProofs VIModel VISpec VIProofs VIProofs2 VIProps VIBest VIAnytime.
Import ListNotations.
Local Open Scope R_scope.

Lemma return_bounded : forall sas r g b rho, is_mdp sas -> 0 <= g < 1 -> acts sas b -> 0 <= rho -> (forall t, (t < n_states sas)%nat -> Rabs (r t) <= rho) ->
  forall k h s, (s < n_states sas)%nat -> Rabs (return_ sas r g k b h s) <= rho / (1 - g).
Proof.
  intros sas r g b rho M G AC R0 RB. assert (C0 : 0 <= rho / (1 - g)) by (apply Rmult_le_pos; [lra|left; apply Rinv_0_lt_compat; lra]).
  induction k as [|k IH]; intros h s Hs; cbn [return_]; [now rewrite Rabs_R0|]. set (a := b h s). assert (Ha : (a < n_actions sas)%nat) by apply AC.
  eapply Rle_trans; [apply sumf_abs|]. apply Rle_trans with (rho / (1 - g) * sumf (prob sas s a) (seq 0 (n_states sas))).
  - rewrite <- sumf_scal. apply sumf_le. intros t Ht. apply in_seq in Ht. pose proof (p_nn sas M s a t Hs Ha ltac:(lia)) as PN. rewrite Rabs_mult, (Rabs_pos_eq _ PN), Rmult_comm. apply Rmult_le_compat_r; [exact PN|].
    eapply Rle_trans; [apply Rabs_triang|]. rewrite Rabs_mult, (Rabs_pos_eq g) by lra. specialize (IH (s :: h) t ltac:(lia)). specialize (RB t ltac:(lia)).
    assert (g * Rabs (return_ sas r g k b (s :: h) t) <= g * (rho / (1 - g))) by (apply Rmult_le_compat_l; lra).
    replace (rho / (1 - g)) with (rho + g * (rho / (1 - g))) at 1 by (field; lra). lra.
  - pose proof (p_sum sas M s a Hs Ha). rewrite <- (Rmult_1_r (rho / (1 - g))) at 2. apply Rmult_le_compat_l; lra.
Qed.
Lemma return_tail : forall sas r g b C, is_mdp sas -> 0 <= g < 1 -> acts sas b -> 0 <= C -> (forall k h s, (s < n_states sas)%nat -> Rabs (return_ sas r g k b h s) <= C) ->
  forall m j h s, (s < n_states sas)%nat -> Rabs (return_ sas r g (m + j) b h s - return_ sas r g m b h s) <= g ^ m * C.
Proof.
  intros sas r g b C M G AC C0 RB. induction m as [|m IH]; intros j h s Hs; cbn [Nat.add return_ pow].
  - rewrite Rminus_0_r, Rmult_1_l. now apply RB.
  - set (a := b h s). assert (Ha : (a < n_actions sas)%nat) by apply AC. rewrite <- sumf_sub. eapply Rle_trans; [apply sumf_abs|].
    assert (GM : 0 <= g * g ^ m * C) by (repeat apply Rmult_le_pos; try lra; apply pow_le; lra).
    apply Rle_trans with (g * g ^ m * C * sumf (prob sas s a) (seq 0 (n_states sas))).
    + rewrite <- sumf_scal. apply sumf_le. intros t Ht. apply in_seq in Ht. pose proof (p_nn sas M s a t Hs Ha ltac:(lia)) as PN.
      replace (prob sas s a t * (r t + g * return_ sas r g (m + j) b (s :: h) t) - prob sas s a t * (r t + g * return_ sas r g m b (s :: h) t))
        with (prob sas s a t * (g * (return_ sas r g (m + j) b (s :: h) t - return_ sas r g m b (s :: h) t))) by ring.
      rewrite !Rabs_mult, (Rabs_pos_eq _ PN), (Rabs_pos_eq g) by lra. rewrite Rmult_comm. apply Rmult_le_compat_r; [exact PN|]. rewrite Rmult_assoc. apply Rmult_le_compat_l; [lra|]. apply IH. lia.
    + pose proof (p_sum sas M s a Hs Ha). rewrite <- (Rmult_1_r (g * g ^ m * C)) at 2. apply Rmult_le_compat_l; lra.
Qed.
(** Whatever a behaviour does, its total discounted return exists: C31, C67, C69 speak about all of them. *)
Theorem C67_returns_exist : forall sas r g b s, is_mdp sas -> 0 <= g < 1 -> acts sas b -> (s < n_states sas)%nat -> exists x, total_return sas r g b s x.
Proof.
  intros sas r g b s M G AC Hs. destruct (bounded (n_states sas) (fun _ => 0) r) as (rho & R0 & RB0).
  assert (RB : forall t, (t < n_states sas)%nat -> Rabs (r t) <= rho). { intros t Ht. specialize (RB0 t Ht). rewrite Rminus_0_l, Rabs_Ropp in RB0. exact RB0. }
  set (C := rho / (1 - g)). assert (C0 : 0 <= C) by (apply Rmult_le_pos; [lra|left; apply Rinv_0_lt_compat; lra]).
  pose proof (return_tail sas r g b C M G AC C0 (return_bounded sas r g b rho M G AC R0 RB)) as TL.
  destruct (R_complete (fun k => return_ sas r g k b [] s)) as (x & X); [|exists x; exact X].
  intros eps He. destruct (pow_small g G C (eps / 2)) as (K & HK); [lra|]. exists K. intros n m Hn Hm. unfold R_dist.
  pose proof (TL K (n - K)%nat [] s Hs) as T1. pose proof (TL K (m - K)%nat [] s Hs) as T2. replace (K + (n - K))%nat with n in T1 by lia. replace (K + (m - K))%nat with m in T2 by lia.
  replace (return_ sas r g n b [] s - return_ sas r g m b [] s) with ((return_ sas r g n b [] s - return_ sas r g K b [] s) - (return_ sas r g m b [] s - return_ sas r g K b [] s)) by ring.
  eapply Rle_lt_trans; [apply Rabs_triang|]. rewrite Rabs_Ropp. lra.
Qed.

(** ** Concrete cases *)
(** The MDP of [C29_hypotheses]: action 0 leads to either state with probability 1/2, action 1 stays in state 1 and is
    impossible in state 0; state 1 is worth 1. Six sweeps at a discount of 1/2 reach a tolerance of 1/10. *)
Definition coin_value (s : nat) : R := match s with O => 4 / 3 | _ => 2 end.
Lemma coin_reward : forall t, (t < n_states coin_sas)%nat -> reward_of [1] [[0; 1]] t = INR t.
Proof. intros t Ht. change (n_states coin_sas) with 2%nat in Ht. unfold reward_of. cbn [length seq]. rewrite sumf_cons, sumf_nil. destruct t as [|[|t]]; [| |lia]; cbn; lra. Qed.
Lemma coin_nonneg : forall t, (t < n_states coin_sas)%nat -> 0 <= reward_of [1] [[0; 1]] t.
Proof. intros t Ht. rewrite coin_reward by exact Ht. apply pos_INR. Qed.
Lemma coin_near : near (n_states coin_sas) 2 (fun _ => 0) coin_value.
Proof. intros s Hs. rewrite Rminus_0_l, Rabs_Ropp, Rabs_pos_eq; destruct s; cbn; lra. Qed.
Lemma coin_possible : possible coin_sas 0 0 /\ ~ possible coin_sas 0 1 /\ possible coin_sas 1 0 /\ possible coin_sas 1 1.
Proof.
  assert (N : n_states coin_sas = 2%nat) by reflexivity. unfold possible. rewrite N. split; [exists 0%nat|split; [|split; [exists 0%nat|exists 1%nat]]]; try (split; [lia|]; unfold prob, coin_sas; cbn; lra).
  intros (t & Ht & P). unfold prob, coin_sas in P. destruct t as [|[|t]]; [| |lia]; cbn in P; lra.
Qed.
Example C67_example : exists v q b x, solve_value_iteration hard_backup [1] [[0; 1]] 6 (1 / 2) coin_sas (1 / 10) = Ok (v, q) /\
  (** C29 *) near 2 (1 / 10) (fun s => nth s v 0) coin_value /\
  (** C30 *) (exists y, nth 0 (nth 0 q []) NaN = Fin y) /\ nth 1 (nth 0 q []) NaN = NInf /\
  (** C67 *) (forall h s, (s < 2)%nat -> best_action (nth s q []) (b h s)) /\ acts coin_sas b /\ total_return coin_sas (reward_of [1] [[0; 1]]) (1 / 2) b 0 x /\ 4 / 3 - 4 / 10 <= x <= 4 / 3 /\
  (** C69 *) best_return coin_sas (reward_of [1] [[0; 1]]) (1 / 2) (acts_possibly coin_sas) 0 (4 / 3) /\
  (** C148 *) 0 <= nth 1 v 0 <= 2.
Proof.
  destruct C29_hypotheses as [M O]. fold coin_value in O. destruct coin_possible as (P00 & P01 & P10 & P11).
  destruct (C29_solver coin_sas [1] [[0; 1]] 5 (1 / 2) (1 / 10) coin_value 2 M ltac:(lra) eq_refl O coin_near ltac:(lra)) as (v & q & E & L1 & L2). change (Z.of_nat 6) with 6%Z in E.
  assert (TOL : (1 + 1 / 2) * (1 / 2) ^ 5 * 2 < 1 / 10) by (cbn; lra).
  destruct (C30_mask hard_backup coin_sas [1] [[0; 1]] 6 (1 / 2) (1 / 10) v q M (or_introl eq_refl) E) as (_ & LQ & MQ). change (n_states coin_sas) with 2%nat in *. change (n_actions coin_sas) with 2%nat in *.
  assert (BA : forall s, exists a, (a < 2)%nat /\ ((s < 2)%nat -> best_action (nth s q []) a)).
  { intros s. destruct (lt_dec s 2) as [Hs|]; [|exists 0%nat; split; [lia|intros; lia]]. destruct (MQ s Hs) as [LR MA]. destruct (max_actions_spec (nth s q [])) as (l & _ & _ & NE & BS).
    - intros X. rewrite X in LR. discriminate.
    - intros y Hy X. subst y. apply (In_nth _ _ NaN) in Hy. destruct Hy as (a & Ha & EA). rewrite LR in Ha. destruct (MA a Ha) as [MN MP]. destruct (possible_dec coin_sas s a) as [P|P]; [destruct (MP P) as (y & Y); congruence|apply MN in P; congruence].
    - destruct l as [|a l]; [congruence|]. exists a. assert (B : best_action (nth s q []) a) by (apply BS; now left). split; [destruct B as [B _]; lia|auto]. }
  assert (CH : exists f : nat -> nat, forall s, (f s < 2)%nat /\ ((s < 2)%nat -> best_action (nth s q []) (f s))).
  { destruct (BA 0%nat) as (a0 & A0 & B0). destruct (BA 1%nat) as (a1 & A1 & B1). exists (fun s => match s with O => a0 | _ => a1 end). intros [|[|s]]; auto. split; [exact A1|intros; lia]. }
  destruct CH as (f & F). set (b := fun (_ : list nat) s => f s). assert (AC : acts coin_sas b) by (intros h s; apply F).
  destruct (C67_returns_exist coin_sas (reward_of [1] [[0; 1]]) (1 / 2) b 0 M ltac:(lra) AC ltac:(cbn; lia)) as (x & TR).
  assert (BB : forall (h : list nat) s, (s < 2)%nat -> best_action (nth s q []) (b h s)) by (intros h s Hs; now apply F).
  exists v, q, b, x. split; [exact E|]. split; [specialize (proj2 L2 TOL); replace (1 / 2 * (1 / 10) / (1 - 1 / 2)) with (1 / 10) by lra; auto|].
  split; [apply (proj2 (MQ 0%nat ltac:(lia))); [lia|exact P00]|]. split; [apply (proj2 (MQ 0%nat ltac:(lia))); [lia|exact P01]|]. split; [exact BB|]. split; [exact AC|]. split; [exact TR|]. split.
  - pose proof (C67_greedy_near_optimal coin_sas [1] [[0; 1]] 5 (1 / 2) (1 / 10) coin_value 2 v q b M ltac:(lra) eq_refl coin_nonneg O coin_near ltac:(lra) TOL E BB AC 0%nat x ltac:(cbn; lia) TR) as X. cbn [coin_value] in X. lra.
  - split; [exact (C69_nonnegative coin_sas _ (1 / 2) coin_value M ltac:(lra) O coin_nonneg 0%nat ltac:(cbn; lia))|].
    destruct (C148_bounds coin_sas [1] [[0; 1]] 6 (1 / 2) (1 / 10) v q 0 1 M E ltac:(lra)) with (s := 1%nat) as [X _]; [|cbn; lia|lra].
    intros t Ht. rewrite coin_reward by exact Ht. change (n_states coin_sas) with 2%nat in Ht. destruct t as [|[|t]]; [| |lia]; cbn; lra.
Qed.
(** The same with soft values, and with a smaller discount. *)
Example C32_example : exists Vs v q, soft_optimal soft_eps coin_sas (reward_of [1] [[0; 1]]) (1 / 2) Vs /\ solve_value_iteration soft_backup [1] [[0; 1]] 6 (1 / 2) coin_sas (1 / 10) = Ok (v, q) /\ length v = 2%nat /\
  4 / 3 <= Vs 0%nat /\ 2 <= Vs 1%nat.
Proof.
  destruct C29_hypotheses as [M O]. fold coin_value in O. destruct (C32_unique_solution coin_sas (reward_of [1] [[0; 1]]) (1 / 2) M ltac:(lra)) as (Vs & S & _).
  destruct (bounded (n_states coin_sas) (fun _ => 0) Vs) as (B & B0 & N).
  destruct (C32_solver coin_sas [1] [[0; 1]] 5 (1 / 2) (1 / 10) Vs B M ltac:(lra) eq_refl S N B0) as (v & q & E & L & _).
  pose proof (C32_soft_above_hard coin_sas _ (1 / 2) coin_value Vs M ltac:(lra) O S) as AB.
  exists Vs, v, q. split; [exact S|]. split; [exact E|]. split; [exact L|]. split; [apply (AB 0%nat)|apply (AB 1%nat)]; cbn; lia.
Qed.
Example C150_example : exists V v q v' q', optimal coin_sas (reward_of [1] [[0; 1]]) (1 / 4) V /\ V 0%nat <= 4 / 3 /\ V 1%nat <= 2 /\
  solve_value_iteration hard_backup [1] [[0; 1]] 6 (1 / 4) coin_sas (1 / 10) = Ok (v, q) /\ solve_value_iteration hard_backup [1] [[0; 1]] 6 (1 / 2) coin_sas (1 / 10) = Ok (v', q') /\ nth 0 v 0 <= nth 0 v' 0 + 1 / 10.
Proof.
  destruct C29_hypotheses as [M O]. fold coin_value in O. destruct (C29_unique_solution coin_sas (reward_of [1] [[0; 1]]) (1 / 4) M ltac:(lra)) as (V & OV & _).
  destruct (bounded (n_states coin_sas) (fun _ => 0) V) as (B & B0 & N).
  destruct (C29_solver coin_sas [1] [[0; 1]] 5 (1 / 4) (1 / 10) V B M ltac:(lra) eq_refl OV N B0) as (v & q & E & _).
  destruct (C29_solver coin_sas [1] [[0; 1]] 5 (1 / 2) (1 / 10) coin_value 2 M ltac:(lra) eq_refl O coin_near ltac:(lra)) as (v' & q' & E' & _).
  pose proof (C150_discount coin_sas _ (1 / 4) (1 / 2) V coin_value M ltac:(lra) ltac:(lra) coin_nonneg OV O) as D.
  exists V, v, q, v', q'. split; [exact OV|]. split; [apply (D 0%nat); cbn; lia|]. split; [apply (D 1%nat); cbn; lia|]. split; [exact E|]. split; [exact E'|].
  pose proof (C150_fitted coin_sas [1] [[0; 1]] (1 / 4) (1 / 2) 5 (1 / 10) 1 v q v' q' M ltac:(lra) ltac:(lra)) as F. replace (1 / 2 * (1 / 10) / (1 - 1 / 2)) with (1 / 10) in F by lra. apply F; [|cbn; lra|exact E|exact E'|cbn; lia].
  intros t Ht. rewrite coin_reward by exact Ht. change (n_states coin_sas) with 2%nat in Ht. destruct t as [|[|t]]; [| |lia]; cbn; lra.
Qed.
