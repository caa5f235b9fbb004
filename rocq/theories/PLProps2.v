(** Learning rates, resets and convergence of policy learning. *)
From Coq Require Import List ZArith Reals Bool Lia Lra.
From Verif Require Import PyBase PyProofs ActionSpec RSum GridModel GridSpec GridProofs MDPModel MDPSpec MDPProofs2 MDPProofs3 MDPProofs4 MDPProps PLModel PLSpec PLAngles PLProofs PLProps.
Import ListNotations.
Local Open Scope R_scope.

(** ** C49 *)
(** The documented rate for the [n]-th observation, n = 1, 2, ... *)
Definition documented_rate (lr r : R) (n : nat) : R := lr * Rpower (INR n) (- r).
Definition actual_rate (lr r : R) (n : nat) : R := lr * Rpower (INR (fact n)) (- r).

Lemma later_rate_prod : forall (c : td_config R) i adj n, later_rate c adj n i = adj * prodf (factor c) (seq n (S i)).
Proof.
  intros c. induction i as [|i IH]; intros adj n; cbn [later_rate].
  - cbn [seq]. rewrite prodf_cons. unfold prodf. cbn [fold_right]. lra.
  - rewrite IH. change (seq n (S (S i))) with (n :: seq (S n) (S i)). rewrite prodf_cons. lra.
Qed.
Lemma Rpower_one : forall y, Rpower 1 y = 1. Proof. intros y. unfold Rpower. now rewrite ln_1, Rmult_0_r, exp_0. Qed.
Lemma prod_fact : forall r i, prodf (fun n => Rpower (INR n) (- r)) (seq 1 i) = Rpower (INR (fact i)) (- r).
Proof.
  intros r. induction i as [|i IH]; [unfold prodf; cbn [seq fold_right fact INR]; now rewrite Rpower_one|].
  rewrite seq_S, prodf_app, IH. unfold prodf. cbn [fold_right]. rewrite Rmult_1_r. cbn [Nat.add]. rewrite Rpower_mult_distr by (apply lt_0_INR; [apply lt_O_fact || lia]). f_equal. rewrite <- mult_INR. f_equal. cbn [fact]. lia.
Qed.
Lemma fresh_rate : forall lr r Q kernel ls c l0 q i, td_learner lr (DecayFloat r) Q kernel ls = Ok (c, l0) -> 0 < r -> rate_at c (started l0 q) i = actual_rate lr r (S i).
Proof.
  intros lr r Q kernel ls c l0 q i ET Hr. destruct (td_learner_inv _ _ _ _ _ _ _ ET) as (LP & _ & EL & ED & EF & ER & EN). unfold rate_at. rewrite ED. cbn [decay_value]. cbn [nltb NumR]. unfold Rltb. destruct (Rlt_dec 0 r) as [_|X]; [|lra].
  rewrite later_rate_prod. subst l0. cbn [started new_learner l_adj l_n]. rewrite EL. unfold actual_rate. f_equal. rewrite <- prod_fact. apply prodf_ext. intros n _. unfold factor. rewrite EF. reflexivity.
Qed.
(** With float decay, the [n]-th observation of a new learner's first fit is weighted by lr (n!)^-d. *)
Theorem C49_actual_schedule : forall lr r Q kernel ls c l0 arg ts l' nA q,
  td_learner lr (DecayFloat r) Q kernel ls = Ok (c, l0) -> 0 < r -> (forall m, In m (mdps_of arg (length ts)) -> m_n_actions m = nA) -> starts_from l0 nA q -> fit_learner c arg ts l0 = (l', Ok tt) ->
  exists acts q', observed (mdps_of arg (length ts)) ts acts /\ learner_q_values l' = QArr q' /\ length q' = nA /\
    forall b, (b < nA)%nat -> nth b q' 0 = weighted_average (length acts) (fun i => actual_rate lr r (S i)) (fun i => shown kernel ls nA (nth i acts 0%nat) b) (nth b q 0).
Proof.
  intros lr r Q kernel ls c l0 arg ts l' nA q ET Hr N ST E. destruct (td_learner_inv _ _ _ _ _ _ _ ET) as (_ & _ & EL & ED & EF & ER & _).
  assert (LR : forall a v, c_reward c nA a = Ok v -> length v = nA) by (intros a v; rewrite ER; apply reward_len).
  destruct (fit_learned c nA arg ts l0 l' q LR N ST E) as (acts & l1 & O & (q0 & q' & E0 & L0 & E1 & L1 & H & _) & ->). cbn [started l_Q] in E0. assert (q0 = q) by congruence. subst q0.
  exists acts, q'. split; [exact O|]. split; [exact E1|]. split; [exact L1|]. intros b Hb. rewrite H by exact Hb. apply wa_ext. intros i Hi. split; [eapply fresh_rate; eauto|now apply credit_shown].
Qed.
(** The schedules agree on the first two observations. *)
Theorem C49_two_observations_partial : forall lr r Q kernel ls c l0 arg ts l' nA q,
  td_learner lr (DecayFloat r) Q kernel ls = Ok (c, l0) -> 0 < r -> (forall m, In m (mdps_of arg (length ts)) -> m_n_actions m = nA) -> starts_from l0 nA q -> fit_learner c arg ts l0 = (l', Ok tt) ->
  exists acts q', observed (mdps_of arg (length ts)) ts acts /\ learner_q_values l' = QArr q' /\ length q' = nA /\
    forall b, (b < nA)%nat -> (length acts <= 2)%nat -> nth b q' 0 = weighted_average (length acts) (fun i => documented_rate lr r (S i)) (fun i => shown kernel ls nA (nth i acts 0%nat) b) (nth b q 0).
Proof.
  intros lr r Q kernel ls c l0 arg ts l' nA q ET Hr N ST E. destruct (C49_actual_schedule _ _ _ _ _ _ _ _ _ _ _ _ ET Hr N ST E) as (acts & q' & O & EQ & LQ & H). exists acts, q'. split; [exact O|]. split; [exact EQ|]. split; [exact LQ|].
  intros b Hb L2. rewrite H by exact Hb. apply wa_ext. intros i Hi. split; [|reflexivity]. unfold actual_rate, documented_rate. destruct i as [|[|i]]; [reflexivity|reflexivity|lia].
Qed.

Lemma Rpower_neg_lt : forall x y r, 0 < r -> 0 < x -> x < y -> Rpower y (- r) < Rpower x (- r).
Proof. intros x y r Hr Hx Hy. unfold Rpower. apply exp_increasing. assert (ln x < ln y) by (now apply ln_increasing). nra. Qed.
Lemma Rpower_pos : forall x y, 0 < Rpower x y. Proof. intros. apply exp_pos. Qed.
Lemma fact_pos : forall k, 1 <= INR (fact k). Proof. intros k. replace 1 with (INR 1) by reflexivity. apply le_INR. apply lt_O_fact. Qed.
Lemma power_le_1 : forall x r, 0 < r -> 1 <= x -> Rpower x (- r) <= 1.
Proof. intros x r Hr [Hx| <-]; [|rewrite Rpower_one; lra]. left. rewrite <- (Rpower_one (- r)). apply Rpower_neg_lt; lra. Qed.
Lemma fact_ge : forall k, (k <= fact k)%nat.
Proof. induction k as [|k IH]; [cbn; lia|]. cbn [fact]. pose proof (lt_O_fact k). nia. Qed.
Lemma fact_gt : forall k, (3 <= k -> k < fact k)%nat.
Proof. intros k Hk. destruct k as [|k]; [lia|]. cbn [fact]. pose proof (fact_ge k). nia. Qed.
Lemma actual_le_documented : forall lr r k, 0 < lr -> 0 < r -> (1 <= k)%nat -> actual_rate lr r k <= documented_rate lr r k.
Proof.
  intros lr r k Hl Hr Hk. unfold actual_rate, documented_rate. apply Rmult_le_compat_l; [lra|]. destruct (Nat.eq_dec k (fact k)) as [<-|NE]; [lra|]. left. apply Rpower_neg_lt; [exact Hr|apply lt_0_INR; lia|]. apply lt_INR. pose proof (fact_ge k). lia.
Qed.
Lemma actual_lt_documented : forall lr r k, 0 < lr -> 0 < r -> (3 <= k)%nat -> actual_rate lr r k < documented_rate lr r k.
Proof.
  intros lr r k Hl Hr Hk. unfold actual_rate, documented_rate. apply Rmult_lt_compat_l; [lra|]. apply Rpower_neg_lt; [exact Hr|apply lt_0_INR; lia|]. apply lt_INR. now apply fact_gt.
Qed.
Lemma documented_bound : forall lr r k, 0 < lr -> 0 < r -> (1 <= k)%nat -> 0 < documented_rate lr r k <= lr.
Proof.
  intros lr r k Hl Hr Hk. unfold documented_rate. assert (X : Rpower (INR k) (- r) <= 1) by (apply power_le_1; [exact Hr|replace 1 with (INR 1) by reflexivity; now apply le_INR]). pose proof (Rpower_pos (INR k) (- r)). split; nra.
Qed.
Lemma actual_bound : forall lr r k, 0 < lr -> 0 < r -> 0 < actual_rate lr r k <= lr.
Proof. intros lr r k Hl Hr. unfold actual_rate. pose proof (power_le_1 _ r Hr (fact_pos k)). pose proof (Rpower_pos (INR (fact k)) (- r)). split; nra. Qed.

(** Always the same observation. *)
Lemma wa_one : forall n rate obs x, (forall i, (i < n)%nat -> obs i = 1) -> weighted_average n rate obs x = 1 - prodf (fun i => 1 - rate i) (seq 0 n) * (1 - x).
Proof.
  induction n as [|n IH]; intros rate obs x H; [rewrite wa_0; unfold prodf; cbn [seq fold_right]; lra|]. rewrite wa_snoc, IH by (intros; apply H; lia). rewrite H by lia. rewrite seq_S, prodf_app. rewrite prodf_cons. change (prodf (fun i => 1 - rate i) []) with 1. cbn [Nat.add]. lra.
Qed.
Lemma prodf_pos : forall A (f : A -> R) l, (forall x, In x l -> 0 < f x) -> 0 < prodf f l.
Proof. induction l as [|x l IH]; intros H; [unfold prodf; cbn; lra|]. rewrite prodf_cons. apply Rmult_lt_0_compat; [apply H; now left|apply IH; intros; apply H; now right]. Qed.
Lemma prodf_le : forall A (f g : A -> R) l, (forall x, In x l -> 0 < f x <= g x) -> prodf f l <= prodf g l.
Proof.
  induction l as [|x l IH]; intros H; [unfold prodf; cbn; lra|]. rewrite !prodf_cons. destruct (H x (or_introl eq_refl)). assert (prodf f l <= prodf g l) by (apply IH; intros; apply H; now right).
  assert (0 < prodf f l) by (apply prodf_pos; intros y Hy; apply H; now right). nra.
Qed.
(** From the third observation on, the estimate falls behind the documented schedule: with every
    observation of the same action, for every decay and learning rate below one. *)
Theorem C49_schedule_refuted : forall lr r ls c l0 arg ts l' nA b acts q',
  td_learner lr (DecayFloat r) None false ls = Ok (c, l0) -> 0 < r -> lr < 1 -> (forall m, In m (mdps_of arg (length ts)) -> m_n_actions m = nA) -> fit_learner c arg ts l0 = (l', Ok tt) ->
  observed (mdps_of arg (length ts)) ts acts -> (b < nA)%nat -> Forall (fun a => a = b) acts -> (3 <= length acts)%nat -> learner_q_values l' = QArr q' ->
  nth b q' 0 < weighted_average (length acts) (fun i => documented_rate lr r (S i)) (fun _ => 1) 0.
Proof.
  intros lr r ls c l0 arg ts l' nA b acts q' ET Hr L1 N E O Hb FA L3 EQ. destruct (td_learner_inv _ _ _ _ _ _ _ ET) as (LP & _ & EL & ED & EF & ER & EN).
  assert (ST : starts_from l0 nA (repeat 0 nA)) by (right; subst l0; auto).
  destruct (C49_actual_schedule _ _ _ _ _ _ _ _ _ _ _ _ ET Hr N ST E) as (acts' & q'' & O' & EQ' & LQ & H). assert (q'' = q') by congruence. subst q''.
  assert (acts' = acts). { clear -O O'. revert acts' O'. induction O as [|m ms t ts a acts T O IH]; intros acts' O'; inversion O'; subst; [reflexivity|]. f_equal; [|now apply IH]. match goal with H : taken m t ?x |- _ => revert H end. revert T. unfold taken. destruct t; [congruence|]. intros (sa & E1 & ->) (sa' & E2 & ->). congruence. } subst acts'.
  rewrite H by exact Hb. rewrite Forall_forall in FA. rewrite !wa_one; [|reflexivity|intros i Hi; unfold shown; rewrite (FA _ (nth_In acts 0%nat Hi)), Nat.eqb_refl; reflexivity].
  rewrite nth_repeat_lt by exact Hb. replace (length acts) with (2 + S (length acts - 3))%nat by lia. rewrite !seq_app, !prodf_app. cbn [Nat.add seq]. set (m := (length acts - 3)%nat).
  set (A1 := prodf (fun i => 1 - actual_rate lr r (S i)) [0%nat; 1%nat]). set (D1 := prodf (fun i => 1 - documented_rate lr r (S i)) [0%nat; 1%nat]).
  assert (ED1 : A1 = D1) by (apply prodf_ext; intros x [<-|[<-|[]]]; reflexivity). rewrite ED1. rewrite !prodf_cons.
  assert (PD : 0 < D1). { apply prodf_pos. intros x _. pose proof (documented_bound lr r (S x) LP Hr ltac:(lia)). lra. }
  assert (X : prodf (fun i => 1 - documented_rate lr r (S i)) (seq 3 m) <= prodf (fun i => 1 - actual_rate lr r (S i)) (seq 3 m)).
  { apply prodf_le. intros x _. pose proof (documented_bound lr r (S x) LP Hr ltac:(lia)). pose proof (actual_le_documented lr r (S x) LP Hr ltac:(lia)). lra. }
  assert (P3 : 0 < prodf (fun i => 1 - documented_rate lr r (S i)) (seq 3 m)). { apply prodf_pos. intros x _. pose proof (documented_bound lr r (S x) LP Hr ltac:(lia)). lra. }
  pose proof (actual_lt_documented lr r 3 LP Hr ltac:(lia)) as L. pose proof (documented_bound lr r 3 LP Hr ltac:(lia)) as B. revert L X P3 B. generalize (actual_rate lr r 3) (documented_rate lr r 3) (prodf (fun i => 1 - documented_rate lr r (S i)) (seq 3 m)) (prodf (fun i => 1 - actual_rate lr r (S i)) (seq 3 m)). intros a3 d3 PD3 PA3 L X P3 B.
  assert (Y : (1 - d3) * PD3 < (1 - a3) * PA3) by nra. apply (Rmult_lt_compat_l D1) in Y; [lra|exact PD].
Qed.
(** An integer decay (the documented type) makes every observation fail. *)
Theorem C49_integer_refuted : forall lr z Q kernel ls c l0 arg (ts : list (list nat)) nA, td_learner lr (DecayInt z) Q kernel ls = Ok (c, l0) -> (0 < z)%Z ->
  (match Q with Some q => length q = nA | None => True end) -> (forall m, In m (mdps_of arg (length ts)) -> m_n_actions m = nA) -> Forall2 valid_on (mdps_of arg (length ts)) ts -> (exists t, In t ts /\ (2 <= length t)%nat) ->
  exists l', fit_learner c arg (map (map Z.of_nat) ts) l0 = (l', Err ValueError).
Proof.
  intros lr z Q kernel ls c l0 arg ts nA ET Hz FQ N F EX. destruct (td_learner_inv _ _ _ _ _ _ _ ET) as (LP & DP & EL & ED & EF & ER & EN).
  assert (LR : forall a v, c_reward c nA a = Ok v -> length v = nA) by (intros a v; rewrite ER; apply reward_len).
  assert (RO : forall a, (a < nA)%nat -> exists v, c_reward c nA a = Ok v). { intros a Ha. rewrite ER. destruct kernel; [unfold kernel_reward; eauto|]. unfold onehot_reward. apply Nat.ltb_lt in Ha. rewrite Ha. eauto. }
  assert (DD : c_decaying c = true). { rewrite ED. cbn. unfold Rltb. destruct (Rlt_dec 0 (IZR z)) as [_|X]; [reflexivity|]. elim X. now apply IZR_lt. }
  set (ms := mdps_of arg (length ts)) in *. assert (LM : length ms = length ts) by (clear -F; induction F; cbn; congruence).
  assert (FT : fit_learner c arg (map (map Z.of_nat) ts) l0 = let '(l', r) := fit_td c ms (map (map Z.of_nat) ts) l0 in (match r with Ok _ => mkLearner (l_Q l') (l_orig l') (l_shared l') (l_adj l') (l_n l') true | Err _ => l' end, r)).
  { unfold ms in *. destruct arg as [m|mm]; cbn [fit_learner mdps_of] in *; rewrite map_length; [reflexivity|]. rewrite LM, Nat.eqb_refl. reflexivity. }
  assert (FN : fit_td c ms (map (map Z.of_nat) ts) l0 = observe_trajectories c ms 0 (map (map Z.of_nat) ts) (started l0 (match Q with Some q => q | None => repeat 0 nA end))).
  { rewrite EN. unfold fit_td, started. destruct Q as [q|]; cbn [new_learner l_Q l_orig l_shared l_adj l_done]; [reflexivity|]. destruct ms as [|m r] eqn:EM; destruct ts as [|t ts]; try discriminate; [destruct EX as (t & [] & _)|]. rewrite (N m) by (now left). reflexivity. }
  assert (HA : holds_array nA (started l0 (match Q with Some q => q | None => repeat 0 nA end))) by (exists (match Q with Some q => q | None => repeat 0 nA end); split; [reflexivity|destruct Q; [exact FQ|apply repeat_length]]).
  rewrite FT, FN. revert HA. generalize (started l0 (match Q with Some q => q | None => repeat 0 nA end)). intros l HA.
  assert (G : forall us n, Forall2 valid_on (skipn n ms) us -> (n + length us = length ms)%nat -> (exists t, In t us /\ (2 <= length t)%nat) -> observe_trajectories c ms n (map (map Z.of_nat) us) l = (l, Err ValueError)).
  { induction us as [|t us IH]; intros n FF EL2 (u & Hu & L2); [destruct Hu|]. cbn [length] in EL2. destruct (nth_error ms n) as [m|] eqn:EM; [|apply nth_error_None in EM; lia].
    assert (SK : skipn n ms = m :: skipn (S n) ms). { clear -EM. revert EM. generalize ms as mm. induction n as [|n IH]; intros [|x mm] E; try discriminate; cbn in *; [congruence|]. now apply IH. }
    rewrite SK in FF. inversion FF as [|? ? ? ? V F']. subst. pose proof (N m (nth_error_In _ _ EM)) as NM. destruct (valid_taken m t V) as (acts & T & LA & FA). rewrite NM in FA. cbn [map].
    assert (LATER : acts = [] -> exists t0, In t0 us /\ (2 <= length t0)%nat). { intros ->. cbn in LA. destruct Hu as [->|Hu]; [lia|eauto]. }
    destruct t as [|s t]; cbn [map observe_trajectories]; [apply IH; [exact F'|lia|apply LATER; exact T]|]. destruct T as (sa & ET' & EA). cbn [map] in ET'. rewrite EM, ET', <- EA. destruct acts as [|a acts].
    - cbn [observe_all]. apply IH; [exact F'|lia|now apply LATER].
    - cbn [observe_all]. destruct ms as [|m0 r0] eqn:EMS; [destruct n; discriminate|]. cbn [nth_error]. rewrite (N m0) by (now left). inversion FA as [|? ? Ha FA']. subst.
      unfold observe. destruct (RO a Ha) as (v & EV). destruct HA as (q & EQ & LQ). rewrite EV, EQ, (LR _ _ EV), LQ, Nat.eqb_refl. cbn [negb]. rewrite DD, EF. cbn [decay_factor bind]. reflexivity. }
  rewrite (G ts 0%nat) by (try (rewrite skipn_O); auto). eauto.
Qed.
(** Calling [fit] again counts observations from one again, but goes on from the reduced rate: the [k]-th
    observation of the second fit is weighted by lr (n!)^-d (k!)^-d after [n] observations in the first. *)
Theorem C49_second_fit_refuted : forall lr r Q kernel ls c l0 arg1 ts1 l1 arg2 ts2 l2 nA,
  td_learner lr (DecayFloat r) Q kernel ls = Ok (c, l0) -> 0 < r -> (match Q with Some q => length q = nA | None => True end) ->
  (forall m, In m (mdps_of arg1 (length ts1)) -> m_n_actions m = nA) -> fit_learner c arg1 ts1 l0 = (l1, Ok tt) -> (forall m, In m (mdps_of arg2 (length ts2)) -> m_n_actions m = nA) -> fit_learner c arg2 ts2 l1 = (l2, Ok tt) ->
  exists acts1 acts2 q1 q2, observed (mdps_of arg1 (length ts1)) ts1 acts1 /\ observed (mdps_of arg2 (length ts2)) ts2 acts2 /\ learner_q_values l1 = QArr q1 /\ learner_q_values l2 = QArr q2 /\ length q1 = nA /\ length q2 = nA /\
    forall b, (b < nA)%nat -> nth b q2 0 = weighted_average (length acts2) (fun i => actual_rate (actual_rate lr r (length acts1)) r (S i)) (fun i => shown kernel ls nA (nth i acts2 0%nat) b) (nth b q1 0).
Proof.
  intros lr r Q kernel ls c l0 arg1 ts1 l1 arg2 ts2 l2 nA ET Hr FQ N1 F1 N2 F2. destruct (td_learner_inv _ _ _ _ _ _ _ ET) as (_ & _ & EL & ED & EF & ER & EN).
  assert (LR : forall a v, c_reward c nA a = Ok v -> length v = nA) by (intros a v; rewrite ER; apply reward_len).
  assert (DD : c_decaying c = true). { rewrite ED. cbn. unfold Rltb. destruct (Rlt_dec 0 r) as [_|X]; [reflexivity|lra]. }
  assert (ST : starts_from l0 nA (match Q with Some q => q | None => repeat 0 nA end)) by (subst l0; destruct Q; [left; auto|right; auto]). set (q := match Q with Some q => q | None => repeat 0 nA end) in *.
  destruct (fit_learned c nA arg1 ts1 l0 l1 q LR N1 ST F1) as (acts1 & k1 & O1 & (q0 & q1 & _ & _ & E1 & L1 & _ & _ & _ & LN & RA & _) & El1).
  assert (ADJ : l_adj l1 = actual_rate lr r (length acts1)).
  { specialize (RA 0%nat). rewrite Nat.add_0_r in RA. rewrite (fresh_rate _ _ _ _ _ _ _ _ _ ET Hr) in RA. unfold rate_at in RA. rewrite DD in RA. cbn [later_rate] in RA. cbn [started l_n] in LN. rewrite LN in RA. unfold factor in RA. rewrite EF in RA. cbn [decay_factor] in RA.
    unfold actual_rate in *. cbn [fact] in RA. replace (fact (length acts1) + length acts1 * fact (length acts1))%nat with (S (length acts1) * fact (length acts1))%nat in RA by lia.
    rewrite mult_INR in RA. rewrite <- Rpower_mult_distr in RA by (apply lt_0_INR; [lia || apply lt_O_fact]). replace (length acts1 + 1)%nat with (S (length acts1)) in RA by lia. subst l1. cbn [l_adj].
    pose proof (Rpower_pos (INR (S (length acts1))) (- r)) as P. apply (Rmult_eq_reg_r (Rpower (INR (S (length acts1))) (- r))); [|lra]. rewrite RA. ring. }
  assert (ST2 : starts_from l1 nA q1) by (left; subst l1; auto).
  destruct (fit_learned c nA arg2 ts2 l1 l2 q1 LR N2 ST2 F2) as (acts2 & k2 & O2 & (q0' & q2 & E0' & _ & E2 & L2 & H2 & _) & El2). cbn [started l_Q] in E0'. assert (q0' = q1) by congruence. subst q0'.
  exists acts1, acts2, q1, q2. split; [exact O1|]. split; [exact O2|]. split; [subst l1; exact E1|]. split; [subst l2; exact E2|]. split; [exact L1|]. split; [exact L2|].
  intros b Hb. rewrite H2 by exact Hb. apply wa_ext. intros i Hi. split; [|now apply credit_shown]. unfold rate_at. rewrite DD, later_rate_prod. cbn [started l_adj l_n]. rewrite ADJ. unfold actual_rate at 2. f_equal. rewrite <- prod_fact. apply prodf_ext. intros n _. unfold factor. rewrite EF. reflexivity.
Qed.

(** ** C80: convergence *)
(** Without decay, always observing the same action drives its value to one. *)
Theorem C80_without_decay_partial : forall lr d ls c l0 eps, td_learner lr d None false ls = Ok (c, l0) -> decay_value d = 0 -> lr <= 1 -> 0 < eps -> exists many, forall arg ts l' nA b acts q',
  (forall m, In m (mdps_of arg (length ts)) -> m_n_actions m = nA) -> fit_learner c arg ts l0 = (l', Ok tt) ->
  observed (mdps_of arg (length ts)) ts acts -> (b < nA)%nat -> Forall (fun a => a = b) acts -> learner_q_values l' = QArr q' -> (many <= length acts)%nat -> 1 - eps < nth b q' 0 <= 1.
Proof.
  intros lr d ls c l0 eps ET D0 L1 He. destruct (td_learner_inv _ _ _ _ _ _ _ ET) as (LP & _ & EL & ED & EF & ER & EN).
  destruct (pow_lt_1_zero (1 - lr) ltac:(rewrite Rabs_right; lra) eps He) as (M & HM). exists M. intros arg ts l' nA b acts q' N E O Hb FA EQ LM.
  assert (ST : starts_from l0 nA (repeat 0 nA)) by (right; subst l0; auto).
  destruct (C47_average _ _ _ _ _ _ _ _ _ _ _ _ _ ET D0 N ST E) as (acts' & q'' & O' & EQ' & LQ & H). assert (q'' = q') by congruence. subst q''.
  assert (acts' = acts). { clear -O O'. revert acts' O'. induction O as [|m ms t ts a acts T O IH]; intros acts' O'; inversion O'; subst; [reflexivity|]. f_equal; [|now apply IH]. match goal with H : taken m t ?x |- _ => revert H end. revert T. unfold taken. destruct t; [congruence|]. intros (sa & E1 & ->) (sa' & E2 & ->). congruence. } subst acts'.
  assert (V : nth b q' 0 = 1 - (1 - lr) ^ length acts).
  { rewrite H by exact Hb. rewrite nth_repeat_lt by exact Hb. rewrite Rmult_0_r, Rplus_0_l. rewrite (sumf_ext _ _ (fun i => lr * (1 - lr) ^ (length acts - 1 - i))).
    - generalize (length acts). clear. induction n as [|n IH]; [change (seq 0 0) with (@nil nat); rewrite sumf_nil; cbn [pow]; lra|]. rewrite seq_S, sumf_app, sumf_cons, sumf_nil. cbn [Nat.add]. replace (S n - 1 - n)%nat with 0%nat by lia.
      rewrite (sumf_ext _ _ (fun i => (1 - lr) * (lr * (1 - lr) ^ (n - 1 - i)))); [rewrite sumf_scal, IH; cbn [pow]; lra|]. intros i Hi. apply in_seq in Hi. replace (S n - 1 - i)%nat with (S (n - 1 - i)) by lia. cbn [pow]. lra.
    - intros i Hi. apply in_seq in Hi. rewrite Forall_forall in FA. rewrite (FA (nth i acts 0%nat)) by (apply nth_In; lia). unfold shown. rewrite Nat.eqb_refl. lra. }
  rewrite V. specialize (HM (length acts) LM). rewrite Rabs_right in HM by (apply Rle_ge, pow_le; lra). assert (0 <= (1 - lr) ^ length acts) by (apply pow_le; lra). lra.
Qed.

(** The same, as C176: a property of its own. *)
Theorem C176_converges : forall lr d ls c l0 eps, td_learner lr d None false ls = Ok (c, l0) -> decay_value d = 0 -> lr <= 1 -> 0 < eps -> exists many, forall arg ts l' nA b acts q',
  (forall m, In m (mdps_of arg (length ts)) -> m_n_actions m = nA) -> fit_learner c arg ts l0 = (l', Ok tt) ->
  observed (mdps_of arg (length ts)) ts acts -> (b < nA)%nat -> Forall (fun a => a = b) acts -> learner_q_values l' = QArr q' -> (many <= length acts)%nat -> 1 - eps < nth b q' 0 <= 1.
Proof. exact (@C80_without_decay_partial). Qed.

Lemma weierstrass : forall A (f : A -> R) l, (forall x, In x l -> 0 <= f x <= 1) -> 1 - sumf f l <= prodf (fun x => 1 - f x) l <= 1.
Proof.
  induction l as [|x l IH]; intros H; [rewrite sumf_nil; unfold prodf; cbn; lra|]. rewrite sumf_cons, prodf_cons. destruct (H x (or_introl eq_refl)) as [H1 H2]. destruct (IH (fun y Hy => H y (or_intror Hy))) as [I1 I2].
  assert (0 <= sumf f l) by (apply sumf_nonneg; intros y Hy; apply H; now right).
  assert (P : 0 <= prodf (fun x => 1 - f x) l). { clear -H. induction l as [|y l IH]; [unfold prodf; cbn; lra|]. rewrite prodf_cons. apply Rmult_le_pos; [assert (f y <= 1) by (apply H; right; now left); lra|apply IH; intros z [<-|Hz]; apply H; [now left|right; now right]]. }
  split; nra.
Qed.
Lemma rate_geometric : forall r k, 0 < r -> Rpower (INR (fact (S k))) (- r) <= Rpower 2 (- r) ^ k.
Proof.
  intros r k Hr. induction k as [|k IH]; [cbn [fact Nat.mul Nat.add INR pow]; rewrite Rpower_one; lra|].
  replace (fact (S (S k))) with (S (S k) * fact (S k))%nat by reflexivity. rewrite mult_INR, <- Rpower_mult_distr by (apply lt_0_INR; [lia || apply lt_O_fact]). cbn [pow]. apply Rmult_le_compat; [left; apply Rpower_pos|left; apply Rpower_pos| |exact IH].
  destruct k as [|k]; [cbn [INR]; replace (1 + 1) with 2 by lra; lra|]. left. apply Rpower_neg_lt; [exact Hr|lra|]. change 2 with (INR 2). apply lt_INR. lia.
Qed.
Lemma geometric_tail : forall rho N k, 0 <= rho < 1 -> sumf (fun i => rho ^ i) (seq N k) <= rho ^ N / (1 - rho).
Proof.
  intros rho N k [R0 R1]. revert N. induction k as [|k IH]; intros N.
  - cbn [seq]. rewrite sumf_nil. apply Rmult_le_pos; [apply pow_le; lra|left; apply Rinv_0_lt_compat; lra].
  - cbn [seq]. rewrite sumf_cons. specialize (IH (S N)). cbn [pow] in IH. apply Rle_trans with (rho ^ N + rho * rho ^ N / (1 - rho)); [lra|]. right. field. lra.
Qed.
(** With decay, it does not: however often the action is observed in a fit, its value stays below a bound
    less than one that depends only on the learning rate and the decay. *)
Theorem C80_convergence_refuted : forall lr r, 0 < lr < 1 -> 0 < r -> exists bound, bound < 1 /\ forall ls c l0 arg ts l' nA b acts q',
  td_learner lr (DecayFloat r) None false ls = Ok (c, l0) -> (forall m, In m (mdps_of arg (length ts)) -> m_n_actions m = nA) -> fit_learner c arg ts l0 = (l', Ok tt) ->
  observed (mdps_of arg (length ts)) ts acts -> (b < nA)%nat -> Forall (fun a => a = b) acts -> learner_q_values l' = QArr q' -> nth b q' 0 <= bound.
Proof.
  intros lr r Hl Hr. set (rho := Rpower 2 (- r)). assert (Hrho : 0 < rho < 1) by (split; [apply Rpower_pos|]; unfold rho; rewrite <- (Rpower_one (- r)); apply Rpower_neg_lt; lra).
  destruct (pow_lt_1_zero rho ltac:(rewrite Rabs_right; lra) ((1 - rho) / 2) ltac:(lra)) as (M & HM). specialize (HM M (le_n M)). rewrite Rabs_right in HM by (apply Rle_ge, pow_le; lra).
  set (f := fun i => 1 - actual_rate lr r (S i)). assert (Fb : forall i, 0 < f i <= 1) by (intros i; unfold f; pose proof (actual_bound lr r (S i) ltac:(lra) Hr); lra).
  set (P := prodf f (seq 0 M)). assert (PP : 0 < P) by (apply prodf_pos; intros; apply Fb).
  assert (ONE : forall l, prodf f l <= 1). { induction l as [|x l IH]; [unfold prodf; cbn; lra|]. rewrite prodf_cons. pose proof (Fb x). assert (0 < prodf f l) by (apply prodf_pos; intros; apply Fb). nra. }
  assert (LOW : forall n, P / 2 <= prodf f (seq 0 n)).
  { intros n. destruct (Nat.le_gt_cases n M) as [L|L].
    - assert (X : P = prodf f (seq 0 n) * prodf f (seq n (M - n))) by (unfold P; rewrite <- prodf_app; f_equal; replace M with (n + (M - n))%nat at 1 by lia; rewrite seq_app; reflexivity).
      pose proof (ONE (seq n (M - n))). assert (0 < prodf f (seq 0 n)) by (apply prodf_pos; intros; apply Fb). nra.
    - replace n with (M + (n - M))%nat by lia. rewrite seq_app, prodf_app. fold P. cbn [Nat.add].
      destruct (weierstrass _ (fun i => actual_rate lr r (S i)) (seq M (n - M))) as [W _]; [intros i _; pose proof (actual_bound lr r (S i) ltac:(lra) Hr); lra|]. fold f in W.
      assert (S : sumf (fun i => actual_rate lr r (S i)) (seq M (n - M)) <= 1 / 2).
      { apply Rle_trans with (sumf (fun i => rho ^ i) (seq M (n - M))).
        - apply sumf_le. intros i _. unfold actual_rate. pose proof (rate_geometric r i Hr). fold rho in H. pose proof (Rpower_pos (INR (fact (S i))) (- r)). nra.
        - apply Rle_trans with (rho ^ M / (1 - rho)); [apply geometric_tail; lra|]. apply (Rmult_le_reg_r (1 - rho)); [lra|]. unfold Rdiv. rewrite Rmult_assoc, Rinv_l by lra. lra. }
      nra. }
  exists (1 - P / 2). split; [lra|]. intros ls c l0 arg ts l' nA b acts q' ET N E O Hb FA EQ. destruct (td_learner_inv _ _ _ _ _ _ _ ET) as (_ & _ & EL & ED & EF & ER & EN).
  assert (ST : starts_from l0 nA (repeat 0 nA)) by (right; subst l0; auto).
  destruct (C49_actual_schedule _ _ _ _ _ _ _ _ _ _ _ _ ET Hr N ST E) as (acts' & q'' & O' & EQ' & LQ & H). assert (q'' = q') by congruence. subst q''.
  assert (acts' = acts). { clear -O O'. revert acts' O'. induction O as [|m ms t ts a acts T O IH]; intros acts' O'; inversion O'; subst; [reflexivity|]. f_equal; [|now apply IH]. match goal with H : taken m t ?x |- _ => revert H end. revert T. unfold taken. destruct t; [congruence|]. intros (sa & E1 & ->) (sa' & E2 & ->). congruence. } subst acts'.
  rewrite H by exact Hb. rewrite Forall_forall in FA. rewrite wa_one; [|intros i Hi; unfold shown; rewrite (FA _ (nth_In acts 0%nat Hi)), Nat.eqb_refl; reflexivity]. rewrite nth_repeat_lt by exact Hb. fold f. specialize (LOW (length acts)). lra.
Qed.

(** ** C50: resets *)
Inductive learner_call := Fit (arg : mdp_arg R) (ts : list (list Z)) | Reset.
(** Exceptions of [fit] are caught. *)
Definition after_learner_call (c : td_config R) (l : learner R) (k : learner_call) : learner R :=
  match k with Fit arg ts => fst (fit_learner c arg ts l) | Reset => reset_learner c l end.
Definition after_learner_calls (c : td_config R) (ks : list learner_call) (l : learner R) : learner R := fold_left (after_learner_call c) ks l.

(** What holds of the original estimate: it is separate and unchanged, or it is the estimate itself. *)
Definition keeps (o : qval R) (l : learner R) : Prop := if l_shared l then l_orig l = l_Q l else l_orig l = o.
Lemma fit_keeps : forall c arg ts l o, keeps o l -> (l_shared l = true -> l_Q l <> QNone) -> let l' := fst (fit_learner c arg ts l) in l_shared l' = l_shared l /\ keeps o l' /\ (l_shared l' = true -> l_Q l' <> QNone).
Proof.
  intros c arg ts l o K NN. set (same := fun x y : learner R => l_shared y = l_shared x /\ keeps o y /\ (l_shared y = true -> l_Q y <> QNone)).
  assert (O : forall n a x, keeps o x -> (l_shared x = true -> l_Q x <> QNone) -> same x (fst (observe c n a x))).
  { intros n a x KX NX. unfold observe. destruct (c_reward c n a) as [v|]; [|now split]. destruct (l_Q x) as [| |q] eqn:EQ; try (split; [reflexivity|split; [exact KX|cbn; rewrite EQ; exact NX]]).
    destruct (negb (length v =? length q)%nat); [split; [reflexivity|split; [exact KX|cbn; rewrite EQ; exact NX]]|]. destruct (if c_decaying c then let* f := c_factor c (l_n x) in Ok (nmul (l_adj x) f) else Ok (c_lr c)); [|split; [reflexivity|split; [exact KX|cbn; rewrite EQ; exact NX]]].
    unfold same, keeps in *. cbn [fst l_shared l_orig l_Q]. split; [reflexivity|]. split; [destruct (l_shared x); [reflexivity|exact KX]|discriminate]. }
  assert (OA : forall mdps acts i x, keeps o x -> (l_shared x = true -> l_Q x <> QNone) -> same x (fst (observe_all c mdps i acts x))).
  { intros mdps. induction acts as [|a acts IH]; intros i x KX NX; cbn [observe_all]; [now split|]. destruct (nth_error mdps i) as [m|]; [|now split]. pose proof (O (m_n_actions m) a x KX NX) as S. destruct (observe c (m_n_actions m) a x) as [x1 [u|e]]; cbn [fst] in S; [|exact S].
    destruct S as (S1 & S2 & S3). destruct (IH (S i) x1 S2 S3) as (T1 & T2 & T3). split; [congruence|auto]. }
  assert (OT : forall mdps us n x, keeps o x -> (l_shared x = true -> l_Q x <> QNone) -> same x (fst (observe_trajectories c mdps n us x))).
  { intros mdps. induction us as [|t us IH]; intros n x KX NX; [now split|]. destruct t as [|s t]; cbn [observe_trajectories]; [now apply IH|]. destruct (nth_error mdps n) as [m|]; [|now split]. destruct (trajectory_to_state_action m (s :: t)) as [sa|]; [|now split].
    pose proof (OA mdps (map snd sa) 0%nat x KX NX) as S. destruct (observe_all c mdps 0 (map snd sa) x) as [x1 [u|e]]; cbn [fst] in S; [|exact S]. destruct S as (S1 & S2 & S3). destruct (IH (S n) x1 S2 S3) as (T1 & T2 & T3). split; [congruence|auto]. }
  assert (FT : forall mdps, same l (fst (fit_td c mdps ts l))).
  { intros mdps. unfold fit_td. destruct (l_Q l) as [| |q] eqn:EQ.
    - assert (SF : l_shared l = false) by (destruct (l_shared l); [now elim (NN eq_refl)|reflexivity]). destruct mdps as [|m r]; [split; [reflexivity|split; [exact K|cbn [fst]; intros X; congruence]]|].
      destruct (OT (m :: r) ts 0%nat (mkLearner (QArr (zeros1 (m_n_actions m))) (l_orig l) false (l_adj l) 1 (l_done l))) as (T1 & T2 & T3); [unfold keeps in *; cbn; rewrite SF in K; exact K|discriminate|]. split; [cbn in T1; congruence|auto].
    - destruct (OT mdps ts 0%nat (mkLearner QObj (l_orig l) (l_shared l) (l_adj l) 1 (l_done l))) as (T1 & T2 & T3); [unfold keeps in *; cbn; destruct (l_shared l); congruence|discriminate|]. destruct mdps; split; auto.
    - destruct (OT mdps ts 0%nat (mkLearner (QArr q) (l_orig l) (l_shared l) (l_adj l) 1 (l_done l))) as (T1 & T2 & T3); [unfold keeps in *; cbn; destruct (l_shared l); congruence|discriminate|]. destruct mdps; split; auto. }
  assert (FIN : forall mdps, same l (fst (let '(l', r) := fit_td c mdps ts l in (match r with Ok _ => mkLearner (l_Q l') (l_orig l') (l_shared l') (l_adj l') (l_n l') true | Err _ => l' end, r)))).
  { intros mdps. specialize (FT mdps). destruct (fit_td c mdps ts l) as [l' [u|e]]; exact FT. }
  destruct arg as [m|ms]; cbn [fit_learner]; [apply FIN|]. destruct (negb (length ts =? length ms)%nat); [now split|apply FIN].
Qed.
(** The first reset after any number of fits restores the estimate given at construction. *)
Theorem C50_first_reset_partial : forall lr d q kernel ls c l0 fits, td_learner lr d (Some q) kernel ls = Ok (c, l0) -> let l := after_learner_calls c (map (fun '(arg, ts) => Fit arg ts) fits) l0 in
  learner_q_values (reset_learner c l) = QArr q.
Proof.
  intros lr d q kernel ls c l0 fits ET l. destruct (td_learner_inv _ _ _ _ _ _ _ ET) as (_ & _ & _ & _ & _ & _ & EN).
  assert (G : forall fs x, l_shared x = false -> keeps (QArr q) x -> l_orig (after_learner_calls c (map (fun '(arg, ts) => Fit arg ts) fs) x) = QArr q).
  { induction fs as [|[arg ts] fs IH]; intros x SX KX; [unfold keeps in KX; rewrite SX in KX; exact KX|]. unfold after_learner_calls in *. cbn [map fold_left after_learner_call]. destruct (fit_keeps c arg ts x _ KX ltac:(rewrite SX; discriminate)) as (S1 & S2 & S3). apply IH; [congruence|exact S2]. }
  apply G; subst l0; reflexivity.
Qed.
(** C215: the first reset of a policy learner gives back the initial values. *)
Theorem C215_policy : forall lr d q kernel ls c l0 fits, td_learner lr d (Some q) kernel ls = Ok (c, l0) -> let l := after_learner_calls c (map (fun '(arg, ts) => Fit arg ts) fits) l0 in
  learner_q_values (reset_learner c l) = QArr q.
Proof. exact (@C50_first_reset_partial). Qed.
(** After that, resetting has no effect on the estimate any more, whatever has been fitted since. *)
Theorem C50_later_resets_refuted : forall lr d q kernel ls c l0 before since, td_learner lr d (Some q) kernel ls = Ok (c, l0) ->
  let l := after_learner_calls c (map (fun '(arg, ts) => Fit arg ts) since) (reset_learner c (after_learner_calls c before l0)) in learner_q_values (reset_learner c l) = learner_q_values l.
Proof.
  intros lr d q kernel ls c l0 before since ET l. destruct (td_learner_inv _ _ _ _ _ _ _ ET) as (_ & _ & _ & _ & _ & _ & EN).
  assert (G0 : forall ks x, l_orig x <> QNone -> (l_shared x = true -> l_Q x <> QNone) -> (l_shared x = true -> l_orig x = l_Q x) -> l_orig (after_learner_calls c ks x) <> QNone).
  { induction ks as [|k ks IH]; intros x OX QX SX; [exact OX|]. unfold after_learner_calls in *. cbn [fold_left]. destruct k as [arg ts|]; cbn [after_learner_call]; [|apply IH; cbn; auto].
    destruct (fit_keeps c arg ts x (l_orig x)) as (S1 & S2 & S3); [unfold keeps; destruct (l_shared x); auto|exact QX|]. unfold keeps in S2. rewrite S1 in *. destruct (l_shared x); apply IH.
    - rewrite S2. auto.
    - auto.
    - auto.
    - rewrite S2. exact OX.
    - rewrite S1. discriminate.
    - rewrite S1. discriminate. }
  assert (ON : l_orig (after_learner_calls c before l0) <> QNone) by (apply G0; subst l0; cbn; discriminate).
  assert (G : forall fs x, l_shared x = true -> l_orig x = l_Q x -> l_Q x <> QNone -> let y := after_learner_calls c (map (fun '(arg, ts) => Fit arg ts) fs) x in l_orig y = l_Q y).
  { induction fs as [|[arg ts] fs IH]; intros x SX KX QX; [exact KX|]. unfold after_learner_calls in *. cbn [map fold_left after_learner_call]. destruct (fit_keeps c arg ts x QNone) as (S1 & S2 & S3); [unfold keeps; rewrite SX; exact KX|auto|].
    unfold keeps in S2. rewrite S1, SX in S2. apply IH; [congruence|exact S2|apply S3; congruence]. }
  unfold learner_q_values, reset_learner. cbn [l_Q]. apply G; [reflexivity|reflexivity|exact ON].
Qed.
(** Without an initial estimate, a learner that has been reset can never be fitted again. *)
Theorem C50_no_estimate_refuted : forall lr d kernel ls c l0 calls arg (ts : list (list nat)) nA, td_learner lr d None kernel ls = Ok (c, l0) -> let l := reset_learner c (after_learner_calls c calls l0) in
  (forall m, In m (mdps_of arg (length ts)) -> m_n_actions m = nA) -> Forall2 valid_on (mdps_of arg (length ts)) ts -> (exists t, In t ts /\ (2 <= length t)%nat) ->
  exists l', fit_learner c arg (map (map Z.of_nat) ts) l = (l', Err TypeError).
Proof.
  intros lr d kernel ls c l0 calls arg ts nA ET l N F EX. destruct (td_learner_inv _ _ _ _ _ _ _ ET) as (_ & _ & _ & _ & _ & ER & EN).
  assert (RO : forall a, (a < nA)%nat -> exists v, c_reward c nA a = Ok v). { intros a Ha. rewrite ER. destruct kernel; [unfold kernel_reward; eauto|]. unfold onehot_reward. apply Nat.ltb_lt in Ha. rewrite Ha. eauto. }
  assert (OT : forall mdps us n x, l_Q x = QObj -> exists y, fst (observe_trajectories c mdps n us x) = y /\ l_Q y = QObj /\ l_orig y = l_orig x /\ l_shared y = l_shared x).
  { intros mdps. assert (OA : forall acts i x, l_Q x = QObj -> fst (observe_all c mdps i acts x) = x).
    { intros [|a acts] i x EX'; [reflexivity|]. cbn [observe_all]. destruct (nth_error mdps i) as [m|]; [|reflexivity]. unfold observe. rewrite EX'. destruct (c_reward c (m_n_actions m) a); reflexivity. }
    induction us as [|t us IH]; intros n x EX'; [exists x; auto|]. destruct t as [|s t]; cbn [observe_trajectories]; [now apply IH|]. destruct (nth_error mdps n) as [m|]; [|exists x; auto]. destruct (trajectory_to_state_action m (s :: t)) as [sa|]; [|exists x; auto].
    pose proof (OA (map snd sa) 0%nat x EX') as S. destruct (observe_all c mdps 0 (map snd sa) x) as [x1 [u|e]]; cbn [fst] in S; subst x1; [|exists x; auto]. destruct (IH (S n) x EX') as (y & Y). exists y. exact Y. }
  assert (INV : l_Q l = QObj).
  { unfold l, reset_learner. cbn [l_Q]. assert (G : forall ks x, l_orig x = QObj -> (l_shared x = true -> l_Q x = QObj) -> l_orig (after_learner_calls c ks x) = QObj).
    { induction ks as [|k ks IH]; intros x OX SX; [exact OX|]. unfold after_learner_calls in *. cbn [fold_left]. destruct k as [a t|]; cbn [after_learner_call]; [|apply IH; cbn; auto].
      destruct (fit_keeps c a t x QObj) as (S1 & S2 & S3); [unfold keeps; destruct (l_shared x) eqn:SH; [rewrite (SX eq_refl); exact OX|exact OX]|intros H; rewrite (SX H); discriminate|].
      assert (X : l_shared x = true -> l_Q (fst (fit_learner c a t x)) = QObj).
      { intros SH. specialize (SX SH). assert (FT : forall mdps, l_Q (fst (fit_td c mdps t x)) = QObj).
        { intros mdps. unfold fit_td. rewrite SX. destruct (OT mdps t 0%nat (mkLearner QObj (l_orig x) (l_shared x) (l_adj x) 1 (l_done x)) eq_refl) as (y & Y1 & Y2 & _). destruct mdps; rewrite Y1; exact Y2. }
        destruct a as [m|ms]; cbn [fit_learner].
        - specialize (FT (repeat m (length t))). destruct (fit_td c (repeat m (length t)) t x) as [l' [u|e]]; exact FT.
        - destruct (negb (length t =? length ms)%nat); [exact SX|]. specialize (FT ms). destruct (fit_td c ms t x) as [l' [u|e]]; exact FT. }
      apply IH; [|intros H; apply X; congruence]. unfold keeps in S2. rewrite S1 in S2. destruct (l_shared x) eqn:SH; [rewrite S2; now apply X|exact S2]. }
    apply G; subst l0; [reflexivity|discriminate]. }
  set (ms := mdps_of arg (length ts)) in *. assert (LM : length ms = length ts) by (clear -F; induction F; cbn; congruence).
  assert (FT : fit_learner c arg (map (map Z.of_nat) ts) l = let '(l', r) := fit_td c ms (map (map Z.of_nat) ts) l in (match r with Ok _ => mkLearner (l_Q l') (l_orig l') (l_shared l') (l_adj l') (l_n l') true | Err _ => l' end, r)).
  { unfold ms in *. destruct arg as [m|mm]; cbn [fit_learner mdps_of] in *; rewrite map_length; [reflexivity|]. rewrite LM, Nat.eqb_refl. reflexivity. }
  rewrite FT. unfold fit_td. rewrite INV. set (x := mkLearner QObj (l_orig l) (l_shared l) (l_adj l) 1 (l_done l)).
  assert (G : forall us n, Forall2 valid_on (skipn n ms) us -> (n + length us = length ms)%nat -> (exists t, In t us /\ (2 <= length t)%nat) -> observe_trajectories c ms n (map (map Z.of_nat) us) x = (x, Err TypeError)).
  { induction us as [|t us IH]; intros n FF EL2 (u & Hu & L2); [destruct Hu|]. cbn [length] in EL2. destruct (nth_error ms n) as [m|] eqn:EM; [|apply nth_error_None in EM; lia].
    assert (SK : skipn n ms = m :: skipn (S n) ms). { clear -EM. revert EM. generalize ms as mm. induction n as [|n IH]; intros [|y mm] E; try discriminate; cbn in *; [congruence|]. now apply IH. }
    rewrite SK in FF. inversion FF as [|? ? ? ? V F']. subst. pose proof (N m (nth_error_In _ _ EM)) as NM. destruct (valid_taken m t V) as (acts & T & LA & FA). rewrite NM in FA. cbn [map].
    assert (LATER : acts = [] -> exists t0, In t0 us /\ (2 <= length t0)%nat). { intros ->. cbn in LA. destruct Hu as [->|Hu]; [lia|eauto]. }
    destruct t as [|s t]; cbn [map observe_trajectories]; [apply IH; [exact F'|lia|apply LATER; exact T]|]. destruct T as (sa & ET' & EA). cbn [map] in ET'. rewrite EM, ET', <- EA. destruct acts as [|a acts].
    - cbn [observe_all]. apply IH; [exact F'|lia|now apply LATER].
    - cbn [observe_all]. destruct ms as [|m0 r0] eqn:EMS; [destruct n; discriminate|]. cbn [nth_error]. rewrite (N m0) by (now left). inversion FA as [|? ? Ha FA']. subst.
      unfold observe. destruct (RO a Ha) as (v & EV). rewrite EV. reflexivity. }
  destruct ms as [|m0 r0] eqn:EMS; rewrite (G ts 0%nat) by (try (rewrite skipn_O); auto); eauto.
Qed.

(** ** C81: [TDPolicyIRL] *)
(** It fails for every argument with a trajectory, and for every list of MDPs. *)
Theorem C81_policy_irl_refuted : forall (arg : mdp_arg R) ts, (forall m, arg = OneMDP m -> ts <> []) -> exists e, td_policy_irl arg ts = Err e.
Proof. intros [m|ms] ts H; cbn; [|eauto]. destruct ts; [now elim (H m eq_refl)|eauto]. Qed.
