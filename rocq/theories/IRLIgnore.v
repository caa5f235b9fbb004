(** C53: what ignoring a list of features does in maximum-entropy inference. *)
From Coq Require Import List ZArith Reals Bool Lia Lra.
From Verif Require Import PyBase PyProofs ActionModel ActionSpec RSum ActionProofs MDPModel VIModel VISpec VIProofs VIProofs2 VIProps PLSpec PLProofs PLProps2 IRLModel IRLVisit IRLPolicy IRLMatch IRLExpect IRLMaxEnt IRLFit IRLProps.
Import ListNotations.
Local Open Scope R_scope.

(** [m'] is [m] with the listed features absent everywhere. *)
Definition without_features (m : mdp R) (l : list Z) (m' : mdp R) : Prop :=
  m_sas m' = m_sas m /\ m_n_states m' = m_n_states m /\ m_n_features m' = m_n_features m /\ length (m_features m') = length (m_features m) /\
  forall f, (f < length (m_features m))%nat -> nth f (m_features m') [] = if in_dec Z.eq_dec (Z.of_nat f) l then repeat 0 (m_n_states m) else nth f (m_features m) [].
Definition zero_on (l : list Z) (v : list R) : Prop := forall f, In (Z.of_nat f) l -> nth f v 0 = 0.

Lemma zero_list_same : forall l v, Forall (fun i => (0 <= i < Z.of_nat (length v))%Z) l -> zero_on l v -> zero_ignored (IgnoreList l) v = Ok v.
Proof.
  intros l v HL HZ. destruct (zero_list l v HL) as (v' & E & L & H). rewrite E. f_equal. apply (list_eq_nth _ _ _ 0); [exact L|]. intros f Hf. rewrite H. destruct (in_dec _ _ _) as [I|I]; [symmetry; now apply HZ|reflexivity].
Qed.
Lemma counts_without : forall m l m' v d, without_features m l m' -> Forall (fun row => length row = m_n_states m) (m_features m) -> length v = m_n_states m -> Forall (fun i => (0 <= i < Z.of_nat (length (m_features m)))%Z) l ->
  zero_ignored (IgnoreList l) (feature_counts (m_features m) v) = Ok d -> feature_counts (m_features m') v = d.
Proof.
  intros m l m' v d (_ & _ & _ & LF & HF) HR LV HL E. destruct (zero_list l (feature_counts (m_features m) v)) as (d' & E' & L' & H'); [unfold feature_counts; rewrite map_length; exact HL|]. assert (d' = d) by congruence. subst d'. unfold feature_counts in *. rewrite map_length in L'.
  apply (list_eq_nth _ _ _ 0); [rewrite map_length; lia|]. intros f Hf. rewrite map_length in Hf. rewrite H', !(nth_map_lt _ _ _ _ _ _ []) by lia. rewrite HF by lia. destruct (in_dec _ _ _) as [I|I]; [|reflexivity].
  rewrite (dot_sumf (m_n_states m)) by (try assumption; apply repeat_length). apply sumf_0. intros t Ht. apply in_seq in Ht. rewrite nth_repeat_lt by lia. ring.
Qed.
Lemma rewards_without : forall m l m' theta n, without_features m l m' -> length theta = length (m_features m) -> zero_on l theta -> (n <= m_n_states m)%nat -> state_rewards n theta (m_features m') = state_rewards n theta (m_features m).
Proof.
  intros m l m' theta n (_ & _ & _ & LF & HF) LT HZ Hn. unfold state_rewards. apply map_ext_in. intros s Hs. apply in_seq in Hs. f_equal. apply (list_eq_nth _ _ _ 0); [rewrite !map_length, !combine_length; lia|]. intros f Hf. rewrite map_length, combine_length in Hf.
  rewrite !(nth_map_lt _ _ _ _ _ _ (0, [])) by (rewrite combine_length; lia). rewrite !combine_nth by lia. rewrite HF by lia. destruct (in_dec _ _ _) as [I|I]; [|reflexivity]. rewrite (HZ f I). cbn [nmul NumR]. now rewrite !Rmult_0_l.
Qed.
(** Ignoring a list of features that start with weight zero is the same as fitting in an MDP without them. *)
Theorem C53_list_partial : forall lr decay iters tol g K soft c m ts l m' x h, maxent_ok lr decay iters tol g K soft c -> inferable m ts -> Forall (fun i => (0 <= i < Z.of_nat (m_n_features m))%Z) l -> without_features m l m' ->
  starts_with m x h -> zero_on l (initial m x h) -> fit_maxent c m ts (IgnoreList l) x h = fit_maxent c m' ts (IgnoreList []) x h.
Proof.
  intros lr decay iters tol g K soft c m ts l m' x h (EC & G & HK) IN HL WO ST HZ. destruct (config_inv _ _ _ _ _ _ _ _ EC) as (_ & _ & _ & _ & _ & _ & _ & EX). pose proof IN as (M & SO & CO & NS & NP & NF & HF & T0 & T1 & T2 & T3). pose proof WO as (WS & WN & WF & WL & WR).
  assert (HL' : Forall (fun i => (0 <= i < Z.of_nat (length (m_features m)))%Z) l) by (rewrite <- NF; exact HL).
  assert (EE : forall theta, length theta = m_n_features m -> zero_on l theta -> exists d, expected c m ts (IgnoreList l) theta = Ok d /\ expected c m' ts (IgnoreList []) theta = Ok d /\ length d = m_n_features m /\ zero_on l d).
  { intros theta LT ZT. unfold expected. rewrite EX. destruct (expected_ok soft g tol K m ts theta IN G HK ltac:(congruence)) as (d0 & Ed & Ld & _). rewrite Ed. cbn [bind]. destruct (zero_list l d0) as (d & E1 & L1 & H1); [rewrite Ld; exact HL'|]. exists d. split; [exact E1|]. split; [|split; [congruence|intros f If; rewrite H1; destruct (in_dec _ _ _); [reflexivity|contradiction]]].
    assert (X : expected_counts soft g tol K m' ts theta = Ok d); [|rewrite X; reflexivity]. unfold expected_counts in *. rewrite WS, WN. unfold solve_value_iteration in *. destruct (negb (_ && _)); [discriminate|]. rewrite WL. destruct (negb (length theta =? length (m_features m))%nat); [discriminate|].
    rewrite (rewards_without m l m' theta _ WO ltac:(congruence) ZT) by (change (length (m_sas m)) with (n_states (m_sas m)); lia).
    destruct (vi_loop _ _ _ _ _ _ _ _) as [[vv qq]|e]; cbn [bind] in *; [|discriminate]. destruct qq as [q|]; cbn [bind] in *; [|discriminate]. destruct (policy_of soft (mask_q (m_sas m) q)) as [p|e]; cbn [bind] in *; [|discriminate]. destruct (mapM _ p) as [pi|e]; cbn [bind] in *; [|discriminate].
    destruct (start_spec (m_n_states m) ts T2 T1 T0) as (p0 & E3 & L3 & _ & _). rewrite E3 in *. cbn [bind] in *. f_equal. destruct (C51_visits (m_sas m) pi p0 K ltac:(congruence)) as [LD _]. apply (counts_without m l m'); [exact WO|exact HF|congruence|exact HL'|]. assert (d0 = feature_counts (m_features m) (state_visitation_iterator (m_sas m) K pi p0)) by congruence. subst d0. exact E1. }
  assert (LOOP : forall F, length F = m_n_features m -> zero_on l F -> forall k i theta rate last, length theta = m_n_features m -> zero_on l theta -> maxent_loop c m ts (IgnoreList l) F k i theta rate last = maxent_loop c m' ts (IgnoreList []) F k i theta rate last).
  { intros F LF ZF. induction k as [|k IH]; intros i theta rate last LT ZT; [reflexivity|]. cbn [maxent_loop]. destruct (EE theta LT ZT) as (d & E1 & E2 & LD & ZD). fold (expected c m ts (IgnoreList l) theta) (expected c m' ts (IgnoreList []) theta). rewrite E1, E2. cbv zeta.
    assert (SAME : forall u, length (map (fun '(x0, e) => nadd x0 (nmul u e)) (combine theta (map (fun '(x0, y) => nsub x0 y) (combine F d)))) = m_n_features m /\ zero_on l (map (fun '(x0, e) => nadd x0 (nmul u e)) (combine theta (map (fun '(x0, y) => nsub x0 y) (combine F d))))).
    { intros u. split; [rewrite map_length, combine_length, map_length, combine_length; lia|]. intros f If. destruct (Nat.lt_ge_cases f (m_n_features m)) as [Hf|Hf]; [|apply nth_overflow; rewrite map_length, combine_length, map_length, combine_length; lia].
      rewrite (nth_map_lt _ _ _ _ _ _ (0, 0)) by (rewrite combine_length, map_length, combine_length; lia). rewrite combine_nth by (rewrite map_length, combine_length; lia). rewrite (nth_map_lt _ _ _ _ _ _ (0, 0)) by (rewrite combine_length; lia). rewrite combine_nth by lia. rewrite (ZT f If), (ZF f If), (ZD f If). cbn [nadd nmul nsub NumR]. ring. }
    destruct (nltb _ _); [reflexivity|]. apply IH; apply SAME. }
  destruct ts as [|t ts]; [congruence|]. destruct t as [|z t]; [inversion T1; congruence|]. unfold fit_maxent. rewrite WN. destruct (visited_spec (m_n_states m) _ T2) as (v & E & L & _). rewrite E. cbn [bind]. clear E.
  destruct (zero_list l (feature_counts (m_features m) v)) as (F & EF & LF & HFz); [unfold feature_counts; rewrite map_length; exact HL'|]. rewrite EF. rewrite (zero_nothing (feature_counts (m_features m') v)), (counts_without m l m' v F WO HF L HL' EF).
  assert (LF' : length F = m_n_features m) by (rewrite LF; unfold feature_counts; rewrite map_length; congruence). assert (ZF : zero_on l F) by (intros f If; rewrite HFz; destruct (in_dec _ _ _); [reflexivity|contradiction]).
  unfold starts_with, initial in *. destruct (x_theta x) as [| |a]; [|destruct ST|].
  - rewrite WF. rewrite app_nth2, Nat.sub_diag by lia. cbn [nth]. rewrite zero_nothing, zero_list_same by (try exact HZ; unfold zeros1; rewrite repeat_length; exact HL). rewrite LOOP by (try assumption; apply repeat_length). reflexivity.
  - destruct ST as [Ha La]. rewrite zero_nothing, zero_list_same by (try exact HZ; rewrite La; exact HL). rewrite LOOP by assumption. reflexivity.
Qed.
(** The ignored features end with weight zero, whatever they started with. *)
Theorem C53_ignored_zero : forall c m ts l x h x' h' a w, fit_maxent c m ts (IgnoreList l) x h = (x', h', Ok (a, w)) -> starts_with m x h -> length (m_features m) = m_n_features m ->
  Forall (fun i => (0 <= i < Z.of_nat (m_n_features m))%Z) l -> (forall theta d, x_inner c m ts theta = Ok d -> length d = m_n_features m) -> zero_on l (nth a h' []).
Proof.
  intros c m ts l x h x' h' a w E ST LM HL HI. apply fit_spec in E. destruct E as (F & F0 & s0 & n & th & E0 & EF & HS & _ & _ & _ & HN & H0 & IT & _).
  assert (Z : forall v v' : list R, length v = m_n_features m -> zero_ignored (IgnoreList l) v = Ok v' -> length v' = m_n_features m /\ zero_on l v').
  { intros v v' LV EZ. destruct (zero_list l v) as (v1 & E1 & L1 & H1); [now rewrite LV|]. assert (v1 = v') by congruence. subst v1. split; [congruence|]. intros f If. rewrite H1. destruct (in_dec _ _ _); [reflexivity|contradiction]. }
  assert (L0 : length F0 = m_n_features m) by (unfold observed_features in E0; apply bind_ok in E0; destruct E0 as (v & _ & E0); assert (F0 = feature_counts (m_features m) v) as -> by congruence; unfold feature_counts; now rewrite map_length).
  destruct (Z _ _ L0 EF) as [LF ZF]. unfold starts_with in ST.
  assert (T0 : length (th 0%nat) = m_n_features m /\ zero_on l (th 0%nat)) by (rewrite H0; destruct HS as [(ET & EZ & _)|(ET & _ & EZ & _)]; rewrite ET in ST; eapply Z; try exact EZ; [apply ST|apply repeat_length]).
  assert (TJ : forall j, (j <= n)%nat -> length (th j) = m_n_features m /\ zero_on l (th j)).
  { induction j as [|j IH]; intros Hj; [exact T0|]. destruct (IH ltac:(lia)) as [LJ ZJ]. destruct (IT j ltac:(lia)) as (d & Ed & ->). unfold expected in Ed. apply bind_ok in Ed. destruct Ed as (d0 & I0 & Ed). destruct (Z _ _ (HI _ _ I0) Ed) as [LD ZD].
    split; [rewrite map_length, combine_length, map_length, combine_length; lia|]. intros f If. destruct (Nat.lt_ge_cases f (m_n_features m)) as [Hf|Hf]; [|apply nth_overflow; rewrite map_length, combine_length, map_length, combine_length; lia].
    rewrite (nth_map_lt _ _ _ _ _ _ (0, 0)) by (rewrite combine_length, map_length, combine_length; lia). rewrite combine_nth by (rewrite map_length, combine_length; lia). cbn [fst snd]. rewrite (nth_map_lt _ _ _ _ _ _ (0, 0)) by (rewrite combine_length; lia). rewrite combine_nth by lia. cbn [fst snd]. rewrite (ZJ f If), (ZF f If), (ZD f If). ring. }
  destruct HS as [(ET & _ & ->)|(ET & -> & _ & ->)]; rewrite ET in ST; [rewrite nth_upd_same by apply ST|rewrite app_nth2, Nat.sub_diag by lia; cbn [nth]]; apply TJ; lia.
Qed.
