(** When maximum-entropy fits succeed, and how the weights change: C87, C83 (stability), C84, C85, C86. *)
From Coq Require Import List ZArith Reals Bool Lia Lra.
From Verif Require Import PyBase PyProofs ActionModel ActionSpec RSum ActionProofs MDPModel VIModel VISpec VIProofs VIProofs2 VIProps PLSpec PLProofs PLProps2 IRLModel IRLVisit IRLPolicy IRLMatch IRLExpect IRLMaxEnt.
Import ListNotations.
Local Open Scope R_scope.

(** ** Ignoring *)
(** The argument is accepted for [n] features. *)
Definition ignores (n : nat) (ig : ignore_arg) : Prop :=
  match ig with IgnoreTuple [] => True | IgnoreTuple [i] => (0 <= i < Z.of_nat n)%Z | IgnoreTuple _ => False | IgnoreList l => Forall (fun i => (0 <= i < Z.of_nat n)%Z) l end.
Lemma zero_length : forall ig (v v' : list R), zero_ignored ig v = Ok v' -> length v' = length v.
Proof.
  intros [[|i [|j l]]|l] v v' E; cbn [zero_ignored] in E.
  - assert (v' = map (fun _ => n0) v) as -> by congruence. apply map_length.
  - unfold zero_at in E. apply bind_ok in E. destruct E as (k & _ & E). assert (v' = upd v k n0) as -> by congruence. apply upd_length.
  - discriminate.
  - apply bind_ok in E. destruct E as (ks & _ & E). assert (v' = fold_left (fun v k => upd v k n0) ks v) as -> by congruence. clear. revert v. induction ks as [|k ks IH]; intros v; [reflexivity|]. cbn [fold_left]. rewrite IH. apply upd_length.
Qed.
Lemma zero_list : forall l (v : list R), Forall (fun i => (0 <= i < Z.of_nat (length v))%Z) l ->
  exists v', zero_ignored (IgnoreList l) v = Ok v' /\ length v' = length v /\ forall f, nth f v' 0 = if in_dec Z.eq_dec (Z.of_nat f) l then 0 else nth f v 0.
Proof.
  intros l v HL. cbn [zero_ignored]. rewrite (mapM_total _ _ _ Z.to_nat) by (intros i Hi; rewrite Forall_forall in HL; apply py_index_nonneg; now apply HL). cbn [bind]. eexists. split; [reflexivity|].
  revert v HL. induction l as [|i l IH]; intros v HL; [split; [reflexivity|]; intros; reflexivity|]. inversion HL as [|? ? H1 H2]. subst. cbn [map fold_left]. destruct (IH (upd v (Z.to_nat i) n0)) as [L H]; [now rewrite upd_length|]. rewrite upd_length in L. split; [exact L|].
  intros f. rewrite H. destruct (in_dec Z.eq_dec (Z.of_nat f) l) as [I|I], (in_dec Z.eq_dec (Z.of_nat f) (i :: l)) as [J|J]; try reflexivity; try (elim J; now right).
  - destruct J as [J|J]; [|contradiction]. subst i. rewrite Nat2Z.id. apply nth_upd_same. lia.
  - apply nth_upd_other. intros X. apply J. left. lia.
Qed.
Lemma zero_ok : forall ig (v : list R), ignores (length v) ig -> exists v', zero_ignored ig v = Ok v'.
Proof.
  intros [[|i [|j l]]|l] v H; cbn [ignores] in H; [cbn; eauto| |destruct H|destruct (zero_list l v H) as (v' & E & _); eauto]. cbn [zero_ignored]. unfold zero_at. rewrite py_index_nonneg by exact H. cbn [bind]. eauto.
Qed.
Lemma zero_nothing : forall v : list R, zero_ignored (IgnoreList []) v = Ok v. Proof. reflexivity. Qed.

(** ** C87: fits succeed *)
Definition maxent_ok (lr decay : R) (iters : Z) (tol g : R) (K : Z) (soft : bool) (c : maxent_cfg R) : Prop := maxent_config lr decay iters tol g K soft = Ok c /\ 0 < g < 1 /\ (0 < K)%Z.
Lemma config_inv : forall lr decay iters tol g K soft c, maxent_config lr decay iters tol g K soft = Ok c ->
  0 < lr /\ 0 <= decay /\ x_lr c = lr /\ (x_decaying c = true <-> decay <> 0) /\ x_power c = (fun i => Rpower (INR (S i)) (- decay)) /\ x_iter c = Z.to_nat iters /\ x_tol c = tol /\ x_inner c = expected_counts soft g tol K.
Proof.
  intros lr decay iters tol g K soft c E. unfold maxent_config in E. cbn [nltb neqb n0 NumR] in E. unfold Rltb in E. destruct (Rlt_dec 0 lr) as [L|L]; cbn [negb] in E; [|discriminate]. destruct (Rlt_dec decay 0) as [D|D]; [discriminate|].
  assert (c = mkMxc lr (negb (Reqb decay 0)) (fun i => Rpower (INR (S i)) (- decay)) (Z.to_nat iters) tol (expected_counts soft g tol K)) as -> by congruence. cbn [x_lr x_decaying x_power x_iter x_tol x_inner].
  split; [exact L|]. split; [lra|]. split; [reflexivity|]. split; [|repeat split]. destruct (Reqb decay 0) eqn:EQ; [apply Reqb_true in EQ|apply Reqb_false in EQ]; cbn [negb]; split; intros; (discriminate || congruence || tauto).
Qed.
(** The estimate to start from has one weight for each feature. *)
Definition starts_with (m : mdp R) (x : maxent R) (h : heap R) : Prop := match x_theta x with TNone => True | TObj => False | TArr a => (a < length h)%nat /\ length (nth a h []) = m_n_features m end.

Lemma combine_same : forall A B (u : list A) (v : list B) n, length u = n -> length v = n -> length (combine u v) = n.
Proof. intros. rewrite combine_length. lia. Qed.
Lemma loop_ok : forall c m ts ig F nF, length F = nF -> (forall theta, length theta = nF -> exists d, expected c m ts ig theta = Ok d /\ length d = nF) ->
  forall k i theta rate last, length theta = nF -> exists theta' rate' l, maxent_loop c m ts ig F k i theta rate last = (theta', rate', Ok l) /\ length theta' = nF /\ (last <> None \/ (0 < k)%nat -> l <> None).
Proof.
  intros c m ts ig F nF LF HE. induction k as [|k IH]; intros i theta rate last LT; cbn [maxent_loop]; [exists theta, rate, last; split; [reflexivity|]; split; [exact LT|]; intros [H|H]; [exact H|lia]|].
  destruct (HE theta LT) as (d & Ed & Ld). fold (expected c m ts ig theta). rewrite Ed. cbv zeta.
  match goal with |- context [if nltb ?u ?v then (?th, _, _) else _] => set (th1 := th) end. assert (L1 : length th1 = nF) by (unfold th1; rewrite map_length, combine_length, map_length, combine_length; lia).
  destruct (nltb _ _); [eexists th1, _, _; split; [reflexivity|]; split; [exact L1|discriminate]|].
  match goal with |- context [maxent_loop _ _ _ _ _ _ _ _ ?r ?l] => destruct (IH (S i) th1 r l L1) as (theta' & rate' & l' & E & L & N) end. rewrite E. eexists _, _, _. split; [reflexivity|]. split; [exact L|]. intros _. apply N. left. discriminate.
Qed.
Lemma fit_total : forall lr decay iters tol g K soft c m ts ig x h, maxent_ok lr decay iters tol g K soft c -> (0 < iters)%Z -> inferable m ts -> ignores (m_n_features m) ig -> starts_with m x h ->
  exists x' h' a w, fit_maxent c m ts ig x h = (x', h', Ok (a, w)) /\ (a < length h')%nat /\ length (nth a h' []) = m_n_features m.
Proof.
  intros lr decay iters tol g K soft c m ts ig x h (EC & G & HK) HI IN IG ST. destruct (config_inv _ _ _ _ _ _ _ _ EC) as (_ & _ & _ & _ & _ & EI & _ & EX). pose proof IN as (M & SO & CO & NS & NP & NF & HF & T0 & T1 & T2 & T3).
  assert (HE : forall theta, length theta = m_n_features m -> exists d, expected c m ts ig theta = Ok d /\ length d = m_n_features m).
  { intros theta LT. unfold expected. rewrite EX. destruct (expected_ok soft g tol K m ts theta IN G HK ltac:(congruence)) as (d & Ed & Ld & _). rewrite Ed. cbn [bind]. destruct (zero_ok ig d) as (d' & E'); [rewrite Ld, <- NF; exact IG|]. exists d'. split; [exact E'|]. apply zero_length in E'. congruence. }
  destruct ts as [|t ts]; [congruence|]. destruct t as [|z t]; [inversion T1; congruence|]. unfold fit_maxent. destruct (visited_spec (m_n_states m) _ T2) as (v & E & L & _). rewrite E. cbn [bind]. clear E.
  destruct (zero_ok ig (feature_counts (m_features m) v)) as (F & EF); [unfold feature_counts; rewrite map_length, <- NF; exact IG|]. rewrite EF. apply zero_length in EF. unfold feature_counts in EF. rewrite map_length, <- NF in EF.
  assert (GO : forall th a (h1 : heap R), (a < length h1)%nat -> length (nth a h1 []) = m_n_features m -> exists x' h' a' w, (match zero_ignored ig (nth a h1 []) with Err e => (mkMx th (x_orig x) (x_rate x), h1, Err e)
      | Ok theta => let '(theta', rate', r) := maxent_loop c m ((z :: t) :: ts) ig F (x_iter c) 0 theta (x_rate x) None in (mkMx th (x_orig x) rate', upd h1 a theta', match r with Err e => Err e | Ok None => Err UnboundLocalError | Ok (Some error) => Ok (a, negb (nltb (nmean error) (x_tol c))) end) end) = (x', h', Ok (a', w)) /\ (a' < length h')%nat /\ length (nth a' h' []) = m_n_features m).
  { intros th a h1 Ha La. destruct (zero_ok ig (nth a h1 [])) as (s0 & E0); [rewrite La; exact IG|]. rewrite E0. apply zero_length in E0. destruct (loop_ok c m _ ig F (m_n_features m) EF HE (x_iter c) 0 s0 (x_rate x) None ltac:(congruence)) as (theta' & rate' & l & EL & LL & LN). rewrite EL.
    destruct l as [error|]; [|elim (LN ltac:(right; rewrite EI; lia)); reflexivity]. eexists _, _, _, _. split; [reflexivity|]. rewrite upd_length. split; [exact Ha|]. rewrite nth_upd_same by exact Ha. exact LL. }
  unfold starts_with in ST. destruct (x_theta x) as [| |a].
  - apply GO; [rewrite app_length; cbn; lia|]. rewrite app_nth2, Nat.sub_diag by lia. apply repeat_length.
  - destruct ST.
  - apply GO; tauto.
Qed.
(** With at least one iteration, every fit to valid data succeeds. *)
Theorem C87_fit_succeeds_partial : forall lr decay iters tol g K soft c m ts ig x h, maxent_ok lr decay iters tol g K soft c -> (0 < iters)%Z -> inferable m ts -> ignores (m_n_features m) ig -> starts_with m x h ->
  exists x' h' a w, fit_maxent c m ts ig x h = (x', h', Ok (a, w)) /\ length (nth a h' []) = m_n_features m.
Proof. intros lr decay iters tol g K soft c m ts ig x h OK HI IN IG ST. destruct (fit_total _ _ _ _ _ _ _ _ _ _ _ _ _ OK HI IN IG ST) as (x' & h' & a & w & E & _ & L). eauto 10. Qed.

(** The same, as C174: a property of its own. *)
Theorem C174_fit_succeeds : forall lr decay iters tol g K soft c m ts ig x h, maxent_ok lr decay iters tol g K soft c -> (0 < iters)%Z -> inferable m ts -> ignores (m_n_features m) ig -> starts_with m x h ->
  exists x' h' a w, fit_maxent c m ts ig x h = (x', h', Ok (a, w)) /\ length (nth a h' []) = m_n_features m.
Proof. exact (@C87_fit_succeeds_partial). Qed.
(** The constructor also accepts zero iterations; then every fit fails. *)
Theorem C87_zero_iterations_refuted : forall lr decay iters tol g K soft, 0 < lr -> 0 <= decay -> (iters <= 0)%Z -> exists c, maxent_config lr decay iters tol g K soft = Ok c /\
  forall m ts ig x h x' h' a w, fit_maxent c m ts ig x h <> (x', h', Ok (a, w)).
Proof.
  intros lr decay iters tol g K soft HL HD HI. destruct (maxent_config lr decay iters tol g K soft) as [c|e] eqn:EC.
  - exists c. split; [reflexivity|]. intros m ts ig x h x' h' a w E. apply fit_spec in E. destruct E as (F & F0 & s0 & n & th & _ & _ & _ & _ & _ & _ & HN & _). destruct (config_inv _ _ _ _ _ _ _ _ EC) as (_ & _ & _ & _ & _ & EI & _). rewrite EI in HN. lia.
  - exfalso. unfold maxent_config in EC. cbn [nltb n0 NumR] in EC. unfold Rltb in EC. destruct (Rlt_dec 0 lr); [|contradiction]. destruct (Rlt_dec decay 0); [lra|]. cbn [negb] in EC. discriminate.
Qed.

(** ** Totals of the weights *)
Lemma Rsum_step : forall r u v, length u = length v -> Rsum (map (fun p => fst p + r * snd p) (combine u v)) = Rsum u + r * Rsum v.
Proof. induction u as [|x u IH]; intros [|y v] L; try discriminate; [unfold Rsum; cbn; ring|]. cbn [combine map fst snd]. unfold Rsum in *. cbn [fold_right]. rewrite IH by (cbn in L; lia). ring. Qed.
Lemma Rsum_diff : forall u v, length u = length v -> Rsum (map (fun p => fst p - snd p) (combine u v)) = Rsum u - Rsum v.
Proof. induction u as [|x u IH]; intros [|y v] L; try discriminate; [unfold Rsum; cbn; ring|]. cbn [combine map fst snd]. unfold Rsum in *. cbn [fold_right]. rewrite IH by (cbn in L; lia). ring. Qed.
Lemma step_rate_pos : forall lr decay iters tol g K soft c r j, maxent_config lr decay iters tol g K soft = Ok c -> 0 < r -> 0 < step_rate c r j.
Proof.
  intros lr decay iters tol g K soft c r j EC HR. destruct (config_inv _ _ _ _ _ _ _ _ EC) as (_ & _ & _ & _ & EP & _). unfold step_rate. destruct (x_decaying c); [|exact HR]. rewrite EP. apply Rmult_lt_0_compat; [apply Rmult_lt_0_compat; [exact HR|apply prodf_pos; intros; apply Rpower_pos]|apply Rpower_pos].
Qed.
Lemma rate_after_pos : forall lr decay iters tol g K soft c r j, maxent_config lr decay iters tol g K soft = Ok c -> 0 < r -> 0 < rate_after c r j.
Proof.
  intros lr decay iters tol g K soft c r j EC HR. destruct (config_inv _ _ _ _ _ _ _ _ EC) as (_ & _ & _ & _ & EP & _). unfold rate_after. destruct (x_decaying c); [|exact HR]. rewrite EP. apply Rmult_lt_0_compat; [exact HR|apply prodf_pos; intros; apply Rpower_pos].
Qed.
(** With one feature in every state and nothing ignored, every iteration lowers the total of the weights. *)
Lemma errors_negative : forall lr decay iters tol g K soft c m ts theta F0 d, maxent_ok lr decay iters tol g K soft c -> (2 <= K)%Z -> inferable m ts -> one_feature_each m -> length theta = m_n_features m ->
  observed_features m ts = Ok F0 -> expected c m ts (IgnoreList []) theta = Ok d -> length F0 = m_n_features m /\ length d = m_n_features m /\ Rsum F0 - Rsum d <= 1 - IZR K.
Proof.
  intros lr decay iters tol g K soft c m ts theta F0 d (EC & G & HK) K2 IN OF LT EF ED. destruct (config_inv _ _ _ _ _ _ _ _ EC) as (_ & _ & _ & _ & _ & _ & _ & EX). pose proof IN as (_ & _ & _ & _ & _ & NF & HF & _ & _ & T2 & _).
  destruct (C83_match_refuted soft g tol K m ts theta IN OF G K2 ltac:(congruence)) as (F' & d' & E1 & E2 & S1 & S2 & _). assert (F' = F0) by congruence. subst F'. unfold expected in ED. rewrite EX, E2 in ED. cbn [bind] in ED. rewrite zero_nothing in ED. assert (d' = d) by congruence. subst d'.
  destruct (expected_ok soft g tol K m ts theta IN G HK ltac:(congruence)) as (d' & E2' & L & _). assert (d' = d) by congruence. subst d'. split; [|split; [congruence|lra]]. destruct (C52_weights_partial m ts T2 HF) as (F' & E1' & L1 & _). congruence.
Qed.
Lemma totals_fall : forall lr decay iters tol g K soft c m ts F0 r n th, maxent_ok lr decay iters tol g K soft c -> (2 <= K)%Z -> inferable m ts -> one_feature_each m -> 0 < r ->
  observed_features m ts = Ok F0 -> length (th 0%nat) = m_n_features m -> iterates c m ts (IgnoreList []) F0 r n th ->
  (forall j, (j <= n)%nat -> length (th j) = m_n_features m) /\ ((0 < n)%nat -> Rsum (th n) < Rsum (th 0%nat)).
Proof.
  intros lr decay iters tol g K soft c m ts F0 r n th OK K2 IN OF HR EF L0 IT.
  assert (X : forall j, (j <= n)%nat -> length (th j) = m_n_features m /\ Rsum (th j) <= Rsum (th 0%nat) /\ ((0 < j)%nat -> Rsum (th j) < Rsum (th 0%nat))).
  { induction j as [|j IH]; intros Hj; [split; [exact L0|]; split; [lra|lia]|]. destruct (IH ltac:(lia)) as (LJ & S1 & _). destruct (IT j ltac:(lia)) as (d & Ed & Et). destruct (errors_negative _ _ _ _ _ _ _ _ _ _ _ _ _ OK K2 IN OF LJ EF Ed) as (LF & LD & NEG).
    assert (LE : length (map (fun p => fst p - snd p) (combine F0 d)) = m_n_features m) by (rewrite map_length, combine_length; lia).
    split; [rewrite Et, map_length, combine_length; lia|]. rewrite Et, Rsum_step, Rsum_diff by congruence. pose proof (step_rate_pos _ _ _ _ _ _ _ _ r j (proj1 OK) HR) as P. assert (2 <= IZR K) by (apply IZR_le; exact K2). assert (step_rate c r j * (Rsum F0 - Rsum d) < 0) by nra. split; [lra|intros _; lra]. }
  split; [intros j Hj; now apply X|intros Hn; now apply X].
Qed.
