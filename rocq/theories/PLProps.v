(** Properties of policy learning. *)
From Coq Require Import List ZArith Reals Bool Lia Lra.
From Verif Require Import PyBase PyProofs ActionSpec RSum GridModel GridSpec GridProofs MDPModel MDPSpec MDPProofs2 MDPProofs3 MDPProofs4 MDPProps PLModel PLSpec PLAngles PLProofs.
Import ListNotations.
Local Open Scope R_scope.

(** The MDPs a call [fit(mdp, trajectories)] works with, one per trajectory. *)
Definition mdps_of (arg : mdp_arg R) (n : nat) : list (mdp R) := match arg with OneMDP m => repeat m n | ManyMDPs ms => ms end.
(** Credit given to action [b] when [a] is observed: itself only, or by angle. *)
Definition shown (kernel : bool) (ls : R) (nA a b : nat) : R :=
  if kernel then deg_sq_exp_kernel (INR b * (360 / INR nA)) (INR a * (360 / INR nA)) ls 1 else if (a =? b)%nat then 1 else 0.

Lemma td_learner_inv : forall lr d Q kernel ls c l, td_learner lr d Q kernel ls = Ok (c, l) ->
  0 < lr /\ 0 <= decay_value d /\ c_lr c = lr /\ c_decaying c = nltb 0 (decay_value d) /\ c_factor c = decay_factor d /\ c_reward c = (if kernel then kernel_reward ls else onehot_reward (A:=R)) /\ l = new_learner c Q.
Proof.
  intros lr d Q kernel ls c l E. unfold td_learner in E. destruct (nltb n0 lr) eqn:E1; [|discriminate]. cbn [negb] in E. destruct (nltb (decay_value d) n0) eqn:E2; [discriminate|].
  assert (EC : c = mkTD lr (nltb n0 (decay_value d)) (decay_factor d) (if kernel then kernel_reward ls else onehot_reward (A:=R))) by congruence.
  assert (EL : l = new_learner c Q) by congruence. subst c. cbn [c_lr c_decaying c_factor c_reward]. cbn [n0 nltb NumR] in *.
  split; [unfold Rltb in E1; destruct (Rlt_dec 0 lr); [assumption|discriminate]|]. split; [unfold Rltb in E2; destruct (Rlt_dec (decay_value d) 0); [discriminate|lra]|]. repeat split. exact EL.
Qed.
Lemma reward_len : forall (kernel : bool) ls (nA a : nat) v, (if kernel then kernel_reward ls else onehot_reward (A:=R)) nA a = Ok v -> length v = nA.
Proof.
  intros [|] ls nA a v E.
  - unfold kernel_reward in E. assert (v = map (fun i => deg_sq_exp_kernel (INR i * (360 / INR nA)) (INR a * (360 / INR nA)) ls 1) (seq 0 nA)) by congruence. subst. now rewrite map_length, seq_length.
  - unfold onehot_reward in E. destruct (a <? nA)%nat eqn:Ea; [|discriminate]. assert (v = upd (zeros1 (A:=R) nA) a n1) by congruence. subst. unfold zeros1. now rewrite upd_length, repeat_length.
Qed.
Lemma reward_shown : forall (kernel : bool) ls (nA a b : nat) v, (if kernel then kernel_reward ls else onehot_reward (A:=R)) nA a = Ok v -> (b < nA)%nat -> nth b v 0 = shown kernel ls nA a b.
Proof.
  intros [|] ls nA a b v E Hb.
  - unfold kernel_reward in E. assert (v = map (fun i => deg_sq_exp_kernel (INR i * (360 / INR nA)) (INR a * (360 / INR nA)) ls 1) (seq 0 nA)) by congruence. subst.
    rewrite (nth_map_lt _ _ _ _ _ _ 0%nat) by (now rewrite seq_length). now rewrite seq_nth.
  - unfold onehot_reward in E. destruct (a <? nA)%nat eqn:Ea; [|discriminate]. apply Nat.ltb_lt in Ea. assert (v = upd (zeros1 (A:=R) nA) a n1) by congruence. subst. unfold shown, zeros1. destruct (Nat.eqb_spec a b) as [->|N].
    + now rewrite nth_upd_same by (now rewrite repeat_length).
    + rewrite nth_upd_other by congruence. now apply nth_repeat_lt.
Qed.

Lemma credit_shown : forall (c : td_config R) (kernel : bool) ls nA a b, c_reward c = (if kernel then kernel_reward ls else onehot_reward (A:=R)) -> (b < nA)%nat -> credit c nA a b = shown kernel ls nA a b.
Proof.
  intros c kernel ls nA a b ER Hb. unfold credit. rewrite ER. destruct ((if kernel then kernel_reward ls else onehot_reward (A:=R)) nA a) as [v|e] eqn:E; [eapply reward_shown; eauto|].
  destruct kernel; [discriminate|]. unfold onehot_reward in E. destruct (Nat.ltb_spec a nA) as [|Ha]; [discriminate|]. unfold shown. destruct (Nat.eqb_spec a b); [lia|reflexivity].
Qed.

(** ** Whole calls of [fit] *)
Lemma fit_ok_inv : forall c arg ts l l', fit_learner c arg ts l = (l', Ok tt) -> length (mdps_of arg (length ts)) = length ts /\
  exists l1, fit_td c (mdps_of arg (length ts)) ts l = (l1, Ok tt) /\ l' = mkLearner (l_Q l1) (l_orig l1) (l_shared l1) (l_adj l1) (l_n l1) true.
Proof.
  intros c [m|ms] ts l l' E; cbn [fit_learner mdps_of] in *.
  - split; [apply repeat_length|]. destruct (fit_td c (repeat m (length ts)) ts l) as [l1 [[]|e]]; [|discriminate]. exists l1. split; [reflexivity|congruence].
  - destruct (Nat.eqb_spec (length ts) (length ms)) as [EL|]; [|discriminate]. cbn [negb] in E. split; [congruence|]. destruct (fit_td c ms ts l) as [l1 [[]|e]]; [|discriminate]. exists l1. split; [reflexivity|congruence].
Qed.
(** The estimate a fit starts from. *)
Definition starts_from (l : learner R) (nA : nat) (q : list R) : Prop := (l_Q l = QArr q /\ length q = nA) \/ (l_Q l = QNone /\ q = repeat 0 nA).
Definition started (l : learner R) (q : list R) : learner R :=
  mkLearner (QArr q) (l_orig l) (match l_Q l with QNone => false | _ => l_shared l end) (l_adj l) 1 (l_done l).
Lemma fit_learned : forall c nA arg ts l l' q, (forall a v, c_reward c nA a = Ok v -> length v = nA) -> (forall m, In m (mdps_of arg (length ts)) -> m_n_actions m = nA) -> starts_from l nA q -> fit_learner c arg ts l = (l', Ok tt) ->
  exists acts l1, observed (mdps_of arg (length ts)) ts acts /\ learned c nA acts (started l q) l1 /\ l' = mkLearner (l_Q l1) (l_orig l1) (l_shared l1) (l_adj l1) (l_n l1) true.
Proof.
  intros c nA arg ts l l' q LR N ST E. destruct (fit_ok_inv _ _ _ _ _ E) as (EL & l1 & E1 & ->). set (ms := mdps_of arg (length ts)) in *.
  assert (X : observe_trajectories c ms 0 ts (started l q) = (l1, Ok tt)).
  { unfold fit_td in E1. unfold started. destruct ST as [[EQ LQ]|[EQ ->]]; rewrite EQ in *; [exact E1|]. destruct ms as [|m r] eqn:EM; [discriminate|]. rewrite <- EM in *. rewrite <- (N m) by (rewrite EM; now left). exact E1. }
  assert (Lq : length q = nA) by (destruct ST as [[_ H]|[_ ->]]; [exact H|apply repeat_length]).
  destruct (trajectories_ok c nA LR ms ts 0 _ _ N ltac:(cbn; lia) X (ex_intro _ q (conj eq_refl Lq))) as (acts & O & LE). exists acts, l1. split; [|split; [exact LE|reflexivity]].
  rewrite skipn_O in O. replace (firstn (length ts) ms) with ms in O; [exact O|]. rewrite <- EL. symmetry. apply firstn_all.
Qed.

(** ** C47 *)
(** Without decay: the exponentially weighted average of the observations and the initial estimate (zero if
    none was given). *)
Theorem C47_average : forall lr d Q kernel ls c l0 arg ts l l' nA q,
  td_learner lr d Q kernel ls = Ok (c, l0) -> decay_value d = 0 -> (forall m, In m (mdps_of arg (length ts)) -> m_n_actions m = nA) -> starts_from l nA q -> fit_learner c arg ts l = (l', Ok tt) ->
  exists acts q', observed (mdps_of arg (length ts)) ts acts /\ learner_q_values l' = QArr q' /\ length q' = nA /\
    forall b, (b < nA)%nat -> let n := length acts in
      nth b q' 0 = (1 - lr) ^ n * nth b q 0 + sumf (fun i => lr * (1 - lr) ^ (n - 1 - i) * shown kernel ls nA (nth i acts 0%nat) b) (seq 0 n).
Proof.
  intros lr d Q kernel ls c l0 arg ts l l' nA q ET D0 N ST E. destruct (td_learner_inv _ _ _ _ _ _ _ ET) as (_ & _ & EL & ED & EF & ER & _).
  assert (LR : forall a v, c_reward c nA a = Ok v -> length v = nA) by (intros a v; rewrite ER; apply reward_len).
  destruct (fit_learned c nA arg ts l l' q LR N ST E) as (acts & l1 & O & (q0 & q' & E0 & L0 & E1 & L1 & H & _) & ->). cbn [started l_Q] in E0. assert (q0 = q) by congruence. subst q0.
  exists acts, q'. split; [exact O|]. split; [exact E1|]. split; [exact L1|]. intros b Hb n. rewrite H by exact Hb. fold n. unfold weighted_average, rate_at. assert (DD : c_decaying c = false). { rewrite ED, D0. cbn. unfold Rltb. destruct (Rlt_dec 0 0); [lra|reflexivity]. } rewrite DD, EL, prodf_const, seq_length. f_equal.
  apply sumf_ext. intros i Hi. apply in_seq in Hi. rewrite prodf_const, seq_length. replace (n - S i)%nat with (n - 1 - i)%nat by lia. now rewrite (credit_shown c kernel ls) by assumption.
Qed.

(** Starting from nothing, one action credited per observation: values in [0, 1], in total 1 - (1 - lr)^n. *)
Theorem C47_from_nothing : forall lr d ls c l0 arg ts l' nA,
  td_learner lr d None false ls = Ok (c, l0) -> lr <= 1 -> decay_value d = 0 -> (forall m, In m (mdps_of arg (length ts)) -> m_n_actions m = nA) -> fit_learner c arg ts l0 = (l', Ok tt) ->
  exists acts q', observed (mdps_of arg (length ts)) ts acts /\ learner_q_values l' = QArr q' /\ length q' = nA /\ Forall (fun x => 0 <= x <= 1) q' /\ Rsum q' = 1 - (1 - lr) ^ length acts.
Proof.
  intros lr d ls c l0 arg ts l' nA ET L1 D0 N E. destruct (td_learner_inv _ _ _ _ _ _ _ ET) as (LP & _ & EL & ED & EF & ER & EN).
  assert (LR : forall a v, c_reward c nA a = Ok v -> length v = nA) by (intros a v; rewrite ER; apply (reward_len false ls)).
  assert (ST : starts_from l0 nA (repeat 0 nA)) by (right; subst l0; auto).
  destruct (fit_learned c nA arg ts l0 l' _ LR N ST E) as (acts & l1 & O & (q0 & q' & E0 & L0 & E1 & L1' & H & _ & _ & _ & _ & FA) & ->). cbn [started l_Q] in E0. assert (q0 = repeat 0 nA) by congruence. subst q0.
  assert (DD : c_decaying c = false). { rewrite ED, D0. cbn. unfold Rltb. destruct (Rlt_dec 0 0); [lra|reflexivity]. }
  set (n := length acts) in *. set (w := fun i => lr * (1 - lr) ^ (n - 1 - i)).
  assert (V : forall b, (b < nA)%nat -> nth b q' 0 = sumf (fun i => w i * (if (nth i acts 0 =? b)%nat then 1 else 0)) (seq 0 n)).
  { intros b Hb. rewrite H by exact Hb. unfold weighted_average, rate_at. rewrite DD, EL, nth_repeat_lt by exact Hb. rewrite Rmult_0_r, Rplus_0_l.
    apply sumf_ext. intros i Hi. apply in_seq in Hi. rewrite prodf_const, seq_length. unfold w. replace (n - S i)%nat with (n - 1 - i)%nat by lia. rewrite (credit_shown c false ls) by assumption. reflexivity. }
  assert (W : forall i, 0 <= w i) by (intros i; apply Rmult_le_pos; [lra|apply pow_le; lra]).
  assert (G : forall b, (b < nA)%nat -> 0 <= nth b q' 0). { intros b Hb. rewrite V by exact Hb. apply sumf_nonneg. intros i _. apply Rmult_le_pos; [apply W|]. destruct (_ =? _)%nat; lra. }
  assert (SW : sumf w (seq 0 n) = 1 - (1 - lr) ^ n).
  { unfold w. clear. induction n as [|n IH]; [change (seq 0 0) with (@nil nat); rewrite sumf_nil; cbn [pow]; lra|]. rewrite seq_S, sumf_app, sumf_cons, sumf_nil. cbn [Nat.add]. replace (S n - 1 - n)%nat with 0%nat by lia.
    rewrite (sumf_ext _ _ (fun i => (1 - lr) * (lr * (1 - lr) ^ (n - 1 - i)))).
    - rewrite sumf_scal, IH. cbn [pow]. lra.
    - intros i Hi. apply in_seq in Hi. replace (S n - 1 - i)%nat with (S (n - 1 - i)) by lia. cbn [pow]. lra. }
  assert (TOT : Rsum q' = 1 - (1 - lr) ^ n).
  { rewrite Rsum_nth, L1'. rewrite (sumf_ext _ _ (fun b => sumf (fun i => w i * (if (nth i acts 0 =? b)%nat then 1 else 0)) (seq 0 n))) by (intros b Hb; apply in_seq in Hb; apply V; lia).
    rewrite sumf_swap, <- SW. apply sumf_ext. intros i Hi. apply in_seq in Hi. rewrite sumf_scal.
    assert (Ha : (nth i acts 0 < nA)%nat). { rewrite Forall_forall in FA. destruct (FA (nth i acts 0%nat) ltac:(apply nth_In; lia)) as (v & EV). rewrite ER in EV. unfold onehot_reward in EV. destruct (Nat.ltb_spec (nth i acts 0%nat) nA); [assumption|discriminate]. }
    rewrite (sumf_ext _ _ (fun b => if (b =? nth i acts 0)%nat then 1 else 0)) by (intros; now rewrite Nat.eqb_sym). rewrite sumf_indicator by exact Ha. lra. }
  exists acts, q'. split; [exact O|]. split; [exact E1|]. split; [exact L1'|]. split; [|exact TOT].
  apply Forall_forall. intros x Hx. destruct (In_nth _ _ 0 Hx) as (b & Hb & <-). rewrite L1' in Hb. split; [now apply G|].
  assert (nth b q' 0 <= Rsum q').
  { rewrite Rsum_nth, L1'. rewrite <- (sumf_indicator nA b (nth b q' 0) Hb). apply sumf_le. intros x Hx'. apply in_seq in Hx'. destruct (Nat.eqb_spec x b) as [->|]; [lra|apply G; lia]. }
  assert (0 <= (1 - lr) ^ n) by (apply pow_le; lra). lra.
Qed.

(** ** C48 *)
(** A trajectory of neighbouring states of a grid, which may have walls. *)
Definition valid_on (m : mdp R) (t : list nat) : Prop :=
  exists k feats w0 shape st m0 calls, grid_mdp (A:=R) k feats w0 shape st = Ok m0 /\ m = after_wall_calls m0 calls /\ Forall (fun s => s < fst shape * snd shape)%nat t /\ linked m t.
Lemma valid_taken : forall m t, valid_on m t -> exists acts, taken m (map Z.of_nat t) acts /\ length acts = (length t - 1)%nat /\ Forall (fun a => a < m_n_actions m)%nat acts.
Proof.
  intros m t (k & feats & w0 & shape & st & m0 & calls & E & -> & F & L). apply grid_mdp_inv in E. destruct E as (_ & _ & _ & _ & I0 & _). destruct (after_wall_calls_inv calls _ _ _ _ I0) as [I O1].
  destruct t as [|s t]; [exists []; repeat split; constructor|]. destruct (traj_convert _ _ _ _ I (s :: t) F L) as (sa & E & Ls & H). exists (map snd sa). split; [exists sa; split; [exact E|reflexivity]|]. split; [now rewrite map_length|].
  apply Forall_forall. intros a Ha. apply in_map_iff in Ha. destruct Ha as (x & <- & Hx). destruct (In_nth _ _ (0%Z, 0%nat) Hx) as (i & Hi & <-). destruct (H i Hi) as (_ & _ & va & EV & IV).
  assert (Hs : (nth i (s :: t) 0 < nst shape)%nat). { rewrite Forall_forall in F. apply F. apply nth_In. lia. }
  destruct (in_valid_actions _ _ _ _ I _ Hs) as (va' & EV' & V). rewrite EV in EV'. assert (va' = va) by congruence. subst va'. apply V in IV. destruct IV as (u & _ & (GE & _)). rewrite (gi_na _ _ _ _ I). apply (edge_action _ _ _ _ _ _ GE).
Qed.

Section Succeeds.
Variables (c : td_config R) (nA : nat).
Hypothesis LR : forall a v, c_reward c nA a = Ok v -> length v = nA.
Hypothesis RO : forall a, (a < nA)%nat -> exists v, c_reward c nA a = Ok v.
Hypothesis FO : c_decaying c = true -> forall n, exists f, c_factor c n = Ok f.
Definition holds_array (l : learner R) : Prop := exists q, l_Q l = QArr q /\ length q = nA.

Lemma observe_succeeds : forall a l, (a < nA)%nat -> holds_array l -> exists l', observe c nA a l = (l', Ok tt) /\ holds_array l'.
Proof.
  intros a l Ha (q & EQ & LQ). destruct (RO a Ha) as (v & EV).
  assert (X : exists l', observe c nA a l = (l', Ok tt)).
  { unfold observe. rewrite EV, EQ, (LR _ _ EV), LQ, Nat.eqb_refl. cbn [negb]. destruct (c_decaying c) eqn:D; [destruct (FO eq_refl (l_n l)) as (f & ->); cbn [bind]|]; eauto. }
  destruct X as (l' & E). exists l'. split; [exact E|]. destruct (observe_ok c nA LR a l l' E (ex_intro _ q (conj EQ LQ))) as (_ & q' & _ & _ & E1 & L1 & _). exists q'. auto.
Qed.
Lemma observe_all_succeeds : forall mdps acts i l, (forall m, In m mdps -> m_n_actions m = nA) -> Forall (fun a => a < nA)%nat acts -> holds_array l ->
  ((acts = [] \/ i + length acts <= length mdps)%nat -> exists l', observe_all c mdps i acts l = (l', Ok tt) /\ holds_array l') /\
  (~ (acts = [] \/ i + length acts <= length mdps)%nat -> exists l', observe_all c mdps i acts l = (l', Err IndexError)).
Proof.
  intros mdps. induction acts as [|a acts IH]; intros i l N F HA; cbn [observe_all].
  - split; [intros _; exists l; auto|intros X; elim X; now left].
  - inversion F as [|? ? Ha F']. subst. destruct (nth_error mdps i) as [m|] eqn:EM.
    + assert (Hi : (i < length mdps)%nat) by (apply nth_error_Some; congruence). apply nth_error_In in EM. rewrite (N m EM). destruct (observe_succeeds a l Ha HA) as (l1 & -> & HA1). destruct (IH (S i) l1 N F' HA1) as [S1 S2]. cbn [length]. split.
      * intros [X|X]; [discriminate|]. apply S1. right. lia.
      * intros X. apply S2. intros [->|Y]; apply X; right; cbn [length]; lia.
    + apply nth_error_None in EM. split; [intros [X|X]; [discriminate|cbn [length] in X; lia]|]. intros _. exists l. reflexivity.
Qed.
Lemma trajectories_succeed : forall mdps ts n l, (forall m, In m mdps -> m_n_actions m = nA) -> (n + length ts = length mdps)%nat -> Forall2 valid_on (skipn n mdps) ts -> holds_array l ->
  (Forall (fun t => length t - 1 <= length mdps)%nat ts -> exists l', observe_trajectories c mdps n (map (map Z.of_nat) ts) l = (l', Ok tt)) /\
  (~ Forall (fun t => length t - 1 <= length mdps)%nat ts -> exists l', observe_trajectories c mdps n (map (map Z.of_nat) ts) l = (l', Err IndexError)).
Proof.
  intros mdps. induction ts as [|t ts IH]; intros n l N EL F HA.
  - split; [intros _; exists l; reflexivity|intros X; elim X; constructor].
  - cbn [length] in EL. destruct (nth_error mdps n) as [m|] eqn:EM; [|apply nth_error_None in EM; lia].
    assert (SK : skipn n mdps = m :: skipn (S n) mdps). { clear -EM. revert mdps EM. induction n as [|n IH]; intros [|x mdps] E; try discriminate; cbn in *; [congruence|]. now apply IH. }
    rewrite SK in F. inversion F as [|? ? ? ? V F']. subst. pose proof (N m (nth_error_In _ _ EM)) as NM. destruct (valid_taken m t V) as (acts & T & LA & FA). rewrite NM in FA.
    cbn [map]. destruct t as [|s t].
    + destruct (IH (S n) l N ltac:(lia) F' HA) as [S1 S2]. cbn [observe_trajectories map]. split; [intros X; inversion X; subst; now apply S1|]. intros X. apply S2. intros Y. apply X. constructor; [cbn; lia|exact Y].
    + destruct T as (sa & ET & ->). rewrite map_length in LA. destruct (observe_all_succeeds mdps (map snd sa) 0 l N FA HA) as [O1 O2]. rewrite map_length in O1, O2. cbn [Nat.add] in *. cbn [map observe_trajectories]. rewrite EM. cbn [map] in ET. rewrite ET.
      destruct (Nat.le_gt_cases (length sa) (length mdps)) as [B|B].
      * destruct (O1 (or_intror B)) as (l1 & -> & HA1). destruct (IH (S n) l1 N ltac:(lia) F' HA1) as [S1 S2]. split; [intros X; inversion X; subst; now apply S1|]. intros X. apply S2. intros Y. apply X. constructor; [rewrite <- LA; exact B|exact Y].
      * assert (X : ~ (map snd sa = [] \/ (length sa <= length mdps)%nat)). { intros [X|X]; [apply map_eq_nil in X; subst sa; cbn in B; lia|lia]. }
        destruct (O2 X) as (l1 & ->). split; [intros Y; inversion Y as [|? ? H1 H2]; subst; lia|]. intros _. exists l1. reflexivity.
Qed.
End Succeeds.

(** The learner works with the given actions, and its decay is a float. *)
Definition fits (Q : option (list R)) (d : decay_arg) (nA : nat) : Prop :=
  (match Q with Some q => length q = nA | None => True end) /\ (decay_value d = 0 \/ exists r, d = DecayFloat r).
Lemma fit_new : forall lr d Q kernel ls c l0 arg (ts : list (list nat)) nA, td_learner lr d Q kernel ls = Ok (c, l0) -> fits Q d nA -> (forall m, In m (mdps_of arg (length ts)) -> m_n_actions m = nA) -> Forall2 valid_on (mdps_of arg (length ts)) ts ->
  let fit := fit_learner c arg (map (map Z.of_nat) ts) l0 in
  ((forall t, In t ts -> (length t - 1 <= length ts)%nat) /\ (Q = None -> ts <> []) -> exists l', fit = (l', Ok tt)) /\
  (~ ((forall t, In t ts -> (length t - 1 <= length ts)%nat) /\ (Q = None -> ts <> [])) -> exists l', fit = (l', Err IndexError)).
Proof.
  intros lr d Q kernel ls c l0 arg ts nA ET [FQ FD] N F fit. destruct (td_learner_inv _ _ _ _ _ _ _ ET) as (LP & DP & EL & ED & EF & ER & EN).
  assert (LR : forall a v, c_reward c nA a = Ok v -> length v = nA) by (intros a v; rewrite ER; apply reward_len).
  assert (RO : forall a, (a < nA)%nat -> exists v, c_reward c nA a = Ok v). { intros a Ha. rewrite ER. destruct kernel; [unfold kernel_reward; eauto|]. unfold onehot_reward. apply Nat.ltb_lt in Ha. rewrite Ha. eauto. }
  assert (FO : c_decaying c = true -> forall n, exists f, c_factor c n = Ok f). { intros D n. rewrite EF. destruct FD as [D0|(r & ->)]; [|cbn; eauto]. exfalso. rewrite ED, D0 in D. cbn in D. unfold Rltb in D. destruct (Rlt_dec 0 0); [lra|discriminate]. }
  set (ms := mdps_of arg (length ts)) in *. assert (LM : length ms = length ts) by (clear -F; induction F; cbn; congruence).
  assert (FT : fit = let '(l', r) := fit_td c ms (map (map Z.of_nat) ts) l0 in (match r with Ok _ => mkLearner (l_Q l') (l_orig l') (l_shared l') (l_adj l') (l_n l') true | Err _ => l' end, r)).
  { unfold fit, ms in *. destruct arg as [m|mm]; cbn [fit_learner mdps_of] in *; rewrite map_length; [reflexivity|]. rewrite LM, Nat.eqb_refl. reflexivity. }
  assert (FN : fit_td c ms (map (map Z.of_nat) ts) l0 = match Q, ts with None, [] => (l0, Err IndexError) | _, _ => observe_trajectories c ms 0 (map (map Z.of_nat) ts) (started l0 (match Q with Some q => q | None => repeat 0 nA end)) end).
  { rewrite EN. unfold fit_td, started. destruct Q as [q|]; cbn [new_learner l_Q l_orig l_shared l_adj l_done]; [reflexivity|]. destruct ms as [|m r] eqn:EM; destruct ts as [|t ts]; try discriminate; [reflexivity|]. rewrite (N m) by (now left). reflexivity. }
  assert (SS : (forall t, In t ts -> (length t - 1 <= length ts)%nat) <-> Forall (fun t => (length t - 1 <= length ms)%nat) ts) by (rewrite Forall_forall, LM; reflexivity).
  assert (HA : holds_array nA (started l0 (match Q with Some q => q | None => repeat 0 nA end))) by (exists (match Q with Some q => q | None => repeat 0 nA end); split; [reflexivity|destruct Q; [exact FQ|apply repeat_length]]).
  destruct (trajectories_succeed c nA LR RO FO ms ts 0 _ N ltac:(cbn; lia) F HA) as [S1 S2]. rewrite <- SS in S1, S2.
  rewrite FT, FN. split.
  - intros [H1 H2]. destruct (S1 H1) as (l1 & X). destruct Q as [q|]; [rewrite X; eauto|]. destruct ts as [|t ts]; [now elim (H2 eq_refl)|]. rewrite X. eauto.
  - intros H. destruct Q as [q|].
    + destruct S2 as (l1 & X); [intros Y; apply H; split; [exact Y|discriminate]|]. rewrite X. eauto.
    + destruct ts as [|t ts]; [eauto|]. destruct S2 as (l1 & X); [intros Y; apply H; split; [exact Y|discriminate]|]. rewrite X. eauto.
Qed.
(** Fitting a new learner succeeds exactly if every trajectory has at most as many moves as there are
    trajectories (and, without an initial estimate, there is one). *)
Theorem C48_when_it_succeeds_partial : forall lr d Q kernel ls c l0 arg (ts : list (list nat)) nA, td_learner lr d Q kernel ls = Ok (c, l0) -> fits Q d nA -> (forall m, In m (mdps_of arg (length ts)) -> m_n_actions m = nA) -> Forall2 valid_on (mdps_of arg (length ts)) ts ->
  (exists l', fit_learner c arg (map (map Z.of_nat) ts) l0 = (l', Ok tt)) <-> ((forall t, In t ts -> (length t - 1 <= length ts)%nat) /\ (Q = None -> ts <> [])).
Proof.
  intros lr d Q kernel ls c l0 arg ts nA ET FI N F. destruct (fit_new _ _ _ _ _ _ _ _ _ _ ET FI N F) as [S1 S2]. split; [|exact S1].
  intros (l' & E). assert (DEC : {forall t, In t ts -> (length t - 1 <= length ts)%nat} + {~ forall t, In t ts -> (length t - 1 <= length ts)%nat}).
  { destruct (Forall_dec (fun t : list nat => length t - 1 <= length ts)%nat (fun t => le_dec (length t - 1) (length ts)) ts) as [Y|Y]; rewrite Forall_forall in Y; auto. }
  destruct DEC as [Y|Y]; [|destruct S2 as (l1 & X); [tauto|congruence]]. split; [exact Y|]. intros EQ ->. destruct S2 as (l1 & X); [intros [_ Z]; now elim (Z EQ)|congruence].
Qed.
(** So one trajectory of two or more moves always fails, on every grid. *)
Theorem C48_one_trajectory_refuted : forall lr d Q kernel ls c l0 m t, td_learner lr d Q kernel ls = Ok (c, l0) -> fits Q d (m_n_actions m) -> valid_on m t -> (3 <= length t)%nat ->
  exists l', fit_learner c (OneMDP m) [map Z.of_nat t] l0 = (l', Err IndexError).
Proof.
  intros lr d Q kernel ls c l0 m t ET FI V L. apply (fit_new lr d Q kernel ls c l0 (OneMDP m) [t] (m_n_actions m) ET FI); [intros x [<-|[]]; reflexivity|repeat constructor; exact V|].
  intros [H _]. specialize (H t (or_introl eq_refl)). cbn in H. lia.
Qed.
