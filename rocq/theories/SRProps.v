(** C45, C75, C76: the successor representation. *)
From Coq Require Import String List ZArith QArith Reals Bool Lia Lra.
From Verif Require Import PyBase PyProofs GridModel GridSpec GridProofs MDPModel MDPSpec MDPProofs MDPProofs2 MDPProps ActionProofs RSum EnvModel EnvSpec EnvProofs EnvProofs2 EnvProofs3 EnvProofs4 EnvProofs5 EnvProps VISpec VIProofs2 VIEnvProps SRModel SRSpec LinProofs SRProofs.
Import ListNotations.
Local Close Scope Q_scope.
Local Open Scope R_scope.

(** The rewards come with one weight per feature and one column per state. *)
Definition matching (theta : list R) (features : list (list R)) (nS : nat) : Prop :=
  length theta = length features /\ (0 < length features)%nat /\ forall row, In row features -> length row = nS.
(** Value of a possible action; an impossible action counts as the reward of its state. *)
Definition or_else (v : fval R) (d : R) : R := match v with Fin x => x | _ => d end.

Lemma div_idx : forall s a m, (a < m)%nat -> ((s * m + a) / m)%nat = s /\ ((s * m + a) mod m)%nat = a.
Proof.
  intros s a m H. rewrite Nat.add_comm. split; [rewrite Nat.div_add by lia; rewrite Nat.div_small by exact H; lia|rewrite Nat.mod_add by lia; now apply Nat.mod_small].
Qed.
Lemma pow_small : forall g B eps, 0 <= g < 1 -> 0 <= B -> 0 < eps -> exists n0, forall n, (n0 <= n)%nat -> g ^ n * B < eps.
Proof.
  intros g B eps Hg HB He. destruct (pow_lt_1_zero g) with (y := eps / (B + 1)) as (n0 & H).
  - rewrite Rabs_right; lra.
  - apply Rdiv_lt_0_compat; lra.
  - exists n0. intros n Hn. specialize (H n Hn). pose proof (pow_le g n (proj1 Hg)) as P. rewrite Rabs_right in H by lra.
    apply (Rmult_lt_compat_r (B + 1)) in H; [|lra]. unfold Rdiv in H. rewrite Rmult_assoc, Rinv_l in H by lra. nra.
Qed.

Section Gains.
Variables (sas : list (list (list R))) (nS nA : nat) (g : R).
Hypothesis SH : shape3 nS nA nS sas.
Hypothesis pS : (0 < nS)%nat.
Hypothesis g_rng : 0 <= g < 1.
Variables (v : nat -> nat -> R) (q : nat -> R).
Hypothesis DT : deterministic sas.
Hypothesis Q : forall s a, (s < nS)%nat -> (a < nA)%nat -> q (s * nA + a)%nat = v s a + g * ahead sas nA q s a.

Lemma gains_exist : forall n s a, (s < nS)%nat -> (a < nA)%nat -> exists y, gains_within sas nA g v n s a y.
Proof.
  induction n as [|n IH]; intros s a Hs Ha; [eexists; constructor|]. pose proof (next_of_spec sas nS nA s a SH Hs Ha) as NX. destruct (next_of (nth a (nth s sas []) [])) as [t|].
  - destruct NX as [Ht LT]. assert (F : exists f, forall b, (b < nA)%nat -> gains_within sas nA g v n t b (f b)).
    { assert (G : forall m, (m <= nA)%nat -> exists f, forall b, (b < m)%nat -> gains_within sas nA g v n t b (f b)); [|apply (G nA); lia].
      induction m as [|m IHm]; intros Hm; [exists (fun _ => 0); lia|]. destruct IHm as (f & Hf); [lia|]. destruct (IH t m Ht ltac:(lia)) as (y & Hy).
      exists (fun b => if (b =? m)%nat then y else f b). intros b Hb. destruct (Nat.eqb_spec b m) as [->|]; [exact Hy|]. apply Hf. lia. }
    destruct F as (f & Hf). eexists. eapply gains_go; eauto.
  - eexists. now apply gains_stop.
Qed.
Lemma gains_close : forall B, 0 <= B -> (forall i, (i < nS * nA)%nat -> Rabs (q i) <= B) -> forall n s a y, (s < nS)%nat -> (a < nA)%nat -> gains_within sas nA g v n s a y ->
  Rabs (q (s * nA + a)%nat - y) <= g ^ n * B.
Proof.
  intros B HB QB. induction n as [|n IH]; intros s a y Hs Ha G; inversion G; subst.
  - rewrite Rminus_0_r. cbn. rewrite Rmult_1_l. apply QB. now apply idx_lt.
  - rewrite Q by assumption. pose proof (next_of_spec sas nS nA s a SH Hs Ha) as NX. unfold ahead. destruct (next_of (nth a (nth s sas []) [])) as [t|]; [exfalso; now apply (H0 t)|].
    replace (v s a + g * 0 - v s a) with 0 by lra. rewrite Rabs_R0. apply Rmult_le_pos; [apply pow_le; lra|exact HB].
  - rewrite Q by assumption. pose proof (next_of_spec sas nS nA s a SH Hs Ha) as NX. unfold ahead. destruct (next_of (nth a (nth s sas []) [])) as [t'|]; [|exfalso; now apply (NX t)].
    destruct NX as [Ht' LT]. assert (t' = t) by (eapply DT; eauto). subst t'. rename H0 into L0.
    replace (v s a + g * mean nA (fun b => q (t * nA + b)%nat) - (v s a + g * mean nA f)) with (g * mean nA (fun b => q (t * nA + b)%nat - f b)).
    + rewrite Rabs_mult, (Rabs_right g) by lra. cbn [pow]. rewrite Rmult_assoc. apply Rmult_le_compat_l; [lra|]. apply mean_bound; [|apply Rmult_le_pos; [apply pow_le; lra|exact HB]].
      intros b Hb. now apply IH; auto.
    + unfold mean. replace (sumf (fun b => q (t * nA + b)%nat - f b) (seq 0 nA)) with (sumf (fun b => q (t * nA + b)%nat) (seq 0 nA) - sumf f (seq 0 nA)); [unfold Rdiv; lra|].
      replace (sumf (fun b => q (t * nA + b)%nat) (seq 0 nA) - sumf f (seq 0 nA)) with (sumf (fun b => q (t * nA + b)%nat) (seq 0 nA) + -1 * sumf f (seq 0 nA)) by lra.
      rewrite <- sumf_scal, <- sumf_add. apply sumf_ext. intros. lra.
Qed.
Lemma gains_total : forall s a, (s < nS)%nat -> (a < nA)%nat -> total_gain sas nA g v s a (q (s * nA + a)%nat).
Proof.
  intros s a Hs Ha eps He. destruct (max_exists q (nS * nA)) as (B & HB & QB & _). destruct (pow_small g B eps g_rng HB He) as (n0 & H). exists n0. intros n Hn. split; [now apply gains_exist|].
  intros y Hy. eapply Rle_lt_trans; [apply (gains_close B HB QB n); assumption|now apply H].
Qed.
End Gains.

Lemma gains_le : forall sas nA g v w n s a y z, 0 <= g -> deterministic sas -> (forall s a, v s a <= w s a) -> gains_within sas nA g v n s a y -> gains_within sas nA g w n s a z -> y <= z.
Proof.
  intros sas nA g v w n s a y z Hg DT LE G. revert z. induction G as [s a|n s a IM|n s a t f LT HF IH]; intros z G'; inversion G' as [|? ? ? IM'|? ? ? t' f' LT' HF']; subst; auto; try lra.
  - exfalso. now apply (IM t').
  - exfalso. now apply (IM' t).
  - assert (t' = t) by (eapply DT; eauto). subst t'. apply Rplus_le_compat; [apply LE|]. apply Rmult_le_compat_l; [exact Hg|]. unfold mean, Rdiv. destruct (Nat.eq_dec nA 0) as [->|NZ]; [cbn; unfold sumf; cbn; lra|].
    apply Rmult_le_compat_r; [apply Rlt_le, Rinv_0_lt_compat, lt_0_INR; lia|]. apply sumf_le. intros b Hb. apply in_seq in Hb. apply IH; [lia|apply HF'; lia].
Qed.

(** The matrix can always be inverted. *)
Theorem C45_never_fails : forall sas nS nA g, shape3 nS nA nS sas -> (0 < nS)%nat -> 0 <= g < 1 -> exists sr, get_sa_sr sas g = Ok sr /\ shape2 (nS * nA) (nS * nA) sr.
Proof. intros sas nS nA g SH pS Hg. destruct (sr_exists sas nS nA g SH pS Hg) as (sr & E & S & _). exists sr. split; [exact E|exact S]. Qed.
(** In particular, building it when a tree search is fitted (mcts.py 948) never fails. *)
Theorem C45_in_tree_search : forall pl e, reachable pl e -> exists sr, get_sa_sr (m_sas (e_mdp e)) (99 / 100) = Ok sr.
Proof.
  intros pl e RE. destruct (reachable_wf _ _ RE) as (k & shape & st & W). pose proof (wf_grid _ _ _ _ W) as G.
  destruct (C45_never_fails (m_sas (e_mdp e)) (nst shape) (actions_of k st) (99 / 100)) as (sr & E & _); [exact (inv_shape _ _ _ _ G)|apply (gi_pos _ _ _ _ G)|lra|eauto].
Qed.

(** Entries are discounted expected numbers of visits. *)
Definition marker (t b : nat) : nat -> nat -> R := fun s a => if (s =? t)%nat && (a =? b)%nat then 1 else 0.
Theorem C76_visits : forall sas nS nA g sr, shape3 nS nA nS sas -> (0 < nS)%nat -> 0 <= g < 1 -> deterministic sas -> get_sa_sr sas g = Ok sr ->
  forall s a t b, (s < nS)%nat -> (a < nA)%nat -> (t < nS)%nat -> (b < nA)%nat -> total_gain sas nA g (marker t b) s a (get2 0 sr (s * nA + a) (t * nA + b)).
Proof.
  intros sas nS nA g sr SH pS Hg DT E s a t b Hs Ha Ht Hb. destruct (sr_exists sas nS nA g SH pS Hg) as (sr' & E' & SQ & H). assert (sr' = sr) by congruence. subst sr'.
  set (v := fun i => if (i =? t * nA + b)%nat then 1 else 0).
  assert (EQ : forall i, get2 0 sr i (t * nA + b) = mat_vec (nS * nA) sr v i).
  { intros i. unfold mat_vec. rewrite (sumf_single _ _ (t * nA + b)%nat); [unfold v; rewrite Nat.eqb_refl, Rmult_1_r; reflexivity|apply seq_NoDup|apply in_seq; split; [lia|apply idx_lt; assumption]|].
    intros k _ NE. unfold v. destruct (Nat.eqb_spec k (t * nA + b)); [congruence|lra]. }
  rewrite EQ. apply (gains_total sas nS nA g SH pS Hg (marker t b)); auto. intros s' a' Hs' Ha'. rewrite H by assumption. f_equal. unfold v, marker.
  destruct (Nat.eqb_spec (s' * nA + a') (t * nA + b)) as [X|X].
  - destruct (div_idx s' a' nA Ha') as [D1 D2]. destruct (div_idx t b nA Hb) as [D3 D4]. rewrite X in D1, D2. assert (X1 : s' = t) by congruence. assert (X2 : a' = b) by congruence. rewrite X1, X2, !Nat.eqb_refl. reflexivity.
  - destruct (Nat.eqb_spec s' t), (Nat.eqb_spec a' b); subst; try reflexivity. congruence.
Qed.
(** They are never negative, and a row's total is at most 1/(1 - discount). *)
Lemma gain_limits : forall sas nS nA g v s a x lo hi, shape3 nS nA nS sas -> (0 < nS)%nat -> (s < nS)%nat -> (a < nA)%nat ->
  total_gain sas nA g v s a x -> (forall n y, (0 < n)%nat -> gains_within sas nA g v n s a y -> lo <= y <= hi) -> lo <= x <= hi.
Proof.
  intros sas nS nA g v s a x lo hi SH pS Hs Ha TG B. split; apply Rnot_lt_le; intros C.
  - destruct (TG (lo - x) ltac:(lra)) as (n0 & H). destruct (H (S n0) ltac:(lia)) as [(y & Y) H2]. specialize (H2 y Y). specialize (B (S n0) y ltac:(lia) Y). apply Rabs_def2 in H2. lra.
  - destruct (TG (x - hi) ltac:(lra)) as (n0 & H). destruct (H (S n0) ltac:(lia)) as [(y & Y) H2]. specialize (H2 y Y). specialize (B (S n0) y ltac:(lia) Y). apply Rabs_def2 in H2. lra.
Qed.
Lemma Rdiv_le_0_compat : forall a b, 0 <= a -> 0 < b -> 0 <= a / b.
Proof. intros a b Ha Hb. apply Rmult_le_pos; [exact Ha|now apply Rlt_le, Rinv_0_lt_compat]. Qed.
Lemma gains_bounds : forall sas nA g v c n s a y, 0 <= g < 1 -> (forall s a, 0 <= v s a <= c) -> gains_within sas nA g v n s a y -> 0 <= y <= c / (1 - g).
Proof.
  intros sas nA g v c n s a y Hg V G. assert (Hc : 0 <= c) by (specialize (V 0%nat 0%nat); lra). assert (D : c / (1 - g) = c + g * (c / (1 - g))) by (field; lra). assert (D0 : 0 <= c / (1 - g)) by (apply Rdiv_le_0_compat; lra).
  induction G as [s a|n s a IM|n s a t f LT HF IH]; [lra|specialize (V s a); nra|]. specialize (V s a).
  assert (M : 0 <= mean nA f <= c / (1 - g)).
  { unfold mean. destruct (Nat.eq_dec nA 0) as [->|NZ]; [cbn [seq]; unfold Rdiv at 1 2; rewrite sumf_nil; lra|]. assert (P : 0 < INR nA) by (apply lt_0_INR; lia).
    split; [apply Rdiv_le_0_compat; [apply sumf_nonneg; intros b Hb; apply in_seq in Hb; apply IH; lia|exact P]|]. apply (Rmult_le_reg_r (INR nA)); [exact P|]. unfold Rdiv at 1. rewrite Rmult_assoc, Rinv_l, Rmult_1_r by lra.
    eapply Rle_trans; [apply (sumf_le _ _ (fun _ => c / (1 - g))); intros b Hb; apply in_seq in Hb; apply IH; lia|].
    right. clear. unfold sumf. induction nA as [|m IHm] using nat_ind; [cbn; lra|]. rewrite seq_S, map_app, Rsum_app, IHm, S_INR. cbn. lra. }
  nra.
Qed.
Theorem C76_nonnegative : forall sas nS nA g sr, shape3 nS nA nS sas -> (0 < nS)%nat -> 0 <= g < 1 -> deterministic sas -> get_sa_sr sas g = Ok sr ->
  forall s a, (s < nS)%nat -> (a < nA)%nat -> (forall t b, (t < nS)%nat -> (b < nA)%nat -> 0 <= get2 0 sr (s * nA + a) (t * nA + b)) /\
    1 <= sumf (fun j => get2 0 sr (s * nA + a) j) (seq 0 (nS * nA)) <= 1 / (1 - g).
Proof.
  intros sas nS nA g sr SH pS Hg DT E s a Hs Ha. split.
  - intros t b Ht Hb. apply (gain_limits sas nS nA g (marker t b) s a _ 0 (1 / (1 - g)) SH pS Hs Ha (C76_visits sas nS nA g sr SH pS Hg DT E s a t b Hs Ha Ht Hb)).
    intros n y _ G. eapply gains_bounds; eauto. intros s' a'. unfold marker. destruct ((s' =? t)%nat && (a' =? b)%nat); lra.
  - destruct (sr_exists sas nS nA g SH pS Hg) as (sr' & E' & SQ & H). assert (sr' = sr) by congruence. subst sr'.
    assert (EQ : sumf (fun j => get2 0 sr (s * nA + a) j) (seq 0 (nS * nA)) = mat_vec (nS * nA) sr (fun _ => 1) (s * nA + a)%nat) by (unfold mat_vec; apply sumf_ext; intros; rewrite Rmult_1_r; reflexivity).
    rewrite EQ. eapply (gain_limits sas nS nA g (fun _ _ => 1) s a _ 1 (1 / (1 - g)) SH pS Hs Ha); [apply (gains_total sas nS nA g SH pS Hg (fun _ _ => 1)); auto; intros; now rewrite H|].
    intros n y Hn G. pose proof (gains_bounds sas nA g (fun _ _ => 1) 1 n s a y Hg ltac:(intros; lra) G) as B. split; [|lra].
    inversion G as [|? ? ? IM|n' ? ? t f LT HF]; subst; [lia|lra|]. assert (0 <= mean nA f); [|nra].
    unfold mean. destruct (Nat.eq_dec nA 0) as [Z|NZ]; [lia|]. apply Rdiv_le_0_compat; [|apply lt_0_INR; lia]. apply sumf_nonneg. intros b Hb. apply in_seq in Hb. apply (gains_bounds sas nA g (fun _ _ => 1) 1 n' t b (f b) Hg ltac:(intros; lra)). apply HF. lia.
Qed.

(** ** Q values *)
Lemma row_sum_zero : forall sas nS nA s a, shape3 nS nA nS sas -> deterministic sas -> (s < nS)%nat -> (a < nA)%nat ->
  (nsum (nth a (nth s sas []) []) = 0 <-> impossible sas s a).
Proof.
  intros sas nS nA s a SH DT Hs Ha. destruct SH as [L SH]. destruct (SH s Hs) as [_ SH2]. specialize (SH2 a Ha). rewrite nsum_Rsum, Rsum_nth, SH2. split.
  - intros Z t LT. apply LT. assert (Ht : (t < nS)%nat). { destruct (Nat.lt_ge_cases t nS); [assumption|]. elim LT. unfold get3. apply nth_overflow. lia. }
    unfold get3. transitivity (sumf (fun i : nat => nth i (nth a (nth s sas []) []) 0) (seq 0 nS)); [|exact Z]. symmetry. apply (sumf_single _ (fun i => nth i (nth a (nth s sas []) []) 0) t); [apply seq_NoDup|apply in_seq; lia|]. intros y _ NE. destruct (Req_dec (nth y (nth a (nth s sas []) []) 0) 0) as [E|E]; [exact E|]. elim NE. eapply DT; [exact E|exact LT].
  - intros IM. apply sumf_0. intros t _. destruct (Req_dec (nth t (nth a (nth s sas []) []) 0) 0) as [E|E]; [exact E|]. elim (IM t). exact E.
Qed.
Lemma rewards_nth : forall theta features nS, matching theta features nS -> exists r, rewards_of theta features nS = Ok r /\ length r = nS /\ forall s, (s < nS)%nat -> nth s r 0 = reward_of theta features s.
Proof.
  intros theta features nS (L & P & W). unfold rewards_of. rewrite L, Nat.eqb_refl. eexists. split; [reflexivity|]. split; [now rewrite map_length, seq_length|]. intros s Hs.
  rewrite (nth_map_lt _ _ _ _ _ _ 0%nat) by (now rewrite seq_length). rewrite seq_nth by exact Hs. rewrite (dot_sumf (length features)) by (rewrite ?map_length; auto). unfold reward_of. rewrite L. apply sumf_ext. intros i Hi. apply in_seq in Hi. f_equal.
  rewrite (nth_map_lt _ _ (fun row => nth s row 0) _ _ _ []) by lia. reflexivity.
Qed.

(** For every deterministic transition array: Q values exist, impossible actions get minus infinity, and
    possible ones satisfy the equation and are the expected discounted reward totals. *)
Theorem C75_q_values : forall sas nS nA g theta features sr, shape3 nS nA nS sas -> (0 < nS)%nat -> 0 <= g < 1 -> deterministic sas -> matching theta features nS -> get_sa_sr sas g = Ok sr ->
  let r := reward_of theta features in
  exists q, get_sr_q_values theta features sr sas nS nA = Ok q /\ shape2 nS nA q /\ forall s a, (s < nS)%nat -> (a < nA)%nat ->
    (impossible sas s a -> get2 NaN q s a = NInf) /\
    (forall t, leads_to sas s a t -> exists x, get2 NaN q s a = Fin x /\ x = r s + g * mean nA (fun b => or_else (get2 NaN q t b) (r t)) /\
       total_gain sas nA g (fun s _ => r s) s a x).
Proof.
  intros sas nS nA g theta features sr SH pS Hg DT MT E r. destruct (sr_exists sas nS nA g SH pS Hg) as (sr' & E' & SQ & H). assert (sr' = sr) by congruence. subst sr'.
  unfold get_sr_q_values. destruct MT as (L & P & W). assert (L0 : length (nth 0 features []) = nS) by (apply W, nth_In; exact P). rewrite L0, Nat.eqb_refl. cbn [negb].
  destruct (rewards_nth theta features nS (conj L (conj P W))) as (rw & -> & LR & HR). cbn [bind]. set (rep := flat_map (fun x => repeat x nA) rw).
  assert (REP : length rep = (nS * nA)%nat /\ forall s a, (s < nS)%nat -> (a < nA)%nat -> nth (s * nA + a) rep 0 = r s).
  { assert (X : rep = flat_map (fun s => repeat (nth s rw 0) nA) (seq 0 nS)). { unfold rep. rewrite <- (map_nth_seq _ 0 rw) at 1. rewrite LR, !flat_map_concat_map, map_map. reflexivity. }
    rewrite X. split; [apply len_blocks; intros; apply repeat_length|]. intros s a Hs Ha. rewrite (nth_blocks _ _ nA); [|intros; apply repeat_length|assumption|assumption]. rewrite nth_repeat_lt by exact Ha. now apply HR. }
  destruct REP as [LREP NREP]. destruct SQ as [LS SS].
  replace (forallb (fun row => length row =? length rep)%nat sr) with true by (symmetry; apply forallb_forall; intros row Hr; apply Nat.eqb_eq; apply (In_nth _ _ []) in Hr; destruct Hr as (i & Hi & <-); rewrite SS by lia; congruence).
  cbn [negb]. rewrite map_length, LS, Nat.eqb_refl. cbn [negb]. eexists. split; [reflexivity|].
  set (v := fun i => nth i rep 0). set (q0 := mat_vec (nS * nA) sr v).
  assert (QN : forall s a, (s < nS)%nat -> (a < nA)%nat -> nth (s * nA + a) (map (fun row => dot row rep) sr) 0 = q0 (s * nA + a)%nat).
  { intros s a Hs Ha. pose proof (idx_lt nS nA s a Hs Ha) as Hi. rewrite (nth_map_lt _ _ _ _ _ _ []) by lia. rewrite (dot_sumf (nS * nA)) by (rewrite ?SS; lia). reflexivity. }
  assert (Q : forall s a, (s < nS)%nat -> (a < nA)%nat -> q0 (s * nA + a)%nat = r s + g * ahead sas nA q0 s a).
  { intros s a Hs Ha. unfold q0. rewrite H by assumption. f_equal. unfold v. now apply NREP. }
  match goal with |- shape2 _ _ ?l /\ _ => set (q := l) end.
  assert (SQ2 : shape2 nS nA q). { unfold q. split; [now rewrite map_length, seq_length|]. intros i Hi. rewrite (nth_map_lt _ _ _ _ _ _ 0%nat) by (now rewrite seq_length). now rewrite map_length, seq_length. }
  assert (QQ : forall s a, (s < nS)%nat -> (a < nA)%nat -> get2 NaN q s a = if neqb (nsum (nth a (nth s sas []) [])) n0 then NInf else Fin (q0 (s * nA + a)%nat)).
  { intros s a Hs Ha. unfold get2, q. rewrite (nth_map_lt _ _ _ _ _ _ 0%nat) by (now rewrite seq_length). rewrite (nth_map_lt _ _ _ _ _ _ 0%nat) by (now rewrite seq_length). rewrite !seq_nth by assumption. cbn [Nat.add]. rewrite <- QN by assumption. reflexivity. }
  assert (QI : forall s a, (s < nS)%nat -> (a < nA)%nat -> impossible sas s a -> get2 NaN q s a = NInf).
  { intros s a Hs Ha IM. rewrite QQ by assumption. cbn [neqb NumR n0]. unfold Reqb. destruct (Req_EM_T _ 0) as [|X]; [reflexivity|]. elim X. now apply (row_sum_zero sas nS nA). }
  assert (QF : forall s a t, (s < nS)%nat -> (a < nA)%nat -> leads_to sas s a t -> get2 NaN q s a = Fin (q0 (s * nA + a)%nat)).
  { intros s a t Hs Ha LT. rewrite QQ by assumption. cbn [neqb NumR n0]. unfold Reqb. destruct (Req_EM_T _ 0) as [X|]; [|reflexivity]. apply (row_sum_zero sas nS nA) in X; [elim (X t LT)|assumption..]. }
  split; [exact SQ2|]. intros s a Hs Ha. split; [now apply QI|]. intros t LT. exists (q0 (s * nA + a)%nat). split; [now apply (QF s a t)|]. split.
  - rewrite Q by assumption. f_equal. f_equal. pose proof (next_of_spec sas nS nA s a SH Hs Ha) as NX. unfold ahead. destruct (next_of (nth a (nth s sas []) [])) as [t'|]; [|elim (NX t LT)].
    destruct NX as [Ht LT']. assert (t' = t) by (eapply DT; eauto). subst t'. unfold mean. f_equal. apply sumf_ext. intros b Hb. apply in_seq in Hb.
    pose proof (next_of_spec sas nS nA t b SH Ht ltac:(lia)) as NX. destruct (next_of (nth b (nth t sas []) [])) as [u|] eqn:EN.
    + destruct NX as [_ LU]. rewrite (QF t b u) by (auto; lia). reflexivity.
    + rewrite QI by (auto; lia). cbn. rewrite Q by (auto; lia). unfold ahead. rewrite EN. lra.
  - apply (gains_total sas nS nA g SH pS Hg (fun s _ => r s)); auto.
Qed.

(** C45 for states where everything is possible one step later. *)
Theorem C45_all_possible_partial : forall sas nS nA g theta features sr q, shape3 nS nA nS sas -> (0 < nS)%nat -> 0 <= g < 1 -> deterministic sas -> matching theta features nS -> get_sa_sr sas g = Ok sr ->
  get_sr_q_values theta features sr sas nS nA = Ok q ->
  forall s a t, (s < nS)%nat -> (a < nA)%nat -> leads_to sas s a t -> (forall b, (b < nA)%nat -> exists u, leads_to sas t b u) ->
  exists x f, get2 NaN q s a = Fin x /\ (forall b, (b < nA)%nat -> get2 NaN q t b = Fin (f b)) /\ x = reward_of theta features s + g * mean nA f.
Proof.
  intros sas nS nA g theta features sr q SH pS Hg DT MT E EQ s a t Hs Ha LT AP. destruct (C75_q_values sas nS nA g theta features sr SH pS Hg DT MT E) as (q' & E' & _ & H). assert (q' = q) by congruence. subst q'.
  assert (Ht : (t < nS)%nat). { destruct (Nat.lt_ge_cases t nS); [assumption|]. elim LT. unfold get3. apply nth_overflow. destruct SH as [_ SH]. destruct (SH s Hs) as [_ SH2]. rewrite SH2; assumption. }
  destruct (H s a Hs Ha) as [_ HP]. destruct (HP t LT) as (x & Ex & Eq & _). exists x. exists (fun b => or_else (get2 NaN q t b) (reward_of theta features t)). split; [exact Ex|]. split; [|exact Eq].
  intros b Hb. destruct (AP b Hb) as (u & LU). destruct (H t b Ht Hb) as [_ HP2]. destruct (HP2 u LU) as (y & Ey & _). now rewrite Ey.
Qed.
(** C228: the equation where every action is possible in the next state. *)
Theorem C228_equation : forall sas nS nA g theta features sr q, shape3 nS nA nS sas -> (0 < nS)%nat -> 0 <= g < 1 -> deterministic sas -> matching theta features nS -> get_sa_sr sas g = Ok sr ->
  get_sr_q_values theta features sr sas nS nA = Ok q ->
  forall s a t, (s < nS)%nat -> (a < nA)%nat -> leads_to sas s a t -> (forall b, (b < nA)%nat -> exists u, leads_to sas t b u) ->
  exists x f, get2 NaN q s a = Fin x /\ (forall b, (b < nA)%nat -> get2 NaN q t b = Fin (f b)) /\ x = reward_of theta features s + g * mean nA f.
Proof. exact (@C45_all_possible_partial). Qed.
(** Otherwise the equation fails: the Q value is finite, but one of the averaged values is minus infinity. *)
Theorem C45_border_refuted : forall sas nS nA g theta features sr q, shape3 nS nA nS sas -> (0 < nS)%nat -> 0 <= g < 1 -> deterministic sas -> matching theta features nS -> get_sa_sr sas g = Ok sr ->
  get_sr_q_values theta features sr sas nS nA = Ok q ->
  forall s a t b, (s < nS)%nat -> (a < nA)%nat -> (b < nA)%nat -> leads_to sas s a t -> impossible sas t b -> (exists x, get2 NaN q s a = Fin x) /\ get2 NaN q t b = NInf.
Proof.
  intros sas nS nA g theta features sr q SH pS Hg DT MT E EQ s a t b Hs Ha Hb LT IM. destruct (C75_q_values sas nS nA g theta features sr SH pS Hg DT MT E) as (q' & E' & _ & H). assert (q' = q) by congruence. subst q'.
  assert (Ht : (t < nS)%nat). { destruct (Nat.lt_ge_cases t nS); [assumption|]. elim LT. unfold get3. apply nth_overflow. destruct SH as [_ SH]. destruct (SH s Hs) as [_ SH2]. rewrite SH2; assumption. }
  destruct (H s a Hs Ha) as [_ HP]. destruct (HP t LT) as (x & Ex & _). split; [eauto|]. now apply (H t b Ht Hb).
Qed.

(** Every grid's transition array qualifies. *)
Theorem C75_grids : forall k shape st m, grid_inv k shape st m -> shape3 (nst shape) (actions_of k st) (nst shape) (m_sas m) /\ deterministic (m_sas m).
Proof.
  intros k shape st m G. pose proof (inv_shape _ _ _ _ G) as SH. split; [exact SH|]. intros s a t t' H1 H2.
  assert (B : forall t, leads_to (m_sas m) s a t -> (s < nst shape)%nat /\ (a < actions_of k st)%nat /\ (t < nst shape)%nat).
  { intros u LU. destruct SH as [L SH]. unfold leads_to, get3 in LU. destruct (Nat.lt_ge_cases s (nst shape)) as [Hs|Hs]; [|elim LU; rewrite (nth_overflow (m_sas m)) by lia; now destruct a, u].
    destruct (SH s Hs) as [L2 SH2]. destruct (Nat.lt_ge_cases a (actions_of k st)) as [Ha|Ha]; [|elim LU; rewrite (nth_overflow (nth s (m_sas m) [])) by lia; now destruct u].
    destruct (Nat.lt_ge_cases u (nst shape)) as [Hu|Hu]; [auto|]. elim LU. apply nth_overflow. rewrite SH2 by exact Ha. exact Hu. }
  destruct (B _ H1) as (Hs & Ha & Ht). destruct (B _ H2) as (_ & _ & Ht').
  destruct (inv_edge _ _ _ _ G s a t Hs Ha Ht) as [[_ E1]|[E1 _]]; [|contradiction]. destruct (inv_edge _ _ _ _ G s a t' Hs Ha Ht') as [[_ E2]|[E2 _]]; [|contradiction].
  eapply edge_unique_t; [apply E1|apply E2|]. pose proof (gi_pos _ _ _ _ G). unfold nst in *. lia.
Qed.

(** ** Examples *)
(** Two states in a cycle with one action: everything is possible everywhere. *)
Definition ex_cycle {A} `{Num A} : list (list (list A)) := [[[n0; n1]]; [[n1; n0]]].
Example C45_example : shape3 2 1 2 (ex_cycle (A:=R)) /\ deterministic (ex_cycle (A:=R)) /\ (forall s, (s < 2)%nat -> leads_to ex_cycle s 0 (1 - s)) /\ matching [1] [[3; 5]] 2.
Proof.
  split; [|split; [|split]].
  - split; [reflexivity|]. intros i Hi. destruct i as [|[|i]]; [| |lia]; (split; [reflexivity|]; intros j Hj; destruct j; [reflexivity|lia]).
  - intros s a t t' H1 H2. unfold leads_to, get3, ex_cycle in *. destruct s as [|[|[|s]]]; destruct a as [|[|a]]; destruct t as [|[|[|t]]]; cbn in H1; try lra; destruct t' as [|[|[|t']]]; cbn in H2; try lra; reflexivity.
  - intros s Hs. unfold leads_to, get3. destruct s as [|[|s]]; cbn; lra || lia.
  - split; [reflexivity|]. split; [cbn; lia|]. intros row [<-|[]]; reflexivity.
Qed.
Example C45_example_run : get_sa_sr ex_cycle (1 # 2)%Q = Ok [[4 # 3; 2 # 3]; [2 # 3; 4 # 3]]%Q /\
  get_sr_q_values [1]%Q [[3; 5]]%Q [[4 # 3; 2 # 3]; [2 # 3; 4 # 3]]%Q ex_cycle 2 1 = Ok [[Fin (22 # 3)]; [Fin (26 # 3)]]%Q.
Proof. vmr. Qed.
(** A corridor of two states on a square grid: two of the four actions are impossible in each state. *)
Example C75_example_run : exists m sr q, grid_mdp (A:=Q) Square [[0; 1]%Q] None (2, 1)%nat false = Ok m /\ get_sa_sr (m_sas m) (1 # 2)%Q = Ok sr /\
  get_sr_q_values [1%Q] [[0; 1]%Q] sr (m_sas m) 2 4 = Ok q /\ length (nth 0 q []) = 4%nat /\ In NInf (nth 0 q []) /\ exists x, In (Fin x) (nth 0 q []).
Proof. do 3 eexists. split; [vm_compute; reflexivity|]. split; [vm_compute; reflexivity|]. split; [vm_compute; reflexivity|]. split; [vm_compute; reflexivity|]. split; [vm_compute; tauto|]. eexists. vm_compute. eauto. Qed.

(** C77: probabilities are ignored. The first state moves on with probability one half, but the result is
    that of staying there forever. *)
Theorem C77_stochastic_refuted : exists sr, get_sa_sr [[[1 # 2; 1 # 2]]; [[0; 1]]]%Q (1 # 2)%Q = Ok sr /\ get_sa_sr [[[1; 0]]; [[0; 1]]]%Q (1 # 2)%Q = Ok sr /\ get2 0%Q sr 0 1 = 0%Q.
Proof. eexists. vmr. Qed.
(** Generally, only the first possible outcome of each action matters. *)
Theorem C77_first_outcome_partial : forall sas sas' nS nA g, shape3 nS nA nS sas -> shape3 nS nA nS sas' -> (0 < nS)%nat ->
  (forall s a, (s < nS)%nat -> (a < nA)%nat -> impossible sas s a /\ impossible sas' s a \/
     exists t, leads_to sas s a t /\ leads_to sas' s a t /\ forall t', (t' < t)%nat -> ~ leads_to sas s a t' /\ ~ leads_to sas' s a t') ->
  get_sa_sr sas g = get_sa_sr sas' g.
Proof.
  intros sas sas' nS nA g SH SH' pS H. unfold get_sa_sr. enough (X : sa_matrix sas = sa_matrix sas') by now rewrite X.
  unfold sa_matrix. rewrite (first_len sas nS nA SH pS), (first_len sas' nS nA SH' pS). destruct SH as [L SH]. destruct SH' as [L' SH']. rewrite L, L'. rewrite !flat_map_concat_map. f_equal. apply map_ext_in. intros s Hs. apply in_seq in Hs. apply map_ext_in. intros a Ha. apply in_seq in Ha.
  unfold sa_row. enough (X : next_of (nth a (nth s sas []) []) = next_of (nth a (nth s sas' []) [])) by now rewrite X.
  assert (FW : forall row t, nth t row 0 <> 0 -> (forall t', (t' < t)%nat -> nth t' row 0 = 0) -> next_of (A:=R) row = Some t).
  { clear. intros row t H1 H2. unfold next_of, where_. assert (G : forall row i t, nth t row 0 <> 0 -> (forall t', (t' < t)%nat -> nth t' row 0 = 0) -> hd_error (where_from (fun x : R => negb (neqb x n0)) i row) = Some (i + t)%nat); [|now apply (G row 0%nat t)].
    clear. induction row as [|x row IH]; intros i t H1 H2; [destruct t; cbn in H1; lra|]. cbn [where_from neqb NumR n0]. unfold Reqb. destruct t as [|t].
    - cbn in H1. destruct (Req_EM_T x 0); [contradiction|]. cbn. f_equal. lia.
    - pose proof (H2 0%nat ltac:(lia)) as Z. cbn in Z. destruct (Req_EM_T x 0); [|contradiction]. cbn [negb]. rewrite IH with (t := t); [f_equal; lia|exact H1|]. intros t' Ht'. apply (H2 (S t')). lia. }
  assert (NW : forall row, (forall t, nth t row 0 = 0) -> next_of (A:=R) row = None).
  { clear. intros row H. unfold next_of. destruct (where_ (fun x : R => negb (neqb x n0)) row) as [|t l] eqn:E; [reflexivity|]. assert (I : In t (where_ (fun x : R => negb (neqb x n0)) row)) by (rewrite E; now left). apply (in_where _ _ _ _ 0) in I. destruct I as [_ I].
    cbn [neqb NumR n0] in I. rewrite H in I. unfold Reqb in I. destruct (Req_EM_T 0 0); [discriminate|contradiction]. }
  destruct (H s a ltac:(lia) ltac:(lia)) as [[I1 I2]|(t & T1 & T2 & T3)].
  - rewrite !NW; [reflexivity| |]; intros t; [destruct (Req_dec (nth t (nth a (nth s sas' []) []) 0) 0) as [E|E]; [exact E|elim (I2 t E)]|destruct (Req_dec (nth t (nth a (nth s sas []) []) 0) 0) as [E|E]; [exact E|elim (I1 t E)]].
  - rewrite (FW _ t T1), (FW _ t T2); [reflexivity| |]; intros t' Ht'; destruct (T3 t' Ht') as [N1 N2].
    + destruct (Req_dec (nth t' (nth a (nth s sas' []) []) 0) 0) as [E|E]; [exact E|elim (N2 E)].
    + destruct (Req_dec (nth t' (nth a (nth s sas []) []) 0) 0) as [E|E]; [exact E|elim (N1 E)].
Qed.
(** C228: only the first possible outcome of each action matters. *)
Theorem C228_first_outcome : forall sas sas' nS nA g, shape3 nS nA nS sas -> shape3 nS nA nS sas' -> (0 < nS)%nat ->
  (forall s a, (s < nS)%nat -> (a < nA)%nat -> impossible sas s a /\ impossible sas' s a \/
     exists t, leads_to sas s a t /\ leads_to sas' s a t /\ forall t', (t' < t)%nat -> ~ leads_to sas s a t' /\ ~ leads_to sas' s a t') ->
  get_sa_sr sas g = get_sa_sr sas' g.
Proof. exact (@C77_first_outcome_partial). Qed.
(** Two different tables meet the hypotheses: the first state leads to itself and the other with equal chances, or surely to itself. *)
Example C228_example : let sas := [[[1 / 2; 1 / 2]]; [[0; 1]]] in let sas' := [[[1; 0]]; [[0; 1]]] in shape3 2 1 2 sas /\ shape3 2 1 2 sas' /\
  forall s a, (s < 2)%nat -> (a < 1)%nat -> exists t, leads_to sas s a t /\ leads_to sas' s a t /\ forall t', (t' < t)%nat -> ~ leads_to sas s a t' /\ ~ leads_to sas' s a t'.
Proof.
  cbv zeta. assert (S : forall x y : R, shape3 2 1 2 [[[x; y]]; [[0; 1]]]). { intros x y. split; [reflexivity|]. intros i Hi. destruct i as [|[|i]]; [| |lia]; (split; [reflexivity|]; intros j Hj; destruct j; [reflexivity|lia]). }
  split; [apply S|]. split; [apply S|]. intros s a Hs Ha. assert (a = 0)%nat by lia. subst a. exists s. unfold leads_to, get3. destruct s as [|[|s]]; [| |lia]; cbn; (split; [lra|]; split; [lra|]); intros t' Ht'; destruct t'; try lia; cbn; lra.
Qed.
