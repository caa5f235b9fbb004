(** Policy learning in binary64 arithmetic. *)
From Coq Require Import List ZArith Reals Bool Lia Lra.
From Flocq Require Import Core.
From Verif Require Import PyBase PyProofs RSum MDPModel PLModel PLSpec PLAngles PLProofs PLProps PLProps2 PLExamples Restated RoundModel RoundProofs RoundExample SoftRoundModel SoftRoundSpec SoftRound2 SoftRoundExample PLRoundModel PLRound PLRound2.
Import ListNotations.
Local Open Scope R_scope.

Local Instance p53 : Prec_gt_0 53. Proof. reflexivity. Qed.
Local Notation fexp := (FLT_exp (-1074) 53).
Lemma one_format : generic_format radix2 fexp 1.
Proof. change 1 with (bpow radix2 0). apply generic_format_bpow. cbv; discriminate. Qed.
Lemma ulp_one : ulp radix2 fexp 1 = / 2 ^ 52.
Proof.
  rewrite ulp_neq_0 by lra. unfold cexp. change 1 with (bpow radix2 0) at 1. rewrite mag_bpow. change (fexp (0 + 1)%Z) with (- Z.of_nat 52)%Z. apply bp.
Qed.
Theorem C214_float64 : never_above_one float64 /\ halves_exact float64.
Proof.
  split.
  - intros x X FX. pose proof C206_float64 as RD. destruct (Req_dec x 0) as [->|NZ].
    + replace (1 - 0) with 1 by lra. rewrite Rplus_0_l, (rd_one _ _ _ RD), (rd_one _ _ _ RD). lra.
    + assert (E : Rabs (float64 (1 - x) - (1 - x)) <= / 2 ^ 54).
      { destruct (Req_dec (1 - x) 0) as [Z|Z]; [rewrite Z; rewrite (rnd0 _ _ _ RD), Rminus_0_r, Rabs_R0; left; apply Rinv_0_lt_compat, pow_lt; lra|].
        eapply Rle_trans; [apply error_le_half_ulp; typeclasses eauto|]. rewrite ulp_neq_0 by exact Z. unfold cexp.
        assert (M : (mag radix2 (1 - x) <= 0)%Z) by (apply mag_le_bpow; [exact Z|]; cbn; rewrite Rabs_pos_eq; lra).
        assert (B : (fexp (mag radix2 (1 - x)) <= - Z.of_nat 53)%Z) by (unfold FLT_exp; lia). apply (bpow_le radix2) in B. rewrite bp in B.
        replace (/ 2 ^ 54) with (/ 2 * / 2 ^ 53) by (cbn [pow]; field; apply pow_nonzero; lra). apply Rmult_le_compat_l; [lra|exact B]. }
      apply abs_inv in E. apply (round_N_le_midp radix2 fexp (fun z => negb (Z.even z)) 1 (x + float64 (1 - x)) one_format).
      rewrite succ_eq_pos by lra. rewrite ulp_one. assert (/ 2 ^ 54 < / 2 ^ 52 / 2); [|lra]. replace (/ 2 ^ 52 / 2) with (/ 2 ^ 53) by (cbn [pow]; field; apply pow_nonzero; lra). apply Rinv_lt_contravar; [apply Rmult_lt_0_compat; apply pow_lt; lra|]. apply Rlt_pow; [lra|lia].
  - intros z Z. apply round_generic; [typeclasses eauto|]. apply generic_format_FLT. exists (Float radix2 z (-1)); [unfold F2R; cbn; lra|cbn [Fnum]; apply Z.le_lt_trans with 65536%Z; [exact Z|reflexivity]|cbn; lia].
Qed.
Lemma exp64_one : forall x, x <= 0 -> exp64 x <= 1.
Proof. intros x X. unfold exp64. rewrite <- (rd_one _ _ _ C206_float64). apply (rd_le _ _ _ C206_float64). apply (exp_le_one x X). Qed.
(** [np.power], rounded correctly. *)
Definition pow64 (x y : R) : R := float64 (Rpower x y).
Lemma power_unit : forall n r, (1 <= n)%nat -> 0 < r -> 0 < Rpower (INR n) (- r) <= 1.
Proof.
  intros n r N R0. unfold Rpower. apply exp_le_one. assert (0 <= ln (INR n)). { rewrite <- ln_1. assert (1 <= INR n) by (change 1 with (INR 1); now apply le_INR). destruct H as [H| <-]; [left; apply ln_increasing; lra|lra]. } assert (0 <= r * ln (INR n)) by (apply Rmult_le_pos; lra). lra.
Qed.
Theorem C214_pow64 : rounded_power float64 pow64 (u64 + eta64).
Proof.
  pose proof C206_float64 as RD. pose proof u64_small. pose proof eta64_small. split; [lra|]. intros n r N R0. pose proof (power_unit n r N R0) as P. unfold pow64. destruct (unit_rnd float64 u64 eta64 RD (Rpower (INR n) (- r))) as [U1 U2]; [lra|]. split; [exact U1|]. split; [exact U2|].
  apply (rnd_close1 float64 u64 eta64 RD). lra.
Qed.

(** The default learning rate, without decay and without the kernel: off by at most 2e-15, after any number of observations. *)
Definition lr64 : R := float64 (3 / 10).
Lemma lr64_bounds : 29 / 100 <= lr64 <= 31 / 100.
Proof.
  pose proof (rd_err _ _ _ C206_float64 (3 / 10)) as E. fold lr64 in E. rewrite (Rabs_pos_eq (3 / 10)) in E by lra. pose proof u64_small. pose proof eta64_small. apply abs_inv in E. lra.
Qed.
Theorem C214_defaults : forall c l0 arg ts l' nA, td_learner_r float64 exp64 pow64 lr64 (DecayFloat 0) None false (2 / 100) = Ok (c, l0) -> (forall m, In m (mdps_of arg (length ts)) -> m_n_actions m = nA) -> fit_learner_r float64 c arg ts l0 = (l', Ok tt) ->
  exists acts q', observed (mdps_of arg (length ts)) ts acts /\ learner_q_values l' = QArr q' /\ length q' = nA /\ (Forall (fun a => a < nA)%nat acts -> forall b, (b < nA)%nat -> let n := length acts in
    0 <= nth b q' 0 <= 1 /\ Rabs (nth b q' 0 - sumf (fun i => lr64 * (1 - lr64) ^ (n - 1 - i) * (if (nth i acts 0 =? b)%nat then 1 else 0)) (seq 0 n)) <= 2 / 10 ^ 15).
Proof.
  intros c l0 arg ts l' nA ET N F. pose proof C206_float64 as RD. pose proof lr64_bounds as LB. destruct C214_float64 as [T H].
  assert (LF : float64 lr64 = lr64) by apply (rd_idem _ _ _ RD). assert (QU : forall q, @None (list R) = Some q -> Forall (unit_float float64) q) by discriminate.
  assert (ST : starts_from l0 nA (repeat 0 nA)). { right. destruct (inv_r _ _ _ _ _ _ _ _ _ _ ET) as (_ & _ & _ & ->). auto. }
  destruct (C214_constant_rate float64 exp64 pow64 u64 eta64 u64 eta64 (u64 + eta64) RD T C212_exp64 exp64_one C214_pow64 lr64 (DecayFloat 0) None false (2 / 100) ltac:(lra) LF QU c l0 arg ts l' nA (repeat 0 nA) ET eq_refl N ltac:(discriminate) ST F) as (acts & q' & O & EQ & LQ & X).
  exists acts, q'. split; [exact O|]. split; [exact EQ|]. split; [exact LQ|]. intros FA b Hb n. split.
  - pose proof (C214_range float64 exp64 pow64 u64 eta64 u64 eta64 (u64 + eta64) RD T C212_exp64 exp64_one C214_pow64 lr64 (DecayFloat 0) None false (2 / 100) ltac:(lra) LF QU c l0 [FitR arg ts] q' ET) as RG. cbn [fold_left after_call_r] in RG. rewrite F in RG. cbn [fst] in RG. specialize (RG EQ). rewrite Forall_forall in RG. apply RG, nth_In. lia.
  - specialize (X FA b Hb). cbv zeta in X. fold n in X. rewrite nth_repeat_lt, Rmult_0_r, Rplus_0_l in X by exact Hb. unfold shown in X. eapply Rle_trans; [exact X|].
    unfold credit_error, step_error. rewrite Rplus_0_l. pose proof u64_small. pose proof eta64_small. apply Rle_trans with ((4 * u64 + 3 * eta64) * (100 / 29)); [apply Rmult_le_compat_l; [lra|]|lra]. replace (100 / 29) with (/ (29 / 100)) by field. apply Rinv_le_contravar; lra.
Qed.
(** Three observations on a hexagonal grid, with the default decay. *)
Example C214_example : exists m c l0 l', td_learner_r float64 exp64 pow64 lr64 (DecayFloat (1 / 2)) None false (2 / 100) = Ok (c, l0) /\ (forall x, In x (mdps_of (OneMDP m) 3) -> m_n_actions x = 6%nat) /\ starts_from l0 6 (repeat 0 6) /\
  fit_learner_r float64 c (OneMDP m) [[0; 1]; [0; 1]; [0; 1]]%Z l0 = (l', Ok tt).
Proof.
  destruct valid_example as (m & E & NA & V3 & V1 & T). pose proof lr64_bounds as LB. pose proof C206_float64 as RD. destruct C214_float64 as [TP _].
  assert (ET : exists c l0, td_learner lr64 (DecayFloat (1 / 2)) None false (2 / 100) = Ok (c, l0)).
  { unfold td_learner. cbn [decay_value n0 nltb NumR]. unfold Rltb. destruct (Rlt_dec 0 lr64) as [_|X]; [|exfalso; lra]. cbn [negb]. destruct (Rlt_dec (1 / 2) 0) as [X|_]; [exfalso; lra|]. eauto. }
  assert (EF : exists c l0, td_learner_r float64 exp64 pow64 lr64 (DecayFloat (1 / 2)) None false (2 / 100) = Ok (c, l0)).
  { unfold td_learner_r. cbn [decay_value]. unfold Rltb. destruct (Rlt_dec 0 lr64) as [_|X]; [|exfalso; lra]. cbn [negb]. destruct (Rlt_dec (1 / 2) 0) as [X|_]; [exfalso; lra|]. eauto. }
  destruct ET as (c & l0 & ET). destruct EF as (c1 & l1 & EF). assert (FI : fits None (DecayFloat (1 / 2)) 6) by (split; [exact Logic.I|right; eauto]).
  assert (N : forall x, In x (mdps_of (OneMDP m) 3) -> m_n_actions x = 6%nat) by (intros x [<-|[<-|[<-|[]]]]; exact NA).
  destruct (fit_new _ _ _ _ _ _ _ (OneMDP m) [[0; 1]; [0; 1]; [0; 1]]%nat 6 ET FI N ltac:(repeat constructor; exact V1)) as [(l' & S) _].
  { split; [|discriminate]. intros t [<-|[<-|[<-|[]]]]; cbn; lia. }
  pose proof (C214_same_outcome float64 exp64 pow64 u64 eta64 u64 eta64 (u64 + eta64) RD TP C212_exp64 exp64_one C214_pow64 lr64 (DecayFloat (1 / 2)) None false (2 / 100) ltac:(lra) ltac:(apply (rd_idem _ _ _ RD)) ltac:(discriminate) c1 l1 c l0 (OneMDP m) [[0; 1]; [0; 1]; [0; 1]]%Z EF ET) as SO.
  cbn [map Z.of_nat Pos.of_succ_nat] in S. rewrite S in SO. cbn [snd] in SO. destruct (fit_learner_r float64 c1 (OneMDP m) [[0; 1]; [0; 1]; [0; 1]]%Z l1) as [lf r] eqn:EFR. cbn [snd] in SO. subst r.
  exists m, c1, l1, lf. split; [exact EF|]. split; [exact N|]. split; [|exact EFR]. right. destruct (inv_r _ _ _ _ _ _ _ _ _ _ EF) as (_ & _ & _ & ->). auto.
Qed.
(** The kernel with six directions, and its error. *)
Example C214_kernel_example : kernel_fits float64 u64 true 6 /\ credit_error u64 eta64 u64 eta64 true <= / 10 ^ 15.
Proof.
  pose proof u64_small as U. pose proof eta64_small as E. split.
  - intros _. split; [apply C214_float64|]. split; [|unfold whole_degrees; auto]. unfold exponent_rel. assert (u64 * u64 <= u64 * 1) by (apply Rmult_le_compat_l; lra). lra.
  - unfold credit_error, kernel_error. assert (0 <= u64 * u64 <= u64 * / 10) by (split; [apply Rmult_le_pos; lra|apply Rmult_le_compat_l; lra]).
    assert (0 <= exponent_rel u64 <= 3 * u64) by (unfold exponent_rel; lra). assert (H1 : 16201 * (1 + u64) * eta64 <= 16201 * 2 * eta64) by (apply Rmult_le_compat_r; lra).
    assert (H2 : 2 * exponent_rel u64 * (1 + 16201 * (1 + u64) * eta64) <= 6 * u64 * (11 / 10)). { apply Rmult_le_compat; try lra. apply Rplus_le_le_0_compat; [lra|]. apply Rmult_le_pos; lra. }
    lra.
Qed.
