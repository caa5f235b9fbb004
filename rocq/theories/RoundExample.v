(** C206 for the numbers numpy uses: IEEE 754 double precision, rounding to nearest, ties to even (float64). *)
From Coq Require Import List ZArith Reals Lia Lra Psatz.
From Flocq Require Import Core Relative.
From Verif Require Import PyBase PyProofs ActionSpec RSum VISpec VIModel VIProofs VIProps RoundModel RoundSpec RoundProofs RoundProps.
Import ListNotations.
Local Open Scope R_scope.

Definition float64 : R -> R := round radix2 (FLT_exp (-1074) 53) ZnearestE.
Definition u64 : R := / 2 ^ 53.
Definition eta64 : R := / 2 ^ 1075.

Lemma bp : forall n : nat, bpow radix2 (- Z.of_nat n) = / 2 ^ n.
Proof. intros n. rewrite bpow_opp. f_equal. rewrite bpow_powerRZ. symmetry. apply pow_powerRZ. Qed.
Local Instance p53 : Prec_gt_0 53. Proof. reflexivity. Qed.

Theorem C206_float64 : rounding float64 u64 eta64.
Proof.
  constructor.
  - left. apply Rinv_0_lt_compat, pow_lt. lra.
  - left. apply Rinv_0_lt_compat, pow_lt. lra.
  - intros x y H. apply round_le; [typeclasses eauto|typeclasses eauto|exact H].
  - intros x. apply round_NE_opp.
  - intros x. apply round_generic; [typeclasses eauto|]. apply generic_format_round; typeclasses eauto.
  - apply round_generic; [typeclasses eauto|]. change 1 with (bpow radix2 0). apply generic_format_bpow. cbv; discriminate.
  - intros x. destruct (error_N_FLT radix2 (-1074) 53 ltac:(reflexivity) (fun z => negb (Z.even z)) x) as (e & d & He & Hd & _ & E).
    change (float64 x = x * (1 + e) + d) in E. rewrite E. replace (x * (1 + e) + d - x) with (e * x + d) by ring. eapply Rle_trans; [apply Rabs_triang|]. rewrite Rabs_mult.
    assert (U : / 2 * bpow radix2 (Z.opp 53 + 1) = u64). { change (Z.opp 53 + 1)%Z with (- Z.of_nat 52)%Z. rewrite bp. unfold u64. rewrite <- Rinv_mult_distr; [reflexivity|lra|apply pow_nonzero; lra]. }
    assert (V : / 2 * bpow radix2 (-1074) = eta64). { replace (-1074)%Z with (- Z.of_nat 1074)%Z by reflexivity. rewrite bp. unfold eta64. rewrite <- Rinv_mult_distr; [reflexivity|lra|apply pow_nonzero; lra]. }
    rewrite U in He. rewrite V in Hd. apply Rplus_le_compat; [|exact Hd]. apply Rmult_le_compat_r; [apply Rabs_pos|exact He].
Qed.

Lemma u64_small : 0 < u64 < 12 / 10 ^ 17.
Proof.
  unfold u64. assert (P : 0 < 2 ^ 53) by (apply pow_lt; lra). split; [now apply Rinv_0_lt_compat|]. replace (12 / 10 ^ 17) with (/ (10 ^ 17 / 12)) by (field; lra).
  apply Rinv_lt_contravar; [apply Rmult_lt_0_compat; [lra|exact P]|lra].
Qed.
Lemma eta64_small : 0 < eta64 < / 10 ^ 30.
Proof.
  unfold eta64. assert (P : 0 < 2 ^ 1075) by (apply pow_lt; lra). split; [now apply Rinv_0_lt_compat|]. apply Rinv_lt_contravar; [apply Rmult_lt_0_compat; [lra|exact P]|].
  apply Rlt_le_trans with (2 ^ 100); [lra|]. apply Rle_pow; [lra|lia].
Qed.
Lemma pow_one : forall u n, 0 <= u -> (1 + u) ^ n * (1 - INR n * u) <= 1.
Proof.
  intros u n U. induction n as [|n IH]; [cbn; lra|]. rewrite S_INR. cbn [pow]. assert (1 <= (1 + u) ^ n) by (apply pow_R1_Rle; lra). pose proof (pos_INR n).
  assert (0 <= (1 + u) ^ n * ((INR n + 1) * (u * u))) by (repeat apply Rmult_le_pos; nra). nra.
Qed.

Lemma pow_bound : forall u n, 0 <= u -> INR n * u <= / 2 -> (1 + u) ^ n <= 1 + 2 * (INR n * u).
Proof. intros u n U H. pose proof (pow_one u n U) as Q. assert (0 <= INR n * u) by (apply Rmult_le_pos; [apply pos_INR|exact U]). set (p := (1 + u) ^ n) in *. set (x := INR n * u) in *. clearbody p x. clear - Q H H0. nra. Qed.

(** The numbers ValueIteration uses by default: discount 0.9, tolerance 1e-8 and at most 500 sweeps. *)
Definition g64 : R := float64 (9 / 10).
Definition tol64 : R := float64 (/ 10 ^ 8).
Lemma default_numbers : forall nf, (nf <= 1000)%nat -> let g := g64 in let tol := tol64 in let u := u64 in let eta := eta64 in let err := backup_error u eta nf 1000 g in
  Rabs (g - 9 / 10) <= / 10 ^ 15 /\ float64 tol = tol /\ g * (1 + u) ^ 2 < 1 /\ 0 <= g * tol + err <= 93 / 10 ^ 10 /\ (g * tol + err) / (1 - g) <= / 10 ^ 7 /\
  (1 + u) * ((1 + g) * g ^ 499 * (1000 / (1 - g)) + 2 * (err / (1 - g))) + eta < tol.
Proof.
  intros nf L3 g tol u eta err. pose proof C206_float64 as RD. pose proof u64_small as US. pose proof eta64_small as ES. fold u in US. fold eta in ES. fold u eta in RD.
  assert (GB : Rabs (g - 9 / 10) <= / 10 ^ 15). { unfold g, g64. eapply Rle_trans; [apply (rd_err _ _ _ RD)|]. rewrite Rabs_pos_eq by lra. lra. }
  assert (TB : Rabs (tol - / 10 ^ 8) <= / 10 ^ 20). { unfold tol, tol64. eapply Rle_trans; [apply (rd_err _ _ _ RD)|]. rewrite Rabs_pos_eq by (left; apply Rinv_0_lt_compat; lra). lra. }
  pose proof GB as GB0. apply Rabs_le_inv in GB. apply Rabs_le_inv in TB. assert (RT : float64 tol = tol) by apply (rd_idem _ _ _ RD).
  assert (GR : 0 < g < 1) by lra. assert (GU : g * (1 + u) ^ 2 <= 91 / 100) by (cbn [pow]; nra).
  assert (P : forall n, (n <= 1001)%nat -> 1 <= (1 + u) ^ n <= 1 + 25 / 10 ^ 14).
  { intros n Hn. split; [apply pow_R1_Rle; lra|]. assert (IN : 0 <= INR n <= 1001). { split; [apply pos_INR|]. replace 1001 with (INR 1001) by (rewrite INR_IZR_INZ; reflexivity). now apply le_INR. }
    assert (X : INR n * u <= 1001 * (12 / 10 ^ 17)) by (apply Rmult_le_compat; lra). assert (Y := pow_bound u n ltac:(lra) ltac:(lra)). lra. }
  assert (IN : 0 <= INR nf <= 1000). { split; [apply pos_INR|]. replace 1000 with (INR 1000) by (rewrite INR_IZR_INZ; reflexivity). now apply le_INR. }
  pose proof (P (S nf) ltac:(lia)) as P1. pose proof (P nf ltac:(lia)) as P2. 
  assert (RE : 0 <= reward_error u eta nf 1000 <= 26 / 10 ^ 11).
  { split; [apply (reward_error0 _ _ _ RD); lra|]. unfold reward_error. assert (Z0 : 0 <= 2 * INR nf * eta) by (apply Rmult_le_pos; lra). assert (Z1 : 2 * INR nf * eta <= 2000 * / 10 ^ 30) by (apply Rmult_le_compat; lra).
    set (z := 2 * INR nf * eta) in *. set (p1 := (1 + u) ^ S nf) in *. set (p2 := (1 + u) ^ nf) in *. assert (z * p2 <= 2000 * / 10 ^ 30 * 2) by (apply Rmult_le_compat; lra). lra. }
  destruct (room_ok _ _ _ RD nf 1000 g ltac:(lra) ltac:(lra) ltac:(lra)) as [B0 RM].
  assert (BB : largest_value u eta nf 1000 g <= 12000).
  { unfold largest_value. apply (Rmult_le_reg_r (1 - g * (1 + u) ^ 2)); [lra|]. unfold Rdiv. rewrite Rmult_assoc, Rinv_l, Rmult_1_r by lra.
    set (gu := g * (1 + u) ^ 2) in *. set (re := reward_error u eta nf 1000) in *. assert ((1000 + re) * (1 + u) <= (1000 + 1 / 10) * (1 + 1 / 10 ^ 5)) by (apply Rmult_le_compat; lra). assert (eta * (2 + u) <= / 10 * 3) by (apply Rmult_le_compat; lra). lra. }
  set (B := largest_value u eta nf 1000 g) in *.
  assert (EB : 0 <= err <= 27 / 10 ^ 11). { unfold err, backup_error. fold B. set (re := reward_error u eta nf 1000) in *. assert (0 <= u * B) by (apply Rmult_le_pos; lra). assert (u * B <= 12 / 10 ^ 17 * 12000) by (apply Rmult_le_compat; lra). lra. }
  assert (IV : / (1 - g) <= 10 + / 10 ^ 10). { apply (Rmult_le_reg_r (1 - g)); [lra|]. rewrite Rinv_l by lra. nra. }
  assert (IP : 0 < / (1 - g)) by (apply Rinv_0_lt_compat; lra).
  assert (C0 : 0 <= 1000 / (1 - g) <= 10001) by (unfold Rdiv; split; [apply Rmult_le_pos; lra|lra]). set (C := 1000 / (1 - g)) in *.
  assert (ED : 0 <= err / (1 - g) <= 271 / 10 ^ 11). { unfold Rdiv. split; [apply Rmult_le_pos; lra|]. apply Rle_trans with (27 / 10 ^ 11 * (10 + / 10 ^ 10)); [apply Rmult_le_compat; lra|lra]. }
  assert (GT : 0 <= g * tol <= 90001 / 10 ^ 13). { split; [apply Rmult_le_pos; lra|]. apply Rle_trans with ((9 / 10 + / 10 ^ 15) * (/ 10 ^ 8 + / 10 ^ 20)); [apply Rmult_le_compat; lra|lra]. }
  assert (FB : (g * tol + err) / (1 - g) <= / 10 ^ 7).
  { unfold Rdiv. apply Rle_trans with ((90001 / 10 ^ 13 + 27 / 10 ^ 11) * (10 + / 10 ^ 10)); [apply Rmult_le_compat; lra|lra]. }
  split; [exact GB0|]. split; [exact RT|]. split; [lra|]. split; [lra|]. split; [exact FB|].
  assert (GP : 0 <= g ^ 499 <= / 10 ^ 19).
    { split; [apply pow_le; lra|]. apply Rle_trans with ((91 / 100) ^ 499); [apply pow_incr; lra|]. replace 499%nat with (8 * 62 + 3)%nat by reflexivity. rewrite pow_add, pow_mult.
      assert (X : 0 <= (91 / 100) ^ 8 <= 48 / 100) by (cbn [pow]; lra). assert (Y : ((91 / 100) ^ 8) ^ 62 <= (48 / 100) ^ 62) by (apply pow_incr; exact X).
      assert (Z : (48 / 100) ^ 62 <= / 10 ^ 19) by (cbn [pow]; lra). assert (0 <= ((91 / 100) ^ 8) ^ 62) by (apply pow_le; lra). set (z := ((91 / 100) ^ 8) ^ 62) in *. cbn [pow] in *. nra. }
    assert (X : (1 + g) * g ^ 499 * C <= 20002 / 10 ^ 19).
    { set (p := g ^ 499) in *. apply Rle_trans with (2 * (/ 10 ^ 19) * 10001); [|lra]. apply Rmult_le_compat; [apply Rmult_le_pos; lra|lra|apply Rmult_le_compat; lra|lra]. }
    assert (X0 : 0 <= (1 + g) * g ^ 499 * C) by (apply Rmult_le_pos; [apply Rmult_le_pos; lra|lra]).
    set (x := (1 + g) * g ^ 499 * C) in *. set (y := err / (1 - g)) in *.
    assert ((1 + u) * (x + 2 * y) <= (1 + / 10) * (6 / 10 ^ 9)) by (apply Rmult_le_compat; lra). lra.
Qed.

(** The settings ValueIteration has by default (discount 0.9, tolerance 1e-8, at most 500 sweeps), stored as float64. If no state has more
    than 1000 features, and the sizes of their weights sum to at most 1000, then all values, and all action values that are not minus infinity, are
    within 1e-7 of the exact solution for this discount. *)
Theorem C206_defaults : forall sas rf features Vs, let g := g64 in let tol := tol64 in
  is_mdp sas -> sure sas -> length rf = length features -> (length rf <= 1000)%nat ->
  (forall t, (t < n_states sas)%nat -> weight_of rf features t <= 1000) -> optimal sas (reward_of rf features) g Vs ->
  exists v q, @solve_value_iteration R (NumF float64) (@hard_backup R (NumF float64)) rf features 500 g sas tol = Ok (v, q) /\
    (forall s, (s < n_states sas)%nat -> Rabs (nth s v 0 - Vs s) <= / 10 ^ 7) /\
    (forall s a, (s < n_states sas)%nat -> (a < n_actions sas)%nat ->
      (~ possible sas s a -> nth a (nth s q []) NaN = NInf) /\
      (possible sas s a -> exists x, nth a (nth s q []) NaN = Fin x /\ Rabs (x - action_value sas (reward_of rf features) g Vs s a) <= / 10 ^ 7)).
Proof.
  intros sas rf features Vs g tol M SU L L3 WB O. destruct (default_numbers (length rf) L3) as (GB & RT & GU & _ & FB & TL). fold g tol in GB, RT, GU, FB, TL. apply Rabs_le_inv in GB. assert (GR : 0 < g < 1) by lra.
  assert (N : near (n_states sas) (1000 / (1 - g)) (fun _ => 0) Vs) by (apply (C206_solution_bounded sas rf features); auto; lra).
  destruct (C206_solver _ _ _ C206_float64 sas rf features 499 g tol 1000 Vs (1000 / (1 - g))) as (v & q & E & H1 & H2 & H3 & H4 & _ & H5); auto; try lra.
  { apply Rmult_le_pos; [lra|left; apply Rinv_0_lt_compat; lra]. }
  change (Z.of_nat 500) with 500%Z in E. exists v, q. split; [exact E|]. destruct (H5 TL) as [K1 K2].
  split; [intros s Hs; eapply Rle_trans; [apply (K1 s Hs)|exact FB]|].
  intros s a Hs Ha. destruct (H4 s a Hs Ha) as [Q1 Q2]. split; [exact Q2|]. intros PO. destruct (Q1 PO) as (x & EX). exists x. split; [exact EX|]. eapply Rle_trans; [now apply K2|exact FB].
Qed.
