(** C208, C209 for IEEE 754 double precision, and on grids. *)
From Coq Require Import List ZArith Bool Reals Lia Lra.
From Verif Require Import PyBase PyProofs RSum GridModel GridSpec MDPModel MDPSpec MDPProofs2 EnvModel EnvSpec EnvProofs EnvProofs2 EnvProofs3 ActionSpec VISpec VIModel VIProofs2 VIProps VIEnvProps MCTSSpec MCTSRun OverModel OverProps.
Import ListNotations.
Local Open Scope R_scope.

Lemma exp_times : forall k x, exp (INR k * x) = exp x ^ k.
Proof. induction k as [|k IH]; intros x; [cbn; rewrite Rmult_0_l; apply exp_0|]. rewrite S_INR. replace ((INR k + 1) * x) with (x + INR k * x) by ring. rewrite exp_plus, IH. reflexivity. Qed.
Lemma pow_mono : forall x y k, 0 <= x <= y -> x ^ k <= y ^ k.
Proof. intros. apply pow_incr. assumption. Qed.
Lemma top64_low : 2 ^ 1023 <= top64.
Proof. unfold top64. assert (2 ^ 970 <= 2 ^ 1023) by (apply Rle_pow; [lra|lia]). replace (2 ^ 1024) with (2 * 2 ^ 1023) by reflexivity. lra. Qed.
Lemma exp_1000 : top64 <= exp 1000.
Proof.
  assert (E1 : 9 / 4 <= exp 1).
  { replace 1 with (INR 2 * / 2) at 1 by (simpl; lra). rewrite exp_times. apply (Rle_trans _ ((3 / 2) ^ 2)); [lra|]. apply pow_mono. pose proof (exp_ineq1_le (/ 2)); lra. }
  replace 1000 with (INR 1000 * 1) by (rewrite INR_IZR_INZ; simpl; lra). rewrite exp_times.
  apply (Rle_trans _ (2 ^ 1024)); [unfold top64; assert (0 < 2 ^ 970) by (apply pow_lt; lra); lra|].
  apply (Rle_trans _ ((9 / 4) ^ 1000)); [|apply pow_mono; lra].
  apply (Rle_trans _ (((9 / 4) ^ 6) ^ 147)); [|rewrite <- pow_mult; apply Rle_pow; [lra|lia]].
  apply (Rle_trans _ ((2 ^ 7) ^ 147)); [rewrite <- pow_mult; apply Rle_pow; [lra|lia]|]. apply pow_mono. lra.
Qed.
Lemma exp_622 : exp 622 < top64.
Proof.
  assert (E : exp (/ 16) <= 16 / 15).
  { replace (/ 16) with (- - / 16) by lra. rewrite exp_Ropp. pose proof (exp_ineq1_le (- / 16)). apply (Rle_trans _ (/ (15 / 16))); [|lra]. apply Rinv_le_contravar; lra. }
  assert (E2 : exp 2 <= 2 ^ 3).
  { replace 2 with (INR 32 * / 16) at 1 by (simpl; lra). rewrite exp_times. apply (Rle_trans _ ((16 / 15) ^ 32)); [apply pow_mono; pose proof (exp_pos (/ 16)); lra|lra]. }
  apply (Rlt_le_trans _ (2 ^ 1023)); [|apply top64_low]. replace 622 with (INR 311 * 2) by (rewrite INR_IZR_INZ; simpl; lra). rewrite exp_times.
  apply (Rle_lt_trans _ ((2 ^ 3) ^ 311)); [apply pow_mono; pose proof (exp_pos 2); lra|]. rewrite <- pow_mult. apply Rlt_pow; [lra|lia].
Qed.
Lemma ln_8 : ln 8 <= 22 / 10.
Proof.
  rewrite <- (ln_exp (22 / 10)). assert (8 < exp (22 / 10)); [|left; apply ln_increasing; lra].
  replace (22 / 10) with (INR 22 * / 10) by (rewrite INR_IZR_INZ; simpl; lra). rewrite exp_times. apply (Rlt_le_trans _ ((11 / 10) ^ 22)); [lra|]. apply pow_mono. pose proof (exp_ineq1_le (/ 10)). lra.
Qed.

(** With the default discount and at most seven actions, as on grids, rewards between -60 and 60 cause no overflow. *)
Theorem C209_defaults : forall sas rf features k tol, is_mdp sas -> (n_actions sas <= 7)%nat -> length rf = length features ->
  (forall t, (t < n_states sas)%nat -> Rabs (reward_of rf features t) <= 60) -> (0 < k)%Z ->
  exists v q, solve_value_iteration soft_backup rf features k (9 / 10) sas tol = Ok (v, q) /\ solve_top top64 rf features k (9 / 10) sas tol = Ok (map Fin v, q).
Proof.
  intros sas rf features k tol MD A L RW K. apply (C209_same _ _ _ _ _ _ _ 60); auto; try lra. eapply Rle_lt_trans; [|exact exp_622].
  assert (X : ln (INR (n_actions sas) + 1) <= ln 8).
  { apply le_INR in A. replace (INR 7) with 7 in A by (simpl; lra). pose proof (pos_INR (n_actions sas)). destruct (Rle_lt_or_eq_dec (INR (n_actions sas) + 1) 8) as [H1|H1]; [lra|left; apply ln_increasing; lra|rewrite H1; right; reflexivity]. }
  pose proof ln_8. set (y := (60 + ln (INR (n_actions sas) + 1)) / (1 - 9 / 10)). assert (y <= 622) by (unfold y; lra). destruct (Rle_lt_or_eq_dec y 622) as [H1|H1]; [lra|left; now apply exp_increasing|rewrite H1; right; reflexivity].
Qed.
Theorem C209_grids : forall pl m, usable pl m -> is_mdp (m_sas m) /\ (n_actions (m_sas m) <= 7)%nat.
Proof.
  intros pl m U. split; [now apply (C29_grids pl)|]. assert (K : forall k shape st m, grid_inv k shape st m -> (n_actions (m_sas m) <= 7)%nat).
  { clear. intros k shape st m G. destruct (grid_shape _ _ _ _ G) as (_ & NA & _). rewrite NA. destruct k, st; cbn; lia. }
  inversion U as [k feats w0 shape st m0 cs E|e RE].
  - destruct (usable_clean _ _ U) as (k' & shape' & st' & C). subst m. eapply K. apply C.
  - destruct (reachable_wf _ _ RE) as (k & shape & st & W). eapply K. apply (wf_grid _ _ _ _ W).
Qed.

(** On three squares in a row, a reward of 1000 in the last makes soft value iteration raise; a reward of 60 does not. *)
Lemma row_reward : forall m x t, m_features m = [[0; 0; 1]] -> (t < 3)%nat -> reward_of [x] (m_features m) t = if (t =? 2)%nat then x else 0.
Proof. intros m x t MF Ht. rewrite MF. unfold reward_of. cbn [length seq]. rewrite sumf_cons, sumf_nil. cbn [nth]. destruct t as [|[|[|]]]; [| | |lia]; cbn [nth Nat.eqb]; lra. Qed.
Example C208_example : exists m, grid_mdp (A:=R) Square [[0; 0; 1]] None (1, 3)%nat false = Ok m /\
  (forall k g tol, 0 < g < 1 -> (2 <= k)%Z -> solve_top top64 [1000] (m_features m) k g (m_sas m) tol = Err ValueError) /\
  (forall k tol, (0 < k)%Z -> exists v q, solve_value_iteration soft_backup [60] (m_features m) k (9 / 10) (m_sas m) tol = Ok (v, q) /\
     solve_top top64 [60] (m_features m) k (9 / 10) (m_sas m) tol = Ok (map Fin v, q)).
Proof.
  destruct (grid_mdp_ok Square [[0; 0; 1]] None (1, 3)%nat false) as (m & EG & G & MW & MF & _); [cbn; lia|repeat constructor|reflexivity|apply binary_zeros|].
  assert (U : usable (vi_greedy (9 / 10) 1 1) m) by exact (usable_grid _ _ _ _ _ _ _ [] EG). destruct (C209_grids _ _ U) as [M NA]. destruct (grid_shape _ _ _ _ G) as (NS & NAC & _). change (nst (1, 3)%nat) with 3%nat in NS. change (actions_of Square false) with 4%nat in NAC.
  exists m. split; [exact EG|]. split.
  - intros k g tol Hg Hk. apply (C208_overflow_refuted _ _ _ _ _ _ _ 1 0); auto; try lia; try (now rewrite MF).
    + intros t Ht. rewrite NS in Ht. rewrite row_reward by auto. destruct (t =? 2)%nat; lra.
    + rewrite NS. cbn [seq]. rewrite !sumf_cons, sumf_nil, !row_reward by (auto; lia). cbn [Nat.eqb].
      assert (P : prob (m_sas m) 1 0 2 = 1).
      { destruct (inv_edge _ _ _ _ G 1%nat 0%nat 2%nat) as [[P _]|[_ X]]; [cbn; lia|cbn; lia|cbn; lia|exact P|]. elim X. split; [left; split; [cbn; lia|reflexivity]|].
        rewrite MW. unfold is_wall, walls_arg, nst. cbn. split; lra. }
      rewrite P. replace (_ + _) with 1000 by lra. exact exp_1000.
  - intros k tol Hk. apply C209_defaults; auto; [now rewrite MF|]. intros t Ht. rewrite NS in Ht. rewrite row_reward by auto. destruct (t =? 2)%nat; [rewrite Rabs_pos_eq; lra|rewrite Rabs_R0; lra].
Qed.
