(** Policy learning in floating point: C214. *)
From Coq Require Import List ZArith Reals Bool Lia Lra.
From Verif Require Import PyBase PyProofs RSum MDPModel PLModel PLSpec PLAngles PLProofs PLProps PLProps2 RoundModel RoundProofs SoftRoundModel SoftRoundSpec SoftRound SoftRound2 PLRoundModel PLRound.
Import ListNotations.
Local Open Scope R_scope.

(** Halves of integers up to 65536 are numbers of the format. *)
Definition halves_exact (rnd : R -> R) : Prop := forall z, (Z.abs z <= 65536)%Z -> rnd (IZR z / 2) = IZR z / 2.
(** [np.power(n, -r)] for positive n and r is a number between zero and one, and off by at most [ep]. *)
Definition rounded_power (rnd : R -> R) (pw : R -> R -> R) (ep : R) : Prop :=
  0 <= ep /\ forall n r, (1 <= n)%nat -> 0 < r -> 0 <= pw (INR n) (- r) <= 1 /\ rnd (pw (INR n) (- r)) = pw (INR n) (- r) /\ Rabs (pw (INR n) (- r) - Rpower (INR n) (- r)) <= ep.

Section Kernel.
Variables (rnd ex : R -> R) (u eta ux etax : R).
Hypothesis RD : rounding rnd u eta.
Hypothesis EX : rounded_exp rnd ex ux etax.
Hypothesis EX1 : forall x, x <= 0 -> ex x <= 1.

Lemma rnn : forall x, 0 <= x -> 0 <= rnd x.
Proof. intros x H. rewrite <- (rnd0 rnd u eta RD). now apply (rd_le _ _ _ RD). Qed.
Lemma kernel_unit : forall x y ls, unit_float rnd (kernel_r rnd ex x y ls).
Proof.
  intros x y ls. unfold kernel_r. set (w := rnd (rnd (rnd (degdist_r rnd x y * degdist_r rnd x y) / 2) * rnd (ls * ls))).
  assert (W : 0 <= w). { apply rnn, Rmult_le_pos; apply rnn; [|apply Rle_0_sqr]. apply Rmult_le_pos; [|lra]. apply rnn, Rle_0_sqr. }
  apply (unit_rnd rnd u eta RD). rewrite Rmult_1_l. split; [apply (re_nn _ _ _ _ EX)|apply EX1; lra].
Qed.

(** How far a credit computed by the kernel is from the exact one. *)
Definition kernel_error : R := 2 * exponent_rel u * (1 + 16201 * (1 + u) * eta) + 16201 * (1 + u) * eta + ux + etax.
Hypothesis HE : halves_exact rnd.
Lemma int_exact : forall z, (Z.abs z <= 32768)%Z -> rnd (IZR z) = IZR z.
Proof. intros z H. replace (IZR z) with (IZR (2 * z) / 2) by (rewrite mult_IZR; lra). apply HE. lia. Qed.
Lemma degdist_exact : forall p q, (Z.abs p <= 1000)%Z -> (Z.abs q <= 1000)%Z -> degdist_r rnd (IZR p) (IZR q) = degdist (IZR p) (IZR q) /\ exists d, (0 <= d <= 180)%Z /\ degdist (IZR p) (IZR q) = IZR d.
Proof.
  intros p q P Q. unfold degdist_r, degdist. rewrite <- minus_IZR, (int_exact (p - q)) by lia. rewrite <- plus_IZR, (int_exact (p - q + 180)) by lia.
  destruct (pymod_spec (IZR (p - q + 180))) as (k & EK & RK). assert (EI : pymod (IZR (p - q + 180)) 360 = IZR (p - q + 180 - 360 * k)) by (rewrite EK, (minus_IZR (p - q + 180)), mult_IZR; reflexivity).
  rewrite EI in *. assert (B : (0 <= p - q + 180 - 360 * k < 360)%Z) by (destruct RK as [R1 R2]; apply le_IZR in R1; apply lt_IZR in R2; lia).
  rewrite (int_exact (p - q + 180 - 360 * k)) by lia. rewrite <- minus_IZR, int_exact by lia. split; [reflexivity|]. exists (Z.abs (p - q + 180 - 360 * k - 180)). split; [lia|]. now rewrite abs_IZR.
Qed.
Lemma kernel_close : forall p q ls, (Z.abs p <= 1000)%Z -> (Z.abs q <= 1000)%Z -> exponent_rel u <= / 2 -> Rabs (kernel_r rnd ex (IZR p) (IZR q) ls - deg_sq_exp_kernel (IZR p) (IZR q) ls 1) <= kernel_error.
Proof.
  intros p q ls P Q SM. destruct (degdist_exact p q P Q) as (E & d & D & ED). unfold kernel_r, deg_sq_exp_kernel. rewrite E, ED. rewrite <- mult_IZR. rewrite (int_exact (d * d)) by nia. rewrite HE by nia. rewrite !Rmult_1_l. rewrite (re_float _ _ _ _ EX).
  replace (IZR d ^ 2 / 2) with (IZR (d * d) / 2) by (rewrite mult_IZR; field). replace (ls ^ 2) with (ls * ls) by ring. set (H := IZR (d * d) / 2). set (L := ls * ls).
  assert (HB : 0 <= H <= 16200). { unfold H. assert (IZR 0 <= IZR (d * d)) by (apply IZR_le; nia). assert (IZR (d * d) <= IZR 32400) by (apply IZR_le; nia). lra. }
  assert (L0 : 0 <= L) by apply Rle_0_sqr. pose proof (rd_u _ _ _ RD) as U0. pose proof (rd_eta _ _ _ RD) as E0.
  assert (SL : Rabs (rnd L - L) <= u * L + eta) by (rewrite <- (Rabs_pos_eq L) at 3 by exact L0; apply (rd_err _ _ _ RD)). apply abs_inv in SL.
  assert (L1 : 0 <= rnd L) by now apply rnn. assert (HL : 0 <= H * L) by (apply Rmult_le_pos; lra). assert (HL1 : 0 <= H * rnd L) by (apply Rmult_le_pos; lra).
  assert (SH : Rabs (rnd (H * rnd L) - H * rnd L) <= u * (H * rnd L) + eta) by (rewrite <- (Rabs_pos_eq (H * rnd L)) at 3 by exact HL1; apply (rd_err _ _ _ RD)). apply abs_inv in SH.
  assert (W : 0 <= rnd (H * rnd L)) by now apply rnn.
  assert (A1 : H * (rnd L - L) <= u * (H * L) + H * eta). { assert (H * (rnd L - L) <= H * (u * L + eta)) by (apply Rmult_le_compat_l; lra). lra. }
  assert (A2 : - (u * (H * L) + H * eta) <= H * (rnd L - L)). { assert (H * - (u * L + eta) <= H * (rnd L - L)) by (apply Rmult_le_compat_l; lra). lra. }
  assert (A3 : u * (H * rnd L) <= u * (H * L) + u * (u * (H * L)) + u * (H * eta)). { assert (u * (H * rnd L) <= u * (H * L + (u * (H * L) + H * eta))) by (apply Rmult_le_compat_l; lra). lra. }
  assert (A4 : H * eta <= 16200 * eta) by (apply Rmult_le_compat_r; lra). assert (A5 : u * (H * eta) <= u * (16200 * eta)) by (apply Rmult_le_compat_l; lra). assert (0 <= u * eta) by (apply Rmult_le_pos; lra).
  assert (C : Rabs (- rnd (H * rnd L) - - (H * L)) <= exponent_rel u * - - (H * L) + 16201 * (1 + u) * eta) by (unfold exponent_rel; apply Rabs_le; lra).
  assert (RN : 0 <= exponent_rel u). { unfold exponent_rel. assert (0 <= u * u) by (apply Rmult_le_pos; lra). lra. }
  pose proof (exp_close (- (H * L)) (- rnd (H * rnd L)) (exponent_rel u) (16201 * (1 + u) * eta) ltac:(lra) ltac:(lra) (conj RN SM) ltac:(lra) C) as X. apply abs_inv in X.
  pose proof (re_err _ _ _ _ EX (- rnd (H * rnd L)) ltac:(lra)) as Y. destruct (exp_le_one (- rnd (H * rnd L)) ltac:(lra)) as [Z1 Z2]. pose proof (re_u _ _ _ _ EX) as UX. assert (ux * exp (- rnd (H * rnd L)) <= ux * 1) by (apply Rmult_le_compat_l; lra). apply abs_inv in Y.
  unfold kernel_error. apply Rabs_le. lra.
Qed.
(** The numbers of actions of grids without staying in place, and of square grids with it: the directions are whole degrees apart. *)
Definition whole_degrees (n : nat) : Prop := n = 4%nat \/ n = 5%nat \/ n = 6%nat.
Lemma angle : forall n i, whole_degrees n -> (i < n)%nat -> exists p, (Z.abs p <= 1000)%Z /\ INR i * (360 / INR n) = IZR p /\ rnd (INR i * rnd (360 / INR n)) = IZR p.
Proof.
  assert (G : forall n i k, (1 <= n)%nat -> (i < n <= 6)%nat -> 360 / INR n = IZR k -> (0 <= k <= 90)%Z -> exists p, (Z.abs p <= 1000)%Z /\ INR i * (360 / INR n) = IZR p /\ rnd (INR i * rnd (360 / INR n)) = IZR p).
  { intros n i k N I E K. exists (Z.of_nat i * k)%Z. assert ((0 <= Z.of_nat i * k <= 6 * 90)%Z) by nia. split; [lia|]. rewrite E. rewrite (int_exact k) by lia. rewrite INR_IZR_INZ, <- mult_IZR. split; [reflexivity|]. apply int_exact. lia. }
  intros n i [->|[->| ->]] I.
  - apply (G 4%nat i 90%Z); try lia. rewrite INR_IZR_INZ. cbn [Z.of_nat Pos.of_succ_nat Pos.succ]. lra.
  - apply (G 5%nat i 72%Z); try lia. rewrite INR_IZR_INZ. cbn [Z.of_nat Pos.of_succ_nat Pos.succ]. lra.
  - apply (G 6%nat i 60%Z); try lia. rewrite INR_IZR_INZ. cbn [Z.of_nat Pos.of_succ_nat Pos.succ]. lra.
Qed.
Lemma credit_close : forall n a i ls, whole_degrees n -> (a < n)%nat -> (i < n)%nat -> exponent_rel u <= / 2 ->
  Rabs (kernel_r rnd ex (rnd (INR i * rnd (360 / INR n))) (rnd (INR a * rnd (360 / INR n))) ls - deg_sq_exp_kernel (INR i * (360 / INR n)) (INR a * (360 / INR n)) ls 1) <= kernel_error.
Proof.
  intros n a i ls N A I SM. destruct (angle n i N I) as (p & P & -> & ->). destruct (angle n a N A) as (q & Q & -> & ->). now apply kernel_close.
Qed.
End Kernel.

Section Learner.
Variables (rnd ex : R -> R) (pw : R -> R -> R) (u eta ux etax ep : R).
Hypothesis RD : rounding rnd u eta.
Hypothesis TOP : never_above_one rnd.
Hypothesis EX : rounded_exp rnd ex ux etax.
Hypothesis EX1 : forall x, x <= 0 -> ex x <= 1.
Hypothesis PW : rounded_power rnd pw ep.
Variables (lr : R) (d : decay_arg) (Q : option (list R)) (kernel : bool) (ls : R).
Hypothesis L1 : lr <= 1.
Hypothesis LF : rnd lr = lr.
Hypothesis QU : forall q, Q = Some q -> Forall (unit_float rnd) q.

Definition good (n a : nat) : bool := ((n =? 4) || (n =? 5) || (n =? 6))%nat && (a <? n)%nat.
Definition companion_reward (exact : bool) (n a : nat) : res (list R) :=
  if kernel then if exact && good n a then kernel_reward ls n a else kernel_reward_r rnd ex ls n a else onehot_reward (A:=R) n a.
Definition companion (exact : bool) : td_config R := mkTD lr (Rltb 0 (decay_value d)) (decay_factor d) (companion_reward exact).

Lemma inv_r : forall c l, td_learner_r rnd ex pw lr d Q kernel ls = Ok (c, l) ->
  0 < lr /\ 0 <= decay_value d /\ c = mkTD lr (Rltb 0 (decay_value d)) (decay_factor_r pw d) (if kernel then kernel_reward_r rnd ex ls else @onehot_reward R (NumF rnd)) /\ l = new_learner c Q.
Proof.
  intros c l E. unfold td_learner_r in E. destruct (Rltb 0 lr) eqn:E1; [|discriminate]. cbn [negb] in E. destruct (Rltb (decay_value d) 0) eqn:E2; [discriminate|]. unfold Rltb in E1, E2. destruct (Rlt_dec 0 lr); [|discriminate]. destruct (Rlt_dec (decay_value d) 0); [discriminate|].
  split; [assumption|]. split; [lra|]. assert (EC : c = mkTD lr (Rltb 0 (decay_value d)) (decay_factor_r pw d) (if kernel then kernel_reward_r rnd ex ls else @onehot_reward R (NumF rnd))) by congruence. split; [exact EC|congruence].
Qed.
Lemma factors_r : forall c l, td_learner_r rnd ex pw lr d Q kernel ls = Ok (c, l) -> forall b, c_decaying c = true -> forall n, (1 <= n)%nat ->
  match c_factor c n, c_factor (companion b) n with Ok f, Ok f' => unit_float rnd f /\ 0 <= f' <= 1 /\ Rabs (f - f') <= ep | Err e, Err e' => e = e' | _, _ => False end.
Proof.
  intros c l E b D n N. destruct (inv_r c l E) as (LP & DP & -> & _). cbn [companion c_factor c_decaying] in *. destruct d as [z|r]; cbn [decay_factor_r decay_factor decay_value] in *; [reflexivity|]. unfold Rltb in D. destruct (Rlt_dec 0 r) as [R0|]; [|discriminate].
  destruct PW as [_ P]. destruct (P n r N R0) as (P1 & P2 & P3). split; [split; assumption|]. split; [|exact P3]. unfold Rpower. destruct (exp_le_one (- r * ln (INR n))) as [X1 X2]; [|lra].
  assert (0 <= ln (INR n)). { rewrite <- ln_1. assert (1 <= INR n) by (change 1 with (INR 1); now apply le_INR). destruct H as [H| <-]; [left; apply ln_increasing; lra|lra]. } assert (0 <= r * ln (INR n)) by (apply Rmult_le_pos; lra). lra.
Qed.
Lemma F2_map : forall (P : R -> R -> Prop) (f g : nat -> R) l, (forall i, In i l -> P (f i) (g i)) -> Forall2 P (map f l) (map g l).
Proof. intros P f g l H. induction l as [|x l IH]; cbn; constructor; [apply H; now left|]. apply IH. intros i I. apply H. now right. Qed.
Lemma rewards_r : forall c l er b, td_learner_r rnd ex pw lr d Q kernel ls = Ok (c, l) -> 0 <= er -> (b = true -> kernel = true -> halves_exact rnd /\ exponent_rel u <= / 2 /\ kernel_error u eta ux etax <= er) -> forall n a,
  match c_reward c n a, c_reward (companion b) n a with Ok v, Ok v' => Forall2 (fun t t' => unit_float rnd t /\ Rabs (t - t') <= er) v v' | Err e, Err e' => e = e' | _, _ => False end.
Proof.
  intros c l er b E E0 KE n a. destruct (inv_r c l E) as (LP & DP & -> & _). cbn [companion c_reward]. unfold companion_reward. destruct kernel.
  - unfold kernel_reward_r at 1. destruct (b && good n a) eqn:G.
    + apply andb_prop in G. destruct G as [-> G]. destruct (KE eq_refl eq_refl) as (HE & SM & KB). unfold good in G. apply andb_prop in G. destruct G as [G1 G2]. apply Nat.ltb_lt in G2.
      assert (W : whole_degrees n). { apply orb_prop in G1. destruct G1 as [G1|G1]; [apply orb_prop in G1; destruct G1 as [G1|G1]|]; apply Nat.eqb_eq in G1; unfold whole_degrees; auto. }
      unfold kernel_reward. apply F2_map. intros i I. apply in_seq in I. split; [apply (kernel_unit rnd ex u eta ux etax RD EX EX1)|]. eapply Rle_trans; [|exact KB]. apply (credit_close rnd ex u eta ux etax RD EX HE n a i ls W G2); [lia|exact SM].
    + unfold kernel_reward_r. apply F2_map. intros i I. split; [apply (kernel_unit rnd ex u eta ux etax RD EX EX1)|]. match goal with |- Rabs (?x - ?x) <= _ => replace (x - x) with 0 by ring end. rewrite Rabs_R0. exact E0.
  - change (@onehot_reward R (NumF rnd) n a) with (@onehot_reward R NumR n a). unfold onehot_reward. destruct (a <? n)%nat; [|reflexivity].
    assert (G : forall v, Forall (fun t => t = 0 \/ t = 1) v -> Forall2 (fun t t' => unit_float rnd t /\ Rabs (t - t') <= er) v v).
    { intros v H. induction H as [|t v T _ IH]; constructor; [|exact IH]. split; [|replace (t - t) with 0 by ring; rewrite Rabs_R0; exact E0]. destruct T as [-> | ->]; (split; [lra|]); [apply (rnd0 rnd u eta RD)|apply (rd_one _ _ _ RD)]. }
    apply G. unfold zeros1. apply Forall_forall. intros t T. destruct (In_nth _ _ 0 T) as (i & I & <-). rewrite upd_length, repeat_length in I. destruct (Nat.eq_dec a i) as [->|NE].
    + rewrite nth_upd_same by (now rewrite repeat_length). now right.
    + rewrite nth_upd_other by congruence. rewrite nth_repeat_lt by exact I. now left.
Qed.

(** The bounds: [k] observations at most add their own errors, and with decay those of the rates. *)
Definition estimate_error (er : R) (decaying : bool) (k : nat) : R := er + INR k * step_error u eta + (if decaying then INR k * INR k * (ep + u + eta) else 0).
Definition rate_error (k : nat) : R := INR k * (ep + u + eta).
Lemma sums0 : 0 <= step_error u eta /\ 0 <= ep + u + eta.
Proof. pose proof (rd_u _ _ _ RD). pose proof (rd_eta _ _ _ RD). destruct PW as [E0 _]. unfold step_error. lra. Qed.
Lemma bounds_mono : forall er b, 0 <= er -> forall k, 0 <= estimate_error er b k <= estimate_error er b (S k).
Proof.
  intros er b E0 k. destruct sums0 as [S1 S2]. unfold estimate_error. rewrite S_INR. pose proof (pos_INR k) as K. assert (0 <= INR k * step_error u eta) by (apply Rmult_le_pos; lra). assert (0 <= INR k * INR k) by (apply Rmult_le_pos; lra). assert (0 <= INR k * INR k * (ep + u + eta)) by (apply Rmult_le_pos; lra).
  assert (0 <= INR k * (ep + u + eta)) by (apply Rmult_le_pos; lra). destruct b; lra.
Qed.
Lemma bounds_step : forall er b, 0 <= er -> forall k r', (if b : bool then 0 <= r' <= 1 else r' = lr) -> 0 < lr -> (1 - r') * estimate_error er b k + r' * er + (if b then rate_error (S k) else 0) + step_error u eta <= estimate_error er b (S k).
Proof.
  intros er b E0 k r' H LP. assert (R : 0 <= r' <= 1) by (destruct b; lra). destruct sums0 as [S1 S2]. pose proof (pos_INR k) as K.
  assert (EB : er <= estimate_error er b k). { unfold estimate_error. assert (0 <= INR k * step_error u eta) by (apply Rmult_le_pos; lra). assert (0 <= INR k * INR k) by (apply Rmult_le_pos; lra). assert (0 <= INR k * INR k * (ep + u + eta)) by (apply Rmult_le_pos; lra). destruct b; lra. }
  assert (X : (1 - r') * estimate_error er b k + r' * er <= estimate_error er b k). { assert (r' * er <= r' * estimate_error er b k) by (apply Rmult_le_compat_l; lra). lra. }
  assert (Y : (if b then rate_error (S k) else 0) + step_error u eta + estimate_error er b k <= estimate_error er b (S k)); [|lra].
  unfold estimate_error, rate_error. rewrite S_INR. assert (0 <= INR k * (ep + u + eta)) by (apply Rmult_le_pos; lra). destruct b; lra.
Qed.
Lemma rates_step : forall k, 0 <= rate_error k <= rate_error (S k) /\ (forall P : Prop, P -> rate_error k + ep + u + eta <= rate_error (S k)).
Proof.
  intros k. destruct sums0 as [S1 S2]. unfold rate_error. rewrite S_INR. pose proof (pos_INR k) as K. assert (0 <= INR k * (ep + u + eta)) by (apply Rmult_le_pos; lra). split; [lra|]. intros _ _. lra.
Qed.

(** *** Estimates are between zero and one, whatever is observed, in however many fits and resets. *)
Theorem C214_range : forall c l0 calls q, td_learner_r rnd ex pw lr d Q kernel ls = Ok (c, l0) -> learner_q_values (fold_left (after_call_r rnd c) calls l0) = QArr q -> Forall (fun x => 0 <= x <= 1) q.
Proof.
  intros c l0 calls q E EQ. destruct (inv_r c l0 E) as (LP & DP & EC & EL). set (cR := companion false). set (B := beside rnd (estimate_error 0 (c_decaying c)) rate_error).
  assert (UL : unit_float rnd (c_lr c)) by (rewrite EC; split; [cbn [c_lr]; lra|exact LF]).
  assert (CL : c_lr c = c_lr cR) by (rewrite EC; reflexivity). assert (CD : c_decaying c = c_decaying cR) by (rewrite EC; reflexivity). assert (LC : c_lr c = lr) by (rewrite EC; reflexivity).
  pose proof (factors_r c l0 E false) as FA. pose proof (rewards_r c l0 0 false E (Rle_refl 0) ltac:(discriminate)) as RW. pose proof (bounds_mono 0 (c_decaying c) (Rle_refl 0)) as EM.
  assert (ES : forall k r', (if c_decaying c then 0 <= r' <= 1 else r' = c_lr c) -> (1 - r') * estimate_error 0 (c_decaying c) k + r' * 0 + (if c_decaying c then rate_error (S k) else 0) + step_error u eta <= estimate_error 0 (c_decaying c) (S k)) by (intros k r' H; rewrite LC in H; apply bounds_step; [apply Rle_refl|exact H|exact LP]).
  assert (RS : forall k, 0 <= rate_error k <= rate_error (S k) /\ (c_decaying c = true -> rate_error k + ep + u + eta <= rate_error (S k))) by (intros k; destruct (rates_step k) as [R1 R2]; split; [exact R1|apply R2]).
  assert (G : forall cs k l l', B k l l' -> exists k' l'', B k' (fold_left (after_call_r rnd c) cs l) l'').
  { induction cs as [|[arg ts|] cs IH]; intros k l l' H; cbn [fold_left]; [eauto| |].
    - destruct (fit_beside rnd u eta RD TOP c cR 0 ep (estimate_error 0 (c_decaying c)) rate_error CL UL CD FA RW EM ES RS arg ts k l l' H) as (k1 & B1 & _). exact (IH k1 _ _ B1).
    - exact (IH k _ _ (reset_beside rnd u eta c cR ep (estimate_error 0 (c_decaying c)) rate_error CL UL RS k l l' H)). }
  assert (B0 : B 0%nat l0 (new_learner cR Q)) by (rewrite EL; apply (new_beside rnd u eta c cR ep _ rate_error CL UL EM RS Q QU)).
  destruct (G calls 0%nat l0 _ B0) as (k & l' & BF). pose proof (bs_q _ _ _ _ _ _ BF) as NQ. unfold learner_q_values in EQ. rewrite EQ in NQ. destruct (l_Q l') as [| |q']; try contradiction. cbn in NQ.
  clear -NQ. induction NQ as [|x x' q q' [[X _] _] _ IH]; constructor; [exact X|exact IH].
Qed.

(** *** Accuracy *)
(** The error of the credits: none without the kernel. *)
Definition credit_error : R := if kernel then kernel_error u eta ux etax else 0.
(** With the kernel the number of actions divides the circle into whole degrees. *)
Definition kernel_fits (nA : nat) : Prop := kernel = true -> halves_exact rnd /\ exponent_rel u <= / 2 /\ whole_degrees nA.
Lemma credit_error0 : 0 <= credit_error.
Proof.
  unfold credit_error, kernel_error. destruct kernel; [|lra]. pose proof (rd_u _ _ _ RD). pose proof (rd_eta _ _ _ RD). pose proof (re_u _ _ _ _ EX). pose proof (re_eta _ _ _ _ EX). assert (0 <= (1 + u) * eta) by (apply Rmult_le_pos; lra). assert (0 <= u * u) by (apply Rmult_le_pos; lra).
  assert (0 <= exponent_rel u * (1 + 16201 * ((1 + u) * eta))) by (apply Rmult_le_pos; unfold exponent_rel; lra). lra.
Qed.
Lemma companion_len : forall b nA a v, companion_reward b nA a = Ok v -> length v = nA.
Proof.
  intros b nA a v E. unfold companion_reward in E. destruct kernel; [|exact (reward_len false ls _ _ _ E)]. destruct (b && good nA a); [exact (reward_len true ls _ _ _ E)|]. unfold kernel_reward_r in E.
  match type of E with Ok ?x = _ => assert (EV : v = x) by congruence end. now rewrite EV, map_length, seq_length.
Qed.
Lemma companion_shown : forall nA a b, kernel_fits nA -> (a < nA)%nat -> (b < nA)%nat -> credit (companion true) nA a b = shown kernel ls nA a b.
Proof.
  intros nA a b K A B. unfold credit. cbn [companion c_reward]. unfold companion_reward. destruct kernel eqn:EK.
  - destruct (K EK) as (_ & _ & W). assert (G : good nA a = true). { unfold good. apply andb_true_intro. split; [|now apply Nat.ltb_lt]. destruct W as [->|[->| ->]]; reflexivity. }
    rewrite G. cbn [andb]. destruct (kernel_reward ls nA a) as [v|e] eqn:E; [|discriminate]. exact (reward_shown true ls nA a b v E B).
  - destruct (onehot_reward (A:=R) nA a) as [v|e] eqn:E; [exact (reward_shown false ls nA a b v E B)|]. unfold onehot_reward in E. apply Nat.ltb_lt in A. rewrite A in E. discriminate.
Qed.
Lemma whole_dec : forall n, whole_degrees n \/ ~ whole_degrees n.
Proof. intros n. unfold whole_degrees. destruct (Nat.eq_dec n 4), (Nat.eq_dec n 5), (Nat.eq_dec n 6); auto. right. lia. Qed.
Lemma accuracy : forall (E : nat -> R), 0 < lr -> (forall k, 0 <= E k <= E (S k)) ->
  (forall k r', (if Rltb 0 (decay_value d) then 0 <= r' <= 1 else r' = lr) -> (1 - r') * E k + r' * credit_error + (if Rltb 0 (decay_value d) then rate_error (S k) else 0) + step_error u eta <= E (S k)) ->
  forall c l0 arg ts l' nA q, td_learner_r rnd ex pw lr d Q kernel ls = Ok (c, l0) -> (forall m, In m (mdps_of arg (length ts)) -> m_n_actions m = nA) -> kernel_fits nA -> starts_from l0 nA q -> fit_learner_r rnd c arg ts l0 = (l', Ok tt) ->
  exists acts q', observed (mdps_of arg (length ts)) ts acts /\ learner_q_values l' = QArr q' /\ length q' = nA /\ (Forall (fun a => a < nA)%nat acts -> forall b, (b < nA)%nat ->
    Rabs (nth b q' 0 - weighted_average (length acts) (rate_at (companion true) (started l0 q)) (fun i => shown kernel ls nA (nth i acts 0%nat) b) (nth b q 0)) <= E (length acts)).
Proof.
  intros E LP0 EM ES c l0 arg ts l' nA q ET N KF ST F. destruct (inv_r c l0 ET) as (LP & DP & EC & EL).
  set (cR := companion true). assert (UL : unit_float rnd (c_lr c)) by (rewrite EC; split; [cbn [c_lr]; lra|exact LF]).
  assert (CL : c_lr c = c_lr cR) by (rewrite EC; reflexivity). assert (CD : c_decaying c = c_decaying cR) by (rewrite EC; reflexivity).
  assert (ES' : forall k r', (if c_decaying c then 0 <= r' <= 1 else r' = c_lr c) -> (1 - r') * E k + r' * credit_error + (if c_decaying c then rate_error (S k) else 0) + step_error u eta <= E (S k)) by (rewrite EC; exact ES).
  assert (KE : true = true -> kernel = true -> halves_exact rnd /\ exponent_rel u <= / 2 /\ kernel_error u eta ux etax <= credit_error). { intros _ K. destruct (KF K) as (K1 & K2 & _). split; [exact K1|]. split; [exact K2|]. unfold credit_error. rewrite K. apply Rle_refl. }
  pose proof (factors_r c l0 ET true) as FA. pose proof (rewards_r c l0 credit_error true ET credit_error0 KE) as RW.
  assert (RS : forall k, 0 <= rate_error k <= rate_error (S k) /\ (c_decaying c = true -> rate_error k + ep + u + eta <= rate_error (S k))) by (intros k; destruct (rates_step k) as [R1 R2]; split; [exact R1|apply R2]).
  set (lR := new_learner cR Q).
  assert (B0 : beside rnd E rate_error 0%nat l0 lR) by (rewrite EL; apply (new_beside rnd u eta c cR ep _ rate_error CL UL EM RS Q QU)).
  destruct (fit_beside rnd u eta RD TOP c cR credit_error ep E rate_error CL UL CD FA RW EM ES' RS arg ts 0%nat l0 lR B0) as (k' & B1 & S1 & N1). unfold fit_learner_r in F. rewrite F in B1, S1, N1. cbn [fst snd] in *. specialize (N1 eq_refl).
  destruct (@fit_learner R NumR cR arg ts lR) as [lR' r'] eqn:FR. cbn [fst snd] in *. subst r'.
  assert (STR : starts_from lR nA q) by (unfold starts_from in *; rewrite EL in ST; unfold lR; destruct Q; exact ST).
  destruct (fit_learned cR nA arg ts lR lR' q (fun a v H => companion_len true nA a v H) N STR FR) as (acts & l1 & O & (q0 & q' & E0 & L0 & E1 & L1' & H & SH & OR & LN & _) & EL'). cbn [started l_Q l_n] in *. assert (q0 = q) by congruence. subst q0.
  pose proof (bs_q _ _ _ _ _ _ B1) as NQ. rewrite EL' in NQ. cbn [l_Q] in NQ. rewrite E1 in NQ. destruct (l_Q l') as [| |qF] eqn:EQF; try contradiction. cbn in NQ.
  assert (KK : k' = length acts). { pose proof (bs_n _ _ _ _ _ _ B1) as BN. rewrite EL' in BN. cbn [l_n] in BN. lia. } rewrite KK in *.
  exists acts, qF. split; [exact O|]. split; [exact EQF|]. split; [rewrite (F2_len _ _ _ _ _ NQ); exact L1'|]. intros FA' b Hb.
  assert (X : nth b q' 0 = weighted_average (length acts) (rate_at (companion true) (started l0 q)) (fun i => shown kernel ls nA (nth i acts 0%nat) b) (nth b q 0)).
  { rewrite H by exact Hb. apply wa_ext. intros i Hi. split.
    - unfold rate_at, started. rewrite EL, EC. unfold lR, cR. destruct Q; reflexivity.
    - rewrite Forall_forall in FA'. apply companion_shown; [exact KF| |exact Hb]. apply FA', nth_In, Hi. }
  fold cR in X. rewrite <- X. clear -NQ L1' Hb. rewrite <- L1' in Hb. clear L1'. revert b Hb. induction NQ as [|x x' q q' [_ D] _ IH]; intros b Hb; [cbn in Hb; lia|]. destruct b as [|b]; [exact D|]. cbn [nth]. apply IH. cbn [length] in Hb. lia.
Qed.

(** Without decay: the error does not grow with the number of observations, however many there are. *)
Theorem C214_constant_rate : forall c l0 arg ts l' nA q, td_learner_r rnd ex pw lr d Q kernel ls = Ok (c, l0) -> decay_value d = 0 -> (forall m, In m (mdps_of arg (length ts)) -> m_n_actions m = nA) -> kernel_fits nA -> starts_from l0 nA q -> fit_learner_r rnd c arg ts l0 = (l', Ok tt) ->
  exists acts q', observed (mdps_of arg (length ts)) ts acts /\ learner_q_values l' = QArr q' /\ length q' = nA /\ (Forall (fun a => a < nA)%nat acts -> forall b, (b < nA)%nat -> let n := length acts in
    Rabs (nth b q' 0 - ((1 - lr) ^ n * nth b q 0 + sumf (fun i => lr * (1 - lr) ^ (n - 1 - i) * shown kernel ls nA (nth i acts 0%nat) b) (seq 0 n))) <= credit_error + step_error u eta / lr).
Proof.
  intros c l0 arg ts l' nA q ET D0 N KF ST F. destruct (inv_r c l0 ET) as (LP & _). destruct sums0 as [S1 S2]. pose proof credit_error0 as C0. assert (P : 0 <= step_error u eta / lr) by (apply Rmult_le_pos; [lra|left; now apply Rinv_0_lt_compat]).
  assert (DD : Rltb 0 (decay_value d) = false) by (rewrite D0; unfold Rltb; destruct (Rlt_dec 0 0); [lra|reflexivity]).
  destruct (accuracy (fun _ => credit_error + step_error u eta / lr) LP) with (c := c) (l0 := l0) (arg := arg) (ts := ts) (l' := l') (nA := nA) (q := q) as (acts & q' & O & EQ & LQ & H); auto; [intros k; cbn beta; lra| |].
  - intros k r' HR. cbn beta. rewrite DD in *. subst r'. assert (lr * (step_error u eta / lr) = step_error u eta) by (field; lra). lra.
  - exists acts, q'. split; [exact O|]. split; [exact EQ|]. split; [exact LQ|]. intros FA b Hb n. specialize (H FA b Hb). fold n in H.
    replace ((1 - lr) ^ n * nth b q 0 + sumf (fun i => lr * (1 - lr) ^ (n - 1 - i) * shown kernel ls nA (nth i acts 0%nat) b) (seq 0 n)) with (weighted_average n (rate_at (companion true) (started l0 q)) (fun i => shown kernel ls nA (nth i acts 0%nat) b) (nth b q 0)); [exact H|].
    unfold weighted_average, rate_at. cbn [companion c_decaying c_lr]. rewrite DD, prodf_const, seq_length. f_equal. apply sumf_ext. intros i Hi. apply in_seq in Hi. rewrite prodf_const, seq_length. replace (n - S i)%nat with (n - 1 - i)%nat by lia. reflexivity.
Qed.
(** With decay: every observation adds at most its own error and that of its rate. *)
Theorem C214_decaying_rate : forall r c l0 arg ts l' nA q, d = DecayFloat r -> 0 < r -> td_learner_r rnd ex pw lr d Q kernel ls = Ok (c, l0) -> (forall m, In m (mdps_of arg (length ts)) -> m_n_actions m = nA) -> kernel_fits nA -> starts_from l0 nA q -> fit_learner_r rnd c arg ts l0 = (l', Ok tt) ->
  exists acts q', observed (mdps_of arg (length ts)) ts acts /\ learner_q_values l' = QArr q' /\ length q' = nA /\ (Forall (fun a => a < nA)%nat acts -> forall b, (b < nA)%nat -> let n := length acts in
    Rabs (nth b q' 0 - weighted_average n (fun i => actual_rate lr r (S i)) (fun i => shown kernel ls nA (nth i acts 0%nat) b) (nth b q 0)) <= credit_error + INR n * step_error u eta + INR n * INR n * (ep + u + eta)).
Proof.
  intros r c l0 arg ts l' nA q ED R0 ET N KF ST F. destruct (inv_r c l0 ET) as (LP & _ & EC & EL). pose proof credit_error0 as C0.
  assert (DD : Rltb 0 (decay_value d) = true) by (rewrite ED; cbn; unfold Rltb; destruct (Rlt_dec 0 r); [reflexivity|lra]).
  destruct (accuracy (estimate_error credit_error true) LP) with (c := c) (l0 := l0) (arg := arg) (ts := ts) (l' := l') (nA := nA) (q := q) as (acts & q' & O & EQ & LQ & H); auto; [now apply bounds_mono| |].
  - intros k r' HR. rewrite DD in *. now apply (bounds_step credit_error true).
  - exists acts, q'. split; [exact O|]. split; [exact EQ|]. split; [exact LQ|]. intros FA b Hb n. specialize (H FA b Hb). unfold estimate_error in H. fold n in H.
    rewrite (wa_ext n _ (rate_at (companion true) (started l0 q)) _ (fun i => shown kernel ls nA (nth i acts 0%nat) b)); [exact H|]. intros i Hi. split; [|reflexivity].
    unfold rate_at. cbn [companion c_decaying]. rewrite DD, later_rate_prod. rewrite EL, EC. cbn [started new_learner l_adj l_n c_lr]. unfold actual_rate. f_equal. rewrite <- prod_fact. apply prodf_ext. intros j _. unfold factor. cbn [companion c_factor]. rewrite ED. reflexivity.
Qed.

(** *** Rounding does not decide whether a fit succeeds. *)
Theorem C214_same_outcome : forall c l0 c' l0' arg ts, td_learner_r rnd ex pw lr d Q kernel ls = Ok (c, l0) -> td_learner lr d Q kernel ls = Ok (c', l0') ->
  snd (fit_learner_r rnd c arg ts l0) = snd (fit_learner c' arg ts l0').
Proof.
  intros c l0 c' l0' arg ts ET ET'. destruct (inv_r c l0 ET) as (LP & DP & EC & EL). destruct (td_learner_inv _ _ _ _ _ _ _ ET') as (_ & _ & EL1 & ED1 & EF1 & ER1 & EN1).
  assert (UL : unit_float rnd (c_lr c)) by (rewrite EC; split; [cbn [c_lr]; lra|exact LF]).
  assert (CL : c_lr c = c_lr c') by (rewrite EC, EL1; reflexivity). assert (CD : c_decaying c = c_decaying c') by (rewrite EC, ED1; reflexivity). assert (LC : c_lr c = lr) by (rewrite EC; reflexivity).
  assert (FA : c_decaying c = true -> forall n, (1 <= n)%nat -> match c_factor c n, c_factor c' n with Ok f, Ok f' => unit_float rnd f /\ 0 <= f' <= 1 /\ Rabs (f - f') <= ep | Err e, Err e' => e = e' | _, _ => False end) by (rewrite EF1; exact (factors_r c l0 ET false)).
  assert (RW : forall n a, match c_reward c n a, c_reward c' n a with Ok v, Ok v' => Forall2 (fun t t' => unit_float rnd t /\ Rabs (t - t') <= 1) v v' | Err e, Err e' => e = e' | _, _ => False end).
  { intros n a. pose proof (rewards_r c l0 1 false ET Rle_0_1 ltac:(discriminate) n a) as W. rewrite ER1. cbn [companion c_reward] in W. unfold companion_reward in W. destruct kernel; [|exact W]. rewrite EC. cbn [c_reward].
    unfold kernel_reward_r, kernel_reward. apply F2_map. intros i _. pose proof (kernel_unit rnd ex u eta ux etax RD EX EX1 (rnd (INR i * rnd (360 / INR n))) (rnd (INR a * rnd (360 / INR n))) ls) as K. split; [exact K|].
    set (k := kernel_r rnd ex (rnd (INR i * rnd (360 / INR n))) (rnd (INR a * rnd (360 / INR n))) ls) in *. destruct K as [K _]. unfold deg_sq_exp_kernel. rewrite Rmult_1_l. set (g := degdist (INR i * (360 / INR n)) (INR a * (360 / INR n))).
    destruct (exp_le_one (- (g ^ 2 / 2 * ls ^ 2))) as [X1 X2]; [|apply Rabs_le; lra]. assert (0 <= g ^ 2 / 2 * ls ^ 2); [|lra]. apply Rmult_le_pos; [|rewrite <- Rsqr_pow2; apply Rle_0_sqr]. apply Rmult_le_pos; [rewrite <- Rsqr_pow2; apply Rle_0_sqr|lra]. }
  pose proof (bounds_mono 1 (c_decaying c) Rle_0_1) as EM.
  assert (ES : forall k r', (if c_decaying c then 0 <= r' <= 1 else r' = c_lr c) -> (1 - r') * estimate_error 1 (c_decaying c) k + r' * 1 + (if c_decaying c then rate_error (S k) else 0) + step_error u eta <= estimate_error 1 (c_decaying c) (S k)) by (intros k r' H; rewrite LC in H; apply bounds_step; [apply Rle_0_1|exact H|exact LP]).
  assert (RS : forall k, 0 <= rate_error k <= rate_error (S k) /\ (c_decaying c = true -> rate_error k + ep + u + eta <= rate_error (S k))) by (intros k; destruct (rates_step k) as [R1 R2]; split; [exact R1|apply R2]).
  assert (B0 : beside rnd (estimate_error 1 (c_decaying c)) rate_error 0%nat l0 l0') by (rewrite EL, EN1; apply (new_beside rnd u eta c c' ep _ rate_error CL UL EM RS Q QU)).
  destruct (fit_beside rnd u eta RD TOP c c' 1 ep _ rate_error CL UL CD FA RW EM ES RS arg ts 0%nat l0 l0' B0) as (_ & _ & S1 & _). exact S1.
Qed.
End Learner.
