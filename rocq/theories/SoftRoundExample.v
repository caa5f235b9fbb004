(** C211 and C212 in double precision, and examples. *)
From Coq Require Import List ZArith Bool Reals Lia Lra Psatz.
From Flocq Require Import Core.
From Verif Require Import PyBase PyProofs ActionModel ActionSpec ActionProofs SoftmaxModel SoftmaxProofs RSum VIProofs RoundModel RoundProofs RoundExample SoftRoundModel SoftRoundSpec SoftRound SoftRound2.
Import ListNotations.
Local Open Scope R_scope.

(** The exponential, correctly rounded. *)
Definition exp64 (x : R) : R := float64 (exp x).
Theorem C212_exp64 : rounded_exp float64 exp64 u64 eta64.
Proof.
  pose proof C206_float64 as RD. constructor.
  - apply (u0 _ _ _ RD).
  - apply (e0 _ _ _ RD).
  - unfold exp64. rewrite exp_0. apply (rd_one _ _ _ RD).
  - intros x. apply (rnd_nn _ _ _ RD). left. apply exp_pos.
  - intros x. apply (rd_idem _ _ _ RD).
  - intros x _. unfold exp64. pose proof (rd_err _ _ _ RD (exp x)) as E. rewrite (Rabs_pos_eq (exp x)) in E by (left; apply exp_pos). exact E.
Qed.
(** numpy's tolerance for probabilities: the square root of the machine precision. *)
Definition atol64 : R := / 2 ^ 26.

Lemma sums64 : forall n, (n <= 7)%nat -> 0 <= INR n <= 7 /\ 0 <= sum_rel u64 n <= / 10 ^ 14 /\ 0 <= sum_abs u64 eta64 n <= / 10 ^ 25 /\ 0 <= INR n * eta64 <= / 10 ^ 25.
Proof.
  intros n H. pose proof u64_small as U. pose proof eta64_small as E. assert (N : 0 <= INR n <= 7). { split; [apply pos_INR|]. replace 7 with (INR 7) by (simpl; lra). now apply le_INR. }
  assert (P : forall k, INR k <= 8 -> 1 <= (1 + u64) ^ k <= 1 + 16 * u64).
  { intros k K. split; [apply pow_R1_Rle; lra|]. pose proof (pos_INR k). assert (INR k * u64 <= 8 * u64) by (apply Rmult_le_compat_r; lra). pose proof (pow_bound u64 k ltac:(lra) ltac:(lra)). lra. }
  split; [exact N|]. split; [unfold sum_rel; destruct (P (S n)); [rewrite S_INR; lra|lra]|]. assert (NE : 0 <= INR n * eta64 <= 7 * / 10 ^ 30) by (split; [apply Rmult_le_pos; lra|apply Rmult_le_compat; lra]). split; [|lra].
  unfold sum_abs. destruct (P n) as [P1 P2]; [lra|]. rewrite Rmult_assoc with (r1 := 2). set (x := INR n * eta64) in *. set (y := (1 + u64) ^ n) in *. clearbody x y. split; [apply Rmult_le_pos; lra|]. assert (2 * x * y <= 2 * (7 * / 10 ^ 30) * 2) by (apply Rmult_le_compat; lra). lra.
Qed.
Lemma errors64 : forall n ux etax T, (n <= 7)%nat -> 0 <= ux <= / 10 ^ 15 -> 0 <= etax <= / 10 ^ 25 -> / 10 ^ 10 <= T ->
  last_error u64 eta64 n <= / 10 ^ 13 /\ norm_error u64 eta64 n <= / 10 ^ 13 /\ exponent_rel u64 <= / 2 /\ prob_error u64 eta64 ux etax T n <= / 10 ^ 12.
Proof.
  intros n ux etax T H UX EX HT. destruct (sums64 n H) as (N & SR & SA & NE). pose proof u64_small as U. pose proof eta64_small as E.
  assert (UU : 0 <= u64 * u64 <= u64) by (split; [apply Rmult_le_pos; lra|rewrite <- (Rmult_1_r u64) at 3; apply Rmult_le_compat_l; lra]). assert (RL : 0 <= exponent_rel u64 <= 4 / 10 ^ 16) by (unfold exponent_rel; lra).
  assert (IT : 0 < / T <= 10 ^ 10). { split; [apply Rinv_0_lt_compat; lra|]. rewrite <- (Rinv_involutive (10 ^ 10)) by lra. apply Rinv_le_contravar; lra. }
  assert (ET : 0 <= eta64 / T <= / 10 ^ 20). { unfold Rdiv. split; [apply Rmult_le_pos; lra|]. apply Rle_trans with (/ 10 ^ 30 * 10 ^ 10); [apply Rmult_le_compat; lra|lra]. }
  assert (AB : 0 <= exponent_abs u64 eta64 T <= 3 / 10 ^ 20). { unfold exponent_abs. assert (0 <= (1 + u64) * (eta64 / T) <= 2 * / 10 ^ 20) by (split; [apply Rmult_le_pos; lra|apply Rmult_le_compat; lra]). lra. }
  assert (TE : 0 <= term_error u64 eta64 ux etax T <= 3 / 10 ^ 15).
  { unfold term_error. assert (0 <= exponent_rel u64 * (1 + exponent_abs u64 eta64 T) <= 4 / 10 ^ 16 * 2) by (split; [apply Rmult_le_pos; lra|apply Rmult_le_compat; lra]). rewrite Rmult_assoc with (r1 := 2). lra. }
  set (te := term_error u64 eta64 ux etax T) in *. assert (NT : 0 <= INR n * te <= 7 * (3 / 10 ^ 15)) by (split; [apply Rmult_le_pos; lra|apply Rmult_le_compat; lra]).
  assert (N2 : 0 <= INR n * (1 + te) <= 8) by lra. assert (X : 0 <= sum_rel u64 n * (INR n * (1 + te)) <= / 10 ^ 14 * 8) by (split; [apply Rmult_le_pos; lra|apply Rmult_le_compat; lra]).
  split; [unfold last_error; lra|]. split; [unfold norm_error; lra|]. split; [lra|]. unfold prob_error, total_error. fold te. lra.
Qed.

Theorem C211_float64 : forall ps v, (length ps <= 7)%nat -> (forall x, In x ps -> 0 <= x /\ float64 x = x) -> / 2 <= Rsum ps -> 0 <= v < 1 - / 10 ^ 13 ->
  (@rand_choice_nb R (NumF float64) ps v < length ps)%nat /\ 0 < nth (@rand_choice_nb R (NumF float64) ps v) ps 0.
Proof.
  intros ps v L H P V. destruct (C211_numba float64 u64 eta64 C206_float64 ps v H P ltac:(lra)) as [A B]. destruct (sums64 _ L) as (_ & SR & _). destruct (errors64 (length ps) 0 0 1 L ltac:(lra) ltac:(lra) ltac:(lra)) as (LE & _).
  assert (X := B ltac:(lra) ltac:(lra)). auto.
Qed.
Theorem C212_float64 : forall ex ux etax T row v, rounded_exp float64 ex ux etax -> ux <= / 10 ^ 15 -> etax <= / 10 ^ 25 -> / 10 ^ 10 <= T -> (0 < length row <= 7)%nat ->
  (forall x, In x row -> x <> NaN /\ x <> PInf) -> 0 <= v < 1 ->
  (exists a, softmax_choice_r float64 atol64 (softmax_r float64 ex row T) v = Ok (Z.of_nat a) /\ (a < length row)%nat /\ ((exists x, In (Fin x) row) -> exists x, nth a row NaN = Fin x)) /\
  ((exists x, In (Fin x) row) -> exists ps, softmax_r float64 ex row T = map Fin ps /\ length ps = length row /\
     forall a, (a < length row)%nat -> 0 <= nth a ps 0 <= 1 /\ (nth a row NaN = NInf -> nth a ps 0 = 0) /\
       Rabs (nth a ps 0 - gibbs_weight T (nth a row NaN) / Rsum (map (gibbs_weight T) row)) <= / 10 ^ 12).
Proof.
  intros ex ux etax T row v RE UX EX HT L H V. pose proof C206_float64 as RD. pose proof (re_u _ _ _ _ RE). pose proof (re_eta _ _ _ _ RE). destruct (sums64 (length row) ltac:(lia)) as (N & SR & SA & NE).
  destruct (errors64 (length row) ux etax T ltac:(lia) ltac:(lra) ltac:(lra) HT) as (_ & NR & RL & PE). assert (T0 : 0 < T) by lra. split.
  - apply (C212_choice float64 ex u64 eta64 ux etax RD RE T T0 RL); auto; try lra; [destruct row; [cbn in L; lia|discriminate]| |unfold atol64; lra].
    apply Rle_trans with (INR (length row) * / 10 ^ 12); [apply Rmult_le_compat_l; lra|lra].
  - intros FX. destruct (C212_probabilities float64 ex u64 eta64 ux etax RD RE T T0 RL row H FX) as (ps & EP & LP & PP). exists ps. split; [exact EP|]. split; [exact LP|]. intros a Ha. destruct (PP a Ha) as (P1 & _ & P3 & P4). repeat split; try apply P1; auto. lra.
Qed.

(** ** Examples *)
Example C211_example : let ps := [/ 4; 0; 3 / 4] in (forall x, In x ps -> 0 <= x /\ float64 x = x) /\ / 2 <= Rsum ps /\
  (exists x, In x ps /\ 0 < x) /\ forall v, 0 <= v < 1 - / 10 ^ 13 -> @rand_choice_nb R (NumF float64) ps v <> 1%nat /\ @choice_p R (NumF float64) ps v <> 1%nat.
Proof.
  assert (F : forall m e, (Z.abs m < 2 ^ 53)%Z -> (-1074 <= e)%Z -> float64 (F2R (Float radix2 m e)) = F2R (Float radix2 m e)).
  { intros m e Hm He. apply round_generic; [typeclasses eauto|]. apply generic_format_FLT. exists (Float radix2 m e); auto. }
  intros ps. assert (H : forall x, In x ps -> 0 <= x /\ float64 x = x).
  { intros x Hx. cbn in Hx. destruct Hx as [<-|[<-|[<-|[]]]]; (split; [lra|]).
    - replace (/ 4) with (F2R (Float radix2 1 (-2))) by (unfold F2R; cbn; lra). apply F; lia.
    - apply (rnd0 _ _ _ C206_float64).
    - replace (3 / 4) with (F2R (Float radix2 3 (-2))) by (unfold F2R; cbn; lra). apply F; lia. }
  assert (P : / 2 <= Rsum ps) by (unfold ps, Rsum; cbn; lra). assert (X : exists x, In x ps /\ 0 < x) by (exists (/ 4); split; [now left|lra]). split; [exact H|]. split; [exact P|]. split; [exact X|]. intros v V. split; intros E.
  - destruct (C211_float64 ps v ltac:(cbn; lia) H P V) as [_ Y]. rewrite E in Y. cbn in Y. lra.
  - destruct (C211_numpy float64 u64 eta64 C206_float64 ps v H X ltac:(lra)) as [_ Y]. rewrite E in Y. cbn in Y. lra.
Qed.
Example C212_example : let row := [Fin 0; NInf; Fin 1000] in forall v, 0 <= v < 1 -> exists a, softmax_choice_r float64 atol64 (softmax_r float64 exp64 row 1) v = Ok (Z.of_nat a) /\ (a = 0 \/ a = 2)%nat.
Proof.
  intros row v V. pose proof u64_small. pose proof eta64_small. destruct (C212_float64 exp64 u64 eta64 1 row v C212_exp64) as ((a & EA & LA & FA) & _); try lra; [cbn; lia|intros x [<-|[<-|[<-|[]]]]; split; discriminate|].
  exists a. split; [exact EA|]. destruct (FA ltac:(exists 0; now left)) as (x & E). destruct a as [|[|[|a]]]; auto; [discriminate E|cbn in LA; lia].
Qed.
