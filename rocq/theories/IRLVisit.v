(** State visitation: expected visit counts. *)
From Coq Require Import List ZArith Reals Bool Lia Lra.
From Verif Require Import PyBase PyProofs ActionSpec RSum MDPModel VISpec IRLModel.
Import ListNotations.
Local Open Scope R_scope.

(** ** Specification *)
(** Probability of being in state [t] after [k] moves, starting from [p0] and choosing actions by [pi]. *)
Fixpoint state_prob (sas : list (list (list R))) (pi : nat -> nat -> R) (p0 : nat -> R) (k t : nat) : R :=
  match k with
  | O => p0 t
  | S k' => sumf (fun s => sumf (fun a => state_prob sas pi p0 k' s * pi s a * prob sas s a t) (seq 0 (n_actions sas))) (seq 0 (n_states sas))
  end.
(** Chance to go anywhere at all from state [s]. *)
Definition leaves (sas : list (list (list R))) (pi : nat -> nat -> R) (s : nat) : R :=
  sumf (fun t => sumf (fun a => pi s a * prob sas s a t) (seq 0 (n_actions sas))) (seq 0 (n_states sas)).

(** ** One sweep *)
Lemma fold_upd_length : forall (l : list nat) f (dp : list R), length (fold_left (fun dp t => upd dp t (nadd (nth t dp 0) (f t))) l dp) = length dp.
Proof. induction l as [|x l IH]; intros f dp; [reflexivity|]. cbn [fold_left]. rewrite IH. apply upd_length. Qed.
Lemma fold_upd_nth : forall (l : list nat) f (dp : list R) t, NoDup l -> (t < length dp)%nat ->
  nth t (fold_left (fun dp t => upd dp t (nadd (nth t dp 0) (f t))) l dp) 0 = nth t dp 0 + (if in_dec Nat.eq_dec t l then f t else 0).
Proof.
  induction l as [|x l IH]; intros f dp t ND Ht; [cbn; lra|]. inversion ND as [|? ? NI ND']. subst. cbn [fold_left]. rewrite IH by (try assumption; now rewrite upd_length).
  destruct (Nat.eq_dec x t) as [->|NE].
  - rewrite nth_upd_same by exact Ht. destruct (in_dec Nat.eq_dec t l); [contradiction|]. destruct (in_dec Nat.eq_dec t (t :: l)) as [_|X]; [cbn; lra|elim X; now left].
  - rewrite nth_upd_other by congruence. destruct (in_dec Nat.eq_dec t l) as [I|I], (in_dec Nat.eq_dec t (x :: l)) as [J|J]; try lra; [elim J; now right|destruct J; [congruence|contradiction]].
Qed.
Section Sweep.
Variables (sas : list (list (list R))) (pi : list (list R)).
Definition pif (s a : nat) : R := get2 0 pi s a.

Lemma visit_step_spec : forall p0 D, length p0 = n_states sas -> length (visit_step sas pi p0 D) = n_states sas /\
  forall t, (t < n_states sas)%nat -> nth t (visit_step sas pi p0 D) 0 = nth t p0 0 + sumf (fun s => sumf (fun a => nth s D 0 * pif s a * prob sas s a t) (seq 0 (n_actions sas))) (seq 0 (n_states sas)).
Proof.
  intros p0 D Lp. unfold visit_step. fold (n_states sas) (n_actions sas) in *. cbn [n0 NumR] in *.
  set (inner := fun s a (dp : list R) => fold_left (fun dp t => upd dp t (nadd (nth t dp 0) (nmul (nmul (nth s D 0) (get2 0 pi s a)) (get3 0 sas s a t)))) (seq 0 (n_states sas)) dp).
  assert (I : forall s a dp, length dp = n_states sas -> length (inner s a dp) = n_states sas /\ forall t, (t < n_states sas)%nat -> nth t (inner s a dp) 0 = nth t dp 0 + nth s D 0 * pif s a * prob sas s a t).
  { intros s a dp Ld. unfold inner. split; [now rewrite fold_upd_length|]. intros t Ht. rewrite fold_upd_nth by (try apply seq_NoDup; lia). destruct (in_dec Nat.eq_dec t (seq 0 (n_states sas))) as [_|X]; [reflexivity|elim X; apply in_seq; lia]. }
  set (mid := fun s (dp : list R) (l : list nat) => fold_left (fun dp a => inner s a dp) l dp).
  assert (M : forall s l dp, length dp = n_states sas -> length (mid s dp l) = n_states sas /\ forall t, (t < n_states sas)%nat -> nth t (mid s dp l) 0 = nth t dp 0 + sumf (fun a => nth s D 0 * pif s a * prob sas s a t) l).
  { intros s. induction l as [|a l IH]; intros dp Ld; [split; [exact Ld|intros; cbn [mid]; unfold mid; cbn [fold_left]; rewrite sumf_nil; lra]|]. unfold mid in *. cbn [fold_left]. destruct (I s a dp Ld) as [I1 I2]. destruct (IH _ I1) as [J1 J2]. split; [exact J1|]. intros t Ht. rewrite J2, I2, sumf_cons by exact Ht. lra. }
  assert (O : forall l dp, length dp = n_states sas -> length (fold_left (fun dp s => mid s dp (seq 0 (n_actions sas))) l dp) = n_states sas /\ forall t, (t < n_states sas)%nat -> nth t (fold_left (fun dp s => mid s dp (seq 0 (n_actions sas))) l dp) 0 = nth t dp 0 + sumf (fun s => sumf (fun a => nth s D 0 * pif s a * prob sas s a t) (seq 0 (n_actions sas))) l).
  { induction l as [|s l IH]; intros dp Ld; [split; [exact Ld|intros; cbn [fold_left]; rewrite sumf_nil; lra]|]. cbn [fold_left]. destruct (M s (seq 0 (n_actions sas)) dp Ld) as [I1 I2]. destruct (IH _ I1) as [J1 J2]. split; [exact J1|]. intros t Ht. rewrite J2, I2, sumf_cons by exact Ht. lra. }
  exact (O (seq 0 (n_states sas)) p0 Lp).
Qed.
(** Visits within [n] time steps. *)
Definition visits (p0 : list R) (n t : nat) : R := sumf (fun k => state_prob sas pif (fun i => nth i p0 0) k t) (seq 0 n).
Lemma visits_step : forall p0 n t, visits p0 (S n) t = nth t p0 0 + sumf (fun s => sumf (fun a => visits p0 n s * pif s a * prob sas s a t) (seq 0 (n_actions sas))) (seq 0 (n_states sas)).
Proof.
  intros p0 n t. unfold visits. change (seq 0 (S n)) with (0%nat :: seq 1 n). rewrite sumf_cons. cbn [state_prob]. f_equal. rewrite <- seq_shift, sumf_map. cbn [state_prob].
  rewrite sumf_swap. apply sumf_ext. intros s _. rewrite sumf_swap. apply sumf_ext. intros a _. replace (sumf (fun k => state_prob sas pif (fun i => nth i p0 0) k s) (seq 0 n) * pif s a * prob sas s a t) with ((pif s a * prob sas s a t) * sumf (fun k => state_prob sas pif (fun i => nth i p0 0) k s) (seq 0 n)) by ring. rewrite <- sumf_scal. apply sumf_ext. intros; ring.
Qed.
Lemma visit_loop_S : forall k (p0 D : list R), visit_loop (S k) sas pi p0 D = visit_step sas pi p0 (visit_loop k sas pi p0 D).
Proof. induction k as [|k IH]; intros p0 D; [reflexivity|]. cbn [visit_loop] in *. rewrite <- IH. reflexivity. Qed.
Lemma visit_loop_spec : forall p0 k, length p0 = n_states sas -> length (visit_loop k sas pi p0 (zeros1 (n_states sas))) = n_states sas /\
  forall t, (t < n_states sas)%nat -> nth t (visit_loop k sas pi p0 (zeros1 (n_states sas))) 0 = visits p0 k t.
Proof.
  intros p0 k Lp. induction k as [|k [IL IH]].
  - cbn [visit_loop]. unfold zeros1. split; [apply repeat_length|]. intros t Ht. rewrite nth_repeat_lt by exact Ht. reflexivity.
  - rewrite visit_loop_S. destruct (visit_step_spec p0 (visit_loop k sas pi p0 (zeros1 (n_states sas))) Lp) as [L H]. split; [exact L|]. intros t Ht. rewrite H by exact Ht. rewrite visits_step. f_equal.
    apply sumf_ext. intros s Hs. apply in_seq in Hs. apply sumf_ext. intros a _. rewrite IH by lia. reflexivity.
Qed.
End Sweep.

(** ** C51 *)
(** Entry [t] is the expected number of visits to [t] within the first [n] time steps. *)
Theorem C51_visits : forall sas pi p0 n, length p0 = n_states sas -> let D := state_visitation_iterator sas n pi p0 in
  length D = n_states sas /\ forall t, (t < n_states sas)%nat -> nth t D 0 = sumf (fun k => state_prob sas (fun s a => get2 0 pi s a) (fun i => nth i p0 0) k t) (seq 0 (Z.to_nat n)).
Proof. intros sas pi p0 n Lp D. exact (visit_loop_spec sas pi p0 (Z.to_nat n) Lp). Qed.

Lemma state_prob_nonneg : forall sas pi p0 k t, (forall s a u, 0 <= prob sas s a u) -> (forall s a, 0 <= pi s a) -> (forall s, 0 <= p0 s) -> 0 <= state_prob sas pi p0 k t.
Proof.
  intros sas pi p0 k. induction k as [|k IH]; intros t HP Hpi Hp0; [apply Hp0|]. cbn [state_prob]. apply sumf_nonneg. intros s _. apply sumf_nonneg. intros a _. apply Rmult_le_pos; [apply Rmult_le_pos; [now apply IH|apply Hpi]|apply HP].
Qed.
(** Visits are non-negative and grow with the number of time steps. *)
Theorem C51_monotone : forall sas pi p0 n n', length p0 = n_states sas -> (forall s a u, 0 <= prob sas s a u) -> (forall s a, 0 <= get2 0 pi s a) -> Forall (fun x => 0 <= x) p0 -> (n <= n')%Z ->
  forall t, (t < n_states sas)%nat -> 0 <= nth t (state_visitation_iterator sas n pi p0) 0 <= nth t (state_visitation_iterator sas n' pi p0) 0.
Proof.
  intros sas pi p0 n n' Lp HP Hpi Hp0 Hn t Ht. destruct (C51_visits sas pi p0 n Lp) as [_ H]. destruct (C51_visits sas pi p0 n' Lp) as [_ H']. rewrite H, H' by exact Ht.
  assert (N : forall k, 0 <= state_prob sas (fun s a => get2 0 pi s a) (fun i => nth i p0 0) k t).
  { intros k. apply state_prob_nonneg; auto. intros s. destruct (Nat.lt_ge_cases s (length p0)) as [L|L]; [rewrite Forall_forall in Hp0; apply Hp0; now apply nth_In|rewrite nth_overflow by exact L; lra]. }
  split; [apply sumf_nonneg; auto|]. replace (Z.to_nat n') with (Z.to_nat n + (Z.to_nat n' - Z.to_nat n))%nat by lia. rewrite seq_app, sumf_app. assert (0 <= sumf (fun k => state_prob sas (fun s a => get2 0 pi s a) (fun i => nth i p0 0) k t) (seq (0 + Z.to_nat n) (Z.to_nat n' - Z.to_nat n))) by (apply sumf_nonneg; auto). lra.
Qed.
(** If the policy leads somewhere from every state that can be entered or started in, the visits add up to the
    number of time steps. *)
Theorem C51_total : forall sas pi p0 n, length p0 = n_states sas -> (0 <= n)%Z -> Rsum p0 = 1 ->
  (forall s, (s < n_states sas)%nat -> leaves sas (fun s a => get2 0 pi s a) s = 1 \/ (nth s p0 0 = 0 /\ forall u a, prob sas u a s = 0)) ->
  Rsum (state_visitation_iterator sas n pi p0) = IZR n.
Proof.
  intros sas pi p0 n Lp Hn S1 LV. destruct (C51_visits sas pi p0 n Lp) as [L H]. rewrite Rsum_nth, L.
  rewrite (sumf_ext _ _ (fun t => sumf (fun k => state_prob sas (fun s a => get2 0 pi s a) (fun i => nth i p0 0) k t) (seq 0 (Z.to_nat n)))) by (intros t Ht; apply in_seq in Ht; apply H; lia).
  rewrite sumf_swap. assert (T : forall k, sumf (fun t => state_prob sas (fun s a => get2 0 pi s a) (fun i => nth i p0 0) k t) (seq 0 (n_states sas)) = 1).
  { induction k as [|k IH]; [cbn [state_prob]; rewrite <- Lp, <- Rsum_nth; exact S1|]. cbn [state_prob]. rewrite sumf_swap. rewrite <- IH. apply sumf_ext. intros s Hs. apply in_seq in Hs.
    transitivity (state_prob sas (fun s a => get2 0 pi s a) (fun i => nth i p0 0) k s * leaves sas (fun s a => get2 0 pi s a) s).
    - unfold leaves. rewrite <- sumf_scal. apply sumf_ext. intros t _. rewrite <- sumf_scal. apply sumf_ext. intros a _. ring.
    - destruct (LV s ltac:(lia)) as [->|[Z0 ZP]]; [ring|]. replace (state_prob sas (fun s a => get2 0 pi s a) (fun i => nth i p0 0) k s) with 0; [ring|]. symmetry. destruct k as [|k]; [exact Z0|]. cbn [state_prob].
      apply sumf_0. intros u _. apply sumf_0. intros a _. rewrite ZP. ring. }
  rewrite (sumf_ext _ _ (fun _ => 1)) by (intros k _; apply T). rewrite <- (Z2Nat.id n) at 2 by exact Hn. rewrite <- INR_IZR_INZ. generalize (Z.to_nat n). induction n0 as [|k IH]; [reflexivity|]. rewrite seq_S, sumf_app, IH, sumf_cons, sumf_nil, S_INR. lra.
Qed.
