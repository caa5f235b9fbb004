(** C31 for the values the solver returns. *)
From Coq Require Import List ZArith QArith Reals Bool Lia Lra.
From Verif Require Import PyBase PyProofs MDPModel MDPSpec ActionModel ActionSpec RSum VIModel VISpec VIProofs VIProofs2 VIProps.
Import ListNotations.
Local Close Scope Q_scope.
Local Open Scope R_scope.

(** The returned values are as close as the tolerance promises to the solution, given enough iterations. *)
Lemma solver_close : forall sas rf features g tol Vs, is_mdp sas -> 0 < g < 1 -> length rf = length features -> 0 < tol -> optimal sas (reward_of rf features) g Vs ->
  exists K, forall k, (K <= k)%nat -> exists v q, solve_value_iteration hard_backup rf features (Z.of_nat (S k)) g sas tol = Ok (v, q) /\
    forall s, (s < n_states sas)%nat -> Rabs (nth s v 0 - Vs s) <= g * tol / (1 - g).
Proof.
  intros sas rf features g tol Vs M G L T O. destruct (bounded (n_states sas) (fun _ => 0) Vs) as (B & B0 & N). destruct (pow_small g ltac:(lra) ((1 + g) * B) tol T) as (K & HK). exists K. intros k Hk.
  destruct (C29_solver sas rf features k g tol Vs B M G L O N B0) as (v & q & E & _ & _ & H). exists v, q. split; [exact E|]. apply H.
  pose proof (pow_anti g K k ltac:(lra) Hk) as PA. assert (X : 0 <= (1 + g) * B) by (apply Rmult_le_pos; lra). apply Rle_lt_trans with (g ^ K * ((1 + g) * B)); [|exact HK].
  replace ((1 + g) * g ^ k * B) with (g ^ k * ((1 + g) * B)) by ring. now apply Rmult_le_compat_r.
Qed.
(** Without negative rewards: with enough iterations the solver returns, up to the tolerance, the best return
    among the behaviours that take possible actions. *)
Theorem C31_solver_nonnegative_partial : forall sas rf features g tol, is_mdp sas -> 0 < g < 1 -> length rf = length features -> 0 < tol ->
  (forall t, (t < n_states sas)%nat -> 0 <= reward_of rf features t) ->
  exists K, forall k, (K <= k)%nat -> exists v q, solve_value_iteration hard_backup rf features (Z.of_nat (S k)) g sas tol = Ok (v, q) /\
    forall s, (s < n_states sas)%nat -> exists x, best_return sas (reward_of rf features) g (acts_possibly sas) s x /\ Rabs (nth s v 0 - x) <= g * tol / (1 - g).
Proof.
  intros sas rf features g tol M G L T R0. destruct (C29_unique_solution sas (reward_of rf features) g M ltac:(lra)) as (Vs & O & _). destruct (solver_close sas rf features g tol Vs M G L T O) as (K & HK). exists K. intros k Hk.
  destruct (HK k Hk) as (v & q & E & H). exists v, q. split; [exact E|]. intros s Hs. exists (Vs s). split; [|now apply H]. apply C31_nonnegative_partial; auto; lra.
Qed.

(** The same, as C178: a property of its own. *)
Theorem C178_solver : forall sas rf features g tol, is_mdp sas -> 0 < g < 1 -> length rf = length features -> 0 < tol ->
  (forall t, (t < n_states sas)%nat -> 0 <= reward_of rf features t) ->
  exists K, forall k, (K <= k)%nat -> exists v q, solve_value_iteration hard_backup rf features (Z.of_nat (S k)) g sas tol = Ok (v, q) /\
    forall s, (s < n_states sas)%nat -> exists x, best_return sas (reward_of rf features) g (acts_possibly sas) s x /\ Rabs (nth s v 0 - x) <= g * tol / (1 - g).
Proof. exact (@C31_solver_nonnegative_partial). Qed.
(** With any rewards: the best return among the behaviours that may also stop, by taking an impossible action. *)
Theorem C31_solver_may_stop_partial : forall sas rf features g tol, is_mdp sas -> 0 < g < 1 -> length rf = length features -> 0 < tol ->
  exists K, forall k, (K <= k)%nat -> exists v q, solve_value_iteration hard_backup rf features (Z.of_nat (S k)) g sas tol = Ok (v, q) /\
    forall s, (s < n_states sas)%nat -> exists x, best_return sas (reward_of rf features) g (acts sas) s x /\ Rabs (nth s v 0 - x) <= g * tol / (1 - g).
Proof.
  intros sas rf features g tol M G L T. destruct (C29_unique_solution sas (reward_of rf features) g M ltac:(lra)) as (Vs & O & _). destruct (solver_close sas rf features g tol Vs M G L T O) as (K & HK). exists K. intros k Hk.
  destruct (HK k Hk) as (v & q & E & H). exists v, q. split; [exact E|]. intros s Hs. exists (Vs s). split; [|now apply H]. apply C31_may_stop_partial; auto; lra.
Qed.
(** C69 for what the solver returns. *)
Theorem C69_solver_nonnegative : forall sas rf features g tol, is_mdp sas -> 0 < g < 1 -> length rf = length features -> 0 < tol ->
  (forall t, (t < n_states sas)%nat -> 0 <= reward_of rf features t) ->
  exists K, forall k, (K <= k)%nat -> exists v q, solve_value_iteration hard_backup rf features (Z.of_nat (S k)) g sas tol = Ok (v, q) /\
    forall s, (s < n_states sas)%nat -> exists x, best_return sas (reward_of rf features) g (acts_possibly sas) s x /\ Rabs (nth s v 0 - x) <= g * tol / (1 - g).
Proof. exact C31_solver_nonnegative_partial. Qed.
Theorem C69_solver_may_stop : forall sas rf features g tol, is_mdp sas -> 0 < g < 1 -> length rf = length features -> 0 < tol ->
  exists K, forall k, (K <= k)%nat -> exists v q, solve_value_iteration hard_backup rf features (Z.of_nat (S k)) g sas tol = Ok (v, q) /\
    forall s, (s < n_states sas)%nat -> exists x, best_return sas (reward_of rf features) g (acts sas) s x /\ Rabs (nth s v 0 - x) <= g * tol / (1 - g).
Proof. exact C31_solver_may_stop_partial. Qed.

(** Refuted for negative rewards: whatever the number of iterations and the tolerance, the solver's values stay
    at least 1 above the best return among the behaviours that take possible actions. *)
Theorem C31_solver_negative_refuted : exists sas rf features g, is_mdp sas /\ 0 < g < 1 /\
  (forall s, (s < n_states sas)%nat -> exists a, (a < n_actions sas)%nat /\ possible sas s a) /\
  forall k tol, tol <= 1 -> exists v q, solve_value_iteration hard_backup rf features (Z.of_nat (S k)) g sas tol = Ok (v, q) /\
  forall s x, (s < n_states sas)%nat -> best_return sas (reward_of rf features) g (acts_possibly sas) s x -> x = -2 /\ -1 <= nth s v 0.
Proof.
  destruct bad_negative as (M & G & O & P & BR). exists bad_sas, [-1], [[1; 1]], (1/2). split; [exact M|]. split; [exact G|]. split; [exact P|]. intros k tol T.
  destruct (C29_solver bad_sas [-1] [[1; 1]] k (1/2) tol (fun _ => 0) 0 M G eq_refl O) as (v & q & E & _ & H & _); [intros s _; rewrite Rminus_0_r, Rabs_R0; lra|lra|]. exists v, q. split; [exact E|]. intros s x Hs B. split; [eapply BR; eauto|].
  assert (A : Rabs (nth s v 0 - 0) <= 1). { destruct H as [H|H]; specialize (H s Hs); cbn beta in H; [|rewrite Rmult_0_r in H]; lra. }
  rewrite Rminus_0_r in A. revert A. unfold Rabs. destruct (Rcase_abs _); lra.
Qed.
