(** The policies maximum-entropy inference uses, and how often each state is then expected to be visited. *)
From Coq Require Import List ZArith Reals Bool Lia Lra.
From Verif Require Import PyBase PyProofs ActionModel ActionSpec RSum SoftmaxModel SoftmaxProofs ActionProofs ActionProps MDPModel MDPProofs VIModel VISpec VIProofs VIProofs2 VIProps MCTSRun IRLModel IRLVisit.
Import ListNotations.
Local Open Scope R_scope.

(** Every possible action leads somewhere for certain. *)
Definition stochastic (sas : list (list (list R))) : Prop := forall s a, (s < n_states sas)%nat -> (a < n_actions sas)%nat -> possible sas s a -> sumf (fun t => prob sas s a t) (seq 0 (n_states sas)) = 1.
Definition some_move (sas : list (list (list R))) (s : nat) : Prop := exists a, (a < n_actions sas)%nat /\ possible sas s a.

Lemma row_fin_dec : forall row : list (fval R), (exists x, In (Fin x) row) \/ ~ exists x, In (Fin x) row.
Proof.
  induction row as [|w row [(x & H)|IH]]; [right; intros (x & [])|left; exists x; now right|]. destruct w as [| | |y]; [right|right|right|left; exists y; now left]; intros (x & [X|X]); (discriminate || eauto).
Qed.
(** Probabilities over a set of actions that includes the possible ones only, if there are any. *)
Lemma policy_row : forall (soft : bool) sas rf features k g tol v q, is_mdp sas -> (0 < n_states sas)%nat ->
  solve_value_iteration (if soft then soft_backup else hard_backup) rf features k g sas tol = Ok (v, q) ->
  exists p, policy_of soft q = Ok p /\ length p = n_states sas /\ forall s, (s < n_states sas)%nat -> exists ps : list R, nth s p [] = map Fin ps /\ length ps = n_actions sas /\ distribution ps /\
    (some_move sas s -> forall a, (a < n_actions sas)%nat -> ~ possible sas s a -> nth a ps 0 = 0).
Proof.
  intros soft sas rf features k g tol v q M NP E.
  assert (BK : (if soft then soft_backup else hard_backup) = hard_backup \/ (if soft then soft_backup else hard_backup) = soft_backup) by (destruct soft; tauto).
  destruct (C30_mask _ _ _ _ _ _ _ _ _ M BK E) as (_ & L & H). pose proof (proj1 M) as AP.
  assert (ENT : forall s w, (s < n_states sas)%nat -> In w (nth s q []) -> w = NInf \/ exists x, w = Fin x).
  { intros s w Hs Hw. destruct (H s Hs) as [LR HA]. apply (In_nth _ _ NaN) in Hw. destruct Hw as (a & Ha & <-). destruct (HA a ltac:(lia)) as [H1 H2].
    destruct (nth a (nth s q []) NaN) eqn:EN; eauto; exfalso; (assert (P : possible sas s a) by (destruct (possible_dec sas s a) as [P|P]; [exact P|apply H1 in P; discriminate])); destruct (H2 P); discriminate. }
  assert (NE : forall s, (s < n_states sas)%nat -> nth s q [] <> []) by (intros s Hs X; destruct (H s Hs) as [LR _]; rewrite X in LR; cbn in LR; lia).
  assert (KNS : forall s, (s < n_states sas)%nat -> some_known (nth s q [])).
  { intros s Hs. destruct (nth s q []) as [|w row] eqn:EQ; [now apply NE in EQ|]. exists w. split; [now left|]. destruct (ENT s w Hs) as [->|(x & ->)]; [rewrite EQ; now left|discriminate|discriminate]. }
  assert (KN : exists row, In row q /\ some_known row) by (exists (nth 0 q []); split; [apply nth_In; lia|apply KNS; lia]).
  destruct soft; cbn [policy_of]; unfold policy_of.
  - destruct (softmax_pi_p_total 1 q KN) as (p & Ep). exists p. split; [exact Ep|]. destruct (C26_flagged_probabilities_partial _ _ _ Ep) as (Lp & _). split; [lia|]. intros s Hs. destruct (H s Hs) as [LR HA].
    assert (NPI : ~ In PInf (nth s q [])) by (intros X; apply ENT in X; [destruct X as [X|(x & X)]; discriminate|exact Hs]).
    destruct (row_fin_dec (nth s q [])) as [(x & HX)|NX].
    + destruct (C27_gibbs 1 q p Rlt_0_1 Ep s ltac:(lia) NPI (ex_intro _ x HX)) as (ps & E1 & E2 & E3 & _ & E5 & _). exists ps. split; [exact E1|]. split; [lia|]. split; [exact E3|]. intros _ a Ha NPa. apply E5; [lia|]. intros y Y. destruct (HA a Ha) as [H1 _]. apply H1 in NPa. congruence.
    + assert (AN : forall w, In w (nth s q []) -> w = NInf) by (intros w Hw; destruct (ENT s w Hs Hw) as [->|(y & ->)]; [reflexivity|elim NX; eauto]).
      destruct (C26_flagged_probabilities_partial _ _ _ Ep) as (_ & F). destruct (F s ltac:(lia)) as (Ls & _ & F2). destruct (F2 (KNS s Hs)) as (p0 & E0 & EQ); [intros [X _]; contradiction|].
      unfold softmax_get_pi_p in E0. assert (p0 = map (fun row => softmax row 1) (ActionModel.clean q)) as -> by congruence.
      assert (CR : nth s (ActionModel.clean q) [] = nth s q []).
      { unfold ActionModel.clean. rewrite (nth_map_lt _ _ _ _ _ _ []) by lia. rewrite <- map_id. apply map_ext_in. intros w Hw. apply AN in Hw. now subst w. }
      rewrite (nth_map_lt _ _ _ _ _ _ []) in EQ by (unfold ActionModel.clean; rewrite map_length; lia). rewrite CR in EQ. destruct (C27_uniform 1 (nth s q []) AN (NE s Hs)) as (ps & U1 & U2 & U3 & _). exists ps. split; [congruence|]. split; [lia|]. split; [exact U2|].
      intros (a0 & Ha0 & P0) a Ha NPa. destruct (HA a0 Ha0) as [_ X]. destruct (X P0) as (y & Y). elim NX. exists y. rewrite <- Y. apply nth_In. lia.
  - destruct (C25_probabilities q) as (p & Ep & Lp & B); [intros row Hr; apply (In_nth _ _ []) in Hr; destruct Hr as (s & Hs & <-); apply NE; lia|exact KN|].
    exists p. split; [exact Ep|]. split; [lia|]. intros s Hs. destruct (H s Hs) as [LR HA]. destruct (B s ltac:(lia) (KNS s Hs)) as (best & ps & E1 & E2 & E3 & _ & _ & E6 & E7).
    { intros [X _]. apply ENT in X; [destruct X as [X|(x & X)]; discriminate|exact Hs]. }
    exists ps. split; [exact E1|]. split; [lia|]. split; [exact E3|]. intros (a0 & Ha0 & P0) a Ha NPa. rewrite E7 by lia. destruct (in_dec Nat.eq_dec a best) as [I|I]; [|reflexivity]. exfalso. apply E6 in I. destruct I as [_ I]. specialize (I a0 ltac:(lia)). destruct (HA a0 Ha0) as [_ X]. destruct (X P0) as (y & Y). destruct (HA a Ha) as [H1 _]. apply H1 in NPa. rewrite Y, NPa in I. exact I.
Qed.

Lemma mapM_fin : forall l : list R, mapM (fun v => match v with Fin x => Ok x | _ => Err ValueError end) (map (@Fin R) l) = Ok l.
Proof. induction l as [|x l IH]; [reflexivity|]. cbn [map mapM]. rewrite IH. reflexivity. Qed.
(** Value iteration followed by action selection gives, in every state, a probability distribution; in states with
    a possible action it leads somewhere. *)
Lemma library_policy : forall (soft : bool) sas rf features k g tol v q, is_mdp sas -> (0 < n_states sas)%nat ->
  solve_value_iteration (if soft then soft_backup else hard_backup) rf features k g sas tol = Ok (v, q) ->
  exists p pi, policy_of soft q = Ok p /\ mapM (mapM (fun v => match v with Fin x => Ok x | _ => Err ValueError end)) p = Ok pi /\
    (forall s a, 0 <= get2 0 pi s a) /\
    (stochastic sas -> forall s, (s < n_states sas)%nat -> some_move sas s -> leaves sas (fun s a => get2 0 pi s a) s = 1).
Proof.
  intros soft sas rf features k g tol v q M NP E. destruct (policy_row _ _ _ _ _ _ _ _ _ M NP E) as (p & Ep & Lp & H). exists p.
  assert (X : exists pi, p = map (map (@Fin R)) pi).
  { assert (Y : forall row, In row p -> exists ps, row = map (@Fin R) ps) by (intros row Hr; apply (In_nth _ _ []) in Hr; destruct Hr as (s & Hs & <-); destruct (H s ltac:(lia)) as (ps & -> & _); eauto).
    clear - Y. induction p as [|row p IH]; [now exists []|]. destruct IH as (pi & ->); [intros; apply Y; now right|]. destruct (Y row) as (ps & ->); [now left|]. now exists (ps :: pi). }
  destruct X as (pi & ->). exists pi. split; [exact Ep|]. rewrite map_length in Lp. split.
  { clear. induction pi as [|ps pi IH]; [reflexivity|]. cbn [map mapM]. rewrite mapM_fin, IH. reflexivity. }
  assert (ROW : forall s, (s < n_states sas)%nat -> length (nth s pi []) = n_actions sas /\ distribution (nth s pi []) /\ (some_move sas s -> forall a, (a < n_actions sas)%nat -> ~ possible sas s a -> nth a (nth s pi []) 0 = 0)).
  { intros s Hs. destruct (H s Hs) as (ps & E1 & E2 & E3 & E4). rewrite (nth_map_lt _ _ _ _ _ _ []) in E1 by lia. assert (nth s pi [] = ps) as ->; [|auto]. clear - E1. revert ps E1. induction (nth s pi []) as [|x l IH]; intros [|y ps] E; try discriminate; [reflexivity|]. inversion E. f_equal; auto. }
  split.
  { intros s a. unfold get2. destruct (Nat.lt_ge_cases s (n_states sas)) as [Hs|Hs]; [|rewrite (nth_overflow pi) by lia; destruct a; cbn; lra]. destruct (ROW s Hs) as (L1 & [D _] & _). destruct (Nat.lt_ge_cases a (n_actions sas)) as [Ha|Ha]; [apply D, nth_In; lia|rewrite nth_overflow by lia; lra]. }
  intros ST s Hs SM. destruct (ROW s Hs) as (L1 & [_ D] & Z). unfold leaves. rewrite sumf_swap. rewrite Rsum_nth, L1 in D. rewrite <- D. apply sumf_ext. intros a Ha. apply in_seq in Ha. rewrite sumf_scal. unfold get2.
  destruct (possible_dec sas s a) as [P|P]; [rewrite ST by (try assumption; lia); ring|]. rewrite Z by (try assumption; lia). ring.
Qed.
