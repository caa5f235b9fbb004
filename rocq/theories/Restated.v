(** What holds of properties that are refuted as stated: C198 (see C48), C199 (C52), C200 (C93) and C201 (C49). *)
From Coq Require Import String List ZArith QArith Reals Bool Lia Lra.
From Verif Require Import PyBase PyProofs ActionModel ActionSpec RSum ActionProofs PLSpec VISpec IRLExpect GridModel GridSpec MDPModel MDPSpec MDPProofs MDPProofs2 MDPProofs3 MDPProps EnvModel EnvSpec EnvProps VIEnvProps FitProps PLModel PLSpec PLProofs PLProps PLProps2 PLExamples IRLModel IRLFit IRLMatch IRLEye IRLLook IRLGrids HypModel HypRun HypProps HypProps3.
Import ListNotations.
Local Close Scope Q_scope.
Local Open Scope R_scope.

(** Policy learning accepts a list of trajectories exactly if none has more moves than there are trajectories, and the list is not
    empty unless there is an initial estimate. *)
Theorem C198_accepted_iff : forall lr d Q kernel ls c l0 arg (ts : list (list nat)) nA, td_learner lr d Q kernel ls = Ok (c, l0) -> fits Q d nA -> (forall m, In m (mdps_of arg (length ts)) -> m_n_actions m = nA) -> Forall2 valid_on (mdps_of arg (length ts)) ts ->
  (exists l', fit_learner c arg (map (map Z.of_nat) ts) l0 = (l', Ok tt)) <-> ((forall t, In t ts -> (length t - 1 <= length ts)%nat) /\ (Q = None -> ts <> [])).
Proof. exact (@C48_when_it_succeeds_partial). Qed.
Example C198_example : exists m c l0, td_learner (3 / 10) (DecayFloat (1 / 2)) None false (2 / 100) = Ok (c, l0) /\ fits None (DecayFloat (1 / 2)) 6 /\ (forall x, In x (mdps_of (OneMDP m) 3) -> m_n_actions x = 6%nat) /\
  Forall2 valid_on (mdps_of (OneMDP m) 3) [[0; 1; 5; 2]; [0; 1]; [0; 1]]%nat /\ (forall t, In t [[0; 1; 5; 2]; [0; 1]; [0; 1]]%nat -> (length t - 1 <= 3)%nat).
Proof.
  destruct valid_example as (m & E & NA & V3 & V1 & T). destruct C49_example as (_ & c & l0 & _ & _ & EC & _). exists m, c, l0. split; [exact EC|]. split; [split; [exact I|right; eauto]|]. split; [intros x Hx; cbn in Hx; intuition congruence|].
  split; [repeat constructor; assumption|]. intros t [<-|[<-|[<-|[]]]]; cbn; lia.
Qed.

(** Maximum-entropy inference counts trajectory [j] with the product of the reciprocal lengths of the trajectories after it. *)
Theorem C199_weights : forall m ts, Forall (in_states (m_n_states m)) ts -> Forall (fun row => length row = m_n_states m) (m_features m) ->
  exists F, observed_features m ts = Ok F /\ length F = length (m_features m) /\ forall f, (f < length F)%nat ->
    nth f F 0 = sumf (fun j => along (nth f (m_features m) []) (nth j ts []) / INR (length (nth j ts [])) * prodf (fun t => / INR (length t)) (skipn (S j) ts)) (seq 0 (length ts)) / INR (length ts).
Proof. exact (@C52_weights_partial). Qed.
(** Two trajectories. *)
Theorem C199_two : forall m t1 t2, Forall (in_states (m_n_states m)) [t1; t2] -> Forall (fun row => length row = m_n_states m) (m_features m) ->
  exists F, observed_features m [t1; t2] = Ok F /\ length F = length (m_features m) /\ forall f, (f < length F)%nat ->
    let avg t := along (nth f (m_features m) []) t / INR (length t) in nth f F 0 = (avg t1 / INR (length t2) + avg t2) / 2.
Proof.
  intros m t1 t2 HS HF. destruct (C52_weights_partial m [t1; t2] HS HF) as (F & E & L & H). exists F. split; [exact E|]. split; [exact L|]. intros f Hf. cbv zeta. rewrite (H f Hf). cbn [seq length nth skipn]. unfold sumf, prodf. unfold Rsum. cbn [map fold_right]. replace (INR 2) with 2 by (cbn; lra). cbn [skipn fold_right]. unfold Rdiv. ring.
Qed.
(** A trajectory never counts for more than its equal share, if the amounts are not negative. *)
Theorem C199_at_most : forall m ts f, Forall (in_states (m_n_states m)) ts -> Forall (fun row => length row = m_n_states m) (m_features m) -> (f < length (m_features m))%nat ->
  (forall j, 0 <= nth j (nth f (m_features m) []) 0) -> Forall (fun t => t <> []) ts -> exists F, observed_features m ts = Ok F /\ nth f F 0 <= equal_weights (nth f (m_features m) []) ts.
Proof.
  intros m ts f HS HF Hf NN NE. destruct (C52_weights_partial m ts HS HF) as (F & E & L & H). exists F. split; [exact E|]. rewrite (H f) by lia. unfold equal_weights. rewrite (sumf_positions _ [] (fun t => along (nth f (m_features m) []) t / INR (length t))).
  assert (P1 : forall t, In t ts -> 1 <= INR (length t)). { intros t Ht. rewrite Forall_forall in NE. specialize (NE t Ht). destruct t; [congruence|]. cbn [length]. rewrite S_INR. pose proof (pos_INR (length t)). lra. }
  assert (AN : forall t, 0 <= along (nth f (m_features m) []) t) by (intros t; apply sumf_nonneg; intros z _; apply NN).
  destruct ts as [|t0 ts0]; [cbn; unfold sumf; cbn; unfold Rdiv; rewrite !Rmult_0_l; lra|]. set (ts := t0 :: ts0) in *.
  assert (LT : 0 < INR (length ts)) by (apply lt_0_INR; cbn; lia). unfold Rdiv at 1 4. apply Rmult_le_compat_r; [left; now apply Rinv_0_lt_compat|]. apply sumf_le. intros j Hj. apply in_seq in Hj.
  assert (PR : 0 <= prodf (fun t => / INR (length t)) (skipn (S j) ts) <= 1).
  { assert (SUB : forall t, In t (skipn (S j) ts) -> 1 <= INR (length t)). { intros t Ht. apply P1. rewrite <- (firstn_skipn (S j) ts). apply in_or_app. now right. } clear - SUB. induction (skipn (S j) ts) as [|t l IH]; [unfold prodf; cbn; lra|].
    assert (B : 0 < / INR (length t) <= 1). { pose proof (SUB t (or_introl eq_refl)). split; [apply Rinv_0_lt_compat; lra|]. rewrite <- Rinv_1. apply Rinv_le_contravar; lra. } assert (IH' := IH (fun u Hu => SUB u (or_intror Hu))). unfold prodf in *. cbn [map fold_right]. nra. }
  assert (A0 : 0 <= along (nth f (m_features m) []) (nth j ts []) / INR (length (nth j ts []))). { apply Rmult_le_pos; [apply AN|]. left. apply Rinv_0_lt_compat. assert (In (nth j ts []) ts) by (apply nth_In; lia). specialize (P1 _ H0). lra. }
  nra.
Qed.
Example C199_example : exists m, grid_mdp (A:=R) Square eye_feats (Some [0; 0; 0; 0; 1; 0]%R) (2, 3)%nat false = Ok m /\ Forall (in_states (m_n_states m)) [[3; 0; 1; 2; 5]; [2; 1]]%Z /\ Forall (fun row => length row = m_n_states m) (m_features m).
Proof. destruct inference_example as (m & c & E & I & _). exists m. split; [exact E|]. destruct I as (_ & _ & _ & _ & _ & _ & IF & _ & _ & IS & _). split; assumption. Qed.

(** With a positive decay the (k+1)-th move changes the weights of a hypothesis tester as documented. *)
Theorem C200_rates : forall lr decay asym tol g K soft norm c mdps ts ex x h x' h' a log ends nF, hyptest_config lr decay asym tol g K soft norm = Ok c -> 0 < decay ->
  fit_hyptest c mdps ts ex x h = (x', h', Ok (a, log, ends)) -> Forall (fun m => length (m_features m) = nF) mdps -> starts_ok nF x h ->
  exists rs, Forall2 (evidence c ex) (all_moves mdps ts) rs /\ length log = length (all_moves mdps ts) /\ nth a h' [] = last log [] /\
  forall k f, (k < length log)%nat -> (f < nF)%nat -> nth f (nth k log []) None = documented_step lr decay asym (S k) (nth f (nth k rs []) None) (nth f (nth k (start_weights nF x h :: log) []) None).
Proof. exact (@C93_decay_partial). Qed.
Example C200_example : exists m c x' h' a log ends, hyptest_config (3 / 10) 1 2 (1 / 100000000) (9 / 10) 500 true ZScore = Ok c /\
  fit_hyptest c [m; m] [[3; 0; 1; 2; 5]; [2; 1]]%Z [] (fst (new_hyptest None [])) [] = (x', h', Ok (a, log, ends)) /\ Forall (fun m => length (m_features m) = 2%nat) [m; m] /\ starts_ok 2 (fst (new_hyptest None [])) [].
Proof.
  destruct hyptest_example as (m & c & E & HO & HT & _ & _ & _ & S1 & _ & x' & h' & a & log & ends & F & _). exists m, c, x', h', a, log, ends. destruct HO as (HC & _). split; [exact HC|]. split; [exact F|]. split; [|exact S1]. destruct HT as (_ & _ & (n & na & HT) & _). eapply Forall_impl; [|exact HT]. intros y Hy. apply Hy.
Qed.

(** The learning rate of policy learning with decay [r]: the n-th observation counts with [lr * (n!) ^ -r]. *)
Theorem C201_rates : forall lr r Q kernel ls c l0 arg ts l' nA q,
  td_learner lr (DecayFloat r) Q kernel ls = Ok (c, l0) -> 0 < r -> (forall m, In m (mdps_of arg (length ts)) -> m_n_actions m = nA) -> starts_from l0 nA q -> fit_learner c arg ts l0 = (l', Ok tt) ->
  exists acts q', observed (mdps_of arg (length ts)) ts acts /\ learner_q_values l' = QArr q' /\ length q' = nA /\
    forall b, (b < nA)%nat -> nth b q' 0 = weighted_average (length acts) (fun i => lr * Rpower (INR (fact (S i))) (- r)) (fun i => shown kernel ls nA (nth i acts 0%nat) b) (nth b q 0).
Proof. exact (@C49_actual_schedule). Qed.
Example C201_example : exists m c l0 l', td_learner (3 / 10) (DecayFloat (1 / 2)) None false (2 / 100) = Ok (c, l0) /\ (forall x, In x (mdps_of (OneMDP m) 3) -> m_n_actions x = 6%nat) /\ starts_from l0 6 (repeat 0 6) /\
  fit_learner c (OneMDP m) [[0; 1]; [0; 1]; [0; 1]]%Z l0 = (l', Ok tt).
Proof.
  destruct C49_example as (m & c & l0 & l' & _ & EC & EF & _ & NA & _). exists m, c, l0, l'. split; [exact EC|]. split; [exact NA|]. split; [|exact EF]. right. split; [|reflexivity]. unfold td_learner in EC. destruct (negb (nltb n0 (3 / 10)%R)); [discriminate|]. destruct (nltb (decay_value (DecayFloat (1 / 2))) n0); [discriminate|]. injection EC as _ <-. reflexivity.
Qed.
