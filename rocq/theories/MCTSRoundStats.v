(** C241: the statistics of a tree search in rounded arithmetic, and the values it reports, are those of the iterations it made up to small errors. *)
From Coq Require Import String List ZArith QArith Reals Bool Lia Lra Psatz.
From Flocq Require Import Core.
From Verif Require Import PyBase PyProofs GridModel GridSpec GridProofs GridProofs2 MDPModel MDPSpec MDPProofs MDPProofs2 MDPProofs3 MDPProofs4 MDPProps ActionModel ActionSpec SoftmaxModel SoftmaxProofs ActionProofs RSum ActionProps EnvModel PlanProps EnvSpec StepSpec EnvProofs EnvProofs2 EnvProofs3 EnvProofs4 EnvProofs5 EnvProps StepProps VIModel VISpec VIProofs VIProofs2 VIProps VIEnvProps QuerySpec VIWalkSpec VIWalk GoalSpec GoalProps VIFit MCTSModel MCTSSpec MCTSProofs MCTSProofs2 MCTSProofs3 MCTSProps MCTSWalk MCTSEaten MCTSCache MCTSFit MCTSRun RoundModel RoundSpec RoundProofs RoundProps RoundExample RoundWalk SoftRoundModel SoftRoundSpec SoftRound SoftRound2 SoftRoundExample MCTSRoundModel MCTSKept MCTSEnv MCTSRound.
From Verif Require Import MCTSProps MCTSSpec MCTSRun.
Import ListNotations.
Local Close Scope Q_scope.
Local Open Scope nat_scope.

(** * What is claimed *)
(** The number of visits to state [s]. *)
Definition visit_count (states : list (list nat)) (s : nat) : nat := list_sum (map (occurrences s) states).
(** The error of a sum of [n] numbers whose absolute values sum up to [A], added up in rounded arithmetic. *)
Definition total_error (u eta : R) (n : nat) (A : R) : R := (((1 + u) ^ S n - 1) * A + 2 * INR n * eta * (1 + u) ^ n)%R.
(** Whole numbers up to [K] are represented exactly. *)
Definition counts_to (ro : R -> R) (K : nat) : Prop := forall k, k <= K -> ro (INR k) = INR k.

(** * Sums over visits *)
(** The rewards added to the value of [s], in order. *)
Definition gathered (rewards : list R) (states : list (list nat)) (s : nat) : list R := flat_map (fun p => repeat (fst p) (occurrences s (snd p))) (combine rewards states).
Lemma Rsum_repeat : forall x n, Rsum (repeat x n) = (INR n * x)%R.
Proof. induction n as [|n IH]; [cbn; lra|]. cbn [repeat]. rewrite Rsum_cons, IH, S_INR. lra. Qed.
Lemma gathered_sum : forall rewards states s, Rsum (gathered rewards states s) = value_total rewards states s.
Proof. intros rw st s. unfold gathered, value_total. induction (combine rw st) as [|p l IH]; [reflexivity|]. cbn [flat_map]. rewrite Rsum_app, IH, Rsum_repeat. reflexivity. Qed.
Lemma gathered_abs : forall rewards states s, map Rabs (gathered rewards states s) = gathered (map Rabs rewards) states s.
Proof.
  intros rw st s. unfold gathered. revert st. induction rw as [|r rw IH]; intros [|l st]; try reflexivity. cbn [combine map flat_map fst snd]. rewrite map_app, IH. f_equal. clear. induction (occurrences s l) as [|n IH]; [reflexivity|]. cbn. now rewrite IH.
Qed.
Lemma gathered_length : forall rewards states s, length rewards = length states -> length (gathered rewards states s) = visit_count states s.
Proof.
  intros rw st s. unfold gathered, visit_count. revert st. induction rw as [|r rw IH]; intros [|l st] E; try discriminate; [reflexivity|]. cbn [combine map flat_map list_sum fold_right snd fst]. rewrite app_length, repeat_length, IH by (cbn in E; lia). reflexivity.
Qed.
Lemma gathered_snoc : forall rewards states r l s, length rewards = length states -> gathered (rewards ++ [r]) (states ++ [l]) s = gathered rewards states s ++ repeat r (occurrences s l).
Proof. intros. unfold gathered. rewrite combine_snoc by assumption. rewrite flat_map_app. cbn [flat_map fst snd]. now rewrite app_nil_r. Qed.
Lemma count_snoc : forall states l s, visit_count (states ++ [l]) s = visit_count states s + occurrences s l.
Proof. intros. unfold visit_count. rewrite map_app, list_sum_app. cbn. lia. Qed.
Lemma count_visits : forall states s, visits states s = INR (visit_count states s).
Proof. intros states s. unfold visits, visit_count. induction states as [|l st IH]; [reflexivity|]. rewrite sumf_cons, IH. cbn [map list_sum fold_right]. now rewrite plus_INR. Qed.

Section Rounded.
Variables (ro : R -> R) (uu eta : R).
Hypothesis RD : rounding ro uu eta.
#[local] Instance NFs : Num R := NumF ro.

(** ** Walks *)
Section Walk.
Variables (score : scorer R) (c : search R) (V N : list R) (rnd : nat -> nat) (s0 : nat).
Hypotheses (Hn : 0 < length (s_start c)) (P0 : py_index (length (s_sas c)) (nth 0 (s_start c) 0%Z) = Ok s0).
Definition on_walk_r (st : it_state R) : Prop :=
  0 < length (it_nodes st) /\ walk (s_sas c) s0 (it_visited st) /\ ro (it_reward st) = it_reward st /\
  (it_visited st = [] /\ nth 0 (it_nodes st) 0%Z = nth 0 (s_start c) 0%Z \/ exists l x, it_visited st = l ++ [x] /\ nth 0 (it_nodes st) 0%Z = Z.of_nat x).
Lemma on_walk_body_r : forall st r, on_walk_r st -> it_body score c V N rnd st = Ok r -> match r with inl st' => on_walk_r st' | inr st' => on_walk_r st' end.
Proof using Hn P0 RD.
  intros st r (L & W & FR & X) B. apply it_body_inv in B. destruct B as (row & k & _ & _ & [(K & [(s1 & M & ->)|(s1 & M & ->)])|(K & ->)]).
  - apply it_move_ok in M. destruct M as (ft & ad & ac & acts & _ & _ & GA & _ & _ & _ & _ & _ & WH & _).
    assert (on_walk_r s1).
    { destruct WH as [(Z0 & x & NX & ER & EV & EN & _)|[(Z0 & _ & _ & x & _ & _ & ER & EV & EN & _)|(Z0 & _ & _ & ER & EV & EN & _)]].
      - unfold on_walk_r. rewrite EV, EN, ER, upd_length. split; [exact L|]. split; [|split; [apply (rd_idem _ _ _ RD)|right; exists (it_visited st), x; split; [reflexivity|now apply nth_upd_same]]].
        apply walk_snoc; [exact W|]. apply next_node_in in NX. apply in_map_iff in NX. destruct NX as ([a t] & E & NX). cbn in E. subst t.
        apply get_actions_states_spec in GA. destruct GA as (s & PS & GA). rewrite Z0 in PS. apply GA in NX. exists a. replace (last (it_visited st) s0) with s; [exact NX|].
        destruct X as [[E1 E2]|(l & y & E1 & E2)]; rewrite E2 in PS.
        + rewrite E1. cbn. congruence.
        + rewrite E1, last_snoc. apply py_index_ok in PS. lia.
      - unfold on_walk_r. rewrite EV, EN, ER, upd_length, nth_upd_other by congruence. split; [exact L|]. split; [exact W|]. split; [apply (rd_idem _ _ _ RD)|exact X].
      - unfold on_walk_r. rewrite EV, EN, ER. split; [exact L|]. split; [exact W|]. split; [apply (rd_idem _ _ _ RD)|exact X]. }
    destruct (it_next_fields c k s1) as (_ & F2 & F3 & F4 & _). unfold on_walk_r. rewrite F2, F3, F4. exact H.
  - apply it_move_caught in M. destruct M as (ft & ad & ac & _ & _ & ->). split; [exact L|]. split; [exact W|]. split; [apply (rd_idem _ _ _ RD)|exact X].
  - destruct (it_next_fields c k st) as (_ & F2 & F3 & F4 & _). unfold on_walk_r. rewrite F2, F3, F4. exact (conj L (conj W (conj FR X))).
Qed.
Lemma loop_walk_r : forall k fuel st b, it_loop score c V N rnd fuel (it_start c k) = Ok (st, b) -> on_walk_r st.
Proof using Hn P0 RD.
  intros k fuel st b. apply (it_loop_inv score c V N rnd on_walk_r (fun st _ => on_walk_r st)).
  - intros s s' H _ B. apply (on_walk_body_r s (inl s') H B).
  - intros s s' H _ B. apply (on_walk_body_r s (inr s') H B).
  - auto.
  - split; [exact Hn|]. split; [exact I|]. split; [apply (rnd0 _ _ _ RD)|]. left. auto.
Qed.
End Walk.

(** ** Statistics *)
Definition plus_r (a b : R) : R := ro (a + b).
Definition ones (n : nat) (x : R) : R := Nat.iter n (fun y => ro (y + 1)%R) x.
Lemma iter_swap : forall n x, Nat.iter n (fun y => ro (y + 1)%R) (ro (x + 1)%R) = Nat.iter (S n) (fun y => ro (y + 1)%R) x.
Proof. induction n as [|n IH]; intros x; [reflexivity|]. cbn [Nat.iter nat_rect] in *. unfold Nat.iter in *. cbn [nat_rect] in *. now rewrite IH. Qed.
Lemma backprop_r : forall visited (V N : list R) reward, length V = length N -> (forall v, In v visited -> v < length N) ->
  let '(V', N') := backprop (V, N) reward visited in
  length V' = length V /\ length N' = length N /\
  forall s, nth s N' 0%R = ones (occurrences s visited) (nth s N 0%R) /\ nth s V' 0%R = fold_left plus_r (repeat reward (occurrences s visited)) (nth s V 0%R).
Proof.
  induction visited as [|v l IH]; intros V N reward L H; cbn [backprop fold_left].
  - split; [reflexivity|]. split; [reflexivity|]. intros s. split; reflexivity.
  - assert (Lv : v < length N) by (apply H; now left).
    specialize (IH (upd V v (nadd (nth v V n0) reward)) (upd N v (nadd (nth v N n0) n1)) reward). unfold backprop in IH. rewrite !upd_length in IH.
    specialize (IH L ltac:(intros; apply H; now right)). destruct (fold_left _ l _) as [V' N']. destruct IH as (A1 & A2 & A3). split; [exact A1|]. split; [exact A2|].
    intros s. destruct (A3 s) as [B1 B2]. rewrite B1, B2. unfold occurrences. cbn [count_occ]. destruct (Nat.eq_dec v s) as [->|D].
    + rewrite !nth_upd_same by lia. cbn [repeat fold_left]. split; [|reflexivity]. unfold ones. apply iter_swap.
    + rewrite !nth_upd_other by congruence. split; reflexivity.
Qed.
Lemma ones_add : forall m n x, ones (m + n) x = ones m (ones n x).
Proof. intros m n x. induction m as [|m IH]; [reflexivity|]. change (ones (S m + n) x) with (ro (ones (m + n) x + 1)%R). now rewrite IH. Qed.
Lemma ones_exact : forall K n, counts_to ro K -> n <= K -> ones n 0%R = INR n.
Proof. intros K n C. induction n as [|n IH]; intros L; [reflexivity|]. change (ones (S n) 0%R) with (ro (ones n 0 + 1)%R). rewrite IH by lia. rewrite <- S_INR. now apply C. Qed.

Lemma search_stats_r : forall score c rnd fuel nS nA s0, shape3 nS nA nS (s_sas c) -> 0 < length (s_start c) -> py_index nS (nth 0 (s_start c) 0%Z) = Ok s0 ->
  forall todo i V N k states rewards V' N' k' states', length V = nS -> length N = nS -> length rewards = length states -> length states = i -> (forall r, In r rewards -> ro r = r) -> (forall l, In l states -> walk (s_sas c) s0 l) ->
  (forall s, s < nS -> nth s N 0%R = ones (visit_count states s) 0%R /\ nth s V 0%R = fold_left plus_r (gathered rewards states s) 0%R) ->
  search_loop score c rnd fuel i todo V N k states = Ok (V', N', k', states') ->
  length V' = nS /\ length N' = nS /\ exists more rmore, states' = states ++ more /\ length more = todo /\ length rmore = todo /\ (forall r, In r (rewards ++ rmore) -> ro r = r) /\ (forall l, In l (states ++ more) -> walk (s_sas c) s0 l) /\
    (forall s, s < nS -> nth s N' 0%R = ones (visit_count (states ++ more) s) 0%R /\ nth s V' 0%R = fold_left plus_r (gathered (rewards ++ rmore) (states ++ more) s) 0%R) /\
    (forall j, j < todo -> exists V1 N1 k1 k2 o, mcts_iteration score c V1 N1 k1 (rnd (i + j)) fuel = Ok (nth j rmore 0%R, nth j more [], k2, o)).
Proof.
  intros score c rnd fuel nS nA s0 SH Hn P0. induction todo as [|todo IH]; intros i V N k states rewards V' N' k' states' LV LN LR LS FR WL ST H; cbn [search_loop] in H.
  - assert (V' = V /\ N' = N /\ states' = states) as (-> & -> & ->) by (inversion H; auto). split; [exact LV|]. split; [exact LN|]. exists [], []. rewrite !app_nil_r. repeat (split; [now auto|]). intros j Hj. lia.
  - apply bind_ok in H. destruct H as ([[[reward visited] k1] o] & MI & H).
    assert (WK : ro reward = reward /\ walk (s_sas c) s0 visited).
    { unfold mcts_iteration in MI. apply bind_ok in MI. destruct MI as ([st b] & E & MI). assert (it_visited st = visited /\ it_reward st = reward) as [<- <-] by (now inversion MI).
      assert (PL : length (s_sas c) = nS) by (apply SH). rewrite <- PL in P0. destruct (loop_walk_r score c V N (rnd i) s0 Hn P0 k fuel st b E) as (_ & W & F & _). auto. }
    destruct WK as [FW WK]. assert (VB : forall v, In v visited -> v < nS) by (eapply walk_bound; eauto; apply py_index_ok in P0; lia).
    pose proof (backprop_r visited V N reward ltac:(lia) ltac:(intros v Hv; rewrite LN; auto)) as BP. destruct (backprop (V, N) reward visited) as [V1 N1]. destruct BP as (B1 & B2 & B3).
    destruct (IH (S i) V1 N1 k1 (states ++ [visited]) (rewards ++ [reward]) V' N' k' states') as (C1 & C2 & more & rmore & C3 & C4 & C5 & C8 & C9 & C6 & C7).
    + lia.
    + lia.
    + rewrite !app_length. cbn. lia.
    + rewrite app_length. cbn. lia.
    + intros r Hr. apply in_app_iff in Hr. destruct Hr as [Hr|[<-|[]]]; auto.
    + intros r Hr. apply in_app_iff in Hr. destruct Hr as [Hr|[<-|[]]]; auto.
    + intros s Hs. destruct (B3 s) as [D1 D2]. destruct (ST s Hs) as [E1 E2]. rewrite D1, D2, E1, E2, count_snoc, gathered_snoc by assumption. rewrite fold_left_app, <- ones_add. split; [f_equal; lia|reflexivity].
    + exact H.
    + split; [exact C1|]. split; [exact C2|]. exists (visited :: more), (reward :: rmore). rewrite <- !app_assoc in *. cbn [app] in *. split; [exact C3|]. split; [cbn; lia|]. split; [cbn; lia|]. split; [exact C8|]. split; [exact C9|]. split.
      * intros s Hs. specialize (C6 s Hs). rewrite <- ?app_assoc in C6. exact C6.
      * intros [|j] Hj.
        -- exists V, N, k, k1, o. cbn [nth]. rewrite Nat.add_0_r. exact MI.
        -- destruct (C7 j ltac:(lia)) as (V2 & N2 & k2 & k3 & o2 & Q2). exists V2, N2, k2, k3, o2. rewrite Nat.add_succ_r. exact Q2.
Qed.
Lemma fold_error : forall xs, (forall x, In x xs -> ro x = x) -> (Rabs (fold_left plus_r xs 0 - Rsum xs) <= total_error uu eta (length xs) (Rsum (map Rabs xs)))%R.
Proof.
  intros xs F. assert (E : map ro xs = xs) by (rewrite <- (map_id xs) at 2; apply map_ext_in; intros x Hx; apply F; exact Hx).
  pose proof (sum_error ro uu eta RD xs 0 0 0 0)%R as X. rewrite E in X. specialize (X ltac:(rewrite Rminus_0_r, Rabs_R0; lra) ltac:(rewrite Rabs_R0; lra) 0%nat ltac:(cbn; lra)).
  rewrite !Rplus_0_l in X. exact X.
Qed.
End Rounded.

(** C241. After [n] iterations: the visited states form walks from the agent's state; as long as whole numbers up to the number of visits are exact, visits are counted
    exactly; the accumulated value of a state differs from the sum of the rewards of the iterations through it by a rounding error that grows with their number. *)
Theorem C241_statistics : forall ro u eta K, rounding ro u eta -> counts_to ro K -> forall score c rnd fuel nS nA s0 n k V N k' states, shape3 nS nA nS (s_sas c) -> 0 < length (s_start c) -> py_index nS (nth 0 (s_start c) 0%Z) = Ok s0 ->
  @search_loop R (NumF ro) score c rnd fuel 0 n (zeros1 nS) (zeros1 nS) k [] = Ok (V, N, k', states) ->
  length states = n /\ (forall l, In l states -> walk (s_sas c) s0 l) /\ exists rewards, length rewards = n /\
    (forall s, s < nS -> (visit_count states s <= K -> nth s N 0%R = visits states s) /\
       (Rabs (nth s V 0 - value_total rewards states s) <= total_error u eta (visit_count states s) (value_total (map Rabs rewards) states s))%R) /\
    (forall j, j < n -> exists V1 N1 k1 k2 o, @mcts_iteration R (NumF ro) score c V1 N1 k1 (rnd j) fuel = Ok (nth j rewards 0%R, nth j states [], k2, o)).
Proof.
  intros ro u eta K RD C score c rnd fuel nS nA s0 n k V N k' states SH Hn P0 H.
  destruct (search_stats_r ro u eta RD score c rnd fuel nS nA s0 SH Hn P0 n 0 (zeros1 nS) (zeros1 nS) k [] [] V N k' states) as (A1 & A2 & more & rm & A3 & A4 & A5 & A8 & A9 & A6 & A7); auto.
  - unfold zeros1. apply repeat_length.
  - unfold zeros1. apply repeat_length.
  - intros r [].
  - intros l [].
  - intros s Hs. unfold zeros1. rewrite !nth_repeat. split; reflexivity.
  - cbn [app] in *. subst more. split; [exact A4|]. split; [exact A9|]. exists rm. split; [exact A5|]. split; [|exact A7].
    intros s Hs. destruct (A6 s Hs) as [E1 E2]. split; [intros L; rewrite E1, count_visits; now apply ones_exact with K|].
    rewrite E2, <- !gathered_sum, <- gathered_abs. rewrite <- (gathered_length rm states s) by congruence. apply (fold_error ro u eta RD).
    intros x Hx. unfold gathered in Hx. apply in_flat_map in Hx. destruct Hx as ([r l] & Hp & Hx). apply repeat_spec in Hx. subst x. apply A8. now apply in_combine_l in Hp.
Qed.

(** The value reported for an action against the total reward of the visits to the state it leads to, divided by one more than their number. *)
Theorem C241_reported : forall ro u eta K, rounding ro u eta -> counts_to ro K -> forall pl score cfg e a n rnd fuel v q, reachable pl e -> In a (e_agents e) -> @mcts_fit R (NumF ro) score cfg e a (Some n) rnd fuel = Ok (v, q) ->
  exists c i states rewards, fit_search cfg e a n = Ok c /\ stands_on (e_mdp e) (at_pos a) i /\ length states = Z.to_nat (mc_n_iter cfg) /\ length rewards = length states /\
    (forall l, In l states -> walk (m_sas (e_mdp e)) i l) /\
    (forall j, j < length states -> exists V1 N1 k1 k2 o, @mcts_iteration R (NumF ro) score c V1 N1 k1 (rnd j) fuel = Ok (nth j rewards 0%R, nth j states [], k2, o)) /\
    forall act t, travels (e_mdp e) i [act] t -> visit_count states t < K -> 
      let sizes := value_total (map Rabs rewards) states t in
      exists x, nth act (nth i q []) NaN = Fin x /\
      (Rabs (x - value_total rewards states t / (1 + visits states t)) <= (u * sizes + (1 + u) * total_error u eta (visit_count states t) sizes) / (1 + visits states t) + eta)%R.
Proof.
  intros ro u eta K RD C pl score cfg e a n rnd fuel v q RE Ha H. destruct (C240_values ro pl e a score cfg (Some n) rnd fuel v q RE Ha H) as (i & SO & VO & V & N & k & states & RM & EV & HQ).
  destruct (reachable_wf _ _ RE) as (kk & shape & st & W). pose proof (wf_grid _ _ _ _ W) as G. pose proof (gi_ns _ _ _ _ G) as NS. destruct (grid_shape _ _ _ _ G) as (_ & _ & SH). pose proof SH as [SL _].
  unfold run_mcts in RM. apply bind_ok in RM. destruct RM as (c & FS & RM). change (fit_search cfg e a n = Ok c) in FS.
  assert (SAS : s_sas c = m_sas (e_mdp e) /\ s_start c = map i_pos (all_info (mc_interactive cfg) e a)). { unfold fit_search, make_search in FS. destruct (negb _); [discriminate|]. apply bind_ok in FS. destruct FS as (masks & _ & FS). now inversion FS. }
  destruct SAS as [SAS ST]. rewrite SL in RM.
  assert (K1 : shape3 (nst shape) (actions_of kk st) (nst shape) (s_sas c)) by (rewrite SAS; exact SH).
  assert (K2 : 0 < length (s_start c)) by (rewrite ST; cbn; lia).
  assert (K3 : py_index (nst shape) (nth 0 (s_start c) 0%Z) = Ok i) by (rewrite ST; cbn [all_info map nth agent_info i_pos]; unfold stands_on in SO; rewrite NS in SO; exact SO).
  destruct (C241_statistics ro u eta K RD C score c rnd fuel (nst shape) (actions_of kk st) i _ _ V N _ states K1 K2 K3 RM) as (LS & WK & rewards & LR & HS & HJ).
  exists c, i, states, rewards. split; [exact FS|]. split; [exact SO|]. split; [exact LS|]. split; [congruence|]. split; [rewrite <- SAS; exact WK|]. split; [rewrite LS; exact HJ|].
  intros act t TR L sizes. rewrite (HQ act t TR). eexists. split; [reflexivity|].
  assert (Lt : t < nst shape). { destruct (travels_inv _ _ _ _ G i act [] t) as (w & Hu & _ & _ & TU); [rewrite <- NS; eapply py_index_ok; exact SO|exact TR|]. inversion TU. now subst. }
  destruct (HS t Lt) as [HN HV]. rewrite HN by lia. rewrite count_visits. set (m := visit_count states t) in *. replace (1 + INR m)%R with (INR (S m)) by (rewrite S_INR; ring). rewrite (C (S m)) by lia. fold sizes in HV.
  set (T := value_total rewards states t) in *. set (X := nth t V 0%R) in *. set (E := total_error u eta m sizes) in *. pose proof (lt_0_INR (S m) ltac:(lia)) as P. set (d := INR (S m)) in *.
  assert (TS : (Rabs T <= sizes)%R).
  { unfold T, sizes. rewrite <- !gathered_sum, <- gathered_abs. clear. induction (gathered rewards states t) as [|y l IH]; [unfold Rsum; cbn; rewrite Rabs_R0; lra|]. cbn [map]. rewrite !Rsum_cons. eapply Rle_trans; [apply Rabs_triang|]. lra. }
  clearbody T X E sizes d. clear - RD HV P TS. pose proof (rd_err _ _ _ RD (X / d)) as A. pose proof (u0 ro u eta RD) as U. assert (I : (0 < / d)%R) by now apply Rinv_0_lt_compat.
  assert (B : (Rabs (X / d - T / d) <= E / d)%R). { replace (X / d - T / d)%R with ((X - T) * / d)%R by (field; lra). rewrite Rabs_mult, (Rabs_pos_eq (/ d)) by lra. apply Rmult_le_compat_r; [lra|exact HV]. }
  assert (D : (Rabs (X / d) <= (sizes + E) / d)%R). { unfold Rdiv. rewrite Rabs_mult, (Rabs_pos_eq (/ d)) by lra. apply Rmult_le_compat_r; [lra|]. replace X with ((X - T) + T)%R by ring. eapply Rle_trans; [apply Rabs_triang|]. lra. }
  replace (ro (X / d) - T / d)%R with ((ro (X / d) - X / d) + (X / d - T / d))%R by ring. eapply Rle_trans; [apply Rabs_triang|].
  assert (F : (u * Rabs (X / d) <= u * ((sizes + E) / d))%R) by (now apply Rmult_le_compat_l). replace ((u * sizes + (1 + u) * E) / d)%R with (u * ((sizes + E) / d) + E / d)%R by (field; lra). lra.
Qed.

(** ** Double precision *)
Theorem C241_whole_numbers : forall K, (Z.of_nat K < 2 ^ 53)%Z -> counts_to float64 K.
Proof.
  intros K HK k L. unfold float64. apply round_generic; [typeclasses eauto|]. apply generic_format_FLT. apply FLT_spec with (Float radix2 (Z.of_nat k) 0).
  - unfold F2R. cbn [Fnum Fexp bpow]. rewrite Rmult_1_r. apply INR_IZR_INZ.
  - cbn [Fnum]. change (Zpower radix2 53) with (2 ^ 53)%Z. lia.
  - cbn [Fexp]. lia.
Qed.
(** Up to a million visits the values reported are correct to nine digits, measured by the mean size of the rewards. *)
Theorem C241_float64 : forall pl score cfg e a n rnd fuel v q, reachable pl e -> In a (e_agents e) -> @mcts_fit R (NumF float64) score cfg e a (Some n) rnd fuel = Ok (v, q) ->
  exists c i states rewards, fit_search cfg e a n = Ok c /\ stands_on (e_mdp e) (at_pos a) i /\ length states = Z.to_nat (mc_n_iter cfg) /\ length rewards = length states /\
    (forall l, In l states -> walk (m_sas (e_mdp e)) i l) /\
    (forall j, j < length states -> exists V1 N1 k1 k2 o, @mcts_iteration R (NumF float64) score c V1 N1 k1 (rnd j) fuel = Ok (nth j rewards 0%R, nth j states [], k2, o)) /\
    forall act t, travels (e_mdp e) i [act] t -> (visits states t <= 10 ^ 6)%R -> 
      exists x, nth act (nth i q []) NaN = Fin x /\
      (Rabs (x - value_total rewards states t / (1 + visits states t)) <= / 10 ^ 9 * (value_total (map Rabs rewards) states t / (1 + visits states t)) + / 10 ^ 20)%R.
Proof.
  intros pl score cfg e a n rnd fuel v q RE Ha H. 
  assert (KK : Z.of_nat (Z.to_nat (2 ^ 53 - 1)) = (2 ^ 53 - 1)%Z) by (apply Z2Nat.id; discriminate). remember (Z.to_nat (2 ^ 53 - 1)) as K eqn:EK. clear EK. assert (HK : (Z.of_nat K < 2 ^ 53)%Z) by (rewrite KK; reflexivity).
  destruct (C241_reported float64 u64 eta64 K C206_float64 (C241_whole_numbers K HK) pl score cfg e a n rnd fuel v q RE Ha H) as (c & i & states & rewards & FS & SO & LS & LR & WK & HJ & HQ).
  exists c, i, states, rewards. split; [exact FS|]. split; [exact SO|]. split; [exact LS|]. split; [exact LR|]. split; [exact WK|]. split; [exact HJ|].
  intros act t TR LV. rewrite count_visits in *. set (m := visit_count states t) in *. destruct (HQ act t TR) as (x & Ex & B).
  { fold m. assert (Z.of_nat m <= 10 ^ 6)%Z by (apply le_IZR; rewrite <- INR_IZR_INZ; change (10 ^ 6)%Z with 1000000%Z; lra). apply Nat2Z.inj_lt. rewrite KK. eapply Z.le_lt_trans; [eassumption|reflexivity]. }
  rewrite count_visits in B. fold m in B.
  exists x. split; [exact Ex|]. eapply Rle_trans; [exact B|]. clear B.
  assert (S0 : (0 <= value_total (map Rabs rewards) states t)%R).
  { rewrite <- gathered_sum, <- gathered_abs. apply Rsum_nonneg. intros y Hy. apply in_map_iff in Hy. destruct Hy as (z & <- & _). apply Rabs_pos. }
  set (A := value_total (map Rabs rewards) states t) in *. clearbody A m. clear - S0 LV. pose proof u64_small as U. pose proof eta64_small as E. pose proof (pos_INR m) as M.
  assert (P1 : ((1 + u64) ^ S m <= 1 + 2 * (INR (S m) * u64))%R) by (apply pow_bound; [lra|rewrite S_INR; nra]). assert (P2 : ((1 + u64) ^ m <= 1 + 2 * (INR m * u64))%R) by (apply pow_bound; [lra|nra]). rewrite S_INR in P1.
  assert (X : ((INR m + 1) * u64 <= 13 / 10 ^ 11)%R) by nra. assert (Y : (2 * INR m * eta64 * (1 + u64) ^ m <= 4 * 10 ^ 6 * / 10 ^ 30)%R).
  { assert ((1 + u64) ^ m <= 2)%R by nra. assert (0 <= (1 + u64) ^ m)%R by (apply pow_le; lra). assert (INR m * eta64 <= 10 ^ 6 * / 10 ^ 30)%R by (apply Rmult_le_compat; lra). assert (0 <= INR m * eta64)%R by (apply Rmult_le_pos; lra). replace (2 * INR m * eta64 * (1 + u64) ^ m)%R with (2 * ((INR m * eta64) * (1 + u64) ^ m))%R by ring.
    assert (INR m * eta64 * (1 + u64) ^ m <= (10 ^ 6 * / 10 ^ 30) * 2)%R by (apply Rmult_le_compat; lra). lra. }
  assert (T : (total_error u64 eta64 m A <= 26 / 10 ^ 11 * A + 4 * 10 ^ 6 * / 10 ^ 30)%R). { unfold total_error. assert (((1 + u64) ^ S m - 1) * A <= 26 / 10 ^ 11 * A)%R by (apply Rmult_le_compat_r; lra). lra. }
  set (te := total_error u64 eta64 m A) in *. clearbody te. assert (I : (0 < / (1 + INR m) <= 1)%R). { split; [apply Rinv_0_lt_compat; lra|]. apply Rle_trans with (/ 1)%R; [apply Rinv_le_contravar; lra|rewrite Rinv_1; lra]. }
  unfold Rdiv. set (d := (/ (1 + INR m))%R) in *. clearbody d.
  assert (Z : (u64 * A + (1 + u64) * te <= / 10 ^ 9 * A + 8 * 10 ^ 6 * / 10 ^ 30)%R).
  { assert (u64 * A <= / 10 ^ 12 * A)%R by (apply Rmult_le_compat_r; lra). assert ((1 + u64) * te <= (1 + u64) * (26 / 10 ^ 11 * A + 4 * 10 ^ 6 * / 10 ^ 30))%R by (apply Rmult_le_compat_l; lra).
    assert ((1 + u64) * (26 / 10 ^ 11 * A + 4 * 10 ^ 6 * / 10 ^ 30) <= (1 + / 10 ^ 12) * (26 / 10 ^ 11 * A + 4 * 10 ^ 6 * / 10 ^ 30))%R by (apply Rmult_le_compat_r; lra). lra. }
  assert (W : ((u64 * A + (1 + u64) * te) * d <= (/ 10 ^ 9 * A + 8 * 10 ^ 6 * / 10 ^ 30) * d)%R) by (apply Rmult_le_compat_r; lra).
  assert (Q : (8 * 10 ^ 6 * / 10 ^ 30 * d <= 8 * 10 ^ 6 * / 10 ^ 30)%R) by (rewrite <- (Rmult_1_r (8 * 10 ^ 6 * / 10 ^ 30)) at 2; apply Rmult_le_compat_l; lra).
  lra.
Qed.
(** The two agents of [C71_example], in double precision, the second expected to choose by softmax: the fit succeeds. *)
Example C241_example : forall pl score, exists e a v q, reachable pl e /\ In a (e_agents e) /\ @mcts_fit R (NumF float64) score cfg64 e a (Some [[2]; [1]]%Z) (fun _ _ => 0) (passes 2 [[2]; [1]]%Z) = Ok (v, q).
Proof.
  intros pl score. destruct (C240_example pl) as (e & a & RE & [Ha _] & CR & SR & b & AL).
  destruct (C240_search float64 u64 eta64 C206_float64 pl e a score cfg64 _ RE Ha CR SR (passes 2 [[2]; [1]]%Z) (fun _ _ => 0)) as (v & q & E & _); [rewrite AL; apply le_n|]. exists e, a, v, q. auto.
Qed.
