(** C245: tree search with the numbers of IEEE 754 double precision never overflows, counts visits exactly and reports accurate values. *)
From Coq Require Import String List ZArith Reals Bool Lia Lra Psatz.
From Flocq Require Import Core BinarySingleNaN.
From Verif Require Import PyBase PyProofs GridModel MDPModel MDPSpec MDPProofs2 ActionModel ActionProofs RSum ActionSpec EnvModel EnvSpec EnvProofs SoftmaxProofs VISpec VIModel VIProps RoundModel RoundSpec RoundProofs RoundProps RoundExample RoundWalk IEEEModel SimRound SimMDP SimEnv IEEE IEEEEnv MCTSModel MCTSSpec MCTSProofs MCTSProofs2 MCTSProps MCTSWalk MCTSRoundStats.
Import ListNotations.
Local Open Scope R_scope.

#[local] Existing Instance NumB.
(** * What is claimed *)
(** The inputs of a search are finite numbers of size at most 2^100, and there are at most 2^50 features, pairs of agents one of which consumes the other, and moves in the schedule. *)
Record sized (c : search b64) : Prop := {
  sz_features : Forall (Forall (fits (2 ^ 100))) (s_features c);
  sz_rewards : Forall (Forall (fits (2 ^ 100))) (s_rewards c);
  sz_values : Forall (fits (2 ^ 100)) (s_values c);
  sz_cost : fits (2 ^ 100) (s_cost c);
  sz_number : (Z.of_nat (length (s_features c)) <= 2 ^ 50)%Z;
  sz_pairs : (Z.of_nat (length (true_pairs (s_consumes_agents c))) <= 2 ^ 50)%Z;
  sz_steps : (n_steps c <= 2 ^ 50)%Z }.
(** The same for fitting an agent in an environment. *)
Record sized_fit (cfg : mcts_config b64) (e : env b64) (a : attached b64) (n : list (list Z)) : Prop := {
  sf_features : Forall (Forall (fits (2 ^ 100))) (m_features (e_mdp e));
  sf_rewards : forall b, b = a \/ In b (e_agents e) -> Forall (fits (2 ^ 100)) (at_reward b);
  sf_cost : fits (2 ^ 100) (mc_cost cfg);
  sf_number : (Z.of_nat (length (m_features (e_mdp e))) <= 2 ^ 50)%Z;
  sf_agents : (Z.of_nat (length (e_agents e)) < 2 ^ 25)%Z;
  sf_steps : (zsum (map zsum n) <= 2 ^ 50)%Z;
  sf_visits : (Z.max 0 (mc_n_iter cfg) * Z.max 0 (zsum (map zsum n)) + 1 < 2 ^ 53)%Z;
  sf_square : forall s row, In row (nth s (m_sas (e_mdp e)) []) -> length row = length (m_sas (e_mdp e)) }.
(** [x] is the mean of [total] over one more than [n], correct to nine digits of the mean size. *)
Definition mean_of (x total size : R) (n : nat) : Prop := Rabs (x - total / (1 + INR n)) <= / 10 ^ 9 * (size / (1 + INR n)) + / 10 ^ 20.

(** * Sums over visits, for any kind of numbers *)
Lemma combine_app_snoc : forall {X Y} (l : list X) (k : list Y) x y, length l = length k -> combine (l ++ [x]) (k ++ [y]) = combine l k ++ [(x, y)].
Proof. induction l as [|a l IH]; intros [|b k] x y L; try discriminate L; [reflexivity|]. cbn in *. rewrite IH by lia. reflexivity. Qed.
Section Any.
Context {A : Type} {NA : Num A}.
Definition collected (rewards : list A) (states : list (list nat)) (s : nat) : list A := flat_map (fun p => repeat (fst p) (occurrences s (snd p))) (combine rewards states).
Definition count_up (n : nat) (x : A) : A := Nat.iter n (fun y => nadd y n1) x.
Lemma count_up_in : forall n x, count_up n (nadd x n1) = count_up (S n) x.
Proof. unfold count_up. induction n as [|n IH]; intros x; [reflexivity|]. cbn [Nat.iter nat_rect] in *. unfold Nat.iter in *. cbn [nat_rect] in *. now rewrite IH. Qed.
Lemma count_up_add : forall m n x, count_up (m + n) x = count_up m (count_up n x).
Proof. intros m n x. induction m as [|m IH]; [reflexivity|]. change (count_up (S m + n) x) with (nadd (count_up (m + n) x) n1). now rewrite IH. Qed.
Lemma collected_snoc : forall rewards states r l s, length rewards = length states -> collected (rewards ++ [r]) (states ++ [l]) s = collected rewards states s ++ repeat r (occurrences s l).
Proof.
  induction rewards as [|x rewards IH]; intros [|y states] r l s L; try discriminate L; cbn in *; [apply app_nil_r|]. unfold collected in *. cbn [flat_map combine app fst snd]. rewrite IH by lia. now rewrite app_assoc.
Qed.
Lemma backprop_any : forall visited (V N : list A) reward,
  let '(V', N') := backprop (V, N) reward visited in
  length V' = length V /\ length N' = length N /\
  forall s, (s < length V)%nat -> (s < length N)%nat -> nth s N' n0 = count_up (occurrences s visited) (nth s N n0) /\ nth s V' n0 = fold_left nadd (repeat reward (occurrences s visited)) (nth s V n0).
Proof.
  induction visited as [|v l IH]; intros V N reward; cbn [backprop fold_left].
  - split; [reflexivity|]. split; [reflexivity|]. intros s _ _. split; reflexivity.
  - specialize (IH (upd V v (nadd (nth v V n0) reward)) (upd N v (nadd (nth v N n0) n1)) reward). unfold backprop in IH. rewrite !upd_length in IH.
    destruct (fold_left _ l _) as [V' N']. destruct IH as (A1 & A2 & A3). split; [exact A1|]. split; [exact A2|].
    intros s LV LN. destruct (A3 s LV LN) as [B1 B2]. rewrite B1, B2. unfold occurrences. cbn [count_occ]. destruct (Nat.eq_dec v s) as [->|D].
    + rewrite !nth_upd_same by assumption. cbn [repeat fold_left]. split; [apply count_up_in|reflexivity].
    + rewrite !nth_upd_other by congruence. split; reflexivity.
Qed.
Lemma search_any : forall (P : A * list nat -> Prop) score c rnd fuel nS, (forall V N k i reward visited k' o, mcts_iteration score c V N k (rnd i) fuel = Ok (reward, visited, k', o) -> P (reward, visited)) ->
  forall todo i V N k states rewards V' N' k' states', length V = nS -> length N = nS -> length rewards = length states ->
  (forall s, (s < nS)%nat -> nth s N n0 = count_up (visit_count states s) n0 /\ nth s V n0 = fold_left nadd (collected rewards states s) n0) -> Forall P (combine rewards states) ->
  search_loop score c rnd fuel i todo V N k states = Ok (V', N', k', states') ->
  length V' = nS /\ length N' = nS /\ exists more rmore, states' = states ++ more /\ length more = todo /\ length rmore = todo /\ Forall P (combine (rewards ++ rmore) (states ++ more)) /\
    (forall s, (s < nS)%nat -> nth s N' n0 = count_up (visit_count (states ++ more) s) n0 /\ nth s V' n0 = fold_left nadd (collected (rewards ++ rmore) (states ++ more) s) n0) /\
    (forall j, (j < todo)%nat -> exists V1 N1 k1 k2 o, mcts_iteration score c V1 N1 k1 (rnd (i + j)%nat) fuel = Ok (nth j rmore n0, nth j more [], k2, o)).
Proof.
  intros P score c rnd fuel nS HP. induction todo as [|todo IH]; intros i V N k states rewards V' N' k' states' LV LN LR ST FP H; cbn [search_loop] in H.
  - assert (V' = V /\ N' = N /\ states' = states) as (-> & -> & ->) by (inversion H; auto). split; [exact LV|]. split; [exact LN|]. exists [], []. rewrite !app_nil_r. repeat (split; [now auto|]). intros j Hj. lia.
  - apply bind_ok in H. destruct H as ([[[reward visited] k1] o] & MI & H).
    pose proof (backprop_any visited V N reward) as BP. destruct (backprop (V, N) reward visited) as [V1 N1]. destruct BP as (B1 & B2 & B3).
    destruct (IH (S i) V1 N1 k1 (states ++ [visited]) (rewards ++ [reward]) V' N' k' states') as (C1 & C2 & more & rmore & C3 & C4 & C5 & C8 & C6 & C7).
    + lia.
    + lia.
    + rewrite !app_length. cbn. lia.
    + intros s Hs. destruct (B3 s ltac:(lia) ltac:(lia)) as [D1 D2]. destruct (ST s Hs) as [E1 E2]. rewrite D1, D2, E1, E2, count_snoc, collected_snoc by assumption. rewrite fold_left_app, <- count_up_add. split; [f_equal; lia|reflexivity].
    + rewrite combine_app_snoc by assumption. apply Forall_app. split; [exact FP|]. constructor; [|constructor]. eapply HP. exact MI.
    + exact H.
    + split; [exact C1|]. split; [exact C2|]. exists (visited :: more), (reward :: rmore). rewrite <- !app_assoc in *. cbn [app] in *. split; [exact C3|]. split; [cbn; lia|]. split; [cbn; lia|]. split; [exact C8|]. split.
      * intros s Hs. specialize (C6 s Hs). rewrite <- ?app_assoc in C6. exact C6.
      * intros [|j] Hj.
        -- exists V, N, k, k1, o. cbn [nth]. rewrite Nat.add_0_r. exact MI.
        -- destruct (C7 j ltac:(lia)) as (V2 & N2 & k2 & k3 & o2 & Q2). exists V2, N2, k2, k3, o2. rewrite Nat.add_succ_r. exact Q2.
Qed.
End Any.

(** * Sums that do not overflow *)
(** A finite number of size at most [j] times 2^[e]. *)
Definition within (j e : Z) (b : b64) : Prop := finite b /\ Rabs (val b) <= IZR j * bpow radix2 e.
Lemma format_within : forall j e, (0 <= j < 2 ^ 53)%Z -> (0 <= e)%Z -> generic_format radix2 (FLT_exp (-1074) 53) (IZR j * bpow radix2 e).
Proof. intros j e J E. apply generic_format_FLT. exists (Float radix2 j e); [reflexivity|cbn [Fnum]; change (Zpower radix2 53) with (2 ^ 53)%Z; rewrite Z.abs_eq; lia|cbn [Fexp]; lia]. Qed.
Lemma within_max : forall j e, (0 <= j < 2 ^ 53)%Z -> (0 <= e <= 900)%Z -> 0 <= IZR j * bpow radix2 e <= 2 ^ 1023.
Proof.
  intros j e J E. pose proof (bpow_ge_0 radix2 e) as P. split; [apply Rmult_le_pos; [apply IZR_le; lia|exact P]|]. apply Rle_trans with (bpow radix2 53 * bpow radix2 e).
  - apply Rmult_le_compat_r; [exact P|]. change (bpow radix2 53) with (IZR (2 ^ 53)). apply IZR_le. lia.
  - rewrite <- bpow_plus. replace (2 ^ 1023) with (bpow radix2 1023). + apply bpow_le. lia. + rewrite (pow_IZR 2 1023), <- (IZR_Zpower radix2 1023) by lia. reflexivity.
Qed.
Lemma round_within : forall x j e, (0 <= j < 2 ^ 53)%Z -> (0 <= e)%Z -> Rabs x <= IZR j * bpow radix2 e -> Rabs (float64 x) <= IZR j * bpow radix2 e.
Proof. intros x j e J E H. unfold float64. apply abs_round_le_generic; [typeclasses eauto|typeclasses eauto|now apply format_within|exact H]. Qed.
Lemma within_add : forall j k e b c, (0 <= j)%Z -> (0 <= k)%Z -> (j + k < 2 ^ 53)%Z -> (0 <= e <= 900)%Z -> within j e b -> within k e c -> within (j + k) e (nadd b c) /\ val (nadd b c) = float64 (val b + val c).
Proof.
  intros j k e b c J K JK E [FB HB] [FC HC]. assert (S : Rabs (val b + val c) <= IZR (j + k) * bpow radix2 e). { eapply Rle_trans; [apply Rabs_triang|]. rewrite plus_IZR. lra. }
  destruct (c_add _ _ _ _ ieee_computes b (val b) c (val c)) as [F V]; [now split|now split|eapply Rle_trans; [exact S|apply within_max; lia]|]. split; [|exact V]. split; [exact F|]. rewrite V. apply round_within; [lia|lia|exact S].
Qed.
Lemma within_mul : forall e f b c, (0 <= e)%Z -> (0 <= f)%Z -> (e + f <= 900)%Z -> within 1 e b -> within 1 f c -> within 1 (e + f) (nmul b c) /\ val (nmul b c) = float64 (val b * val c).
Proof.
  intros e f b c E F EF [FB HB] [FC HC]. assert (S : Rabs (val b * val c) <= 1 * bpow radix2 (e + f)). { rewrite Rabs_mult, bpow_plus, Rmult_1_l. rewrite Rmult_1_l in HB, HC. apply Rmult_le_compat; auto using Rabs_pos. }
  destruct (c_mul _ _ _ _ ieee_computes b (val b) c (val c)) as [G V]; [now split|now split|eapply Rle_trans; [exact S|apply (within_max 1); lia]|]. split; [|exact V]. split; [exact G|]. rewrite V. apply round_within; [lia|lia|exact S].
Qed.
Lemma within_weak : forall j k e b, (j <= k)%Z -> within j e b -> within k e b.
Proof. intros j k e b L [F H]. split; [exact F|]. eapply Rle_trans; [exact H|]. apply Rmult_le_compat_r; [apply bpow_ge_0|now apply IZR_le]. Qed.
Lemma within_up : forall j n e b, (0 <= n)%Z -> (j <= 2 ^ n)%Z -> within j e b -> within 1 (e + n) b.
Proof.
  intros j n e b N L [F H]. split; [exact F|]. eapply Rle_trans; [exact H|]. rewrite Rmult_1_l, Z.add_comm, bpow_plus. apply Rmult_le_compat_r; [apply bpow_ge_0|]. rewrite <- (IZR_Zpower radix2 n) by exact N. now apply IZR_le.
Qed.
Lemma within_zero : forall j e, (0 <= j)%Z -> within j e (@n0 b64 NumB).
Proof. intros j e J. split; [reflexivity|]. cbn. rewrite Rabs_R0. apply Rmult_le_pos; [now apply IZR_le|apply bpow_ge_0]. Qed.
Lemma fits_within : forall b, fits (2 ^ 100) b <-> within 1 100 b.
Proof. intros b. unfold fits, within. rewrite Rmult_1_l. replace (bpow radix2 100) with (2 ^ 100); [reflexivity|]. rewrite (pow_IZR 2 100), <- (IZR_Zpower radix2 100) by lia. reflexivity. Qed.
Lemma sum_within : forall xs acc j e, (0 <= j)%Z -> (j + Z.of_nat (length xs) < 2 ^ 53)%Z -> (0 <= e <= 900)%Z -> Forall (within 1 e) xs -> within j e acc ->
  within (j + Z.of_nat (length xs)) e (fold_left nadd xs acc) /\ val (fold_left nadd xs acc) = fold_left (plus_r float64) (map val xs) (val acc).
Proof.
  induction xs as [|x xs IH]; intros acc j e J L E H W; [cbn; rewrite Z.add_0_r; split; [exact W|reflexivity]|]. inversion H as [|x0 l0 Hx Hl]; subst. cbn [length] in L. cbn [fold_left map].
  destruct (within_add j 1 e acc x) as [W1 V1]; [lia|lia|lia|lia|exact W|exact Hx|]. destruct (IH (nadd acc x) (j + 1)%Z e) as [W2 V2]; [lia|lia|lia|exact Hl|exact W1|].
  split; [|rewrite V2, V1; reflexivity]. replace (j + Z.of_nat (length (x :: xs)))%Z with (j + 1 + Z.of_nat (length xs))%Z by (cbn [length]; lia). exact W2.
Qed.
Lemma count_exact : forall n, (Z.of_nat n < 2 ^ 53)%Z -> stands (count_up n (@n0 b64 NumB)) (INR n).
Proof.
  induction n as [|n IH]; intros L; [apply (c_zero _ _ _ _ ieee_computes)|]. change (count_up (S n) n0) with (nadd (count_up n (@n0 b64 NumB)) n1).
  assert (B : INR (S n) <= 2 ^ 1023). { rewrite INR_IZR_INZ. destruct (within_max (Z.of_nat (S n)) 0) as [_ B]; [lia|lia|]. change (bpow radix2 0) with 1 in B. rewrite Rmult_1_r in B. exact B. }
  pose proof (c_add _ _ _ _ ieee_computes _ _ _ _ (IH ltac:(lia)) (c_one _ _ _ _ ieee_computes)) as K. rewrite <- S_INR, Rabs_pos_eq in K by apply pos_INR. rewrite (C241_whole_numbers (S n) L (S n) (le_n _)) in K. now apply K.
Qed.

(** * One iteration *)
Lemma Forall_set : forall {X} (P : X -> Prop) l i x, Forall P l -> P x -> Forall P (upd l i x).
Proof. induction l as [|y l IH]; intros [|i] x H Hx; cbn; auto; inversion H; subst; constructor; auto. Qed.
Lemma Forall_entry : forall {X} (P : X -> Prop) l i d, Forall P l -> P d -> P (nth i l d).
Proof. intros X P l i d H D. destruct (nth_in_or_default i l d) as [I| ->]; [|exact D]. rewrite Forall_forall in H. now apply H. Qed.
Definition rows_within : list (list b64) -> Prop := Forall (Forall (within 1 100)).
Lemma state_reward_within : forall n rf features x, Forall (within 1 100) rf -> rows_within features -> (Z.of_nat (length features) <= 2 ^ 50)%Z -> within 1 250 (nth x (state_rewards n rf features) n0).
Proof.
  intros n rf features x HR HF L. apply Forall_entry; [|now apply within_zero]. unfold state_rewards. apply Forall_forall. intros y Hy. apply in_map_iff in Hy. destruct Hy as (s & <- & _). unfold nsum.
  set (xs := map _ (combine rf features)). assert (LX : (Z.of_nat (length xs) <= 2 ^ 50)%Z) by (unfold xs; rewrite map_length, combine_length; lia).
  destruct (sum_within xs n0 0 200) as [W _]; [lia|lia|lia| |now apply within_zero|].
  - apply Forall_forall. intros y Hy. apply in_map_iff in Hy. destruct Hy as ([w row] & <- & Hp). rewrite Forall_forall in HR. unfold rows_within in HF. rewrite Forall_forall in HF.
    destruct (within_mul 100 100 w (nth s row n0)) as [M _]; [lia|lia|lia|apply HR; now apply in_combine_l in Hp|apply Forall_entry; [apply HF; now apply in_combine_r in Hp|now apply within_zero]|exact M].
  - apply (within_up _ 50 200) in W; [exact W|lia|lia].
Qed.
Lemma overlap_within : forall pairs nodes cost values reward active j, within 1 100 cost -> Forall (within 1 100) values -> within j 100 reward -> (0 <= j)%Z -> (j + Z.of_nat (length pairs) < 2 ^ 53)%Z ->
  within (j + Z.of_nat (length pairs)) 100 (fst (fst (overlap_loop pairs nodes cost values reward active))).
Proof.
  induction pairs as [|[a1 a2] pairs IH]; intros nodes cost values reward active j HC HV HR J L; cbn [overlap_loop length] in *; [cbn; now rewrite Z.add_0_r|]. destruct (nth a1 nodes 0 =? nth a2 nodes 0)%Z.
  - destruct (a2 =? 0)%nat.
    + cbn [fst]. destruct (within_add j 1 100 reward cost) as [W _]; [lia|lia|lia|lia|exact HR|exact HC|]. eapply within_weak; [|exact W]. lia.
    + destruct (a1 =? 0)%nat.
      * destruct (within_add j 1 100 reward (nth a2 values n0)) as [W _]; [lia|lia|lia|lia|exact HR|apply Forall_entry; [exact HV|now apply within_zero]|]. eapply within_weak; [|apply (IH nodes cost values _ _ (j + 1)%Z HC HV W); lia]. lia.
      * eapply within_weak; [|apply (IH nodes cost values _ _ j HC HV HR); lia]. lia.
  - eapply within_weak; [|apply (IH nodes cost values _ _ j HC HV HR); lia]. lia.
Qed.
Section Iteration.
Variables (score : scorer b64) (c : search b64) (V N : list b64) (rnd : nat -> nat).
Hypothesis SZ : sized c.
Definition in_bounds (st : it_state b64) : Prop :=
  (0 <= it_total st <= Z.max 0 (n_steps c))%Z /\ rows_within (it_features st) /\ (length (it_features st) <= length (s_features c))%nat /\ within (2 * it_total st) 250 (it_reward st) /\ (Z.of_nat (length (it_visited st)) <= it_total st)%Z.
Definition ends_in_bounds (st : it_state b64) : Prop := within 1 302 (it_reward st) /\ (Z.of_nat (length (it_visited st)) <= Z.max 0 (n_steps c))%Z.
Lemma rows_of_fits : forall l, Forall (Forall (fits (2 ^ 100))) l -> rows_within l.
Proof using. intros l H. eapply Forall_impl; [|exact H]. intros r Hr. eapply Forall_impl; [|exact Hr]. intros b. apply fits_within. Qed.
Lemma added_within : forall st added active caught, overlap_of c st = (added, active, caught) -> within 1 250 added.
Proof using SZ.
  intros st added active caught H. unfold overlap_of in H. destruct (s_interactive c).
  - unfold check_agent_overlap in H. pose proof (sz_pairs _ SZ) as P. pose proof (overlap_within (true_pairs (s_consumes_agents c)) (it_nodes st) (s_cost c) (s_values c) n0 (it_active st) 0) as W.
    rewrite H in W. cbn [fst] in W. assert (W2 : within (0 + Z.of_nat (length (true_pairs (s_consumes_agents c)))) 100 added).
    { apply W; [apply fits_within, (sz_cost _ SZ)| |now apply within_zero|lia|lia]. eapply Forall_impl; [|exact (sz_values _ SZ)]. intros b. apply fits_within. }
    apply (within_up _ 150 100) in W2; [exact W2|lia|lia].
  - inversion H. now apply within_zero.
Qed.
Lemma mark_within : forall st ft, rows_within (it_features st) -> mark_actor c st = Ok ft -> rows_within ft /\ length ft = length (it_features st).
Proof using.
  intros st ft H M. unfold mark_actor in M. apply bind_ok in M. destruct M as (p & _ & M). inversion M. subst ft. clear M. split; [|apply upd_length]. apply Forall_set; [exact H|]. apply Forall_set.
  - apply Forall_forall. intros y Hy. apply in_map_iff in Hy. destruct Hy as (z & <- & _). now apply within_zero.
  - destruct (c_one _ _ _ _ ieee_computes) as [F1 V1]. split; [exact F1|]. cbn [n1 NumB] in V1. rewrite V1, Rabs_R1, Rmult_1_l. change 1 with (bpow radix2 0). apply bpow_le. lia.
Qed.
Lemma consume_within : forall ft mask p, rows_within ft -> rows_within (consume_at ft mask p) /\ (length (consume_at ft mask p) <= length ft)%nat.
Proof using.
  intros ft mask p H. unfold consume_at. split; [|rewrite map_length, combine_length; lia]. apply Forall_forall. intros y Hy. apply in_map_iff in Hy. destruct Hy as ([b row] & <- & Hp). apply in_combine_r in Hp. unfold rows_within in H. rewrite Forall_forall in H. destruct b; [|now apply H].
  apply Forall_set; [now apply H|now apply within_zero].
Qed.
Lemma body_bounds : forall st r, in_bounds st -> (it_total st < n_steps c)%Z -> it_body score c V N rnd st = Ok r -> match r with inl st' => in_bounds st' | inr st' => ends_in_bounds st' end.
Proof using SZ.
  intros st r (T & HF & LF & HR & LV) LT B. pose proof (sz_steps _ SZ) as NS. pose proof (sz_number _ SZ) as NF. apply it_body_inv in B. destruct B as (row & k & _ & _ & [(K & [(s1 & M & ->)|(s1 & M & ->)])|(K & ->)]).
  - apply it_move_ok in M. destruct M as (ft & ad & ac & acts & MA & OV & GA & ET & _ & _ & _ & _ & WH & FE).
    destruct (mark_within st ft HF MA) as [HF1 LF1]. apply added_within in OV. destruct (within_add (2 * it_total st) 1 250 (it_reward st) ad) as [W1 _]; [lia|lia|lia|lia|exact HR|exact OV|].
    assert (IB : in_bounds s1).
    { assert (FB : rows_within (it_features s1) /\ (length (it_features s1) <= length (s_features c))%nat).
      { destruct FE as [(_ & -> & _)|(_ & p & _ & _ & ->)]; [split; [exact HF1|lia]|]. destruct (consume_within ft (nth (it_actor st) (s_consumes c) []) p HF1) as [X Y]. split; [exact X|lia]. }
      destruct FB as [FB1 FB2]. assert (RV : within (2 * it_total s1) 250 (it_reward s1) /\ (Z.of_nat (length (it_visited s1)) <= it_total s1)%Z).
      { rewrite ET. destruct WH as [(Z0 & x & NX & ER & EV & EN & _)|[(Z0 & _ & _ & x & _ & _ & ER & EV & EN & _)|(Z0 & _ & _ & ER & EV & EN & _)]]; rewrite ER, EV.
        - split; [|rewrite app_length; cbn; lia]. destruct (within_add (2 * it_total st + 1) 1 250 (nadd (it_reward st) ad) (nth x (state_rewards (length (s_sas c)) (nth 0 (s_rewards c) []) ft) n0)) as [W2 _]; [lia|lia|lia|lia|exact W1| |].
          + apply state_reward_within; [|exact HF1|lia]. apply Forall_entry; [|constructor]. apply rows_of_fits, (sz_rewards _ SZ).
          + eapply within_weak; [|exact W2]. lia.
        - split; [eapply within_weak; [|exact W1]; lia|lia].
        - split; [eapply within_weak; [|exact W1]; lia|lia]. }
      destruct RV as [RV1 RV2]. split; [lia|]. auto. }
    destruct (it_next_fields c k s1) as (F1 & F2 & _ & F4 & F5 & _). unfold in_bounds in *. rewrite F1, F2, F4, F5. exact IB.
  - apply it_move_caught in M. destruct M as (ft & ad & ac & _ & OV & ->). apply added_within in OV. unfold ends_in_bounds. cbn [it_reward it_visited]. split; [|lia].
    destruct (within_add (2 * it_total st) 1 250 (it_reward st) ad) as [W1 _]; [lia|lia|lia|lia|exact HR|exact OV|]. apply (within_up _ 52 250) in W1; [exact W1|lia|lia].
  - destruct (it_next_fields c k st) as (F1 & F2 & _ & F4 & F5 & _). unfold in_bounds. rewrite F1, F2, F4, F5. auto.
Qed.
Lemma iteration_bounds : forall k fuel reward visited k' o, mcts_iteration score c V N k rnd fuel = Ok (reward, visited, k', o) -> within 1 302 reward /\ (Z.of_nat (length visited) <= Z.max 0 (n_steps c))%Z.
Proof using SZ.
  intros k fuel reward visited k' o H. unfold mcts_iteration in H. apply bind_ok in H. destruct H as ([st b] & E & H). assert (it_visited st = visited /\ it_reward st = reward) as [<- <-] by (now inversion H).
  revert E. apply (it_loop_inv score c V N rnd in_bounds (fun st _ => ends_in_bounds st)).
  - intros s s' B L X. exact (body_bounds s (inl s') B L X).
  - intros s s' B L X. exact (body_bounds s (inr s') B L X).
  - intros s (T & _ & _ & W & L) _. pose proof (sz_steps _ SZ). split; [|lia]. apply (within_up _ 52 250) in W; [exact W|lia|lia].
  - unfold in_bounds, it_start. cbn [it_total it_features it_reward it_visited length]. split; [lia|]. split; [apply rows_of_fits, (sz_features _ SZ)|]. split; [lia|]. split; [now apply within_zero|lia].
Qed.
End Iteration.

(** * The statistics *)
Lemma map_val_repeat : forall x n, map val (repeat x n) = repeat (val x) n.
Proof. intros x n. induction n as [|n IH]; [reflexivity|]. cbn. now rewrite IH. Qed.
Lemma collected_val : forall rewards states s, map val (collected rewards states s) = gathered (map val rewards) states s.
Proof.
  induction rewards as [|x rewards IH]; intros [|y states] s; [reflexivity|reflexivity|reflexivity|]. unfold collected, gathered in *. cbn [combine flat_map map fst snd]. rewrite map_app, map_val_repeat. f_equal. apply IH.
Qed.
Lemma collected_from : forall (rewards : list b64) states s x, In x (collected rewards states s) -> In x rewards.
Proof. intros rewards states s x H. unfold collected in H. apply in_flat_map in H. destruct H as ([r l] & Hp & H). apply repeat_spec in H. cbn in H. subst x. now apply in_combine_l in Hp. Qed.
Lemma visits_bound : forall (states : list (list nat)) B s, (forall l, In l states -> (Z.of_nat (length l) <= B)%Z) -> (0 <= B)%Z -> (Z.of_nat (visit_count states s) <= Z.of_nat (length states) * B)%Z.
Proof.
  unfold visit_count. induction states as [|l states IH]; intros B s H P; [cbn; lia|]. cbn [map list_sum fold_right length]. assert (occurrences s l <= length l)%nat by apply count_occ_bound. specialize (H l ltac:(now left)) as HL. specialize (IH B s ltac:(intros; apply H; now right) P). unfold list_sum in IH. lia.
Qed.

Lemma search_statistics : forall score c rnd fuel nS n k V N k' states, sized c -> (Z.of_nat n * Z.max 0 (n_steps c) < 2 ^ 53)%Z ->
  @search_loop b64 NumB score c rnd fuel 0 n (zeros1 nS) (zeros1 nS) k [] = Ok (V, N, k', states) ->
  length states = n /\ length V = nS /\ length N = nS /\ Forall finite V /\ Forall finite N /\ exists rewards, length rewards = n /\ Forall finite rewards /\
    (forall s, (s < nS)%nat -> val (nth s N n0) = INR (visit_count states s) /\
       Rabs (val (nth s V n0) - value_total (map val rewards) states s) <= total_error u64 eta64 (visit_count states s) (value_total (map Rabs (map val rewards)) states s)) /\
    (forall s, (Z.of_nat (visit_count states s) <= Z.of_nat n * Z.max 0 (n_steps c))%Z) /\ (forall s, (s < nS)%nat -> within 1 355 (nth s V n0)) /\
    (forall j, (j < n)%nat -> exists V1 N1 k1 k2 o, @mcts_iteration b64 NumB score c V1 N1 k1 (rnd j) fuel = Ok (nth j rewards n0, nth j states [], k2, o)).
Proof.
  intros score c rnd fuel nS n k V N k' states SZ LN H.
  destruct (search_any (fun p => within 1 302 (fst p) /\ (Z.of_nat (length (snd p)) <= Z.max 0 (n_steps c))%Z) score c rnd fuel nS) with (todo := n) (i := 0%nat) (V := @zeros1 b64 NumB nS) (N := @zeros1 b64 NumB nS) (k := k) (states := @nil (list nat)) (rewards := @nil b64) (V' := V) (N' := N) (k' := k') (states' := states)
    as (LV & LNN & more & rm & E & LM & LR & FP & ST & IT).
  - intros V1 N1 k1 i reward visited k2 o MI. exact (iteration_bounds score c V1 N1 (rnd i) SZ k1 fuel reward visited k2 o MI).
  - apply repeat_length.
  - apply repeat_length.
  - reflexivity.
  - intros s Hs. unfold zeros1. rewrite !nth_repeat. split; reflexivity.
  - constructor.
  - exact H.
  - cbn [app] in *. subst more. assert (RW : forall r, In r rm -> within 1 302 r).
    { intros r Hr. apply (In_nth _ _ n0) in Hr. destruct Hr as (j & Lj & <-). rewrite Forall_forall in FP. apply (FP (nth j rm n0, nth j states [])). rewrite <- combine_nth by congruence. apply nth_In. rewrite combine_length. lia. }
    assert (SW : forall l, In l states -> (Z.of_nat (length l) <= Z.max 0 (n_steps c))%Z).
    { intros l Hl. apply (In_nth _ _ []) in Hl. destruct Hl as (j & Lj & <-). rewrite Forall_forall in FP. apply (FP (nth j rm n0, nth j states [])). rewrite <- combine_nth by congruence. apply nth_In. rewrite combine_length. lia. }
    assert (VC : forall s, (Z.of_nat (visit_count states s) <= Z.of_nat n * Z.max 0 (n_steps c))%Z) by (intros s; rewrite <- LM; apply visits_bound; [exact SW|lia]).
    assert (CN : forall s, (s < nS)%nat -> stands (nth s N n0) (INR (visit_count states s))). { intros s Hs. destruct (ST s Hs) as [-> _]. apply count_exact. specialize (VC s). lia. }
    assert (CV : forall s, (s < nS)%nat -> within 1 355 (nth s V n0) /\ Rabs (val (nth s V n0) - value_total (map val rm) states s) <= total_error u64 eta64 (visit_count states s) (value_total (map Rabs (map val rm)) states s)).
    { intros s Hs. destruct (ST s Hs) as [_ ->]. assert (EL : length (collected rm states s) = visit_count states s). { rewrite <- (map_length val), collected_val. apply gathered_length. rewrite map_length. congruence. }
      specialize (VC s). destruct (sum_within (collected rm states s) n0 0 302) as [W EV]; [lia|lia|lia| |now apply within_zero|].
      - apply Forall_forall. intros x Hx. apply RW. eapply collected_from. exact Hx.
      - split; [apply (within_up _ 53 302) in W; [exact W|lia|lia]|]. rewrite EV. change (val n0) with 0. rewrite <- EL, <- (map_length val (collected rm states s)), <- !gathered_sum, <- gathered_abs, <- collected_val. apply (fold_error float64 u64 eta64 C206_float64).
        intros x Hx. apply in_map_iff in Hx. destruct Hx as (b & <- & Hb). apply tolerance_rounded. apply (RW b). eapply collected_from. exact Hb. }
    split; [exact LM|]. split; [exact LV|]. split; [exact LNN|]. split; [|split].
    + apply Forall_forall. intros x Hx. apply (In_nth _ _ n0) in Hx. destruct Hx as (s & Ls & <-). apply (CV s). lia.
    + apply Forall_forall. intros x Hx. apply (In_nth _ _ n0) in Hx. destruct Hx as (s & Ls & <-). apply (CN s). lia.
    + exists rm. split; [exact LR|]. split; [apply Forall_forall; intros r Hr; now apply RW|]. split; [intros s Hs; split; [apply (CN s Hs)|apply (CV s Hs)]|]. split; [exact VC|]. split; [intros s Hs; apply (CV s Hs)|exact IT].
Qed.
(** C245. Whatever is drawn and whatever the tree policy scores: all statistics are finite, visits are counted exactly, and accumulated values are the sums of the rewards of the iterations up to the rounding error of their addition. *)
Theorem C245_statistics : forall score c rnd fuel nS n k V N k' states, sized c -> (Z.of_nat n * Z.max 0 (n_steps c) < 2 ^ 53)%Z ->
  @search_loop b64 NumB score c rnd fuel 0 n (zeros1 nS) (zeros1 nS) k [] = Ok (V, N, k', states) ->
  length states = n /\ length V = nS /\ length N = nS /\ Forall finite V /\ Forall finite N /\ exists rewards, length rewards = n /\ Forall finite rewards /\
    (forall s, (s < nS)%nat -> val (nth s N n0) = INR (visit_count states s) /\
       Rabs (val (nth s V n0) - value_total (map val rewards) states s) <= total_error u64 eta64 (visit_count states s) (value_total (map Rabs (map val rewards)) states s)) /\
    (forall j, (j < n)%nat -> exists V1 N1 k1 k2 o, @mcts_iteration b64 NumB score c V1 N1 k1 (rnd j) fuel = Ok (nth j rewards n0, nth j states [], k2, o)).
Proof.
  intros score c rnd fuel nS n k V N k' states SZ L H. destruct (search_statistics score c rnd fuel nS n k V N k' states SZ L H) as (A1 & A2 & A3 & A4 & A5 & rm & A6 & A7 & A8 & _ & _ & A9).
  repeat (split; [assumption|]). exists rm. auto.
Qed.

(** * The values reported *)
Lemma mean_accurate : forall X T A m, Rabs (X - T) <= total_error u64 eta64 m A -> Rabs T <= A -> INR m <= 10 ^ 6 -> mean_of (float64 (X / (1 + INR m))) T A m.
Proof.
  intros X T A m HV TS LV. unfold mean_of. pose proof C206_float64 as RD. pose proof (pos_INR m) as M0. assert (A0 : 0 <= A) by (pose proof (Rabs_pos T); lra).
  assert (B : Rabs (float64 (X / (1 + INR m)) - T / (1 + INR m)) <= (u64 * A + (1 + u64) * total_error u64 eta64 m A) / (1 + INR m) + eta64).
  { set (E := total_error u64 eta64 m A) in *. clearbody E. set (d := 1 + INR m) in *. assert (P : 0 < d) by (unfold d; lra). clearbody d. clear LV M0. pose proof (rd_err _ _ _ RD (X / d)) as R1. pose proof u64_small as U. assert (I : 0 < / d) by now apply Rinv_0_lt_compat.
    assert (B : Rabs (X / d - T / d) <= E / d). { replace (X / d - T / d) with ((X - T) * / d) by (field; lra). rewrite Rabs_mult, (Rabs_pos_eq (/ d)) by lra. apply Rmult_le_compat_r; [lra|exact HV]. }
    assert (D : Rabs (X / d) <= (A + E) / d). { unfold Rdiv. rewrite Rabs_mult, (Rabs_pos_eq (/ d)) by lra. apply Rmult_le_compat_r; [lra|]. replace X with ((X - T) + T) by ring. eapply Rle_trans; [apply Rabs_triang|]. lra. }
    replace (float64 (X / d) - T / d) with ((float64 (X / d) - X / d) + (X / d - T / d)) by ring. eapply Rle_trans; [apply Rabs_triang|].
    assert (F : u64 * Rabs (X / d) <= u64 * ((A + E) / d)) by (apply Rmult_le_compat_l; lra). replace ((u64 * A + (1 + u64) * E) / d) with (u64 * ((A + E) / d) + E / d) by (field; lra). lra. }
  eapply Rle_trans; [exact B|]. clear B HV TS. pose proof u64_small as U. pose proof eta64_small as E.
  assert (P1 : (1 + u64) ^ S m <= 1 + 2 * (INR (S m) * u64)) by (apply pow_bound; [lra|rewrite S_INR; nra]). assert (P2 : (1 + u64) ^ m <= 1 + 2 * (INR m * u64)) by (apply pow_bound; [lra|nra]). rewrite S_INR in P1.
  assert (K : (INR m + 1) * u64 <= 13 / 10 ^ 11) by nra. assert (Y : 2 * INR m * eta64 * (1 + u64) ^ m <= 4 * 10 ^ 6 * / 10 ^ 30).
  { assert ((1 + u64) ^ m <= 2) by nra. assert (0 <= (1 + u64) ^ m) by (apply pow_le; lra). assert (INR m * eta64 <= 10 ^ 6 * / 10 ^ 30) by (apply Rmult_le_compat; lra). assert (0 <= INR m * eta64) by (apply Rmult_le_pos; lra). replace (2 * INR m * eta64 * (1 + u64) ^ m) with (2 * ((INR m * eta64) * (1 + u64) ^ m)) by ring.
    assert (INR m * eta64 * (1 + u64) ^ m <= (10 ^ 6 * / 10 ^ 30) * 2) by (apply Rmult_le_compat; lra). lra. }
  assert (TE : total_error u64 eta64 m A <= 26 / 10 ^ 11 * A + 4 * 10 ^ 6 * / 10 ^ 30). { unfold total_error. assert (((1 + u64) ^ S m - 1) * A <= 26 / 10 ^ 11 * A) by (apply Rmult_le_compat_r; lra). lra. }
  set (te := total_error u64 eta64 m A) in *. clearbody te. assert (I : 0 < / (1 + INR m) <= 1). { split; [apply Rinv_0_lt_compat; lra|]. apply Rle_trans with (/ 1); [apply Rinv_le_contravar; lra|rewrite Rinv_1; lra]. }
  unfold Rdiv. set (d := / (1 + INR m)) in *. clearbody d.
  assert (Z : u64 * A + (1 + u64) * te <= / 10 ^ 9 * A + 8 * 10 ^ 6 * / 10 ^ 30).
  { assert (u64 * A <= / 10 ^ 12 * A) by (apply Rmult_le_compat_r; lra). assert ((1 + u64) * te <= (1 + u64) * (26 / 10 ^ 11 * A + 4 * 10 ^ 6 * / 10 ^ 30)) by (apply Rmult_le_compat_l; lra).
    assert ((1 + u64) * (26 / 10 ^ 11 * A + 4 * 10 ^ 6 * / 10 ^ 30) <= (1 + / 10 ^ 12) * (26 / 10 ^ 11 * A + 4 * 10 ^ 6 * / 10 ^ 30)) by (apply Rmult_le_compat_r; lra). lra. }
  assert (W : (u64 * A + (1 + u64) * te) * d <= (/ 10 ^ 9 * A + 8 * 10 ^ 6 * / 10 ^ 30) * d) by (apply Rmult_le_compat_r; lra).
  assert (Q : 8 * 10 ^ 6 * / 10 ^ 30 * d <= 8 * 10 ^ 6 * / 10 ^ 30) by (rewrite <- (Rmult_1_r (8 * 10 ^ 6 * / 10 ^ 30)) at 2; apply Rmult_le_compat_l; lra).
  lra.
Qed.
Lemma total_size : forall rewards states s, Rabs (value_total rewards states s) <= value_total (map Rabs rewards) states s.
Proof.
  intros rewards states s. rewrite <- !gathered_sum, <- gathered_abs. induction (gathered rewards states s) as [|y l IH]; [unfold Rsum; cbn; rewrite Rabs_R0; lra|]. cbn [map]. rewrite !Rsum_cons. eapply Rle_trans; [apply Rabs_triang|]. lra.
Qed.

(** ** The inputs of the search *)
Lemma where_from_short : forall {X} (p : X -> bool) l i, (length (where_from p i l) <= length l)%nat.
Proof. intros X p. induction l as [|x l IH]; intros i; cbn; [lia|]. specialize (IH (S i)). destruct (p x); cbn; lia. Qed.
Lemma pairs_short : forall k (m : list (list bool)) is, (forall row, In row m -> (length row <= k)%nat) -> (length (concat (map (fun '(i, row) => map (fun j : nat => ((i : nat), j)) (where_ (fun b : bool => b) row)) (combine is m))) <= length m * k)%nat.
Proof.
  intros k. induction m as [|row m IH]; intros [|i is] H; cbn; [lia|lia|lia|]. rewrite app_length, map_length. specialize (IH is ltac:(intros; apply H; now right)). pose proof (H row ltac:(now left)). assert (length (where_ (fun b : bool => b) row) <= length row)%nat by apply where_from_short. lia.
Qed.
Lemma consumes_row_length : forall (l : list (info b64)) mask, length (consumes_row l mask) = length l.
Proof.
  intros l mask. unfold consumes_row. assert (G : forall fs row, length (fold_left (fun row f => match agent_of_feature l f with Some a => upd row a true | None => row end) fs row) = length row).
  { induction fs as [|f fs IH]; intros row; [reflexivity|]. cbn [fold_left]. rewrite IH. destruct (agent_of_feature l f); [apply upd_length|reflexivity]. }
  rewrite G. apply map_length.
Qed.
Lemma info_of : forall i e a x, In x (all_info i e a) -> exists b, (b = a \/ In b (e_agents e)) /\ i_reward x = @at_reward b64 b.
Proof.
  intros i e a x [<-|H]; [exists a; auto|]. destruct i; [|destruct H]. apply in_map_iff in H. destruct H as (b & <- & H). apply filter_In in H. exists b. split; [right; tauto|reflexivity].
Qed.
Lemma filter_short : forall {X} (p : X -> bool) l, (length (filter p l) <= length l)%nat.
Proof. intros X p l. induction l as [|x l IH]; cbn; [lia|]. destruct (p x); cbn; lia. Qed.
Definition fit_search64 (cfg : mcts_config b64) (e : env b64) (a : attached b64) (n : list (list Z)) : res (search b64) :=
  make_search (mc_interactive cfg) (m_features (e_mdp e)) (m_sas (e_mdp e)) (all_info (mc_interactive cfg) e a) n (mc_C cfg) (mc_cost cfg) (mc_policy cfg) (mc_caching cfg) (mc_max_iter cfg) (mc_discount cfg) (mc_tol cfg).
Lemma fit_sized : forall cfg e a n c, sized_fit cfg e a n -> fit_search64 cfg e a n = Ok c -> sized c /\ n_steps c = zsum (map zsum n).
Proof.
  intros cfg e a n c SF H. unfold fit_search64, make_search in H. destruct (negb _); [discriminate|]. apply bind_ok in H. destruct H as (masks & MM & H). assert (OI : forall x y : search b64, Ok x = Ok y -> y = x) by (intros ? ? X; now inversion X). apply OI in H. clear OI. subst c. split; [|reflexivity].
  set (l := all_info (mc_interactive cfg) e a) in *. assert (IR : forall x, In x l -> Forall (fits (2 ^ 100)) (i_reward x)). { intros x Hx. apply info_of in Hx. destruct Hx as (b & Hb & ->). now apply (sf_rewards _ _ _ _ SF). }
  assert (F0 : fits (2 ^ 100) (@n0 b64 NumB)) by (apply fits_within; now apply within_zero).
  assert (LL : (length l <= S (length (e_agents e)))%nat). { unfold l, all_info. cbn [length]. destruct (mc_interactive cfg); cbn [length]; [|lia]. rewrite map_length. apply le_n_S, filter_short. }
  split; cbn [s_features s_rewards s_values s_cost s_consumes_agents n_steps s_n_moves].
  - apply (sf_features _ _ _ _ SF).
  - apply Forall_forall. intros r Hr. apply in_map_iff in Hr. destruct Hr as (x & <- & Hx). now apply IR.
  - apply Forall_forall. intros r Hr. apply in_map_iff in Hr. destruct Hr as (j & <- & _). unfold agent_value. destruct (j =? 0)%nat; [exact F0|]. apply Forall_entry; [|exact F0]. apply IR. unfold l, all_info. now left.
  - apply (sf_cost _ _ _ _ SF).
  - apply (sf_number _ _ _ _ SF).
  - unfold true_pairs. eapply Z.le_trans; [apply Nat2Z.inj_le, (pairs_short (length l))|].
    + intros row Hr. apply in_map_iff in Hr. destruct Hr as (m & <- & _). now rewrite consumes_row_length.
    + rewrite map_length. apply mapM_nth in MM. destruct MM as [-> _]. rewrite Nat2Z.inj_mul. pose proof (sf_agents _ _ _ _ SF). change (2 ^ 50)%Z with (2 ^ 25 * 2 ^ 25)%Z. apply Z.mul_le_mono_nonneg; lia.
  - apply (sf_steps _ _ _ _ SF).
Qed.
(** [act] can lead from [i] to [t]. *)
Definition possible64 (sas : list (list (list b64))) (i act t : nat) : Prop := neqb (get3 n0 sas i act t) n0 = false.
Lemma actions_any : forall {A} `{Num A} (sas : list (list (list A))) node l, get_actions_states sas node = Ok l ->
  exists s, py_index (length sas) node = Ok s /\ forall a t, In (a, t) l <-> (a < length (nth s sas []))%nat /\ (t < length (nth a (nth s sas []) []))%nat /\ neqb (get3 n0 sas s a t) n0 = false.
Proof.
  intros A NA sas node l H. unfold get_actions_states in H. apply bind_ok in H. destruct H as (s & P & H). exists s. split; [exact P|]. inversion H. subst l. clear H.
  intros a t. rewrite in_concat. unfold get3. set (mat := nth s sas []). split.
  - intros (row & Hr & Ht). apply in_map_iff in Hr. destruct Hr as ([a' r] & <- & Hr). apply in_map_iff in Ht. destruct Ht as (t' & E & Ht). inversion E. subst a' t'. clear E.
    apply (in_where _ _ _ _ n0) in Ht. destruct Ht as [L E]. apply (In_nth _ _ (0%nat, [])) in Hr. destruct Hr as (i & Li & Ei). rewrite combine_length, seq_length, Nat.min_id in Li. rewrite combine_nth in Ei by apply seq_length.
    inversion Ei as [[E1 E2]]. rewrite seq_nth in E1 by exact Li. cbn in E1. subst i. rewrite seq_nth by exact Li. cbn [Nat.add]. rewrite E2. split; [exact Li|]. split; [exact L|]. now apply negb_true_iff.
  - intros (La & Lt & E). exists (map (fun t => (a, t)) (where_ (fun x => negb (neqb x n0)) (nth a mat []))). split.
    + apply in_map_iff. exists (a, nth a mat []). split; [reflexivity|]. replace (a, nth a mat []) with (nth a (combine (seq 0 (length mat)) mat) (0%nat, [])). * apply nth_In. rewrite combine_length, seq_length. lia. * rewrite combine_nth by apply seq_length. now rewrite seq_nth.
    + apply in_map_iff. exists t. split; [reflexivity|]. apply (in_where _ _ _ _ n0). split; [exact Lt|]. now rewrite E.
Qed.
Lemma row_filled : forall (vals : list (nat * b64 * nat)) (row : list (fval b64)) act, (act < length row)%nat ->
  length (fold_left (fun row '(a, x, _) => upd row a (Fin x)) vals row) = length row /\
  ((nth act (fold_left (fun row '(a, x, _) => upd row a (Fin x)) vals row) NaN = nth act row NaN /\ forall x t, ~ In (act, x, t) vals) \/
   exists x t, In (act, x, t) vals /\ nth act (fold_left (fun row '(a, x, _) => upd row a (Fin x)) vals row) NaN = Fin x).
Proof.
  induction vals as [|[[a x] t] vals IH]; intros row act L; [cbn; split; [reflexivity|]; left; auto|]. cbn [fold_left]. destruct (IH (upd row a (Fin x)) act) as [E D]; [now rewrite upd_length|]. rewrite upd_length in E. split; [exact E|].
  destruct D as [[D1 D2]|(y & t' & I & D)]; [|right; exists y, t'; split; [now right|exact D]]. destruct (Nat.eq_dec act a) as [->|NE].
  - right. exists x, t. split; [now left|]. rewrite D1. now apply nth_upd_same.
  - left. rewrite D1, nth_upd_other by exact NE. split; [reflexivity|]. intros y t' [X|X]; [inversion X; congruence|]. now apply (D2 y t').
Qed.

(** C245. Fitting an agent: every value and every action value is a finite number, or NaN for action values that are not known; the value of an action that is possible where the agent stands is the mean reward of the iterations through the state it leads to
    (over one more than their number), to nine digits for up to a million visits. *)
Theorem C245_fit : forall score cfg e a n rnd fuel v q, sized_fit cfg e a n -> m_n_states (e_mdp e) = length (m_sas (e_mdp e)) -> @mcts_fit b64 NumB score cfg e a (Some n) rnd fuel = Ok (v, q) ->
  (forall x, In x v -> exists b, x = Fin b /\ finite b) /\ (forall row x, In row q -> In x row -> x = NaN \/ exists b, x = Fin b /\ finite b) /\
  exists c i states rewards, fit_search64 cfg e a n = Ok c /\ py_index (length (m_sas (e_mdp e))) (at_pos a) = Ok i /\ length states = Z.to_nat (mc_n_iter cfg) /\ length rewards = length states /\ Forall finite rewards /\
    (forall j, (j < length states)%nat -> exists V1 N1 k1 k2 o, @mcts_iteration b64 NumB score c V1 N1 k1 (rnd j) fuel = Ok (nth j rewards n0, nth j states [], k2, o)) /\
    forall act t, (act < m_n_actions (e_mdp e))%nat -> possible64 (m_sas (e_mdp e)) i act t -> exists b t', possible64 (m_sas (e_mdp e)) i act t' /\ nth act (nth i q []) NaN = Fin b /\ finite b /\
      (INR (visit_count states t') <= 10 ^ 6 -> mean_of (val b) (value_total (map val rewards) states t') (value_total (map Rabs (map val rewards)) states t') (visit_count states t')).
Proof.
  intros score cfg e a n rnd fuel v q SF NS H. unfold mcts_fit in H. apply bind_ok in H. destruct H as ([[[V N] kk] states] & RM & H). apply bind_ok in H. destruct H as (vals & AV & H). apply bind_ok in H. destruct H as (q' & MQ & H).
  assert (E : v = map Fin V /\ q = q') by (now inversion H). clear H. destruct E as [-> ->]. unfold run_mcts in RM. apply bind_ok in RM. destruct RM as (c & FS & RM). change (fit_search64 cfg e a n = Ok c) in FS.
  destruct (fit_sized cfg e a n c SF FS) as [SZ ES]. pose proof (sf_visits _ _ _ _ SF) as VB. set (sas := m_sas (e_mdp e)) in *.
  assert (EI : Z.of_nat (Z.to_nat (mc_n_iter cfg)) = Z.max 0 (mc_n_iter cfg)) by lia. assert (NB : (Z.of_nat (Z.to_nat (mc_n_iter cfg)) * Z.max 0 (n_steps c) < 2 ^ 53)%Z) by (rewrite ES, EI; lia).
  destruct (search_statistics _ _ _ _ _ _ _ _ _ _ _ SZ NB RM) as (A1 & A2 & A3 & A4 & A5 & rm & A6 & A7 & A8 & A9 & A10 & A11).
  unfold mcts_action_values in AV. apply bind_ok in AV. destruct AV as (acts & GA & AV). apply actions_any in GA. destruct GA as (i & PI & GA). fold sas in PI, GA.
  assert (EV : vals = map (fun '(a, t) => (a, ndiv (nth t V n0) (nadd n1 (nth t N n0)), t)) acts) by (now inversion AV). clear AV.
  assert (QV : forall act x t, In (act, x, t) vals -> possible64 sas i act t /\ finite x /\ (INR (visit_count states t) <= 10 ^ 6 -> mean_of (val x) (value_total (map val rm) states t) (value_total (map Rabs (map val rm)) states t) (visit_count states t))).
  { intros act x t Hin. rewrite EV in Hin. apply in_map_iff in Hin. destruct Hin as ([a' t'] & E & Hin). inversion E. subst a' t'. clear E. apply GA in Hin. destruct Hin as (La & Lt & PP). split; [exact PP|].
    rewrite (sf_square _ _ _ _ SF i) in Lt by (apply nth_In; exact La). fold sas in Lt. destruct (A8 t Lt) as [EN HV]. specialize (A9 t). rewrite ES, EI in A9. set (m := visit_count states t) in *.
    assert (FN : finite (nth t N n0)). { rewrite Forall_forall in A5. apply A5, nth_In. lia. }
    pose proof (c_add _ _ _ _ ieee_computes _ _ _ _ (c_one _ _ _ _ ieee_computes) (conj FN EN : stands _ _)) as K. replace (1 + INR m) with (INR (S m)) in K by (rewrite S_INR; ring). rewrite Rabs_pos_eq in K by apply pos_INR. rewrite (C241_whole_numbers (S m) ltac:(lia) (S m) (le_n _)) in K.
    assert (BM : INR (S m) <= 2 ^ 1023). { rewrite INR_IZR_INZ. destruct (within_max (Z.of_nat (S m)) 0) as [_ B]; [lia|lia|]. change (bpow radix2 0) with 1 in B. rewrite Rmult_1_r in B. exact B. }
    specialize (K BM). destruct (A10 t Lt) as [FV BV]. assert (P1 : 1 <= INR (S m)) by (apply (le_INR 1); lia).
    destruct (quotient (nth t V n0) (val (nth t V n0)) _ (INR (S m)) (conj FV eq_refl : stands _ _) K) as [FQ EQ]; [lra| |].
    - unfold Rdiv. rewrite Rabs_mult. assert (0 < / INR (S m) <= 1). { split; [apply Rinv_0_lt_compat; lra|]. apply Rle_trans with (/ 1); [apply Rinv_le_contravar; lra|rewrite Rinv_1; lra]. } rewrite (Rabs_pos_eq (/ INR (S m))) by lra.
      destruct (within_max 1 355) as [_ B]; [lia|lia|]. pose proof (Rabs_pos (val (nth t V n0))). nra.
    - split; [exact FQ|]. intros LM. rewrite S_INR, Rplus_comm in EQ. pose proof (mean_accurate _ _ _ m HV (total_size _ _ _) LM) as MA. rewrite <- EQ in MA. exact MA. }
  unfold mcts_q in MQ. rewrite NS in MQ. fold sas in MQ. rewrite PI in MQ. cbn [bind] in MQ. assert (OI : forall x y : list (list (fval b64)), Ok x = Ok y -> y = x) by (intros ? ? X; now inversion X). apply OI in MQ. clear OI. subst q'.
  set (nA := m_n_actions (e_mdp e)) in *. set (row1 := fold_left (fun row '(a, x, _) => upd row a (Fin x)) vals (repeat NaN nA)). split; [|split].
  - intros x Hx. apply in_map_iff in Hx. destruct Hx as (b & <- & Hb). exists b. split; [reflexivity|]. rewrite Forall_forall in A4. now apply A4.
  - intros row x Hr Hx. assert (LR1 : length row1 = nA). { destruct nA as [|nA'] eqn:EA. - unfold row1. assert (G : forall vals' (row' : list (fval b64)), length (fold_left (fun row '(a, x, _) => upd row a (Fin x)) (vals' : list (nat * b64 * nat)) row') = length row'). { induction vals' as [|[[a1 x1] t1] vals' IH]; intros row'; [reflexivity|]. cbn [fold_left]. now rewrite IH, upd_length. } rewrite G. reflexivity. - destruct (row_filled vals (repeat NaN (S nA')) 0) as [E _]; [rewrite repeat_length; lia|]. unfold row1. rewrite E. apply repeat_length. }
    assert (CASES : row = row1 \/ row = repeat NaN nA). { apply (In_nth _ _ []) in Hr. destruct Hr as (j & Lj & <-). rewrite upd_length, repeat_length in Lj. destruct (Nat.eq_dec j i) as [->|D]; [left; apply nth_upd_same; rewrite repeat_length; exact Lj|]. right. rewrite nth_upd_other by exact D. rewrite (nth_indep _ [] (repeat NaN nA)) by (rewrite repeat_length; exact Lj). apply nth_repeat. }
    destruct CASES as [->| ->]; [|left; now apply repeat_spec in Hx]. apply (In_nth _ _ NaN) in Hx. destruct Hx as (act & La & <-). rewrite LR1 in La. destruct (row_filled vals (repeat NaN nA) act) as [_ D]; [now rewrite repeat_length|]. fold row1 in D.
    destruct D as [[-> _]|(y & t & I & ->)]; [left; apply nth_repeat|]. right. exists y. split; [reflexivity|]. now apply (QV act y t).
  - exists c, i, states, rm. split; [exact FS|]. split; [exact PI|]. split; [exact A1|]. split; [congruence|]. split; [exact A7|]. split; [rewrite A1; exact A11|].
    intros act t La PP. rewrite nth_upd_same by (rewrite repeat_length; now apply py_index_ok in PI). destruct (row_filled vals (repeat NaN nA) act) as [_ D]; [now rewrite repeat_length|]. fold row1 in D |- *.
    destruct D as [[_ NI]|(y & t' & I & ->)].
    + exfalso. assert (RG : (act < length (nth i sas []))%nat /\ (t < length (nth act (nth i sas []) []))%nat).
      { unfold possible64, get3 in PP. assert (La2 : (act < length (nth i sas []))%nat). { destruct (Nat.lt_ge_cases act (length (nth i sas []))) as [L|L]; [exact L|]. rewrite (nth_overflow (nth i sas []) _ L) in PP. destruct t; discriminate PP. }
        split; [exact La2|]. destruct (Nat.lt_ge_cases t (length (nth act (nth i sas []) []))) as [L|L]; [exact L|]. rewrite (nth_overflow (nth act (nth i sas []) []) _ L) in PP. discriminate PP. }
      apply (NI (ndiv (nth t V n0) (nadd n1 (nth t N n0))) t). rewrite EV. apply in_map_iff. exists (act, t). split; [reflexivity|]. apply GA. split; [apply RG|]. split; [apply RG|exact PP].
    + exists y, t'. destruct (QV act y t' I) as (Q1 & Q2 & Q3). auto.
Qed.
