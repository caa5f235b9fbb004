(** C206: value iteration with rounded numbers. *)
From Coq Require Import String List ZArith QArith Reals Bool Lia Lra Psatz.
From Verif Require Import PyBase PyProofs GridModel MDPModel MDPSpec MDPProofs2 ActionSpec ActionProofs SoftmaxProofs RSum EnvModel EnvSpec EnvProofs EnvProofs3 VISpec VIModel VIProofs VIProofs2 VIProps VIEnvProps RoundModel RoundSpec RoundProofs.
Import ListNotations.
Local Close Scope Q_scope. Local Open Scope R_scope.

(** Every grid, whatever its walls, and every environment in use has sure moves only. *)
Theorem C206_grids : forall pl m, usable pl m -> is_mdp (m_sas m) /\ sure (m_sas m).
Proof.
  assert (K : forall k shape st m, grid_inv k shape st m -> sure (m_sas m)).
  { intros k shape st m G mat row x Hm Hr Hx. destruct (grid_shape _ _ _ _ G) as (N & NA & L & S).
    apply (In_nth _ _ []) in Hm. destruct Hm as (s & Hs & <-). rewrite L in Hs. destruct (S s Hs) as [L1 S1].
    apply (In_nth _ _ []) in Hr. destruct Hr as (a & Ha & <-). rewrite L1 in Ha. specialize (S1 a Ha).
    apply (In_nth _ _ 0) in Hx. destruct Hx as (t & Ht & <-). rewrite S1 in Ht. destruct (inv_edge _ _ _ _ G s a t Hs Ha Ht) as [[E _]|[E _]]; [right|left]; exact E. }
  intros pl m U. split; [now apply (C29_grids pl)|]. inversion U as [k feats w0 shape st m0 cs E|e RE].
  - destruct (usable_clean _ _ U) as (k' & shape' & st' & C). eapply K. subst m. apply C.
  - destruct (reachable_wf _ _ RE) as (k & shape & st & W). eapply K. apply (wf_grid _ _ _ _ W).
Qed.

Section Rounded.
Variables (rnd : R -> R) (u eta : R).
Hypothesis RD : rounding rnd u eta.

Lemma reward_error0 : forall n w, 0 <= w -> 0 <= reward_error u eta n w.
Proof.
  intros n w W. unfold reward_error. assert (U := u0 _ _ _ RD). assert (H0 := e0 _ _ _ RD). assert (1 <= (1 + u) ^ S n) by (apply pow_R1_Rle; lra). assert (1 <= (1 + u) ^ n) by (apply pow_R1_Rle; lra).
  assert (0 <= ((1 + u) ^ S n - 1) * w) by (apply Rmult_le_pos; lra). assert (0 <= 2 * INR n * eta * (1 + u) ^ n) by (pose proof (pos_INR n); repeat apply Rmult_le_pos; lra). lra.
Qed.

Lemma rewards_F : forall n rf features t, length rf = length features -> (t < n)%nat ->
  Rabs (nth t (@state_rewards R (NumF rnd) n rf features) 0 - reward_of rf features t) <= reward_error u eta (length rf) (weight_of rf features t).
Proof.
  intros n rf features t L Ht. unfold state_rewards. rewrite (nth_map_lt _ _ _ _ _ _ 0%nat) by (now rewrite seq_length). rewrite seq_nth by exact Ht. cbn [plus].
  set (xs := map (fun '(w, row) => w * nth t row 0) (combine rf features)).
  assert (LX : length xs = length rf) by (unfold xs; rewrite map_length, combine_length; lia).
  assert (NX : forall i, (i < length rf)%nat -> nth i xs 0 = nth i rf 0 * nth t (nth i features []) 0).
  { intros i Hi. unfold xs. rewrite (nth_map_lt _ _ _ _ _ _ (0, [])) by (rewrite combine_length; lia). now rewrite combine_nth by exact L. }
  assert (E1 : reward_of rf features t = Rsum xs).
  { unfold reward_of. rewrite Rsum_nth, LX. apply sumf_ext. intros i Hi. apply in_seq in Hi. symmetry. apply NX. lia. }
  assert (E2 : weight_of rf features t = Rsum (map Rabs xs)).
  { unfold weight_of. rewrite Rsum_nth, map_length, LX. apply sumf_ext. intros i Hi. apply in_seq in Hi. rewrite (nth_map_lt _ _ _ _ _ _ 0) by lia. f_equal. symmetry. apply NX. lia. }
  assert (E3 : map (fun '(w, row) => @nmul R (NumF rnd) w (nth t row (@n0 R (NumF rnd)))) (combine rf features) = map rnd xs).
  { unfold xs. rewrite map_map. apply map_ext. now intros [w row]. }
  rewrite E3, E1, E2, <- LX. unfold nsum. cbn [nadd n0 NumF].
  pose proof (sum_error rnd u eta RD xs 0 0 0 0) as SE. rewrite Rminus_0_r, Rabs_R0 in SE. specialize (SE (Rle_refl _) (Rle_refl _) 0%nat). cbn [INR plus] in SE. rewrite !Rplus_0_l in SE. apply SE. cbn [pow]. lra.
Qed.

Lemma weight_bounds : forall rf features t, Rabs (reward_of rf features t) <= weight_of rf features t.
Proof. intros. unfold reward_of, weight_of. apply sumf_abs. Qed.

Lemma room_ok : forall n w g, 0 <= w -> 0 < g -> g * (1 + u) ^ 2 < 1 -> let rho := w + reward_error u eta n w in let B := largest_value u eta n w g in
  0 <= B /\ (rho + g * B * (1 + u) + eta) * (1 + u) + eta <= B.
Proof.
  intros n w g W G H rho B. assert (U := u0 _ _ _ RD). assert (H0 := e0 _ _ _ RD). pose proof (reward_error0 n w W). assert (0 <= rho) by (unfold rho; lra).
  split.
  - unfold B, largest_value. fold rho. apply Rmult_le_pos; [|left; apply Rinv_0_lt_compat; lra]. assert (0 <= rho * (1 + u)) by (apply Rmult_le_pos; lra). assert (0 <= eta * (2 + u)) by (apply Rmult_le_pos; lra). lra.
  - right. unfold B, largest_value. fold rho. field. lra.
Qed.

Lemma solve_F : forall sas rf features k g tol w, is_mdp sas -> sure sas -> 0 < g < 1 -> g * (1 + u) ^ 2 < 1 -> length rf = length features -> rnd tol = tol -> 0 <= w ->
  (forall t, (t < n_states sas)%nat -> weight_of rf features t <= w) ->
  let r := reward_of rf features in let err := backup_error u eta (length rf) w g in
  exists v q', @solve_value_iteration R (NumF rnd) (@hard_backup R (NumF rnd)) rf features (Z.of_nat (S k)) g sas tol = Ok (v, mask_q sas q') /\
    length v = n_states sas /\ length q' = n_states sas /\ Forall (fun row => length row = n_actions sas) q' /\
    forall Vs C, optimal sas r g Vs -> near (n_states sas) C (fun _ => 0) Vs -> 0 <= C ->
      (closeF sas g r ((g * tol + err) / (1 - g)) v q' Vs \/ closeF sas g r (g ^ S k * C + err / (1 - g)) v q' Vs) /\
      ((1 + u) * ((1 + g) * g ^ k * C + 2 * (err / (1 - g))) + eta < tol -> closeF sas g r ((g * tol + err) / (1 - g)) v q' Vs).
Proof.
  intros sas rf features k g tol w M SU G GU L RT W WB r err. assert (U := u0 _ _ _ RD). assert (H0 := e0 _ _ _ RD).
  set (eps := reward_error u eta (length rf) w). set (B := largest_value u eta (length rf) w g).
  destruct (room_ok (length rf) w g W ltac:(lra) GU) as [B0 RM]. fold eps B in B0, RM.
  pose proof (reward_error0 (length rf) w W) as E0. fold eps in E0.
  unfold solve_value_iteration. cbn [nltb n0 n1 NumF]. assert (X : Rltb g 1 = true) by (apply Rltb_true; lra). assert (Y : Rltb 0 g = true) by (apply Rltb_true; lra). rewrite X, Y, L, Nat.eqb_refl. cbn [andb negb].
  rewrite Nat2Z.id. set (reward := @state_rewards R (NumF rnd) (length sas) rf features). change (@zeros1 R (NumF rnd) (length sas)) with (repeat 0 (length sas)).
  assert (NR : forall t, (t < n_states sas)%nat -> Rabs (nth t reward 0 - r t) <= eps).
  { intros t Ht. eapply Rle_trans; [now apply rewards_F|]. unfold eps, reward_error. assert (1 <= (1 + u) ^ S (length rf)) by (apply pow_R1_Rle; lra). specialize (WB t Ht).
    apply Rplus_le_compat_r. apply Rmult_le_compat_l; lra. }
  assert (SR : forall t, (t < n_states sas)%nat -> Rabs (nth t reward 0) <= w + eps).
  { intros t Ht. replace (nth t reward 0) with ((nth t reward 0 - r t) + r t) by ring. eapply Rle_trans; [apply Rabs_triang|]. specialize (NR t Ht). specialize (WB t Ht). pose proof (weight_bounds rf features t). fold r in H. lra. }
  destruct (vi_loop_F rnd u eta RD sas g reward r (w + eps) eps B M SU G) with (tol := tol) (k := k) (V := repeat 0 (length sas)) (q0 := @None (list (list R))) as (v & q & E & K1 & K2 & K3 & _ & K5); auto.
  { unfold reward, state_rewards. now rewrite map_length, seq_length. }
  { apply repeat_length. }
  { intros t Ht. rewrite nth_repeat, Rabs_R0. exact B0. }
  rewrite E. cbn [bind]. rewrite (mask_F rnd u eta RD) by assumption. exists v, q. split; [reflexivity|]. split; [exact K1|]. split; [exact K2|]. split; [exact K3|].
  assert (ED : delta u eta eps B = err) by reflexivity. rewrite ED in K5.
  assert (EP : 0 <= err). { rewrite <- ED. exact (delta0 rnd u eta RD eps B B0 E0). }
  intros Vs C O NC C0. apply optimal_fixed in O; [|exact M].
  apply (K5 Vs C O C0). intros s Hs. unfold fn. rewrite nth_repeat. eapply Rle_trans; [now apply NC|]. assert (0 <= err / (1 - g)) by (apply Rmult_le_pos; [exact EP|left; apply Rinv_0_lt_compat; lra]). lra.
Qed.

(** The solver returns a value for every state and, for every state and action, minus infinity where the action is impossible, and
    a number where it is possible. What it returns is within (discount * tol + err) / (1 - discount) of the solution or, if the
    iteration limit was reached first, within discount^max_iter (times the distance of the starting values) + err / (1 - discount),
    where err is the error of one rounded backup. With enough iterations, and a tolerance that is not too fine for the rounding, the first holds. *)
Theorem C206_solver : forall sas rf features k g tol w Vs C, is_mdp sas -> sure sas -> 0 < g < 1 -> g * (1 + u) ^ 2 < 1 -> length rf = length features -> rnd tol = tol -> 0 <= w ->
  (forall t, (t < n_states sas)%nat -> weight_of rf features t <= w) ->
  optimal sas (reward_of rf features) g Vs -> near (n_states sas) C (fun _ => 0) Vs -> 0 <= C ->
  let err := backup_error u eta (length rf) w g in
  let within v q d := near (n_states sas) d (fun s => nth s v 0) Vs /\
    forall s a x, (s < n_states sas)%nat -> (a < n_actions sas)%nat -> nth a (nth s q []) NaN = Fin x -> Rabs (x - action_value sas (reward_of rf features) g Vs s a) <= d in
  exists v q, @solve_value_iteration R (NumF rnd) (@hard_backup R (NumF rnd)) rf features (Z.of_nat (S k)) g sas tol = Ok (v, q) /\
    length v = n_states sas /\ length q = n_states sas /\
    (forall s, (s < n_states sas)%nat -> length (nth s q []) = n_actions sas) /\
    (forall s a, (s < n_states sas)%nat -> (a < n_actions sas)%nat ->
       (possible sas s a -> exists x, nth a (nth s q []) NaN = Fin x) /\ (~ possible sas s a -> nth a (nth s q []) NaN = NInf)) /\
    (within v q ((g * tol + err) / (1 - g)) \/ within v q (g ^ S k * C + err / (1 - g))) /\
    ((1 + u) * ((1 + g) * g ^ k * C + 2 * (err / (1 - g))) + eta < tol -> within v q ((g * tol + err) / (1 - g))).
Proof.
  intros sas rf features k g tol w Vs C M SU G GU L RT W WB O NC C0 err within.
  destruct (solve_F sas rf features k g tol w M SU G GU L RT W WB) as (v & q & E & H1 & H2 & H3 & H4). specialize (H4 Vs C O NC C0). fold err in H4.
  exists v, (mask_q sas q). split; [exact E|]. split; [exact H1|].
  assert (CL : forall d, closeF sas g (reward_of rf features) d v q Vs -> within v (mask_q sas q) d).
  { intros d [N1 N2]. split; [exact N1|]. intros s a x Hs Ha EX. destruct (mask_q_nth sas q s a M H2 H3 Hs Ha) as (_ & _ & [[_ EQ]|[_ EQ]]); rewrite EQ in EX; [injection EX as <-; now apply N2|discriminate]. }
  split. { unfold mask_q. rewrite map_length, combine_length, H2. unfold n_states. lia. }
  split; [intros s Hs; exact (proj1 (proj2 (mask_q_nth sas q s 0 M H2 H3 Hs (proj1 M))))|].
  split.
  { intros s a Hs Ha. destruct (mask_q_nth sas q s a M H2 H3 Hs Ha) as (_ & _ & [[P EQ]|[P EQ]]); rewrite EQ; split; intros X; eauto; contradiction. }
  destruct H4 as [J1 J2]. split; [destruct J1; [left|right]; auto|auto].
Qed.

(** The sums behind [weight_of] bound the solution. *)
Theorem C206_solution_bounded : forall sas rf features g w Vs, is_mdp sas -> 0 <= g < 1 -> optimal sas (reward_of rf features) g Vs ->
  (forall t, (t < n_states sas)%nat -> weight_of rf features t <= w) -> near (n_states sas) (w / (1 - g)) (fun _ => 0) Vs.
Proof. intros. eapply C29_solution_bounded; eauto. intros t Ht. eapply Rle_trans; [apply weight_bounds|auto]. Qed.
End Rounded.
