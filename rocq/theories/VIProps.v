(** Properties C29-C32, C67: value iteration. *)
From Coq Require Import String List ZArith QArith Reals Bool Lia Lra.
From Verif Require Import PyBase PyProofs ActionModel ActionSpec ActionProofs SoftmaxModel SoftmaxProofs ActionProps RSum VIModel VISpec VIProofs VIProofs2 GridModel MDPModel MDPProps.
Import ListNotations.
Local Close Scope Q_scope.
Local Open Scope R_scope.

(** * C29: convergence to the unique solution of the Bellman equation *)

Lemma optimal_fixed : forall sas r g V, is_mdp sas ->
  (optimal sas r g V <-> fixed (n_states sas) (n_actions sas) (prob sas) r g lmax V).
Proof.
  intros sas r g V [P _].
  assert (K : forall s, (s < n_states sas)%nat -> forall x, greatest (n_actions sas) (action_value sas r g V s) x <-> x = lmax (map (action_value sas r g V s) (seq 0 (n_actions sas)))).
  { intros s Hs x. destruct (lmax_spec (map (action_value sas r g V s) (seq 0 (n_actions sas)))) as [I U].
    { intros E. apply (f_equal (@length R)) in E. rewrite map_length, seq_length in E. cbn in E. lia. }
    apply in_map_iff in I. destruct I as (a & Ea & Ha). apply in_seq in Ha. split.
    - intros [(b & Hb & Eb) G]. specialize (G a ltac:(lia)). specialize (U (action_value sas r g V s b) ltac:(apply in_map, in_seq; lia)). lra.
    - intros ->. split; [exists a; split; [lia|exact Ea]|]. intros b Hb. apply U. apply in_map, in_seq. lia. }
  split; intros H s Hs; specialize (H s Hs); [apply (K s Hs) in H|apply (K s Hs)]; exact H.
Qed.
Lemma bk_hard : forall sas, is_mdp sas -> forall l : list R, length l = n_actions sas -> hard_backup l = Ok (lmax l).
Proof. intros sas [P _] [|x l] L; [cbn in L; lia|reflexivity]. Qed.
Lemma bk_soft : forall l, soft_backup l = Ok (log_sum_exp soft_eps l).
Proof. intros l. unfold soft_backup, log_sum_exp. now rewrite nsum_Rsum. Qed.
Lemma soft_eps_pos : 0 < soft_eps.
Proof. apply Rinv_0_lt_compat, pow_lt. lra. Qed.

(** There is exactly one solution. *)
Theorem C29_unique_solution : forall sas r g, is_mdp sas -> 0 <= g < 1 ->
  exists V, optimal sas r g V /\ forall U, optimal sas r g U -> forall s, (s < n_states sas)%nat -> U s = V s.
Proof.
  intros sas r g M G. pose proof M as [P _].
  pose proof (fun l l' c => lmax_ne (n_actions sas) l l' c P) as NE.
  exists (limit (n_states sas) (n_actions sas) (prob sas) r g lmax NE (p_nn sas M) (p_sum sas M) G).
  split; [apply optimal_fixed; [exact M|apply fixed_limit]|]. intros U OU. apply optimal_fixed in OU; [|exact M].
  eapply (fixed_unique _ _ (prob sas) r g lmax NE (p_nn sas M) (p_sum sas M) G); [exact OU|apply fixed_limit].
Qed.

(** Each sweep brings any value estimate closer to it by the discount. *)
Theorem C29_sweep_contracts : forall sas r g Vs V c, is_mdp sas -> 0 < g < 1 -> length r = n_states sas -> length V = n_states sas ->
  optimal sas (fun t => nth t r 0) g Vs -> 0 <= c -> near (n_states sas) c (fun t => nth t V 0) Vs ->
  exists W d q, state_value_iterator hard_backup V 0 r g sas = Ok (W, d, q) /\ near (n_states sas) (g * c) (fun t => nth t W 0) Vs.
Proof.
  intros sas r g Vs V c M G Lr LV O C N. apply optimal_fixed in O; [|exact M].
  destruct (sweep_spec sas g r hard_backup lmax M G Lr (bk_hard sas M) (fun l l' c => lmax_ne (n_actions sas) l l' c (proj1 M)) V LV) as (W & d & q & E & _ & _ & _ & _ & _ & _ & H).
  exists W, d, q. split; [exact E|]. now apply (H Vs c C O N).
Qed.

Lemma fixed_ext : forall n nA p r r' g bk V, (forall t, (t < n)%nat -> r t = r' t) -> fixed n nA p r g bk V -> fixed n nA p r' g bk V.
Proof.
  intros n nA p r r' g bk V E F s Hs. rewrite (F s Hs). unfold T. f_equal. apply map_ext. intros a. unfold qv. apply sumf_ext. intros t Ht. apply in_seq in Ht. now rewrite E by lia.
Qed.
Lemma action_value_ext : forall sas r r' g V s a, (forall t, (t < n_states sas)%nat -> r t = r' t) -> action_value sas r g V s a = action_value sas r' g V s a.
Proof. intros sas r r' g V s a E. unfold action_value. apply sumf_ext. intros t Ht. apply in_seq in Ht. now rewrite E by lia. Qed.

(** The solver, for any backup that does not expand distances. *)
Lemma solve_spec : forall backup bk sas rf features k g tol, is_mdp sas -> 0 < g < 1 -> length rf = length features ->
  (forall l, length l = n_actions sas -> backup l = Ok (bk l)) ->
  (forall l l' c, length l = n_actions sas -> length l' = n_actions sas ->
     (forall i, (i < n_actions sas)%nat -> Rabs (nth i l 0 - nth i l' 0) <= c) -> Rabs (bk l - bk l') <= c) ->
  exists v q, solve_value_iteration backup rf features (Z.of_nat (S k)) g sas tol = Ok (v, mask_q sas q) /\
    length v = n_states sas /\ length q = n_states sas /\ Forall (fun row => length row = n_actions sas) q /\
    (forall s, (s < n_states sas)%nat -> nth s v 0 = bk (nth s q [])) /\
    forall Vs, fixed (n_states sas) (n_actions sas) (prob sas) (reward_of rf features) g bk Vs ->
    let close c := near (n_states sas) c (fun t => nth t v 0) Vs /\
      forall s a, (s < n_states sas)%nat -> (a < n_actions sas)%nat ->
        Rabs (nth a (nth s q []) 0 - action_value sas (reward_of rf features) g Vs s a) <= c in
    forall B, 0 <= B -> near (n_states sas) B (fun _ => 0) Vs ->
      (close (g * tol / (1 - g)) \/ close (g ^ S k * B)) /\
      ((1 + g) * g ^ k * B < tol -> close (g * tol / (1 - g))).
Proof.
  intros backup bk sas rf features k g tol M G L BO BN.
  set (rw := state_rewards (length sas) rf features).
  assert (Lr : length rw = n_states sas) by (unfold rw, state_rewards; now rewrite map_length, seq_length).
  destruct (vi_loop_spec sas g rw backup bk M G Lr BO BN tol k (zeros1 (length sas)) None) as (v & q & E & H1 & H2 & H3 & H4 & H5); [apply repeat_length|].
  exists v, q. split.
  { unfold solve_value_iteration. cbn [nltb n0 n1 NumR]. assert (X : Rltb g 1 = true) by (apply Rltb_true; lra). assert (Y : Rltb 0 g = true) by (apply Rltb_true; lra).
    rewrite X, Y, L, Nat.eqb_refl. cbn [andb negb]. fold rw. rewrite Nat2Z.id, E. reflexivity. }
  do 4 (split; [assumption|]).
  assert (ER : forall t, (t < n_states sas)%nat -> fn rw t = reward_of rf features t) by (intros t Ht; unfold fn, rw; now apply state_rewards_nth).
  intros Vs F. cbv zeta. intros B B0 N.
  assert (F' : FX sas g rw bk Vs) by (eapply fixed_ext; [|exact F]; intros t Ht; symmetry; now apply ER).
  assert (N' : near (n_states sas) B (fn (zeros1 (length sas))) Vs).
  { intros s Hs. specialize (N s Hs). unfold fn, zeros1. rewrite nth_repeat_lt by exact Hs. exact N. }
  destruct (H5 Vs B F' B0 N') as [J1 J2].
  assert (CL : forall c, close sas g rw c v q Vs -> near (n_states sas) c (fun t => nth t v 0) Vs /\
      forall s a, (s < n_states sas)%nat -> (a < n_actions sas)%nat -> Rabs (nth a (nth s q []) 0 - action_value sas (reward_of rf features) g Vs s a) <= c).
  { intros c [C1 C2]. split; [exact C1|]. intros s a Hs Ha. rewrite <- (action_value_ext sas (fn rw)) by exact ER. now apply C2. }
  split; [destruct J1 as [J|J]; [left|right]; now apply CL|]. intros X. apply CL. now apply J2.
Qed.

(** The solver returns; what it returns is within discount*tol/(1-discount) of the solution, or, if
    the iteration limit was reached first, within discount^max_iter of it (times the distance of the
    starting values, which are zero). With enough iterations the first holds. *)
Theorem C29_solver : forall sas rf features k g tol Vs B, is_mdp sas -> 0 < g < 1 -> length rf = length features -> 
  optimal sas (reward_of rf features) g Vs -> near (n_states sas) B (fun _ => 0) Vs -> 0 <= B ->
  exists v q, solve_value_iteration hard_backup rf features (Z.of_nat (S k)) g sas tol = Ok (v, q) /\ length v = n_states sas /\
    (near (n_states sas) (g * tol / (1 - g)) (fun s => nth s v 0) Vs \/ near (n_states sas) (g ^ S k * B) (fun s => nth s v 0) Vs) /\
    ((1 + g) * g ^ k * B < tol -> near (n_states sas) (g * tol / (1 - g)) (fun s => nth s v 0) Vs).
Proof.
  intros sas rf features k g tol Vs B M G L O N B0. apply optimal_fixed in O; [|exact M].
  destruct (solve_spec hard_backup lmax sas rf features k g tol M G L (bk_hard sas M) (fun l l' c => lmax_ne (n_actions sas) l l' c (proj1 M))) as (v & q & E & H1 & _ & _ & _ & H5).
  exists v, (mask_q sas q). split; [exact E|]. split; [exact H1|]. destruct (H5 Vs O B B0 N) as [J1 J2]. split; [tauto|]. intros X. now apply J2.
Qed.

(** The solution is bounded by the greatest reward, so a bound [B] is available. *)
Theorem C29_solution_bounded : forall sas r g Vs rho, is_mdp sas -> 0 <= g < 1 -> optimal sas r g Vs ->
  (forall t, (t < n_states sas)%nat -> Rabs (r t) <= rho) -> near (n_states sas) (rho / (1 - g)) (fun _ => 0) Vs.
Proof.
  intros sas r g Vs rho M G O Hr. destruct (Nat.eq_dec (n_states sas) 0) as [Z|NZ]; [intros s Hs; lia|].
  assert (R0 : 0 <= rho) by (eapply Rle_trans; [apply Rabs_pos|apply (Hr 0%nat); lia]).
  assert (G1 : 0 < 1 - g) by lra. assert (Q0 : 0 <= rho / (1 - g)) by (apply Rmult_le_pos; [exact R0|left; now apply Rinv_0_lt_compat]).
  destruct (bounded (n_states sas) (fun _ => 0) Vs) as (c & C0 & N).
  assert (K : forall k, near (n_states sas) (rho / (1 - g) + g ^ k * c) (fun _ => 0) Vs).
  { induction k as [|k IH]; [cbn [pow]; eapply near_weaken; [|exact N]; lra|]. intros s Hs. destruct (O s Hs) as [(a & Ha & <-) _].
    replace (0 - action_value sas r g Vs s a) with (- action_value sas r g Vs s a) by ring. rewrite Rabs_Ropp. unfold action_value. eapply Rle_trans; [apply sumf_abs|].
    apply Rle_trans with (sumf (fun t => (rho / (1 - g) + g ^ S k * c) * prob sas s a t) (seq 0 (n_states sas))).
    - apply sumf_le. intros t Ht. apply in_seq in Ht. pose proof (p_nn sas M s a t Hs Ha ltac:(lia)) as PN. rewrite Rabs_mult, (Rabs_pos_eq _ PN), Rmult_comm. apply Rmult_le_compat_r; [exact PN|].
      eapply Rle_trans; [apply Rabs_triang|]. rewrite Rabs_mult, (Rabs_pos_eq g) by lra. specialize (IH t ltac:(lia)). rewrite Rabs_minus_sym, Rminus_0_r in IH. specialize (Hr t ltac:(lia)).
      assert (g * Rabs (Vs t) <= g * (rho / (1 - g) + g ^ k * c)) by (apply Rmult_le_compat_l; lra).
      replace (rho / (1 - g) + g ^ S k * c) with (rho + g * (rho / (1 - g) + g ^ k * c)) by (cbn [pow]; field; lra). lra.
    - rewrite sumf_scal. pose proof (p_sum sas M s a Hs Ha). assert (0 <= rho / (1 - g) + g ^ S k * c) by (assert (0 <= g ^ S k * c) by (apply Rmult_le_pos; [apply pow_le|]; lra); lra).
      rewrite <- (Rmult_1_r (rho / (1 - g) + g ^ S k * c)) at 2. apply Rmult_le_compat_l; assumption. }
  intros s Hs. apply Rnot_lt_le. intros X. destruct (pow_small g ltac:(lra) c (Rabs (0 - Vs s) - rho / (1 - g))) as (k & Hk); [lra|]. specialize (K k s Hs). lra.
Qed.

(** A discount outside (0, 1) is rejected, whatever else is given; so is an iteration limit below one. *)
Theorem C29_rejects : forall backup sas rf features k g tol, 
  (~ (0 < g < 1) -> solve_value_iteration backup rf features k g sas tol = Err AssertionError) /\
  (0 < g < 1 -> length rf = length features -> (k <= 0)%Z -> solve_value_iteration backup rf features k g sas tol = Err UnboundLocalError).
Proof.
  intros. unfold solve_value_iteration. cbn [nltb n0 n1 NumR]. split.
  - intros N. destruct (Rltb g 1) eqn:X; [|reflexivity]. destruct (Rltb 0 g) eqn:Y; [|reflexivity]. apply Rltb_true in X, Y. lra.
  - intros G L K. assert (X : Rltb g 1 = true) by (apply Rltb_true; lra). assert (Y : Rltb 0 g = true) by (apply Rltb_true; lra). rewrite X, Y, L, Nat.eqb_refl. cbn [andb negb].
    replace (Z.to_nat k) with 0%nat by lia. reflexivity.
Qed.

(** * C30: the Q values mask exactly the impossible actions *)

Lemma possible_dec : forall sas s a, {possible sas s a} + {~ possible sas s a}.
Proof.
  intros sas s a. destruct (existsb (fun t => Rltb 0 (prob sas s a t)) (seq 0 (n_states sas))) eqn:E.
  - left. apply existsb_exists in E. destruct E as (t & Ht & P). apply in_seq in Ht. apply Rltb_true in P. exists t. split; [lia|exact P].
  - right. intros (t & Ht & P). assert (X : true = false); [|discriminate]. rewrite <- E. symmetry. apply existsb_exists. exists t. split; [apply in_seq; lia|now apply Rltb_true].
Qed.
Lemma Rsum_pos_iff : forall row, (forall x, In x row -> 0 <= x) -> (Rsum row <> 0 <-> exists t, (t < length row)%nat /\ 0 < nth t row 0).
Proof.
  intros row NN. split.
  - intros N. destruct (existsb (fun t => Rltb 0 (nth t row 0)) (seq 0 (length row))) eqn:E.
    + apply existsb_exists in E. destruct E as (t & Ht & P). apply in_seq in Ht. apply Rltb_true in P. exists t. split; [lia|exact P].
    + exfalso. apply N. rewrite Rsum_nth. apply sumf_0. intros t Ht. apply in_seq in Ht.
      assert (P : ~ 0 < nth t row 0). { intros X. assert (Y : true = false); [|discriminate]. rewrite <- E. symmetry. apply existsb_exists. exists t. split; [apply in_seq; lia|now apply Rltb_true]. }
      specialize (NN (nth t row 0) ltac:(apply nth_In; lia)). lra.
  - intros (t & Ht & P). rewrite Rsum_nth.
    pose proof (sumf_member _ (fun i => nth i row 0) (seq 0 (length row)) t) as S. cbv beta in S. assert (nth t row 0 <= sumf (fun i => nth i row 0) (seq 0 (length row))); [|lra].
    apply S; [|apply in_seq; lia]. intros y Hy. apply in_seq in Hy. apply NN. apply nth_In. lia.
Qed.
Lemma mask_q_nth : forall sas q s a, is_mdp sas -> length q = n_states sas -> Forall (fun row => length row = n_actions sas) q ->
  (s < n_states sas)%nat -> (a < n_actions sas)%nat ->
  length (mask_q sas q) = n_states sas /\ length (nth s (mask_q sas q) []) = n_actions sas /\
  ((possible sas s a /\ nth a (nth s (mask_q sas q) []) NaN = Fin (nth a (nth s q []) 0)) \/
   (~ possible sas s a /\ nth a (nth s (mask_q sas q) []) NaN = NInf)).
Proof.
  intros sas q s a M Lq Fq Hs Ha. unfold mask_q. split; [rewrite map_length, combine_length, Lq; unfold n_states; lia|].
  rewrite (nth_map_lt _ _ _ _ _ _ ([], [])) by (rewrite combine_length, Lq; unfold n_states in *; lia). rewrite combine_nth by (symmetry; exact Lq).
  pose proof M as [_ H]. destruct (H (nth s sas [])) as [L1 H']; [apply nth_In; exact Hs|]. rewrite Forall_forall in Fq. pose proof (Fq (nth s q []) ltac:(apply nth_In; lia)) as L2.
  split; [rewrite map_length, combine_length; lia|].
  rewrite (nth_map_lt _ _ _ _ _ _ ([], 0)) by (rewrite combine_length; lia). rewrite combine_nth by lia.
  destruct (H' (nth a (nth s sas []) [])) as (L3 & NN & _); [apply nth_In; lia|]. rewrite nsum_Rsum. cbn [neqb n0 NumR].
  pose proof (Rsum_pos_iff _ NN) as PI. rewrite L3 in PI. change (Rsum (nth a (nth s sas []) []) <> 0 <-> possible sas s a) in PI.
  destruct (Reqb _ 0) eqn:E; [apply Reqb_true in E; right|apply Reqb_false in E; left]; (split; [tauto|reflexivity]).
Qed.

(** For both kinds of value iteration: minus infinity exactly where the action is impossible. *)
Theorem C30_mask : forall backup sas rf features k g tol v q, is_mdp sas -> backup = hard_backup \/ backup = soft_backup ->
  solve_value_iteration backup rf features k g sas tol = Ok (v, q) ->
  length v = n_states sas /\ length q = n_states sas /\ forall s, (s < n_states sas)%nat -> length (nth s q []) = n_actions sas /\
    forall a, (a < n_actions sas)%nat ->
      (nth a (nth s q []) NaN = NInf <-> ~ possible sas s a) /\ (possible sas s a -> exists x, nth a (nth s q []) NaN = Fin x).
Proof.
  intros backup sas rf features k g tol v q M BK E.
  assert (G : 0 < g < 1).
  { destruct (C29_rejects backup sas rf features k g tol) as [X _]. destruct (Rlt_dec 0 g), (Rlt_dec g 1); try (rewrite X in E by lra; discriminate). lra. }
  assert (L : length rf = length features).
  { unfold solve_value_iteration in E. destruct (negb (_ && _)); [discriminate|]. destruct (Nat.eqb_spec (length rf) (length features)); [assumption|discriminate]. }
  assert (K : (0 < k)%Z). { destruct (C29_rejects backup sas rf features k g tol) as [_ X]. destruct (Z_le_gt_dec k 0); [rewrite X in E by assumption; discriminate|lia]. }
  replace k with (Z.of_nat (S (Z.to_nat k - 1))) in E by lia.
  assert (S : exists v' q', solve_value_iteration backup rf features (Z.of_nat (S (Z.to_nat k - 1))) g sas tol = Ok (v', mask_q sas q') /\ length v' = n_states sas /\ length q' = n_states sas /\ Forall (fun row => length row = n_actions sas) q').
  { destruct BK as [-> | ->].
    - destruct (solve_spec hard_backup lmax sas rf features (Z.to_nat k - 1) g tol M G L (bk_hard sas M) (fun l l' c => lmax_ne (n_actions sas) l l' c (proj1 M))) as (v' & q' & E' & H1 & H2 & H3 & _). eauto 10.
    - destruct (solve_spec soft_backup (log_sum_exp soft_eps) sas rf features (Z.to_nat k - 1) g tol M G L (fun l _ => bk_soft l) (fun l l' c => lse_ne soft_eps (n_actions sas) l l' c soft_eps_pos (proj1 M))) as (v' & q' & E' & H1 & H2 & H3 & _). eauto 10. }
  destruct S as (v' & q' & E' & H1 & H2 & H3). rewrite E in E'. inversion E'. subst v' q. clear E'.
  split; [exact H1|]. split; [unfold mask_q; rewrite map_length, combine_length, H2; unfold n_states; lia|]. intros s Hs.
  split; [now apply (mask_q_nth sas q' s 0 M H2 H3 Hs (proj1 M))|]. intros a Ha.
  destruct (mask_q_nth sas q' s a M H2 H3 Hs Ha) as (_ & _ & [[P EQ]|[P EQ]]); rewrite EQ; (split; [split; intros X; try discriminate; tauto|]); intros X; [eauto|contradiction].
Qed.

(** A table of action values that masks exactly the impossible actions, as [mask_q] leaves it. *)
Definition q_masked (sas : list (list (list R))) (q : list (list (fval R))) : Prop :=
  length q = n_states sas /\ forall s, (s < n_states sas)%nat -> length (nth s q []) = n_actions sas /\
    forall a, (a < n_actions sas)%nat -> (nth a (nth s q []) NaN = NInf <-> ~ possible sas s a) /\ (possible sas s a -> exists x, nth a (nth s q []) NaN = Fin x).
Lemma masked_policies : forall sas q, is_mdp sas -> (0 < n_states sas)%nat -> q_masked sas q ->
  (forall draws, exists pi, get_pi (max_get_pi draws) q = Ok pi /\ length pi = n_states sas /\
     forall s, (s < n_states sas)%nat -> (exists a, (a < n_actions sas)%nat /\ possible sas s a) ->
       exists a, nth s pi 0%Z = Z.of_nat a /\ (a < n_actions sas)%nat /\ possible sas s a) /\
  (forall temp us, 0 < temp -> (forall s, 0 <= us s < 1) -> exists pi, get_pi (softmax_get_pi temp us) q = Ok pi /\ length pi = n_states sas /\
     forall s, (s < n_states sas)%nat -> (exists a, (a < n_actions sas)%nat /\ possible sas s a) ->
       exists a, nth s pi 0%Z = Z.of_nat a /\ (a < n_actions sas)%nat /\ possible sas s a).
Proof.
  intros sas q M NP (L & H). pose proof (proj1 M) as AP.
  assert (ROWS : forall row, In row q -> row <> [] /\ ~ In PInf row /\ ~ In NaN row).
  { intros row Hr. apply (In_nth _ _ []) in Hr. destruct Hr as (s & Hs & <-). destruct (H s ltac:(lia)) as [LR HA]. split; [intros X; rewrite X in LR; cbn in LR; lia|].
    assert (ENT : forall w, In w (nth s q []) -> w = NInf \/ exists x, w = Fin x).
    { intros w Hw. apply (In_nth _ _ NaN) in Hw. destruct Hw as (a & Ha & <-). destruct (HA a ltac:(lia)) as [H1 H2].
      destruct (nth a (nth s q []) NaN) eqn:EN; eauto; exfalso; (assert (P : possible sas s a) by (destruct (possible_dec sas s a) as [P|P]; [exact P|apply H1 in P; discriminate])); destruct (H2 P); discriminate. }
    split; intros X; apply ENT in X; destruct X as [X|(x & X)]; discriminate. }
  assert (KN : exists row, In row q /\ some_known row).
  { exists (nth 0 q []). assert (I : In (nth 0 q []) q) by (apply nth_In; lia). split; [exact I|]. destruct (ROWS _ I) as (X & _ & Y).
    destruct (nth 0 q []) as [|w row]; [congruence|]. exists w. split; [now left|]. intros ->. apply Y. now left. }
  assert (POS : forall s a x, (s < n_states sas)%nat -> (a < n_actions sas)%nat -> nth a (nth s q []) NaN = Fin x -> possible sas s a).
  { intros s a x Hs Ha EX. destruct (H s Hs) as [_ HA]. destruct (HA a Ha) as [H1 _]. destruct (possible_dec sas s a) as [P|P]; [exact P|]. apply H1 in P. congruence. }
  split.
  - intros draws. destruct (C25_sampled_is_best draws q) as (pi & E1 & L1 & B); [intros row Hr; now apply ROWS|exact KN|].
    exists pi. split; [exact E1|]. split; [lia|]. intros s Hs (a0 & Ha0 & P0). assert (I : In (nth s q []) q) by (apply nth_In; lia). destruct (ROWS _ I) as (R1 & R2 & R3). destruct (H s Hs) as [LR HA].
    destruct (B s ltac:(lia)) as (a & Ea & La & BA).
    { destruct (nth s q []) as [|w row]; [congruence|]. exists w. split; [now left|]. intros ->. apply R3. now left. }
    { intros [X _]. contradiction. }
    exists a. split; [exact Ea|]. split; [lia|]. destruct (HA a0 Ha0) as [_ X]. destruct (X P0) as (x & Ex). specialize (BA a0 ltac:(lia)). rewrite Ex in BA.
    destruct (nth a (nth s q []) NaN) eqn:EN; cbn in BA; try contradiction.
    + elim R2. rewrite <- EN. apply nth_In. lia.
    + eapply POS; [exact Hs|lia|exact EN].
  - intros temp us HT HU. destruct (C27_sampled_is_possible temp us q HT HU) as (pi & E1 & L1 & B); [intros row Hr; split; now apply ROWS|exact KN|].
    exists pi. split; [exact E1|]. split; [lia|]. intros s Hs (a0 & Ha0 & P0). destruct (H s Hs) as [LR HA]. destruct (HA a0 Ha0) as [_ X]. destruct (X P0) as (x0 & Ex0).
    destruct (B s ltac:(lia)) as (a & x & Ea & La & EX & _). { exists x0. rewrite <- Ex0. apply nth_In. lia. }
    exists a. split; [exact Ea|]. split; [lia|]. eapply POS; [exact Hs|lia|exact EX].
Qed.

(** So a greedy policy, and a softmax policy at any temperature, pick a possible action in every state
    that has one, whatever the random draws. *)
Theorem C30_policies : forall backup sas rf features k g tol v q, is_mdp sas -> backup = hard_backup \/ backup = soft_backup -> (0 < n_states sas)%nat ->
  solve_value_iteration backup rf features k g sas tol = Ok (v, q) ->
  (forall draws, exists pi, get_pi (max_get_pi draws) q = Ok pi /\ length pi = n_states sas /\
     forall s, (s < n_states sas)%nat -> (exists a, (a < n_actions sas)%nat /\ possible sas s a) ->
       exists a, nth s pi 0%Z = Z.of_nat a /\ (a < n_actions sas)%nat /\ possible sas s a) /\
  (forall temp us, 0 < temp -> (forall s, 0 <= us s < 1) -> exists pi, get_pi (softmax_get_pi temp us) q = Ok pi /\ length pi = n_states sas /\
     forall s, (s < n_states sas)%nat -> (exists a, (a < n_actions sas)%nat /\ possible sas s a) ->
       exists a, nth s pi 0%Z = Z.of_nat a /\ (a < n_actions sas)%nat /\ possible sas s a).
Proof.
  intros backup sas rf features k g tol v q M BK NP E. destruct (C30_mask _ _ _ _ _ _ _ _ _ M BK E) as (_ & MQ). exact (masked_policies sas q M NP MQ).
Qed.

(** * C31: the solution as an optimum over behaviours *)

Lemma possible_zero : forall sas s a t, is_mdp sas -> (s < n_states sas)%nat -> (a < n_actions sas)%nat -> ~ possible sas s a -> (t < n_states sas)%nat -> prob sas s a t = 0.
Proof.
  intros sas s a t M Hs Ha N Ht. pose proof (p_nn sas M s a t Hs Ha Ht). destruct (Rlt_dec 0 (prob sas s a t)) as [P|P]; [elim N; exists t; auto|lra].
Qed.
Lemma av_impossible : forall sas r g V s a, is_mdp sas -> (s < n_states sas)%nat -> (a < n_actions sas)%nat -> ~ possible sas s a -> action_value sas r g V s a = 0.
Proof. intros sas r g V s a M Hs Ha N. unfold action_value. apply sumf_0. intros t Ht. apply in_seq in Ht. rewrite (possible_zero sas s a t M Hs Ha N) by lia. ring. Qed.

(** Returns of behaviours that lose at most [e] per step against [Vs]. *)
Lemma return_bounds : forall sas r g Vs b C e, is_mdp sas -> 0 <= g < 1 -> acts sas b -> 0 <= C -> near (n_states sas) C (fun _ => 0) Vs -> 0 <= e ->
  (forall s h, (s < n_states sas)%nat -> action_value sas r g Vs s (b h s) <= Vs s) ->
  forall k h s, (s < n_states sas)%nat ->
    return_ sas r g k b h s <= Vs s + g ^ k * C /\
    ((forall s h, (s < n_states sas)%nat -> Vs s - e <= action_value sas r g Vs s (b h s)) -> Vs s - g ^ k * C - e * ((1 - g ^ k) / (1 - g)) <= return_ sas r g k b h s).
Proof.
  intros sas r g Vs b C e M G AC C0 N E0 UP. induction k as [|k IH]; intros h s Hs.
  - cbn [return_ pow]. specialize (N s Hs). destruct (Rabs_le2_inv _ _ _ N). split; [lra|]. intros _. replace ((1 - 1) / (1 - g)) with 0 by (field; lra). lra.
  - cbn [return_]. set (a := b h s). assert (Ha : (a < n_actions sas)%nat) by apply AC.
    assert (GK : 0 <= g ^ k) by (apply pow_le; lra). pose proof (p_sum sas M s a Hs Ha) as PS.
    assert (PN : forall t, In t (seq 0 (n_states sas)) -> 0 <= prob sas s a t) by (intros t Ht; apply in_seq in Ht; apply (p_nn sas M); assumption || lia).
    assert (PS0 : 0 <= sumf (prob sas s a) (seq 0 (n_states sas))) by now apply sumf_nonneg.
    split.
    + apply Rle_trans with (action_value sas r g Vs s a + (g * g ^ k * C) * sumf (prob sas s a) (seq 0 (n_states sas))).
      * unfold action_value. rewrite <- sumf_scal, <- sumf_add. apply sumf_le. intros t Ht. pose proof (PN t Ht). apply in_seq in Ht. destruct (IH (s :: h) t ltac:(lia)) as [H1 _].
        assert (g * return_ sas r g k b (s :: h) t <= g * (Vs t + g ^ k * C)) by (apply Rmult_le_compat_l; lra).
        replace (prob sas s a t * (r t + g * Vs t) + g * g ^ k * C * prob sas s a t) with (prob sas s a t * (r t + g * (Vs t + g ^ k * C))) by ring. apply Rmult_le_compat_l; lra.
      * specialize (UP s h Hs). fold a in UP. assert (0 <= g * g ^ k * C) by (repeat apply Rmult_le_pos; lra). cbn [pow].
        assert (g * g ^ k * C * sumf (prob sas s a) (seq 0 (n_states sas)) <= g * g ^ k * C * 1) by (apply Rmult_le_compat_l; lra). lra.
    + intros LO. set (dl := g ^ k * C + e * ((1 - g ^ k) / (1 - g))). pose proof (LO s h Hs) as LA. fold a in LA.
      assert (G1 : 0 < 1 - g) by lra. assert (GK1 : g ^ k <= 1) by (rewrite <- (pow1 k); apply pow_incr; lra).
      assert (D0 : 0 <= dl). { unfold dl. assert (0 <= g ^ k * C) by (apply Rmult_le_pos; lra). assert (0 <= e * ((1 - g ^ k) / (1 - g))) by (apply Rmult_le_pos; [lra|]; apply Rmult_le_pos; [lra|left; now apply Rinv_0_lt_compat]). lra. }
      apply Rle_trans with (action_value sas r g Vs s a - (g * dl) * sumf (prob sas s a) (seq 0 (n_states sas))).
      * assert (GD : 0 <= g * dl) by (apply Rmult_le_pos; lra).
        assert (g * dl * sumf (prob sas s a) (seq 0 (n_states sas)) <= g * dl * 1) by (apply Rmult_le_compat_l; lra).
        assert (EQ : g ^ S k * C + e * ((1 - g ^ S k) / (1 - g)) = e + g * dl) by (unfold dl; cbn [pow]; field; lra). lra.
      * unfold action_value. rewrite <- sumf_scal, <- sumf_sub. apply sumf_le. intros t Ht. pose proof (PN t Ht). apply in_seq in Ht. destruct (IH (s :: h) t ltac:(lia)) as [_ H1]. specialize (H1 LO).
        assert (g * (Vs t - dl) <= g * return_ sas r g k b (s :: h) t) by (apply Rmult_le_compat_l; unfold dl; lra).
        replace (prob sas s a t * (r t + g * Vs t) - g * dl * prob sas s a t) with (prob sas s a t * (r t + g * (Vs t - dl))) by ring. apply Rmult_le_compat_l; lra.
Qed.
Lemma total_le : forall sas r g Vs b, is_mdp sas -> 0 <= g < 1 -> optimal sas r g Vs -> acts sas b ->
  forall s y, (s < n_states sas)%nat -> total_return sas r g b s y -> y <= Vs s.
Proof.
  intros sas r g Vs b M G O AC s y Hs TR. destruct (bounded (n_states sas) (fun _ => 0) Vs) as (C & C0 & N).
  apply Rnot_lt_le. intros X. destruct (pow_small g G C ((y - Vs s) / 2)) as (K & HK); [lra|]. destruct (TR ((y - Vs s) / 2)) as (N1 & HN); [lra|].
  specialize (HN (K + N1)%nat ltac:(lia)). unfold R_dist in HN.
  destruct (return_bounds sas r g Vs b C 0 M G AC C0 N ltac:(lra)) with (k := (K + N1)%nat) (h := @nil nat) (s := s) as [H1 _]; [|exact Hs|].
  { intros s' h Hs'. destruct (O s' Hs') as [_ U]. apply U. apply AC. }
  assert (g ^ (K + N1) * C <= g ^ K * C). { apply Rmult_le_compat_r; [exact C0|]. rewrite pow_add. assert (0 <= g ^ K) by (apply pow_le; lra). assert (g ^ N1 <= 1) by (rewrite <- (pow1 N1); apply pow_incr; lra).
    rewrite <- (Rmult_1_r (g ^ K)) at 2. apply Rmult_le_compat_l; assumption. }
  apply Rabs_def2 in HN. lra.
Qed.
(** A behaviour that always takes an optimal action earns the optimal value. *)
Lemma total_greedy : forall sas r g Vs b, is_mdp sas -> 0 <= g < 1 -> optimal sas r g Vs -> acts sas b ->
  (forall s h, (s < n_states sas)%nat -> action_value sas r g Vs s (b h s) = Vs s) ->
  forall s, (s < n_states sas)%nat -> total_return sas r g b s (Vs s).
Proof.
  intros sas r g Vs b M G O AC EQ s Hs eps He. destruct (bounded (n_states sas) (fun _ => 0) Vs) as (C & C0 & N).
  destruct (pow_small g G C eps He) as (K & HK). exists K. intros k Hk. unfold R_dist.
  destruct (return_bounds sas r g Vs b C 0 M G AC C0 N ltac:(lra)) with (k := k) (h := @nil nat) (s := s) as [H1 H2]; [|exact Hs|].
  { intros s' h Hs'. rewrite EQ by exact Hs'. lra. }
  specialize (H2 ltac:(intros s' h Hs'; rewrite EQ by exact Hs'; lra)).
  assert (g ^ k * C <= g ^ K * C). { apply Rmult_le_compat_r; [exact C0|]. replace k with (K + (k - K))%nat by lia. rewrite pow_add. assert (0 <= g ^ K) by (apply pow_le; lra). assert (g ^ (k - K) <= 1) by (rewrite <- (pow1 (k - K)); apply pow_incr; lra).
    rewrite <- (Rmult_1_r (g ^ K)) at 2. apply Rmult_le_compat_l; assumption. }
  apply Rabs_def1; lra.
Qed.

(** Partial (all reward functions): the values the solver converges to are the best total returns
    when an impossible action may be taken to end the episode. (Missing for the property: it must not
    count impossible actions.) *)
Theorem C31_may_stop_partial : forall sas r g Vs, is_mdp sas -> 0 <= g < 1 -> optimal sas r g Vs ->
  forall s, (s < n_states sas)%nat -> best_return sas r g (acts sas) s (Vs s).
Proof.
  intros sas r g Vs M G O s Hs. split; [|intros b y AC TR; exact (total_le sas r g Vs b M G O AC s y Hs TR)].
  set (b := fun (_ : list nat) s => match find (fun a => Reqb (action_value sas r g Vs s a) (Vs s)) (seq 0 (n_actions sas)) with Some a => a | None => 0%nat end).
  assert (AC : acts sas b).
  { intros h s'. unfold b. destruct (find _ _) eqn:F; [apply find_some in F; destruct F as [F _]; apply in_seq in F; lia|apply M]. }
  exists b. split; [exact AC|]. apply total_greedy; auto. intros s' h Hs'. unfold b. destruct (find _ _) eqn:F.
  - apply find_some in F. destruct F as [_ F]. now apply Reqb_true in F.
  - destruct (O s' Hs') as [(a & Ha & EA) _]. pose proof (find_none _ _ F a ltac:(apply in_seq; lia)) as X. apply Reqb_false in X. contradiction.
Qed.

Lemma optimal_nonneg : forall sas r g Vs, is_mdp sas -> 0 <= g < 1 -> optimal sas r g Vs -> (forall t, (t < n_states sas)%nat -> 0 <= r t) ->
  forall s, (s < n_states sas)%nat -> 0 <= Vs s.
Proof.
  intros sas r g Vs M G O R0 s Hs. destruct (bounded (n_states sas) (fun _ => 0) Vs) as (C & C0 & N).
  assert (K : forall k s, (s < n_states sas)%nat -> - (g ^ k * C) <= Vs s).
  { induction k as [|k IH]; intros s' Hs'.
    - cbn [pow]. specialize (N s' Hs'). destruct (Rabs_le2_inv _ _ _ N). lra.
    - destruct (O s' Hs') as [(a & Ha & <-) _]. unfold action_value.
      apply Rle_trans with (sumf (fun t => (- (g ^ S k * C)) * prob sas s' a t) (seq 0 (n_states sas))).
      + rewrite sumf_scal. pose proof (p_sum sas M s' a Hs' Ha). assert (0 <= g ^ S k * C) by (apply Rmult_le_pos; [apply pow_le|]; lra).
        assert (g ^ S k * C * sumf (prob sas s' a) (seq 0 (n_states sas)) <= g ^ S k * C * 1) by (apply Rmult_le_compat_l; lra). lra.
      + apply sumf_le. intros t Ht. apply in_seq in Ht. rewrite Rmult_comm. apply Rmult_le_compat_l; [apply (p_nn sas M); assumption || lia|].
        specialize (IH t ltac:(lia)). specialize (R0 t ltac:(lia)). assert (g * - (g ^ k * C) <= g * Vs t) by (apply Rmult_le_compat_l; lra). cbn [pow]. lra. }
  apply Rnot_lt_le. intros X. destruct (pow_small g G C (- Vs s)) as (k & Hk); [lra|]. specialize (K k s Hs). lra.
Qed.
Lemma optimal_possible : forall sas r g Vs, is_mdp sas -> 0 <= g < 1 -> optimal sas r g Vs -> (forall t, (t < n_states sas)%nat -> 0 <= r t) ->
  forall s, (s < n_states sas)%nat -> exists a, (a < n_actions sas)%nat /\ action_value sas r g Vs s a = Vs s /\
    ((exists a', (a' < n_actions sas)%nat /\ possible sas s a') -> possible sas s a).
Proof.
  intros sas r g Vs M G O R0 s Hs. destruct (O s Hs) as [(a & Ha & EA) U]. destruct (possible_dec sas s a) as [P|P]; [exists a; auto|].
  destruct (existsb (fun a' => if possible_dec sas s a' then true else false) (seq 0 (n_actions sas))) eqn:X.
  - apply existsb_exists in X. destruct X as (a' & Ha' & P'). apply in_seq in Ha'. destruct (possible_dec sas s a') as [P''|]; [|discriminate].
    exists a'. split; [lia|]. split; [|auto]. rewrite (av_impossible sas r g Vs s a M Hs Ha P) in EA. specialize (U a' ltac:(lia)).
    assert (0 <= action_value sas r g Vs s a'); [|lra]. unfold action_value. apply sumf_nonneg. intros t Ht. apply in_seq in Ht.
    apply Rmult_le_pos; [apply (p_nn sas M); assumption || lia|]. assert (0 <= Vs t) by (eapply optimal_nonneg; eauto; lia). assert (0 <= g * Vs t) by (apply Rmult_le_pos; lra). specialize (R0 t ltac:(lia)). lra.
  - exists a. split; [exact Ha|]. split; [exact EA|]. intros (a' & Ha' & P'). exfalso. assert (Y : true = false); [|discriminate]. rewrite <- X. symmetry. apply existsb_exists.
    exists a'. split; [apply in_seq; lia|]. destruct (possible_dec sas s a'); [reflexivity|contradiction].
Qed.

(** Partial (rewards that are nowhere negative): the property holds. *)
Theorem C31_nonnegative_partial : forall sas r g Vs, is_mdp sas -> 0 <= g < 1 -> optimal sas r g Vs -> (forall t, (t < n_states sas)%nat -> 0 <= r t) ->
  forall s, (s < n_states sas)%nat -> best_return sas r g (acts_possibly sas) s (Vs s).
Proof.
  intros sas r g Vs M G O R0 s Hs. split; [|intros b y AC TR; apply (total_le sas r g Vs b M G O (fun h s => proj1 (AC h s)) s y Hs TR)].
  set (good := fun s a => Reqb (action_value sas r g Vs s a) (Vs s) && ((if possible_dec sas s a then true else false) || negb (existsb (fun a' => if possible_dec sas s a' then true else false) (seq 0 (n_actions sas))))).
  set (fallback := fun s => match find (fun a => if possible_dec sas s a then true else false) (seq 0 (n_actions sas)) with Some a => a | None => 0%nat end).
  set (b := fun (_ : list nat) s => match find (good s) (seq 0 (n_actions sas)) with Some a => a | None => fallback s end).
  assert (EX : forall s, existsb (fun a' => if possible_dec sas s a' then true else false) (seq 0 (n_actions sas)) = true <-> exists a', (a' < n_actions sas)%nat /\ possible sas s a').
  { intros s'. rewrite existsb_exists. split; intros (a' & H1 & H2).
    - apply in_seq in H1. destruct (possible_dec sas s' a'); [|discriminate]. exists a'. split; [lia|assumption].
    - exists a'. split; [apply in_seq; lia|]. destruct (possible_dec sas s' a'); [reflexivity|contradiction]. }
  assert (AC : acts_possibly sas b).
  { intros h s'. unfold b. destruct (find (good s') _) eqn:F.
    - apply find_some in F. destruct F as [F1 F2]. apply in_seq in F1. split; [lia|]. intros X. unfold good in F2. apply andb_prop in F2. destruct F2 as [_ F2].
      destruct (possible_dec sas s' n) as [P|]; [exact P|]. apply EX in X. rewrite X in F2. discriminate.
    - unfold fallback. destruct (find _ _) eqn:F' in |- *.
      + apply find_some in F'. destruct F' as [F1 F2]. apply in_seq in F1. split; [lia|]. intros _. destruct (possible_dec sas s' n); [assumption|discriminate].
      + split; [apply M|]. intros (a' & Ha' & P). pose proof (find_none _ _ F' a' ltac:(apply in_seq; lia)) as X. cbv beta in X. destruct (possible_dec sas s' a'); [discriminate|contradiction]. }
  exists b. split; [exact AC|]. apply total_greedy; auto; [intros h s'; apply AC|]. intros s' h Hs'. unfold b. destruct (find (good s') _) eqn:F.
  - apply find_some in F. destruct F as [_ F]. unfold good in F. apply andb_prop in F. destruct F as [F _]. now apply Reqb_true in F.
  - exfalso. destruct (optimal_possible sas r g Vs M G O R0 s' Hs') as (a & Ha & EA & PA). pose proof (find_none _ _ F a ltac:(apply in_seq; lia)) as X.
    unfold good in X. rewrite EA in X. assert (RR : Reqb (Vs s') (Vs s') = true) by now apply Reqb_true. rewrite RR in X. cbn [andb] in X.
    destruct (possible_dec sas s' a) as [P|P]; [discriminate|]. cbn [orb] in X. destruct (existsb _ _) eqn:Y; [|discriminate]. apply EX in Y. auto.
Qed.

(** The same, as C178: a property of its own. *)
Theorem C178_best : forall sas r g Vs, is_mdp sas -> 0 <= g < 1 -> optimal sas r g Vs -> (forall t, (t < n_states sas)%nat -> 0 <= r t) ->
  forall s, (s < n_states sas)%nat -> best_return sas r g (acts_possibly sas) s (Vs s).
Proof. exact (@C31_nonnegative_partial). Qed.

Lemma pow_anti : forall x i j, 0 <= x <= 1 -> (i <= j)%nat -> x ^ j <= x ^ i.
Proof.
  intros x i j X L. induction L as [|j L IH]; [lra|]. cbn [pow]. assert (0 <= x ^ j) by (apply pow_le; lra).
  assert (x * x ^ j <= 1 * x ^ j) by (apply Rmult_le_compat_r; lra). lra.
Qed.
(** ** Refuted for negative rewards: two states, each with one possible action that leads to the other
    state and one impossible action; both states have reward -1. The solution is zero everywhere, but
    every behaviour that takes possible actions loses 1 at each step. *)
Definition bad_sas : list (list (list R)) := [[[0; 1]; [0; 0]]; [[0; 0]; [1; 0]]].
Lemma bad_mdp : is_mdp bad_sas.
Proof.
  split; [cbn; lia|]. intros mat [<-|[<-|[]]]; (split; [reflexivity|]); intros row [<-|[<-|[]]]; (split; [reflexivity|]); (split; [|cbn; lra]); intros x [<-|[<-|[]]]; lra.
Qed.
Lemma bad_negative : is_mdp bad_sas /\ 0 < 1/2 < 1 /\ optimal bad_sas (reward_of [-1] [[1; 1]]) (1/2) (fun _ => 0) /\
  (forall s, (s < n_states bad_sas)%nat -> exists a, (a < n_actions bad_sas)%nat /\ possible bad_sas s a) /\
  forall s x, (s < n_states bad_sas)%nat -> best_return bad_sas (reward_of [-1] [[1; 1]]) (1/2) (acts_possibly bad_sas) s x -> x = -2.
Proof.
  split; [exact bad_mdp|]. split; [lra|].
  assert (RW : forall t, (t < 2)%nat -> reward_of [-1] [[1; 1]] t = -1).
  { intros t Ht. unfold reward_of, sumf. cbn [seq length map Rsum fold_right nth]. destruct t as [|[|t]]; [| |lia]; cbn; lra. }
  split.
  { intros s Hs. change (n_states bad_sas) with 2%nat in *. change (n_actions bad_sas) with 2%nat.
    assert (AV : forall a, (a < 2)%nat -> action_value bad_sas (reward_of [-1] [[1; 1]]) (1/2) (fun _ => 0) s a = if (a =? s)%nat then -1 else 0).
    { intros a Ha. unfold action_value. change (n_states bad_sas) with 2%nat. unfold sumf. cbn [seq map]. rewrite !Rsum_cons. rewrite (RW 0%nat), (RW 1%nat) by lia. unfold prob, bad_sas.
      destruct s as [|[|s]]; [| |lia]; (destruct a as [|[|a]]; [| |lia]); cbn; lra. }
    split.
    - exists (1 - s)%nat. split; [lia|]. rewrite AV by lia. destruct (Nat.eqb_spec (1 - s) s); [lia|reflexivity].
    - intros a Ha. rewrite AV by exact Ha. destruct (a =? s)%nat; lra. }
  split.
  { intros s Hs. change (n_states bad_sas) with 2%nat in *. exists s. split; [exact Hs|]. exists (1 - s)%nat. unfold possible, prob, bad_sas. destruct s as [|[|s]]; [| |lia]; cbn; (split; [lia|lra]). }
  intros s x Hs [(b & AP & TR) _].
  assert (RT : forall k h s, (s < 2)%nat -> return_ bad_sas (reward_of [-1] [[1; 1]]) (1/2) k b h s = -2 * (1 - (1/2) ^ k)).
  { induction k as [|k IH]; intros h s' Hs'; [cbn; lra|]. cbn [return_]. change (n_states bad_sas) with 2%nat.
    assert (BS : b h s' = s').
    { destruct (AP h s') as [B1 B2]. change (n_actions bad_sas) with 2%nat in *. destruct B2 as (t & Ht & P).
      - exists s'. split; [exact Hs'|]. exists (1 - s')%nat. unfold prob, bad_sas. destruct s' as [|[|s']]; [| |lia]; cbn; (split; [lia|lra]).
      - change (n_states bad_sas) with 2%nat in Ht. unfold prob, bad_sas in P. destruct s' as [|[|s']]; [| |lia]; (destruct (b h _) as [|[|a]]; [| |lia]); try reflexivity; (destruct t as [|[|t]]; [| |lia]); cbn in P; lra. }
    rewrite BS. unfold sumf. cbn [seq map]. rewrite !Rsum_cons. rewrite !IH by lia. rewrite !RW by lia. unfold prob, bad_sas. cbn [pow]. destruct s' as [|[|s']]; [| |lia]; cbn; lra. }
  change (n_states bad_sas) with 2%nat in Hs. eapply UL_sequence; [exact TR|]. intros eps He.
  destruct (pow_small (1/2) ltac:(lra) 2 eps He) as (K & HK). exists K. intros k Hk. rewrite RT by exact Hs. unfold R_dist.
  replace (-2 * (1 - (1/2) ^ k) - -2) with ((1/2) ^ k * 2) by ring. rewrite Rabs_pos_eq by (apply Rmult_le_pos; [apply pow_le|]; lra).
  pose proof (pow_anti (1/2) K k ltac:(lra) Hk).
  lra.
Qed.
Theorem C31_negative_refuted : exists sas rf features g V, is_mdp sas /\ 0 < g < 1 /\ optimal sas (reward_of rf features) g V /\
  (forall s, (s < n_states sas)%nat -> exists a, (a < n_actions sas)%nat /\ possible sas s a) /\
  (forall s, (s < n_states sas)%nat -> V s = 0) /\
  forall s x, (s < n_states sas)%nat -> best_return sas (reward_of rf features) g (acts_possibly sas) s x -> x = -2.
Proof. destruct bad_negative as (M & G & O & P & BR). exists bad_sas, [-1], [[1; 1]], (1/2), (fun _ => 0). auto 10. Qed.
(** The same on a real grid: 1 x 2 squares, reward -1 everywhere; the solver returns zero although
    each possible action leads to a state of reward -1. *)
Example C31_grid_run : exists m, grid_mdp (A:=Q) Square [[1; 1]%Q] None (1, 2)%nat false = Ok m /\
  solve_value_iteration hard_backup [-1]%Q (m_features m) 500 (9 # 10)%Q (m_sas m) (1 # 100000000)%Q = Ok ([0; 0]%Q, [[Fin (-1); NInf; NInf; NInf]; [NInf; NInf; Fin (-1); NInf]]%Q).
Proof. eexists. vmr. Qed.

(** Hypotheses of C29-C31 on a stochastic MDP: action 0 leads to either state with probability 1/2. *)
Definition coin_sas : list (list (list R)) := [[[1/2; 1/2]; [0; 0]]; [[1/2; 1/2]; [0; 1]]].
Example C29_hypotheses : is_mdp coin_sas /\ optimal coin_sas (reward_of [1] [[0; 1]]) (1/2) (fun s => match s with O => 4/3 | _ => 2 end).
Proof.
  split.
  - split; [cbn; lia|]. intros mat [<-|[<-|[]]]; (split; [reflexivity|]); intros row [<-|[<-|[]]]; (split; [reflexivity|]); (split; [|cbn; lra]); intros x [<-|[<-|[]]]; lra.
  - intros s Hs. change (n_states coin_sas) with 2%nat in Hs. change (n_actions coin_sas) with 2%nat.
    assert (AV : forall s a, action_value coin_sas (reward_of [1] [[0; 1]]) (1/2) (fun s => match s with O => 4/3 | _ => 2 end) s a = prob coin_sas s a 0 * (2/3) + prob coin_sas s a 1 * 2).
    { intros s' a. unfold action_value. change (n_states coin_sas) with 2%nat. unfold sumf, reward_of, sumf. cbn [seq map length]. rewrite !Rsum_cons. cbn [nth Rsum fold_right]. lra. }
    destruct s as [|[|s]]; [| |lia].
    + split; [exists 0%nat; split; [lia|]; rewrite AV; unfold prob, coin_sas; cbn; lra|]. intros [|[|a]] Ha; [| |lia]; rewrite AV; unfold prob, coin_sas; cbn; lra.
    + split; [exists 1%nat; split; [lia|]; rewrite AV; unfold prob, coin_sas; cbn; lra|]. intros [|[|a]] Ha; [| |lia]; rewrite AV; unfold prob, coin_sas; cbn; lra.
Qed.

(** * C32: soft value iteration *)

Lemma lse_bounds : forall eps l, 0 < eps -> l <> [] ->
  lmax l <= log_sum_exp eps l <= lmax l + ln (INR (length l)) + eps * exp (- lmax l) / INR (length l).
Proof.
  intros eps l E N. destruct (lmax_spec l N) as [I U]. revert I U. generalize (lmax l). intros m I U. unfold log_sum_exp.
  assert (LP : 0 < INR (length l)) by (apply lt_0_INR; destruct l; [congruence|cbn; lia]).
  assert (P : forall l, 0 <= Rsum (map exp l)). { induction l0; cbn [map]; [cbn; lra|]. rewrite Rsum_cons. pose proof (exp_pos a). lra. }
  assert (M1 : exp m <= Rsum (map exp l)).
  { clear - I P. induction l as [|x l IH]; [destruct I|]. cbn [map]. rewrite Rsum_cons. destruct I as [->|I]; [specialize (P l); lra|]. specialize (IH I). pose proof (exp_pos x). lra. }
  assert (M2 : Rsum (map exp l) <= INR (length l) * exp m).
  { assert (UU : forall y, In y l -> exp y <= exp m). { intros y Hy. specialize (U y Hy). destruct (Req_dec y m) as [->|]; [lra|]. left. apply exp_increasing. lra. }
    clear - UU. induction l as [|x l IH]; [cbn; lra|]. cbn [map]. rewrite Rsum_cons. specialize (IH ltac:(intros; apply UU; now right)). pose proof (UU x (or_introl eq_refl)). change (length (x :: l)) with (Datatypes.S (length l)). rewrite S_INR. lra. }
  pose proof (exp_pos m) as EP. split.
  - rewrite <- (ln_exp m) at 1. left. apply ln_increasing; lra.
  - assert (X : Rsum (map exp l) + eps <= exp m * INR (length l) * (1 + eps * exp (- m) / INR (length l))).
    { replace (exp m * INR (length l) * (1 + eps * exp (- m) / INR (length l))) with (INR (length l) * exp m + eps * (exp m * exp (- m))) by (field; lra).
      rewrite <- exp_plus. replace (m + - m) with 0 by ring. rewrite exp_0. lra. }
    assert (Y : 0 < eps * exp (- m) / INR (length l)). { apply Rdiv_lt_0_compat; [|exact LP]. apply Rmult_lt_0_compat; [exact E|apply exp_pos]. }
    apply Rle_trans with (ln (exp m * INR (length l) * (1 + eps * exp (- m) / INR (length l)))).
    + destruct (Req_dec (Rsum (map exp l) + eps) (exp m * INR (length l) * (1 + eps * exp (- m) / INR (length l)))) as [->|NE]; [lra|]. left. apply ln_increasing; [specialize (P l); lra|lra].
    + rewrite ln_mult by (apply Rmult_lt_0_compat || idtac; lra). rewrite ln_mult by lra. rewrite ln_exp. assert (ln (1 + eps * exp (- m) / INR (length l)) <= eps * exp (- m) / INR (length l)); [|lra].
      revert Y. generalize (eps * exp (- m) / INR (length l)). intros y Y. rewrite <- (ln_exp y) at 2. pose proof (exp_ineq1 y ltac:(lra)). left. apply ln_increasing; lra.
Qed.

(** One soft backup of a list of action values lies between the hard maximum and the hard maximum plus
    the logarithm of the number of actions, up to the regularisation; it is monotone, and does not
    expand differences. *)
Theorem C32_backup : forall l, l <> [] -> exists soft hard, soft_backup l = Ok soft /\ hard_backup l = Ok hard /\
  hard <= soft <= hard + ln (INR (length l)) + soft_eps * exp (- hard) / INR (length l) /\
  forall l' c, length l' = length l -> 0 <= c -> exists soft', soft_backup l' = Ok soft' /\
    ((forall i, (i < length l)%nat -> nth i l 0 <= nth i l' 0) -> soft <= soft') /\
    ((forall i, (i < length l)%nat -> Rabs (nth i l 0 - nth i l' 0) <= c) -> Rabs (soft - soft') <= c).
Proof.
  intros l N. exists (log_sum_exp soft_eps l), (lmax l). split; [apply bk_soft|]. split; [destruct l; [congruence|reflexivity]|]. split; [now apply lse_bounds; [apply soft_eps_pos|]|].
  intros l' c L C. exists (log_sum_exp soft_eps l'). split; [apply bk_soft|]. split.
  - intros H. pose proof (lse_le soft_eps l l' 0 soft_eps_pos ltac:(lra) (eq_sym L)) as X. assert (log_sum_exp soft_eps l <= log_sum_exp soft_eps l' + 0); [|lra]. apply X. intros i Hi. specialize (H i Hi). lra.
  - intros H. apply (lse_ne soft_eps (length l)); auto; [apply soft_eps_pos|]. destruct l; [congruence|cbn; lia].
Qed.

(** The soft solver converges to the unique soft solution, like the hard one; the soft solution is
    never below the hard one. *)
Theorem C32_unique_solution : forall sas r g, is_mdp sas -> 0 <= g < 1 ->
  exists V, soft_optimal soft_eps sas r g V /\ forall U, soft_optimal soft_eps sas r g U -> forall s, (s < n_states sas)%nat -> U s = V s.
Proof.
  intros sas r g M G. pose proof M as [P _].
  pose proof (fun l l' c => lse_ne soft_eps (n_actions sas) l l' c soft_eps_pos P) as NE.
  exists (limit (n_states sas) (n_actions sas) (prob sas) r g (log_sum_exp soft_eps) NE (p_nn sas M) (p_sum sas M) G).
  split; [apply (fixed_limit (n_states sas) (n_actions sas) (prob sas) r g (log_sum_exp soft_eps))|]. intros U OU.
  eapply (fixed_unique _ _ (prob sas) r g (log_sum_exp soft_eps) NE (p_nn sas M) (p_sum sas M) G); [exact OU|apply fixed_limit].
Qed.
Theorem C32_sweep_contracts : forall sas r g Vs V c, is_mdp sas -> 0 < g < 1 -> length r = n_states sas -> length V = n_states sas ->
  soft_optimal soft_eps sas (fun t => nth t r 0) g Vs -> 0 <= c -> near (n_states sas) c (fun t => nth t V 0) Vs ->
  exists W d q, state_value_iterator soft_backup V 0 r g sas = Ok (W, d, q) /\ near (n_states sas) (g * c) (fun t => nth t W 0) Vs.
Proof.
  intros sas r g Vs V c M G Lr LV O C N.
  destruct (sweep_spec sas g r soft_backup (log_sum_exp soft_eps) M G Lr (fun l _ => bk_soft l) (fun l l' c => lse_ne soft_eps (n_actions sas) l l' c soft_eps_pos (proj1 M)) V LV) as (W & d & q & E & _ & _ & _ & _ & _ & _ & H).
  exists W, d, q. split; [exact E|]. now apply (H Vs c C O N).
Qed.
Theorem C32_solver : forall sas rf features k g tol Vs B, is_mdp sas -> 0 < g < 1 -> length rf = length features -> 
  soft_optimal soft_eps sas (reward_of rf features) g Vs -> near (n_states sas) B (fun _ => 0) Vs -> 0 <= B ->
  exists v q, solve_value_iteration soft_backup rf features (Z.of_nat (S k)) g sas tol = Ok (v, q) /\ length v = n_states sas /\
    (near (n_states sas) (g * tol / (1 - g)) (fun s => nth s v 0) Vs \/ near (n_states sas) (g ^ S k * B) (fun s => nth s v 0) Vs) /\
    ((1 + g) * g ^ k * B < tol -> near (n_states sas) (g * tol / (1 - g)) (fun s => nth s v 0) Vs).
Proof.
  intros sas rf features k g tol Vs B M G L O N B0.
  destruct (solve_spec soft_backup (log_sum_exp soft_eps) sas rf features k g tol M G L (fun l _ => bk_soft l) (fun l l' c => lse_ne soft_eps (n_actions sas) l l' c soft_eps_pos (proj1 M))) as (v & q & E & H1 & _ & _ & _ & H5).
  exists v, (mask_q sas q). split; [exact E|]. split; [exact H1|]. destruct (H5 Vs O B B0 N) as [J1 J2]. split; [tauto|]. intros X. now apply J2.
Qed.
Theorem C32_soft_above_hard : forall sas r g V W, is_mdp sas -> 0 <= g < 1 -> optimal sas r g V -> soft_optimal soft_eps sas r g W ->
  forall s, (s < n_states sas)%nat -> V s <= W s.
Proof.
  intros sas r g V W M G O S. apply optimal_fixed in O; [|exact M]. destruct (bounded (n_states sas) V W) as (C & C0 & N).
  assert (K : forall k s, (s < n_states sas)%nat -> V s - g ^ k * C <= W s).
  { induction k as [|k IH]; intros s Hs.
    - cbn [pow]. destruct (Rabs_le2_inv _ _ _ (N s Hs)). lra.
    - rewrite (S s Hs), (O s Hs). unfold T. set (l := map (qv _ _ _ _ V s) _). set (l' := map (action_value sas r g W s) _).
      assert (Ll : length l = n_actions sas) by (unfold l; now rewrite map_length, seq_length). assert (Ll' : length l' = n_actions sas) by (unfold l'; now rewrite map_length, seq_length).
      assert (NN : l <> []). { intros X. rewrite X in Ll. cbn in Ll. destruct M as [P _]. lia. } assert (NN' : l' <> []). { intros X. rewrite X in Ll'. cbn in Ll'. destruct M as [P _]. lia. }
      destruct (lse_bounds soft_eps l' soft_eps_pos NN') as [B1 _]. pose proof (lmax_le l l' (g ^ Datatypes.S k * C) ltac:(lia) NN) as B2.
      assert (lmax l <= lmax l' + g ^ Datatypes.S k * C); [|lra]. apply B2. intros a Ha. rewrite Ll in Ha. unfold l, l'. rewrite !(nth_map_lt _ _ _ _ _ _ 0%nat) by (rewrite seq_length; exact Ha). rewrite seq_nth by exact Ha. cbn [plus].
      apply Rle_trans with (action_value sas r g W s a + (g ^ Datatypes.S k * C) * sumf (prob sas s a) (seq 0 (n_states sas))).
      + unfold qv, action_value. rewrite <- sumf_scal, <- sumf_add. apply sumf_le. intros t Ht. apply in_seq in Ht. specialize (IH t ltac:(lia)). pose proof (p_nn sas M s a t Hs Ha ltac:(lia)).
        replace (prob sas s a t * (r t + g * W t) + g ^ Datatypes.S k * C * prob sas s a t) with (prob sas s a t * (r t + g * (W t + g ^ k * C))) by (cbn [pow]; ring). apply Rmult_le_compat_l; [assumption|].
        assert (g * V t <= g * (W t + g ^ k * C)) by (apply Rmult_le_compat_l; lra). lra.
      + pose proof (p_sum sas M s a Hs Ha). assert (0 <= g ^ Datatypes.S k * C) by (apply Rmult_le_pos; [apply pow_le|]; lra).
        assert (g ^ Datatypes.S k * C * sumf (prob sas s a) (seq 0 (n_states sas)) <= g ^ Datatypes.S k * C * 1) by (apply Rmult_le_compat_l; lra). lra. }
  intros s Hs. apply Rnot_lt_le. intros X. destruct (pow_small g G C (V s - W s)) as (k & Hk); [lra|]. specialize (K k s Hs). lra.
Qed.

(** * C67: acting greedily on the solver's result is near optimal *)
Theorem C67_greedy_near_optimal : forall sas rf features k g tol Vs B v q b, is_mdp sas -> 0 < g < 1 -> length rf = length features ->
  (forall t, (t < n_states sas)%nat -> 0 <= reward_of rf features t) ->
  optimal sas (reward_of rf features) g Vs -> near (n_states sas) B (fun _ => 0) Vs -> 0 <= B -> (1 + g) * g ^ k * B < tol ->
  solve_value_iteration hard_backup rf features (Z.of_nat (S k)) g sas tol = Ok (v, q) ->
  (forall h s, (s < n_states sas)%nat -> best_action (nth s q []) (b h s)) -> acts sas b ->
  forall s x, (s < n_states sas)%nat -> total_return sas (reward_of rf features) g b s x -> Vs s - 2 * (g * tol / (1 - g)) / (1 - g) <= x <= Vs s.
Proof.
  intros sas rf features k g tol Vs B v q b M G L R0 O N B0 TL E GR AC. pose proof O as OF. apply optimal_fixed in OF; [|exact M].
  destruct (solve_spec hard_backup lmax sas rf features k g tol M G L (bk_hard sas M) (fun l l' c => lmax_ne (n_actions sas) l l' c (proj1 M))) as (v' & q' & E' & H1 & H2 & H3 & _ & H5).
  rewrite E in E'. inversion E'. subst v' q. clear E'. destruct (H5 Vs OF B B0 N) as [_ J]. destruct (J TL) as [_ QC]. clear J H5.
  set (eps := g * tol / (1 - g)) in *.
  assert (G1 : 0 < 1 - g) by lra.
  assert (STEP : forall s h, (s < n_states sas)%nat -> Vs s - 2 * eps <= action_value sas (reward_of rf features) g Vs s (b h s)).
  { intros s h Hs. destruct (optimal_possible sas _ g Vs M ltac:(lra) O R0 s Hs) as (a & Ha & EA & PA). destruct (GR h s Hs) as [_ BA].
    pose proof (AC h s) as Hb. destruct (mask_q_nth sas q' s (b h s) M H2 H3 Hs Hb) as (_ & LR & CB). specialize (BA a ltac:(lia)).
    destruct (Rabs_le2_inv _ _ _ (QC s a Hs Ha)) as [Q1 Q2]. destruct (Rabs_le2_inv _ _ _ (QC s (b h s) Hs Hb)) as [Q3 Q4].
    destruct (mask_q_nth sas q' s a M H2 H3 Hs Ha) as (_ & _ & [[P EQ]|[P EQ]]); rewrite EQ in BA.
    - destruct CB as [[P' EQ']|[P' EQ']]; rewrite EQ' in BA; cbn in BA; [|contradiction]. lra.
    - destruct CB as [[P' EQ']|[P' EQ']]; [elim P; apply PA; exists (b h s); auto|]. rewrite (av_impossible sas _ g Vs s (b h s) M Hs Hb P'). rewrite (av_impossible sas _ g Vs s a M Hs Ha P) in EA.
      assert (0 <= eps) by (eapply Rle_trans; [apply Rabs_pos|apply (QC s a Hs Ha)]). lra. }
  intros s x Hs TR. split; [|exact (total_le sas _ g Vs b M ltac:(lra) O AC s x Hs TR)].
  assert (E0 : 0 <= eps). { eapply Rle_trans; [apply Rabs_pos|apply (QC s 0%nat Hs (proj1 M))]. }
  apply Rnot_lt_le. intros X. set (gap := Vs s - 2 * eps / (1 - g) - x) in *. assert (GP : 0 < gap) by (unfold gap; lra).
  destruct (pow_small g ltac:(lra) B (gap / 2)) as (K & HK); [lra|]. destruct (TR (gap / 2)) as (N1 & HN); [lra|]. specialize (HN (K + N1)%nat ltac:(lia)). unfold R_dist in HN.
  destruct (return_bounds sas (reward_of rf features) g Vs b B (2 * eps) M ltac:(lra) AC B0 N ltac:(lra)) with (k := (K + N1)%nat) (h := @nil nat) (s := s) as [_ LO]; [|exact Hs|].
  { intros s' h Hs'. destruct (O s' Hs') as [_ U]. apply U. apply AC. }
  specialize (LO STEP). assert (GK : 0 <= g ^ (K + N1)) by (apply pow_le; lra).
  assert (g ^ (K + N1) * B <= g ^ K * B) by (apply Rmult_le_compat_r; [exact B0|apply pow_anti; lra || lia]).
  assert (2 * eps * ((1 - g ^ (K + N1)) / (1 - g)) <= 2 * eps / (1 - g)).
  { unfold Rdiv. rewrite <- Rmult_assoc. apply Rmult_le_compat_r; [left; now apply Rinv_0_lt_compat|]. rewrite <- (Rmult_1_r (2 * eps)) at 2. apply Rmult_le_compat_l; lra. }
  apply Rabs_def2 in HN. unfold gap in *. lra.
Qed.

(** * C69: the meaning of the values, for rewards that are never negative and in general *)
Theorem C69_nonnegative : forall sas r g Vs, is_mdp sas -> 0 <= g < 1 -> optimal sas r g Vs -> (forall t, (t < n_states sas)%nat -> 0 <= r t) ->
  forall s, (s < n_states sas)%nat -> best_return sas r g (acts_possibly sas) s (Vs s).
Proof. exact C31_nonnegative_partial. Qed.
Theorem C69_may_stop : forall sas r g Vs, is_mdp sas -> 0 <= g < 1 -> optimal sas r g Vs ->
  forall s, (s < n_states sas)%nat -> best_return sas r g (acts sas) s (Vs s).
Proof. exact C31_may_stop_partial. Qed.
