(** Policy learning in floating point. *)
From Coq Require Import List ZArith Reals Bool Lia Lra.
From Verif Require Import PyBase PyProofs RSum MDPModel PLModel PLSpec PLProofs PLProps RoundModel RoundProofs PLRoundModel.
Import ListNotations.
Local Open Scope R_scope.

(** ** Comparisons are exact, so both kinds of numbers take the same path *)
Lemma argmax_F : forall rnd l, @argmax R (NumF rnd) l = @argmax R NumR l.
Proof.
  intros rnd [|x l]; [reflexivity|]. cbn [argmax]. generalize 0%nat x 1%nat. induction l as [|z l IH]; intros a b c; cbn; [reflexivity|]. change (@nltb R (NumF rnd)) with Rltb. destruct (Rltb b z); apply IH.
Qed.
Lemma traj_F : forall rnd m t, @trajectory_to_state_action R (NumF rnd) m t = @trajectory_to_state_action R NumR m t.
Proof.
  intros rnd m t. assert (P : forall t, @traj_pairs R (NumF rnd) m t = @traj_pairs R NumR m t); [|unfold trajectory_to_state_action; destruct t; [reflexivity|apply P]].
  clear t. induction t as [|s t IH]; [reflexivity|]. destruct t as [|s' t]; [reflexivity|]. cbn [traj_pairs] in *. rewrite IH.
  change (@state_pair_to_action R (NumF rnd) m s s' true) with (let* i := py_index (m_n_states m) s in let* j := py_index (m_n_states m) s' in let col := @sas_col R NumR m i j in let* mx := @nmax_list R NumR col in if Rltb 0 mx then Ok [@argmax R (NumF rnd) col] else Err AttributeError).
  unfold state_pair_to_action. destruct (py_index (m_n_states m) s) as [i|]; [|reflexivity]. cbn [bind]. destruct (py_index (m_n_states m) s') as [j|]; [|reflexivity]. cbn [bind]. change (@sas_col R (NumF rnd) m i j) with (@sas_col R NumR m i j). rewrite argmax_F. reflexivity.
Qed.

Lemma abs_inv : forall a c, Rabs a <= c -> - c <= a <= c.
Proof. intros a c. unfold Rabs. destruct (Rcase_abs a); lra. Qed.

Section Rounded.
Variables (rnd : R -> R) (u eta : R).
Hypothesis RD : rounding rnd u eta.
(** Adding the rounded rest to a number between zero and one does not exceed one. *)
Definition never_above_one : Prop := forall x, 0 <= x <= 1 -> rnd x = x -> rnd (x + rnd (1 - x)) <= 1.
Hypothesis TOP : never_above_one.

Definition unit_float (x : R) : Prop := 0 <= x <= 1 /\ rnd x = x.
Lemma unit_rnd : forall x, 0 <= x <= 1 -> unit_float (rnd x).
Proof.
  intros x H. split; [|apply (rd_idem _ _ _ RD)]. split; [rewrite <- (rnd0 rnd u eta RD)|rewrite <- (rd_one _ _ _ RD)]; apply (rd_le _ _ _ RD); lra.
Qed.
Lemma small_rnd : forall x, -1 <= x <= 1 -> -1 <= rnd x <= 1.
Proof.
  intros x H. pose proof (rd_one _ _ _ RD) as O. pose proof (rd_opp _ _ _ RD 1) as N. split.
  - assert (rnd (- (1)) <= rnd x) by (apply (rd_le _ _ _ RD); lra). lra.
  - assert (rnd x <= rnd 1) by (apply (rd_le _ _ _ RD); lra). lra.
Qed.

(** One update of one estimate [x] towards [t]. *)
Definition update (r t x : R) : R := rnd (x + rnd (r * rnd (t - x))).
Lemma update_unit : forall r t x, unit_float r -> unit_float t -> unit_float x -> unit_float (update r t x).
Proof.
  intros r t x [Hr Fr] [Ht Ft] [Hx Fx]. unfold update. set (d := rnd (t - x)). set (p := rnd (r * d)). split; [|apply (rd_idem _ _ _ RD)].
  pose proof (rnd0 rnd u eta RD) as Z. assert (FD : rnd d = d) by apply (rd_idem _ _ _ RD).
  assert (DL : - x <= d) by (rewrite <- Fx at 1; rewrite <- (rd_opp _ _ _ RD); apply (rd_le _ _ _ RD); lra).
  assert (DU : d <= rnd (1 - x)) by (apply (rd_le _ _ _ RD); lra).
  assert (P : - x <= p <= rnd (1 - x)).
  { assert (0 <= rnd (1 - x)) by (rewrite <- Z; apply (rd_le _ _ _ RD); lra).
    destruct (Rle_or_lt 0 d) as [D|D].
    - assert (0 <= p) by (rewrite <- Z; apply (rd_le _ _ _ RD), Rmult_le_pos; lra). assert (p <= d); [|lra]. rewrite <- FD. apply (rd_le _ _ _ RD). rewrite <- (Rmult_1_l d) at 2. apply Rmult_le_compat_r; lra.
    - assert (p <= 0). { rewrite <- Z. apply (rd_le _ _ _ RD). assert (0 <= r * - d) by (apply Rmult_le_pos; lra). lra. }
      assert (d <= p); [|lra]. rewrite <- FD. apply (rd_le _ _ _ RD). assert ((1 - r) * d <= 0); [|lra]. assert (0 <= (1 - r) * - d) by (apply Rmult_le_pos; lra). lra. }
  split; [rewrite <- Z; apply (rd_le _ _ _ RD); lra|]. eapply Rle_trans; [|apply (TOP x Hx Fx)]. apply (rd_le _ _ _ RD). lra.
Qed.

(** The error of one update. *)
Definition step_error : R := 4 * u + 3 * eta.
Lemma step_error0 : 0 <= step_error.
Proof. unfold step_error. pose proof (rd_u _ _ _ RD). pose proof (rd_eta _ _ _ RD). lra. Qed.
Lemma rnd_close1 : forall x, -1 <= x <= 1 -> Rabs (rnd x - x) <= u + eta.
Proof.
  intros x H. eapply Rle_trans; [apply (rd_err _ _ _ RD)|]. pose proof (rd_u _ _ _ RD). assert (Rabs x <= 1) by (apply Rabs_le; lra). assert (u * Rabs x <= u * 1) by (apply Rmult_le_compat_l; lra). lra.
Qed.
Lemma update_error : forall r t x r' t' x' e er rho, unit_float r -> unit_float t -> unit_float x -> 0 <= r' <= 1 -> Rabs (r - r') <= rho -> Rabs (t - t') <= er -> Rabs (x - x') <= e ->
  Rabs (update r t x - (x' + r' * (t' - x'))) <= (1 - r') * e + r' * er + rho + step_error.
Proof.
  intros r t x r' t' x' e er rho [Hr Fr] [Ht Ft] [Hx Fx] Hr' ER ET EX. unfold update. set (d := rnd (t - x)). set (p := rnd (r * d)).
  assert (D1 : Rabs (d - (t - x)) <= u + eta) by (apply rnd_close1; lra).
  assert (DS : -1 <= d <= 1) by (apply small_rnd; lra).
  assert (RDS : -1 <= r * d <= 1). { assert (Rabs (r * d) <= 1 * 1); [|apply abs_inv in H; lra]. rewrite Rabs_mult. apply Rmult_le_compat; try apply Rabs_pos; apply Rabs_le; lra. }
  assert (P1 : Rabs (p - r * d) <= u + eta) by (apply rnd_close1; lra).
  assert (PS : -1 <= p <= 1) by (apply small_rnd; lra).
  assert (X1 : Rabs (rnd (x + p) - (x + p)) <= 2 * u + eta).
  { eapply Rle_trans; [apply (rd_err _ _ _ RD)|]. pose proof (rd_u _ _ _ RD). assert (Rabs (x + p) <= 2) by (apply Rabs_le; lra). assert (u * Rabs (x + p) <= u * 2) by (apply Rmult_le_compat_l; lra). lra. }
  assert (R1 : Rabs (r * (d - (t - x))) <= u + eta). { rewrite Rabs_mult. eapply Rle_trans; [|exact D1]. rewrite <- (Rmult_1_l (Rabs (d - (t - x)))) at 2. apply Rmult_le_compat_r; [apply Rabs_pos|apply Rabs_le; lra]. }
  assert (T1 : Rabs ((r - r') * (t - x)) <= rho). { rewrite Rabs_mult. eapply Rle_trans; [|exact ER]. rewrite <- (Rmult_1_r (Rabs (r - r'))) at 2. apply Rmult_le_compat_l; [apply Rabs_pos|apply Rabs_le; lra]. }
  assert (T2 : Rabs (r' * (t - t')) <= r' * er) by (rewrite Rabs_mult, (Rabs_pos_eq r') by lra; apply Rmult_le_compat_l; lra).
  assert (T3 : Rabs ((1 - r') * (x - x')) <= (1 - r') * e) by (rewrite Rabs_mult, (Rabs_pos_eq (1 - r')) by lra; apply Rmult_le_compat_l; lra).
  replace (rnd (x + p) - (x' + r' * (t' - x'))) with ((rnd (x + p) - (x + p)) + (p - r * d) + r * (d - (t - x)) + (r - r') * (t - x) + r' * (t - t') + (1 - r') * (x - x')) by ring.
  apply abs_inv in X1, P1, R1, T1, T2, T3. unfold step_error. apply Rabs_le. lra.
Qed.

(** ** A learner with rounded numbers beside one with real numbers *)
Section Pair.
(** The two configurations; the errors of credits and decay factors; bounds for the errors of estimates and rates after [k] observations. *)
Variables (cF cR : td_config R) (er ef : R) (E Rh : nat -> R).
Hypothesis LR : c_lr cF = c_lr cR.
Hypothesis LU : unit_float (c_lr cF).
Hypothesis DC : c_decaying cF = c_decaying cR.
Hypothesis FA : c_decaying cF = true -> forall n, (1 <= n)%nat -> match c_factor cF n, c_factor cR n with Ok f, Ok f' => unit_float f /\ 0 <= f' <= 1 /\ Rabs (f - f') <= ef | Err e, Err e' => e = e' | _, _ => False end.
Hypothesis RW : forall n a, match c_reward cF n a, c_reward cR n a with Ok v, Ok v' => Forall2 (fun t t' => unit_float t /\ Rabs (t - t') <= er) v v' | Err e, Err e' => e = e' | _, _ => False end.
Hypothesis EM : forall k, 0 <= E k <= E (S k).
Hypothesis ES : forall k r', (if c_decaying cF then 0 <= r' <= 1 else r' = c_lr cF) -> (1 - r') * E k + r' * er + (if c_decaying cF then Rh (S k) else 0) + step_error <= E (S k).
Hypothesis RS : forall k, 0 <= Rh k <= Rh (S k) /\ (c_decaying cF = true -> Rh k + ef + u + eta <= Rh (S k)).

Definition near (k : nat) (x x' : R) : Prop := unit_float x /\ Rabs (x - x') <= E k.
Definition near_q (k : nat) (q q' : qval R) : Prop :=
  match q, q' with QNone, QNone => True | QObj, QObj => True | QArr x, QArr x' => Forall2 (near k) x x' | _, _ => False end.
Record beside (k : nat) (l l' : learner R) : Prop := {
  bs_q : near_q k (l_Q l) (l_Q l'); bs_o : near_q k (l_orig l) (l_orig l'); bs_s : l_shared l = l_shared l'; bs_n : l_n l = l_n l'; bs_1 : (1 <= l_n l)%nat; bs_d : l_done l = l_done l';
  bs_a : unit_float (l_adj l) /\ 0 <= l_adj l' <= 1 /\ Rabs (l_adj l - l_adj l') <= Rh k }.

Lemma near_q_S : forall k q q', near_q k q q' -> near_q (S k) q q'.
Proof.
  intros k [| |x] [| |x'] H; cbn in *; auto. induction H as [|a b x x' [H1 H2] _ IH]; constructor; [|exact IH]. split; [exact H1|]. pose proof (EM k). lra.
Qed.
Lemma towards_near : forall k r r' v v' q q', unit_float r -> 0 <= r' <= 1 -> (forall e, e = E k -> (1 - r') * e + r' * er + Rabs (r - r') + step_error <= E (S k)) ->
  Forall2 (fun t t' => unit_float t /\ Rabs (t - t') <= er) v v' -> Forall2 (near k) q q' -> Forall2 (near (S k)) (@move_towards R (NumF rnd) r v q) (@move_towards R NumR r' v' q').
Proof.
  intros k r r' v v' q q' U R' EK V. revert q q'. induction V as [|t t' v v' [T1 T2] V IH]; intros q q' Q; [constructor|]. inversion Q as [|x x' q1 q1' [X1 X2] Q1]; subst; [constructor|]. cbn. constructor; [|now apply IH].
  split; [apply (update_unit r t x U T1 X1)|]. eapply Rle_trans; [apply (update_error r t x r' t' x' (E k) er (Rabs (r - r')) U T1 X1 R' (Rle_refl _) T2 X2)|]. now apply EK.
Qed.
Lemma F2_len : forall A B (P : A -> B -> Prop) l l', Forall2 P l l' -> length l = length l'.
Proof. intros A B P l l' H. induction H; cbn; congruence. Qed.

Lemma observe_beside : forall nA a k l l', beside k l l' -> exists k', let o := @observe R (NumF rnd) cF nA a l in let o' := @observe R NumR cR nA a l' in
  beside k' (fst o) (fst o') /\ snd o = snd o' /\ (l_n (fst o) + k = l_n l + k')%nat.
Proof.
  intros nA a k l l' B. unfold observe. pose proof (RW nA a) as W. destruct (c_reward cF nA a) as [v|e], (c_reward cR nA a) as [v'|e']; try contradiction; [|subst e'; exists k; cbn; auto].
  pose proof (bs_q _ _ _ B) as Q. destruct (l_Q l) as [| |q], (l_Q l') as [| |q']; try contradiction; try solve [exists k; cbn; auto]. cbn in Q.
  rewrite (F2_len _ _ _ _ _ W), (F2_len _ _ _ _ _ Q). destruct (negb (length v' =? length q')%nat); [exists k; cbn; auto|]. rewrite <- DC. pose proof (bs_a _ _ _ B) as (A1 & A2 & A3). rewrite <- (bs_n _ _ _ B). pose proof (bs_1 _ _ _ B) as L1.
  destruct (c_decaying cF) eqn:D.
  - pose proof (FA eq_refl (l_n l) L1) as F. destruct (c_factor cF (l_n l)) as [f|e], (c_factor cR (l_n l)) as [f'|e']; try contradiction; [|subst e'; exists k; cbn; auto]. destruct F as (F1 & F2 & F3). cbn [bind nmul NumF NumR].
    assert (M : 0 <= l_adj l * f <= 1). { destruct A1 as [A1 _], F1 as [F1 _]. split; [apply Rmult_le_pos; lra|]. rewrite <- (Rmult_1_l 1). apply Rmult_le_compat; lra. }
    assert (M' : 0 <= l_adj l' * f' <= 1). { split; [apply Rmult_le_pos; lra|]. rewrite <- (Rmult_1_l 1). apply Rmult_le_compat; lra. }
    assert (DR : Rabs (rnd (l_adj l * f) - l_adj l' * f') <= Rh (S k)).
    { destruct (RS k) as [_ R1]. specialize (R1 eq_refl). pose proof (rnd_close1 (l_adj l * f) ltac:(lra)) as C. assert (C1 : Rabs (l_adj l * (f - f')) <= ef). { rewrite Rabs_mult. eapply Rle_trans; [|exact F3]. rewrite <- (Rmult_1_l (Rabs (f - f'))) at 2. apply Rmult_le_compat_r; [apply Rabs_pos|]. destruct A1 as [A1 _]. apply Rabs_le. lra. }
      assert (C2 : Rabs ((l_adj l - l_adj l') * f') <= Rh k). { rewrite Rabs_mult. eapply Rle_trans; [|exact A3]. rewrite <- (Rmult_1_r (Rabs (l_adj l - l_adj l'))) at 2. apply Rmult_le_compat_l; [apply Rabs_pos|]. apply Rabs_le. lra. }
      apply abs_inv in C, C1, C2. replace (rnd (l_adj l * f) - l_adj l' * f') with ((rnd (l_adj l * f) - l_adj l * f) + l_adj l * (f - f') + (l_adj l - l_adj l') * f') by ring. apply Rabs_le. lra. }
    exists (S k). cbn [fst snd l_n l_Q l_orig l_shared l_done l_adj]. split; [|split; [reflexivity|lia]].
    assert (NQ : Forall2 (near (S k)) (@move_towards R (NumF rnd) (rnd (l_adj l * f)) v q) (@move_towards R NumR (l_adj l' * f') v' q')).
    { apply (towards_near k); auto; [now apply unit_rnd|]. intros e ->. pose proof (ES k (l_adj l' * f') M'). lra. }
    constructor; cbn [l_n l_Q l_orig l_shared l_done l_adj near_q]; try exact NQ; try apply B; try lia; [|split; [now apply unit_rnd|now split]].
    rewrite <- (bs_s _ _ _ B). destruct (l_shared l); [exact NQ|apply near_q_S, B].
  - rewrite <- LR. exists (S k). cbn [bind fst snd l_n l_Q l_orig l_shared l_done l_adj]. split; [|split; [reflexivity|lia]].
    assert (NQ : Forall2 (near (S k)) (@move_towards R (NumF rnd) (c_lr cF) v q) (@move_towards R NumR (c_lr cF) v' q')).
    { apply (towards_near k); [exact LU|exact (proj1 LU)| |exact W|exact Q]. intros e ->. replace (c_lr cF - c_lr cF) with 0 by ring. rewrite Rabs_R0. pose proof (ES k (c_lr cF) eq_refl). lra. }
    constructor; cbn [l_n l_Q l_orig l_shared l_done l_adj near_q]; try exact NQ; try apply B; try lia.
    + rewrite <- (bs_s _ _ _ B). destruct (l_shared l); [exact NQ|apply near_q_S, B].
    + destruct (RS k) as [R1 _]. split; [exact A1|]. split; [exact A2|]. lra.
Qed.
(** Whole calls. *)
Definition together (k : nat) (l : learner R) (o o' : learner R * res unit) : Prop := exists k', beside k' (fst o) (fst o') /\ snd o = snd o' /\ (l_n (fst o) + k = l_n l + k')%nat.
Lemma observe_all_beside : forall mdps acts i k l l', beside k l l' -> together k l (@observe_all R (NumF rnd) cF mdps i acts l) (@observe_all R NumR cR mdps i acts l').
Proof.
  intros mdps. induction acts as [|a acts IH]; intros i k l l' B; cbn [observe_all]; [exists k; auto|]. destruct (nth_error mdps i) as [m|]; [|exists k; auto].
  destruct (observe_beside (m_n_actions m) a k l l' B) as (k1 & B1 & S1 & N1). destruct (@observe R (NumF rnd) cF (m_n_actions m) a l) as [l1 r1], (@observe R NumR cR (m_n_actions m) a l') as [l1' r1']. cbn [fst snd] in *. subst r1'.
  destruct r1 as [x|e]; [|exists k1; auto]. destruct (IH (S i) k1 l1 l1' B1) as (k2 & B2 & S2 & N2). exists k2. split; [exact B2|]. split; [exact S2|lia].
Qed.
Lemma trajectories_beside : forall mdps ts n k l l', beside k l l' -> together k l (@observe_trajectories R (NumF rnd) cF mdps n ts l) (@observe_trajectories R NumR cR mdps n ts l').
Proof.
  intros mdps. induction ts as [|t ts IH]; intros n k l l' B; [exists k; auto|]. destruct t as [|s t]; cbn [observe_trajectories]; [now apply IH|]. destruct (nth_error mdps n) as [m|]; [|exists k; auto]. rewrite traj_F.
  destruct (@trajectory_to_state_action R NumR m (s :: t)) as [sa|e]; [|exists k; auto]. destruct (observe_all_beside mdps (map snd sa) 0 k l l' B) as (k1 & B1 & S1 & N1).
  destruct (@observe_all R (NumF rnd) cF mdps 0 (map snd sa) l) as [l1 r1], (@observe_all R NumR cR mdps 0 (map snd sa) l') as [l1' r1']. cbn [fst snd] in *. subst r1'.
  destruct r1 as [x|e]; [|exists k1; auto]. destruct (IH (S n) k1 l1 l1' B1) as (k2 & B2 & S2 & N2). exists k2. split; [exact B2|]. split; [exact S2|lia].
Qed.
Lemma zeros_near : forall n k, Forall2 (near k) (@zeros1 R (NumF rnd) n) (@zeros1 R NumR n).
Proof.
  intros n k. unfold zeros1. cbn [n0 NumF NumR]. induction n as [|n IH]; cbn; constructor; [|exact IH]. split; [split; [lra|apply (rnd0 rnd u eta RD)]|]. rewrite Rminus_0_r, Rabs_R0. apply EM.
Qed.
Lemma restart_beside : forall k l l' Q Q' b, beside k l l' -> near_q k Q Q' -> beside k (mkLearner Q (l_orig l) b (l_adj l) 1 (l_done l)) (mkLearner Q' (l_orig l') b (l_adj l') 1 (l_done l')).
Proof. intros k l l' Q Q' b B N. constructor; cbn; try apply B; auto. Qed.
(** [fit_td] either stops at once, or goes on with the number of observations set back. *)
Definition together1 (k : nat) (o o' : learner R * res unit) : Prop := exists k', beside k' (fst o) (fst o') /\ snd o = snd o' /\ (snd o = Ok tt -> (l_n (fst o) + k = 1 + k')%nat).
Lemma fit_td_beside : forall mdps ts k l l', beside k l l' -> together1 k (@fit_td R (NumF rnd) cF mdps ts l) (@fit_td R NumR cR mdps ts l').
Proof.
  intros mdps ts k l l' B. pose proof (bs_q _ _ _ B) as Q. pose proof (bs_s _ _ _ B) as S.
  assert (G : forall q q' b, near_q k q q' -> together1 k (@observe_trajectories R (NumF rnd) cF mdps 0 ts (mkLearner q (l_orig l) b (l_adj l) 1 (l_done l))) (@observe_trajectories R NumR cR mdps 0 ts (mkLearner q' (l_orig l') b (l_adj l') 1 (l_done l')))).
  { intros q q' b N. destruct (trajectories_beside mdps ts 0 k _ _ (restart_beside k l l' q q' b B N)) as (k1 & B1 & S1 & N1). exists k1. split; [exact B1|]. split; [exact S1|]. intros _. exact N1. }
  unfold fit_td. destruct (l_Q l) as [| |q], (l_Q l') as [| |q']; try contradiction.
  - destruct mdps as [|m ms]; [exists k; cbn; repeat split; try apply B; discriminate|]. apply G, zeros_near.
  - rewrite <- S. destruct mdps; now apply G.
  - rewrite <- S. destruct mdps; now apply G.
Qed.
Lemma fit_beside : forall arg ts k l l', beside k l l' -> together1 k (@fit_learner R (NumF rnd) cF arg ts l) (@fit_learner R NumR cR arg ts l').
Proof.
  intros arg ts k l l' B.
  assert (G : forall mdps, together1 k (let '(x, r) := @fit_td R (NumF rnd) cF mdps ts l in (match r with Ok _ => mkLearner (l_Q x) (l_orig x) (l_shared x) (l_adj x) (l_n x) true | Err _ => x end, r)) (let '(x, r) := @fit_td R NumR cR mdps ts l' in (match r with Ok _ => mkLearner (l_Q x) (l_orig x) (l_shared x) (l_adj x) (l_n x) true | Err _ => x end, r))).
  { intros mdps. destruct (fit_td_beside mdps ts k l l' B) as (k1 & B1 & S1 & N1). destruct (@fit_td R (NumF rnd) cF mdps ts l) as [x r], (@fit_td R NumR cR mdps ts l') as [x' r']. cbn [fst snd] in *. subst r'. exists k1. cbn [fst snd].
    destruct r as [y|e]; (split; [|split; [reflexivity|exact N1]]); [|exact B1]. constructor; cbn; try apply B1. reflexivity. }
  destruct arg as [m|ms]; cbn [fit_learner]; [apply G|]. destruct (negb (length ts =? length ms)%nat); [|apply G]. exists k. cbn. split; [exact B|]. split; [reflexivity|discriminate].
Qed.
Lemma reset_beside : forall k l l', beside k l l' -> beside k (reset_learner cF l) (reset_learner cR l').
Proof.
  intros k l l' B. unfold reset_learner. constructor; cbn; try apply B; auto. rewrite <- LR. split; [exact LU|]. split; [exact (proj1 LU)|]. replace (c_lr cF - c_lr cF) with 0 by ring. rewrite Rabs_R0. apply RS.
Qed.
Lemma new_beside : forall Q, (forall q, Q = Some q -> Forall unit_float q) -> beside 0 (new_learner cF Q) (new_learner cR Q).
Proof.
  intros Q U. unfold new_learner. assert (N : near_q 0 (match Q with None => QNone | Some q => QArr q end) (match Q with None => QNone | Some q => QArr q end) /\ near_q 0 (match Q with None => QObj | Some q => QArr q end) (match Q with None => QObj | Some q => QArr q end)).
  { destruct Q as [q|]; [|split; exact I]. assert (F : Forall2 (near 0) q q); [|now split]. specialize (U q eq_refl). induction U as [|x q X _ IH]; constructor; [|exact IH]. split; [exact X|]. replace (x - x) with 0 by ring. rewrite Rabs_R0. apply EM. }
  constructor; cbn; try apply N; auto. rewrite <- LR. split; [exact LU|]. split; [exact (proj1 LU)|]. replace (c_lr cF - c_lr cF) with 0 by ring. rewrite Rabs_R0. apply RS.
Qed.
End Pair.
End Rounded.
