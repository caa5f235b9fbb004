(** The solver's loops. *)
From Coq Require Import List ZArith Reals Bool Lia Lra.
From Verif Require Import PyBase PyProofs ActionSpec ActionProofs SoftmaxProofs RSum VISpec VIModel VIProofs.
Import ListNotations.
Local Open Scope R_scope.

Definition fn (l : list R) : nat -> R := fun t => nth t l 0.

Lemma dot_sumf : forall n (u v : list R), length u = n -> length v = n -> dot u v = sumf (fun t => nth t u 0 * nth t v 0) (seq 0 n).
Proof.
  intros n u v Lu Lv. unfold dot. rewrite nsum_Rsum, Rsum_nth, map_length, combine_length, Lu, Lv, Nat.min_id.
  apply sumf_ext. intros t Ht. apply in_seq in Ht. rewrite (nth_map_lt _ _ _ _ _ _ (0, 0)) by (rewrite combine_length; lia).
  rewrite combine_nth by lia. reflexivity.
Qed.
Lemma state_rewards_nth : forall n rf features t, length rf = length features -> (t < n)%nat ->
  nth t (state_rewards n rf features) 0 = reward_of rf features t.
Proof.
  intros n rf features t L Ht. unfold state_rewards. rewrite (nth_map_lt _ _ _ _ _ _ 0%nat) by (rewrite seq_length; exact Ht). rewrite seq_nth by exact Ht.
  rewrite nsum_Rsum, Rsum_nth, map_length, combine_length, <- L, Nat.min_id. unfold reward_of. apply sumf_ext. intros i Hi. apply in_seq in Hi.
  rewrite (nth_map_lt _ _ _ _ _ _ (0, [])) by (rewrite combine_length; lia). rewrite combine_nth by lia. reflexivity.
Qed.

Section Solver.
Variables (sas : list (list (list R))) (g : R) (reward : list R) (backup : list R -> res R) (bk : list R -> R).
Let n := n_states sas.
Let nA := n_actions sas.
Hypothesis MD : is_mdp sas.
Hypothesis g_rng : 0 < g < 1.
Hypothesis Lr : length reward = n.
Hypothesis bk_ok : forall l, length l = nA -> backup l = Ok (bk l).
Hypothesis bk_ne : forall l l' c, length l = nA -> length l' = nA ->
  (forall i, (i < nA)%nat -> Rabs (nth i l 0 - nth i l' 0) <= c) -> Rabs (bk l - bk l') <= c.
Let r : nat -> R := fn reward.

Lemma row_facts : forall s a, (s < n)%nat -> (a < nA)%nat ->
  length (nth a (nth s sas []) []) = n /\ (forall t, 0 <= prob sas s a t) /\ sumf (prob sas s a) (seq 0 n) <= 1.
Proof using MD.
  clear Lr g_rng bk_ok bk_ne.
  intros s a Hs Ha. destruct MD as [_ H]. destruct (H (nth s sas [])) as [L H']; [apply nth_In; exact Hs|].
  destruct (H' (nth a (nth s sas []) [])) as (H1 & H2 & H3); [apply nth_In; rewrite L; exact Ha|].
  split; [exact H1|]. split.
  - intros t. unfold prob. destruct (Nat.lt_ge_cases t (length (nth a (nth s sas []) []))) as [X|X]; [apply H2; now apply nth_In|rewrite nth_overflow by lia; lra].
  - rewrite Rsum_nth, H1 in H3. exact H3.
Qed.
Lemma p_nn : forall s a t, (s < n)%nat -> (a < nA)%nat -> (t < n)%nat -> 0 <= prob sas s a t.
Proof using MD. clear Lr g_rng bk_ok bk_ne. intros s a t Hs Ha _. now apply row_facts. Qed.
Lemma p_sum : forall s a, (s < n)%nat -> (a < nA)%nat -> sumf (prob sas s a) (seq 0 n) <= 1.
Proof using MD. clear Lr g_rng bk_ok bk_ne. intros s a Hs Ha. now apply row_facts. Qed.

Lemma sav : forall s V, (s < n)%nat -> length V = n -> state_action_values s nA sas reward g V = map (action_value sas r g (fn V) s) (seq 0 nA).
Proof.
  intros s V Hs L. unfold state_action_values. apply map_ext_in. intros a Ha. apply in_seq in Ha.
  destruct (row_facts s a Hs ltac:(lia)) as [L1 _]. rewrite (dot_sumf n); [|exact L1|rewrite map_length, combine_length; lia].
  unfold action_value. apply sumf_ext. intros t Ht. apply in_seq in Ht. fold n in Ht.
  rewrite (nth_map_lt _ _ _ _ _ _ (0, 0)) by (rewrite combine_length; lia). rewrite combine_nth by lia. reflexivity.
Qed.

Definition FX := fixed n nA (prob sas) r g bk.

(** What one sweep does. *)
Lemma sweep_spec : forall V, length V = n -> exists W d q, state_value_iterator backup V 0 reward g sas = Ok (W, d, q) /\
  length W = n /\ length q = n /\ Forall (fun row => length row = nA) q /\
  (forall s, (s < n)%nat -> nth s W 0 = bk (nth s q [])) /\
  near n d (fn V) (fn W) /\ (forall e, 0 <= e -> near n e (fn V) (fn W) -> d <= e) /\
  (forall Vs c, 0 <= c -> FX Vs -> near n c (fn V) Vs -> near n (g * c) (fn W) Vs /\
     forall s a, (s < n)%nat -> (a < nA)%nat -> Rabs (nth a (nth s q []) 0 - action_value sas r g Vs s a) <= g * c).
Proof.
  intros V LV. unfold state_value_iterator. fold (n_states sas). fold n. fold (n_actions sas). fold nA.
  set (Inv := fun k (acc : list R * R * list (list R)) => let '(W, d, q) := acc in
    length W = n /\ length q = n /\ Forall (fun row => length row = nA) q /\
    (forall s, (s < k)%nat -> nth s W 0 = bk (nth s q [])) /\
    (forall s, (k <= s)%nat -> nth s W 0 = nth s V 0) /\
    (forall s, (s < k)%nat -> Rabs (fn V s - fn W s) <= d) /\ 0 <= d /\ (forall e, 0 <= e -> near n e (fn V) (fn W) -> d <= e) /\
    (forall Vs c, 0 <= c -> FX Vs -> near n c (fn V) Vs ->
       (forall s, (s < k)%nat -> Rabs (fn W s - Vs s) <= g * c) /\
       forall s a, (s < k)%nat -> (a < nA)%nat -> Rabs (nth a (nth s q []) 0 - action_value sas r g Vs s a) <= g * c)).
  assert (K : forall k, (k <= n)%nat -> exists acc, foldM (sweep_state backup reward g sas) (seq 0 k) (V, 0, zeros2 n nA) = Ok acc /\ Inv k acc).
  { induction k as [|k IH]; intros Hk.
    - exists (V, 0, zeros2 n nA). split; [reflexivity|]. cbn [Inv]. split; [exact LV|]. split; [apply repeat_length|].
      split. { unfold zeros2. apply Forall_forall. intros x Hx. apply repeat_spec in Hx. subst. apply repeat_length. }
      split; [intros; lia|]. split; [reflexivity|]. split; [intros; lia|]. split; [lra|]. split; [auto|]. intros. split; intros; lia.
    - destruct (IH ltac:(lia)) as ([[W d] q] & E & I1 & I2 & I3 & I4 & I5 & I6 & I7 & I8 & I9). rewrite seq_S, foldM_app, E. cbn [bind foldM plus].
      unfold sweep_state. fold (n_actions sas). fold nA. rewrite (sav k W) by (assumption || lia).
      set (av := map (action_value sas r g (fn W) k) (seq 0 nA)). assert (Lav : length av = nA) by (unfold av; now rewrite map_length, seq_length).
      rewrite (bk_ok av Lav). cbn [bind]. eexists. split; [reflexivity|]. cbn [Inv n0 NumR].
      assert (WK : nth k W 0 = nth k V 0) by (apply I5; lia).
      assert (NU : forall s, nth s (upd W k (bk av)) 0 = if (s =? k)%nat then bk av else nth s W 0).
      { intros s. rewrite nth_upd. destruct (Nat.eqb_spec s k) as [->|]; [|reflexivity]. destruct (Nat.ltb_spec k (length W)); [reflexivity|lia]. }
      assert (NQ : forall s, nth s (upd q k av) [] = if (s =? k)%nat then av else nth s q []).
      { intros s. rewrite nth_upd. destruct (Nat.eqb_spec s k) as [->|]; [|reflexivity]. destruct (Nat.ltb_spec k (length q)); [reflexivity|lia]. }
      assert (DU : delta_update d (nth k W 0) (bk av) = Rmax d (Rabs (nth k V 0 - bk av))).
      { unfold delta_update, nmax, nabs. rewrite WK. cbn [nltb nsub n0 NumR].
        assert (AB : (if Rltb (nth k V 0 - bk av) 0 then 0 - (nth k V 0 - bk av) else nth k V 0 - bk av) = Rabs (nth k V 0 - bk av)).
        { unfold Rabs, Rltb. destruct (Rcase_abs _), (Rlt_dec _ _); lra. }
        rewrite AB. unfold Rltb, Rmax. destruct (Rlt_dec _ _), (Rle_dec _ _); lra. }
      assert (WN : forall Vs c, 0 <= c -> FX Vs -> near n c (fn V) Vs -> near n c (fn W) Vs).
      { intros Vs c C F N s Hs. destruct (Nat.lt_ge_cases s k) as [X|X].
        - destruct (I9 Vs c C F N) as [Y _]. specialize (Y s X). assert (g * c <= 1 * c) by (apply Rmult_le_compat_r; lra). lra.
        - unfold fn at 1. rewrite I5 by exact X. now apply N. }
      assert (AVN : forall Vs c, 0 <= c -> FX Vs -> near n c (fn V) Vs -> forall a, (a < nA)%nat -> Rabs (nth a av 0 - action_value sas r g Vs k a) <= g * c).
      { intros Vs c C F N a Ha. unfold av. rewrite (nth_map_lt _ _ _ _ _ _ 0%nat) by (rewrite seq_length; exact Ha). rewrite seq_nth by exact Ha. cbn [plus].
        apply (qv_contr n nA (prob sas) r g p_nn p_sum); [lra|lia|exact Ha|now apply WN]. }
      assert (BKN : forall Vs c, 0 <= c -> FX Vs -> near n c (fn V) Vs -> Rabs (bk av - Vs k) <= g * c).
      { intros Vs c C F N. rewrite (F k) by lia. unfold T. apply bk_ne; [exact Lav|now rewrite map_length, seq_length|].
        intros i Hi. rewrite (nth_map_lt _ _ _ (seq 0 nA) _ _ 0%nat) by (rewrite seq_length; exact Hi). rewrite seq_nth by exact Hi. now apply AVN. }
      split; [now rewrite upd_length|]. split; [now rewrite upd_length|]. split.
      { apply Forall_forall. intros x Hx. apply (In_nth _ _ []) in Hx. destruct Hx as (i & Hi & <-). rewrite upd_length in Hi. rewrite NQ. destruct (i =? k)%nat; [exact Lav|].
        rewrite Forall_forall in I3. apply I3. now apply nth_In. }
      split. { intros s Hs. rewrite NU, NQ. destruct (Nat.eqb_spec s k); [reflexivity|apply I4; lia]. }
      split. { intros s Hs. rewrite NU. destruct (Nat.eqb_spec s k); [lia|apply I5; lia]. }
      rewrite DU. split.
      { intros s Hs. unfold fn. rewrite NU. destruct (Nat.eqb_spec s k) as [->|N]; [apply Rmax_r|]. eapply Rle_trans; [apply I6; lia|apply Rmax_l]. }
      split; [eapply Rle_trans; [exact I7|apply Rmax_l]|]. split.
      { intros e He N. apply Rmax_lub.
        - apply I8; [exact He|]. intros s Hs. destruct (Nat.eq_dec s k) as [->|X].
          + unfold fn. rewrite WK, Rminus_diag_eq, Rabs_R0 by reflexivity. exact He.
          + specialize (N s Hs). unfold fn in N. rewrite NU in N. destruct (Nat.eqb_spec s k); [contradiction|exact N].
        - specialize (N k ltac:(lia)). unfold fn in N. rewrite NU, Nat.eqb_refl in N. exact N. }
      intros Vs c C F N. destruct (I9 Vs c C F N) as [J1 J2]. split.
      + intros s Hs. unfold fn. rewrite NU. destruct (Nat.eqb_spec s k) as [->|X]; [now apply BKN|apply J1; lia].
      + intros s a Hs Ha. rewrite NQ. destruct (Nat.eqb_spec s k) as [->|X]; [now apply AVN|apply J2; [lia|exact Ha]]. }
  destruct (K n ltac:(lia)) as ([[W d] q] & E & I1 & I2 & I3 & I4 & _ & I6 & _ & I8 & I9).
  exists W, d, q. split; [exact E|]. auto 10.
Qed.

(** ** The loop over sweeps *)
Definition close (c : R) (W : list R) (q : list (list R)) (Vs : nat -> R) : Prop :=
  near n c (fn W) Vs /\ forall s a, (s < n)%nat -> (a < nA)%nat -> Rabs (nth a (nth s q []) 0 - action_value sas r g Vs s a) <= c.
Lemma vi_loop_spec : forall tol k V q0, length V = n -> exists W q,
  vi_loop backup (S k) V q0 reward g sas tol = Ok (W, Some q) /\ length W = n /\ length q = n /\ Forall (fun row => length row = nA) q /\
  (forall s, (s < n)%nat -> nth s W 0 = bk (nth s q [])) /\
  forall Vs c, FX Vs -> 0 <= c -> near n c (fn V) Vs ->
    (close (g * tol / (1 - g)) W q Vs \/ close (g ^ (S k) * c) W q Vs) /\
    ((1 + g) * g ^ k * c < tol -> close (g * tol / (1 - g)) W q Vs).
Proof.
  intros tol. assert (G1 : 0 < 1 - g) by lra.
  assert (STOP : forall V W d q, length V = n -> state_value_iterator backup V 0 reward g sas = Ok (W, d, q) -> d < tol ->
    forall Vs, FX Vs -> close (g * tol / (1 - g)) W q Vs).
  { intros V W d q LV E D Vs F. destruct (sweep_spec V LV) as (W' & d' & q' & E' & _ & _ & _ & _ & ND & _ & C).
    rewrite E in E'. inversion E'. subst W' d' q'. clear E'.
    destruct (Nat.eq_dec n 0) as [Z|NZ]; [split; intros s; intros; lia|].
    assert (D0 : 0 <= d) by (eapply near_nonneg; [|exact ND]; lia).
    (* the best bound on |V - Vs| *)
    assert (B : forall k c, 0 <= c -> near n c (fn V) Vs -> near n (d / (1 - g) + g ^ k * c) (fn V) Vs).
    { induction k as [|k IH]; intros c C0 N.
      - cbn [pow]. eapply near_weaken; [|exact N]. assert (0 <= d / (1 - g)) by (apply Rmult_le_pos; [exact D0|left; now apply Rinv_0_lt_compat]). lra.
      - assert (0 <= d / (1 - g) + g ^ k * c) by (eapply near_nonneg; [|apply IH; eassumption]; lia).
        destruct (C Vs _ H F (IH c C0 N)) as [N' _]. eapply near_weaken; [|exact (near_trans _ _ _ _ _ _ ND N')]. right. cbn [pow]. field. lra. }
    destruct (bounded n (fn V) Vs) as (c & C0 & N).
    assert (NV : near n (d / (1 - g)) (fn V) Vs).
    { intros s Hs. apply Rnot_lt_le. intros X. destruct (pow_small g ltac:(lra) c (Rabs (fn V s - Vs s) - d / (1 - g))) as (k & Hk); [lra|].
      specialize (B k c C0 N s Hs). lra. }
    destruct (C Vs (d / (1 - g)) ltac:(eapply near_nonneg; [|exact NV]; lia) F NV) as [N1 N2].
    assert (LE : g * (d / (1 - g)) <= g * tol / (1 - g)).
    { unfold Rdiv. rewrite <- Rmult_assoc. apply Rmult_le_compat_r; [left; now apply Rinv_0_lt_compat|]. apply Rmult_le_compat_l; lra. }
    split; [eapply near_weaken; [exact LE|exact N1]|]. intros s a Hs Ha. eapply Rle_trans; [now apply N2|exact LE]. }
  induction k as [|k IH]; intros V q0 LV.
  - destruct (sweep_spec V LV) as (W & d & q & E & H1 & H2 & H3 & H4 & ND & DE & C). cbn [vi_loop]. cbn [n0 NumR]. rewrite E. cbn [bind nltb NumR].
    exists W, q. split; [destruct (Rltb d tol); reflexivity|]. do 4 (split; [assumption|]). intros Vs c F C0 N. destruct (C Vs c C0 F N) as [N1 N2]. split.
    + right. cbn [pow]. rewrite Rmult_1_r. split; assumption.
    + intros X. eapply STOP; [exact LV|exact E| |exact F]. cbn [pow] in X. eapply Rle_lt_trans; [|exact X].
      apply DE; [assert (0 <= (1 + g) * c) by (apply Rmult_le_pos; lra); lra|].
      eapply near_weaken; [|exact (near_trans _ _ _ _ _ _ N (near_sym _ _ _ _ N1))]. right. ring.
  - destruct (sweep_spec V LV) as (W & d & q & E & H1 & H2 & H3 & H4 & ND & DE & C). cbn [vi_loop]. cbn [n0 NumR]. rewrite E. cbn [bind nltb NumR].
    destruct (Rltb d tol) eqn:D.
    + apply Rltb_true in D. exists W, q. split; [reflexivity|]. do 4 (split; [assumption|]). intros Vs c F C0 N. split; [left|intros _]; exact (STOP V W d q LV E D Vs F).
    + destruct (IH W (Some q) H1) as (W2 & q2 & E2 & K1 & K2 & K3 & K4 & K5). exists W2, q2. split; [exact E2|]. do 4 (split; [assumption|]).
      intros Vs c F C0 N. destruct (C Vs c C0 F N) as [N1 _]. destruct (K5 Vs (g * c) F ltac:(apply Rmult_le_pos; lra) N1) as [J1 J2]. split.
      * destruct J1 as [J1|J1]; [now left|]. right. replace (g ^ S (S k) * c) with (g ^ S k * (g * c)) by (cbn [pow]; ring). exact J1.
      * intros X. apply J2. replace ((1 + g) * g ^ k * (g * c)) with ((1 + g) * g ^ S k * c) by (cbn [pow]; ring). exact X.
Qed.
End Solver.
