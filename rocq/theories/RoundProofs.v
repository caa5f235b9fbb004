(** Value iteration with rounded numbers. *)
From Coq Require Import List ZArith Reals Bool Lia Lra Psatz.
From Verif Require Import PyBase PyProofs ActionSpec ActionProofs SoftmaxProofs RSum VISpec VIModel VIProofs VIProofs2 VIProps RoundModel RoundSpec.
Import ListNotations.
Local Open Scope R_scope.

Section Rounded.
Variables (rnd : R -> R) (u eta : R).
Hypothesis RD : rounding rnd u eta.

Lemma u0 : 0 <= u. Proof. apply (rd_u _ _ _ RD). Qed.
Lemma e0 : 0 <= eta. Proof. apply (rd_eta _ _ _ RD). Qed.
Lemma rnd0 : rnd 0 = 0.
Proof. pose proof (rd_opp _ _ _ RD 0) as H. rewrite Ropp_0 in H. lra. Qed.
Lemma rnd_abs : forall x, Rabs (rnd x) = rnd (Rabs x).
Proof.
  intros x. unfold Rabs at 2. destruct (Rcase_abs x) as [N|P].
  - assert (rnd x <= 0) by (rewrite <- rnd0; apply (rd_le _ _ _ RD); lra). rewrite (rd_opp _ _ _ RD). now apply Rabs_left1.
  - assert (0 <= rnd x) by (rewrite <- rnd0; apply (rd_le _ _ _ RD); lra). now apply Rabs_pos_eq.
Qed.
Lemma rnd_size : forall x, Rabs (rnd x) <= (1 + u) * Rabs x + eta.
Proof.
  intros x. pose proof (rd_err _ _ _ RD x). pose proof (Rabs_triang (rnd x - x) x) as T. replace (rnd x - x + x) with (rnd x) in T by ring. lra.
Qed.

(** Sums in which at most one term is not zero are exact. *)
Lemma sure_dot : forall row target acc, length row = length target -> (forall x, In x row -> x = 0 \/ x = 1) -> Rsum row <= 1 ->
  (forall x, In x target -> rnd x = x) -> rnd acc = acc -> (acc = 0 \/ forall x, In x row -> x = 0) ->
  fold_left (fun a b => rnd (a + b)) (map (fun '(x, y) => rnd (x * y)) (combine row target)) acc =
  acc + Rsum (map (fun '(x, y) => x * y) (combine row target)).
Proof.
  induction row as [|p row IH]; intros [|x target] acc L H01 S1 RT RA C; try discriminate; cbn [combine map fold_left]; [unfold Rsum; cbn; lra|].
  cbn [length] in L. assert (H01' : forall x, In x row -> x = 0 \/ x = 1) by (intros; apply H01; now right).
  assert (NN : forall x, In x row -> 0 <= x) by (intros y Hy; destruct (H01' y Hy); lra).
  assert (SP : 0 <= Rsum row) by (now apply Rsum_nonneg).
  assert (E : Rsum (p :: row) = p + Rsum row) by reflexivity. rewrite E in S1.
  assert (E2 : forall (z : R) l, Rsum (z :: l) = z + Rsum l) by reflexivity.
  assert (RT' : forall y, In y target -> rnd y = y) by (intros; apply RT; now right).
  destruct (H01 p (or_introl eq_refl)) as [-> | ->].
  - replace (rnd (0 * x)) with 0 by (rewrite Rmult_0_l; now rewrite rnd0). rewrite Rplus_0_r, RA. rewrite IH; auto; [|lra|].
    + rewrite E2. ring.
    + destruct C as [C|C]; [now left|right]. intros y Hy. apply C. now right.
  - destruct C as [->|C]; [|specialize (C 1 (or_introl eq_refl)); lra].
    assert (Z : forall y, In y row -> y = 0).
    { intros y Hy. destruct (H01' y Hy) as [E0|E1]; [exact E0|exfalso]. assert (M : y <= Rsum row) by (clear - NN Hy; induction row as [|z row IH]; [destruct Hy|]; rewrite Rsum_cons; assert (0 <= z) by (apply NN; now left); assert (0 <= Rsum row) by (apply Rsum_nonneg; intros; apply NN; now right); destruct Hy as [<-|Hy]; [lra|]; specialize (IH (fun w Hw => NN w (or_intror Hw)) Hy); lra). lra. }
    replace (rnd (0 + rnd (1 * x))) with x by (rewrite Rplus_0_l, Rmult_1_l, (rd_idem _ _ _ RD); symmetry; apply RT; now left).
    rewrite IH; auto; [|lra|apply RT; now left]. rewrite E2. ring.
Qed.

(** ** Rewards *)
Lemma sum_error : forall xs S s A E, Rabs (S - s) <= E -> Rabs s <= A -> forall k : nat,
  E <= ((1 + u) ^ (Datatypes.S k) - 1) * A + 2 * INR k * eta * (1 + u) ^ k ->
  Rabs (fold_left (fun a b => rnd (a + b)) (map rnd xs) S - (s + Rsum xs)) <=
  ((1 + u) ^ (Datatypes.S (k + length xs)) - 1) * (A + Rsum (map Rabs xs)) + 2 * INR (k + length xs) * eta * (1 + u) ^ (k + length xs).
Proof.
  assert (U := u0). assert (H0 := e0). induction xs as [|x xs IH]; intros S s A E HE HA k HK.
  - cbn [map fold_left length]. rewrite Nat.add_0_r. unfold Rsum. cbn [fold_right]. rewrite !Rplus_0_r. lra.
  - cbn [map fold_left length]. rewrite !Rsum_cons. replace (s + (x + Rsum xs)) with ((s + x) + Rsum xs) by ring.
    replace (A + (Rabs x + Rsum (map Rabs xs))) with ((A + Rabs x) + Rsum (map Rabs xs)) by ring.
    replace (k + Datatypes.S (length xs))%nat with (Datatypes.S k + length xs)%nat by lia.
    pose proof (rd_err _ _ _ RD x) as H1. set (y := rnd x) in *. pose proof (rd_err _ _ _ RD (S + y)) as H2.
    assert (Z1 : Rabs (S + y - (s + x)) <= E + (u * Rabs x + eta)).
    { replace (S + y - (s + x)) with ((S - s) + (y - x)) by ring. eapply Rle_trans; [apply Rabs_triang|]. lra. }
    assert (Z2 : Rabs (S + y) <= A + Rabs x + (E + (u * Rabs x + eta))).
    { replace (S + y) with ((S + y - (s + x)) + (s + x)) by ring. eapply Rle_trans; [apply Rabs_triang|]. pose proof (Rabs_triang s x). lra. }
    assert (Z3 : Rabs (rnd (S + y) - (s + x)) <= (1 + u) * (E + (u * Rabs x + eta)) + u * (A + Rabs x) + eta).
    { replace (rnd (S + y) - (s + x)) with ((rnd (S + y) - (S + y)) + (S + y - (s + x))) by ring. eapply Rle_trans; [apply Rabs_triang|].
      assert (u * Rabs (S + y) <= u * (A + Rabs x + (E + (u * Rabs x + eta)))) by (apply Rmult_le_compat_l; assumption). lra. }
    apply (IH _ _ _ _ Z3).
    + pose proof (Rabs_triang s x). lra.
    + assert (P1 : 1 <= (1 + u) ^ k) by (apply pow_R1_Rle; lra). assert (X := Rabs_pos x). assert (AP : 0 <= A) by (eapply Rle_trans; [apply Rabs_pos|exact HA]).
      set (p := (1 + u) ^ k) in *. cbn [pow] in *. fold p in HK |- *. rewrite S_INR. set (n := INR k) in *. assert (N0 : 0 <= n) by apply pos_INR.
      apply Rle_trans with ((1 + u) * (((1 + u) * p - 1) * A + 2 * n * eta * p + (u * Rabs x + eta)) + u * (A + Rabs x) + eta).
      * assert ((1 + u) * (E + (u * Rabs x + eta)) <= (1 + u) * (((1 + u) * p - 1) * A + 2 * n * eta * p + (u * Rabs x + eta))) by (apply Rmult_le_compat_l; lra). lra.
      * assert (W1 : 0 <= ((1 + u) * (1 + u)) * (p - 1) * Rabs x) by (apply Rmult_le_pos; [apply Rmult_le_pos; nra|exact X]).
        assert (W2 : 0 <= eta * (1 + u) * (p - 1)) by (apply Rmult_le_pos; [nra|lra]). nra.
Qed.


(** ** One sweep *)
Lemma nsum_sure : forall row : list R, (forall x, In x row -> x = 0 \/ x = 1) -> Rsum row <= 1 -> @nsum R (NumF rnd) row = Rsum row.
Proof.
  intros row H S. pose proof (sure_dot row (repeat 1 (length row)) 0 ltac:(now rewrite repeat_length) H S) as K.
  assert (E : map (fun '(x, y) => x * y) (combine row (repeat 1 (length row))) = row).
  { clear. induction row as [|x row IH]; [reflexivity|]. cbn [length repeat combine map]. rewrite IH. f_equal. ring. }
  assert (E' : map (fun '(x, y) => rnd (x * y)) (combine row (repeat 1 (length row))) = row).
  { clear - RD H. induction row as [|x row IH]; [reflexivity|]. cbn [length repeat combine map]. rewrite IH by (intros; apply H; now right). f_equal. rewrite Rmult_1_r.
    destruct (H x (or_introl eq_refl)) as [-> | ->]; [apply rnd0|apply (rd_one _ _ _ RD)]. }
  rewrite E, E' in K. unfold nsum. cbn [nadd n0 NumF]. rewrite K; [ring| |apply rnd0|now left].
  intros x Hx. apply repeat_spec in Hx. subst. apply (rd_one _ _ _ RD).
Qed.

Section Sweeps.
Variables (sas : list (list (list R))) (g : R) (reward : list R) (r : nat -> R) (rho eps B : R).
Let n := n_states sas.
Let nA := n_actions sas.
Hypothesis MD : is_mdp sas.
Hypothesis SU : sure sas.
Hypothesis g_rng : 0 < g < 1.
Hypothesis Lr : length reward = n.
Hypothesis r_near : forall t, (t < n)%nat -> Rabs (nth t reward 0 - r t) <= eps.
Hypothesis r_small : forall t, (t < n)%nat -> Rabs (nth t reward 0) <= rho.
Hypothesis room : (rho + g * B * (1 + u) + eta) * (1 + u) + eta <= B.
Hypothesis B0 : 0 <= B.
Hypothesis eps0 : 0 <= eps.
Definition delta : R := eps + 2 * (u * B + eta).
Let D := delta / (1 - g).
Lemma delta0 : 0 <= delta.
Proof. assert (U := u0). assert (H0 := e0). unfold delta. assert (0 <= u * B) by now apply Rmult_le_pos. lra. Qed.

Definition small (V : list R) : Prop := forall t, (t < n)%nat -> Rabs (nth t V 0) <= B.
Definition target (V : list R) (t : nat) : R := rnd (nth t reward 0 + rnd (g * nth t V 0)).

Lemma target_ok : forall V t, small V -> (t < n)%nat -> Rabs (target V t) <= B /\ Rabs (target V t - (r t + g * nth t V 0)) <= delta.
Proof.
  intros V t SV Ht. unfold target, delta. assert (U := u0). assert (H0 := e0). specialize (SV t Ht). specialize (r_near t Ht). specialize (r_small t Ht).
  set (v := nth t V 0) in *. set (w := nth t reward 0) in *. assert (GV : Rabs (g * v) <= g * B) by (rewrite Rabs_mult, (Rabs_pos_eq g) by lra; apply Rmult_le_compat_l; lra).
  pose proof (rd_err _ _ _ RD (g * v)) as H1. pose proof (rnd_size (g * v)) as H2. set (x := rnd (g * v)) in *.
  pose proof (rd_err _ _ _ RD (w + x)) as H3. pose proof (rnd_size (w + x)) as H4.
  assert (UG : u * Rabs (g * v) <= u * (g * B)) by (apply Rmult_le_compat_l; assumption).
  assert (XB : Rabs x <= g * B * (1 + u) + eta) by (assert ((1 + u) * Rabs (g * v) <= (1 + u) * (g * B)) by (apply Rmult_le_compat_l; lra); lra).
  assert (WX : Rabs (w + x) <= rho + g * B * (1 + u) + eta) by (eapply Rle_trans; [apply Rabs_triang|]; lra).
  assert (IN : rho + g * B * (1 + u) + eta <= B).
  { assert (0 <= (rho + g * B * (1 + u) + eta) * u) by (apply Rmult_le_pos; [|exact U]; eapply Rle_trans; [apply Rabs_pos|exact WX]). lra. }
  assert (BP : 0 <= B) by (eapply Rle_trans; [apply Rabs_pos|exact SV]).
  split.
  - eapply Rle_trans; [exact H4|]. assert ((1 + u) * Rabs (w + x) <= (1 + u) * (rho + g * B * (1 + u) + eta)) by (apply Rmult_le_compat_l; lra). lra.
  - replace (rnd (w + x) - (r t + g * v)) with ((rnd (w + x) - (w + x)) + ((x - g * v) + (w - r t))) by ring.
    eapply Rle_trans; [apply Rabs_triang|]. pose proof (Rabs_triang (x - g * v) (w - r t)).
    assert (u * Rabs (w + x) <= u * B) by (apply Rmult_le_compat_l; lra).
    assert (u * (g * B) <= u * B). { apply Rmult_le_compat_l; [exact U|]. assert (g * B <= 1 * B) by (apply Rmult_le_compat_r; lra). lra. }
    lra.
Qed.

Definition fav (V : list R) (s a : nat) : R := sumf (fun t => prob sas s a t * target V t) (seq 0 n).
Lemma sav_F : forall s V, (s < n)%nat -> length V = n -> @state_action_values R (NumF rnd) s nA sas reward g V = map (fav V s) (seq 0 nA).
Proof.
  intros s V Hs L. unfold state_action_values. apply map_ext_in. intros a Ha. apply in_seq in Ha.
  destruct (row_facts sas MD s a Hs ltac:(unfold nA in *; lia)) as (L1 & _ & _). fold n in L1.
  assert (IM : In (nth s sas []) sas) by (now apply nth_In).
  destruct MD as [_ M]. destruct (M _ IM) as [LM M2]. assert (IR : In (nth a (nth s sas []) []) (nth s sas [])) by (apply nth_In; rewrite LM; unfold nA in *; lia).
  destruct (M2 _ IR) as (_ & _ & S1). set (row := nth a (nth s sas []) []) in *.
  set (tg := map (fun '(r0, v) => nadd r0 (nmul g v)) (combine reward V)).
  assert (LT : length tg = n) by (unfold tg; rewrite map_length, combine_length; lia).
  assert (NT : forall t, (t < n)%nat -> nth t tg 0 = target V t).
  { intros t Ht. unfold tg. rewrite (nth_map_lt _ _ _ _ _ _ (0, 0)) by (rewrite combine_length; lia). rewrite combine_nth by lia. reflexivity. }
  unfold dot, nsum. cbn [nadd nmul n0 NumF]. rewrite (sure_dot row tg 0).
  - rewrite Rplus_0_l. rewrite Rsum_nth, map_length, combine_length, L1, LT, Nat.min_id. unfold fav. apply sumf_ext. intros t Ht. apply in_seq in Ht.
    rewrite (nth_map_lt _ _ _ _ _ _ (0, 0)) by (rewrite combine_length; lia). rewrite combine_nth by lia. rewrite NT by lia. reflexivity.
  - lia.
  - intros x Hx. exact (SU _ _ _ IM IR Hx).
  - exact S1.
  - intros x Hx. apply (In_nth _ _ 0) in Hx. destruct Hx as (t & Ht & <-). rewrite NT by lia. apply (rd_idem _ _ _ RD).
  - exact (rnd0).
  - now left.
Qed.

Lemma fav_ok : forall V s a, small V -> (s < n)%nat -> (a < nA)%nat ->
  Rabs (fav V s a) <= B /\ Rabs (fav V s a - action_value sas r g (fn V) s a) <= delta.
Proof.
  intros V s a SV Hs Ha. destruct (row_facts sas MD s a Hs Ha) as (_ & PN & PS). fold n in PS.
  assert (K : forall (f : nat -> R) c, 0 <= c -> (forall t, (t < n)%nat -> Rabs (f t) <= c) -> Rabs (sumf (fun t => prob sas s a t * f t) (seq 0 n)) <= c).
  { intros f c C H. eapply Rle_trans; [apply sumf_abs|]. apply Rle_trans with (sumf (fun t => c * prob sas s a t) (seq 0 n)).
    - apply sumf_le. intros t Ht. apply in_seq in Ht. rewrite Rabs_mult, (Rabs_pos_eq _ (PN t)). rewrite Rmult_comm. apply Rmult_le_compat_r; [apply PN|apply H; lia].
    - rewrite sumf_scal. apply Rle_trans with (c * 1); [now apply Rmult_le_compat_l|lra]. }
  split.
  - apply K; [exact B0|]. intros t Ht. apply (target_ok V t SV Ht).
  - unfold fav, action_value. fold n. rewrite <- sumf_sub.
    rewrite (sumf_ext _ _ (fun t => prob sas s a t * (target V t - (r t + g * nth t V 0)))) by (intros; unfold fn; ring).
    apply K; [exact delta0|]. intros t Ht. apply (target_ok V t SV Ht).
Qed.

Definition FXF := fixed n nA (prob sas) r g lmax.
(** What one sweep does. *)
Lemma sweep_F : forall V, length V = n -> small V -> exists W d q, @state_value_iterator R (NumF rnd) (@hard_backup R (NumF rnd)) V 0 reward g sas = Ok (W, d, q) /\
  length W = n /\ small W /\ length q = n /\ Forall (fun row => length row = nA) q /\
  (forall s, (s < n)%nat -> nth s W 0 = lmax (nth s q [])) /\
  (forall s, (s < n)%nat -> rnd (Rabs (fn V s - fn W s)) <= d) /\ (forall e, 0 <= e -> near n e (fn V) (fn W) -> d <= rnd e) /\
  (forall Vs c, D <= c -> FXF Vs -> near n c (fn V) Vs -> near n (g * c + delta) (fn W) Vs /\
     forall s a, (s < n)%nat -> (a < nA)%nat -> Rabs (nth a (nth s q []) 0 - action_value sas r g Vs s a) <= g * c + delta).
Proof.
  intros V LV SV. unfold state_value_iterator. fold (n_states sas). fold n. fold (n_actions sas). fold nA. assert (D0 := delta0).
  assert (DD : 0 <= D) by (unfold D; apply Rmult_le_pos; [exact D0|left; apply Rinv_0_lt_compat; lra]).
  assert (DE : g * D + delta = D) by (unfold D; field; lra).
  change (@zeros2 R (NumF rnd) n nA) with (@zeros2 R NumR n nA).
  set (Inv := fun k (acc : list R * R * list (list R)) => let '(W, d, q) := acc in
    length W = n /\ small W /\ length q = n /\ Forall (fun row => length row = nA) q /\
    (forall s, (s < k)%nat -> nth s W 0 = lmax (nth s q [])) /\
    (forall s, (k <= s)%nat -> nth s W 0 = nth s V 0) /\
    (forall s, (s < k)%nat -> rnd (Rabs (fn V s - fn W s)) <= d) /\ 0 <= d /\ (forall e, 0 <= e -> near n e (fn V) (fn W) -> d <= rnd e) /\
    (forall Vs c, D <= c -> FXF Vs -> near n c (fn V) Vs ->
       (forall s, (s < k)%nat -> Rabs (fn W s - Vs s) <= g * c + delta) /\
       forall s a, (s < k)%nat -> (a < nA)%nat -> Rabs (nth a (nth s q []) 0 - action_value sas r g Vs s a) <= g * c + delta)).
  assert (K : forall k, (k <= n)%nat -> exists acc, foldM (@sweep_state R (NumF rnd) (@hard_backup R (NumF rnd)) reward g sas) (seq 0 k) (V, 0, @zeros2 R NumR n nA) = Ok acc /\ Inv k acc).
  { induction k as [|k IH]; intros Hk.
    - exists (V, 0, @zeros2 R NumR n nA). split; [reflexivity|]. cbn [Inv]. split; [exact LV|]. split; [exact SV|]. split; [apply repeat_length|].
      split. { unfold zeros2. apply Forall_forall. intros x Hx. apply repeat_spec in Hx. subst. apply repeat_length. }
      split; [intros; lia|]. split; [reflexivity|]. split; [intros; lia|]. split; [lra|].
      split. { intros e He _. rewrite <- rnd0. now apply (rd_le _ _ _ RD). } intros. split; intros; lia.
    - destruct (IH ltac:(lia)) as ([[W d] q] & E & I1 & IS & I2 & I3 & I4 & I5 & I6 & I7 & I8 & I9). rewrite seq_S, foldM_app, E. cbn [bind foldM plus].
      unfold sweep_state. fold (n_actions sas). fold nA. rewrite (sav_F k W) by (assumption || lia).
      set (av := map (fav W k) (seq 0 nA)). assert (Lav : length av = nA) by (unfold av; now rewrite map_length, seq_length).
      assert (BO : @hard_backup R (NumF rnd) av = Ok (lmax av)) by exact (bk_hard sas MD av Lav).
      rewrite BO. cbn [bind]. eexists. split; [reflexivity|]. cbn [Inv n0 NumF].
      assert (AVn : forall a, (a < nA)%nat -> nth a av 0 = fav W k a).
      { intros a Ha. unfold av. rewrite (nth_map_lt _ _ _ _ _ _ 0%nat) by (rewrite seq_length; exact Ha). now rewrite seq_nth by exact Ha. }
      assert (WK : nth k W 0 = nth k V 0) by (apply I5; lia).
      assert (NU : forall s, nth s (upd W k (lmax av)) 0 = if (s =? k)%nat then lmax av else nth s W 0).
      { intros s. rewrite nth_upd. destruct (Nat.eqb_spec s k) as [->|]; [|reflexivity]. destruct (Nat.ltb_spec k (length W)); [reflexivity|lia]. }
      assert (NQ : forall s, nth s (upd q k av) [] = if (s =? k)%nat then av else nth s q []).
      { intros s. rewrite nth_upd. destruct (Nat.eqb_spec s k) as [->|]; [|reflexivity]. destruct (Nat.ltb_spec k (length q)); [reflexivity|lia]. }
      assert (MS : Rabs (lmax av) <= B).
      { assert (NE : av <> []) by (intros X; rewrite X in Lav; cbn in Lav; pose proof (proj1 MD); unfold nA in Lav; lia).
        destruct (lmax_spec av NE) as [I _]. apply (In_nth _ _ 0) in I. destruct I as (i & Hi & <-). rewrite Lav in Hi. rewrite AVn by exact Hi. apply fav_ok; [exact IS|lia|exact Hi]. }
      assert (DU : @delta_update R (NumF rnd) d (nth k W 0) (lmax av) = Rmax d (rnd (Rabs (nth k V 0 - lmax av)))).
      { unfold delta_update, nmax, nabs. rewrite WK. cbn [nltb nsub n0 NumF]. set (x := nth k V 0 - lmax av).
        assert (AB : (if Rltb (rnd x) 0 then rnd (0 - rnd x) else rnd x) = rnd (Rabs x)).
        { rewrite <- rnd_abs. replace (0 - rnd x) with (- rnd x) by ring. rewrite (rd_opp _ _ _ RD), (rd_idem _ _ _ RD). unfold Rabs, Rltb. destruct (Rcase_abs _), (Rlt_dec _ _); lra. }
        rewrite AB. unfold Rltb, Rmax. destruct (Rlt_dec _ _), (Rle_dec _ _); lra. }
      assert (WN : forall Vs c, D <= c -> FXF Vs -> near n c (fn V) Vs -> near n c (fn W) Vs).
      { intros Vs c C F N s Hs. destruct (Nat.lt_ge_cases s k) as [X|X].
        - destruct (I9 Vs c C F N) as [Y _]. specialize (Y s X). assert ((1 - g) * D <= (1 - g) * c) by (apply Rmult_le_compat_l; lra). lra.
        - unfold fn at 1. rewrite I5 by exact X. now apply N. }
      assert (AVN : forall Vs c, D <= c -> FXF Vs -> near n c (fn V) Vs -> forall a, (a < nA)%nat -> Rabs (nth a av 0 - action_value sas r g Vs k a) <= g * c + delta).
      { intros Vs c C F N a Ha. rewrite AVn by exact Ha. destruct (fav_ok W k a IS ltac:(lia) Ha) as [_ FA].
        pose proof (qv_contr n nA (prob sas) r g (p_nn sas MD) (p_sum sas MD) ltac:(lra) c (fn W) Vs k a ltac:(lia) Ha (WN Vs c C F N)) as QC.
        change (Rabs (action_value sas r g (fn W) k a - action_value sas r g Vs k a) <= g * c) in QC.
        replace (fav W k a - action_value sas r g Vs k a) with ((fav W k a - action_value sas r g (fn W) k a) + (action_value sas r g (fn W) k a - action_value sas r g Vs k a)) by ring.
        eapply Rle_trans; [apply Rabs_triang|]. lra. }
      assert (BKN : forall Vs c, D <= c -> FXF Vs -> near n c (fn V) Vs -> Rabs (lmax av - Vs k) <= g * c + delta).
      { intros Vs c C F N. rewrite (F k) by lia. unfold T. apply (lmax_ne nA); [apply (proj1 MD)|exact Lav|now rewrite map_length, seq_length|].
        intros i Hi. rewrite (nth_map_lt _ _ _ (seq 0 nA) _ _ 0%nat) by (rewrite seq_length; exact Hi). rewrite seq_nth by exact Hi. now apply AVN. }
      split; [now rewrite upd_length|]. split. { intros t Ht. rewrite NU. destruct (t =? k)%nat; [exact MS|now apply IS]. }
      split; [now rewrite upd_length|]. split.
      { apply Forall_forall. intros x Hx. apply (In_nth _ _ []) in Hx. destruct Hx as (i & Hi & <-). rewrite upd_length in Hi. rewrite NQ. destruct (i =? k)%nat; [exact Lav|].
        rewrite Forall_forall in I3. apply I3. now apply nth_In. }
      split. { intros s Hs. rewrite NU, NQ. destruct (Nat.eqb_spec s k); [reflexivity|apply I4; lia]. }
      split. { intros s Hs. rewrite NU. destruct (Nat.eqb_spec s k); [lia|apply I5; lia]. }
      rewrite DU. split.
      { intros s Hs. unfold fn. rewrite NU. destruct (Nat.eqb_spec s k) as [->|N]; [apply Rmax_r|]. eapply Rle_trans; [apply I6; lia|apply Rmax_l]. }
      split; [eapply Rle_trans; [exact I7|apply Rmax_l]|]. split.
      { intros e He N. apply Rmax_lub.
        - apply I8; [exact He|]. intros s Hs. destruct (Nat.eq_dec s k) as [->|X].
          + unfold fn. rewrite WK, Rminus_diag_eq, Rabs_R0 by reflexivity. exact He.
          + specialize (N s Hs). unfold fn in N. rewrite NU in N. destruct (Nat.eqb_spec s k); [contradiction|exact N].
        - specialize (N k ltac:(lia)). unfold fn in N. rewrite NU, Nat.eqb_refl in N. now apply (rd_le _ _ _ RD). }
      intros Vs c C F N. destruct (I9 Vs c C F N) as [J1 J2]. split.
      + intros s Hs. unfold fn. rewrite NU. destruct (Nat.eqb_spec s k) as [->|X]; [now apply BKN|apply J1; lia].
      + intros s a Hs Ha. rewrite NQ. destruct (Nat.eqb_spec s k) as [->|X]; [now apply AVN|apply J2; [lia|exact Ha]]. }
  destruct (K n ltac:(lia)) as ([[W d] q] & E & I1 & IS & I2 & I3 & I4 & _ & I6 & _ & I8 & I9).
  exists W, d, q. split; [exact E|]. auto 12.
Qed.

(** ** The loop over sweeps *)
Definition closeF (c : R) (W : list R) (q : list (list R)) (Vs : nat -> R) : Prop :=
  near n c (fn W) Vs /\ forall s a, (s < n)%nat -> (a < nA)%nat -> Rabs (nth a (nth s q []) 0 - action_value sas r g Vs s a) <= c.
Lemma vi_loop_F : forall tol, rnd tol = tol -> forall k V q0, length V = n -> small V -> exists W q,
  @vi_loop R (NumF rnd) (@hard_backup R (NumF rnd)) (S k) V q0 reward g sas tol = Ok (W, Some q) /\ length W = n /\ length q = n /\ Forall (fun row => length row = nA) q /\
  (forall s, (s < n)%nat -> nth s W 0 = lmax (nth s q [])) /\
  forall Vs c, FXF Vs -> 0 <= c -> near n (c + D) (fn V) Vs ->
    (closeF ((g * tol + delta) / (1 - g)) W q Vs \/ closeF (g ^ (S k) * c + D) W q Vs) /\
    ((1 + u) * ((1 + g) * g ^ k * c + 2 * D) + eta < tol -> closeF ((g * tol + delta) / (1 - g)) W q Vs).
Proof.
  intros tol RT. assert (G1 : 0 < 1 - g) by lra. assert (D0 := delta0). assert (U := u0). assert (H0 := e0).
  assert (DD : 0 <= D) by (unfold D; apply Rmult_le_pos; [exact D0|left; now apply Rinv_0_lt_compat]).
  assert (DE : g * D + delta = D) by (unfold D; field; lra).
  assert (STOP : forall V W d q, length V = n -> small V -> @state_value_iterator R (NumF rnd) (@hard_backup R (NumF rnd)) V 0 reward g sas = Ok (W, d, q) -> d < tol ->
    forall Vs, FXF Vs -> closeF ((g * tol + delta) / (1 - g)) W q Vs).
  { intros V W d q LV SV E DT Vs F. destruct (sweep_F V LV SV) as (W' & d' & q' & E' & _ & _ & _ & _ & _ & ND & _ & C).
    rewrite E in E'. inversion E'. subst W' d' q'. clear E'.
    destruct (Nat.eq_dec n 0) as [Z|NZ]; [split; intros s; intros; lia|].
    assert (NT : near n tol (fn V) (fn W)).
    { intros s Hs. apply Rnot_lt_le. intros X. specialize (ND s Hs). assert (Y : rnd tol <= rnd (Rabs (fn V s - fn W s))) by (apply (rd_le _ _ _ RD); lra). lra. }
    assert (T0 : 0 <= tol) by (eapply near_nonneg; [|exact NT]; lia).
    set (L := (tol + delta) / (1 - g)).
    assert (LD : D <= L). { unfold L, D, Rdiv. apply Rmult_le_compat_r; [left; now apply Rinv_0_lt_compat|lra]. }
    assert (LE : tol + (g * L + delta) = L) by (unfold L; field; lra).
    assert (BN : forall k c, 0 <= c -> near n c (fn V) Vs -> near n (L + g ^ k * c) (fn V) Vs).
    { induction k as [|k IH]; intros c C0 N.
      - cbn [pow]. eapply near_weaken; [|exact N]. lra.
      - assert (P : 0 <= g ^ k * c) by (apply Rmult_le_pos; [apply pow_le; lra|exact C0]).
        destruct (C Vs (L + g ^ k * c) ltac:(lra) F (IH c C0 N)) as [N' _]. eapply near_weaken; [|exact (near_trans _ _ _ _ _ _ NT N')].
        cbn [pow]. replace (g * g ^ k * c) with (g * (g ^ k * c)) by ring. lra. }
    destruct (bounded n (fn V) Vs) as (c & C0 & N).
    assert (NV : near n L (fn V) Vs).
    { intros s Hs. apply Rnot_lt_le. intros X. destruct (pow_small g ltac:(lra) c (Rabs (fn V s - Vs s) - L)) as (k & Hk); [lra|].
      specialize (BN k c C0 N s Hs). lra. }
    destruct (C Vs L LD F NV) as [N1 N2].
    assert (EQ : g * L + delta = (g * tol + delta) / (1 - g)) by (unfold L; field; lra). rewrite EQ in N1, N2. split; assumption. }
  assert (NEXT : forall c, g * (c + D) + delta = g * c + D) by (intros c; lra).
  induction k as [|k IH]; intros V q0 LV SV.
  - destruct (sweep_F V LV SV) as (W & d & q & E & H1 & HS & H2 & H3 & H4 & ND & DB & C). cbn [vi_loop]. cbn [n0 NumF]. rewrite E. cbn [bind nltb NumF].
    exists W, q. split; [destruct (Rltb d tol); reflexivity|]. do 4 (split; [assumption|]). intros Vs c F C0 N. destruct (C Vs (c + D) ltac:(lra) F N) as [N1 N2]. rewrite NEXT in N1, N2. split.
    + right. cbn [pow]. rewrite Rmult_1_r. split; assumption.
    + intros X. apply (STOP V W d q LV SV E); [|exact F]. cbn [pow] in X.
      assert (P : 0 <= g * c) by (apply Rmult_le_pos; lra).
      assert (Y : d <= rnd ((1 + g) * c + 2 * D)).
      { apply DB; [lra|]. eapply near_weaken; [|exact (near_trans _ _ _ _ _ _ N (near_sym _ _ _ _ N1))]. lra. }
      pose proof (rnd_size ((1 + g) * c + 2 * D)) as Z. rewrite (Rabs_pos_eq ((1 + g) * c + 2 * D)) in Z by lra.
      pose proof (Rle_abs (rnd ((1 + g) * c + 2 * D))). replace ((1 + g) * 1 * c) with ((1 + g) * c) in X by ring. lra.
  - destruct (sweep_F V LV SV) as (W & d & q & E & H1 & HS & H2 & H3 & H4 & ND & DB & C). cbn [vi_loop]. cbn [n0 NumF]. rewrite E. cbn [bind nltb NumF].
    destruct (Rltb d tol) eqn:DT.
    + apply Rltb_true in DT. exists W, q. split; [reflexivity|]. do 4 (split; [assumption|]). intros Vs c F C0 N. split; [left|intros _]; exact (STOP V W d q LV SV E DT Vs F).
    + destruct (IH W (Some q) H1 HS) as (W2 & q2 & E2 & K1 & K2 & K3 & K4 & K5). exists W2, q2. split; [exact E2|]. do 4 (split; [assumption|]).
      intros Vs c F C0 N. destruct (C Vs (c + D) ltac:(lra) F N) as [N1 _]. rewrite NEXT in N1. destruct (K5 Vs (g * c) F ltac:(apply Rmult_le_pos; lra) N1) as [J1 J2]. split.
      * destruct J1 as [J1|J1]; [now left|]. right. replace (g ^ S (S k) * c) with (g ^ S k * (g * c)) by (cbn [pow]; ring). exact J1.
      * intros X. apply J2. replace ((1 + g) * g ^ k * (g * c)) with ((1 + g) * g ^ S k * c) by (cbn [pow]; ring). exact X.
Qed.
End Sweeps.

Lemma mask_F : forall sas q, is_mdp sas -> sure sas -> @mask_q R (NumF rnd) sas q = @mask_q R NumR sas q.
Proof.
  intros sas q [_ M] SU. unfold mask_q. apply map_ext_in. intros [mat row] I. apply in_combine_l in I. apply map_ext_in. intros [tr x] I2. apply in_combine_l in I2.
  cbn [neqb n0 NumF NumR]. destruct (M mat I) as [_ M2]. destruct (M2 tr I2) as (_ & _ & S1). rewrite nsum_sure; [|intros y Hy; exact (SU _ _ _ I I2 Hy)|exact S1].
  now rewrite nsum_Rsum.
Qed.
End Rounded.
