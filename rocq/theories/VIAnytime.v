(** Properties C148-C151: what holds of value iteration after any number of sweeps and with any tolerance; larger discounts; what cannot be reached. *)
From Coq Require Import String List ZArith QArith Reals Bool Lia Lra.
From Verif Require Import PyBase PyProofs GridModel GridSpec MDPModel MDPSpec MDPProofs2 MDPProofs3 MDPProps ActionModel ActionSpec ActionProofs RSum EnvModel EnvProps StepProps EnvProofs3 QueryModel VIModel VISpec VIProofs VIProofs2 VIProps VIEnvProps VIMono.
Import ListNotations.
Local Close Scope Q_scope.
Local Open Scope R_scope.

(** ** Updates of single states *)

Section Updates.
Variables (sas : list (list (list R))) (g : R) (reward : list R).
Hypothesis MD : is_mdp sas.
Hypothesis Lr : length reward = n_states sas.
Let r : nat -> R := fn reward.
(** [V'] is [V] after one state was updated. *)
Definition updated (V : list R) (s : nat) (V' : list R) : Prop := exists x, greatest (n_actions sas) (action_value sas r g (fn V) s) x /\ V' = upd V s x.

Lemma lmax_greatest : forall V s, greatest (n_actions sas) (action_value sas r g V s) (lmax (map (action_value sas r g V s) (seq 0 (n_actions sas)))).
Proof using MD.
  clear Lr. intros V s. destruct (lmax_spec (map (action_value sas r g V s) (seq 0 (n_actions sas)))) as [I U].
  { intros E. apply (f_equal (@length R)) in E. rewrite map_length, seq_length in E. cbn in E. destruct MD. lia. }
  apply in_map_iff in I. destruct I as (a & Ea & Ha). apply in_seq in Ha. split; [exists a; split; [lia|exact Ea]|]. intros b Hb. apply U. apply in_map, in_seq. lia.
Qed.
Lemma state_step : forall V d q s V' d' q', (s < n_states sas)%nat -> length V = n_states sas -> sweep_state hard_backup reward g sas (V, d, q) s = Ok (V', d', q') ->
  updated V s V' /\ q' = upd q s (map (action_value sas r g (fn V) s) (seq 0 (n_actions sas))).
Proof using MD Lr.
  intros V d q s V' d' q' Hs LV E. unfold sweep_state in E. fold (n_actions sas) in E. rewrite (sav sas g reward MD Lr s V Hs LV) in E. fold r in E.
  rewrite (bk_hard sas MD) in E by (rewrite map_length, seq_length; reflexivity). cbn [bind] in E. injection E as <- _ <-. split; [|reflexivity]. eexists. split; [apply lmax_greatest|reflexivity].
Qed.

(** What holds of the initial values and is kept by updates of single states holds after every sweep; the Q values were computed from such values. *)
Variable I : list R -> Prop.
Hypothesis I_kept : forall V s V', length V = n_states sas -> (s < n_states sas)%nat -> I V -> updated V s V' -> I V'.
Definition from_kept (q : list (list R)) (s : nat) : Prop := exists V, I V /\ length V = n_states sas /\ nth s q [] = map (action_value sas r g (fn V) s) (seq 0 (n_actions sas)).
Lemma sweep_kept : forall V d0 W d q, length V = n_states sas -> I V -> state_value_iterator hard_backup V d0 reward g sas = Ok (W, d, q) ->
  I W /\ length W = n_states sas /\ length q = n_states sas /\ forall s, (s < n_states sas)%nat -> from_kept q s.
Proof using MD Lr I_kept.
  intros V d0 W d q LV HI E. unfold state_value_iterator in E. fold (n_states sas) in E. fold (n_actions sas) in E.
  set (Inv := fun k (acc : list R * R * list (list R)) => let '(W, d, q) := acc in I W /\ length W = n_states sas /\ length q = n_states sas /\ forall s, (s < k)%nat -> from_kept q s).
  destruct (foldM_seq_inv _ (sweep_state hard_backup reward g sas) Inv (n_states sas) (V, d0, zeros2 (n_states sas) (n_actions sas))) as ([[W' d'] q'] & E' & H).
  - cbn [Inv]. split; [exact HI|]. split; [exact LV|]. split; [apply repeat_length|]. intros; lia.
  - intros i [[W1 d1] q1] Hi (H1 & H2 & H3 & H4).
    assert (OK : exists acc, sweep_state hard_backup reward g sas (W1, d1, q1) i = Ok acc).
    { unfold sweep_state. fold (n_actions sas). rewrite (sav sas g reward MD Lr i W1 Hi H2), (bk_hard sas MD) by (rewrite map_length, seq_length; reflexivity). eexists. reflexivity. }
    destruct OK as [[[W2 d2] q2] E2]. exists (W2, d2, q2). split; [exact E2|]. destruct (state_step _ _ _ _ _ _ _ Hi H2 E2) as [U ->]. cbn [Inv].
    split; [eapply I_kept; eauto|]. split; [destruct U as (x & _ & ->); now rewrite upd_length|]. split; [now rewrite upd_length|].
    intros s Hs. destruct (Nat.eq_dec s i) as [->|NE].
    + exists W1. split; [exact H1|]. split; [exact H2|]. apply nth_upd_same. lia.
    + destruct (H4 s ltac:(lia)) as (V1 & A1 & A2 & A3). exists V1. split; [exact A1|]. split; [exact A2|]. now rewrite nth_upd_other by congruence.
  - rewrite E in E'. injection E' as <- <- <-. exact H.
Qed.
Lemma loop_kept : forall tol k V q0 W q, length V = n_states sas -> I V -> vi_loop hard_backup k V q0 reward g sas tol = Ok (W, Some q) ->
  (forall q1, q0 = Some q1 -> length q1 = n_states sas /\ forall s, (s < n_states sas)%nat -> from_kept q1 s) ->
  I W /\ length W = n_states sas /\ length q = n_states sas /\ forall s, (s < n_states sas)%nat -> from_kept q s.
Proof using MD Lr I_kept.
  intros tol k. induction k as [|k IH]; intros V q0 W q LV HI E H0; cbn [vi_loop] in E.
  - injection E as <- ->. destruct (H0 q eq_refl). auto.
  - apply bind_ok in E. destruct E as ([[W1 d1] q1] & E1 & E). destruct (sweep_kept _ _ _ _ _ LV HI E1) as (H1 & H2 & H3 & H4). destruct (nltb d1 tol).
    + injection E as <- <-. auto.
    + eapply IH; [exact H2|exact H1|exact E|]. intros q2 E2. injection E2 as <-. auto.
Qed.
End Updates.

Lemma updated_ext : forall sas g r r' V s V', (forall t, (t < n_states sas)%nat -> fn r t = fn r' t) -> updated sas g r V s V' -> updated sas g r' V s V'.
Proof.
  intros sas g r r' V s V' H (x & [(a & Ha & Ea) GR] & ->). exists x. split; [|reflexivity]. split; [exists a; split; [exact Ha|]|intros b Hb]; rewrite <- (action_value_ext sas (fn r)); auto.
Qed.
(** The same for the solver. *)
Lemma solver_kept : forall sas rf ft k g tol v q (I : list R -> Prop), is_mdp sas -> solve_value_iteration hard_backup rf ft k g sas tol = Ok (v, q) ->
  I (repeat 0 (n_states sas)) ->
  (forall V s x, length V = n_states sas -> (s < n_states sas)%nat -> I V -> greatest (n_actions sas) (action_value sas (reward_of rf ft) g (fn V) s) x -> I (upd V s x)) ->
  I v /\ length v = n_states sas /\
  forall s a x, (s < n_states sas)%nat -> (a < n_actions sas)%nat -> nth a (nth s q []) NaN = Fin x -> exists V, I V /\ length V = n_states sas /\ x = action_value sas (reward_of rf ft) g (fn V) s a.
Proof.
  intros sas rf ft k g tol v q I M E I0 IK. unfold solve_value_iteration in E. destruct (negb (_ && _)); [discriminate|]. destruct (Nat.eqb_spec (length rf) (length ft)) as [L|]; [|discriminate]. cbn [negb] in E.
  fold (n_states sas) in E. set (rw := state_rewards (n_states sas) rf ft) in E. assert (Lr : length rw = n_states sas) by (unfold rw, state_rewards; now rewrite map_length, seq_length).
  assert (RW : forall t, (t < n_states sas)%nat -> fn rw t = reward_of rf ft t) by (intros t Ht; apply state_rewards_nth; assumption).
  apply bind_ok in E. destruct E as ([v1 q1] & E & E'). destruct q1 as [q1|]; [|discriminate]. injection E' as -> <-.
  destruct (loop_kept sas g rw M Lr I) with (tol := tol) (k := Z.to_nat k) (V := zeros1 (A:=R) (n_states sas)) (q0 := @None (list (list R))) (W := v) (q := q1) as (H1 & H2 & H3 & H4); auto.
  - intros V s V' LV Hs HI (x & GR & ->). apply IK; auto. destruct GR as [(a & Ha & Ea) GR]. split; [exists a; split; [exact Ha|]|intros b Hb]; rewrite <- (action_value_ext sas (fn rw)); auto.
  - unfold zeros1. apply repeat_length.
  - intros q2 X. discriminate.
  - split; [exact H1|]. split; [exact H2|]. intros s a x Hs Ha EX. destruct (H4 s Hs) as (V & A1 & A2 & A3). exists V. split; [exact A1|]. split; [exact A2|].
    assert (FQ : Forall (fun row => length row = n_actions sas) q1). { apply Forall_forall. intros row Hr. apply (In_nth _ _ []) in Hr. destruct Hr as (i & Hi & <-). destruct (H4 i ltac:(lia)) as (V1 & _ & _ & ->). now rewrite map_length, seq_length. }
    destruct (mask_q_nth sas q1 s a M H3 FQ Hs Ha) as (_ & _ & [[_ EQ]|[_ EQ]]); rewrite EQ in EX; [|discriminate]. injection EX as <-. rewrite A3.
    rewrite (nth_map_lt _ _ _ _ _ _ 0%nat) by (rewrite seq_length; exact Ha). rewrite seq_nth by exact Ha. apply action_value_ext. exact RW.
Qed.

Lemma av_upper : forall sas r g (V : nat -> R) s a H, is_mdp sas -> (s < n_states sas)%nat -> (a < n_actions sas)%nat -> 0 <= H -> (forall t, (t < n_states sas)%nat -> r t + g * V t <= H) -> action_value sas r g V s a <= H.
Proof.
  intros sas r g V s a H M Hs Ha H0 B. unfold action_value. pose proof (av_le sas s a (fun t => r t + g * V t) (fun _ => 0) H M Hs Ha H0 ltac:(intros t Ht; specialize (B t Ht); lra)) as X. cbn beta in X.
  rewrite (sumf_0 _ (fun t => prob sas s a t * 0)) in X by (intros; ring). lra.
Qed.
Lemma av_lower : forall sas r g (V : nat -> R) s a H, is_mdp sas -> (s < n_states sas)%nat -> (a < n_actions sas)%nat -> H <= 0 -> (forall t, (t < n_states sas)%nat -> H <= r t + g * V t) -> H <= action_value sas r g V s a.
Proof.
  intros sas r g V s a H M Hs Ha H0 B. unfold action_value. pose proof (av_le sas s a (fun _ => 0) (fun t => r t + g * V t) (- H) M Hs Ha ltac:(lra) ltac:(intros t Ht; specialize (B t Ht); lra)) as X. cbn beta in X.
  rewrite (sumf_0 _ (fun t => prob sas s a t * 0)) in X by (intros; ring). lra.
Qed.
Lemma av_mono : forall sas r g (V W : nat -> R) s a, is_mdp sas -> 0 <= g -> (s < n_states sas)%nat -> (a < n_actions sas)%nat -> (forall t, (t < n_states sas)%nat -> V t <= W t) -> action_value sas r g V s a <= action_value sas r g W s a.
Proof.
  intros sas r g V W s a M G Hs Ha H. unfold action_value. apply sumf_le. intros t Ht. apply in_seq in Ht. apply Rmult_le_compat_l; [apply (p_nn sas M); lia|]. specialize (H t ltac:(lia)). nra.
Qed.
Lemma greatest_le : forall n f h x y, greatest n f x -> greatest n h y -> (forall a, (a < n)%nat -> f a <= h a) -> x <= y.
Proof. intros n f h x y [(a & Ha & <-) _] [_ B] H. eapply Rle_trans; [now apply H|now apply B]. Qed.
Lemma solver_args : forall sas rf ft k g tol v q, solve_value_iteration hard_backup rf ft k g sas tol = Ok (v, q) -> 0 < g < 1 /\ length rf = length ft /\ (0 < k)%Z.
Proof.
  intros sas rf ft k g tol v q E. assert (G : 0 < g < 1). { destruct (C29_rejects hard_backup sas rf ft k g tol) as [X _]. destruct (Rlt_dec 0 g), (Rlt_dec g 1); try (rewrite X in E by lra; discriminate). lra. }
  assert (L : length rf = length ft). { unfold solve_value_iteration in E. destruct (negb (_ && _)); [discriminate|]. destruct (Nat.eqb_spec (length rf) (length ft)); [assumption|discriminate]. }
  split; [exact G|]. split; [exact L|]. destruct (C29_rejects hard_backup sas rf ft k g tol) as [_ X]. destruct (Z_le_gt_dec k 0); [rewrite X in E by assumption; discriminate|lia].
Qed.

(** * C148: values are bounded by the rewards, however early planning stops *)
Theorem C148_bounds : forall sas rf ft k g tol v q lo hi, is_mdp sas -> solve_value_iteration hard_backup rf ft k g sas tol = Ok (v, q) ->
  lo <= 0 <= hi -> (forall t, (t < n_states sas)%nat -> lo <= reward_of rf ft t <= hi) ->
  forall s, (s < n_states sas)%nat -> lo / (1 - g) <= nth s v 0 <= hi / (1 - g) /\
    forall a x, (a < n_actions sas)%nat -> nth a (nth s q []) NaN = Fin x -> lo / (1 - g) <= x <= hi / (1 - g).
Proof.
  intros sas rf ft k g tol v q lo hi M E LH HR. destruct (solver_args _ _ _ _ _ _ _ _ E) as (G & _). assert (G1 : 0 < 1 - g) by lra.
  assert (H0 : 0 <= hi / (1 - g)) by (apply Rmult_le_pos; [lra|left; now apply Rinv_0_lt_compat]).
  assert (L0 : lo / (1 - g) <= 0) by (assert (0 <= (- lo) / (1 - g)) by (apply Rmult_le_pos; [lra|left; now apply Rinv_0_lt_compat]); unfold Rdiv in *; lra).
  assert (H1 : hi + g * (hi / (1 - g)) = hi / (1 - g)) by (field; lra). assert (L1 : lo + g * (lo / (1 - g)) = lo / (1 - g)) by (field; lra).
  set (I := fun V : list R => forall s, (s < n_states sas)%nat -> lo / (1 - g) <= nth s V 0 <= hi / (1 - g)).
  assert (AV : forall V s a, I V -> (s < n_states sas)%nat -> (a < n_actions sas)%nat -> lo / (1 - g) <= action_value sas (reward_of rf ft) g (fn V) s a <= hi / (1 - g)).
  { intros V s a HI Hs Ha. split; [apply av_lower|apply av_upper]; auto; intros t Ht; specialize (HI t Ht); specialize (HR t Ht); unfold fn; nra. }
  destruct (solver_kept sas rf ft k g tol v q I M E) as (H2 & H3 & H4).
  - intros s Hs. rewrite nth_repeat. lra.
  - intros V s x LV Hs HI [(a & Ha & <-) _] t Ht. destruct (Nat.eq_dec t s) as [->|N]; [rewrite nth_upd_same by lia; now apply AV|rewrite nth_upd_other by congruence; now apply HI].
  - intros s Hs. split; [now apply H2|]. intros a x Ha EX. destruct (H4 s a x Hs Ha EX) as (V & HI & _ & ->). now apply AV.
Qed.

(** * C149: without punished states, planning longer never lowers the values, and they never exceed the best ones *)
Lemma solver_nonneg_below : forall sas rf ft k g tol v q V, is_mdp sas -> solve_value_iteration hard_backup rf ft k g sas tol = Ok (v, q) ->
  (forall t, (t < n_states sas)%nat -> 0 <= reward_of rf ft t) -> optimal sas (reward_of rf ft) g V ->
  forall s, (s < n_states sas)%nat -> 0 <= nth s v 0 <= V s /\
    forall a x, (a < n_actions sas)%nat -> nth a (nth s q []) NaN = Fin x -> 0 <= x <= action_value sas (reward_of rf ft) g V s a.
Proof.
  intros sas rf ft k g tol v q V M E HR O. destruct (solver_args _ _ _ _ _ _ _ _ E) as (G & _). pose proof (values_nonneg sas _ g V M ltac:(lra) HR O) as V0.
  set (I := fun U : list R => forall s, (s < n_states sas)%nat -> 0 <= nth s U 0 <= V s).
  assert (AV : forall U s a, I U -> (s < n_states sas)%nat -> (a < n_actions sas)%nat -> 0 <= action_value sas (reward_of rf ft) g (fn U) s a <= action_value sas (reward_of rf ft) g V s a).
  { intros U s a HI Hs Ha. split; [apply av_lower; auto; [lra|]; intros t Ht; specialize (HI t Ht); specialize (HR t Ht); unfold fn; nra|]. apply av_mono; auto; [lra|]. intros t Ht. now apply HI. }
  destruct (solver_kept sas rf ft k g tol v q I M E) as (H2 & H3 & H4).
  - intros s Hs. rewrite nth_repeat. specialize (V0 s Hs). lra.
  - intros U s x LV Hs HI [(a & Ha & <-) _] t Ht. destruct (Nat.eq_dec t s) as [->|N]; [rewrite nth_upd_same by lia|rewrite nth_upd_other by congruence; now apply HI].
    destruct (AV U s a HI Hs Ha) as [A1 A2]. split; [exact A1|]. destruct (O s Hs) as [_ B]. specialize (B a Ha). lra.
  - intros s Hs. split; [now apply H2|]. intros a x Ha EX. destruct (H4 s a x Hs Ha EX) as (U & HI & _ & ->). now apply AV.
Qed.

Section Increasing.
Variables (sas : list (list (list R))) (g : R) (reward : list R).
Hypothesis MD : is_mdp sas.
Hypothesis G : 0 < g < 1.
Hypothesis Lr : length reward = n_states sas.
Let n := n_states sas.
(** No update lowers the value of a state. *)
Definition rising (V : list R) : Prop := forall s x, (s < n)%nat -> greatest (n_actions sas) (action_value sas (fn reward) g (fn V) s) x -> nth s V 0 <= x.
Definition above (V0 V : list R) : Prop := forall s, (s < n)%nat -> nth s V0 0 <= nth s V 0.
Lemma rising_step : forall V0 V s V', length V = n -> (s < n)%nat -> rising V /\ above V0 V -> updated sas g reward V s V' -> rising V' /\ above V0 V'.
Proof using MD G.
  clear Lr. intros V0 V s V' LV Hs [RI AB] (x & GR & ->). assert (X : nth s V 0 <= x) by now apply RI.
  assert (UP : forall t, (t < n)%nat -> nth t V 0 <= nth t (upd V s x) 0). { intros t Ht. destruct (Nat.eq_dec t s) as [->|N]; [rewrite nth_upd_same by lia; exact X|rewrite nth_upd_other by congruence; lra]. }
  split.
  - intros t y Ht GY. assert (MO : forall x0, greatest (n_actions sas) (action_value sas (fn reward) g (fn V) t) x0 -> x0 <= y). { intros x0 GX. eapply greatest_le; [exact GX|exact GY|]. intros a Ha. apply av_mono; auto; lra. }
    destruct (Nat.eq_dec t s) as [->|N]; [rewrite nth_upd_same by lia; now apply MO|]. rewrite nth_upd_other by congruence. eapply Rle_trans; [|apply MO; apply lmax_greatest; exact MD]. apply RI; [exact Ht|]. apply lmax_greatest. exact MD.
  - intros t Ht. eapply Rle_trans; [now apply AB|now apply UP].
Qed.
Lemma above_refl : forall V, above V V.
Proof using. intros V s _. lra. Qed.
Lemma loop_above : forall tol k V q0 W q, length V = n -> rising V -> vi_loop hard_backup k V q0 reward g sas tol = Ok (W, q) -> above V W.
Proof using MD G Lr.
  intros tol k V q0 W q LV RI E. destruct k as [|k]; [cbn in E; injection E as <- _; apply above_refl|]. destruct q as [q|].
  - destruct (loop_kept sas g reward MD Lr (fun W => rising W /\ above V W) (rising_step V) tol (S k) V None W q LV (conj RI (above_refl V))) as [[_ H] _]; [|discriminate|exact H].
    cbn [vi_loop] in *. exact E.
  - exfalso. cbn [vi_loop] in E. apply bind_ok in E. destruct E as ([[W1 d] q1] & _ & E). destruct (nltb d tol); [discriminate|].
    assert (N : forall k V q1, vi_loop hard_backup k V (Some q1) reward g sas tol <> Ok (W, None)). { clear. induction k as [|k IH]; intros V q1 E; cbn [vi_loop] in E; [discriminate|]. apply bind_ok in E. destruct E as ([[W1 d] q2] & _ & E). destruct (nltb d tol); [discriminate|]. eapply IH. exact E. }
    eapply N. exact E.
Qed.
Lemma longer : forall tol tol' k k' V q0 q0' W q W' q', tol' <= tol -> (k <= k')%nat -> length V = n -> rising V ->
  vi_loop hard_backup k V q0 reward g sas tol = Ok (W, q) -> vi_loop hard_backup k' V q0' reward g sas tol' = Ok (W', q') -> above W W'.
Proof using MD G Lr.
  intros tol tol' k. induction k as [|k IH]; intros k' V q0 q0' W q W' q' HT HK LV RI E E'.
  - cbn in E. injection E as <- _. eapply loop_above; eauto.
  - destruct k' as [|k']; [lia|]. cbn [vi_loop] in E, E'. apply bind_ok in E. destruct E as ([[W1 d] q1] & E1 & E). rewrite E1 in E'. cbn [bind] in E'.
    destruct (sweep_kept sas g reward MD Lr (fun W => rising W /\ above V W) (rising_step V) _ _ _ _ _ LV (conj RI (above_refl V)) E1) as ([R1 _] & L1 & _).
    cbn [nltb NumR] in *. destruct (Rltb d tol) eqn:D.
    + injection E as <- _. destruct (Rltb d tol'); [injection E' as <- _; apply above_refl|]. eapply loop_above; eauto.
    + destruct (Rltb d tol') eqn:D'; [apply Rltb_true in D'; exfalso; unfold Rltb in D; destruct (Rlt_dec d tol); [discriminate|lra]|]. eapply (IH k'); eauto. lia.
Qed.
End Increasing.

Theorem C149_longer : forall sas rf ft k k' g tol tol' v q v' q', is_mdp sas -> (forall t, (t < n_states sas)%nat -> 0 <= reward_of rf ft t) -> (k <= k')%Z -> tol' <= tol ->
  solve_value_iteration hard_backup rf ft k g sas tol = Ok (v, q) -> solve_value_iteration hard_backup rf ft k' g sas tol' = Ok (v', q') ->
  forall s, (s < n_states sas)%nat -> nth s v 0 <= nth s v' 0.
Proof.
  intros sas rf ft k k' g tol tol' v q v' q' M HR HK HT E E'. destruct (solver_args _ _ _ _ _ _ _ _ E) as (G & L & _). unfold solve_value_iteration in E, E'. destruct (negb (_ && _)); [discriminate|]. destruct (negb _); [discriminate|].
  fold (n_states sas) in E, E'. set (rw := state_rewards (n_states sas) rf ft) in E, E'. assert (Lr : length rw = n_states sas) by (unfold rw, state_rewards; now rewrite map_length, seq_length).
  assert (RW : forall t, (t < n_states sas)%nat -> fn rw t = reward_of rf ft t) by (intros t Ht; apply state_rewards_nth; assumption).
  apply bind_ok in E. destruct E as ([v1 q1] & E & X). destruct q1; [|discriminate]. injection X as -> _. apply bind_ok in E'. destruct E' as ([v2 q2] & E' & X). destruct q2; [|discriminate]. injection X as -> _.
  assert (Z : (Z.to_nat k <= Z.to_nat k')%nat) by lia.
  assert (L0 : length (zeros1 (A:=R) (n_states sas)) = n_states sas) by (unfold zeros1; apply repeat_length).
  eapply (longer sas g rw M G Lr tol tol' _ _ _ _ _ v _ v' _ HT Z L0); eauto.
  intros s x Hs [(a & Ha & <-) _]. unfold zeros1. rewrite nth_repeat. apply av_lower; auto; [cbn; lra|]. intros t Ht. rewrite RW by exact Ht. unfold fn. rewrite nth_repeat. specialize (HR t Ht). cbn. lra.
Qed.
Theorem C149_never_above_best : forall sas rf ft k g tol v q V, is_mdp sas -> (forall t, (t < n_states sas)%nat -> 0 <= reward_of rf ft t) ->
  solve_value_iteration hard_backup rf ft k g sas tol = Ok (v, q) -> optimal sas (reward_of rf ft) g V ->
  forall s, (s < n_states sas)%nat -> 0 <= nth s v 0 <= V s /\
    forall a x, (a < n_actions sas)%nat -> nth a (nth s q []) NaN = Fin x -> 0 <= x <= action_value sas (reward_of rf ft) g V s a.
Proof. intros sas rf ft k g tol v q V M HR E O. eapply solver_nonneg_below; eauto. Qed.

(** * C150: without punished states, a larger discount never lowers values *)
Theorem C150_discount : forall sas r g g' V V', is_mdp sas -> 0 <= g <= g' -> g' < 1 -> (forall t, (t < n_states sas)%nat -> 0 <= r t) ->
  optimal sas r g V -> optimal sas r g' V' -> forall s, (s < n_states sas)%nat -> V s <= V' s.
Proof.
  intros sas r g g' V V' M GG G1 HR O O'. pose proof (values_nonneg sas r g' V' M ltac:(lra) HR O') as V0. apply (upto _ g _ _ ltac:(lra)). intros D D0 H s Hs. destruct (O s Hs) as [(a & Ha & <-) _]. destruct (O' s Hs) as [_ B]. specialize (B a Ha).
  apply Rle_trans with (action_value sas r g' V' s a + g * D); [|lra]. apply av_le; auto; [apply Rmult_le_pos; lra|]. intros t Ht. specialize (H t Ht). specialize (V0 t Ht). nra.
Qed.
Theorem C150_fitted : forall sas rf ft g g' k tol rho v q v' q', is_mdp sas -> 0 < g <= g' -> g' < 1 -> (forall t, (t < n_states sas)%nat -> 0 <= reward_of rf ft t <= rho) ->
  (1 + g') * g' ^ k * (rho / (1 - g')) < tol ->
  solve_value_iteration hard_backup rf ft (Z.of_nat (S k)) g sas tol = Ok (v, q) -> solve_value_iteration hard_backup rf ft (Z.of_nat (S k)) g' sas tol = Ok (v', q') ->
  forall s, (s < n_states sas)%nat -> nth s v 0 <= nth s v' 0 + g' * tol / (1 - g').
Proof.
  intros sas rf ft g g' k tol rho v q v' q' M GG G1 HR HK E E' s Hs. assert (R0 : forall t, (t < n_states sas)%nat -> 0 <= reward_of rf ft t) by (intros t Ht; now apply HR).
  destruct (C29_unique_solution sas (reward_of rf ft) g M ltac:(lra)) as (V & O & _).
  destruct (fitted_near sas rf ft g' k tol rho v' q' M ltac:(lra)) as (V' & O' & N'); [intros t Ht; rewrite Rabs_pos_eq by auto; now apply HR|exact HK|exact E'|].
  pose proof (C150_discount sas _ g g' V V' M ltac:(lra) G1 R0 O O' s Hs) as X. destruct (solver_nonneg_below sas rf ft _ g tol v q V M E R0 O s Hs) as [[_ Y] _].
  specialize (N' s Hs). cbn beta in N'. unfold Rabs in N'. destruct (Rcase_abs _) in N'; lra.
Qed.

(** * C151: what cannot be reached does not matter *)
(** [t] can be reached from [s]. *)
Inductive reaches (sas : list (list (list R))) (s : nat) : nat -> Prop :=
| reaches_here : reaches sas s s
| reaches_on : forall t a u, reaches sas s t -> (a < n_actions sas)%nat -> (u < n_states sas)%nat -> 0 < prob sas t a u -> reaches sas s u.
Lemma upto_on : forall n g (P : nat -> Prop) (V V' : nat -> R), 0 <= g < 1 ->
  (forall D, 0 <= D -> (forall t, (t < n)%nat -> P t -> V t <= V' t + D) -> forall s, (s < n)%nat -> P s -> V s <= V' s + g * D) -> forall s, (s < n)%nat -> P s -> V s <= V' s.
Proof.
  intros n g P V V' G H s Hs PS. destruct (bounded n V V') as (c & C0 & N).
  assert (K : forall k t, (t < n)%nat -> P t -> V t <= V' t + g ^ k * c).
  { induction k as [|k IH]; intros t Ht PT.
    - cbn [pow]. specialize (N t Ht). pose proof (Rle_abs (V t - V' t)). lra.
    - cbn [pow]. rewrite Rmult_assoc. apply H; auto. apply Rmult_le_pos; [apply pow_le|]; lra. }
  apply Rnot_lt_le. intros X. destruct (pow_small g ltac:(lra) c (V s - V' s)) as (k & Hk); [lra|]. specialize (K k s Hs PS). lra.
Qed.
Lemma out_of_reach : forall sas sas' r r' g V V' s0, is_mdp sas -> is_mdp sas' -> n_states sas' = n_states sas -> n_actions sas' = n_actions sas -> 0 <= g < 1 ->
  (forall t, reaches sas s0 t -> r' t = r t /\ forall a u, (a < n_actions sas)%nat -> (u < n_states sas)%nat -> prob sas' t a u = prob sas t a u) ->
  optimal sas r g V -> optimal sas' r' g V' -> forall s, (s < n_states sas)%nat -> reaches sas s0 s -> V' s <= V s.
Proof.
  intros sas sas' r r' g V V' s0 M M' EN EA G HR O O'. apply (upto_on _ g (reaches sas s0) _ _ G). intros D D0 H s Hs RS. destruct (HR s RS) as [_ HP].
  rewrite <- EN in Hs. destruct (O' s Hs) as [(a & Ha & <-) _]. rewrite EN in Hs. rewrite EA in Ha. destruct (O s Hs) as [_ B]. specialize (B a Ha).
  apply Rle_trans with (action_value sas r g V s a + g * D); [|lra]. unfold action_value. rewrite EN.
  apply Rle_trans with (sumf (fun t => prob sas s a t * (r t + g * V t) + g * D * prob sas s a t) (seq 0 (n_states sas))).
  - apply sumf_le. intros t Ht. apply in_seq in Ht. rewrite HP by lia. pose proof (p_nn sas M s a t Hs Ha ltac:(lia)) as PN. destruct (Rle_lt_or_eq_dec _ _ PN) as [P|P]; [|rewrite <- P; lra].
    assert (RT : reaches sas s0 t) by (eapply reaches_on; eauto; lia). destruct (HR t RT) as [-> _]. specialize (H t ltac:(lia) RT). assert (g * V' t <= g * (V t + D)) by (apply Rmult_le_compat_l; lra). nra.
  - rewrite sumf_add, sumf_scal. pose proof (p_sum sas M s a Hs Ha) as PS. assert (g * D * sumf (prob sas s a) (seq 0 (n_states sas)) <= g * D * 1) by (apply Rmult_le_compat_l; [apply Rmult_le_pos; lra|exact PS]). lra.
Qed.
Lemma reaches_same : forall sas sas' s0, n_states sas' = n_states sas -> n_actions sas' = n_actions sas ->
  (forall t, reaches sas s0 t -> forall a u, (a < n_actions sas)%nat -> (u < n_states sas)%nat -> prob sas' t a u = prob sas t a u) -> forall t, reaches sas' s0 t -> reaches sas s0 t.
Proof.
  intros sas sas' s0 EN EA HP t RT. induction RT as [|t a u RT IH Ha Hu P]; [constructor|]. rewrite EA in Ha. rewrite EN in Hu. eapply reaches_on; eauto. rewrite <- (HP t IH a u Ha Hu). exact P.
Qed.
Theorem C151_best : forall sas sas' r r' g V V' s, is_mdp sas -> is_mdp sas' -> n_states sas' = n_states sas -> n_actions sas' = n_actions sas -> 0 <= g < 1 -> (s < n_states sas)%nat ->
  (forall t, reaches sas s t -> r' t = r t /\ forall a u, (a < n_actions sas)%nat -> (u < n_states sas)%nat -> prob sas' t a u = prob sas t a u) ->
  optimal sas r g V -> optimal sas' r' g V' -> V' s = V s /\ forall a, (a < n_actions sas)%nat -> action_value sas' r' g V' s a = action_value sas r g V s a.
Proof.
  intros sas sas' r r' g V V' s M M' EN EA G Hs HR O O'.
  assert (RR : forall t, reaches sas' s t -> reaches sas s t) by (apply reaches_same; auto; intros t RT; now apply HR).
  assert (RL : forall t, reaches sas s t -> reaches sas' s t). { apply reaches_same; auto. intros t RT a u Ha Hu. symmetry. apply HR; auto; lia. }
  assert (EQ : forall t, (t < n_states sas)%nat -> reaches sas s t -> V' t = V t).
  { intros t Ht RT. apply Rle_antisym; [eapply (out_of_reach sas sas' r r'); eauto|]. eapply (out_of_reach sas' sas r' r g V' V s); eauto; try lia.
    intros u RU. destruct (HR u (RR u RU)) as [E1 E2]. split; [now symmetry|]. intros a w Ha Hw. symmetry. apply E2; lia. }
  split; [apply EQ; [exact Hs|constructor]|]. intros a Ha. destruct (HR s (reaches_here _ _)) as [_ HP]. unfold action_value. rewrite EN. apply sumf_ext. intros t Ht. apply in_seq in Ht. rewrite HP by lia.
  pose proof (p_nn sas M s a t Hs Ha ltac:(lia)) as PN. destruct (Rle_lt_or_eq_dec _ _ PN) as [P|P]; [|rewrite <- P; lra]. assert (RT : reaches sas s t) by (eapply reaches_on; [constructor|eauto|lia|exact P]).
  destruct (HR t RT) as [-> _]. rewrite EQ by (auto; lia). reflexivity.
Qed.
Theorem C151_fitted : forall sas sas' rf ft rf' ft' g k tol rho v q v' q' s, is_mdp sas -> is_mdp sas' -> n_states sas' = n_states sas -> n_actions sas' = n_actions sas -> (s < n_states sas)%nat ->
  (forall t, reaches sas s t -> reward_of rf' ft' t = reward_of rf ft t /\ forall a u, (a < n_actions sas)%nat -> (u < n_states sas)%nat -> prob sas' t a u = prob sas t a u) ->
  (forall t, (t < n_states sas)%nat -> Rabs (reward_of rf ft t) <= rho /\ Rabs (reward_of rf' ft' t) <= rho) -> (1 + g) * g ^ k * (rho / (1 - g)) < tol ->
  solve_value_iteration hard_backup rf ft (Z.of_nat (S k)) g sas tol = Ok (v, q) -> solve_value_iteration hard_backup rf' ft' (Z.of_nat (S k)) g sas' tol = Ok (v', q') ->
  Rabs (nth s v' 0 - nth s v 0) <= 2 * (g * tol / (1 - g)).
Proof.
  intros sas sas' rf ft rf' ft' g k tol rho v q v' q' s M M' EN EA Hs HR HB HK E E'. destruct (solver_args _ _ _ _ _ _ _ _ E) as (G & _).
  destruct (fitted_near sas rf ft g k tol rho v q M G (fun t Ht => proj1 (HB t Ht)) HK E) as (V & O & N).
  destruct (fitted_near sas' rf' ft' g k tol rho v' q' M' G ltac:(intros t Ht; apply HB; lia) HK E') as (V' & O' & N').
  destruct (C151_best sas sas' _ _ g V V' s M M' EN EA ltac:(lra) Hs HR O O') as [X _]. specialize (N s Hs). specialize (N' s ltac:(lia)). cbn beta in N, N'. rewrite X in N'.
  revert N N'. unfold Rabs. repeat destruct (Rcase_abs _); lra.
Qed.

(** On a grid these are the states to which an agent can travel, so features elsewhere make no difference. *)
Lemma reaches_travels : forall k shape st m, grid_inv k shape st m -> forall s t, (s < nst shape)%nat -> reaches (m_sas m) s t -> exists acts, travels m s acts t.
Proof.
  intros k shape st m GI s t Hs RT. destruct (grid_shape _ _ _ _ GI) as (N & NA & _). induction RT as [|t a u RT IH Ha Hu P]; [exists []; constructor|]. destruct IH as (acts & T).
  assert (Ht : (t < nst shape)%nat). { destruct acts as [|b acts]; [inversion T; now subst|]. now apply (travels_unwalled _ _ _ _ GI _ _ _ Hs T). }
  rewrite <- get3_prob in P. rewrite N in Hu. rewrite NA in Ha. destruct (inv_edge _ _ _ _ GI t a u Ht Ha Hu) as [[_ W]|[E _]]; [|lra].
  exists (acts ++ [a]). clear - T W GI Ht Hu. induction T as [t|t b acts x w va E1 I1 NX T IH].
  - apply (travels_one _ _ _ _ GI t a u Ht Hu W). constructor.
  - cbn [app]. econstructor; eauto.
Qed.
Theorem C151_grid : forall k feats w0 shape st m0 calls rf rf' ft ft' g V V' s, grid_mdp (A:=R) k feats w0 shape st = Ok m0 -> let m := after_wall_calls m0 calls in
  0 <= g < 1 -> (s < fst shape * snd shape)%nat -> (forall acts t, travels m s acts t -> reward_of rf' ft' t = reward_of rf ft t) ->
  optimal (m_sas m) (reward_of rf ft) g V -> optimal (m_sas m) (reward_of rf' ft') g V' ->
  V' s = V s /\ forall a, (a < actions_of k st)%nat -> action_value (m_sas m) (reward_of rf' ft') g V' s a = action_value (m_sas m) (reward_of rf ft) g V s a.
Proof.
  intros k feats w0 shape st m0 calls rf rf' ft ft' g V V' s E m G Hs HR O O'. destruct (grid_mdp_inv _ _ _ _ _ _ E) as (_ & _ & _ & _ & I0 & _). destruct (after_wall_calls_inv calls _ _ _ _ I0) as [I _]. fold m in I.
  destruct (grid_shape _ _ _ _ I) as (N & NA & _). pose proof (grid_is_mdp _ _ _ _ I) as M. rewrite <- NA. apply C151_best; auto; [rewrite N; exact Hs|].
  intros t RT. split; [|reflexivity]. destruct (reaches_travels _ _ _ _ I s t Hs RT) as (acts & T). eapply HR; exact T.
Qed.

(** The hypotheses are met. A corridor with a reward at its end: one sweep, many sweeps, and a smaller discount. *)
Definition corridor (feats : list Q) (walls : option (list Q)) (k : Z) (g tol : Q) : res (list Q) :=
  let* m := grid_mdp (A:=Q) Square [feats] walls (length feats, 1%nat) false in
  let* (v, _) := solve_value_iteration hard_backup [1]%Q (m_features m) k g (m_sas m) tol in Ok (map Qred v).
Example C149_example :
  corridor [0; 0; 1]%Q None 1 (1 # 2) (1 # 10) = Ok [0; 1; 1 # 2]%Q /\ corridor [0; 0; 1]%Q None 11 (1 # 2) (1 # 10) = Ok [21 # 32; 85 # 64; 85 # 128]%Q /\
  corridor [0; 0; 1]%Q None 11 (1 # 4) (1 # 10) = Ok [17 # 64; 273 # 256; 273 # 1024]%Q.
Proof. vm_compute. auto. Qed.
(** Behind the wall in the middle another reward makes no difference to the first two cells. *)
Example C151_example :
  corridor [1; 0; 0; 0; 0]%Q (Some [0; 0; 1; 0; 0]%Q) 11 (1 # 2) (1 # 10) = Ok [21 # 32; 85 # 64; 0; 0; 0]%Q /\
  corridor [1; 0; 0; 0; 1]%Q (Some [0; 0; 1; 0; 0]%Q) 11 (1 # 2) (1 # 10) = Ok [21 # 32; 85 # 64; 0; 85 # 64; 85 # 128]%Q.
Proof. vm_compute. auto. Qed.
