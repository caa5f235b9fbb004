(** Properties of maximum-entropy inference: C49, C50, C53, C83 to C86. *)
From Coq Require Import List ZArith Reals Bool Lia Lra.
From Verif Require Import PyBase PyProofs ActionModel ActionSpec RSum ActionProofs MDPModel VIModel VISpec VIProofs VIProofs2 VIProps PLSpec PLProofs PLProps2 IRLModel IRLVisit IRLPolicy IRLMatch IRLExpect IRLMaxEnt IRLFit.
Import ListNotations.
Local Open Scope R_scope.

(** ** C83: a fit settles only where the counts match *)
(** One iteration leaves the weights as they are exactly if the expected counts equal the observed ones. *)
Theorem C83_settles_partial : forall lr decay iters tol g K soft c m ts ig F r n th j d, maxent_ok lr decay iters tol g K soft c -> 0 < r -> iterates c m ts ig F r n th -> (j < n)%nat ->
  expected c m ts ig (th j) = Ok d -> length F = length (th j) -> length d = length (th j) -> (th (S j) = th j <-> F = d).
Proof.
  intros lr decay iters tol g K soft c m ts ig F r n th j d OK HR IT Hj ED LF LD. destruct (IT j Hj) as (d' & Ed & Et). assert (d' = d) by congruence. subst d'. rewrite Et. pose proof (step_rate_pos _ _ _ _ _ _ _ _ r j (proj1 OK) HR) as P. clear - P LF LD. revert F d LF LD. induction (th j) as [|x t IH]; intros [|y F] [|z d] LF LD; try discriminate; [tauto|].
  cbn [combine map fst snd]. split; intros E.
  - inversion E as [[E1 E2]]. f_equal; [|apply IH; [cbn in *; lia|cbn in *; lia|]; congruence]. assert (step_rate c r j * (y - z) = 0) by lra. apply Rmult_integral in H. lra.
  - inversion E. subst. f_equal; [ring|]. apply IH; [cbn in *; lia|cbn in *; lia|reflexivity].
Qed.
(** C226: when an iteration leaves the weights alone. *)
Theorem C226_settles : forall lr decay iters tol g K soft c m ts ig F r n th j d, maxent_ok lr decay iters tol g K soft c -> 0 < r -> iterates c m ts ig F r n th -> (j < n)%nat ->
  expected c m ts ig (th j) = Ok d -> length F = length (th j) -> length d = length (th j) -> (th (S j) = th j <-> F = d).
Proof. exact (@C83_settles_partial). Qed.

(** ** C84: failure to converge is not reported *)
(** With one feature in every state, no iteration comes near the observed counts, and yet there is no warning. *)
Theorem C84_warning_refuted : forall lr decay iters tol g K soft c m ts x h x' h' a w, maxent_ok lr decay iters tol g K soft c -> (2 <= K)%Z -> inferable m ts -> one_feature_each m -> starts_with m x h -> 0 < x_rate x ->
  0 < tol <= (IZR K - 1) / INR (m_n_features m) -> fit_maxent c m ts (IgnoreList []) x h = (x', h', Ok (a, w)) ->
  w = false /\ exists F th, observed_features m ts = Ok F /\ iterates c m ts (IgnoreList []) F (x_rate x) (Z.to_nat iters) th /\ nth a h' [] = th (Z.to_nat iters) /\
    forall j, (j < Z.to_nat iters)%nat -> exists d, expected c m ts (IgnoreList []) (th j) = Ok d /\ tol <= sumf (fun p => Rabs (fst p - snd p)) (combine F d) / INR (length (combine F d)).
Proof.
  intros lr decay iters tol g K soft c m ts x h x' h' a w OK K2 IN OF ST HR HT E. pose proof OK as (EC & G & HK). destruct (config_inv _ _ _ _ _ _ _ _ EC) as (_ & _ & _ & _ & _ & EI & ETOL & EX).
  apply fit_spec in E. destruct E as (F & F0 & s0 & n & th & EF0 & EF & HS & _ & _ & _ & HN & H0 & IT & STOP & _ & (d & Ed & EW)). rewrite zero_nothing in EF. assert (F = F0) by congruence. subst F.
  assert (LS : length s0 = m_n_features m /\ nth a h' [] = th n). { unfold starts_with in ST. destruct HS as [(ET & EZ & EH)|(ET & EA & EZ & EH)]; rewrite zero_nothing in EZ; rewrite ET in ST; assert (EZ' : s0 = s0) by reflexivity.
    - assert (s0 = nth a h []) as -> by congruence. split; [apply ST|]. rewrite EH. apply nth_upd_same. apply ST.
    - assert (s0 = zeros1 (m_n_features m)) as -> by congruence. split; [apply repeat_length|]. rewrite EH, EA, app_nth2, Nat.sub_diag by lia. reflexivity. }
  destruct LS as [LS EN]. assert (L0 : length (th 0%nat) = m_n_features m) by congruence. destruct (totals_fall _ _ _ _ _ _ _ _ _ _ _ _ _ _ OK K2 IN OF HR EF0 L0 IT) as [LTH _].
  assert (NFP : 0 < INR (m_n_features m)).
  { destruct (m_n_features m) eqn:E0; [|apply lt_0_INR; lia]. exfalso. pose proof IN as (_ & _ & _ & _ & NP & NF & _). rewrite E0 in NF. symmetry in NF. apply length_zero_iff_nil in NF. specialize (OF 0%nat NP). rewrite NF, sumf_nil in OF. lra. }
  assert (K2' : 2 <= IZR K) by (apply IZR_le; exact K2).
  assert (FAR : forall j d, (j <= n)%nat -> expected c m ts (IgnoreList []) (th j) = Ok d -> sumf (fun p => fst p - snd p) (combine F0 d) / INR (length (combine F0 d)) <= - ((IZR K - 1) / INR (m_n_features m)) /\ (IZR K - 1) / INR (m_n_features m) <= sumf (fun p => Rabs (fst p - snd p)) (combine F0 d) / INR (length (combine F0 d))).
  { intros j dj Hj Ej. destruct (errors_negative _ _ _ _ _ _ _ _ _ _ _ _ _ OK K2 IN OF (LTH j Hj) EF0 Ej) as (LF & LD & NEG). rewrite (combine_same _ _ _ _ _ LF LD).
    assert (S1 : sumf (fun p => fst p - snd p) (combine F0 dj) = Rsum F0 - Rsum dj) by (apply Rsum_diff; congruence).
    assert (S2 : - sumf (fun p => fst p - snd p) (combine F0 dj) <= sumf (fun p => Rabs (fst p - snd p)) (combine F0 dj)).
    { clear. induction (combine F0 dj) as [|p l IH]; [rewrite !sumf_nil; lra|]. rewrite !sumf_cons. pose proof (Rle_abs (- (fst p - snd p))). rewrite Rabs_Ropp in H. lra. }
    assert (P : 0 < / INR (m_n_features m)) by (now apply Rinv_0_lt_compat). unfold Rdiv. split.
    - rewrite Ropp_mult_distr_l. apply Rmult_le_compat_r; [lra|]. lra.
    - apply Rmult_le_compat_r; lra. }
  assert (NSM : forall j, (j <= n)%nat -> ~ small c m ts (IgnoreList []) F0 (th j)).
  { intros j Hj (dj & Ej & SM). rewrite ETOL in SM. destruct (FAR j dj Hj Ej) as [_ X]. lra. }
  assert (NI : n = Z.to_nat iters). { destruct STOP as [->|S]; [exact EI|]. elim (NSM (pred n) ltac:(lia) S). }
  split; [apply EW; rewrite ETOL; destruct (FAR (pred n) d ltac:(lia) Ed) as [X _]; lra|]. exists F0, th. rewrite <- NI. split; [exact EF0|]. split; [exact IT|]. split; [exact EN|].
  intros j Hj. destruct (IT j Hj) as (dj & Ej & _). exists dj. split; [exact Ej|]. destruct (FAR j dj ltac:(lia) Ej) as [_ X]. lra.
Qed.

(** ** C85 and C86: returned and given arrays change *)
Lemma fit_changes : forall lr decay iters tol g K soft c m ts x h x' h' a w, maxent_ok lr decay iters tol g K soft c -> (2 <= K)%Z -> inferable m ts -> one_feature_each m -> starts_with m x h -> 0 < x_rate x ->
  fit_maxent c m ts (IgnoreList []) x h = (x', h', Ok (a, w)) -> x_theta x' = TArr a /\ x_orig x' = x_orig x /\ 0 < x_rate x' /\ starts_with m x' h' /\ (x_theta x <> TNone -> x_theta x = TArr a) /\ (x_theta x = TArr a -> Rsum (nth a h' []) < Rsum (nth a h [])).
Proof.
  intros lr decay iters tol g K soft c m ts x h x' h' a w OK K2 IN OF ST HR E. pose proof OK as (EC & G & HK).
  apply fit_spec in E. destruct E as (F & F0 & s0 & n & th & EF0 & EF & HS & HT & HO & HX & HN & H0 & IT & _). rewrite zero_nothing in EF. assert (F = F0) by congruence. subst F.
  assert (LS : length s0 = m_n_features m). { unfold starts_with in ST. destruct HS as [(ET & EZ & EH)|(ET & EA & EZ & EH)]; rewrite zero_nothing in EZ; rewrite ET in ST.
    - assert (s0 = nth a h []) as -> by congruence. apply ST.
    - assert (s0 = zeros1 (m_n_features m)) as -> by congruence. apply repeat_length. }
  assert (L0 : length (th 0%nat) = m_n_features m) by congruence. destruct (totals_fall _ _ _ _ _ _ _ _ _ _ _ _ _ _ OK K2 IN OF HR EF0 L0 IT) as [LTH FALL].
  split; [exact HT|]. split; [exact HO|]. split; [rewrite HX; eapply rate_after_pos; eauto|]. unfold starts_with in *. rewrite HT.
  destruct HS as [(ET & EZ & EH)|(ET & EA & EZ & EH)]; rewrite zero_nothing in EZ; rewrite ET in ST |- *.
  - destruct ST as [Ha La]. rewrite EH, upd_length, nth_upd_same by exact Ha. split; [split; [exact Ha|apply LTH; lia]|]. split; [reflexivity|]. intros _. assert (s0 = nth a h []) by congruence. rewrite <- H, <- H0. apply FALL. lia.
  - rewrite EH, EA, app_length, app_nth2, Nat.sub_diag by lia. cbn [nth length]. split; [split; [lia|apply LTH; lia]|]. split; [congruence|discriminate].
Qed.
(** The array returned by a fit is changed by the next one. *)
Theorem C85_returned_refuted : forall lr decay iters tol g K soft c m ts x h, maxent_ok lr decay iters tol g K soft c -> (0 < iters)%Z -> (2 <= K)%Z -> inferable m ts -> one_feature_each m -> starts_with m x h -> 0 < x_rate x ->
  exists x1 h1 a w1 x2 h2 w2, fit_maxent c m ts (IgnoreList []) x h = (x1, h1, Ok (a, w1)) /\ fit_maxent c m ts (IgnoreList []) x1 h1 = (x2, h2, Ok (a, w2)) /\ nth a h2 [] <> nth a h1 [].
Proof.
  intros lr decay iters tol g K soft c m ts x h OK HI K2 IN OF ST HR. destruct (fit_total _ _ _ _ _ _ _ _ m ts (IgnoreList []) x h OK HI IN (Forall_nil _) ST) as (x1 & h1 & a & w1 & E1 & _ & _).
  destruct (fit_changes _ _ _ _ _ _ _ _ _ _ _ _ _ _ _ _ OK K2 IN OF ST HR E1) as (T1 & _ & R1 & S1 & _ & _).
  destruct (fit_total _ _ _ _ _ _ _ _ m ts (IgnoreList []) x1 h1 OK HI IN (Forall_nil _) S1) as (x2 & h2 & a2 & w2 & E2 & _ & _).
  destruct (fit_changes _ _ _ _ _ _ _ _ _ _ _ _ _ _ _ _ OK K2 IN OF S1 R1 E2) as (_ & _ & _ & _ & A & D). assert (a2 = a) by (specialize (A ltac:(congruence)); congruence). subst a2.
  exists x1, h1, a, w1, x2, h2, w2. split; [exact E1|]. split; [exact E2|]. intros X. specialize (D T1). rewrite X in D. lra.
Qed.
(** A fit changes the array given as initial estimate. *)
Theorem C86_given_refuted : forall lr decay iters tol g K soft c m ts h a, maxent_ok lr decay iters tol g K soft c -> (0 < iters)%Z -> (2 <= K)%Z -> inferable m ts -> one_feature_each m ->
  (a < length h)%nat -> length (nth a h []) = m_n_features m ->
  let '(x, h0) := new_maxent c (Some a) h in exists x1 h1 w1, fit_maxent c m ts (IgnoreList []) x h0 = (x1, h1, Ok (a, w1)) /\ nth a h1 [] <> nth a h [].
Proof.
  intros lr decay iters tol g K soft c m ts h a OK HI K2 IN OF Ha La. cbn [new_maxent]. destruct (config_inv _ _ _ _ _ _ _ _ (proj1 OK)) as (LP & _ & EL & _).
  assert (ST : starts_with m (mkMx (TArr a) (TArr (length h)) (x_lr c)) (h ++ [nth a h []])) by (cbn [starts_with x_theta]; rewrite app_length, app_nth1 by exact Ha; split; [lia|exact La]).
  assert (HR : 0 < x_rate (mkMx (TArr a) (TArr (length h)) (x_lr c))) by (cbn [x_rate]; lra).
  destruct (fit_total _ _ _ _ _ _ _ _ m ts (IgnoreList []) _ _ OK HI IN (Forall_nil _) ST) as (x1 & h1 & a1 & w1 & E1 & _ & _).
  destruct (fit_changes _ _ _ _ _ _ _ _ _ _ _ _ _ _ _ _ OK K2 IN OF ST HR E1) as (_ & _ & _ & _ & A & D). assert (a1 = a) by (specialize (A ltac:(discriminate)); cbn [x_theta] in A; congruence). subst a1.
  exists x1, h1, w1. split; [exact E1|]. intros X. specialize (D eq_refl). rewrite X, app_nth1 in D by exact Ha. lra.
Qed.

(** ** C49 for maximum-entropy inference *)
(** Iteration [j+1] of a fit that starts with rate [r] uses r ((j+1)!)^-d (j+1)^-d; the rate left behind by [n]
    iterations is r (n!)^-d. *)
Lemma prod_powers : forall d n, prodf (fun i => Rpower (INR (S i)) (- d)) (seq 0 n) = Rpower (INR (fact n)) (- d).
Proof. intros d n. rewrite <- prod_fact, <- seq_shift. induction (seq 0 n) as [|i l IH]; [reflexivity|]. cbn [map]. rewrite !prodf_cons, IH. reflexivity. Qed.
Definition initial (m : mdp R) (x : maxent R) (h : heap R) : list R := match x_theta x with TArr a => nth a h [] | _ => zeros1 (m_n_features m) end.
Theorem C49_maxent_actual_schedule : forall lr decay iters tol g K soft c m ts ig x h x' h' a w, maxent_config lr decay iters tol g K soft = Ok c -> 0 < decay -> starts_with m x h -> fit_maxent c m ts ig x h = (x', h', Ok (a, w)) ->
  exists F0 F n th, observed_features m ts = Ok F0 /\ zero_ignored ig F0 = Ok F /\ zero_ignored ig (initial m x h) = Ok (th 0%nat) /\ nth a h' [] = th n /\
    x_rate x' = x_rate x * Rpower (INR (fact n)) (- decay) /\ (0 < n <= Z.to_nat iters)%nat /\
    forall j, (j < n)%nat -> exists d, expected c m ts ig (th j) = Ok d /\
      th (S j) = map (fun p => fst p + (x_rate x * Rpower (INR (fact (S j))) (- decay) * Rpower (INR (S j)) (- decay)) * snd p) (combine (th j) (map (fun p => fst p - snd p) (combine F d))).
Proof.
  intros lr decay iters tol g K soft c m ts ig x h x' h' a w EC HD ST E. destruct (config_inv _ _ _ _ _ _ _ _ EC) as (_ & _ & _ & DE & EP & EI & _). assert (DT : x_decaying c = true) by (apply DE; lra).
  apply fit_spec in E. destruct E as (F & F0 & s0 & n & th & E0 & E1 & HS & _ & _ & HX & HN & H0 & IT & _). exists F0, F, n, th. split; [exact E0|]. split; [exact E1|]. unfold initial, starts_with in *. split; [|split].
  - rewrite H0. destruct HS as [(-> & EZ & _)|(-> & _ & EZ & _)]; exact EZ.
  - destruct HS as [(ET & _ & ->)|(ET & -> & _ & ->)]; [rewrite ET in ST; apply nth_upd_same; apply ST|rewrite app_nth2, Nat.sub_diag by lia; reflexivity].
  - split; [rewrite HX; unfold rate_after; rewrite DT, EP, prod_powers; reflexivity|]. split; [lia|].
  intros j Hj. destruct (IT j Hj) as (d & Ed & Et). exists d. split; [exact Ed|]. rewrite Et. unfold step_rate. rewrite DT, EP, prod_powers. reflexivity.
Qed.
(** From the second iteration on this is less than documented. *)
Theorem C49_maxent_rate_refuted : forall lr decay j, 0 < lr -> 0 < decay -> (1 <= j)%nat -> lr * Rpower (INR (fact (S j))) (- decay) * Rpower (INR (S j)) (- decay) < documented_rate lr decay (S j).
Proof.
  intros lr decay j HL HD Hj. unfold documented_rate. assert (X : Rpower (INR (fact (S j))) (- decay) < 1).
  { rewrite <- (Rpower_one (- decay)). apply Rpower_neg_lt; [exact HD|lra|]. replace 1 with (INR 1) by reflexivity. apply lt_INR. eapply Nat.lt_le_trans; [|apply fact_ge]. lia. }
  pose proof (Rpower_pos (INR (S j)) (- decay)) as P. revert X P. generalize (Rpower (INR (fact (S j))) (- decay)) (Rpower (INR (S j)) (- decay)). intros A B X P. assert (0 < lr * B) by nra. nra.
Qed.

(** ** C50 for maximum-entropy inference *)
(** Any history of fits, successful or not, and resets of the learning rate. *)
Inductive without_reset (c : maxent_cfg R) : maxent R * heap R -> maxent R * heap R -> Prop :=
| wr_none : forall s, without_reset c s s
| wr_rate : forall x h s, without_reset c (reset_rate c x, h) s -> without_reset c (x, h) s
| wr_fit : forall x h m ts ig x' h' r s, fit_maxent c m ts ig x h = (x', h', r) -> without_reset c (x', h') s -> without_reset c (x, h) s.
Lemma fit_keeps_other : forall (c : maxent_cfg R) m ts ig x h x' h' r a, fit_maxent c m ts ig x h = (x', h', r) -> x_theta x = TArr a -> x_theta x' = TArr a /\ x_orig x' = x_orig x /\ length h' = length h /\ forall b, b <> a -> nth b h' [] = nth b h [].
Proof.
  intros c m ts ig x h x' h' r a E T. unfold fit_maxent in E. assert (SAME : forall r0, (x, h, r0) = (x', h', r) -> x_theta x' = TArr a /\ x_orig x' = x_orig x /\ length h' = length h /\ forall b, b <> a -> nth b h' [] = nth b h []) by (intros r0 EQ; assert (x = x') by congruence; assert (h = h') by congruence; subst; auto).
  destruct ts as [|t ts]; [eauto|]. destruct t as [|z t]; [eauto|]. destruct (bind _ _) as [F|e]; [|eauto]. rewrite T in E. destruct (zero_ignored ig (nth a h [])) as [theta|e].
  - destruct (maxent_loop _ _ _ _ _ _ _ _ _ _) as [[theta' rate'] r0]. assert (mkMx (TArr a) (x_orig x) rate' = x') as <- by congruence. assert (upd h a theta' = h') as <- by congruence. split; [reflexivity|]. split; [reflexivity|]. split; [apply upd_length|]. intros b NB. now apply nth_upd_other.
  - assert (mkMx (TArr a) (x_orig x) (x_rate x) = x') as <- by congruence. assert (h = h') as <- by congruence. auto.
Qed.
(** The first reset restores the initial weights and learning rate. *)
Theorem C50_maxent_first_reset_partial : forall c a h x' h', (a < length h)%nat -> without_reset c (new_maxent c (Some a) h) (x', h') ->
  exists b, x_theta (reset_maxent c x') = TArr b /\ nth b h' [] = nth a h [] /\ x_rate (reset_maxent c x') = x_lr c.
Proof.
  intros c a h x' h' Ha W. exists (length h). cbn [new_maxent] in W. set (s := (mkMx (TArr a) (TArr (length h)) (x_lr c), h ++ [nth a h []])) in W.
  assert (I : forall s s', without_reset c s s' -> x_theta (fst s) = TArr a /\ x_orig (fst s) = TArr (length h) /\ nth (length h) (snd s) [] = nth a h [] -> x_theta (fst s') = TArr a /\ x_orig (fst s') = TArr (length h) /\ nth (length h) (snd s') [] = nth a h []).
  { clear - Ha. induction 1 as [s|x h0 s _ IH|x h0 m ts ig x1 h1 r s E _ IH]; intros (H1 & H2 & H3); [auto|apply IH; auto|]. cbn [fst snd] in *. destruct (fit_keeps_other _ _ _ _ _ _ _ _ _ _ E H1) as (K1 & K2 & _ & K3). apply IH. cbn [fst snd]. rewrite K1, K2. split; [reflexivity|]. split; [exact H2|]. rewrite K3 by lia. exact H3. }
  destruct (I _ _ W) as (_ & H2 & H3); [unfold s; cbn [fst snd x_theta x_orig]; split; [reflexivity|]; split; [reflexivity|]; rewrite app_nth2, Nat.sub_diag by lia; reflexivity|]. cbn [fst snd] in *. unfold reset_maxent. cbn [x_theta x_rate]. auto.
Qed.
(** C215: the same for maximum-entropy inference, with the learning rate. *)
Theorem C215_maxent : forall c a h x' h', (a < length h)%nat -> without_reset c (new_maxent c (Some a) h) (x', h') ->
  exists b, x_theta (reset_maxent c x') = TArr b /\ nth b h' [] = nth a h [] /\ x_rate (reset_maxent c x') = x_lr c.
Proof. exact (@C50_maxent_first_reset_partial). Qed.
(** After it, fits change the kept original, and later resets no longer restore it. *)
Theorem C50_maxent_later_resets_refuted : forall lr decay iters tol g K soft c m ts a h x h1, maxent_ok lr decay iters tol g K soft c -> (0 < iters)%Z -> (2 <= K)%Z -> inferable m ts -> one_feature_each m ->
  (a < length h)%nat -> length (nth a h []) = m_n_features m -> without_reset c (new_maxent c (Some a) h) (x, h1) ->
  exists x2 h2 b w, fit_maxent c m ts (IgnoreList []) (reset_maxent c x) h1 = (x2, h2, Ok (b, w)) /\ x_theta (reset_maxent c x2) = TArr b /\ nth b h2 [] <> nth a h [].
Proof.
  intros lr decay iters tol g K soft c m ts a h x h1 OK HI K2 IN OF Ha La W. destruct (C50_maxent_first_reset_partial c a h x h1 Ha W) as (b & T & N & R). destruct (config_inv _ _ _ _ _ _ _ _ (proj1 OK)) as (LP & _ & EL & _).
  assert (BL : (b < length h1)%nat). { destruct (Nat.lt_ge_cases b (length h1)) as [L|L]; [exact L|]. rewrite nth_overflow in N by exact L. rewrite <- N in La. exfalso. cbn in La. pose proof IN as (_ & _ & _ & _ & NP & NF & _). rewrite <- La in NF. symmetry in NF. apply length_zero_iff_nil in NF. specialize (OF 0%nat NP). rewrite NF, sumf_nil in OF. lra. }
  assert (ST : starts_with m (reset_maxent c x) h1) by (unfold starts_with; rewrite T, N; auto). assert (HR : 0 < x_rate (reset_maxent c x)) by (rewrite R; lra).
  destruct (fit_total _ _ _ _ _ _ _ _ m ts (IgnoreList []) _ _ OK HI IN (Forall_nil _) ST) as (x2 & h2 & b2 & w & E & _ & _).
  destruct (fit_changes _ _ _ _ _ _ _ _ _ _ _ _ _ _ _ _ OK K2 IN OF ST HR E) as (T2 & O2 & _ & _ & A & D). assert (b2 = b) by (specialize (A ltac:(congruence)); congruence). subst b2.
  exists x2, h2, b, w. split; [exact E|]. split; [unfold reset_maxent at 1; cbn [x_theta]; rewrite O2; exact T|]. intros X. specialize (D T). rewrite X, N in D. lra.
Qed.
(** A learner without initial weights cannot be fitted after a reset. *)
Theorem C50_maxent_no_estimate_refuted : forall c h x h1 m ts ig x' h' a w, without_reset c (new_maxent c None h) (x, h1) -> fit_maxent c m ts ig (reset_maxent c x) h1 <> (x', h', Ok (a, w)).
Proof.
  intros c h x h1 m ts ig x' h' a w W E. assert (I : forall s s', without_reset c s s' -> x_orig (fst s) = TObj -> x_orig (fst s') = TObj).
  { clear. induction 1 as [s|x h0 s _ IH|x h0 m ts ig x1 h1 r s E _ IH]; intros H; [auto|apply IH; auto|]. cbn [fst] in *. apply IH. cbn [fst]. clear IH. unfold fit_maxent in E.
    assert (SAME : forall r0, (x, h0, r0) = (x1, h1, r) -> x_orig x1 = TObj) by (intros r0 EQ; assert (x = x1) by congruence; subst; auto).
    destruct ts as [|t ts]; [eauto|]. destruct t as [|z t]; [eauto|]. destruct (bind _ _) as [F|e]; [|eauto]. destruct (x_theta x) as [| |b]; [|eauto|]; destruct (zero_ignored _ _); (destruct (maxent_loop _ _ _ _ _ _ _ _ _ _) as [[theta' rate'] r0] || idtac); 
      match type of E with (?u, _, _) = _ => assert (u = x1) as <- by congruence end; exact H. }
  specialize (I _ _ W eq_refl). cbn [fst] in I. apply fit_spec in E. destruct E as (F & F0 & s0 & n & th & _ & _ & HS & _). unfold reset_maxent in HS. cbn [x_theta] in HS. rewrite I in HS. destruct HS as [(X & _)|(X & _)]; discriminate.
Qed.

(** ** C53 for maximum-entropy inference *)
Definition zero_vector (v : list R) : Prop := Forall (fun x => x = 0) v.
(** With the default argument every fit returns zero for all features, without a warning. *)
Theorem C53_default_refuted : forall (c : maxent_cfg R) m ts x h x' h' a w, fit_maxent c m ts (IgnoreTuple []) x h = (x', h', Ok (a, w)) -> zero_vector (nth a h' []) /\ (0 < x_tol c -> w = false).
Proof.
  intros c m ts x h x' h' a w E. apply fit_spec in E. destruct E as (F & F0 & s0 & n & th & _ & EF & HS & _ & _ & _ & HN & H0 & IT & _ & _ & (d & Ed & EW)).
  assert (Z : forall v v' : list R, zero_ignored (IgnoreTuple []) v = Ok v' -> zero_vector v').
  { intros v v' EZ. cbn [zero_ignored] in EZ. assert (v' = map (fun _ => n0) v) as -> by congruence. unfold zero_vector. rewrite Forall_forall. intros y Hy. apply in_map_iff in Hy. destruct Hy as (_ & <- & _). reflexivity. }
  assert (ZF : zero_vector F) by (eapply Z; exact EF). assert (ZD : forall t d, expected c m ts (IgnoreTuple []) t = Ok d -> zero_vector d) by (intros t d0 X; unfold expected in X; apply bind_ok in X; destruct X as (d1 & _ & X); eapply Z; exact X).
  assert (DIFF : forall u v, zero_vector u -> zero_vector v -> zero_vector (map (fun p => fst p - snd p) (combine u v))).
  { unfold zero_vector. intros u v HU HV. rewrite Forall_forall in *. intros y Hy. apply in_map_iff in Hy. destruct Hy as ([p q] & <- & I). cbn [fst snd]. rewrite (HU p), (HV q) by (first [eapply in_combine_l; eassumption | eapply in_combine_r; eassumption]). ring. }
  assert (ZT : forall j, (j <= n)%nat -> zero_vector (th j)).
  { induction j as [|j IH]; intros Hj; [rewrite H0; destruct HS as [(_ & EZ & _)|(_ & _ & EZ & _)]; eapply Z; exact EZ|]. destruct (IT j ltac:(lia)) as (dj & Ej & ->). specialize (IH ltac:(lia)). specialize (DIFF F dj ZF (ZD _ _ Ej)). unfold zero_vector in *. rewrite Forall_forall in *. intros y Hy. apply in_map_iff in Hy. destruct Hy as ([p q] & <- & I). cbn [fst snd]. rewrite (IH p), (DIFF q) by (first [eapply in_combine_l; eassumption | eapply in_combine_r; eassumption]). ring. }
  split.
  - destruct HS as [(_ & _ & EH)|(_ & EA & _ & EH)]; rewrite EH.
    + destruct (Nat.lt_ge_cases a (length h)) as [L|L]; [rewrite nth_upd_same by exact L; apply ZT; lia|]. rewrite nth_overflow by (rewrite upd_length; exact L). constructor.
    + rewrite EA, app_nth2, Nat.sub_diag by lia. cbn [nth]. apply ZT; lia.
  - intros HT. apply EW. specialize (DIFF F d ZF (ZD _ _ Ed)). replace (sumf (fun p => fst p - snd p) (combine F d)) with 0; [unfold Rdiv; rewrite Rmult_0_l; exact HT|]. symmetry. change (Rsum (map (fun p => fst p - snd p) (combine F d)) = 0). unfold zero_vector in DIFF. induction DIFF as [|y l -> _ IH]; [reflexivity|]. unfold Rsum in *. cbn [fold_right]. rewrite IH. ring.
Qed.
(** A tuple of two or more features makes every fit fail. *)
Theorem C53_tuple_refuted : forall (c : maxent_cfg R) m ts i j l x h x' h' a w, fit_maxent c m ts (IgnoreTuple (i :: j :: l)) x h <> (x', h', Ok (a, w)).
Proof. intros c m ts i j l x h x' h' a w E. apply fit_spec in E. destruct E as (F & F0 & s0 & n & th & _ & EF & _). discriminate. Qed.
