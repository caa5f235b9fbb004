(** Hypothesis testing: ignored features (C53), shared arrays (C85, C86), resets (C50), and grids. *)
From Coq Require Import List ZArith Reals Bool Lia Lra.
From Verif Require Import PyBase PyProofs ActionModel ActionSpec RSum ActionProofs GridModel GridSpec MDPModel MDPSpec MDPProofs MDPProofs2 MDPProofs3 EnvProofs3 VIModel VISpec VIProofs VIProofs2 VIProps VIEnvProps MCTSModel MCTSProofs MCTSProps PLSpec PLProofs PLProps2 IRLModel IRLFit IRLEye IRLLook IRLGrids HypModel HypProofs HypObs HypRun HypProps HypProps2.
Import ListNotations.
Local Open Scope R_scope.

(** ** C53 *)
Lemma map_nth_none : forall A B (F : option A -> option B) l i, F None = None -> nth i (map F l) None = F (nth i l None).
Proof. intros A B F l i E. rewrite <- E at 1. apply map_nth. Qed.
(** What a move shows about a feature does not depend on the other features being ignored. *)
Lemma evidence_others : forall c ex p r r', evidence c ex p r -> evidence c [] p r' -> forall f, ~ In (Z.of_nat f) ex -> nth f r None = nth f r' None.
Proof.
  intros c ex p r r' (q & E) (q' & E') f NI. unfold single_move in E, E'. destruct (move_action _ _ _) as [[i a]|e]; [|discriminate]. cbn [bind] in E, E'. apply bind_ok in E. destruct E as (q1 & EQ & E). apply bind_ok in E'. destruct E' as (q2 & EQ' & E'). destruct (get_actions_states _ _) as [acts|e]; [|discriminate]. cbn [bind] in E, E'.
  unfold estimate_q in EQ, EQ'. apply mapM_nth in EQ. apply mapM_nth in EQ'. rewrite seq_length in EQ, EQ'. destruct EQ as [L1 H1], EQ' as [L2 H2].
  assert (Q : nth f q1 None = nth f q2 None). { destruct (Nat.lt_ge_cases f (length (m_features (fst p)))) as [Hf|Hf]; [|rewrite !nth_overflow by lia; reflexivity]. specialize (H1 f 0%nat None Hf). specialize (H2 f 0%nat None Hf). rewrite seq_nth0 in H1, H2 by exact Hf. destruct (existsb (Z.eqb (Z.of_nat f)) ex) eqn:EX; [apply excluded_spec in EX; contradiction|]. cbn [existsb] in H2. rewrite H1 in H2. congruence. }
  assert (X : forall norm, nth f (map (fun qf => hyp_weight norm qf i (map fst acts) a) q1) None = nth f (map (fun qf => hyp_weight norm qf i (map fst acts) a) q2) None) by (intros norm; unfold weight; rewrite !map_nth_none by reflexivity; now rewrite Q).
  destruct (h_norm c) eqn:EN; [|discriminate|]; inversion E; inversion E'; subst; apply X.
Qed.
Lemma evidence_excluded : forall c ex p r f, evidence c ex p r -> In (Z.of_nat f) ex -> nth f r None = None.
Proof.
  intros c ex p r f (q & E) IN. unfold single_move in E. destruct (move_action _ _ _) as [[i a]|e]; [|discriminate]. cbn [bind] in E. apply bind_ok in E. destruct E as (q1 & EQ & E). destruct (get_actions_states _ _) as [acts|e]; [|discriminate]. cbn [bind] in E.
  unfold estimate_q in EQ. apply mapM_nth in EQ. rewrite seq_length in EQ. destruct EQ as [L1 H1].
  assert (Q : nth f q1 None = None). { destruct (Nat.lt_ge_cases f (length (m_features (fst p)))) as [Hf|Hf]; [|now rewrite nth_overflow by lia]. specialize (H1 f 0%nat None Hf). rewrite seq_nth0 in H1 by exact Hf. apply excluded_spec in IN. rewrite IN in H1. congruence. }
  assert (X : forall norm, nth f (map (fun qf => hyp_weight norm qf i (map fst acts) a) q1) None = None) by (intros norm; unfold weight; rewrite map_nth_none by reflexivity; rewrite Q; reflexivity).
  destruct (h_norm c) eqn:EN; [|discriminate|]; inversion E; subst; apply X.
Qed.
(** Ignoring features leaves the estimates of the others as they are, after every move. *)
Theorem C53_hyptest_others_partial : forall c mdps ts ex x h x1 h1 a1 log1 ends1 x2 h2 a2 log2 ends2 nF, Forall (fun m => length (m_features m) = nF) mdps -> starts_ok nF x h ->
  fit_hyptest c mdps ts ex x h = (x1, h1, Ok (a1, log1, ends1)) -> fit_hyptest c mdps ts [] x h = (x2, h2, Ok (a2, log2, ends2)) ->
  length log1 = length log2 /\ forall k f, ~ In (Z.of_nat f) ex -> nth f (nth k log1 []) None = nth f (nth k log2 []) None.
Proof.
  intros c mdps ts ex x h x1 h1 a1 log1 ends1 x2 h2 a2 log2 ends2 nF FM ST E1 E2. destruct (fit_course _ _ _ _ _ _ _ _ _ _ _ _ E1 FM ST) as (r1 & F1 & L1 & _ & _ & _ & _ & _ & _ & H1). destruct (fit_course _ _ _ _ _ _ _ _ _ _ _ _ E2 FM ST) as (r2 & F2 & L2 & _ & _ & _ & _ & _ & _ & H2).
  assert (LL : length log1 = length log2) by (rewrite L1, L2, <- (F2_len _ _ _ _ _ F1), <- (F2_len _ _ _ _ _ F2); reflexivity). split; [exact LL|]. intros k f NI.
  assert (EV : forall k, nth f (nth k r1 []) None = nth f (nth k r2 []) None). { clear -F1 F2 NI. revert r2 F2. induction F1 as [|p r l rs E F1 IH]; intros r2 F2; inversion_clear F2 as [|? ? ? ? E' F2']; intros k; [reflexivity|]. destruct k as [|k]; cbn [nth]; [eapply evidence_others; eassumption|]. now apply IH. }
  assert (X : forall k, nth f (nth k (start_weights nF x h :: log1) []) None = nth f (nth k (start_weights nF x h :: log2) []) None).
  { clear k. induction k as [|k IH]; [reflexivity|]. cbn [nth]. destruct (Nat.lt_ge_cases k (length log1)) as [L|L]; [|rewrite (nth_overflow log1), (nth_overflow log2) by lia; reflexivity]. rewrite H1, H2 by lia. now rewrite EV, IH. }
  apply (X (S k)).
Qed.
(** But an ignored feature gets NaN instead of staying as it is. *)
Theorem C53_hyptest_nan_refuted : forall c mdps ts ex x h x1 h1 a log ends nF f, Forall (fun m => length (m_features m) = nF) mdps -> starts_ok nF x h -> (f < nF)%nat -> In (Z.of_nat f) ex ->
  fit_hyptest c mdps ts ex x h = (x1, h1, Ok (a, log, ends)) -> nth f (nth a h1 []) None = None.
Proof.
  intros c mdps ts ex x h x1 h1 a log ends nF f FM ST Hf IN E. destruct (nth f (nth a h1 []) None) as [w|] eqn:EW; [exfalso|reflexivity]. destruct (proj1 (C92_numbers_partial _ _ _ _ _ _ _ _ _ _ _ _ E FM ST f Hf)) as [_ N]; [congruence|]. apply hyp_fit_spec in E. destruct E as (_ & _ & _ & _ & _ & _ & rs & F & NE & _).
  destruct F as [|p r l rs' EV F'] eqn:EF; [congruence|]. clear EF. assert (IP : In p (p :: l)) by now left. apply (N p r IP EV). eapply evidence_excluded; eassumption.
Qed.

(** ** C85 and C86: arrays shared with the caller *)
(** A later fit writes into the array returned by the earlier one. *)
Theorem C85_hyptest_refuted : forall c mdps ts ex x h x1 h1 a log ends mdps' ts' ex' x2 h2 b log2 ends2 nF, Forall (fun m => length (m_features m) = nF) mdps' -> starts_ok nF x1 h1 ->
  fit_hyptest c mdps ts ex x h = (x1, h1, Ok (a, log, ends)) -> fit_hyptest c mdps' ts' ex' x1 h1 = (x2, h2, Ok (b, log2, ends2)) -> b = a /\ nth a h2 [] = last log2 [].
Proof.
  intros c mdps ts ex x h x1 h1 a log ends mdps' ts' ex' x2 h2 b log2 ends2 nF FM ST E1 E2. destruct (fit_course _ _ _ _ _ _ _ _ _ _ _ _ E2 FM ST) as (rs & _ & _ & _ & _ & EL & _). apply hyp_fit_spec in E1. destruct E1 as (_ & _ & T1 & _). apply hyp_fit_spec in E2. destruct E2 as (_ & _ & _ & _ & _ & [T2|[T2 _]] & _); [|congruence]. assert (b = a) by congruence. subst b. auto.
Qed.
(** A fit writes into the array of initial weights that the caller passed to the constructor; here it replaces every number in it. *)
Theorem C86_hyptest_refuted : forall lr decay asym tol g K soft c nF mdps ts ex h a i j, hyp_ok lr decay asym tol g K soft ZScore c -> testable nF mdps ts -> (a < length h)%nat -> length (nth a h []) = nF ->
  (S j < length (nth i ts []))%nat -> one_option (nth i mdps (blank_mdp None)) (nth j (nth i ts []) 0%nat) ->
  let '(x, h0) := new_hyptest (Some a) h in exists x1 h1 log ends, fit_hyptest c mdps (map (map Z.of_nat) ts) ex x h0 = (x1, h1, Ok (a, log, ends)) /\ forall f, nth f (nth a h1 []) None = None.
Proof.
  intros lr decay asym tol g K soft c nF mdps ts ex h a i j OK T HA LA Hj OO. cbn [new_hyptest]. set (x := mkHt (TArr a) (TArr (length h))). assert (ST : starts_ok nF x (h ++ [nth a h []])) by (cbn [starts_ok x ht_theta]; unfold starts_ok; cbn; rewrite app_length, app_nth1 by exact HA; split; [lia|exact LA]).
  destruct (C92_one_option_refuted _ _ _ _ _ _ _ _ _ _ _ ex x _ i j OK T ST Hj OO) as (x1 & h1 & b & log & ends & E & _ & N). pose proof E as E0. apply hyp_fit_spec in E0. destruct E0 as (_ & _ & _ & _ & _ & [TA|[TA _]] & _); [|discriminate]. assert (b = a) by (cbn in TA; congruence). subst b. eauto 10.
Qed.

(** ** C50 *)
Inductive hyp_history (c : hyp_cfg) : hyptest * heap weight -> hyptest * heap weight -> Prop :=
| hh_none : forall s, hyp_history c s s
| hh_fit : forall x h mdps ts ex x' h' r s, fit_hyptest c mdps ts ex x h = (x', h', r) -> hyp_history c (x', h') s -> hyp_history c (x, h) s.
Lemma hyp_keeps : forall c mdps ts ex x h x' h' r, fit_hyptest c mdps ts ex x h = (x', h', r) -> ht_orig x' = ht_orig x /\ forall a, ht_theta x = TArr a -> ht_theta x' = TArr a /\ length h' = length h /\ forall b, b <> a -> nth b h' [] = nth b h [].
Proof.
  intros c mdps ts ex x h x' h' r E. unfold fit_hyptest in E. assert (SAME : forall r0, (x, h, r0) = (x', h', r) -> ht_orig x' = ht_orig x /\ forall a, ht_theta x = TArr a -> ht_theta x' = TArr a /\ length h' = length h /\ forall b, b <> a -> nth b h' [] = nth b h []) by (intros r0 EQ; assert (x = x') by congruence; assert (h = h') by congruence; subst; auto).
  destruct ts as [|t ts]; [eauto|]. destruct t as [|z t]; [eauto|]. destruct (negb _); [eauto|]. destruct (negb _); [eauto|]. destruct (ht_theta x) as [| |b] eqn:TX; [|eauto|]; destruct (run_all _ _ _ _ _) as [[st ends] [u|e]]; cbv zeta in E; try destruct (length (r_log st) =? 0)%nat; 
    (split; [inversion E; reflexivity|intros a TA; first [discriminate TA|assert (b = a) by congruence; subst b; inversion E; subst; cbn [ht_theta]; rewrite upd_length; split; [congruence|split; [reflexivity|intros b NB; now apply nth_upd_other]]]]).
Qed.
(** The first reset restores the initial weights. *)
Theorem C50_hyptest_first_reset_partial : forall c a h x' h', (a < length h)%nat -> hyp_history c (new_hyptest (Some a) h) (x', h') -> exists b, ht_theta (reset_hyptest x') = TArr b /\ nth b h' [] = nth a h [].
Proof.
  intros c a h x' h' HA W. exists (length h). cbn [new_hyptest] in W.
  assert (I : forall s s', hyp_history c s s' -> ht_theta (fst s) = TArr a /\ ht_orig (fst s) = TArr (length h) /\ nth (length h) (snd s) [] = nth a h [] -> ht_theta (fst s') = TArr a /\ ht_orig (fst s') = TArr (length h) /\ nth (length h) (snd s') [] = nth a h []).
  { clear W. induction 1 as [s|x h0 mdps ts ex x1 h1 r s E _ IH]; intros (H1 & H2 & H3); [auto|]. cbn [fst snd] in *. destruct (hyp_keeps _ _ _ _ _ _ _ _ _ E) as [K1 K2]. destruct (K2 _ H1) as (K3 & _ & K4). apply IH. cbn [fst snd]. split; [exact K3|]. split; [congruence|]. rewrite K4 by lia. exact H3. }
  destruct (I _ _ W) as (_ & H2 & H3); [cbn [fst snd ht_theta ht_orig]; split; [reflexivity|]; split; [reflexivity|]; rewrite app_nth2, Nat.sub_diag by lia; reflexivity|]. cbn [fst snd] in *. split; [exact H2|exact H3].
Qed.
(** C215: the same for hypothesis testing. *)
Theorem C215_hyptest : forall c a h x' h', (a < length h)%nat -> hyp_history c (new_hyptest (Some a) h) (x', h') -> exists b, ht_theta (reset_hyptest x') = TArr b /\ nth b h' [] = nth a h [].
Proof. exact (@C50_hyptest_first_reset_partial). Qed.
(** After that the kept copy is lost: the next fit overwrites it with its own estimates, and these are what a second reset gives. *)
Theorem C50_hyptest_later_resets_refuted : forall c a h x h1 mdps ts ex x2 h2 b log ends nF, (a < length h)%nat -> length (nth a h []) = nF -> (0 < nF)%nat -> hyp_history c (new_hyptest (Some a) h) (x, h1) -> Forall (fun m => length (m_features m) = nF) mdps ->
  fit_hyptest c mdps ts ex (reset_hyptest x) h1 = (x2, h2, Ok (b, log, ends)) -> ht_theta (reset_hyptest x2) = TArr b /\ nth b h2 [] = last log [].
Proof.
  intros c a h x h1 mdps ts ex x2 h2 b log ends nF HA LA NP W FM E. destruct (C50_hyptest_first_reset_partial _ _ _ _ _ HA W) as (b' & T & N). assert (BL : (b' < length h1)%nat) by (destruct (Nat.lt_ge_cases b' (length h1)) as [L|L]; [exact L|]; rewrite nth_overflow in N by exact L; rewrite <- N in LA; cbn in LA; lia).
  assert (ST : starts_ok nF (reset_hyptest x) h1) by (unfold starts_ok; rewrite T; split; [exact BL|congruence]). destruct (fit_course _ _ _ _ _ _ _ _ _ _ _ _ E FM ST) as (rs & _ & _ & _ & _ & EL & _). apply hyp_fit_spec in E. destruct E as (_ & _ & _ & EO & _ & [TA|[TA _]] & _); [|congruence].
  split; [|exact EL]. cbn [reset_hyptest ht_theta ht_orig] in *. congruence.
Qed.
(** Without initial weights, no fit after a reset ever returns. *)
Theorem C50_hyptest_none_refuted : forall c h x h1 mdps ts ex x' h' r, hyp_history c (new_hyptest None h) (x, h1) -> fit_hyptest c mdps ts ex (reset_hyptest x) h1 <> (x', h', Ok r).
Proof.
  intros c h x h1 mdps ts ex x' h' [[a log] ends] W E. assert (I : forall s s', hyp_history c s s' -> ht_orig (fst s) = TObj -> ht_orig (fst s') = TObj). { clear. induction 1 as [s|x h0 mdps ts ex x1 h1 r s E _ IH]; intros H; [auto|]. apply IH. cbn [fst] in *. destruct (hyp_keeps _ _ _ _ _ _ _ _ _ E) as [K _]. congruence. }
  specialize (I _ _ W eq_refl). cbn [fst] in I. apply hyp_fit_spec in E. destruct E as (_ & _ & _ & _ & _ & [TA|[TA _]] & _); cbn [reset_hyptest ht_theta] in TA; congruence.
Qed.

(** On trajectories that a new learner can be fitted to, it raises TypeError and changes nothing. *)
Theorem C50_hyptest_none_error : forall lr decay asym tol g K soft norm c h x h1 nF mdps ts ex, hyp_ok lr decay asym tol g K soft norm c -> norm <> Relative -> hyp_history c (new_hyptest None h) (x, h1) -> testable nF mdps ts ->
  (exists x' h' r, fit_hyptest c mdps (map (map Z.of_nat) ts) ex (fst (new_hyptest None h1)) h1 = (x', h', Ok r)) /\
  fit_hyptest c mdps (map (map Z.of_nat) ts) ex (reset_hyptest x) h1 = (reset_hyptest x, h1, Err TypeError).
Proof.
  intros lr decay asym tol g K soft norm c h x h1 nF mdps ts ex OK NR W T. split.
  { destruct (C90_other_normalisation_partial _ _ _ _ _ _ _ _ _ _ _ _ ex (fst (new_hyptest None h1)) h1 OK NR T) as (x' & h' & a & log & ends & E); [discriminate|]. exists x', h', (a, log, ends). exact E. }
  assert (I : forall s s', hyp_history c s s' -> ht_orig (fst s) = TObj -> ht_orig (fst s') = TObj). { clear. induction 1 as [s|x h0 mdps ts ex x1 h1 r s E _ IH]; intros H; [auto|]. apply IH. cbn [fst] in *. destruct (hyp_keeps _ _ _ _ _ _ _ _ _ E) as [K _]. congruence. }
  specialize (I _ _ W eq_refl). cbn [fst] in I. assert (EE : object_error c ex (combine mdps (map (map Z.of_nat) ts)) = TypeError).
  { pose proof (testable_nonempty _ _ _ T) as NE. pose proof (fun p => testable_moves _ _ _ p T) as TM. unfold object_error. assert (EQ : concat (map (fun '(m, t) => map (fun p => (m, p)) (moves t)) (combine mdps (map (map Z.of_nat) ts))) = all_moves mdps (map (map Z.of_nat) ts)) by (unfold all_moves; f_equal; apply map_ext; now intros [m t]).
    match goal with |- match ?l with _ => _ end = _ => replace l with (all_moves mdps (map (map Z.of_nat) ts)) by (symmetry; exact EQ) end. destruct (all_moves mdps (map (map Z.of_nat) ts)) as [|p l]; [now elim NE|]. destruct (TM p ltac:(now left)) as (s & t & EP & _ & H1 & H2 & _ & H4 & H5 & H6). destruct (move_ok _ _ _ _ _ _ _ _ _ (fst p) ex s t OK NR H1 H2 H4 H5 H6) as (a & acts & r & q & E & _). destruct p as [m [s' t']]. cbn [fst snd] in EP, E. injection EP as ? ?. subst s' t'. now rewrite E. }
  unfold fit_hyptest. pose proof (proj1 (testable_shapes _ _ _ T)) as SS. destruct T as (TL & T0 & _). destruct ts as [|t ts]; [now elim T0|]. destruct t as [|z t]; [now elim T0|]. cbn [map] in EE |- *. replace (length ((Z.of_nat z :: map Z.of_nat t) :: map (map Z.of_nat) ts) =? length mdps)%nat with true by (symmetry; apply Nat.eqb_eq; rewrite TL; cbn [length]; now rewrite map_length).
  rewrite SS. cbn [negb]. cbn [reset_hyptest ht_theta]. rewrite I. now rewrite EE.
Qed.

(** ** C96: no overshooting *)
(** If the learning rate times the asymmetry is at most one, every new estimate lies between the old one and the evidence. *)
Theorem C96_between : forall lr decay asym tol g K soft norm c mdps ts ex x h x' h' a log ends nF, hyptest_config lr decay asym tol g K soft norm = Ok c -> lr * asym <= 1 ->
  fit_hyptest c mdps ts ex x h = (x', h', Ok (a, log, ends)) -> Forall (fun m => length (m_features m) = nF) mdps -> starts_ok nF x h ->
  exists rs, Forall2 (evidence c ex) (all_moves mdps ts) rs /\ length log = length rs /\ nth a h' [] = last log [] /\
  forall k f w, (k < length log)%nat -> nth f (nth k log []) None = Some w ->
    exists r w0, nth f (nth k rs []) None = Some r /\ nth f (nth k (start_weights nF x h :: log) []) None = Some w0 /\ Rmin r w0 <= w <= Rmax r w0 /\ (r <> w0 -> w <> w0).
Proof.
  intros lr decay asym tol g K soft norm c mdps ts ex x h x' h' a log ends nF EC HL E FM ST. destruct (fit_course _ _ _ _ _ _ _ _ _ _ _ _ E FM ST) as (rs & F & L & _ & _ & EL & _ & _ & _ & H). exists rs. split; [exact F|]. split; [exact L|]. split; [exact EL|]. intros k f w Hk EW. rewrite H in EW by exact Hk.
  destruct (nth f (nth k rs []) None) as [r|]; [|discriminate]. destruct (nth f (nth k (start_weights nF x h :: log) []) None) as [w0|]; [|discriminate]. exists r, w0. split; [reflexivity|]. split; [reflexivity|].
  destruct (hyp_inv _ _ _ _ _ _ _ _ _ EC) as (LP & DP & AP & C1 & C2 & C3 & C4 & _). assert (Q : exists rate, 0 < rate <= 1 /\ w = w0 + rate * (r - w0)).
  { cbn [update_weight] in EW. rewrite C1, C2, C3, C4 in EW. match type of EW with Some (_ + ?y * _) = _ => exists y end. split; [|congruence]. destruct (Rltb 0 decay) eqn:ED; [|split; [exact LP|nra]]. apply Rltb_true in ED.
    assert (PW : 0 < Rpower (INR (S k)) (- decay) <= 1) by (split; [apply Rpower_pos|apply power_le_1; [lra|rewrite S_INR; pose proof (pos_INR k); lra]]). assert (BB : 0 < (if nltb (Rabs r - Rabs w0) n0 then lr * asym else lr / asym) <= 1).
    { destruct (nltb _ _); [nra|]. assert (0 < / asym < 1) by (split; [apply Rinv_0_lt_compat; lra|rewrite <- Rinv_1; apply Rinv_lt_contravar; lra]). unfold Rdiv. nra. }
    revert PW BB. generalize (Rpower (INR (S k)) (- decay)) (if nltb (Rabs r - Rabs w0) n0 then lr * asym else lr / asym). intros u v [U1 U2] [V1 V2]. nra. }
  destruct Q as (rate & [R1 R2] & ->). split; [|intros N X; assert (rate * (r - w0) = 0) by lra; apply Rmult_integral in H0; lra]. unfold Rmin, Rmax. destruct (Rle_dec r w0); nra.
Qed.

(** ** Grids *)
Lemma walkable_nth : forall m t j, walkable m t -> (S j < length t)%nat -> (nth j t 0 < m_n_states m)%nat /\ (nth (S j) t 0 < m_n_states m)%nat /\ is_adjacent m (Z.of_nat (nth j t 0%nat)) (Z.of_nat (nth (S j) t 0%nat)) = Ok true.
Proof.
  intros m t j [F L] Hj. revert j Hj F L. induction t as [|s t IH]; intros j Hj F L; [cbn in Hj; lia|]. destruct t as [|s' t]; [cbn in Hj; lia|]. inversion F as [|? ? F1 F2]. subst. inversion F2. subst. destruct L as [L1 L2]. destruct j as [|j]; [cbn [nth]; auto|]. apply (IH j); [cbn in *; lia|exact F2|exact L2].
Qed.
(** Walks on a grid can be used. *)
Theorem C90_grids : forall k feats w0 shape st m0 calls ts, grid_mdp (A:=R) k feats w0 shape st = Ok m0 -> let m := after_wall_calls m0 calls in
  hd [] ts <> [] -> Forall (walkable m) ts -> (exists t, In t ts /\ (1 < length t)%nat) -> testable (length feats) (repeat m (length ts)) ts.
Proof.
  intros k feats w0 shape st m0 calls ts H m T0 WK (t0 & It & L0). destruct (grid_clean _ _ _ _ _ _ calls H) as (C & _ & EF & _). fold m in C, EF. pose proof (cl_grid _ _ _ _ C) as G. destruct (grid_shape _ _ _ _ G) as (N & NA & SH). pose proof (gi_ns _ _ _ _ G) as NS.
  split; [apply repeat_length|]. split; [exact T0|]. split; [|split].
  - exists (nst shape), (n_actions (m_sas m)). apply Forall_forall. intros y Hy. apply repeat_spec in Hy. subst y. split; [eapply grid_is_mdp; exact G|]. split; [exact NS|]. split; [exact N|]. split; [reflexivity|]. now rewrite EF.
  - intros i j Hj. assert (HL : (i < length ts)%nat) by (destruct (Nat.lt_ge_cases i (length ts)) as [X|X]; [exact X|rewrite nth_overflow in Hj by exact X; cbn in Hj; lia]). cbv zeta. rewrite nth_repeat_lt by exact HL. rewrite Forall_forall in WK. destruct (walkable_nth m _ j (WK _ (nth_In _ [] HL)) Hj) as (H1 & H2 & H3). split; [exact H1|]. split; [exact H2|]. rewrite NS in H1, H2. destruct (is_adjacent_spec _ _ _ _ G _ _ H1 H2) as (b & Eb & Sb). assert (EB : b = true) by congruence. apply Sb in EB. destruct EB as (a & W). exists a. rewrite <- get3_prob.
    destruct (inv_edge _ _ _ _ G _ a _ H1 (edge_action _ _ _ _ _ _ (proj1 W)) H2) as [[-> _]|[_ X]]; [lra|contradiction].
  - apply (In_nth _ _ []) in It. destruct It as (i & _ & Ei). exists i. now rewrite Ei.
Qed.
(** On the grid of [C55_example] a walk that starts in the corner beside the wall: the first move is the only possible one, and
    after it no estimate is a number. A walk elsewhere meets the hypotheses as well. *)
Example hyptest_example : exists m c, grid_mdp (A:=R) Square eye_feats (Some [0; 0; 0; 0; 1; 0]%R) (2, 3)%nat false = Ok m /\ hyp_ok (3 / 10) 1 2 (1 / 100000000) (9 / 10) 500 true ZScore c /\
  testable 2 [m; m] [[3; 0; 1; 2; 5]; [2; 1]]%nat /\ testable 2 [m] [[1; 0]]%nat /\ one_option m 3 /\ ~ one_option m 0 /\ starts_ok 2 (fst (new_hyptest None [])) [] /\ starts_ok 2 (fst (new_hyptest (Some 0%nat) [[Some 1; Some 0]])) [[Some 1; Some 0]] /\
  exists x' h' a log ends, fit_hyptest c [m; m] [[3; 0; 1; 2; 5]; [2; 1]]%Z [] (fst (new_hyptest None [])) [] = (x', h', Ok (a, log, ends)) /\ nth a h' [] = [None; None].
Proof.
  destruct (grid_mdp_ok Square eye_feats (Some [0; 0; 0; 0; 1; 0]%R) (2, 3)%nat false) as (m & E & G & EW & EF & _ & NF & _); [cbn; lia|repeat constructor|reflexivity|repeat constructor; (now left) || (now right)|].
  assert (NW : forall i, i <> 4%nat -> ~ is_wall (m_walls m) i). { intros i Hi. rewrite EW. unfold is_wall. cbn [walls_arg]. do 6 (destruct i as [|i]; [cbn; (lra || lia)|]). destruct i; cbn; lra. }
  assert (W4 : is_wall (m_walls m) 4) by (rewrite EW; reflexivity). pose proof (gi_ns _ _ _ _ G) as NS. cbn in NS.
  assert (AD : forall s a t, (s < 6)%nat -> (t < 6)%nat -> s <> 4%nat -> t <> 4%nat -> edgeb Square (2, 3)%nat false s a t = true -> is_adjacent m (Z.of_nat s) (Z.of_nat t) = Ok true).
  { intros s a t Hs Ht N1 N2 Ed. destruct (is_adjacent_spec _ _ _ _ G s t Hs Ht) as (b & Eb & Sb). rewrite Eb. f_equal. apply Sb. exists a. split; [now apply edgeb_spec|]. split; now apply NW. }
  destruct (hyp_config_ok (3 / 10) 1 2 (1 / 100000000) (9 / 10) 500 true ZScore ltac:(lra) ltac:(lra) ltac:(lra)) as (c & EC). assert (OK : hyp_ok (3 / 10) 1 2 (1 / 100000000) (9 / 10) 500 true ZScore c) by (split; [exact EC|split; [lra|lia]]).
  assert (WK : Forall (walkable m) [[3; 0; 1; 2; 5]; [2; 1]; [1; 0]]%nat). { repeat constructor; cbn [length]; rewrite ?NS; try lia; [apply (AD 3 3 0)%nat|apply (AD 0 0 1)%nat|apply (AD 1 0 2)%nat|apply (AD 2 1 5)%nat|apply (AD 2 2 1)%nat|apply (AD 1 2 0)%nat]; try lia; reflexivity. }
  inversion_clear WK as [|? ? WK1 WK']. inversion_clear WK' as [|? ? WK2 WK'']. inversion_clear WK'' as [|? ? WK3 _].
  assert (T1 : testable 2 [m; m] [[3; 0; 1; 2; 5]; [2; 1]]%nat) by (apply (C90_grids _ _ _ _ _ _ [] [[3; 0; 1; 2; 5]; [2; 1]]%nat E); [discriminate|constructor; [exact WK1|constructor; [exact WK2|constructor]]|eexists; split; [left; reflexivity|cbn; lia]]).
  assert (T2 : testable 2 [m] [[1; 0]]%nat) by (apply (C90_grids _ _ _ _ _ _ [] [[1; 0]]%nat E); [discriminate|constructor; [exact WK3|constructor]|eexists; split; [left; reflexivity|cbn; lia]]).
  destruct (grid_shape _ _ _ _ G) as (N & NA & _). pose proof (grid_is_mdp _ _ _ _ G) as M.
  assert (PO : forall s b, (s < 6)%nat -> possible (m_sas m) s b <-> (b < 4)%nat /\ exists t, (t < 6)%nat /\ edgeb Square (2, 3)%nat false s b t = true /\ s <> 4%nat /\ t <> 4%nat).
  { intros s b Hs. split.
    - intros (t & Ht & P). destruct (prob_in_range _ _ _ _ M (Rgt_not_eq _ _ P)) as (_ & Hb & _ & _). rewrite NA in Hb. rewrite N in Ht. split; [exact Hb|]. exists t. split; [exact Ht|]. rewrite <- get3_prob in P. destruct (inv_edge _ _ _ _ G s b t Hs Hb Ht) as [[_ (W1 & W2 & W3)]|[X _]]; [|rewrite X in P; lra]. split; [now apply edgeb_spec|]. split; intros ->; contradiction.
    - intros (Hb & t & Ht & Ed & N1 & N2). exists t. split; [rewrite N; exact Ht|]. rewrite <- get3_prob. destruct (inv_edge _ _ _ _ G s b t Hs Hb Ht) as [[-> _]|[_ X]]; [lra|]. exfalso. apply X. split; [now apply edgeb_spec|]. split; now apply NW. }
  assert (O3 : one_option m 3). { intros b b' P P'. apply PO in P, P'; try lia. assert (X : forall b, ((b < 4)%nat /\ exists t, (t < 6)%nat /\ edgeb Square (2, 3)%nat false 3 b t = true /\ 3%nat <> 4%nat /\ t <> 4%nat) -> b = 3%nat); [|rewrite (X _ P), (X _ P'); reflexivity].
    clear. intros b (Hb & t & Ht & Ed & _ & N4). do 4 (destruct b as [|b]; [do 6 (destruct t as [|t]; [cbn in Ed; (discriminate || congruence || reflexivity)|]); lia|]). lia. }
  assert (O0 : ~ one_option m 0). { intros X. assert (Y : (0 = 1)%nat); [|discriminate]. apply X; apply PO; try lia; (split; [lia|]). - exists 1%nat. repeat split; try lia; reflexivity. - exists 3%nat. repeat split; try lia; reflexivity. }
  assert (S0 : starts_ok 2 (fst (new_hyptest None [])) []) by exact I.
  exists m, c. split; [exact E|]. split; [exact OK|]. split; [exact T1|]. split; [exact T2|]. split; [exact O3|]. split; [exact O0|]. split; [exact S0|]. split; [split; [cbn; lia|reflexivity]|].
  destruct (C92_one_option_refuted _ _ _ _ _ _ _ _ _ _ _ [] _ _ 0%nat 0%nat OK T1 S0 ltac:(cbn; lia) O3) as (x' & h' & a & log & ends & EFIT & LL & HN). exists x', h', a, log, ends. split; [exact EFIT|]. destruct (nth a h' []) as [|y [|z [|u l]]]; cbn in LL; try lia. pose proof (HN 0%nat) as Y0. pose proof (HN 1%nat) as Y1. cbn in Y0, Y1. subst. reflexivity.
Qed.
