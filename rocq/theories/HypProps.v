(** Hypothesis testing: C49, C50, C53, C85, C86 for this learner, C90, C92-C95. *)
From Coq Require Import List ZArith Reals Bool Lia Lra.
From Verif Require Import PyBase PyProofs ActionModel ActionSpec RSum ActionProofs MDPModel MDPProofs MDPProofs2 VIModel VISpec VIProofs VIProofs2 VIProps VIEnvProps MCTSModel MCTSProofs MCTSProps IRLModel IRLFit HypModel HypProofs HypObs HypRun.
Import ListNotations.
Local Open Scope R_scope.

(** ** C90: which settings work *)
(** With the default normalisation no fit ever returns, whatever the other settings, the MDPs and the trajectories. *)
Theorem C90_default_refuted : forall lr decay asym tol g K soft c mdps ts ex x h x' h' r, hyptest_config lr decay asym tol g K soft Relative = Ok c -> fit_hyptest c mdps ts ex x h <> (x', h', Ok r).
Proof.
  intros lr decay asym tol g K soft c mdps ts ex x h x' h' [[a log] ends] EC E. apply hyp_fit_spec in E. destruct E as (_ & _ & _ & _ & _ & _ & rs & F & NE & _). destruct (hyp_inv _ _ _ _ _ _ _ _ _ EC) as (_ & _ & _ & _ & _ & _ & _ & EN & _).
  destruct F as [|p r l rs (q & E) _]; [congruence|]. unfold single_move in E. apply bind_ok in E. destruct E as ([i b] & _ & E). apply bind_ok in E. destruct E as (q' & _ & E). apply bind_ok in E. destruct E as (acts & _ & E). rewrite EN in E. discriminate.
Qed.
Lemma moves_nat : forall t, moves (map Z.of_nat t) = map (fun j => (Z.of_nat (nth j t 0%nat), Z.of_nat (nth (S j) t 0%nat))) (seq 0 (length t - 1)).
Proof.
  induction t as [|s t IH]; [reflexivity|]. destruct t as [|s' t]; [reflexivity|]. change (moves (map Z.of_nat (s :: s' :: t))) with ((Z.of_nat s, Z.of_nat s') :: moves (map Z.of_nat (s' :: t))). rewrite IH. cbn [length]. replace (S (S (length t)) - 1)%nat with (S (S (length t) - 1)) by lia. cbn [seq map nth]. f_equal. rewrite <- seq_shift, map_map. reflexivity.
Qed.
Lemma all_moves_in : forall mdps ts p, length mdps = length ts -> In p (all_moves mdps (map (map Z.of_nat) ts)) -> exists i j, (i < length ts)%nat /\ (S j < length (nth i ts []))%nat /\ p = (nth i mdps (blank_mdp None), (Z.of_nat (nth j (nth i ts []) 0%nat), Z.of_nat (nth (S j) (nth i ts []) 0%nat))).
Proof.
  intros mdps ts p L I. unfold all_moves in I. apply in_concat in I. destruct I as (l & Hl & Ip). apply in_map_iff in Hl. destruct Hl as ([m t] & <- & Hc). cbn [fst snd] in Ip. apply in_map_iff in Ip. destruct Ip as (q & <- & Iq). apply (In_nth _ _ (blank_mdp None, [])) in Hc. destruct Hc as (i & Li & Ei). rewrite combine_length, map_length in Li. rewrite combine_nth in Ei by (now rewrite map_length). assert (Hi : (i < length ts)%nat) by lia.
  assert (Et : map Z.of_nat (nth i ts []) = t) by (rewrite (nth_map_lt _ _ _ _ _ _ []) in Ei by exact Hi; congruence). assert (Em : nth i mdps (blank_mdp None) = m) by congruence. subst t m. rewrite moves_nat in Iq. apply in_map_iff in Iq. destruct Iq as (j & <- & Ij). apply in_seq in Ij. exists i, j. split; [exact Hi|]. split; [lia|reflexivity].
Qed.
Lemma testable_moves : forall nF mdps ts p, testable nF mdps ts -> In p (all_moves mdps (map (map Z.of_nat) ts)) -> exists s t, p = (fst p, (Z.of_nat s, Z.of_nat t)) /\ In (fst p) mdps /\ is_mdp (m_sas (fst p)) /\ m_n_states (fst p) = n_states (m_sas (fst p)) /\ length (m_features (fst p)) = nF /\ (s < m_n_states (fst p))%nat /\ (t < m_n_states (fst p))%nat /\ exists b, 0 < prob (m_sas (fst p)) s b t.
Proof.
  intros nF mdps ts p (L & _ & (n & na & FM) & MV & _) Ip. destruct (all_moves_in _ _ _ L Ip) as (i & j & Hi & Hj & ->). cbn [fst]. eexists. eexists. split; [reflexivity|]. assert (IM : In (nth i mdps (blank_mdp None)) mdps) by (apply nth_In; lia). split; [exact IM|]. rewrite Forall_forall in FM. destruct (FM _ IM) as (H1 & H2 & H3 & _ & H5). split; [exact H1|]. split; [congruence|]. split; [exact H5|]. apply (MV i j Hj).
Qed.
Lemma testable_shapes : forall nF mdps ts, testable nF mdps ts -> same_shapes mdps = true /\ n_feats mdps = nF.
Proof.
  intros nF mdps ts (L & T0 & (n & na & FM) & _ & i & Hi). destruct mdps as [|m0 mdps]; [destruct ts; [now elim T0|discriminate]|]. pose proof (Forall_inv FM) as (_ & _ & A1 & A2 & A3). split; [|exact A3]. unfold same_shapes. apply forallb_forall. intros m Hm. rewrite Forall_forall in FM. destruct (FM m Hm) as (_ & _ & B1 & B2 & B3). unfold n_states, n_actions in *. rewrite B1, B2, B3, A1, A2, A3, !Nat.eqb_refl. reflexivity.
Qed.
Lemma testable_nonempty : forall nF mdps ts, testable nF mdps ts -> all_moves mdps (map (map Z.of_nat) ts) <> [].
Proof.
  intros nF mdps ts (L & _ & _ & _ & i & Hi) E. assert (HL : (i < length ts)%nat) by (destruct (Nat.lt_ge_cases i (length ts)) as [X|X]; [exact X|rewrite nth_overflow in Hi by exact X; cbn in Hi; lia]).
  assert (X : In (nth i mdps (blank_mdp None), (Z.of_nat (nth 0 (nth i ts []) 0%nat), Z.of_nat (nth 1 (nth i ts []) 0%nat))) (all_moves mdps (map (map Z.of_nat) ts))); [|rewrite E in X; destruct X].
  unfold all_moves. apply in_concat. exists (map (pair (nth i mdps (blank_mdp None))) (moves (map Z.of_nat (nth i ts [])))). split.
  - apply in_map_iff. exists (nth i mdps (blank_mdp None), map Z.of_nat (nth i ts [])). split; [reflexivity|]. replace (nth i mdps (blank_mdp None), map Z.of_nat (nth i ts [])) with (nth i (combine mdps (map (map Z.of_nat) ts)) (blank_mdp None, map Z.of_nat [])) by (rewrite combine_nth by (now rewrite map_length); now rewrite map_nth). apply nth_In. rewrite combine_length, map_length. lia.
  - apply in_map. rewrite moves_nat. apply in_map_iff. exists 0%nat. split; [reflexivity|]. apply in_seq. lia.
Qed.
(** With any other normalisation, every fit to trajectories of adjacent states, with at least one move, returns. *)
Theorem C90_other_normalisation_partial : forall lr decay asym tol g K soft norm c nF mdps ts ex x h, hyp_ok lr decay asym tol g K soft norm c -> norm <> Relative -> testable nF mdps ts -> ht_theta x <> TObj ->
  exists x' h' a log ends, fit_hyptest c mdps (map (map Z.of_nat) ts) ex x h = (x', h', Ok (a, log, ends)).
Proof.
  intros lr decay asym tol g K soft norm c nF mdps ts ex x h OK NR T NT. assert (EV : exists rs, Forall2 (evidence c ex) (all_moves mdps (map (map Z.of_nat) ts)) rs).
  { assert (X : forall p, In p (all_moves mdps (map (map Z.of_nat) ts)) -> exists r, evidence c ex p r).
    { intros p Ip. destruct (testable_moves _ _ _ _ T Ip) as (s & t & EP & _ & H1 & H2 & _ & H4 & H5 & H6). destruct (move_ok _ _ _ _ _ _ _ _ _ (fst p) ex s t OK NR H1 H2 H4 H5 H6) as (a & acts & r & q & E & _). exists r, q. rewrite EP. cbn [fst snd]. exact E. }
    revert X. generalize (all_moves mdps (map (map Z.of_nat) ts)). induction l as [|p l IH]; intros X; [now exists []|]. destruct IH as (rs & F); [intros p' I'; apply X; now right|]. destruct (X p ltac:(now left)) as (r & E). exists (r :: rs). now constructor. }
  destruct EV as (rs & F). pose proof (testable_nonempty _ _ _ T) as NE. apply (hyp_fit_ok c mdps _ ex x h rs); [rewrite map_length; symmetry; apply T| |apply (testable_shapes _ _ _ T)|exact NT|exact F|intros ->; inversion F; congruence].
  destruct T as (_ & T0 & _). destruct ts as [|t ts]; [now elim T0|]. cbn [hd map] in *. now destruct t.
Qed.

(** The same, as C175: a property of its own. *)
Theorem C175_fit_succeeds : forall lr decay asym tol g K soft norm c nF mdps ts ex x h, hyp_ok lr decay asym tol g K soft norm c -> norm <> Relative -> testable nF mdps ts -> ht_theta x <> TObj ->
  exists x' h' a log ends, fit_hyptest c mdps (map (map Z.of_nat) ts) ex x h = (x', h', Ok (a, log, ends)).
Proof. exact (@C90_other_normalisation_partial). Qed.

(** ** How weights change *)
Lemma len_update : forall c n r w, length r = length w -> length (update_weights c n r w) = length w.
Proof. intros c n r w E. unfold update_weights. rewrite map_length, combine_length. lia. Qed.
Lemma nth_update : forall c n r w f, length r = length w -> nth f (update_weights c n r w) None = update_weight c n (nth f r None) (nth f w None).
Proof.
  intros c n r w f E. unfold update_weights. destruct (Nat.lt_ge_cases f (length r)) as [L|L].
  - rewrite (nth_map_lt _ _ _ _ _ _ ((None : weight), (None : weight))) by (rewrite combine_length; lia). now rewrite combine_nth by exact E.
  - rewrite !nth_overflow by (rewrite ?map_length, ?combine_length; lia). reflexivity.
Qed.
Lemma learned_nth : forall c nF w0 rs log, learned c w0 rs log -> length w0 = nF -> Forall (fun r => length r = nF) rs -> (forall k, (k <= length log)%nat -> length (nth k (w0 :: log) []) = nF) /\
  forall k f, (k < length log)%nat -> nth f (nth k log []) None = update_weight c (S k) (nth f (nth k rs []) None) (nth f (nth k (w0 :: log) []) None).
Proof.
  intros c nF w0 rs log [L H] L0 FR. assert (LR : forall k, (k < length rs)%nat -> length (nth k rs []) = nF) by (intros k Hk; rewrite Forall_forall in FR; apply FR; now apply nth_In).
  assert (A : forall k, (k <= length log)%nat -> length (nth k (w0 :: log) []) = nF). { induction k as [|k IH]; intros Hk; [exact L0|]. cbn [nth]. rewrite H by lia. rewrite len_update; [apply IH; lia|]. rewrite LR, IH by lia. reflexivity. }
  split; [exact A|]. intros k f Hk. rewrite H by lia. apply nth_update. rewrite A, LR by lia. reflexivity.
Qed.
(** The evidence of every move has one entry for each feature. *)
Lemma evidence_lengths : forall c ex nF mdps l rs, Forall (fun m => length (m_features m) = nF) mdps -> (forall p, In p l -> In (fst p) mdps) -> Forall2 (evidence c ex) l rs -> Forall (fun r => length r = nF) rs.
Proof.
  intros c ex nF mdps l rs FM IN F. revert IN. induction F as [|p r l rs (q & E) _ IH]; intros IN; constructor; [|apply IH; intros; apply IN; now right].
  pose proof (move_q _ _ _ _ _ _ _ E) as EQ. unfold single_move in E. apply bind_ok in E. destruct E as ([i a] & _ & E). apply bind_ok in E. destruct E as (q' & EQ' & E). apply bind_ok in E. destruct E as (acts & _ & E). assert (LR : length r = length q') by (destruct (h_norm c); (congruence || (inversion E; now rewrite map_length))). rewrite LR. unfold estimate_q in EQ'. apply mapM_nth in EQ'. destruct EQ' as [X _]. rewrite X, seq_length. rewrite Forall_forall in FM. apply FM, IN. now left.
Qed.
Lemma same_shapes_features : forall mdps, same_shapes mdps = true -> Forall (fun m => length (m_features m) = n_feats mdps) mdps.
Proof. intros [|m0 mdps] E; [constructor|]. unfold same_shapes in E. rewrite forallb_forall in E. apply Forall_forall. intros m Hm. apply E in Hm. rewrite !andb_true_iff, !Nat.eqb_eq in Hm. apply Hm. Qed.
Lemma all_moves_mdp : forall mdps ts p, In p (all_moves mdps ts) -> In (fst p) mdps.
Proof. intros mdps ts p I. unfold all_moves in I. apply in_concat in I. destruct I as (l & Hl & Ip). apply in_map_iff in Hl. destruct Hl as ([m t] & <- & Hc). apply in_map_iff in Ip. destruct Ip as (q & <- & _). cbn [fst]. now apply in_combine_l in Hc. Qed.
Lemma start_length : forall nF x h, starts_ok nF x h -> length (start_weights nF x h) = nF.
Proof. intros nF x h S. unfold start_weights, starts_ok in *. destruct (ht_theta x); [apply repeat_length|destruct S|apply S]. Qed.
Lemma n_feats_eq : forall nF mdps (m : mdp R), Forall (fun m => length (m_features m) = nF) mdps -> In m mdps -> n_feats mdps = nF.
Proof. intros nF [|m0 mdps] m F I; [destruct I|]. now inversion F. Qed.
(** The course of a successful fit, by weights. *)
Lemma fit_course : forall c mdps ts ex x h x' h' a log ends nF, fit_hyptest c mdps ts ex x h = (x', h', Ok (a, log, ends)) -> Forall (fun m => length (m_features m) = nF) mdps -> starts_ok nF x h ->
  exists rs, Forall2 (evidence c ex) (all_moves mdps ts) rs /\ length log = length rs /\ Forall (fun r => length r = nF) rs /\ (a < length h')%nat /\ nth a h' [] = last log [] /\ log <> [] /\ length (start_weights nF x h) = nF /\
  (forall k, (k <= length log)%nat -> length (nth k (start_weights nF x h :: log) []) = nF) /\
  forall k f, (k < length log)%nat -> nth f (nth k log []) None = update_weight c (S k) (nth f (nth k rs []) None) (nth f (nth k (start_weights nF x h :: log) []) None).
Proof.
  intros c mdps ts ex x h x' h' a log ends nF E FM ST. apply hyp_fit_spec in E. destruct E as (LL & SS & _ & _ & (w & EH) & HA & rs & F & NE & LN & HL). exists rs. split; [exact F|]. split; [apply LN|]. pose proof (evidence_lengths _ _ _ _ _ _ FM (all_moves_mdp mdps ts) F) as FR. split; [exact FR|].
  assert (LA : (a < length h')%nat). { rewrite EH, upd_length. unfold starts_ok in ST. destruct HA as [EA|[EA ->]]; rewrite EA in *; [apply ST|]. rewrite app_length. cbn. lia. }
  split; [exact LA|]. split; [now apply HL|]. split; [intros ->; destruct LN as [LN _]; destruct rs; [congruence|discriminate]|].
  assert (EN : n_feats mdps = nF). { assert (IP : exists p0, In p0 (all_moves mdps ts)) by (destruct (all_moves mdps ts) as [|p0 l]; [inversion F; congruence|exists p0; now left]). destruct IP as (p0 & I0). apply (n_feats_eq nF mdps (fst p0) FM). eapply all_moves_mdp. exact I0. }
  rewrite EN in LN. pose proof (start_length _ _ _ ST) as L0. split; [exact L0|]. apply (learned_nth c nF); assumption.
Qed.

(** ** C92: weights that stop being numbers *)
Lemma update_none : forall c n r w, update_weight c n r w = None <-> r = None \/ w = None.
Proof. intros c n [r|] [w|]; cbn [update_weight]; split; try intros [H|H]; try (intros H); auto; discriminate. Qed.
Lemma log_none : forall c w0 rs log f, length log = length rs -> (forall k, (k < length log)%nat -> nth f (nth k log []) None = update_weight c (S k) (nth f (nth k rs []) None) (nth f (nth k (w0 :: log) []) None)) ->
  forall k, (k <= length log)%nat -> (nth f (nth k (w0 :: log) []) None = None <-> nth f w0 None = None \/ exists j, (j < k)%nat /\ nth f (nth j rs []) None = None).
Proof.
  intros c w0 rs log f L H. induction k as [|k IH]; intros Hk; [cbn [nth]; split; [auto|intros [X|(j & Hj & _)]; [exact X|lia]]|]. cbn [nth]. rewrite H by lia. rewrite update_none, IH by lia. split.
  - intros [X|[X|(j & Hj & X)]]; [right; exists k; split; [lia|exact X]|auto|right; exists j; split; [lia|exact X]].
  - intros [X|(j & Hj & X)]; [auto|]. destruct (Nat.eq_dec j k) as [->|N]; [auto|]. right. right. exists j. split; [lia|exact X].
Qed.
Lemma last_nth : forall (log : list (list weight)) w0, log <> [] -> last log [] = nth (length log) (w0 :: log) [].
Proof. intros log w0 NE. destruct log as [|y l] using rev_ind; [congruence|]. rewrite last_last, app_length, Nat.add_1_r. cbn [nth]. rewrite app_nth2, Nat.sub_diag by lia. reflexivity. Qed.
(** The estimate for a feature is a number exactly if it was one at first and every single move gave evidence about it. *)
Theorem C92_numbers_partial : forall c mdps ts ex x h x' h' a log ends nF, fit_hyptest c mdps ts ex x h = (x', h', Ok (a, log, ends)) -> Forall (fun m => length (m_features m) = nF) mdps -> starts_ok nF x h ->
  forall f, (f < nF)%nat -> (nth f (nth a h' []) None <> None <-> nth f (start_weights nF x h) None <> None /\ forall p r, In p (all_moves mdps ts) -> evidence c ex p r -> nth f r None <> None).
Proof.
  intros c mdps ts ex x h x' h' a log ends nF E FM ST f Hf. destruct (fit_course _ _ _ _ _ _ _ _ _ _ _ _ E FM ST) as (rs & F & L & FR & LA & EL & NE & L0 & _ & H). rewrite EL, (last_nth log (start_weights nF x h) NE).
  pose proof (log_none c (start_weights nF x h) rs log f L (fun k => H k f) (length log) (le_n _)) as X. split.
  - intros N. split; [intros Y; apply N, X; auto|]. intros p r Ip Er Y. apply N, X. right. apply (In_nth _ _ (blank_mdp None, (0%Z, 0%Z))) in Ip. destruct Ip as (j & Hj & Ej). exists j. split; [rewrite L, <- (F2_len _ _ _ _ _ F); exact Hj|].
    assert (Q : evidence c ex p (nth j rs [])). { rewrite <- Ej. clear -F Hj. revert j Hj. induction F as [|p r l rs E F IH]; intros j Hj; [cbn in Hj; lia|]. destruct j; [exact E|]. cbn [nth]. apply IH. cbn in Hj. lia. }
    destruct Q as (q1 & Q1), Er as (q2 & Q2). assert (EJ : nth j rs [] = r) by congruence. exact (eq_trans (f_equal (fun l => nth f l None) EJ) Y).
  - intros [N0 N1] Y. apply X in Y. destruct Y as [Y|(j & Hj & Y)]; [contradiction|]. rewrite L in Hj. assert (Q : exists p, In p (all_moves mdps ts) /\ evidence c ex p (nth j rs [])). { clear -F Hj. revert j Hj. induction F as [|p r l rs E F IH]; intros j Hj; [cbn in Hj; lia|]. destruct j; [exists p; split; [now left|exact E]|]. cbn [nth]. cbn in Hj. destruct (IH j ltac:(lia)) as (p' & I' & E'). exists p'. split; [now right|exact E']. }
    destruct Q as (p & Ip & Er). exact (N1 p _ Ip Er Y).
Qed.
(** C220: when a weight is a number. *)
Theorem C220_numbers : forall c mdps ts ex x h x' h' a log ends nF, fit_hyptest c mdps ts ex x h = (x', h', Ok (a, log, ends)) -> Forall (fun m => length (m_features m) = nF) mdps -> starts_ok nF x h ->
  forall f, (f < nF)%nat -> (nth f (nth a h' []) None <> None <-> nth f (start_weights nF x h) None <> None /\ forall p r, In p (all_moves mdps ts) -> evidence c ex p r -> nth f r None <> None).
Proof. exact (@C92_numbers_partial). Qed.
(** A single move from a state with only one possible action makes the estimates of all features NaN, for good. *)
Definition one_option (m : mdp R) (s : nat) : Prop := forall b b', possible (m_sas m) s b -> possible (m_sas m) s b' -> b = b'.
Lemma one_option_shows : forall lr decay asym tol g K soft c m ex s t r, hyp_ok lr decay asym tol g K soft ZScore c -> is_mdp (m_sas m) -> m_n_states m = n_states (m_sas m) -> (s < m_n_states m)%nat -> (t < m_n_states m)%nat -> (exists b, 0 < prob (m_sas m) s b t) ->
  one_option m s -> evidence c ex (m, (Z.of_nat s, Z.of_nat t)) r -> forall f, nth f r None = None.
Proof.
  intros lr decay asym tol g K soft c m ex s t r OK M N Hs Ht Hb OO (q & E) f. cbn [fst snd] in E. destruct (C91_evidence _ _ _ _ _ _ _ _ m ex s t OK M N Hs Ht Hb) as (a & r' & q' & E' & _ & L & H). assert (r' = r) by congruence. subst r'.
  destruct (Nat.lt_ge_cases f (length (m_features m))) as [Hf|Hf]; [|apply nth_overflow; lia]. destruct (H f Hf) as [H1 H2]. destruct (in_dec Z.eq_dec (Z.of_nat f) ex) as [I|I]; [auto|]. destruct (H2 I) as (qf & x & opts & _ & HO & _ & _ & (S1 & _)). apply S1. intros b b' Ib Ib'. f_equal. apply OO; now apply HO.
Qed.
Lemma all_moves_nth : forall nF mdps ts i j, testable nF mdps ts -> (S j < length (nth i ts []))%nat -> In (nth i mdps (blank_mdp None), (Z.of_nat (nth j (nth i ts []) 0%nat), Z.of_nat (nth (S j) (nth i ts []) 0%nat))) (all_moves mdps (map (map Z.of_nat) ts)).
Proof.
  intros nF mdps ts i j (L & _) Hi. assert (HL : (i < length ts)%nat) by (destruct (Nat.lt_ge_cases i (length ts)) as [X|X]; [exact X|rewrite nth_overflow in Hi by exact X; cbn in Hi; lia]). unfold all_moves. apply in_concat. exists (map (pair (nth i mdps (blank_mdp None))) (moves (map Z.of_nat (nth i ts [])))). split.
  - apply in_map_iff. exists (nth i mdps (blank_mdp None), map Z.of_nat (nth i ts [])). split; [reflexivity|]. replace (nth i mdps (blank_mdp None), map Z.of_nat (nth i ts [])) with (nth i (combine mdps (map (map Z.of_nat) ts)) (blank_mdp None, map Z.of_nat [])) by (rewrite combine_nth by (now rewrite map_length); now rewrite map_nth). apply nth_In. rewrite combine_length, map_length. lia.
  - apply in_map. rewrite moves_nat. apply in_map_iff. exists j. split; [reflexivity|]. apply in_seq. lia.
Qed.
Lemma testable_features : forall nF mdps ts, testable nF mdps ts -> Forall (fun m => length (m_features m) = nF) mdps.
Proof. intros nF mdps ts (_ & _ & (n & na & FM) & _). eapply Forall_impl; [|exact FM]. intros m H. apply H. Qed.
Lemma starts_obj : forall nF x h, starts_ok nF x h -> ht_theta x <> TObj.
Proof. intros nF x h S E. unfold starts_ok in S. now rewrite E in S. Qed.
Theorem C92_one_option_refuted : forall lr decay asym tol g K soft c nF mdps ts ex x h i j, hyp_ok lr decay asym tol g K soft ZScore c -> testable nF mdps ts -> starts_ok nF x h ->
  (S j < length (nth i ts []))%nat -> one_option (nth i mdps (blank_mdp None)) (nth j (nth i ts []) 0%nat) ->
  exists x' h' a log ends, fit_hyptest c mdps (map (map Z.of_nat) ts) ex x h = (x', h', Ok (a, log, ends)) /\ length (nth a h' []) = nF /\ forall f, nth f (nth a h' []) None = None.
Proof.
  intros lr decay asym tol g K soft c nF mdps ts ex x h i j OK T ST Hj OO. destruct (C90_other_normalisation_partial _ _ _ _ _ _ _ _ _ _ _ _ ex x h OK ltac:(discriminate) T (starts_obj _ _ _ ST)) as (x' & h' & a & log & ends & E). exists x', h', a, log, ends. split; [exact E|].
  pose proof (testable_features _ _ _ T) as FM. destruct (fit_course _ _ _ _ _ _ _ _ _ _ _ _ E FM ST) as (rs & F & L & FR & LA & EL & NE & L0 & LN & H). assert (LL : length (nth a h' []) = nF) by (rewrite EL, (last_nth log (start_weights nF x h) NE); now apply LN). split; [exact LL|]. intros f. destruct (Nat.lt_ge_cases f nF) as [Hf|Hf]; [|apply nth_overflow; lia].
  destruct (nth f (nth a h' []) None) as [w|] eqn:EW; [exfalso|reflexivity]. destruct (proj1 (C92_numbers_partial _ _ _ _ _ _ _ _ _ _ _ _ E FM ST f Hf)) as [_ N]; [congruence|]. set (p := (nth i mdps (blank_mdp None), (Z.of_nat (nth j (nth i ts []) 0%nat), Z.of_nat (nth (S j) (nth i ts []) 0%nat)))).
  pose proof (all_moves_nth _ _ _ _ _ T Hj) as IP. fold p in IP. destruct T as (_ & _ & (n & na & FA) & MV & _). destruct (MV i j Hj) as (H1 & H2 & H3). assert (IM : In (fst p) mdps) by (eapply all_moves_mdp; exact IP). rewrite Forall_forall in FA. destruct (FA _ IM) as (M1 & M2 & M3 & _).
  destruct (C91_evidence _ _ _ _ _ _ _ _ (fst p) ex (nth j (nth i ts []) 0%nat) (nth (S j) (nth i ts []) 0%nat) OK M1 ltac:(congruence) H1 H2 H3) as (b & r & q & ER & _). assert (EV : evidence c ex p r) by (exists q; exact ER). apply (N p r IP EV). apply (one_option_shows _ _ _ _ _ _ _ _ _ ex _ _ r OK M1 ltac:(congruence) H1 H2 H3 OO EV).
Qed.

(** ** C93: the learning rates *)
Lemma update_documented : forall lr decay asym tol g K soft norm c n r w, hyptest_config lr decay asym tol g K soft norm = Ok c -> 0 < decay -> update_weight c n r w = documented_step lr decay asym n r w.
Proof.
  intros lr decay asym tol g K soft norm c n [r|] [w|] E D; cbn [update_weight documented_step]; try reflexivity. destruct (hyp_inv _ _ _ _ _ _ _ _ _ E) as (_ & _ & _ & -> & -> & -> & -> & _). rewrite (proj2 (Rltb_true _ _) D). cbn [nltb n0 NumR]. unfold Rltb. destruct (Rlt_dec (Rabs r) (Rabs w)), (Rlt_dec (Rabs r - Rabs w) 0); try lra; reflexivity.
Qed.
Lemma update_plain : forall lr asym tol g K soft norm c n r w, hyptest_config lr 0 asym tol g K soft norm = Ok c -> update_weight c n r w = plain_step lr r w.
Proof.
  intros lr asym tol g K soft norm c n [r|] [w|] E; cbn [update_weight plain_step]; try reflexivity. destruct (hyp_inv _ _ _ _ _ _ _ _ _ E) as (_ & _ & _ & -> & -> & _). rewrite (proj2 (Rltb_false _ _) (Rle_refl 0)). reflexivity.
Qed.
(** With a positive decay every change is as documented: [log] has one row for each move, and row [k] follows from the row before
    and the evidence of move [k]. *)
Theorem C93_decay_partial : forall lr decay asym tol g K soft norm c mdps ts ex x h x' h' a log ends nF, hyptest_config lr decay asym tol g K soft norm = Ok c -> 0 < decay ->
  fit_hyptest c mdps ts ex x h = (x', h', Ok (a, log, ends)) -> Forall (fun m => length (m_features m) = nF) mdps -> starts_ok nF x h ->
  exists rs, Forall2 (evidence c ex) (all_moves mdps ts) rs /\ length log = length (all_moves mdps ts) /\ nth a h' [] = last log [] /\
  forall k f, (k < length log)%nat -> (f < nF)%nat -> nth f (nth k log []) None = documented_step lr decay asym (S k) (nth f (nth k rs []) None) (nth f (nth k (start_weights nF x h :: log) []) None).
Proof.
  intros lr decay asym tol g K soft norm c mdps ts ex x h x' h' a log ends nF EC D E FM ST. destruct (fit_course _ _ _ _ _ _ _ _ _ _ _ _ E FM ST) as (rs & F & L & FR & LA & EL & NE & L0 & _ & H). exists rs. split; [exact F|]. split; [rewrite L; symmetry; eapply F2_len; exact F|]. split; [exact EL|]. intros k f Hk _. rewrite H by exact Hk. eapply update_documented; eassumption.
Qed.
(** Without decay the asymmetry plays no part: every step has the same rate, unlike the documented one. *)
Theorem C93_no_decay_refuted : forall lr asym tol g K soft norm c mdps ts ex x h x' h' a log ends nF, hyptest_config lr 0 asym tol g K soft norm = Ok c ->
  fit_hyptest c mdps ts ex x h = (x', h', Ok (a, log, ends)) -> Forall (fun m => length (m_features m) = nF) mdps -> starts_ok nF x h ->
  (exists rs, Forall2 (evidence c ex) (all_moves mdps ts) rs /\ length log = length (all_moves mdps ts) /\ nth a h' [] = last log [] /\
   forall k f, (k < length log)%nat -> (f < nF)%nat -> nth f (nth k log []) None = plain_step lr (nth f (nth k rs []) None) (nth f (nth k (start_weights nF x h :: log) []) None)) /\
  forall n r w, r <> w -> plain_step lr (Some r) (Some w) <> documented_step lr 0 asym (S n) (Some r) (Some w).
Proof.
  intros lr asym tol g K soft norm c mdps ts ex x h x' h' a log ends nF EC E FM ST. split.
  - destruct (fit_course _ _ _ _ _ _ _ _ _ _ _ _ E FM ST) as (rs & F & L & FR & LA & EL & NE & L0 & _ & H). exists rs. split; [exact F|]. split; [rewrite L; symmetry; eapply F2_len; exact F|]. split; [exact EL|]. intros k f Hk _. rewrite H by exact Hk. eapply update_plain; eassumption.
  - intros n r w NE EQ. destruct (hyp_inv _ _ _ _ _ _ _ _ _ EC) as (HL & _ & HA & _). unfold plain_step, documented_step in EQ. rewrite Ropp_0, Rpower_O in EQ by (rewrite S_INR; pose proof (pos_INR n); lra).
    assert (Q : lr * (r - w) = (if Rlt_dec (Rabs r) (Rabs w) then lr * asym else lr / asym) * (r - w)) by (assert (X : forall u v : R, Some u = Some v -> u = v) by (intros; congruence); apply X in EQ; lra). apply Rmult_eq_reg_r in Q; [|lra]. destruct (Rlt_dec _ _); [nra|]. assert (Y : lr * asym = lr) by (rewrite Q at 1; field; lra). nra.
Qed.
(** An asymmetry of one is refused, although the message asks for "1 or greater". *)
Theorem C93_equal_rates_refuted : forall lr decay tol g K soft norm, hyptest_config lr decay 1 tol g K soft norm = Err AssertionError.
Proof. intros. unfold hyptest_config. cbn [nltb n0 n1 NumR]. unfold Rltb at 1 2 3. destruct (Rlt_dec 0 lr); cbn [negb]; [|reflexivity]. destruct (Rlt_dec decay 0); [reflexivity|]. destruct (Rlt_dec 1 1); [lra|reflexivity]. Qed.

(** ** C95: the initial weights *)
(** Without initial weights the first estimate starts from zero, not from one as documented. *)
Theorem C95_zero_start_refuted : forall lr decay asym tol g K soft norm c mdps ts ex h x' h' a log ends nF r, hyptest_config lr decay asym tol g K soft norm = Ok c -> 0 < decay ->
  let '(x, h0) := new_hyptest None h in fit_hyptest c mdps ts ex x h0 = (x', h', Ok (a, log, ends)) -> Forall (fun m => length (m_features m) = nF) mdps ->
  evidence c ex (hd (blank_mdp None, (0%Z, 0%Z)) (all_moves mdps ts)) r ->
  forall f, (f < nF)%nat -> nth f (nth 0 log []) None = match nth f r None with Some e => Some (lr / asym * e) | None => None end.
Proof.
  intros lr decay asym tol g K soft norm c mdps ts ex h x' h' a log ends nF r EC D. cbn [new_hyptest]. intros E FM ER f Hf. destruct (C93_decay_partial _ _ _ _ _ _ _ _ _ _ _ _ _ _ _ _ _ _ _ nF EC D E FM I) as (rs & F & L & _ & H).
  assert (NE : log <> []) by (apply hyp_fit_spec in E; destruct E as (_ & _ & _ & _ & _ & _ & rs' & F' & NE & [LL _] & _); intros ->; destruct rs'; [congruence|discriminate]). rewrite H; [|destruct log; [congruence|cbn; lia]|exact Hf].
  assert (E0 : nth 0 rs [] = r). { destruct F as [|p r' l rs' (q & EE) _]; [cbn in L; destruct log; [congruence|discriminate]|]. cbn [nth hd] in *. destruct ER as (q2 & E2). congruence. }
  rewrite E0. cbn [nth start_weights ht_theta]. unfold start_weights. cbn [ht_theta]. rewrite nth_repeat_lt by exact Hf. destruct (nth f r None) as [e|]; [|reflexivity]. cbn [documented_step]. f_equal. rewrite Rabs_R0. destruct (Rlt_dec (Rabs e) 0) as [X|_]; [pose proof (Rabs_pos e); lra|]. change (INR 1) with 1. unfold Rpower. rewrite ln_1, Rmult_0_r, exp_0. ring.
Qed.
