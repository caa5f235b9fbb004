(** Listing the features of an MDP in another order lists what is learned about them in that order: C160. *)
From Coq Require Import List ZArith QArith Reals Bool Lia Lra Permutation.
From Verif Require Import PyBase PyProofs ActionModel ActionSpec RSum ActionProofs GridModel MDPModel VIModel VISpec VIProofs VIProofs2 VIProps VIInv PLSpec PLProofs PLProps2 IRLModel IRLVisit IRLPolicy IRLMatch IRLExpect IRLMaxEnt IRLFit IRLProps IRLEye IRLLook IRLGrids IRLOrder HypModel HypObs HypRun HypProps HypProps3 MCTSProps MDPProps MDPProofs2 MDPProofs3.
Import ListNotations.
Local Close Scope Q_scope.
Local Open Scope R_scope.

(** ** Specification *)
(** A list in the order [p]: the entry at position [j] is the one that was at position [nth j p]. *)
Definition relist {X} (p : list nat) (d : X) (v : list X) : list X := map (fun i => nth i v d) p.
(** [m'] is the same decision problem as [m] with its features listed in the order [p]. *)
Definition relisted (p : list nat) (m m' : mdp R) : Prop :=
  Permutation p (seq 0 (length (m_features m))) /\ m_features m' = relist p [] (m_features m) /\
  m_sas m' = m_sas m /\ m_n_states m' = m_n_states m /\ m_n_actions m' = m_n_actions m /\ m_n_features m' = m_n_features m.

(** ** Lists in another order *)
Lemma relist_length : forall X p (d : X) v, length (relist p d v) = length p.
Proof. intros. apply map_length. Qed.
Lemma relist_nth : forall X p (d : X) v j, (j < length p)%nat -> nth j (relist p d v) d = nth (nth j p 0%nat) v d.
Proof. intros. unfold relist. now rewrite (nth_map_lt _ _ _ _ _ _ 0%nat). Qed.
Lemma relist_map : forall X Y (f : X -> Y) p d v, map f (relist p d v) = relist p (f d) (map f v).
Proof. intros. unfold relist. rewrite map_map. apply map_ext. intros i. symmetry. apply map_nth. Qed.
Lemma relist_combine : forall X Y p (d : X) (e : Y) u v, length u = length v -> combine (relist p d u) (relist p e v) = relist p (d, e) (combine u v).
Proof. intros X Y p d e u v L. unfold relist. induction p as [|i p IH]; [reflexivity|]. cbn [map combine]. rewrite IH, combine_nth by exact L. reflexivity. Qed.
Lemma relist_permutation : forall X p (d : X) v, Permutation p (seq 0 (length v)) -> Permutation (relist p d v) v.
Proof.
  intros X p d v P. unfold relist. apply (Permutation_map (fun i => nth i v d)) in P. eapply perm_trans; [exact P|]. replace (map (fun i => nth i v d) (seq 0 (length v))) with v; [apply Permutation_refl|].
  clear. induction v as [|x v IH]; [reflexivity|]. cbn [length seq map nth]. f_equal. rewrite <- seq_shift, map_map. exact IH.
Qed.
Lemma relist_const : forall X p (d : X) n, Permutation p (seq 0 n) -> relist p d (repeat d n) = repeat d n.
Proof.
  intros X p d n P. assert (L : length p = n) by (apply Permutation_length in P; now rewrite seq_length in P). apply (nth_ext _ _ d d); [rewrite relist_length, repeat_length; exact L|]. intros j Hj. rewrite relist_length in Hj. rewrite relist_nth by exact Hj. now rewrite !nth_repeat.
Qed.
Lemma relist_in : forall p n j, Permutation p (seq 0 n) -> (j < length p)%nat -> (nth j p 0%nat < n)%nat.
Proof. intros p n j P Hj. assert (I : In (nth j p 0%nat) (seq 0 n)) by (apply (Permutation_in _ P), nth_In; exact Hj). apply in_seq in I. lia. Qed.
Lemma counts_relist : forall p (F : list (list R)) v, feature_counts (relist p [] F) v = relist p 0 (feature_counts F v).
Proof. intros. unfold feature_counts. now rewrite relist_map. Qed.

(** ** Maximum entropy *)
(** The same features are ignored: position [j] of the new order is ignored iff its feature is. *)
Definition same_ignored (p : list nat) (l l' : list Z) : Prop :=
  Forall (fun i => (0 <= i < Z.of_nat (length p))%Z) l /\ Forall (fun i => (0 <= i < Z.of_nat (length p))%Z) l' /\
  forall j, (j < length p)%nat -> In (Z.of_nat j) l' <-> In (Z.of_nat (nth j p 0%nat)) l.

Lemma zero_relist : forall p l l' (v v0 : list R), Permutation p (seq 0 (length v)) -> same_ignored p l l' -> zero_ignored (IgnoreList l) v = Ok v0 -> zero_ignored (IgnoreList l') (relist p 0 v) = Ok (relist p 0 v0).
Proof.
  intros p l l' v v0 P (I1 & I2 & I3) E. assert (L : length p = length v) by (apply Permutation_length in P; now rewrite seq_length in P).
  rewrite L in I1. destruct (zero_list l v I1) as (w & E1 & L1 & N1). assert (w = v0) as -> by congruence.
  destruct (zero_list l' (relist p 0 v)) as (w & E2 & L2 & N2); [rewrite relist_length; exact I2|]. rewrite E2. f_equal. rewrite relist_length in L2.
  apply (nth_ext _ _ 0 0); [now rewrite relist_length|]. intros j Hj. rewrite N2, relist_nth by lia. rewrite relist_nth by lia. rewrite N1.
  destruct (in_dec Z.eq_dec (Z.of_nat j) l') as [J|J], (in_dec Z.eq_dec (Z.of_nat (nth j p 0%nat)) l) as [K|K]; try reflexivity; exfalso; [apply K, I3|apply J, I3]; auto; lia.
Qed.
Lemma expected_relist : forall (soft : bool) g tol K p m m' ts theta, relisted p m m' -> length theta = length (m_features m) ->
  expected_counts soft g tol K m' ts (relist p 0 theta) = (let* d := expected_counts soft g tol K m ts theta in Ok (relist p 0 d)).
Proof.
  intros soft g tol K p m m' ts theta (P & EF & ES & EN & _) L. unfold expected_counts. rewrite EF, ES, EN.
  rewrite (C141_order _ (m_sas m) (relist p 0 theta) (relist p [] (m_features m)) theta (m_features m)); [|now rewrite !relist_length|exact L|].
  2:{ rewrite relist_combine by exact L. apply relist_permutation. rewrite combine_length, L, Nat.min_id. exact P. }
  destruct (solve_value_iteration _ _ _ _ _ _ _) as [[v q]|e]; [|reflexivity]. cbn [bind]. destruct (policy_of soft q) as [pp|e]; [|reflexivity]. cbn [bind]. destruct (mapM _ pp) as [pi|e]; [|reflexivity]. cbn [bind].
  destruct (start_distribution (m_n_states m) ts) as [p0|e]; [|reflexivity]. cbn [bind]. now rewrite counts_relist.
Qed.
Lemma mean_relist : forall p (v : list R), Permutation p (seq 0 (length v)) -> nmean (relist p 0 v) = nmean v.
Proof.
  intros p v P. pose proof (relist_permutation _ p 0 v P) as PV. unfold nmean. rewrite !nsum_Rsum, (Permutation_length PV). f_equal.
  assert (X : forall l : list R, Rsum l = sumf (fun x => x) l) by (intros l; unfold sumf; now rewrite map_id). rewrite !X. now apply sumf_permutation.
Qed.
Lemma loop_relist : forall p l l' n c (m m' : mdp R) ts F, Permutation p (seq 0 n) -> same_ignored p l l' -> length F = n ->
  (forall theta, length theta = n -> exists d, x_inner c m ts theta = Ok d /\ length d = n /\ x_inner c m' ts (relist p 0 theta) = Ok (relist p 0 d)) ->
  forall k i theta rate last, length theta = n -> (match last with Some e => length e = n | None => True end) ->
  exists theta' rate' r, maxent_loop c m ts (IgnoreList l) F k i theta rate last = (theta', rate', Ok r) /\ (match r with Some e => length e = n | None => True end) /\
    maxent_loop c m' ts (IgnoreList l') (relist p 0 F) k i (relist p 0 theta) rate (option_map (relist p 0) last) = (relist p 0 theta', rate', Ok (option_map (relist p 0) r)).
Proof.
  intros p l l' n c m m' ts F P SI LF X. assert (LP : length p = n) by (apply Permutation_length in P; now rewrite seq_length in P).
  induction k as [|k IH]; intros i theta rate last LT LL; cbn [maxent_loop]; [exists theta, rate, last; auto|].
  destruct (X theta LT) as (d & E & LD & E'). rewrite E, E'. cbn [bind].
  destruct (zero_ok (IgnoreList l) d) as [d0 Z]; [cbn [ignores]; rewrite LD, <- LP; apply SI|]. assert (LZ : length d0 = n) by (rewrite (zero_length _ _ _ Z); exact LD).
  rewrite Z, (zero_relist p l l' d d0) by (try exact Z; try exact SI; now rewrite LD). cbv zeta. set (rt := if x_decaying c then nmul rate (x_power c i) else rate). set (used := if x_decaying c then nmul rt (x_power c i) else rate). rewrite relist_combine by congruence. rewrite (relist_map _ _ (fun '(x, y) => nsub x y)).
  set (err := map (fun '(x, y) => nsub x y) (combine F d0)). assert (LE : length err = n) by (unfold err; rewrite map_length, combine_length; lia).
  replace (nsub 0 0) with 0 by (cbn [nsub NumR]; ring). rewrite relist_combine by congruence. rewrite (relist_map _ _ (fun '(x, e) => nadd x (nmul used e))).
  set (th1 := map (fun '(x, e) => nadd x (nmul used e)) (combine theta err)). assert (L1 : length th1 = n) by (unfold th1; rewrite map_length, combine_length; lia).
  assert (Z0 : forall u : R, nadd 0 (nmul u 0) = 0) by (intros u; cbn [nadd nmul NumR]; ring). rewrite Z0. rewrite (relist_map _ _ nabs). assert (ZA : nabs 0 = 0) by (rewrite nabs_Rabs; apply Rabs_R0). rewrite ZA. rewrite mean_relist by (rewrite map_length, LE; exact P).
  destruct (nltb (nmean (map nabs err)) (x_tol c)).
  - eexists th1, _, (Some err). split; [reflexivity|]. split; [exact LE|reflexivity].
  - apply (IH (S i) th1 _ (Some err) L1 LE).
Qed.
(** A fit, with the array it starts from and the one it ends with. *)
Lemma fit_flat : forall c (m : mdp R) z t ts ig F x h, (let* v := visited_states (m_n_states m) ((z :: t) :: ts) in zero_ignored ig (feature_counts (m_features m) v)) = Ok F -> starts_with m x h ->
  forall th0, zero_ignored ig (initial m x h) = Ok th0 -> forall theta rate r err, maxent_loop c m ((z :: t) :: ts) ig F (x_iter c) 0 th0 (x_rate x) None = (theta, rate, Ok r) -> r = Some err ->
  exists x1 h1 a, fit_maxent c m ((z :: t) :: ts) ig x h = (x1, h1, Ok (a, negb (nltb (nmean err) (x_tol c)))) /\ nth a h1 [] = theta /\ x_rate x1 = rate /\ starts_with m x1 h1 = ((a < length h1)%nat /\ length (nth a h1 []) = m_n_features m).
Proof.
  intros c m z t ts ig F x h EF ST th0 Z theta rate r err EL ->. unfold fit_maxent. rewrite EF. unfold starts_with, initial in ST, Z. destruct (x_theta x) as [| |a]; [| |]; [|destruct ST|].
  - rewrite app_nth2, Nat.sub_diag by lia. cbn [nth]. rewrite Z, EL. eexists _, _, _. split; [reflexivity|]. split; [apply nth_upd_same; rewrite app_length; cbn; lia|]. split; reflexivity.
  - rewrite Z, EL. eexists _, _, _. split; [reflexivity|]. split; [apply nth_upd_same; apply ST|]. split; reflexivity.
Qed.
Lemma maxent_loop_some : forall c (m : mdp R) ts ig F k i theta rate last theta' rate' r, maxent_loop c m ts ig F k i theta rate last = (theta', rate', Ok r) -> last <> None \/ (0 < k)%nat -> r <> None.
Proof.
  intros c m ts ig F. induction k as [|k IH]; intros i theta rate last theta' rate' r E H; cbn [maxent_loop] in E; [injection E as _ _ <-; destruct H as [H|H]; [exact H|lia]|].
  destruct (let* d := x_inner c m ts theta in zero_ignored ig d) as [d|e]; [|discriminate]. cbv zeta in E. destruct (nltb _ _); [injection E as _ _ <-; discriminate|]. apply IH in E; [exact E|left; discriminate].
Qed.

(** ** C160 *)
(** Maximum entropy: the weights learned with the features in another order are the weights learned before, in that order; so
    are the learning rate left behind and whether a warning was given. *)
Theorem C160_maxent : forall lr decay iters tol g K soft c p m m' ts l l' x h x' h', maxent_ok lr decay iters tol g K soft c -> (0 < iters)%Z -> inferable m ts -> relisted p m m' -> same_ignored p l l' ->
  starts_with m x h -> starts_with m' x' h' -> x_rate x' = x_rate x -> initial m' x' h' = relist p 0 (initial m x h) ->
  exists x1 h1 a w x1' h1' a', fit_maxent c m ts (IgnoreList l) x h = (x1, h1, Ok (a, w)) /\ fit_maxent c m' ts (IgnoreList l') x' h' = (x1', h1', Ok (a', w)) /\
    nth a' h1' [] = relist p 0 (nth a h1 []) /\ x_rate x1' = x_rate x1.
Proof.
  intros lr decay iters tol g K soft c p m m' ts l l' x h x' h' (OC & OG & OK) HI IN RL SI ST ST' RX RI. destruct (config_inv _ _ _ _ _ _ _ _ OC) as (_ & _ & _ & _ & _ & XI & _ & XN).
  pose proof IN as (M & SS & CO & NS & NP & NF & HF & T0 & T1 & T2 & T3). pose proof RL as (P & EF & ES & EN & EA & ENF). set (n := length (m_features m)) in *.
  assert (LP : length p = n) by (apply Permutation_length in P; now rewrite seq_length in P).
  destruct ts as [|[|z t] ts]; [congruence|inversion T1; congruence|].
  destruct (visited_spec _ _ T2) as (v & EV & _).
  destruct (zero_ok (IgnoreList l) (feature_counts (m_features m) v)) as [F ZF]; [cbn [ignores]; unfold feature_counts; rewrite map_length; fold n; rewrite <- LP; apply SI|].
  assert (LF0 : length (feature_counts (m_features m) v) = n) by (unfold feature_counts; now rewrite map_length).
  assert (LF : length F = n) by (rewrite (zero_length _ _ _ ZF); exact LF0).
  assert (E1 : (let* v := visited_states (m_n_states m) ((z :: t) :: ts) in zero_ignored (IgnoreList l) (feature_counts (m_features m) v)) = Ok F) by (rewrite EV; exact ZF).
  assert (E2 : (let* v := visited_states (m_n_states m') ((z :: t) :: ts) in zero_ignored (IgnoreList l') (feature_counts (m_features m') v)) = Ok (relist p 0 F)).
  { rewrite EN, EV. cbn [bind]. rewrite EF, counts_relist. apply (zero_relist p l l'); [now rewrite LF0|exact SI|exact ZF]. }
  assert (LI : length (initial m x h) = n) by (unfold starts_with, initial in *; destruct (x_theta x); [unfold zeros1; rewrite repeat_length; exact NF|destruct ST|destruct ST as [_ ->]; exact NF]).
  destruct (zero_ok (IgnoreList l) (initial m x h)) as [th0 Z0]; [cbn [ignores]; rewrite LI, <- LP; apply SI|]. assert (LT0 : length th0 = n) by (rewrite (zero_length _ _ _ Z0); exact LI).
  assert (Z0' : zero_ignored (IgnoreList l') (initial m' x' h') = Ok (relist p 0 th0)) by (rewrite RI; apply (zero_relist p l l'); [now rewrite LI|exact SI|exact Z0]).
  destruct (loop_relist p l l' n c m m' ((z :: t) :: ts) F P SI LF) with (k := x_iter c) (i := 0%nat) (theta := th0) (rate := x_rate x) (last := @None (list R)) as (th & rt & r & L1 & LR & L2); [|exact LT0|exact I|].
  { intros theta LT. rewrite XN. destruct (expected_ok soft g tol K m _ theta IN OG OK LT) as (d & ED & LD & _). exists d. split; [exact ED|]. split; [exact LD|]. rewrite (expected_relist soft g tol K p m m') by assumption. now rewrite ED. }
  cbn [option_map] in L2. rewrite <- RX in L2.
  assert (NR : r <> None) by (apply (maxent_loop_some _ _ _ _ _ _ _ _ _ _ _ _ _ L1); right; rewrite XI; lia).
  destruct r as [err|]; [|congruence]. cbn [option_map] in L2.
  destruct (fit_flat c m z t ts (IgnoreList l) F x h E1 ST th0 Z0 _ _ _ err L1 eq_refl) as (x1 & h1 & a & A1 & A2 & A3 & _).
  destruct (fit_flat c m' z t ts (IgnoreList l') _ x' h' E2 ST' _ Z0' _ _ _ _ L2 eq_refl) as (x1' & h1' & a' & B1 & B2 & B3 & _).
  rewrite mean_relist in B1 by (rewrite LR; exact P). exists x1, h1, a, (negb (nltb (nmean err) (x_tol c))), x1', h1', a'. split; [exact A1|]. split; [exact B1|]. split; congruence.
Qed.

(** ** Learners that add features up *)
Lemma vadd_relist : forall p (u v : list R), length u = length v -> vadd (relist p 0 u) (relist p 0 v) = relist p 0 (vadd u v).
Proof. intros p u v L. unfold vadd. rewrite relist_combine by exact L. rewrite relist_map. f_equal. cbn [nadd NumR]. ring. Qed.
Lemma vadd_length : forall u v : list R, length u = length v -> length (vadd u v) = length u.
Proof. intros u v L. unfold vadd. rewrite map_length, combine_length. lia. Qed.
Lemma normalise_relist : forall p (v : list R), Permutation p (seq 0 (length v)) -> normalise (relist p 0 v) = relist p 0 (normalise v).
Proof.
  intros p v P. pose proof (relist_permutation _ p 0 v P) as PV. unfold normalise.
  assert (EB : forallb (fun x => neqb x n0) (relist p 0 v) = forallb (fun x => neqb x n0) v).
  { apply eq_iff_eq_true. rewrite !forallb_forall. split; intros H x I; apply H; [exact (Permutation_in _ (Permutation_sym PV) I)|exact (Permutation_in _ PV I)]. }
  rewrite EB. destruct (forallb _ v); [reflexivity|]. rewrite relist_map.
  assert (ES : nsum (relist p 0 v) = nsum v). { rewrite !nsum_Rsum. assert (X : forall l : list R, Rsum l = sumf (fun x => x) l) by (intros l; unfold sumf; now rewrite map_id). rewrite !X. now apply sumf_permutation. }
  rewrite ES. f_equal. cbn [ndiv NumR]. unfold Rdiv. ring.
Qed.
Lemma normalise_length : forall v : list R, length (normalise v) = length v.
Proof. intros v. unfold normalise. destruct (forallb _ v); [reflexivity|apply map_length]. Qed.
Lemma pair_relisted : forall p m m' s t, relisted p m m' -> pair_action m' s t = pair_action m s t.
Proof. intros p m m' s t (_ & _ & ES & EN & EA & _). unfold pair_action, sas_col. now rewrite ES, EN, ?EA. Qed.
Lemma eyeline_relisted : forall p m m', relisted p m m' -> forall fuel s a, eyeline fuel m' s a = eyeline fuel m s a.
Proof. intros p m m' (_ & _ & ES & _) fuel. induction fuel as [|fuel IH]; intros s a; [reflexivity|]. cbn [eyeline]. rewrite ES. cbv zeta. destruct (existsb _ _); [|reflexivity]. now rewrite IH. Qed.
Lemma features_relisted : forall p m m' fuel s a, relisted p m m' -> get_eyeline_features fuel m' s a = (let* f := get_eyeline_features fuel m s a in Ok (relist p 0 f)).
Proof.
  intros p m m' fuel s a RL. unfold get_eyeline_features. pose proof RL as (_ & EF & _ & EN & _). rewrite EN. destruct (py_index (m_n_states m) s) as [i|e]; [|reflexivity]. cbn [bind]. rewrite (eyeline_relisted p m m' RL).
  destruct (eyeline fuel m i a) as [l|e]; [|reflexivity]. cbn [bind]. rewrite EF, relist_map. do 2 f_equal. rewrite nsum_Rsum. change (sumf (fun k => nth k [] n0) l = 0). apply sumf_0. intros [|k] _; reflexivity.
Qed.
Lemma features_length : forall (m : mdp R) fuel s a f, get_eyeline_features fuel m s a = Ok f -> length f = length (m_features m).
Proof. intros m fuel s a f E. unfold get_eyeline_features in E. apply bind_ok in E. destruct E as (i & _ & E). apply bind_ok in E. destruct E as (l & _ & E). injection E as <-. apply map_length. Qed.
Lemma zeros_relisted : forall p m m', relisted p m m' -> m_n_features m = length (m_features m) -> zeros1 (A:=R) (m_n_features m') = relist p 0 (zeros1 (m_n_features m)).
Proof. intros p m m' (P & _ & _ & _ & _ & ENF) NF. rewrite ENF. unfold zeros1. cbn [n0 NumR]. symmetry. apply relist_const. now rewrite NF. Qed.

Lemma sums_relisted : forall p f mdps mdps', (f < length p)%nat -> Forall2 (relisted p) mdps mdps' -> forall ts,
  sumf (fun q => along (nth f (m_features (fst q)) []) (tl (snd q))) (combine mdps' ts) = sumf (fun q => along (nth (nth f p 0%nat) (m_features (fst q)) []) (tl (snd q))) (combine mdps ts).
Proof.
  intros p f mdps mdps' Hp RL. induction RL as [|m m' ms ms' (_ & EF & _) RL IH]; intros [|t ts]; try reflexivity. cbn [combine]. rewrite !sumf_cons, IH. cbn [fst snd]. rewrite EF, relist_nth by exact Hp. reflexivity.
Qed.
(** Feature matching, for one or several MDPs with a trajectory each. *)
Theorem C160_matching : forall p nF mdps mdps' ts th, matchable nF mdps ts -> Forall2 (relisted p) mdps mdps' -> fit_matching mdps ts [] = Ok th -> fit_matching mdps' ts [] = Ok (relist p 0 th).
Proof.
  intros p nF mdps mdps' ts th MA RL E. pose proof MA as (L & HD & HF & HS).
  assert (MA' : matchable nF mdps' ts).
  { split; [rewrite L; revert RL; clear; induction 1; cbn; lia|]. split; [exact HD|]. split.
    - revert HF. clear - RL. induction RL as [|m m' mdps mdps' (P & EF & _ & _ & _ & ENF) RL IH]; intros HF; constructor; inversion HF as [|? ? [H1 H2] H3]; subst; [|auto]. split; [congruence|]. rewrite EF, relist_length. apply Permutation_length in P. rewrite seq_length in P. congruence.
    - revert ts HS L HD MA E. clear - RL. intros ts HS _ _ _ _. revert ts HS. induction RL as [|m m' mdps mdps' (P & EF & _ & EN & _) RL IH]; intros [|t ts] HS; cbn [combine] in *; try constructor; inversion HS; subst; [cbn [fst snd] in *; now rewrite EN|auto]. }
  destruct (C54_counts _ _ _ MA) as (th1 & E1 & L1 & N1). assert (th1 = th) as -> by congruence. destruct (C54_counts _ _ _ MA') as (th2 & E2 & L2 & N2). rewrite E2. f_equal.
  destruct mdps as [|m0 mdps]; [destruct ts as [|t ts]; [cbn in HD; congruence|discriminate L]|]. inversion RL as [|? m0' ? ? RL0 RLS]. subst. destruct RL0 as (P & _). inversion HF as [|? ? [_ LF] _]. subst. assert (LP : length p = length (m_features m0)) by (apply Permutation_length in P; now rewrite seq_length in P).
  apply (nth_ext _ _ 0 0); [rewrite relist_length; congruence|]. intros f Hf. rewrite relist_nth by lia. rewrite N2 by lia. rewrite N1 by (rewrite <- LF; apply (relist_in p _ f P); lia).
  apply (sums_relisted p f (m0 :: mdps) (m0' :: l')); [lia|exact RL].
Qed.
(** What is seen along trajectories. *)
Theorem C160_sight : forall p fuel m m' ts norm th, relisted p m m' -> m_n_features m = length (m_features m) -> trajectory_eyeline fuel m ts norm = Ok th -> trajectory_eyeline fuel m' ts norm = Ok (relist p 0 th).
Proof.
  intros p fuel m m' ts norm th RL NF E. pose proof RL as (P & _). unfold trajectory_eyeline in *. rewrite (zeros_relisted p m m' RL NF).
  assert (G : forall l v r, length v = length (m_features m) -> foldM (fun v p => let* a := pair_action m (fst p) (snd p) in let* f := get_eyeline_features fuel m (fst p) a in Ok (vadd v f)) l v = Ok r ->
     length r = length (m_features m) /\ foldM (fun v p => let* a := pair_action m' (fst p) (snd p) in let* f := get_eyeline_features fuel m' (fst p) a in Ok (vadd v f)) l (relist p 0 v) = Ok (relist p 0 r)).
  { induction l as [|[s t] l IH]; intros v r LV H; cbn [foldM fst snd] in *; [injection H as <-; auto|]. rewrite (pair_relisted p m m') by exact RL. destruct (pair_action m s t) as [a|e]; cbn [bind] in *; [|discriminate].
    rewrite (features_relisted p m m') by exact RL. destruct (get_eyeline_features fuel m s a) as [f|e] eqn:EF; cbn [bind] in *; [|discriminate]. apply features_length in EF. rewrite vadd_relist by congruence. apply IH; [rewrite vadd_length by congruence; exact LV|exact H]. }
  destruct (foldM _ _ (zeros1 (m_n_features m))) as [v|e] eqn:EV in E; cbn [bind] in E; [|discriminate]. assert (LZ : length (zeros1 (A:=R) (m_n_features m)) = length (m_features m)) by (unfold zeros1; rewrite repeat_length; exact NF). destruct (G _ _ _ LZ EV) as [LV EV']. rewrite EV'. cbn [bind]. injection E as <-. f_equal. destruct norm; [|reflexivity]. apply normalise_relist. now rewrite LV.
Qed.
(** What is seen less what would have been seen after other actions. *)
Theorem C160_difference : forall p fuel m m' ts norm th, relisted p m m' -> m_n_features m = length (m_features m) -> trajectory_eyeline_diff fuel m ts norm = Ok th -> trajectory_eyeline_diff fuel m' ts norm = Ok (relist p 0 th).
Proof.
  intros p fuel m m' ts norm th RL NF E. pose proof RL as (P & _ & _ & _ & EA & _). unfold trajectory_eyeline_diff in *. rewrite (zeros_relisted p m m' RL NF). set (n := length (m_features m)) in *.
  assert (GI : forall s ca l c u c1 u1, length c = n -> length u = n -> foldM (fun '(c, u) a => let* f := get_eyeline_features fuel m s a in Ok (if (a =? ca)%nat then (vadd c f, u) else (c, vadd u f))) l (c, u) = Ok (c1, u1) ->
     length c1 = n /\ length u1 = n /\ foldM (fun '(c, u) a => let* f := get_eyeline_features fuel m' s a in Ok (if (a =? ca)%nat then (vadd c f, u) else (c, vadd u f))) l (relist p 0 c, relist p 0 u) = Ok (relist p 0 c1, relist p 0 u1)).
  { intros s ca. induction l as [|a l IH]; intros c u c1 u1 LC LU H; cbn [foldM] in *; [injection H as <- <-; auto|]. rewrite (features_relisted p m m') by exact RL. destruct (get_eyeline_features fuel m s a) as [f|e] eqn:EF; cbn [bind] in *; [|discriminate].
    apply features_length in EF. fold n in EF. destruct (a =? ca)%nat; rewrite vadd_relist by congruence; apply IH; try exact H; try assumption; rewrite vadd_length by congruence; assumption. }
  assert (G : forall l cu r, length (fst cu) = n -> length (snd cu) = n -> foldM (fun acc p => let* ca := pair_action m (fst p) (snd p) in
      foldM (fun '(c, u) a => let* f := get_eyeline_features fuel m (fst p) a in Ok (if (a =? ca)%nat then (vadd c f, u) else (c, vadd u f))) (seq 0 (m_n_actions m - 1)) acc) l cu = Ok r ->
     length (fst r) = n /\ length (snd r) = n /\ foldM (fun acc p => let* ca := pair_action m' (fst p) (snd p) in
      foldM (fun '(c, u) a => let* f := get_eyeline_features fuel m' (fst p) a in Ok (if (a =? ca)%nat then (vadd c f, u) else (c, vadd u f))) (seq 0 (m_n_actions m' - 1)) acc) l (relist p 0 (fst cu), relist p 0 (snd cu)) = Ok (relist p 0 (fst r), relist p 0 (snd r))).
  { induction l as [|[s t] l IH]; intros [c u] r LC LU H; [cbn [foldM] in *; injection H as <-; auto|]. cbn [fst snd] in LC, LU. cbn [foldM] in *. cbn [fst snd] in *. rewrite (pair_relisted p m m') by exact RL. destruct (pair_action m s t) as [ca|e]; cbn [bind] in *; [|discriminate].
    destruct (foldM _ (seq 0 (m_n_actions m - 1)) (c, u)) as [[c1 u1]|e] eqn:EI in H; cbn [bind] in H; [|discriminate]. destruct (GI _ _ _ _ _ _ _ LC LU EI) as (L1 & L2 & EI'). rewrite EA, EI'. cbn [bind]. rewrite <- EA. exact (IH (c1, u1) r L1 L2 H). }
  destruct (foldM _ _ (zeros1 (m_n_features m), zeros1 (m_n_features m))) as [[c u]|e] eqn:EV in E; cbn [bind] in E; [|discriminate].
  assert (LZ : length (zeros1 (A:=R) (m_n_features m)) = n) by (unfold zeros1; rewrite repeat_length; exact NF).
  destruct (G _ (zeros1 (m_n_features m), zeros1 (m_n_features m)) _ LZ LZ EV) as (L1 & L2 & EV'). cbn [fst snd] in *. rewrite EV'. cbn [bind]. cbv zeta in *. injection E as <-. f_equal.
  assert (N1 : (if norm then normalise (relist p 0 c) else relist p 0 c) = relist p 0 (if norm then normalise c else c)) by (destruct norm; [apply normalise_relist; now rewrite L1|reflexivity]).
  assert (N2 : (if norm then normalise (relist p 0 u) else relist p 0 u) = relist p 0 (if norm then normalise u else u)) by (destruct norm; [apply normalise_relist; now rewrite L2|reflexivity]).
  rewrite N1, N2. rewrite relist_combine by (destruct norm; rewrite ?normalise_length; congruence). rewrite relist_map. f_equal. cbn [nsub NumR]. ring.
Qed.
(** Both learners, fitted to a list of MDPs with one trajectory each, from nothing or from an earlier estimate. *)
Definition sight_or_difference (fuel : nat) (norm : bool) (count : mdp R -> list (list Z) -> res (list R)) : Prop :=
  count = (fun m ts => trajectory_eyeline fuel m ts norm) \/ count = (fun m ts => trajectory_eyeline_diff fuel m ts norm).
Theorem C160_learners : forall p fuel norm count mdps mdps' ts reset theta th, sight_or_difference fuel norm count -> Forall2 (relisted p) mdps mdps' ->
  Forall (fun m => m_n_features m = length (m_features m)) mdps -> (match theta with Some t0 => length t0 = length p | None => True end) ->
  fit_simple count mdps ts reset theta = Ok th -> fit_simple count mdps' ts reset (option_map (relist p 0) theta) = Ok (relist p 0 th).
Proof.
  intros p fuel norm count mdps mdps' ts reset theta th SD RL HF LT E.
  assert (CE : forall m m' t f, relisted p m m' -> m_n_features m = length (m_features m) -> count m [t] = Ok f -> count m' [t] = Ok (relist p 0 f)) by (intros m m' t f H1 H2; destruct SD as [->| ->]; [now apply C160_sight|now apply C160_difference]).
  unfold fit_simple in *. apply bind_ok in E. destruct E as (st & ES & E).
  assert (ES' : match option_map (relist p 0) theta, reset with Some th, false => Ok th | _, _ => match mdps' with [] => Err IndexError | m0 :: _ => Ok (zeros1 (m_n_features m0)) end end = Ok (relist p 0 st) /\ length st = length p).
  { assert (Z : match mdps with [] => Err IndexError | m0 :: _ => Ok (zeros1 (m_n_features m0)) end = Ok st -> match mdps' with [] => Err IndexError | m0 :: _ => Ok (zeros1 (A:=R) (m_n_features m0)) end = Ok (relist p 0 st) /\ length st = length p).
    { intros Z. destruct RL as [|m m' mdps mdps' R0 RL]; [discriminate|]. injection Z as <-. inversion HF. subst. rewrite (zeros_relisted p m m') by assumption. split; [reflexivity|]. unfold zeros1. rewrite repeat_length. destruct R0 as (P & _). apply Permutation_length in P. rewrite seq_length in P. congruence. }
    destruct theta as [t0|]; cbn [option_map]; [|auto]. destruct reset; [auto|]. injection ES as <-. auto. }
  destruct ES' as [ES' LS]. rewrite ES'. cbn [bind]. clear ES ES'.
  assert (LM : length mdps' = length mdps) by (revert RL; clear; induction 1; cbn; lia). rewrite LM. clear LM.
  revert st LS E. generalize 0%nat as i. induction RL as [|m m' mdps mdps' R0 RL IH]; intros i st LS E; cbn [length seq combine foldM] in *; [injection E as <-; reflexivity|]. inversion HF as [|? ? H1 H2]. subst.
  destruct (nth_error ts i) as [t|]; cbn [bind] in *; [|discriminate]. destruct (count m [t]) as [f|e] eqn:EC; cbn [bind] in *; [|discriminate]. rewrite (CE m m' t f R0 H1 EC). cbn [bind].
  destruct (length f =? length st)%nat eqn:EL; cbn [bind] in *; [|discriminate]. apply Nat.eqb_eq in EL. rewrite !relist_length, Nat.eqb_refl. cbn [bind]. rewrite vadd_relist by congruence. apply IH; [exact H2|rewrite vadd_length; congruence|exact E].
Qed.

(** ** Hypothesis testing *)
Lemma mapM_make : forall X Y (f : X -> res Y) l r dx dy, length r = length l -> (forall i, (i < length l)%nat -> f (nth i l dx) = Ok (nth i r dy)) -> mapM f l = Ok r.
Proof.
  intros X Y f. induction l as [|x l IH]; intros [|y r] dx dy L H; cbn [length] in L; try lia; [reflexivity|]. cbn [mapM]. pose proof (H 0%nat ltac:(cbn; lia)) as H0. cbn [nth] in H0. rewrite H0. cbn [bind].
  rewrite (IH r dx dy) by (try lia; intros i Hi; apply (H (S i)); cbn; lia). reflexivity.
Qed.
Lemma onehot_relist : forall p n j, Permutation p (seq 0 n) -> (j < length p)%nat -> only_feature n j = relist p 0 (only_feature n (nth j p 0%nat)).
Proof.
  intros p n j P Hj. assert (LP : length p = n) by (apply Permutation_length in P; now rewrite seq_length in P). unfold only_feature. apply (nth_ext _ _ 0 0); [rewrite relist_length, map_length, seq_length; congruence|]. intros i Hi. rewrite map_length, seq_length in Hi.
  rewrite relist_nth by lia. pose proof (relist_in p n i P ltac:(lia)) as Hpi. rewrite !(nth_map_lt _ _ _ _ _ _ 0%nat) by (rewrite seq_length; lia). rewrite !seq_nth0 by lia.
  assert (ND : NoDup p) by (apply (Permutation_NoDup (Permutation_sym P)), seq_NoDup). rewrite NoDup_nth in ND. destruct (Nat.eqb_spec i j) as [->|X]; [now rewrite Nat.eqb_refl|]. destruct (Nat.eqb_spec (nth i p 0%nat) (nth j p 0%nat)) as [Y|Y]; [|reflexivity]. elim X. apply ND; (lia || exact Y).
Qed.
Lemma estimate_relisted : forall lr decay asym tol g K soft norm c p m m' ex ex' q, hyptest_config lr decay asym tol g K soft norm = Ok c -> relisted p m m' -> same_ignored p ex ex' ->
  estimate_q c m ex = Ok q -> length q = length (m_features m) /\ estimate_q c m' ex' = Ok (relist p None q).
Proof.
  intros lr decay asym tol g K soft norm c p m m' ex ex' q OC (P & EF & ES & _) (_ & _ & SI) E. unfold hyptest_config in OC. destruct (negb _); [discriminate|]. destruct (nltb decay n0); [discriminate|]. destruct (negb _) in OC; [discriminate|]. injection OC as <-.
  unfold estimate_q in *. cbn [h_solve] in *. assert (LP : length p = length (m_features m)) by (apply Permutation_length in P; now rewrite seq_length in P). destruct (mapM_nth _ _ _ _ _ E) as [LQ NQ]. rewrite seq_length in LQ. split; [exact LQ|].
  rewrite EF, relist_length, LP. apply (mapM_make _ _ _ _ _ 0%nat None); [now rewrite relist_length, seq_length|]. intros j Hj. rewrite seq_length in *. rewrite seq_nth0 by exact Hj. rewrite relist_nth by lia. pose proof (relist_in p _ j P ltac:(lia)) as Hp.
  specialize (NQ (nth j p 0%nat) 0%nat None Hp). rewrite seq_nth0 in NQ by exact Hp. rewrite <- NQ.
  assert (EB : existsb (Z.eqb (Z.of_nat j)) ex' = existsb (Z.eqb (Z.of_nat (nth j p 0%nat))) ex).
  { apply eq_iff_eq_true. rewrite !existsb_exists. specialize (SI j ltac:(lia)). split; intros (x & I & X); apply Z.eqb_eq in X; subst x; eexists; (split; [|apply Z.eqb_refl]); apply SI; exact I. }
  rewrite EB. destruct (existsb _ ex); [reflexivity|]. rewrite ES. pose proof (onehot_relist p _ j P ltac:(lia)) as OH. unfold only_feature in OH. rewrite OH. set (w := map _ (seq 0 (length (m_features m)))). assert (LW : length w = length (m_features m)) by (unfold w; now rewrite map_length, seq_length).
  rewrite (C141_order _ (m_sas m) (relist p 0 w) (relist p [] (m_features m)) w (m_features m)); [reflexivity|now rewrite !relist_length|exact LW|]. rewrite relist_combine by exact LW. apply relist_permutation. rewrite combine_length, LW, Nat.min_id. exact P.
Qed.
Lemma moved_relisted : forall p m m' s t, relisted p m m' -> move_action m' s t = move_action m s t.
Proof. intros p m m' s t (_ & _ & ES & EN & EA & _). unfold move_action, sas_col. now rewrite ES, EN, ?EA. Qed.
Lemma update_relist : forall p c k (r w : list weight), length r = length w -> update_weights c k (relist p None r) (relist p None w) = relist p None (update_weights c k r w).
Proof. intros p c k r w L. unfold update_weights. rewrite relist_combine by exact L. rewrite relist_map. reflexivity. Qed.
Definition run_relist (p : list nat) (st : hyp_run) : hyp_run := mkRun (relist p None (r_w st)) (r_n st) (map (relist p None) (r_log st)).
Lemma moves_relisted : forall lr decay asym tol g K soft norm c p m m' ex ex', hyptest_config lr decay asym tol g K soft norm = Ok c -> relisted p m m' -> same_ignored p ex ex' ->
  forall ps q st st1, (match q with Some qq => length qq = length (m_features m) | None => True end) -> length (r_w st) = length (m_features m) -> run_moves c m ex q ps st = (st1, Ok tt) ->
  length (r_w st1) = length (m_features m) /\ run_moves c m' ex' (option_map (relist p None) q) ps (run_relist p st) = (run_relist p st1, Ok tt).
Proof.
  intros lr decay asym tol g K soft norm c p m m' ex ex' OC RL SI. induction ps as [|[s t] ps IH]; intros q st st1 LQ LW E; cbn [run_moves] in *; [apply pair_equal_spec in E; destruct E as [<- _]; auto|].
  unfold single_move in *. rewrite (moved_relisted p m m') by exact RL. destruct (move_action m s t) as [[i a]|e]; cbn [bind] in *; [|discriminate].
  match type of E with context [bind ?x _] => destruct x as [qq|e] eqn:EQ end; cbn [bind] in E; [|discriminate].
  assert (EQ' : (match option_map (relist p None) q with Some q => Ok q | None => estimate_q c m' ex' end) = Ok (relist p None qq) /\ length qq = length (m_features m)).
  { destruct q as [q|]; cbn [option_map]; [injection EQ as <-; auto|]. destruct (estimate_relisted _ _ _ _ _ _ _ _ _ _ _ _ _ _ _ OC RL SI EQ) as [L ->]. auto. }
  destruct EQ' as [EQ' LQQ]. match goal with |- context [bind ?x _] => change x with (match option_map (relist p None) q with Some q => Ok q | None => estimate_q c m' ex' end) end. rewrite EQ'. cbn [bind]. pose proof RL as (_ & _ & ES & _). rewrite ES. destruct (MCTSModel.get_actions_states (m_sas m) s) as [acts|e]; cbn [bind] in *; [|discriminate].
  assert (HN : h_norm c = norm) by (unfold hyptest_config in OC; destruct (negb _); [discriminate|]; destruct (nltb decay n0); [discriminate|]; destruct (negb _) in OC; [discriminate|]; now injection OC as <-).
  destruct (h_norm c) eqn:EH; [|discriminate|]; (cbv zeta in *; rewrite relist_map; cbn [hyp_weight run_relist r_n r_w r_log] in *; rewrite update_relist by (rewrite map_length; congruence);
    match type of E with run_moves _ _ _ _ _ ?x = _ => destruct (IH (Some qq) x st1 LQQ) as [L2 R2]; [cbn [r_w]; unfold update_weights; rewrite map_length, combine_length, map_length; lia|exact E|] end; split; [exact L2|];
    cbn [option_map] in R2; rewrite <- R2; unfold run_relist; cbn [r_w r_n r_log]; rewrite map_app; reflexivity).
Qed.
Lemma all_relisted : forall lr decay asym tol g K soft norm c p nF ex ex', hyptest_config lr decay asym tol g K soft norm = Ok c -> same_ignored p ex ex' ->
  forall mdps mdps', Forall2 (relisted p) mdps mdps' -> Forall (fun m => length (m_features m) = nF) mdps -> forall ts st ends st1 ends1, length (r_w st) = nF -> run_all c ex (combine mdps ts) st ends = (st1, ends1, Ok tt) ->
  run_all c ex' (combine mdps' ts) (run_relist p st) (map (relist p None) ends) = (run_relist p st1, map (relist p None) ends1, Ok tt).
Proof.
  intros lr decay asym tol g K soft norm c p nF ex ex' OC SI mdps mdps' RL. induction RL as [|m m' ms ms' R0 RL IH]; intros HF [|t ts] st ends st1 ends1 LW E; cbn [combine run_all] in *;
    try (apply pair_equal_spec in E; destruct E as [E _]; apply pair_equal_spec in E; destruct E as [<- <-]; reflexivity).
  inversion HF as [|? ? H1 H2]. subst. destruct (run_moves c m ex None (moves t) st) as [st2 [[]|e]] eqn:EM; [|discriminate].
  destruct (moves_relisted _ _ _ _ _ _ _ _ _ p m m' ex ex' OC R0 SI _ None st st2 I (eq_sym H1) EM) as [L2 R2]. assert (R3 : run_moves c m' ex' None (moves t) (run_relist p st) = (run_relist p st2, Ok tt)) by exact R2. rewrite R3. specialize (IH H2 ts st2 _ st1 ends1 (eq_trans L2 H1) E). rewrite map_app in IH. exact IH.
Qed.
(** The weights after every move and after every trajectory are those learned before, in the new order. *)
Theorem C160_hypotheses : forall lr decay asym tol g K soft norm c p nF mdps mdps' ts ex ex' x h x' h' x1 h1 a log ends, hyptest_config lr decay asym tol g K soft norm = Ok c ->
  Forall (fun m => length (m_features m) = nF) mdps -> Forall2 (relisted p) mdps mdps' -> same_ignored p ex ex' -> starts_ok nF x h -> starts_ok nF x' h' -> start_weights nF x' h' = relist p None (start_weights nF x h) ->
  fit_hyptest c mdps ts ex x h = (x1, h1, Ok (a, log, ends)) ->
  exists x1' h1' a', fit_hyptest c mdps' ts ex' x' h' = (x1', h1', Ok (a', map (relist p None) log, map (relist p None) ends)) /\ nth a' h1' [] = relist p None (nth a h1 []).
Proof.
  intros lr decay asym tol g K soft norm c p nF mdps mdps' ts ex ex' x h x' h' x1 h1 a log ends OC HF RL SI ST ST' RS E. unfold fit_hyptest in *. destruct ts as [|[|z t] ts]; [discriminate|discriminate|].
  assert (LM : length mdps' = length mdps) by (clear - RL; induction RL; cbn; lia). rewrite LM. destruct (negb (length ((z :: t) :: ts) =? length mdps)%nat) eqn:E0; [discriminate|]. destruct (negb (same_shapes mdps)) eqn:E1; [discriminate|].
  assert (LR : forall m m', relisted p m m' -> length (m_features m') = length (m_features m)) by (intros m m' (P & EF & _); rewrite EF, relist_length; apply Permutation_length in P; now rewrite seq_length in P).
  assert (SS : same_shapes mdps' = same_shapes mdps).
  { destruct RL as [|m m' ms ms' R0 RL]; [reflexivity|]. unfold same_shapes. pose proof (LR m m' R0) as L0. pose proof R0 as (_ & _ & S0 & _). rewrite S0, L0. assert (RL' : Forall2 (relisted p) (m :: ms) (m' :: ms')) by (constructor; assumption). revert RL'. generalize (m' :: ms') as l', (m :: ms) as l. clear - LR. induction 1 as [|u u' us us' R1 RL IH]; [reflexivity|]. cbn [forallb]. rewrite IH, (LR u u' R1). destruct R1 as (_ & _ & -> & _). reflexivity. }
  rewrite SS, E1. destruct mdps as [|m0 ms]; [discriminate E0|]. inversion RL as [|? m0' ? ms' R0 RLS]. subst. inversion HF as [|? ? LF0 HFS]. rewrite (LR m0 m0' R0), LF0 in *.
  assert (FL : forall (x : hyptest) h, starts_ok nF x h -> exists b h2, (match ht_theta x with TNone => (TArr (length h), h ++ [repeat (Some 0) nF]) | t => (t, h) end) = (TArr b, h2) /\ nth b h2 [] = start_weights nF x h /\ (b < length h2)%nat /\ length (nth b h2 []) = nF).
  { clear. intros x h ST. unfold starts_ok, start_weights in *. destruct (ht_theta x) as [| |b]; [|destruct ST|].
    - exists (length h), (h ++ [repeat (Some 0) nF]). rewrite app_nth2, Nat.sub_diag, app_length by lia. cbn [nth length]. split; [reflexivity|]. split; [reflexivity|]. split; [lia|apply repeat_length].
    - exists b, h. split; [reflexivity|]. split; [reflexivity|exact ST]. }
  destruct (FL x h ST) as (b & h2 & EB & NB & LB & LN). destruct (FL x' h' ST') as (b' & h2' & EB' & NB' & LB' & LN'). rewrite EB in E. rewrite EB'. clear FL.
  destruct (run_all c ex (combine (m0 :: ms) ((z :: t) :: ts)) (mkRun (nth b h2 []) 1 []) []) as [[st en] [[]|e]] eqn:ER; [|discriminate].
  pose proof (all_relisted _ _ _ _ _ _ _ _ c p nF ex ex' OC SI (m0 :: ms) (m0' :: ms') RL HF _ (mkRun (nth b h2 []) 1 []) [] st en LN ER) as ER'. unfold run_relist in ER' at 1. cbn [r_w r_n r_log map] in ER'. rewrite NB, <- RS, <- NB' in ER'. match goal with |- context [run_all ?a ?b ?c ?d ?e] => assert (ER2 : run_all a b c d e = (run_relist p st, map (relist p None) en, Ok tt)) by exact ER'; rewrite ER2 end.
  cbn [run_relist r_log r_w]. rewrite map_length. destruct (length (r_log st) =? 0)%nat eqn:EZ; [discriminate|]. match goal with |- context [if ?b then _ else _] => replace b with false by (symmetry; exact EZ) end. apply pair_equal_spec in E. destruct E as [E EO]. apply pair_equal_spec in E. destruct E as [_ EH]. injection EO as EA EL EE. subst.
  eexists _, _, _. split; [reflexivity|]. now rewrite !nth_upd_same by assumption.
Qed.

(** ** Grids *)
Theorem C160_grids : forall k feats w0 shape st p m m', Permutation p (seq 0 (length feats)) -> grid_mdp (A:=R) k feats w0 shape st = Ok m -> grid_mdp (A:=R) k (relist p [] feats) w0 shape st = Ok m' -> relisted p m m'.
Proof.
  intros k feats w0 shape st p m m' P E E'. apply grid_mdp_inv in E, E'. destruct E as (_ & _ & _ & _ & I & W & F & _ & NF & _). destruct E' as (_ & _ & _ & _ & I' & W' & F' & _ & NF' & _).
  split; [now rewrite F|]. split; [now rewrite F', F|]. split; [|split; [|split]].
  - eapply shape3_ext; [exact (inv_shape _ _ _ _ I')|exact (inv_shape _ _ _ _ I)|]. intros s a t Hs Ha Ht. rewrite (inv_get3 _ _ _ _ I), (inv_get3 _ _ _ _ I'), W, W' by assumption. reflexivity.
  - now rewrite (gi_ns _ _ _ _ I), (gi_ns _ _ _ _ I').
  - now rewrite (gi_na _ _ _ _ I), (gi_na _ _ _ _ I').
  - rewrite NF, NF', relist_length. apply Permutation_length in P. now rewrite seq_length in P.
Qed.

(** ** A concrete case *)
(** The grid of [inference_example] and the same grid with its two features listed the other way round. *)
Example C160_example : exists m m' c, grid_mdp (A:=R) Square eye_feats (Some [0; 0; 0; 0; 1; 0]%R) (2, 3)%nat false = Ok m /\ grid_mdp (A:=R) Square (rev eye_feats) (Some [0; 0; 0; 0; 1; 0]%R) (2, 3)%nat false = Ok m' /\
  relisted [1; 0]%nat m m' /\ same_ignored [1; 0]%nat [0]%Z [1]%Z /\ inferable m [[3; 0; 1; 2; 5]; [2; 1]]%Z /\ matchable 2 [m; m] [[3; 0; 1; 2; 5]; [2; 1]]%Z /\ maxent_ok (3 / 10) 1 50 (1 / 100000000) (9 / 10) 500 true c /\
  exists x1 h1 a w x1' h1' a', fit_maxent c m [[3; 0; 1; 2; 5]; [2; 1]]%Z (IgnoreList [0]%Z) (fst (new_maxent c None [])) [] = (x1, h1, Ok (a, w)) /\
    fit_maxent c m' [[3; 0; 1; 2; 5]; [2; 1]]%Z (IgnoreList [1]%Z) (fst (new_maxent c None [])) [] = (x1', h1', Ok (a', w)) /\ nth a' h1' [] = [nth 1 (nth a h1 []) 0; nth 0 (nth a h1 []) 0].
Proof.
  destruct inference_example as (m & c & E & IN & _ & OK & _ & _ & _ & _ & MA & _).
  destruct (grid_mdp_ok Square (rev eye_feats) (Some [0; 0; 0; 0; 1; 0]%R) (2, 3)%nat false) as (m' & E' & _); [cbn; lia|repeat constructor|reflexivity|repeat constructor; (now left) || (now right)|].
  assert (RL : relisted [1; 0]%nat m m') by (eapply C160_grids; [|exact E|exact E']; cbn; constructor).
  assert (SI : same_ignored [1; 0]%nat [0]%Z [1]%Z). { split; [repeat constructor; cbn; lia|]. split; [repeat constructor; cbn; lia|]. intros [|[|j]] Hj; cbn in *; [| |lia]; split; intros [X|[]]; (discriminate X || (left; reflexivity)). }
  exists m, m', c. split; [exact E|]. split; [exact E'|]. split; [exact RL|]. split; [exact SI|]. split; [exact IN|]. split; [exact MA|]. split; [exact OK|].
  assert (NF : m_n_features m = 2%nat /\ m_n_features m' = 2%nat). { apply grid_mdp_inv in E, E'. destruct E as (_ & _ & _ & _ & _ & _ & _ & _ & -> & _). destruct E' as (_ & _ & _ & _ & _ & _ & _ & _ & -> & _). split; reflexivity. }
  destruct (C160_maxent _ _ _ _ _ _ _ c [1; 0]%nat m m' _ [0]%Z [1]%Z (fst (new_maxent c None [])) [] (fst (new_maxent c None [])) [] OK ltac:(lia) IN RL SI I I eq_refl) as (x1 & h1 & a & w & x1' & h1' & a' & A1 & A2 & A3 & _).
  { unfold initial. cbn [new_maxent fst x_theta]. destruct NF as [-> ->]. reflexivity. }
  exists x1, h1, a, w, x1', h1', a'. split; [exact A1|]. split; [exact A2|]. exact A3.
Qed.
