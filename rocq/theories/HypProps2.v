(** Hypothesis testing: absent features (C92), splitting trajectories (C94), ignored features (C53), shared arrays (C85, C86),
    resets (C50), and grids. *)
From Coq Require Import List ZArith Reals Bool Lia Lra.
From Verif Require Import PyBase PyProofs ActionModel ActionSpec RSum ActionProofs MDPModel MDPSpec MDPProofs MDPProofs2 MDPProofs3 EnvProofs3 VIModel VISpec VIProofs VIProofs2 VIProps VIEnvProps MCTSModel MCTSProofs MCTSProps IRLModel IRLFit IRLEye IRLLook IRLGrids HypModel HypProofs HypObs HypRun HypProps.
Import ListNotations.
Local Open Scope R_scope.

(** ** Features that are nowhere *)
Definition zero (l : list R) : Prop := Forall (fun y => y = 0) l.
Lemma dot_zero : forall u v, zero v -> dot u v = 0.
Proof.
  intros u v Z. unfold dot. rewrite nsum_Rsum. change (sumf (fun '(x, y) => nmul x y) (combine u v) = 0). apply sumf_0. intros [x y] I. apply in_combine_r in I. unfold zero in Z. rewrite Forall_forall in Z. rewrite (Z y I). cbn [nmul NumR]. ring.
Qed.
Lemma zero_max : forall l, l <> [] -> zero l -> hard_backup l = Ok 0.
Proof.
  intros [|y l] NE Z; [congruence|]. inversion_clear Z as [|? ? E Z']. subst y. cbn [hard_backup]. f_equal. induction Z' as [|y l -> _ IH]; [reflexivity|]. cbn [fold_left]. replace (nmax 0 0) with 0; [apply IH; discriminate|]. unfold nmax. cbn [nltb NumR]. now rewrite (proj2 (Rltb_false 0 0)) by lra.
Qed.
Lemma zero_upd : forall A (P : A -> Prop) l i y, Forall P l -> P y -> Forall P (upd l i y).
Proof. intros A P l i y F Py. revert i. induction F as [|z l Pz F IH]; intros [|i]; cbn [upd]; constructor; auto. Qed.
Lemma zero_sweep : forall sas reward g values, (0 < n_actions sas)%nat -> zero reward -> zero values -> exists v d q, state_value_iterator hard_backup values 0 reward g sas = Ok (v, d, q) /\ zero v /\ Forall zero q.
Proof.
  intros sas reward g values NA ZR ZV. unfold state_value_iterator.
  destruct (foldM_seq_inv _ (sweep_state hard_backup reward g sas) (fun _ b => zero (fst (fst b)) /\ Forall zero (snd b)) (length sas) (values, 0, zeros2 (length sas) (length (nth 0 sas [])))) as ([[v d] q] & E & Z1 & Z2).
  - cbn [fst snd]. split; [exact ZV|]. unfold zeros2, zeros1. apply Forall_forall. intros l Hl. apply repeat_spec in Hl. subst l. apply Forall_forall. intros y Hy. now apply repeat_spec in Hy.
  - intros i [[v d] q] _ [Z1 Z2]. cbn [fst snd] in Z1, Z2. cbn [sweep_state]. set (av := state_action_values i (length (nth 0 sas [])) sas reward g v). assert (ZA : zero av).
    { unfold av, state_action_values. apply Forall_forall. intros y Hy. apply in_map_iff in Hy. destruct Hy as (a & <- & _). apply dot_zero. apply Forall_forall. intros y Hy. apply in_map_iff in Hy. destruct Hy as ([r u] & <- & Hc). unfold zero in ZR, Z1. rewrite Forall_forall in ZR, Z1. pose proof (ZR _ (in_combine_l _ _ _ _ Hc)). pose proof (Z1 _ (in_combine_r _ _ _ _ Hc)). subst. cbn [nadd nmul NumR]. ring. }
    rewrite zero_max; [|intros E; assert (X : length av = n_actions sas) by (unfold av, state_action_values; now rewrite map_length, seq_length); rewrite E in X; cbn in X; lia|exact ZA]. cbn [bind]. eexists. split; [reflexivity|]. cbn [fst snd]. split; apply zero_upd; auto.
  - exists v, d, q. auto.
Qed.
Lemma zero_loop : forall sas reward g tol k values q0 r, (0 < n_actions sas)%nat -> zero reward -> zero values -> (match q0 with Some q => Forall zero q | None => True end) -> vi_loop hard_backup k values q0 reward g sas tol = Ok r -> match snd r with Some q => Forall zero q | None => True end.
Proof.
  intros sas reward g tol. induction k as [|k IH]; intros values q0 r NA ZR ZV ZQ E; cbn [vi_loop] in E.
  - assert (r = (values, q0)) as -> by congruence. exact ZQ.
  - change (@n0 R NumR) with 0 in E. destruct (zero_sweep sas reward g values NA ZR ZV) as (v & d & q & ES & Z1 & Z2). rewrite ES in E. cbn [bind] in E. destruct (nltb d tol); [assert (r = (v, Some q)) as -> by congruence; exact Z2|]. eapply IH; [exact NA|exact ZR|exact Z1| |exact E]. exact Z2.
Qed.
(** A feature that is in no state: no value for anyone who wants only that. *)
Definition absent (m : mdp R) (f : nat) : Prop := zero (nth f (m_features m) []).
Lemma absent_values : forall tol g K m f q s b x, is_mdp (m_sas m) -> absent m f -> values_for false tol g K m f q -> nth b (nth s q []) NaN = Fin x -> x = 0.
Proof.
  intros tol g K m f q s b x M AB (v & E) EX. unfold solve_value_iteration in E. destruct (negb _) in E; [discriminate|]. destruct (negb _) in E; [discriminate|]. cbv zeta in E. set (rw := state_rewards _ _ _) in E. assert (ZR : zero rw).
  { apply Forall_forall. intros y Hy. unfold rw, state_rewards in Hy. apply in_map_iff in Hy. destruct Hy as (t & <- & _). rewrite nsum_Rsum. change (sumf (fun '(w, row) => nmul w (nth t row n0)) (combine (only_feature (length (m_features m)) f) (m_features m)) = 0). apply sumf_0. intros [w row] Ic. apply (In_nth _ _ (0, [])) in Ic. destruct Ic as (i & Li & Ei). rewrite combine_nth in Ei by apply only_length. cbn [nmul n0 NumR].
    rewrite combine_length, only_length, Nat.min_id in Li. assert (EW : w = if (i =? f)%nat then 1 else 0) by (assert (X : nth i (only_feature (length (m_features m)) f) 0 = w) by congruence; unfold only_feature in X; rewrite (nth_map_lt _ _ _ _ _ _ 0%nat) in X by (now rewrite seq_length); rewrite seq_nth0 in X by exact Li; congruence). destruct (Nat.eqb_spec i f) as [->|N]; [|subst w; ring].
    assert (ER : nth f (m_features m) [] = row) by congruence. unfold absent in AB. rewrite ER in AB. destruct (Nat.lt_ge_cases t (length row)) as [L|L]; [|rewrite nth_overflow by exact L; ring]. unfold zero in AB. rewrite Forall_forall in AB. rewrite (AB _ (nth_In _ _ L)). ring. }
  destruct (vi_loop _ _ _ _ _ _ _ _) as [[v' qo]|e] eqn:EL in E; [|discriminate]. cbn [bind] in E. assert (ZZ : zero (zeros1 (length (m_sas m)))) by (apply Forall_forall; intros y Hy; exact (repeat_spec _ _ _ Hy)). pose proof (zero_loop _ _ _ _ _ _ None _ (proj1 M) ZR ZZ I EL) as Z. cbn [snd] in Z. destruct qo as [q'|]; [|discriminate]. assert (EQ : q = mask_q (m_sas m) q') by congruence. subst q. clear E EL.
  unfold mask_q in EX. set (rows := combine (m_sas m) q') in EX. destruct (Nat.lt_ge_cases s (length rows)) as [Ls|Ls]; [|rewrite (nth_overflow (map _ rows)) in EX by (now rewrite map_length); destruct b; discriminate]. rewrite (nth_map_lt _ _ _ _ _ _ ([], [])) in EX by exact Ls. destruct (nth s rows ([], [])) as [mat row] eqn:ER. assert (ZW : zero row) by (assert (In (mat, row) rows) by (rewrite <- ER; now apply nth_In); unfold rows in H; apply in_combine_r in H; rewrite Forall_forall in Z; now apply Z).
  destruct (Nat.lt_ge_cases b (length (combine mat row))) as [Lb|Lb]; [|rewrite nth_overflow in EX by (now rewrite map_length); discriminate]. rewrite (nth_map_lt _ _ _ _ _ _ ([], 0)) in EX by exact Lb. destruct (nth b (combine mat row) ([], 0)) as [trans y] eqn:EB. destruct (neqb _ _); [discriminate|]. assert (x = y) by congruence. subst y. assert (I : In (trans, x) (combine mat row)) by (rewrite <- EB; now apply nth_In). apply in_combine_r in I. unfold zero in ZW. rewrite Forall_forall in ZW. now apply ZW.
Qed.
(** Without soft values, the estimate for a feature becomes NaN with the first move in an MDP in which the feature is absent. *)
Theorem C92_absent_feature_refuted : forall lr decay asym tol g K c nF mdps ts ex x h i f, hyp_ok lr decay asym tol g K false ZScore c -> testable nF mdps ts -> starts_ok nF x h -> (f < nF)%nat ->
  (1 < length (nth i ts []))%nat -> absent (nth i mdps (blank_mdp None)) f ->
  exists x' h' a log ends, fit_hyptest c mdps (map (map Z.of_nat) ts) ex x h = (x', h', Ok (a, log, ends)) /\ length (nth a h' []) = nF /\ nth f (nth a h' []) None = None.
Proof.
  intros lr decay asym tol g K c nF mdps ts ex x h i f OK T ST Hf Hi AB. destruct (C90_other_normalisation_partial _ _ _ _ _ _ _ _ _ _ _ _ ex x h OK ltac:(discriminate) T (starts_obj _ _ _ ST)) as (x' & h' & a & log & ends & E). exists x', h', a, log, ends. split; [exact E|].
  pose proof (testable_features _ _ _ T) as FM. destruct (fit_course _ _ _ _ _ _ _ _ _ _ _ _ E FM ST) as (rs & F & L & FR & LA & EL & NE & L0 & LN & H). split; [rewrite EL, (last_nth log (start_weights nF x h) NE); now apply LN|].
  destruct (nth f (nth a h' []) None) as [w|] eqn:EW; [exfalso|reflexivity]. destruct (proj1 (C92_numbers_partial _ _ _ _ _ _ _ _ _ _ _ _ E FM ST f Hf)) as [_ N]; [congruence|]. set (p := (nth i mdps (blank_mdp None), (Z.of_nat (nth 0 (nth i ts []) 0%nat), Z.of_nat (nth 1 (nth i ts []) 0%nat)))).
  pose proof (all_moves_nth _ _ _ _ 0%nat T Hi) as IP. fold p in IP. destruct T as (_ & _ & (n & na & FA) & MV & _). destruct (MV i 0%nat Hi) as (H1 & H2 & H3). assert (IM : In (fst p) mdps) by (eapply all_moves_mdp; exact IP). rewrite Forall_forall in FA. destruct (FA _ IM) as (M1 & M2 & M3 & _ & M5).
  destruct (C91_evidence _ _ _ _ _ _ _ _ (fst p) ex (nth 0 (nth i ts []) 0%nat) (nth 1 (nth i ts []) 0%nat) OK M1 ltac:(congruence) H1 H2 H3) as (b & r & q & ER & _ & LR & HR). assert (EV : evidence c ex p r) by (exists q; exact ER). apply (N p r IP EV). destruct (HR f ltac:(congruence)) as [R1 R2]. destruct (in_dec Z.eq_dec (Z.of_nat f) ex) as [I|I]; [auto|]. destruct (R2 I) as (qf & y & opts & VF & _ & _ & FV & (S1 & _)).
  apply S1. intros b1 b2 I1 I2. rewrite (absent_values _ _ _ (fst p) f qf _ b1 (y b1) M1 AB VF (FV _ I1)), (absent_values _ _ _ (fst p) f qf _ b2 (y b2) M1 AB VF (FV _ I2)). reflexivity.
Qed.

(** ** C94: only the moves matter *)
(** Two ways of giving the same moves, in the same order: same estimates after every move, same state of the learner. *)
Theorem C94_moves : forall c mdps ts mdps' ts' ex x h x1 h1 a log ends, all_moves mdps ts = all_moves mdps' ts' -> length ts' = length mdps' -> hd [] ts' <> [] -> same_shapes mdps' = true ->
  fit_hyptest c mdps ts ex x h = (x1, h1, Ok (a, log, ends)) -> exists ends', fit_hyptest c mdps' ts' ex x h = (x1, h1, Ok (a, log, ends')).
Proof.
  intros c mdps ts mdps' ts' ex x h x1 h1 a log ends EM L T0 SS E. pose proof E as E0. apply hyp_fit_spec in E0. destruct E0 as (L1 & S1 & _ & _ & _ & _ & rs & F & NE & _).
  assert (EN : n_feats mdps' = n_feats mdps). { destruct (all_moves mdps ts) as [|p l] eqn:EA; [exfalso; apply NE; now inversion F|]. assert (I1 : In (fst p) mdps) by (apply (all_moves_mdp mdps ts); rewrite EA; now left). assert (I2 : In (fst p) mdps') by (apply (all_moves_mdp mdps' ts'); rewrite <- EM; now left). pose proof (same_shapes_features _ S1) as X1. pose proof (same_shapes_features _ SS) as X2. rewrite Forall_forall in X1, X2. rewrite <- (X1 _ I1), <- (X2 _ I2). reflexivity. }
  unfold fit_hyptest in E |- *. destruct ts as [|t ts]; [congruence|]. destruct t as [|z t]; [congruence|]. destruct ts' as [|t' ts']; [now elim T0|]. destruct t' as [|z' t']; [now elim T0|]. rewrite (proj2 (Nat.eqb_eq _ _) L), SS. rewrite (proj2 (Nat.eqb_eq _ _) L1), S1 in E. cbn [negb] in E |- *. fold (n_feats mdps) in E. fold (n_feats mdps'). rewrite EN.
  assert (GO : forall b hh, let g0 := (fun l => let '(st, ends0, res) := run_all c ex l (mkRun (nth b hh []) 1 []) [] in let h2 := upd hh b (r_w st) in match res with Ok _ => if (length (r_log st) =? 0)%nat then (x, h2, Err ValueError) else (mkHt (TArr b) (ht_orig x), h2, Ok (b, r_log st, ends0)) | Err e => (x, h2, Err e) end) in
    g0 (combine mdps ((z :: t) :: ts)) = (x1, h1, Ok (a, log, ends)) -> exists ends', g0 (combine mdps' ((z' :: t') :: ts')) = (x1, h1, Ok (a, log, ends'))).
  { clear E. intros b hh g0 E. unfold g0 in *. clear g0. pose proof (run_all_walk c ex (combine mdps ((z :: t) :: ts)) (mkRun (nth b hh []) 1 []) []) as W1. pose proof (run_all_walk c ex (combine mdps' ((z' :: t') :: ts')) (mkRun (nth b hh []) 1 []) []) as W2. unfold all_moves in EM. rewrite <- EM, <- W1 in W2. clear W1.
    destruct (run_all _ _ (combine mdps _) _ _) as [[st e1] r1]. destruct (run_all _ _ (combine mdps' _) _ _) as [[st' e2] r2]. cbn [fst snd] in W2. assert (st' = st) by congruence. assert (r2 = r1) by congruence. subst st' r2. cbv zeta in *. destruct r1 as [u|e]; [|congruence]. destruct (length (r_log st) =? 0)%nat; [congruence|]. exists e2. inversion E. reflexivity. }
  destruct (ht_theta x) as [| |b]; [apply (GO _ _ E)|congruence|apply (GO _ _ E)].
Qed.
Lemma moves_split : forall u s v, moves (u ++ s :: v) = moves (u ++ [s]) ++ moves (s :: v).
Proof.
  induction u as [|y u IH]; intros s v; [reflexivity|]. destruct u as [|y' u]; [destruct v; reflexivity|]. change (moves ((y :: y' :: u) ++ s :: v)) with ((y, y') :: moves ((y' :: u) ++ s :: v)). change (moves ((y :: y' :: u) ++ [s])) with ((y, y') :: moves ((y' :: u) ++ [s])). rewrite IH. reflexivity.
Qed.
(** In particular a trajectory can be cut in two at any of its states, which then belongs to both parts. *)
Theorem C94_split : forall c mpre m mpost pre u s v post ex x h x1 h1 a log ends, length pre = length mpre -> 
  fit_hyptest c (mpre ++ m :: mpost) (pre ++ (u ++ s :: v) :: post) ex x h = (x1, h1, Ok (a, log, ends)) -> exists ends', fit_hyptest c (mpre ++ m :: m :: mpost) (pre ++ (u ++ [s]) :: (s :: v) :: post) ex x h = (x1, h1, Ok (a, log, ends')).
Proof.
  intros c mpre m mpost pre u s v post ex x h x1 h1 a log ends LP E. pose proof E as E0. apply hyp_fit_spec in E0. destruct E0 as (L1 & S1 & _). eapply C94_moves; [| | | |exact E].
  - unfold all_moves. assert (CA : forall A B (p1 : list A) (p2 : list B) q1 q2, length p1 = length p2 -> combine (p1 ++ q1) (p2 ++ q2) = combine p1 p2 ++ combine q1 q2) by (clear; induction p1 as [|a p1 IH]; intros [|b p2] q1 q2 L; cbn in *; try lia; [reflexivity|]; rewrite IH by lia; reflexivity).
    rewrite !CA by (now symmetry). rewrite !map_app, !concat_app. f_equal. cbn [combine map concat fst snd]. rewrite moves_split, map_app, app_assoc. reflexivity.
  - rewrite !app_length in *. cbn [length] in *. lia.
  - destruct pre as [|t pre]; [cbn [app hd]; now destruct u|]. cbn [app hd] in *. destruct t; [|discriminate]. cbn [fit_hyptest] in E. congruence.
  - unfold same_shapes in *. destruct mpre as [|m0 mpre]; cbn [app] in *; rewrite forallb_forall in S1 |- *; intros y Hy; apply S1; cbn [In] in *; rewrite in_app_iff in * || idtac; cbn [In] in *; tauto.
Qed.
(** One row of weights for each move; the weights after the moves so far for each trajectory. *)
Lemma run_all_ends : forall c ex l st ends st' ends', run_all c ex l st ends = (st', ends', Ok tt) -> length ends' = (length ends + length l)%nat /\
  (forall k, (k < length ends)%nat -> nth k ends' [] = nth k ends []) /\
  forall k, (k < length l)%nat -> exists st1, walk c ex (concat (map (fun p => map (pair (fst p)) (moves (snd p))) (firstn (S k) l))) st = (st1, Ok tt) /\ nth (length ends + k) ends' [] = r_w st1.
Proof.
  intros c ex. induction l as [|[m t] l IH]; intros st ends st' ends' E; cbn [run_all] in E.
  - assert (ends' = ends) as -> by congruence. split; [cbn; lia|]. split; [auto|]. intros k Hk. cbn in Hk. lia.
  - pose proof (run_moves_walk c ex m (moves t) None st I) as RW. destruct (run_moves c m ex None (moves t) st) as [st1 [u|e]] eqn:ER; [|congruence]. destruct u. destruct (IH _ _ _ _ E) as (H1 & H2 & H3). rewrite app_length in H1, H2, H3. cbn [length] in *. split; [lia|]. split; [intros k Hk; rewrite H2 by lia; now apply app_nth1|]. intros [|k] Hk.
    + exists st1. cbn [firstn map concat fst snd]. rewrite app_nil_r, <- RW. split; [reflexivity|]. rewrite Nat.add_0_r, H2 by lia. rewrite app_nth2, Nat.sub_diag by lia. reflexivity.
    + destruct (H3 k ltac:(lia)) as (st2 & W & EN). exists st2. change (firstn (S (S k)) ((m, t) :: l)) with ((m, t) :: firstn (S k) l). cbn [map concat fst snd]. rewrite walk_app, <- RW. split; [exact W|]. rewrite <- EN. f_equal. lia.
Qed.
Theorem C94_rows : forall c mdps ts ex x h x' h' a log ends, fit_hyptest c mdps ts ex x h = (x', h', Ok (a, log, ends)) ->
  length log = length (concat (map moves ts)) /\ length ends = length ts /\
  forall k, (k < length ts)%nat -> nth k ends [] = nth (length (concat (map moves (firstn (S k) ts)))) (start_weights (n_feats mdps) x h :: log) [].
Proof.
  intros c mdps ts ex x h x' h' a log ends E. pose proof E as E0. apply hyp_fit_spec in E0. destruct E0 as (L & SS & _ & _ & _ & HA & rs & F & NE & LN & _).
  assert (CL : forall k, length (concat (map (fun p : mdp R * list Z => map (pair (fst p)) (moves (snd p))) (firstn k (combine mdps ts)))) = length (concat (map moves (firstn k ts)))).
  { clear -L. revert ts L. induction mdps as [|m mdps IH]; intros [|t ts] L k; cbn in L; try lia; [now destruct k|]. destruct k as [|k]; [reflexivity|]. cbn [combine firstn map concat fst snd]. rewrite !app_length, map_length, IH by lia. reflexivity. }
  split; [destruct LN as [LL _]; rewrite LL, <- (F2_len _ _ _ _ _ F); unfold all_moves; specialize (CL (length ts)); rewrite !firstn_all2 in CL by (rewrite ?combine_length; lia); exact CL|].
  assert (GO : forall b hh, (let '(st, ends0, res) := run_all c ex (combine mdps ts) (mkRun (nth b hh []) 1 []) [] in let h2 := upd hh b (r_w st) in match res with Ok _ => if (length (r_log st) =? 0)%nat then (x, h2, Err ValueError) else (mkHt (TArr b) (ht_orig x), h2, Ok (b, r_log st, ends0)) | Err e => (x, h2, Err e) end) = (x', h', Ok (a, log, ends)) -> nth b hh [] = start_weights (n_feats mdps) x h ->
    length ends = length ts /\ forall k, (k < length ts)%nat -> nth k ends [] = nth (length (concat (map moves (firstn (S k) ts)))) (start_weights (n_feats mdps) x h :: log) []).
  { clear E. intros b hh E EW. pose proof (run_all_walk c ex (combine mdps ts) (mkRun (nth b hh []) 1 []) []) as RW. destruct (run_all _ _ _ _ _) as [[st ends0] [u|e]] eqn:ER; cbv zeta in E; [|congruence]. destruct u. destruct (length (r_log st) =? 0)%nat; [congruence|]. assert (ends0 = ends) by congruence. assert (r_log st = log) by congruence. subst ends0 log. cbn [fst snd] in RW. destruct (run_all_ends _ _ _ _ _ _ _ ER) as (H1 & _ & H3). cbn [length Nat.add] in *. rewrite combine_length in H1, H3. split; [lia|]. intros k Hk.
    destruct (H3 k ltac:(lia)) as (st1 & W1 & ->). destruct (walk_spec _ _ _ _ _ W1) as (r1 & F1 & S1). rewrite <- (firstn_skipn (S k) (combine mdps ts)), map_app, concat_app, walk_app, W1 in RW. symmetry in RW. destruct (walk_spec _ _ _ _ _ RW) as (r2 & F2 & S2).
    destruct (record_spec c r1 (mkRun (nth b hh []) 1 [])) as (_ & A2 & _ & _ & A5). rewrite <- S1 in A2, A5. cbn [r_log r_w length Nat.add skipn] in A2, A5. destruct (record_spec c r2 st1) as (_ & B2 & B3 & _ & _). rewrite <- S2 in B2, B3. rewrite A5. rewrite <- (CL (S k)), (F2_len _ _ _ _ _ F1), <- EW. destruct (length r1) as [|j] eqn:EJ; [reflexivity|]. cbn [nth]. symmetry. apply B3. lia. }
  unfold fit_hyptest in E. destruct ts as [|t ts]; [congruence|]. destruct t as [|z t]; [congruence|]. rewrite (proj2 (Nat.eqb_eq _ _) L), SS in E. cbn [negb] in E. fold (n_feats mdps) in E. unfold start_weights in *. destruct (ht_theta x) as [| |b]; [|congruence|].
  - apply (GO _ _ E). rewrite app_nth2, Nat.sub_diag by lia. reflexivity.
  - apply (GO _ _ E). reflexivity.
Qed.
