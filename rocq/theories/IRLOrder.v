(** Whether the order in which trajectories are given matters to inference: C154 and C155. *)
From Coq Require Import List ZArith QArith Reals Bool Lia Lra Permutation.
From Verif Require Import PyBase PyProofs ActionModel ActionSpec RSum ActionProofs GridModel MDPModel VIModel VISpec VIProofs VIProofs2 VIProps PLSpec PLProofs PLProps2 IRLModel IRLVisit IRLPolicy IRLMatch IRLExpect IRLMaxEnt IRLFit IRLProps IRLEye IRLLook IRLGrids MDPProps MDPProofs2 MDPProofs3.
Import ListNotations.
Local Close Scope Q_scope.
Local Open Scope R_scope.

(** ** Sums and steps in another order *)
Lemma sumf_permutation : forall X (f : X -> R) l l', Permutation l l' -> sumf f l = sumf f l'.
Proof. intros X f l l' P. induction P; rewrite ?sumf_cons; [reflexivity|now rewrite IHP|lra|congruence]. Qed.
Lemma foldM_permutation : forall S X (step : S -> X -> res S), (forall x y s r, (let* a := step s x in step a y) = Ok r -> (let* a := step s y in step a x) = Ok r) ->
  forall l l', Permutation l l' -> forall s r, foldM step l s = Ok r -> foldM step l' s = Ok r.
Proof.
  intros S X step C l l' P. induction P as [|x l l' P IH|x y l|l1 l2 l3 P1 IH1 P2 IH2]; intros s r H; [exact H| | |auto].
  - cbn [foldM] in *. destruct (step s x) as [a|e]; cbn [bind] in *; [auto|exact H].
  - cbn [foldM] in *. destruct (step s y) as [a|e] eqn:E1; cbn [bind] in H; [|discriminate]. destruct (step a x) as [b|e] eqn:E2; cbn [bind] in H; [|discriminate].
    pose proof (C y x s b ltac:(rewrite E1; exact E2)) as E. destruct (step s x) as [a'|e]; cbn [bind] in E |- *; [|discriminate]. rewrite E. exact H.
Qed.
Lemma vadd_swap : forall u v w : list R, vadd (vadd u v) w = vadd (vadd u w) v.
Proof. induction u as [|x u IH]; intros [|y v] [|z w]; try reflexivity. unfold vadd in *. cbn [combine map]. rewrite IH. f_equal. cbn [nadd NumR]. ring. Qed.
Lemma concat_permutation : forall X Y (f : X -> list Y) l l', Permutation l l' -> Permutation (concat (map f l)) (concat (map f l')).
Proof.
  intros X Y f l l' P. induction P; cbn [map concat].
  - constructor.
  - now apply Permutation_app_head.
  - rewrite !app_assoc. apply Permutation_app_tail, Permutation_app_comm.
  - eapply perm_trans; eassumption.
Qed.

(** ** C154: learners that add features up *)
(** Matching features: [(mdps, ts)] and [(mdps', ts')] are the same pairs of an MDP and a trajectory in another order. *)
Theorem C154_matching : forall nF mdps ts mdps' ts', matchable nF mdps ts -> matchable nF mdps' ts' -> Permutation (combine mdps ts) (combine mdps' ts') ->
  fit_matching mdps ts [] = fit_matching mdps' ts' [].
Proof.
  intros nF mdps ts mdps' ts' H H' P. destruct (C54_counts _ _ _ H) as (th & E & L & V). destruct (C54_counts _ _ _ H') as (th' & E' & L' & V'). rewrite E, E'. f_equal.
  apply (nth_ext _ _ 0 0); [congruence|]. intros f Hf. rewrite V, V' by congruence. now apply sumf_permutation.
Qed.
(** Lines of sight: the totals over several trajectories, as they are or normalised. *)
Theorem C154_sight : forall fuel (m : mdp R) ts ts' norm th, Permutation ts ts' -> trajectory_eyeline fuel m ts norm = Ok th -> trajectory_eyeline fuel m ts' norm = Ok th.
Proof.
  intros fuel m ts ts' norm th P E. unfold trajectory_eyeline in *. match type of E with (let* v := foldM ?st _ _ in _) = _ => set (step := st) in * end.
  destruct (foldM step (concat (map moves ts)) (zeros1 (m_n_features m))) as [v|e] eqn:EF; cbn [bind] in E; [|discriminate].
  rewrite (foldM_permutation _ _ step) with (l := concat (map moves ts)) (r := v); [exact E| |now apply concat_permutation|exact EF].
  clear. intros p q s r H. unfold step in *. destruct (pair_action m (fst p) (snd p)) as [a|e]; cbn [bind] in *; [|discriminate]. destruct (get_eyeline_features fuel m (fst p) a) as [f|e]; cbn [bind] in *; [|discriminate].
  destruct (pair_action m (fst q) (snd q)) as [a'|e]; cbn [bind] in *; [|discriminate]. destruct (get_eyeline_features fuel m (fst q) a') as [f'|e]; cbn [bind] in *; [|discriminate]. rewrite <- H. f_equal. apply vadd_swap.
Qed.
(** What is seen less what would have been seen after other actions. *)
Definition adds (F : list (list R) * list (list R)) (cu : list R * list R) : list R * list R := (fold_left vadd (fst F) (fst cu), fold_left vadd (snd F) (snd cu)).
Lemma fold_vadd_swap1 : forall l v w, fold_left vadd l (vadd v w) = vadd (fold_left vadd l v) w :> list R.
Proof. induction l as [|x l IH]; intros v w; [reflexivity|]. cbn [fold_left]. rewrite vadd_swap. apply IH. Qed.
Lemma fold_vadd_swap : forall l l' v, fold_left vadd l (fold_left vadd l' v) = fold_left vadd l' (fold_left vadd l v) :> list R.
Proof. intros l l'. induction l' as [|x l' IH]; intros v; [reflexivity|]. cbn [fold_left]. rewrite IH. now rewrite fold_vadd_swap1. Qed.
Lemma adds_swap : forall F G cu, adds F (adds G cu) = adds G (adds F cu).
Proof. intros. unfold adds. cbn [fst snd]. now rewrite (fold_vadd_swap (fst F)), (fold_vadd_swap (snd F)). Qed.
Lemma inner_adds : forall fuel (m : mdp R) s ca l, (exists F, forall cu, foldM (fun '(c, u) a => let* f := get_eyeline_features fuel m s a in Ok (if (a =? ca)%nat then (vadd c f, u) else (c, vadd u f))) l cu = Ok (adds F cu)) \/
  (exists e, forall cu, foldM (fun '(c, u) a => let* f := get_eyeline_features fuel m s a in Ok (if (a =? ca)%nat then (vadd c f, u) else (c, vadd u f))) l cu = Err e).
Proof.
  intros fuel m s ca l. induction l as [|a l IH]; [left; exists ([], []); intros [c u]; reflexivity|]. destruct (get_eyeline_features fuel m s a) as [f|e] eqn:EF.
  - destruct IH as [(F & IH)|(e & IH)].
    + left. destruct (a =? ca)%nat eqn:EA; [exists (f :: fst F, snd F)|exists (fst F, f :: snd F)]; intros [c u]; cbn [foldM]; rewrite EF; cbn [bind]; rewrite EA, IH; reflexivity.
    + right. exists e. intros [c u]. cbn [foldM]. rewrite EF. cbn [bind]. destruct (a =? ca)%nat; apply IH.
  - right. exists e. intros [c u]. cbn [foldM]. rewrite EF. reflexivity.
Qed.
Theorem C154_difference : forall fuel (m : mdp R) ts ts' norm th, Permutation ts ts' -> trajectory_eyeline_diff fuel m ts norm = Ok th -> trajectory_eyeline_diff fuel m ts' norm = Ok th.
Proof.
  intros fuel m ts ts' norm th P E. unfold trajectory_eyeline_diff in *. match type of E with (let* _ := foldM ?st _ _ in _) = _ => set (step := st) in * end.
  destruct (foldM step (concat (map moves ts)) (zeros1 (m_n_features m), zeros1 (m_n_features m))) as [v|e] eqn:EF; cbn [bind] in E; [|discriminate].
  rewrite (foldM_permutation _ _ step) with (l := concat (map moves ts)) (r := v); [exact E| |now apply concat_permutation|exact EF].
  clear. intros p q s r H. unfold step in *. destruct (pair_action m (fst p) (snd p)) as [a|e]; cbn [bind] in *; [|discriminate].
  destruct (inner_adds fuel m (fst p) a (seq 0 (m_n_actions m - 1))) as [(F & EF)|(e & EF)]; [|rewrite EF in H; discriminate]. rewrite EF in H. cbn [bind] in H.
  destruct (pair_action m (fst q) (snd q)) as [a'|e]; cbn [bind] in *; [|discriminate].
  destruct (inner_adds fuel m (fst q) a' (seq 0 (m_n_actions m - 1))) as [(G & EG)|(e & EG)]; [|rewrite EG in H; discriminate]. rewrite EG in *. cbn [bind]. rewrite EF. now rewrite adds_swap.
Qed.
(** Both learners, fitted to a list of MDPs with one trajectory each, from nothing or from an earlier estimate. *)
Lemma fit_pairs : forall (count : mdp R -> list (list Z) -> res (list R)) mdps ts n th, length ts = (n + length mdps)%nat ->
  foldM (fun th '(n, m) => match nth_error ts n with None => Err IndexError | Some t => let* f := count m [t] in if (length f =? length th)%nat then Ok (vadd th f) else Err ValueError end) (combine (seq n (length mdps)) mdps) th =
  foldM (fun th p => let* f := count (fst p) [snd p] in if (length f =? length th)%nat then Ok (vadd th f) else Err ValueError) (combine mdps (skipn n ts)) th.
Proof.
  intros count. induction mdps as [|m mdps IH]; intros ts n th L; [reflexivity|]. cbn [length] in *. cbn [seq combine foldM].
  assert (N : (n < length ts)%nat) by lia. assert (SK : skipn n ts = nth n ts [] :: skipn (S n) ts).
  { clear - N. revert ts N. induction n as [|n IH]; intros [|t ts] N; cbn [length] in N; try lia; [reflexivity|]. cbn [nth]. change (skipn (S n) (t :: ts)) with (skipn n ts). change (skipn (S (S n)) (t :: ts)) with (skipn (S n) ts). apply IH. lia. }
  rewrite SK, (nth_error_nth' ts [] N). cbn [combine foldM fst snd]. destruct (count m [nth n ts []]) as [f|e]; cbn [bind]; [|reflexivity]. destruct (length f =? length th)%nat; cbn [bind]; [|reflexivity]. apply IH. lia.
Qed.
Theorem C154_learners : forall (count : mdp R -> list (list Z) -> res (list R)) nF mdps ts mdps' ts' reset theta th, length ts = length mdps -> length ts' = length mdps' -> Permutation (combine mdps ts) (combine mdps' ts') ->
  Forall (fun m => m_n_features m = nF) mdps -> fit_simple count mdps ts reset theta = Ok th -> fit_simple count mdps' ts' reset theta = Ok th.
Proof.
  intros count nF mdps ts mdps' ts' reset theta th L L' P NF E. unfold fit_simple in *.
  assert (LM : length mdps = length mdps') by (apply Permutation_length in P; rewrite !combine_length in P; lia).
  assert (ST : match theta, reset with Some th, false => Ok th | _, _ => match mdps with [] => Err IndexError | m0 :: _ => Ok (zeros1 (m_n_features m0)) end end =
    match theta, reset with Some th, false => Ok th | _, _ => match mdps' with [] => Err IndexError | m0 :: _ => Ok (zeros1 (m_n_features m0)) end end :> res (list R)).
  { assert (X : match mdps with [] => Err IndexError | m0 :: _ => Ok (zeros1 (m_n_features m0)) end = match mdps' with [] => Err IndexError | m0 :: _ => Ok (zeros1 (m_n_features m0)) end :> res (list R)).
    { destruct mdps as [|m mdps], mdps' as [|m' mdps']; try discriminate LM; [reflexivity|]. do 2 f_equal. destruct ts' as [|t' ts']; [discriminate L'|]. assert (I : In (m', t') (combine (m :: mdps) ts)) by (apply (Permutation_in _ (Permutation_sym P)); now left). apply in_combine_l in I. rewrite Forall_forall in NF. now rewrite (NF m (or_introl eq_refl)), (NF m' I). }
    rewrite X. reflexivity. }
  rewrite ST in E. destruct (match theta, reset with Some th, false => Ok th | _, _ => match mdps' with [] => Err IndexError | m0 :: _ => Ok (zeros1 (m_n_features m0)) end end) as [s|e]; cbn [bind] in *; [|discriminate].
  rewrite (fit_pairs count mdps ts 0 s) in E by exact L. rewrite (fit_pairs count mdps' ts' 0 s) by exact L'. cbn [skipn] in *. revert E. apply foldM_permutation; [|exact P].
  clear. intros p q s r H. destruct (count (fst p) [snd p]) as [f|e]; cbn [bind] in *; [|discriminate]. destruct (length f =? length s)%nat eqn:E1; cbn [bind] in *; [|discriminate].
  destruct (count (fst q) [snd q]) as [f'|e]; cbn [bind] in *; [|discriminate]. apply Nat.eqb_eq in E1. assert (LV : forall u v : list R, length v = length u -> length (vadd u v) = length u) by (intros u v HL; unfold vadd; rewrite map_length, combine_length; lia).
  rewrite LV in H by exact E1. destruct (length f' =? length s)%nat eqn:E2; cbn [bind] in *; [|discriminate]. apply Nat.eqb_eq in E2. rewrite LV by exact E2. rewrite E1, Nat.eqb_refl. rewrite <- H. f_equal. apply vadd_swap.
Qed.

(** ** C155: maximum entropy *)
Lemma start_permutation : forall n ts ts', Forall (in_states n) ts -> Forall (fun t => t <> []) ts -> ts <> [] -> Permutation ts ts' -> start_distribution (A:=R) n ts = start_distribution n ts'.
Proof.
  intros n ts ts' HT HN NE P. destruct (start_spec n ts HT HN NE) as (p & E & L & _ & D).
  assert (NE' : ts' <> []) by (intros ->; apply Permutation_sym, Permutation_nil in P; auto).
  destruct (start_spec n ts' (Permutation_Forall P HT) (Permutation_Forall P HN) NE') as (p' & E' & L' & _ & D'). rewrite E, E'. f_equal.
  assert (B : forall i v, length v = n -> (i < n)%nat -> dot (upd (zeros1 n) i 1) v = nth i v 0).
  { intros i v LV Hi. rewrite (dot_sumf n) by (rewrite ?upd_length; auto; apply repeat_length). assert (SE : seq 0 n = seq 0 i ++ i :: seq (S i) (n - i - 1)) by (replace n with (i + S (n - i - 1))%nat at 1 by lia; rewrite seq_app; reflexivity). rewrite SE, sumf_app, sumf_cons.
    assert (Z1 : forall j, j <> i -> nth j (upd (zeros1 (A:=R) n) i 1) 0 * nth j v 0 = 0).
    { intros j Hj. rewrite nth_upd_other by auto. unfold zeros1. rewrite nth_repeat. cbn [n0 NumR]. ring. }
    rewrite nth_upd_same by (unfold zeros1; rewrite repeat_length; exact Hi).
    rewrite (sumf_ext _ _ (fun _ => 0) (seq 0 i)) by (intros j Hj; apply in_seq in Hj; apply Z1; lia). rewrite (sumf_ext _ _ (fun _ => 0) (seq (S i) _)) by (intros j Hj; apply in_seq in Hj; apply Z1; lia).
    assert (Z2 : forall l : list nat, sumf (fun _ => 0) l = 0) by (induction l; rewrite ?sumf_cons, ?sumf_nil; lra). rewrite !Z2. ring. }
  apply (nth_ext _ _ 0 0); [congruence|]. intros i Hi. rewrite L in Hi. rewrite <- (B i p), <- (B i p') by assumption. rewrite D, D' by (rewrite upd_length; apply repeat_length). rewrite (Permutation_length P). f_equal. now apply sumf_permutation.
Qed.
Lemma expected_permutation : forall soft g tol K m ts ts' theta, Forall (in_states (m_n_states m)) ts -> Forall (fun t => t <> []) ts -> ts <> [] -> Permutation ts ts' ->
  expected_counts soft g tol K m ts theta = expected_counts soft g tol K m ts' theta.
Proof. intros. unfold expected_counts. now rewrite (start_permutation (m_n_states m) ts ts'). Qed.

(** Whatever the library's learner is configured to do in one iteration, exchanging a trajectory of a single state for a longer
    one after it changes the estimate. *)
Theorem C155_order_refuted : forall lr decay tol g K soft c m t1 t2 f x h, maxent_ok lr decay 1 tol g K soft c -> inferable m [t1; t2] -> starts_with m x h -> x_rate x <> 0 ->
  length t1 = 1%nat -> (2 <= length t2)%nat -> (f < length (m_features m))%nat -> 0 < along (nth f (m_features m) []) t1 ->
  exists x1 h1 a1 w1 x2 h2 a2 w2, fit_maxent c m [t1; t2] (IgnoreList []) x h = (x1, h1, Ok (a1, w1)) /\ fit_maxent c m [t2; t1] (IgnoreList []) x h = (x2, h2, Ok (a2, w2)) /\
    nth f (nth a1 h1 []) 0 <> nth f (nth a2 h2 []) 0.
Proof.
  intros lr decay tol g K soft c m t1 t2 f x h OK IN ST RX L1 L2 Hf PA. pose proof IN as (M & SS & CO & NS & NP & NF & HF & T0 & T1 & T2 & T3).
  assert (P : Permutation [t1; t2] [t2; t1]) by constructor.
  assert (IN' : inferable m [t2; t1]).
  { unfold inferable. repeat (split; [assumption|]). split; [discriminate|]. split; [exact (Permutation_Forall P T1)|]. split; [exact (Permutation_Forall P T2)|exact (Permutation_Forall P T3)]. }
  assert (IG : ignores (m_n_features m) (IgnoreList [])) by (cbn; constructor).
  destruct (C87_fit_succeeds_partial _ _ _ _ _ _ _ _ _ _ _ _ _ OK ltac:(lia) IN IG ST) as (x1 & h1 & a1 & w1 & E1 & LA1). destruct (C87_fit_succeeds_partial _ _ _ _ _ _ _ _ _ _ _ _ _ OK ltac:(lia) IN' IG ST) as (x2 & h2 & a2 & w2 & E2 & LA2).
  exists x1, h1, a1, w1, x2, h2, a2, w2. split; [exact E1|]. split; [exact E2|].
  destruct OK as (OC & OG & OK). destruct (config_inv _ _ _ _ _ _ _ _ OC) as (HL & HD & XL & XD & XP & XI & XT & XN).
  assert (SR : step_rate c (x_rate x) 0 = x_rate x).
  { unfold step_rate. destruct (x_decaying c); [|reflexivity]. rewrite XP. cbn [seq]. rewrite prodf_cons. change (prodf (fun i => Rpower (INR (S i)) (- decay)) []) with 1. cbn [INR]. unfold Rpower. rewrite ln_1, Rmult_0_r, exp_0. ring. }
  assert (LS : length (initial m x h) = m_n_features m) by (unfold initial, starts_with in *; destruct (x_theta x); [apply repeat_length|destruct ST|apply ST]).
  assert (G : forall ts x' h' a w, inferable m ts -> fit_maxent c m ts (IgnoreList []) x h = (x', h', Ok (a, w)) -> exists F d, observed_features m ts = Ok F /\ expected_counts soft g tol K m ts (initial m x h) = Ok d /\
    nth a h' [] = map (fun p => fst p + x_rate x * snd p) (combine (initial m x h) (map (fun p => fst p - snd p) (combine F d)))).
  { clear - ST SR XI XN. intros ts x' h' a w IN E. destruct (fit_spec _ _ _ _ _ _ _ _ _ _ E) as (F & F0 & start & n & th & O & Z & WH & _ & _ & _ & HN & T0 & IT & _). rewrite zero_nothing in Z. injection Z as ->.
    assert (n = 1%nat) as -> by (rewrite XI in HN; change (Z.to_nat 1) with 1%nat in HN; lia). destruct (IT 0%nat ltac:(lia)) as (d & ED & T1). unfold expected in ED. rewrite T0 in ED, T1.
    assert (ES : start = initial m x h /\ nth a h' [] = th 1%nat).
    { unfold initial. destruct WH as [(XA & ZS & HH)|(XA & AA & ZS & HH)]; rewrite XA; rewrite zero_nothing in ZS; injection ZS as <-; subst h'; (split; [reflexivity|]).
      - unfold starts_with in ST. rewrite XA in ST. apply nth_upd_same. apply ST.
      - subst a. rewrite app_nth2, Nat.sub_diag by lia. reflexivity. }
    destruct ES as [-> ->]. exists F, d. split; [exact O|]. rewrite XN in ED. destruct (expected_counts soft g tol K m ts (initial m x h)) as [d'|e]; cbn [bind] in ED; [|discriminate]. rewrite zero_nothing in ED. injection ED as ->. split; [reflexivity|]. rewrite T1, SR. reflexivity. }
  destruct (G _ _ _ _ _ IN E1) as (F1 & d1 & O1 & D1 & R1). destruct (G _ _ _ _ _ IN' E2) as (F2 & d2 & O2 & D2 & R2). rewrite (expected_permutation _ _ _ _ _ [t1; t2] [t2; t1]) in D1 by (try assumption; discriminate). assert (d2 = d1) as -> by congruence. clear D2.
  destruct (expected_ok soft g tol K m [t2; t1] (initial m x h) IN' OG OK ltac:(congruence)) as (d' & D' & LD & _). assert (d' = d1) as -> by congruence.
  destruct (C52_weights_partial m [t1; t2] T2 HF) as (F & O & L & V). assert (F = F1) as -> by congruence. destruct (C52_weights_partial m [t2; t1] (Permutation_Forall P T2) HF) as (F & O' & L' & V'). assert (F = F2) as -> by congruence.
  assert (EN : forall F, length F = length (m_features m) -> nth f (map (fun p => fst p + x_rate x * snd p) (combine (initial m x h) (map (fun p => fst p - snd p) (combine F d1)))) 0 = nth f (initial m x h) 0 + x_rate x * (nth f F 0 - nth f d1 0)).
  { intros F LF. assert (LC : length (combine F d1) = length (m_features m)) by (rewrite combine_length; lia). rewrite (nth_map_lt _ _ _ _ _ _ (0, 0)) by (rewrite combine_length, map_length; lia). rewrite combine_nth by (rewrite map_length; congruence). cbn [fst snd].
    rewrite (nth_map_lt _ _ _ _ _ _ (0, 0)) by lia. rewrite combine_nth by congruence. reflexivity. }
  rewrite R1, R2, !EN by assumption. specialize (V f ltac:(lia)). specialize (V' f ltac:(lia)).
  assert (nth f F1 0 <> nth f F2 0).
  { rewrite V, V'. cbn [length seq]. rewrite !sumf_cons, !sumf_nil. cbn [skipn nth]. rewrite !prodf_cons. change (prodf (fun t => / INR (length t)) []) with 1. rewrite L1. cbn [INR].
    assert (B2 : 2 <= INR (length t2)) by (apply (le_INR 2); exact L2). assert (/ INR (length t2) <= / 2) by (apply Rinv_le_contravar; lra). nra. }
  intros EQ. apply H. nra.
Qed.
(** Trajectories of a single state each: the whole result of a fit is the same in any order, whatever the settings. *)
Lemma loop_same : forall c (m : mdp R) ts ts' ig F, (forall theta, x_inner c m ts theta = x_inner c m ts' theta) -> forall k i theta rate last, maxent_loop c m ts ig F k i theta rate last = maxent_loop c m ts' ig F k i theta rate last.
Proof.
  intros c m ts ts' ig F S k. induction k as [|k IH]; intros i theta rate last; [reflexivity|]. cbn [maxent_loop]. rewrite S. destruct (let* d := x_inner c m ts' theta in zero_ignored ig d) as [d|e]; [|reflexivity].
  match goal with |- (if ?b then _ else _) = _ => destruct b end; [reflexivity|apply IH].
Qed.
Theorem C155_single_states_partial : forall lr decay iters tol g K soft c m ts ts' ig x h, maxent_config lr decay iters tol g K soft = Ok c -> Forall (in_states (m_n_states m)) ts -> Forall (fun row => length row = m_n_states m) (m_features m) ->
  Forall (fun t => length t = 1%nat) ts -> Permutation ts ts' -> fit_maxent c m ts ig x h = fit_maxent c m ts' ig x h.
Proof.
  intros lr decay iters tol g K soft c m ts ts' ig x h OC HT HF H1 P. destruct (config_inv _ _ _ _ _ _ _ _ OC) as (_ & _ & _ & _ & _ & _ & _ & XN).
  destruct ts as [|t ts]; [apply Permutation_nil in P; now subst|]. destruct ts' as [|t' ts']; [apply Permutation_sym, Permutation_nil in P; discriminate|].
  pose proof (Permutation_Forall P HT) as HT'. pose proof (Permutation_Forall P H1) as H1'.
  assert (IN : forall theta, x_inner c m (t :: ts) theta = x_inner c m (t' :: ts') theta).
  { intros theta. rewrite XN. apply expected_permutation; [assumption| |discriminate|assumption]. revert H1. apply Forall_impl. intros u Hu ->. discriminate. }
  assert (OB : (let* v := visited_states (m_n_states m) (t :: ts) in zero_ignored ig (feature_counts (m_features m) v)) = (let* v := visited_states (m_n_states m) (t' :: ts') in zero_ignored ig (feature_counts (m_features m) v))).
  { inversion H1 as [|? ? _ H2]. inversion H1' as [|? ? _ H2']. subst. destruct (C52_short_partial m t ts HT HF H2) as (F & O & L & V). destruct (C52_short_partial m t' ts' HT' HF H2') as (F' & O' & L' & V').
    assert (F = F') as <-.
    { apply (nth_ext _ _ 0 0); [congruence|]. intros f Hf. rewrite V, V' by lia. unfold equal_weights. rewrite (Permutation_length P). f_equal. now apply sumf_permutation. }
    unfold observed_features in O, O'. destruct (visited_states (m_n_states m) (t :: ts)) as [v|e]; cbn [bind] in *; [|discriminate]. destruct (visited_states (m_n_states m) (t' :: ts')) as [v'|e']; cbn [bind] in *; [|discriminate]. congruence. }
  unfold fit_maxent. destruct t as [|z t]; [inversion H1; discriminate|]. destruct t' as [|z' t']; [inversion H1'; discriminate|]. rewrite OB. destruct (let* v := visited_states (m_n_states m) ((z' :: t') :: ts') in zero_ignored ig (feature_counts (m_features m) v)) as [F|e]; [|reflexivity].
  destruct (match x_theta x with TNone => (TArr (length h), h ++ [zeros1 (m_n_features m)]) | t => (t, h) end) as [th h1']. destruct th; try reflexivity. destruct (zero_ignored ig (nth addr h1' [])); [|reflexivity]. now rewrite (loop_same c m ((z :: t) :: ts) ((z' :: t') :: ts')).
Qed.

(** ** A concrete case *)
(** The grid of [inference_example]; a trajectory that consists of state 2 only and the walk round the wall. Taking one iteration,
    the default learner's estimate depends on which of them is given first. *)
Example C155_example : exists m c, grid_mdp (A:=R) Square eye_feats (Some [0; 0; 0; 0; 1; 0]%R) (2, 3)%nat false = Ok m /\ inferable m [[2]; [3; 0; 1; 2; 5]]%Z /\ maxent_ok (3 / 10) 1 1 (1 / 100000000) (9 / 10) 500 true c /\
  (exists x1 h1 a1 w1 x2 h2 a2 w2, fit_maxent c m [[2]; [3; 0; 1; 2; 5]]%Z (IgnoreList []) (fst (new_maxent c None [])) [] = (x1, h1, Ok (a1, w1)) /\
     fit_maxent c m [[3; 0; 1; 2; 5]; [2]]%Z (IgnoreList []) (fst (new_maxent c None [])) [] = (x2, h2, Ok (a2, w2)) /\ nth 0 (nth a1 h1 []) 0 <> nth 0 (nth a2 h2 []) 0) /\
  matchable 2 [m; m] [[2]; [3; 0; 1; 2; 5]]%Z /\ matchable 2 [m; m] [[3; 0; 1; 2; 5]; [2]]%Z.
Proof.
  destruct inference_example as (m & c0 & E & IN0 & _ & OK0 & _ & _ & _ & _ & MA & _).
  destruct (grid_mdp_ok Square eye_feats (Some [0; 0; 0; 0; 1; 0]%R) (2, 3)%nat false) as (m' & E' & G & EW & EF & _ & NF & _); [cbn; lia|repeat constructor|reflexivity|repeat constructor; (now left) || (now right)|].
  assert (m' = m) as -> by congruence.
  assert (IN : inferable m [[2]; [3; 0; 1; 2; 5]]%Z).
  { destruct IN0 as (M & SS & CO & NS & NP & NFF & HF & T0 & T1 & T2 & T3). unfold inferable. repeat (split; [assumption|]). split; [discriminate|]. inversion T2 as [|? ? A1 A2]. inversion A2 as [|? ? A3 _]. inversion T3 as [|? ? B1 B2]. inversion B2 as [|? ? B3 _]. subst. cbn [hd] in *. inversion A3 as [|? ? A4 _]. subst.
    split; [repeat constructor; discriminate|]. split; [constructor; [constructor; [exact A4|constructor]|constructor; [exact A1|constructor]]|]. repeat constructor; assumption. }
  destruct (maxent_config (3 / 10) 1 1 (1 / 100000000) (9 / 10) 500 true) as [c|e] eqn:EC.
  2:{ exfalso. unfold maxent_config in EC. cbn [nltb n0 NumR] in EC. unfold Rltb in EC. destruct (Rlt_dec 0 (3 / 10)); [|lra]. destruct (Rlt_dec 1 0); [lra|]. discriminate. }
  assert (OK : maxent_ok (3 / 10) 1 1 (1 / 100000000) (9 / 10) 500 true c) by (split; [exact EC|]; split; [lra|lia]).
  exists m, c. split; [exact E|]. split; [exact IN|]. split; [exact OK|]. split; [|split].
  - eapply C155_order_refuted; [exact OK|exact IN|exact I| |reflexivity|cbn; lia|rewrite EF; cbn; lia|].
    + destruct (config_inv _ _ _ _ _ _ _ _ EC) as (_ & _ & XL & _). cbn [new_maxent fst x_rate]. lra.
    + rewrite EF. unfold along. rewrite sumf_cons, sumf_nil. change (Z.to_nat 2) with 2%nat. cbn. lra.
  - destruct MA as (_ & _ & MF & _). split; [reflexivity|]. split; [discriminate|]. split; [exact MF|]. cbn [combine]. repeat (apply Forall_cons || apply Forall_nil); unfold in_states; cbn [fst snd tl]; rewrite (gi_ns _ _ _ _ G); repeat constructor; cbn; lia.
  - destruct MA as (_ & _ & MF & _). split; [reflexivity|]. split; [discriminate|]. split; [exact MF|]. cbn [combine]. repeat (apply Forall_cons || apply Forall_nil); unfold in_states; cbn [fst snd tl]; rewrite (gi_ns _ _ _ _ G); repeat constructor; cbn; lia.
Qed.
Example C154_example : exists m, grid_mdp (A:=Q) Square eye_feats None (2, 3)%nat false = Ok m /\ trajectory_eyeline 6 m [[3; 0; 1]; [0; 3; 4]]%Z false = Ok [5; 5]%Q /\ trajectory_eyeline 6 m [[0; 3; 4]; [3; 0; 1]]%Z false = Ok [5; 5]%Q /\
  fit_simple (fun m ts => trajectory_eyeline_diff 6 m ts false) [m; m] [[3; 0]; [0; 3]]%Z false None = Ok [-3; -4]%Q /\
  fit_simple (fun m ts => trajectory_eyeline_diff 6 m ts false) [m; m] [[0; 3]; [3; 0]]%Z false None = Ok [-3; -4]%Q.
Proof. eexists. vmr. Qed.
