(** Observed feature counts: C52 (maximum entropy), C54 and part of C53 (feature matching). *)
From Coq Require Import List ZArith Reals Bool Lia Lra.
From Verif Require Import PyBase PyProofs ActionSpec RSum ActionProofs MDPModel VISpec VIProofs2 PLSpec PLProofs IRLModel.
Import ListNotations.
Local Open Scope R_scope.

(** ** Specification *)
Definition in_states (n : nat) (t : list Z) : Prop := Forall (fun z => (0 <= z < Z.of_nat n)%Z) t.
(** Total amount of a feature over a list of visited states. *)
Definition along (row : list R) (t : list Z) : R := sumf (fun z => nth (Z.to_nat z) row 0) t.
(** Average over trajectories of the average amount met along the trajectory. *)
Definition equal_weights (row : list R) (ts : list (list Z)) : R := sumf (fun t => along row t / INR (length t)) ts / INR (length ts).

(** ** Counting *)
Lemma sumf_positions : forall A (d : A) (g : A -> R) l, sumf g l = sumf (fun j => g (nth j l d)) (seq 0 (length l)).
Proof. intros A d g l. rewrite <- (map_nth_seq _ d l) at 1. apply sumf_map. Qed.
Lemma dot_upd : forall n (row v : list R) i x, length row = n -> length v = n -> (i < n)%nat -> dot row (upd v i x) = dot row v + nth i row 0 * (x - nth i v 0).
Proof.
  intros n row v i x Lr Lv Hi. rewrite !(dot_sumf n) by (rewrite ?upd_length; assumption).
  rewrite (sumf_ext _ (fun t => nth t row 0 * nth t (upd v i x) 0) (fun t => nth t row 0 * nth t v 0 + (if (t =? i)%nat then nth i row 0 * (x - nth i v 0) else 0))).
  - rewrite sumf_add. f_equal. now apply sumf_indicator.
  - intros t Ht. destruct (Nat.eqb_spec t i) as [->|NE]; [rewrite nth_upd_same by lia; ring|rewrite nth_upd_other by exact NE; ring].
Qed.
Lemma bump_ok : forall n (v : list R) z, length v = n -> (0 <= z < Z.of_nat n)%Z -> exists v', bump v z = Ok v' /\ length v' = n /\
  forall row, length row = n -> dot row v' = dot row v + nth (Z.to_nat z) row 0.
Proof.
  intros n v z Lv Hz. unfold bump. rewrite py_index_nonneg by lia. cbn [bind]. eexists. split; [reflexivity|]. split; [now rewrite upd_length|]. intros row Lr. rewrite (dot_upd n) by (try assumption; lia). cbn [nadd n1 n0 NumR]. ring.
Qed.
Lemma bumps_ok : forall n t (v : list R), length v = n -> in_states n t -> exists v', foldM bump t v = Ok v' /\ length v' = n /\ forall row, length row = n -> dot row v' = dot row v + along row t.
Proof.
  intros n. induction t as [|z t IH]; intros v Lv HT.
  - exists v. split; [reflexivity|]. split; [exact Lv|]. intros. unfold along. rewrite sumf_nil. ring.
  - inversion HT as [|? ? H1 H2]. subst. destruct (bump_ok _ v z eq_refl H1) as (v1 & E1 & L1 & D1). destruct (IH v1 L1 H2) as (v2 & E2 & L2 & D2). exists v2. cbn [foldM]. rewrite E1. cbn [bind]. split; [exact E2|]. split; [exact L2|].
    intros row Lr. rewrite D2, D1 by exact Lr. unfold along. rewrite sumf_cons. ring.
Qed.
Lemma dot_map_div : forall (row v : list R) c, length row = length v -> dot row (map (fun x => ndiv x c) v) = dot row v * / c.
Proof. intros row v c L. rewrite !(dot_sumf (length v)) by (rewrite ?map_length; auto). rewrite Rmult_comm, <- sumf_scal. apply sumf_ext. intros t Ht. apply in_seq in Ht. rewrite (nth_map_lt _ _ _ _ _ _ 0) by lia. cbn [ndiv NumR]. unfold Rdiv. ring. Qed.
Lemma nofn_INR : forall n, nofn (A:=R) n = INR n.
Proof. intros n. unfold nofn. cbn [nofZ NumR]. symmetry. apply INR_IZR_INZ. Qed.
Lemma dot_zeros : forall n (row : list R), length row = n -> dot row (zeros1 n) = 0.
Proof. intros n row L. rewrite (dot_sumf n) by (try assumption; apply repeat_length). apply sumf_0. intros t Ht. apply in_seq in Ht. unfold zeros1. rewrite nth_repeat_lt by lia. cbn [n0 NumR]. ring. Qed.

(** What reaches the end of the running total. *)
Definition shrink (ts : list (list Z)) : R := prodf (fun t => / INR (length t)) ts.
Lemma visited_loop : forall n ts (v : list R), length v = n -> Forall (in_states n) ts ->
  exists v', foldM (fun v t => let* v' := foldM bump t v in Ok (map (fun x => ndiv x (nofn (length t))) v')) ts v = Ok v' /\ length v' = n /\
    forall row, length row = n -> dot row v' = dot row v * shrink ts + sumf (fun j => along row (nth j ts []) * shrink (skipn j ts)) (seq 0 (length ts)).
Proof.
  intros n. induction ts as [|t ts IH]; intros v Lv HT.
  - exists v. split; [reflexivity|]. split; [exact Lv|]. intros row Lr. change (seq 0 (length [])) with (@nil nat). rewrite sumf_nil. unfold shrink, prodf. cbn [fold_right]. ring.
  - inversion HT as [|? ? H1 H2]. subst. destruct (bumps_ok _ t v eq_refl H1) as (v1 & E1 & L1 & D1).
    destruct (IH (map (fun x => ndiv x (nofn (length t))) v1)) as (v2 & E2 & L2 & D2); [now rewrite map_length|exact H2|]. exists v2. cbn [foldM]. rewrite E1. cbn [bind]. split; [exact E2|]. split; [exact L2|].
    intros row Lr. rewrite D2 by exact Lr. rewrite dot_map_div by congruence. rewrite nofn_INR, D1 by exact Lr. cbn [length]. change (seq 0 (S (length ts))) with (0%nat :: seq 1 (length ts)). rewrite sumf_cons, <- seq_shift, sumf_map. cbn [nth skipn]. unfold shrink at 3 4. rewrite prodf_cons. fold (shrink ts). ring.
Qed.
(** The observed amount of each feature: trajectory [j] is divided by the length of every trajectory from [j] on. *)
Lemma visited_spec : forall n ts, Forall (in_states n) ts -> exists v, visited_states n ts = Ok v /\ length v = n /\
  forall row, length row = n -> dot row v = sumf (fun j => along row (nth j ts []) * shrink (skipn j ts)) (seq 0 (length ts)) / INR (length ts).
Proof.
  intros n ts HT. destruct (visited_loop n ts (zeros1 n) (repeat_length _ _) HT) as (v & E & L & D). unfold visited_states. rewrite E. cbn [bind]. eexists. split; [reflexivity|]. split; [now rewrite map_length|].
  intros row Lr. rewrite dot_map_div by congruence. rewrite nofn_INR, D by exact Lr. rewrite dot_zeros by exact Lr. unfold Rdiv. ring.
Qed.
Lemma shrink_cons : forall t ts, shrink (t :: ts) = / INR (length t) * shrink ts. Proof. reflexivity. Qed.
Lemma shrink_bounds : forall ts, Forall (fun t => t <> []) ts -> 0 < shrink ts <= 1.
Proof.
  induction 1 as [|t ts N _ IH]; [unfold shrink, prodf; cbn [fold_right]; lra|]. rewrite shrink_cons. assert (1 <= INR (length t)) by (apply (le_INR 1); destruct t; [congruence|cbn; lia]).
  assert (0 < / INR (length t) <= 1) by (split; [apply Rinv_0_lt_compat; lra|rewrite <- Rinv_1; apply Rinv_le_contravar; lra]). nra.
Qed.

(** ** C52 *)
(** The observed feature expectation that maximum-entropy inference compares with (lines 171-184). *)
Definition observed_features (m : mdp R) (ts : list (list Z)) : res (list R) := let* v := visited_states (m_n_states m) ts in Ok (feature_counts (m_features m) v).

(** The actual weights. *)
Theorem C52_weights_partial : forall m ts, Forall (in_states (m_n_states m)) ts -> Forall (fun row => length row = m_n_states m) (m_features m) ->
  exists F, observed_features m ts = Ok F /\ length F = length (m_features m) /\ forall f, (f < length F)%nat ->
    nth f F 0 = sumf (fun j => along (nth f (m_features m) []) (nth j ts []) / INR (length (nth j ts [])) * prodf (fun t => / INR (length t)) (skipn (S j) ts)) (seq 0 (length ts)) / INR (length ts).
Proof.
  intros m ts HT HF. destruct (visited_spec _ ts HT) as (v & E & L & D). unfold observed_features. rewrite E. cbn [bind]. eexists. split; [reflexivity|]. unfold feature_counts. rewrite map_length. split; [reflexivity|]. intros f Hf.
  rewrite (nth_map_lt _ _ _ _ _ _ []) by exact Hf. rewrite D by (rewrite Forall_forall in HF; apply HF; now apply nth_In). f_equal. apply sumf_ext. intros j Hj. apply in_seq in Hj. fold (shrink (skipn (S j) ts)).
  assert (SK : skipn j ts = nth j ts [] :: skipn (S j) ts) by (clear - Hj; revert ts Hj; induction j as [|j IH]; intros [|t ts] H; cbn [length] in *; try lia; [reflexivity|]; cbn [nth]; change (skipn (S j) (t :: ts)) with (skipn j ts); change (skipn (S (S j)) (t :: ts)) with (skipn (S j) ts); apply IH; lia).
  rewrite SK, shrink_cons. unfold Rdiv. ring.
Qed.
(** Trajectories count equally if there is only one, or all later ones visit a single state. *)
Theorem C52_short_partial : forall m t ts, Forall (in_states (m_n_states m)) (t :: ts) -> Forall (fun row => length row = m_n_states m) (m_features m) -> Forall (fun u => length u = 1%nat) ts ->
  exists F, observed_features m (t :: ts) = Ok F /\ length F = length (m_features m) /\ forall f, (f < length F)%nat -> nth f F 0 = equal_weights (nth f (m_features m) []) (t :: ts).
Proof.
  intros m t ts HT HF H1. destruct (C52_weights_partial m (t :: ts) HT HF) as (F & E & L & D). exists F. split; [exact E|]. split; [exact L|]. intros f Hf. rewrite D by exact Hf. unfold equal_weights. f_equal.
  transitivity (sumf (fun j => along (nth f (m_features m) []) (nth j (t :: ts) []) / INR (length (nth j (t :: ts) []))) (seq 0 (length (t :: ts)))).
  - apply sumf_ext. intros j Hj. cbn [skipn]. rewrite (prodf_ext _ _ (fun _ => 1)).
    + rewrite prodf_const, pow1. ring.
    + intros u Hu. rewrite Forall_forall in H1. rewrite H1; [cbn; lra|]. rewrite <- (firstn_skipn j ts). apply in_or_app. now right.
  - symmetry. apply (sumf_positions _ [] (fun u => along (nth f (m_features m) []) u / INR (length u))).
Qed.
(** Otherwise earlier trajectories count for less: with two, the first one is divided by the length of the second. *)
Theorem C52_equal_refuted : forall m t1 t2 f, in_states (m_n_states m) t1 -> in_states (m_n_states m) t2 -> Forall (fun row => length row = m_n_states m) (m_features m) ->
  (f < length (m_features m))%nat -> t1 <> [] -> (2 <= length t2)%nat -> 0 < along (nth f (m_features m) []) t1 ->
  exists F, observed_features m [t1; t2] = Ok F /\ nth f F 0 < equal_weights (nth f (m_features m) []) [t1; t2].
Proof.
  intros m t1 t2 f T1 T2 HF Hf N1 L2 P. destruct (C52_weights_partial m [t1; t2] ltac:(auto) HF) as (F & E & L & D). exists F. split; [exact E|]. rewrite D by lia. unfold equal_weights. cbn [length seq]. rewrite !sumf_cons, !sumf_nil. cbn [skipn nth]. rewrite prodf_cons. change (prodf (fun t => / INR (length t)) []) with 1.
  assert (1 <= INR (length t1)) by (apply (le_INR 1); destruct t1; [congruence|cbn; lia]). assert (2 <= INR (length t2)) by (apply (le_INR 2); exact L2). assert (/ INR (length t2) <= / 2) by (apply Rinv_le_contravar; lra).
  assert (0 < along (nth f (m_features m) []) t1 / INR (length t1)) by (apply Rdiv_lt_0_compat; lra). cbn [INR]. nra.
Qed.
(** Never more than one visit per time step in total. *)
Lemma visited_total : forall n ts v, Forall (in_states n) ts -> Forall (fun t => t <> []) ts -> ts <> [] -> visited_states n ts = Ok v -> dot (repeat 1 n) v <= 1.
Proof.
  intros n ts v HT HN NE E. destruct (visited_spec n ts HT) as (v' & E' & L & D). assert (v' = v) by congruence. subst v'. rewrite D by apply repeat_length.
  assert (0 < INR (length ts)) by (apply lt_0_INR; destruct ts; [congruence|cbn; lia]). apply (Rmult_le_reg_r (INR (length ts))); [assumption|]. unfold Rdiv. rewrite Rmult_assoc, Rinv_l, Rmult_1_r, Rmult_1_l by lra.
  assert (B : forall j, (j < length ts)%nat -> along (repeat 1 n) (nth j ts []) * shrink (skipn j ts) <= 1).
  { intros j Hj. assert (AL : along (repeat 1 n) (nth j ts []) = INR (length (nth j ts []))).
    { assert (I : in_states n (nth j ts [])) by (rewrite Forall_forall in HT; apply HT; now apply nth_In). clear - I. induction I as [|z t Hz _ IH]; [reflexivity|]. unfold along in *. rewrite sumf_cons, IH. rewrite nth_repeat_lt by lia. cbn [length]. rewrite S_INR. lra. }
    assert (SK : skipn j ts = nth j ts [] :: skipn (S j) ts) by (clear - Hj; revert ts Hj; induction j as [|j IH]; intros [|t ts] H; cbn [length] in *; try lia; [reflexivity|]; cbn [nth]; change (skipn (S j) (t :: ts)) with (skipn j ts); change (skipn (S (S j)) (t :: ts)) with (skipn (S j) ts); apply IH; lia).
    rewrite AL, SK, shrink_cons. assert (0 < INR (length (nth j ts []))) by (apply lt_0_INR; rewrite Forall_forall in HN; specialize (HN (nth j ts []) ltac:(now apply nth_In)); destruct (nth j ts []); [congruence|cbn; lia]).
    rewrite <- Rmult_assoc, Rinv_r, Rmult_1_l by lra. apply shrink_bounds. rewrite Forall_forall in *. intros t Ht. apply HN. rewrite <- (firstn_skipn (S j) ts). apply in_or_app. now right. }
  assert (G : forall k, (forall j, In j (seq 0 k) -> along (repeat 1 n) (nth j ts []) * shrink (skipn j ts) <= 1) -> sumf (fun j => along (repeat 1 n) (nth j ts []) * shrink (skipn j ts)) (seq 0 k) <= INR k).
  { induction k as [|k IH]; intros HB; [cbn; lra|]. rewrite seq_S, sumf_app, sumf_cons, sumf_nil, S_INR. cbn [Nat.add]. specialize (IH ltac:(intros j Hj; apply HB; rewrite seq_S; apply in_or_app; now left)). specialize (HB k ltac:(apply in_seq; lia)). lra. }
  apply G. intros j Hj. apply in_seq in Hj. apply B. lia.
Qed.
(** Where the trajectories start. *)
Lemma start_spec : forall n ts, Forall (in_states n) ts -> Forall (fun t => t <> []) ts -> ts <> [] -> exists p0 : list R, start_distribution n ts = Ok p0 /\ length p0 = n /\ Rsum p0 = 1 /\
  forall row, length row = n -> dot row p0 = sumf (fun t => nth (Z.to_nat (hd 0%Z t)) row 0) ts / INR (length ts).
Proof.
  intros n ts HT HN NE.
  assert (G : forall ts (v : list R), length v = n -> Forall (in_states n) ts -> Forall (fun t => t <> []) ts -> exists v', foldM (fun v t => match t with [] => Err IndexError | s :: _ => bump v s end) ts v = Ok v' /\ length v' = n /\ forall row, length row = n -> dot row v' = dot row v + sumf (fun t => nth (Z.to_nat (hd 0%Z t)) row 0) ts).
  { clear. induction ts as [|t ts IH]; intros v Lv HT HN; [exists v; split; [reflexivity|]; split; [exact Lv|]; intros; rewrite sumf_nil; ring|]. inversion HT as [|? ? H1 H2]. inversion HN as [|? ? H3 H4]. subst. destruct t as [|z t]; [congruence|]. inversion H1 as [|? ? H5 _]. subst.
    destruct (bump_ok _ v z eq_refl H5) as (v1 & E1 & L1 & D1). destruct (IH v1 L1 H2 H4) as (v2 & E2 & L2 & D2). exists v2. cbn [foldM]. rewrite E1. cbn [bind]. split; [exact E2|]. split; [exact L2|]. intros row Lr. rewrite D2, D1, sumf_cons by exact Lr. cbn [hd]. ring. }
  destruct (G ts (zeros1 n) (repeat_length _ _) HT HN) as (v & E & L & D). unfold start_distribution. rewrite E. cbn [bind]. eexists. split; [reflexivity|]. rewrite map_length. split; [exact L|].
  assert (T : nsum v = INR (length ts)).
  { rewrite nsum_Rsum. transitivity (dot (repeat 1 n) v).
    - rewrite (dot_sumf n) by (try assumption; apply repeat_length). rewrite Rsum_nth, L. apply sumf_ext. intros i Hi. apply in_seq in Hi. rewrite nth_repeat_lt by lia. ring.
    - rewrite D, dot_zeros by apply repeat_length. rewrite Rplus_0_l. clear - HT HN. induction ts as [|t ts IH]; [reflexivity|]. inversion HT as [|? ? H1 H2]. inversion HN as [|? ? H3 H4]. subst. rewrite sumf_cons, IH by assumption. cbn [length]. rewrite S_INR. destruct t as [|z t]; [congruence|]. inversion H1. subst. cbn [hd]. rewrite nth_repeat_lt by lia. ring. }
  assert (NZ : INR (length ts) <> 0) by (apply not_0_INR; destruct ts; [congruence|discriminate]).
  split.
  - rewrite Rsum_nth, map_length. rewrite (sumf_ext _ _ (fun i => / nsum v * nth i v 0)) by (intros i Hi; apply in_seq in Hi; rewrite (nth_map_lt _ _ _ _ _ _ 0) by lia; cbn [ndiv NumR]; unfold Rdiv; ring). rewrite sumf_scal, <- Rsum_nth, <- nsum_Rsum, T. now apply Rinv_l.
  - intros row Lr. rewrite dot_map_div, T, D, dot_zeros by congruence. unfold Rdiv. ring.
Qed.

(** ** C54 *)
Lemma states_features_ok : forall n (features : list (list R)) t, in_states n t -> states_features features n t = Ok (map (fun row => along row t) features).
Proof.
  intros n features t HT. unfold states_features. rewrite (mapM_total _ _ _ Z.to_nat) by (intros z Hz; unfold in_states in HT; rewrite Forall_forall in HT; apply py_index_nonneg; now apply HT). cbn [bind]. f_equal. apply map_ext. intros row. rewrite nsum_Rsum, map_map. reflexivity.
Qed.
(** The matrix of counts; every MDP has [nF] features. *)
Definition matchable (nF : nat) (mdps : list (mdp R)) (ts : list (list Z)) : Prop :=
  length ts = length mdps /\ hd [] ts <> [] /\ Forall (fun m => m_n_features m = nF /\ length (m_features m) = nF) mdps /\ Forall (fun p => in_states (m_n_states (fst p)) (tl (snd p))) (combine mdps ts).
Lemma matching_rows : forall nF mdps ts, Forall (fun m => m_n_features m = nF /\ length (m_features m) = nF) mdps -> Forall (fun p => in_states (m_n_states (fst p)) (tl (snd p))) (combine mdps ts) ->
  mapM (fun '(m, t) => let* v := states_features (m_features m) (m_n_states m) (tl t) in if (length v =? nF)%nat then Ok v else Err ValueError) (combine mdps ts) = Ok (map (fun p => map (fun row => along row (tl (snd p))) (m_features (fst p))) (combine mdps ts)).
Proof.
  intros nF mdps ts HM HS. apply mapM_total. intros [m t] I. rewrite Forall_forall in HS. rewrite states_features_ok by (apply (HS (m, t) I)). cbn [bind fst snd]. rewrite map_length. apply in_combine_l in I. rewrite Forall_forall in HM. destruct (HM m I) as [_ ->]. now rewrite Nat.eqb_refl.
Qed.
(** Per feature, the total amount over all visited states except each trajectory's first. *)
Theorem C54_counts : forall nF mdps ts, matchable nF mdps ts -> exists theta, fit_matching mdps ts [] = Ok theta /\ length theta = nF /\
  forall f, (f < nF)%nat -> nth f theta 0 = sumf (fun p => along (nth f (m_features (fst p)) []) (tl (snd p))) (combine mdps ts).
Proof.
  intros nF mdps ts (L & NE & HM & HS). unfold fit_matching. destruct ts as [|t ts]; [now elim NE|]. destruct t as [|z t]; [now elim NE|]. destruct mdps as [|m0 mdps]; [discriminate|].
  rewrite (proj2 (Nat.eqb_eq _ _) L). cbn [negb]. pose proof HM as HM'. inversion HM' as [|? ? [F0 _] _]. subst x l. rewrite F0. rewrite (matching_rows nF) by assumption. cbn [bind]. unfold zero_rows. cbn [mapM bind fold_left]. eexists. split; [reflexivity|]. rewrite map_length, seq_length. split; [reflexivity|].
  intros f Hf. rewrite (nth_map_lt _ _ _ _ _ _ 0%nat) by now rewrite seq_length. rewrite seq_nth0 by exact Hf. rewrite nsum_Rsum, map_map. apply sumf_ext. intros [m u] I. cbn [fst snd]. apply in_combine_l in I. rewrite Forall_forall in HM. destruct (HM m I) as [_ LF]. rewrite (nth_map_lt _ _ _ _ _ _ []) by lia. reflexivity.
Qed.

(** ** C53 for feature matching *)
(** What the argument does: it drops trajectories, not features. *)
Theorem C53_matching_actual : forall nF mdps ts ignore, matchable nF mdps ts -> Forall (fun i => (0 <= i < Z.of_nat (length ts))%Z) ignore -> exists theta, fit_matching mdps ts ignore = Ok theta /\ length theta = nF /\
  forall f, (f < nF)%nat -> nth f theta 0 = sumf (fun n => if in_dec Z.eq_dec (Z.of_nat n) ignore then 0 else along (nth f (m_features (nth n mdps (blank_mdp None))) []) (tl (nth n ts []))) (seq 0 (length ts)).
Proof.
  intros nF mdps ts ignore (L & NE & HM & HS) HI. unfold fit_matching. destruct ts as [|t ts]; [now elim NE|]. destruct t as [|z t]; [now elim NE|]. destruct mdps as [|m0 mdps]; [discriminate|].
  rewrite (proj2 (Nat.eqb_eq _ _) L). cbn [negb]. pose proof HM as HM'. inversion HM' as [|? ? [F0 _] _]. subst x l. rewrite F0. rewrite (matching_rows nF) by assumption. cbn [bind]. set (mds := m0 :: mdps) in *. set (tss := (z :: t) :: ts) in *.
  set (rows := map (fun p => map (fun row => along row (tl (snd p))) (m_features (fst p))) (combine mds tss)). assert (LR : length rows = length tss) by (unfold rows; rewrite map_length, combine_length; lia).
  assert (LN : forall n, (n < length tss)%nat -> length (nth n rows []) = nF /\ forall f, (f < nF)%nat -> nth f (nth n rows []) 0 = along (nth f (m_features (nth n mds (blank_mdp None))) []) (tl (nth n tss []))).
  { intros n Hn. unfold rows. rewrite (nth_map_lt _ _ _ _ _ _ (blank_mdp None, [])) by (rewrite combine_length; lia). rewrite combine_nth by (symmetry; exact L). cbn [fst snd]. rewrite map_length. rewrite Forall_forall in HM. destruct (HM (nth n mds (blank_mdp None))) as [_ LF]; [apply nth_In; lia|]. split; [exact LF|]. intros f Hf. now rewrite (nth_map_lt _ _ _ _ _ _ []) by lia. }
  unfold zero_rows. rewrite (mapM_total _ _ _ Z.to_nat) by (intros i Hi; rewrite Forall_forall in HI; apply py_index_nonneg; rewrite LR; now apply HI). cbn [bind].
  assert (G : forall ks (rs : list (list R)), length rs = length tss -> Forall (fun i => (0 <= i < Z.of_nat (length tss))%Z) ks -> (forall n, (n < length tss)%nat -> length (nth n rs []) = nF) ->
    let rs' := fold_left (fun rs k => upd rs k (map (fun _ => n0) (nth k rs []))) (map Z.to_nat ks) rs in length rs' = length tss /\ forall n f, (n < length tss)%nat -> (f < nF)%nat -> nth f (nth n rs' []) 0 = if in_dec Z.eq_dec (Z.of_nat n) ks then 0 else nth f (nth n rs []) 0).
  { induction ks as [|k ks IH]; intros rs Lrs HK HR rs'; [split; [exact Lrs|]; intros; reflexivity|]. inversion HK as [|? ? HK1 HK2]. subst. unfold rs'. cbn [map fold_left].
    destruct (IH (upd rs (Z.to_nat k) (map (fun _ => n0) (nth (Z.to_nat k) rs [])))) as [G1 G2]; [now rewrite upd_length|exact HK2| |].
    - intros n Hn. destruct (Nat.eq_dec n (Z.to_nat k)) as [->|X]; [rewrite nth_upd_same by lia; rewrite map_length; apply HR; lia|rewrite nth_upd_other by exact X; now apply HR].
    - split; [exact G1|]. intros n f Hn Hf. rewrite G2 by assumption. destruct (in_dec Z.eq_dec (Z.of_nat n) ks) as [I|I], (in_dec Z.eq_dec (Z.of_nat n) (k :: ks)) as [J|J]; try reflexivity; try (elim J; now right).
      + destruct J as [J|J]; [|contradiction]. subst k. rewrite Nat2Z.id, nth_upd_same by lia. rewrite (nth_map_lt _ _ _ _ _ _ 0) by (rewrite HR; lia). reflexivity.
      + rewrite nth_upd_other; [reflexivity|]. intros X. apply J. left. lia. }
  destruct (G ignore rows LR ltac:(exact HI) (fun n Hn => proj1 (LN n Hn))) as [G1 G2]. eexists. split; [reflexivity|]. rewrite map_length, seq_length. split; [reflexivity|]. intros f Hf. rewrite (nth_map_lt _ _ _ _ _ _ 0%nat) by now rewrite seq_length. rewrite seq_nth0 by exact Hf.
  rewrite nsum_Rsum, <- (map_nth_seq _ [] (fold_left _ _ _)), map_map, G1. apply sumf_ext. intros n Hn. apply in_seq in Hn. rewrite G2 by lia. destruct (in_dec _ _ _); [reflexivity|]. apply LN; lia.
Qed.
(** So with one trajectory, ignoring feature 0 loses every feature. *)
Theorem C53_matching_refuted : forall nF m t, matchable nF [m] [t] -> exists theta, fit_matching [m] [t] [0%Z] = Ok theta /\ length theta = nF /\ forall f, nth f theta 0 = 0.
Proof.
  intros nF m t MA. destruct (C53_matching_actual nF [m] [t] [0%Z] MA) as (theta & E & L & H); [repeat constructor; cbn; lia|]. exists theta. split; [exact E|]. split; [exact L|]. intros f. destruct (Nat.lt_ge_cases f nF) as [Hf|Hf]; [|apply nth_overflow; lia]. rewrite H by exact Hf. cbn [length seq]. rewrite sumf_cons, sumf_nil. destruct (in_dec _ _ _) as [_|X]; [ring|]. elim X. now left.
Qed.
(** A feature number that is not also a trajectory number is an error. *)
Theorem C53_matching_range_refuted : forall nF mdps ts f, matchable nF mdps ts -> (length ts <= f)%nat -> fit_matching mdps ts [Z.of_nat f] = Err IndexError.
Proof.
  intros nF mdps ts f (L & NE & HM & HS) Hf. unfold fit_matching. destruct ts as [|t ts]; [now elim NE|]. destruct t as [|z t]; [now elim NE|]. destruct mdps as [|m0 mdps]; [discriminate|].
  rewrite (proj2 (Nat.eqb_eq _ _) L). cbn [negb]. pose proof HM as HM'. inversion HM' as [|? ? [F0 _] _]. subst x l. rewrite F0. rewrite (matching_rows nF) by assumption. cbn [bind]. unfold zero_rows. cbn [mapM].
  rewrite map_length, combine_length. replace (Nat.min (length (m0 :: mdps)) (length ((z :: t) :: ts))) with (length ((z :: t) :: ts)) by lia. unfold py_index. destruct (Z.leb_spec 0 (Z.of_nat f)); [|lia]. destruct (Z.ltb_spec (Z.of_nat f) (Z.of_nat (length ((z :: t) :: ts)))); [lia|reflexivity].
Qed.
