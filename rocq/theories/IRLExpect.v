(** The feature counts that maximum-entropy inference expects, compared with the observed ones. *)
From Coq Require Import List ZArith Reals Bool Lia Lra.
From Verif Require Import PyBase PyProofs ActionModel ActionSpec RSum ActionProofs MDPModel VIModel VISpec VIProofs VIProofs2 VIProps PLSpec PLProofs IRLModel IRLVisit IRLPolicy IRLMatch.
Import ListNotations.
Local Open Scope R_scope.

(** Every state that can be entered can be left. *)
Definition continues (sas : list (list (list R))) : Prop := forall s a t, prob sas s a t <> 0 -> some_move sas t.
(** Data for inference: an MDP without dead ends and trajectories of its states, none empty, that start where a move
    is possible. *)
Definition inferable (m : mdp R) (ts : list (list Z)) : Prop :=
  is_mdp (m_sas m) /\ stochastic (m_sas m) /\ continues (m_sas m) /\ m_n_states m = n_states (m_sas m) /\ (0 < m_n_states m)%nat /\
  m_n_features m = length (m_features m) /\ Forall (fun row => length row = m_n_states m) (m_features m) /\
  ts <> [] /\ Forall (fun t => t <> []) ts /\ Forall (in_states (m_n_states m)) ts /\ Forall (fun t => some_move (m_sas m) (Z.to_nat (hd 0%Z t))) ts.
(** Every state has features to a total of one, such as exactly one binary feature. *)
Definition one_feature_each (m : mdp R) : Prop := forall s, (s < m_n_states m)%nat -> sumf (fun row => nth s row 0) (m_features m) = 1.

Lemma counts_total : forall n (features : list (list R)) v, length v = n -> Forall (fun row => length row = n) features -> (forall s, (s < n)%nat -> sumf (fun row => nth s row 0) features = 1) ->
  Rsum (feature_counts features v) = dot (repeat 1 n) v.
Proof.
  intros n features v L HF H1. unfold feature_counts. change (Rsum (map (fun row => dot row v) features)) with (sumf (fun row => dot row v) features).
  rewrite (sumf_ext _ _ (fun row => sumf (fun s => nth s row 0 * nth s v 0) (seq 0 n))) by (intros row Hr; apply dot_sumf; [rewrite Forall_forall in HF; now apply HF|exact L]).
  rewrite sumf_swap, (dot_sumf n) by (try assumption; apply repeat_length). apply sumf_ext. intros s Hs. apply in_seq in Hs. rewrite nth_repeat_lt by lia.
  rewrite <- (H1 s) by lia. rewrite (sumf_ext _ _ (fun row => nth s v 0 * nth s row 0)) by (intros; ring). rewrite sumf_scal. ring.
Qed.
Lemma dot_ones : forall n (v : list R), length v = n -> dot (repeat 1 n) v = Rsum v.
Proof. intros n v L. rewrite (dot_sumf n) by (try assumption; apply repeat_length). rewrite Rsum_nth, L. apply sumf_ext. intros s Hs. apply in_seq in Hs. rewrite nth_repeat_lt by lia. ring. Qed.

(** Expected feature counts exist for every weight vector; the expected visits add up to the number of steps. *)
Lemma expected_ok : forall (soft : bool) g tol K m ts theta, inferable m ts -> 0 < g < 1 -> (0 < K)%Z -> length theta = length (m_features m) ->
  exists d, expected_counts soft g tol K m ts theta = Ok d /\ length d = length (m_features m) /\ (one_feature_each m -> Rsum d = IZR K).
Proof.
  intros soft g tol K m ts theta (M & ST & CO & NS & NP & NF & HF & T0 & T1 & T2 & T3) G HK LT. unfold expected_counts.
  assert (S : exists v q, solve_value_iteration (if soft then soft_backup else hard_backup) theta (m_features m) K g (m_sas m) tol = Ok (v, q)).
  { replace K with (Z.of_nat (S (Z.to_nat K - 1))) by lia. destruct soft.
    - destruct (solve_spec soft_backup (log_sum_exp soft_eps) (m_sas m) theta (m_features m) (Z.to_nat K - 1) g tol M G LT (fun l _ => bk_soft l) (fun l l' c => lse_ne soft_eps (n_actions (m_sas m)) l l' c soft_eps_pos (proj1 M))) as (v' & q' & E' & _). eauto.
    - destruct (solve_spec hard_backup lmax (m_sas m) theta (m_features m) (Z.to_nat K - 1) g tol M G LT (bk_hard (m_sas m) M) (fun l l' c => lmax_ne (n_actions (m_sas m)) l l' c (proj1 M))) as (v' & q' & E' & _). eauto. }
  destruct S as (v & q & E). rewrite E. cbn [bind]. destruct (library_policy soft (m_sas m) theta (m_features m) K g tol v q M ltac:(lia) E) as (p & pi & E1 & E2 & P1 & P2). rewrite E1. cbn [bind]. rewrite E2. cbn [bind].
  destruct (start_spec (m_n_states m) ts T2 T1 T0) as (p0 & E3 & L3 & S3 & D3). rewrite E3. cbn [bind]. eexists. split; [reflexivity|]. unfold feature_counts at 1. rewrite map_length. split; [reflexivity|].
  intros OF. destruct (C51_visits (m_sas m) pi p0 K ltac:(congruence)) as [LD _]. rewrite (counts_total (m_n_states m)); [|congruence|exact HF|exact OF]. rewrite dot_ones by congruence.
  apply C51_total; [congruence|lia|exact S3|]. intros s Hs.
  assert (SD : some_move (m_sas m) s \/ ~ some_move (m_sas m) s).
  { assert (X : forall l, (exists a, In a l /\ possible (m_sas m) s a) \/ forall a, In a l -> ~ possible (m_sas m) s a).
    { induction l as [|a l [(b & I & P)|IH]]; [right; intros a []|left; exists b; split; [now right|exact P]|]. destruct (possible_dec (m_sas m) s a) as [P|P]; [left; exists a; split; [now left|exact P]|right; intros b [->|I]; auto]. }
    destruct (X (seq 0 (n_actions (m_sas m)))) as [(a & I & P)|N]; [left; exists a; apply in_seq in I; split; [lia|exact P]|right]. intros (a & Ha & P). elim (N a); [apply in_seq; lia|exact P]. }
  destruct SD as [SM|NM]; [left; now apply P2|right]. split.
  - set (unit := map (fun i => if (i =? s)%nat then 1 else 0) (seq 0 (m_n_states m))). assert (LU : length unit = m_n_states m) by (unfold unit; now rewrite map_length, seq_length).
    assert (NU : forall i, (i < m_n_states m)%nat -> nth i unit 0 = if (i =? s)%nat then 1 else 0) by (intros i Hi; unfold unit; rewrite (nth_map_lt _ _ _ _ _ _ 0%nat) by (rewrite seq_length; lia); rewrite seq_nth0 by lia; reflexivity).
    transitivity (dot unit p0).
    + rewrite (dot_sumf (m_n_states m)) by assumption. rewrite (sumf_ext _ _ (fun i => if (i =? s)%nat then nth s p0 0 else 0)); [symmetry; apply sumf_indicator; lia|]. intros i Hi. apply in_seq in Hi. rewrite NU by lia. destruct (Nat.eqb_spec i s) as [->|X]; ring.
    + rewrite D3 by exact LU. rewrite sumf_0; [unfold Rdiv; ring|]. intros t Ht. rewrite Forall_forall in T1, T2, T3. specialize (T1 t Ht). specialize (T2 t Ht). specialize (T3 t Ht). destruct t as [|z t]; [congruence|]. inversion T2. subst. cbn [hd] in *. rewrite NU by lia. destruct (Nat.eqb_spec (Z.to_nat z) s) as [X|X]; [subst s; contradiction|reflexivity].
  - intros u a. destruct (Req_dec (prob (m_sas m) u a s) 0) as [Z|Z]; [exact Z|]. apply CO in Z. contradiction.
Qed.

(** ** C83: the expected counts cannot match the observed ones *)
(** The observed counts are frequencies, at most one in total; the expected ones are numbers of visits, [K] in total:
    whatever the weights, the two differ in total by at least [K - 1]. *)
Theorem C83_match_refuted : forall (soft : bool) g tol K m ts theta, inferable m ts -> one_feature_each m -> 0 < g < 1 -> (2 <= K)%Z -> length theta = length (m_features m) ->
  exists F d, observed_features m ts = Ok F /\ expected_counts soft g tol K m ts theta = Ok d /\ Rsum F <= 1 /\ Rsum d = IZR K /\ F <> d.
Proof.
  intros soft g tol K m ts theta IN OF G HK LT. pose proof IN as (M & ST & CO & NS & NP & NF & HF & T0 & T1 & T2 & T3). destruct (visited_spec (m_n_states m) ts T2) as (v & E & L & _).
  destruct (expected_ok soft g tol K m ts theta IN G ltac:(lia) LT) as (d & ED & LD & SD). exists (feature_counts (m_features m) v), d. unfold observed_features. rewrite E. cbn [bind]. split; [reflexivity|]. split; [exact ED|].
  assert (S1 : Rsum (feature_counts (m_features m) v) <= 1) by (rewrite (counts_total (m_n_states m)); auto; eapply visited_total; eauto).
  specialize (SD OF). split; [exact S1|]. split; [exact SD|]. intros X. rewrite X, SD in S1. assert (2 <= IZR K) by (apply IZR_le; exact HK). lra.
Qed.
