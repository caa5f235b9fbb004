(** Properties C141 to C144: what a plan depends on, and how. *)
From Coq Require Import String List ZArith QArith Reals Bool Lia Lra Permutation.
From Verif Require Import PyBase PyProofs GridModel GridSpec MDPModel MDPSpec MDPProofs MDPProofs2 MDPProofs3 MDPProofs4 MDPProps ActionModel ActionSpec ActionProofs RSum ActionProps EnvModel PlanProps EnvSpec StepSpec EnvProofs EnvProofs2 EnvProofs3 EnvProofs4 EnvProofs5 EnvProps StepProps FitProps QueryModel VIModel VISpec VIProofs VIProofs2 VIProps VIEnvProps QueryProofs AgainSpec AgainProps.
Import ListNotations.
Local Close Scope Q_scope.
Local Open Scope nat_scope.

(** ** C141: only the rewards of the states matter *)

(** If two reward functions, with features of their own, reward every state alike, planning gives the same result. *)
Theorem C141_same_rewards : forall backup sas rf ft rf' ft' k g tol, length rf = length ft -> length rf' = length ft' ->
  (forall t, t < n_states sas -> reward_of rf ft t = reward_of rf' ft' t) ->
  solve_value_iteration backup rf ft k g sas tol = solve_value_iteration backup rf' ft' k g sas tol.
Proof.
  intros backup sas rf ft rf' ft' k g tol L L' H. unfold solve_value_iteration. rewrite L, L', !Nat.eqb_refl. destruct (negb _); [reflexivity|]. cbn [negb].
  replace (state_rewards (length sas) rf' ft') with (state_rewards (length sas) rf ft); [reflexivity|].
  apply (nth_ext _ _ 0%R 0%R); [unfold state_rewards; now rewrite !map_length|]. intros t Ht. unfold state_rewards in Ht. rewrite map_length, seq_length in Ht.
  rewrite !state_rewards_nth by assumption. now apply H.
Qed.
Lemma reward_combine : forall rf ft t, length rf = length ft -> reward_of rf ft t = sumf (fun p => fst p * nth t (snd p) 0)%R (combine rf ft).
Proof.
  intros rf ft t L. unfold reward_of. revert ft L. induction rf as [|w rf IH]; intros [|row ft] L; try discriminate L; [reflexivity|]. cbn [length seq combine]. rewrite !sumf_cons. cbn [nth fst snd]. f_equal.
  rewrite <- (IH ft) by (cbn in L; lia). rewrite <- seq_shift, sumf_map. reflexivity.
Qed.
(** In particular the order of the features does not matter. *)
Theorem C141_order : forall backup sas (rf : list R) ft (rf' : list R) ft' k g tol, length rf = length ft -> length rf' = length ft' ->
  Permutation (combine rf ft) (combine rf' ft') ->
  solve_value_iteration backup rf ft k g sas tol = solve_value_iteration backup rf' ft' k g sas tol.
Proof.
  intros backup sas rf ft rf' ft' k g tol L L' P. apply C141_same_rewards; auto. intros t _. rewrite !reward_combine by assumption.
  clear L L'. induction P as [|p l1 l2 P IH|p p' l|l1 l2 l3 P1 IH1 P2 IH2]; rewrite ?sumf_cons; [reflexivity|now rewrite IH|lra|congruence].
Qed.

(** In an environment: an agent that cares only about ordinary features nobody consumes makes the same plan at all
    times, wherever the agents are and whatever was consumed, until walls change. *)
Definition nobody_consumes (e : env R) (f : nat) : Prop :=
  forall b z, In b (e_agents e) -> In z (at_consumes b) -> py_index (m_n_features (e_mdp e)) z <> Ok f.
Lemma feat_upd : forall m i row f t, f <> m_n_non_agent m + i -> feat (row_set m i row) f t = feat m f t.
Proof. intros m i row f t N. unfold feat, row_set, get2. cbn [m_features with_features]. now rewrite nth_upd_other by congruence. Qed.
Section Kept.
Variables (k : gkind) (shape : nat * nat) (st : bool) (f : nat) (row : nat -> R).
Definition keeps_feature (e : env R) : Prop :=
  f < m_n_non_agent (e_mdp e) /\ nobody_consumes e f /\ consumes_in_range e /\
  (forall t, t < m_n_states (e_mdp e) -> feat (e_mdp e) f t = row t) /\ (forall t, t < m_n_states (e_mdp e) -> get2 0%R (m_orig_features (e_mdp e)) f t = row t).
Lemma nobody_static : forall e e', static e e' -> nobody_consumes e f -> nobody_consumes e' f.
Proof.
  intros e e' S N b z Hb Hz. destruct (static_in _ _ _ S Hb) as (c & Hc & EI). unfold ident in EI. injection EI as _ _ _ E4 _ _ _.
  destruct S as (_ & _ & M). unfold mident in M. injection M as _ _ _ _ _ M6 _ _. rewrite M6. apply (N c z Hc). now rewrite E4.
Qed.
Lemma mut_keeps_feature : forall l e e', wf k shape st e -> mut l e e' -> keeps_feature e -> keeps_feature e'.
Proof.
  intros l e e' W M (H1 & H2 & H3 & H4 & H5). pose proof (mut_static _ _ _ _ _ _ W M) as S. pose proof (nobody_static _ _ S H2) as H2'. pose proof (static_consumes _ _ S H3) as H3'.
  destruct S as (_ & _ & MI). unfold mident in MI. injection MI as _ _ M3 _ M5 _ M7 _.
  split; [now rewrite M7|]. split; [exact H2'|]. split; [exact H3'|]. rewrite M3, M5. split; [|exact H5]. clear H2' H3' M3 M5 M7.
  intros t Ht. destruct l; cbn [mut] in M.
  - destruct M as (a & a' & _ & _ & _ & _ & ->). now apply H4.
  - destruct M as (a & a' & s & _ & _ & _ & _ & ->). cbn [with_agent with_mdp e_mdp]. rewrite feat_upd by lia. now apply H4.
  - destruct M as (a & _ & ->). cbn [with_mdp e_mdp]. rewrite feat_upd by lia. now apply H4.
  - destruct M as (a & a' & m' & c & Ha & E & _ & _ & _ & ->). cbn [with_agent with_mdp e_mdp].
    destruct (wf_agents _ _ _ _ W a Ha) as (_ & _ & _ & _ & (p & Hp) & _). pose proof (wf_table _ _ _ _ W) as T. pose proof T as T2. apply table_shape in T2.
    destruct (consume_loop_ok _ _ _ _ _ _ E) as (ridx & F). rewrite (shape2_length _ _ _ _ T2) in F.
    destruct (C13_consume (e_mdp e) (at_consumes a) ridx (at_pos a) p T F Hp) as (m2 & c2 & E2 & _ & _ & _ & X). rewrite E in E2. apply (f_equal fst) in E2. cbn [fst] in E2. subst m2.
    assert (FN : f < m_n_features (e_mdp e)) by (rewrite (wf_nf _ _ _ _ W); lia). destruct (X f FN) as (X1 & X2 & _).
    assert (NI : ~ In f ridx). { intros I. clear - F I H2 Ha. assert (Y : exists z, In z (at_consumes a) /\ py_index (m_n_features (e_mdp e)) z = Ok f).
      { induction F as [|z g zs gs Hz F IH]; [contradiction|]. destruct I as [->|I]; [exists z; split; [now left|exact Hz]|]. destruct IH as (z' & Hz' & E'); [exact I|]. exists z'. split; [now right|exact E']. }
      destruct Y as (z & Hz & E). exact (H2 a z Ha Hz E). }
    destruct (Nat.eq_dec t p) as [->|N]; [rewrite (proj1 (X2 NI))|rewrite X1 by exact N]; now apply H4.
  - destruct M as (a & g & Ha & (z & Hz & HB) & _). exfalso. specialize (H3 a Ha z Hz). lia.
  - subst e'. now apply H4.
  - destruct M as (w & m' & E & ->). cbn [with_mdp e_mdp]. destruct (set_walls_inv _ _ _ _ _ _ (wf_grid _ _ _ _ W) E) as (_ & _ & _ & _ & _ & EF & _). unfold feat. rewrite EF. now apply H4.
  - destruct M as (m' & E & ->). cbn [with_mdp e_mdp]. unfold reset_mdp, set_features in E. destruct (forallb _ _); [|discriminate].
    assert (OI : forall u v : mdp R, Ok u = Ok v -> v = u) by congruence. apply OI in E. subst m'. unfold feat. cbn [m_features]. now apply H5.
Qed.
End Kept.

Lemma run_keeps_feature : forall pl k shape st f row l e, wf k shape st e -> keeps_feature f row e -> keeps_feature f row (run pl e l).
Proof.
  intros pl k shape st f row. induction l as [|o l IH]; intros e W H; [exact H|]. cbn [run fold_left]. apply IH; [now apply do_op_wf|].
  pose proof (do_op_muts pl k shape st e o W) as M. revert W H. induction M as [x|lb x x1 x2 _ M _ IHM]; intros W H; [exact H|].
  apply IHM; [eapply mut_wf; eauto|eapply mut_keeps_feature; eauto].
Qed.
Lemma run_keeps_sas : forall pl k shape st l e, wf k shape st e -> Forall keeps_walls l -> m_sas (e_mdp (run pl e l)) = m_sas (e_mdp e).
Proof.
  intros pl k shape st. induction l as [|o l IH]; intros e W H; [reflexivity|]. inversion H as [|? ? H1 H2]. subst. cbn [run fold_left].
  change (fold_left (do_op pl) l (do_op pl e o)) with (run pl (do_op pl e o) l). rewrite IH; [|now apply do_op_wf|exact H2].
  assert (K : assigns_walls o = false) by (destruct o; cbn in *; (contradiction || reflexivity)). destruct (op_core pl k shape st e o W K) as [C _].
  unfold core in C. now inversion C.
Qed.
Lemma q_known : forall (nm : string) (K : attached R -> Prop) e, knows nm K e -> exists a, lookup e nm = Ok a /\ at_name a = nm /\ K a.
Proof. intros. now apply knows_lookup. Qed.
Lemma named_static : forall (e e' : env R) nm a, static e e' -> agent_named e nm a -> exists b, agent_named e' nm b /\ ident b = ident a.
Proof.
  intros e e' nm a S [Ha Na]. destruct (static_in _ _ _ (static_sym _ _ S) Ha) as (b & Hb & EI). exists b. split; [split; [exact Hb|]|congruence].
  unfold ident in EI. congruence.
Qed.
Lemma plan_of : forall pl k shape st nm a l n s e, wf k shape st e -> m_orig_features (e_mdp e) = m_features (e_mdp e) ->
  consumes_in_range e -> (exists g tol mi, forall e a n seed, NoDup (map at_name (e_agents e)) -> agent_named e nm a -> pl_fit pl nm e n seed = vi_fit g tol mi (e_mdp e) (at_reward a)) ->
  agent_named e nm a -> (forall f, nth f (at_reward a) 0%R <> 0%R -> f < m_n_non_agent (e_mdp e) /\ nobody_consumes e f) -> Forall keeps_walls l ->
  forall n' s', pl_fit pl nm (run pl e l) n s = pl_fit pl nm e n' s'.
Proof.
  intros pl k shape st nm a l n s e W OR CR (g & tol & mi & VI) NA HR KW n' s'. pose proof (run_wf pl k shape st l e W) as W1. pose proof (run_static pl k shape st l e W) as S.
  destruct (named_static _ _ _ _ S NA) as (b & NB & EI). rewrite (VI (run pl e l) b) by (try exact (wf_names _ _ _ _ W1); exact NB). rewrite (VI e a) by (try exact (wf_names _ _ _ _ W); exact NA).
  assert (ER : at_reward b = at_reward a) by (unfold ident in EI; congruence). rewrite ER. unfold vi_fit. rewrite (run_keeps_sas pl k shape st l e W KW).
  pose proof (wf_table _ _ _ _ W) as T. apply table_shape in T. pose proof (wf_table _ _ _ _ W1) as T1. apply table_shape in T1.
  assert (MI : mident (e_mdp (run pl e l)) = mident (e_mdp e)) by (destruct S as (_ & _ & X); congruence).
  assert (NF : m_n_features (e_mdp (run pl e l)) = m_n_features (e_mdp e)) by (unfold mident in MI; congruence).
  pose proof (shape2_length _ _ _ _ T) as L. pose proof (shape2_length _ _ _ _ T1) as L1. rewrite NF in L1.
  destruct (Nat.eq_dec (length (at_reward a)) (m_n_features (e_mdp e))) as [LR|LR].
  2:{ unfold solve_value_iteration. rewrite L, L1. apply Nat.eqb_neq in LR. rewrite LR. cbn [negb]. now destruct (negb _). }
  rewrite (C141_same_rewards hard_backup (m_sas (e_mdp e)) (at_reward a) (m_features (e_mdp (run pl e l))) (at_reward a) (m_features (e_mdp e))); [reflexivity|congruence|congruence|].
  intros t Ht. unfold reward_of. apply sumf_ext. intros f Hf. apply in_seq in Hf. destruct (Req_EM_T (nth f (at_reward a) 0%R) 0%R) as [Z|Z]; [rewrite Z; lra|]. f_equal.
  destruct (HR f Z) as [H1 H2]. assert (K : keeps_feature f (feat (e_mdp e) f) e). { split; [exact H1|]. split; [exact H2|]. split; [exact CR|]. split; [reflexivity|]. intros u _. unfold feat. now rewrite OR. }
  pose proof (run_keeps_feature pl k shape st f _ l e W K) as (_ & _ & _ & K4 & _). destruct (grid_shape _ _ _ _ (wf_grid _ _ _ _ W)) as (N & _).
  apply K4. assert (NS : m_n_states (e_mdp (run pl e l)) = m_n_states (e_mdp e)) by (unfold mident in MI; congruence). rewrite NS, (gi_ns _ _ _ _ (wf_grid _ _ _ _ W)), <- N. exact Ht.
Qed.
Theorem C141_plan_stable : forall pl m ss m' e nm a l n s s' e1 l2 n2 s2 s2' e2, usable pl m -> make_env m ss = (m', Ok e) ->
  consumes_in_range e -> uses_vi pl nm -> agent_named e nm a ->
  (forall f, nth f (at_reward a) 0%R <> 0%R -> f < m_n_non_agent (e_mdp e) /\ nobody_consumes e f) ->
  Forall keeps_walls l -> env_fit pl (run pl e l) nm n s s' = (e1, Ok tt) ->
  Forall keeps_walls l2 -> env_fit pl (run pl e1 l2) nm n2 s2 s2' = (e2, Ok tt) ->
  get_agent_q_values e2 nm = get_agent_q_values e1 nm /\ get_agent_pi_p e2 nm = get_agent_pi_p e1 nm.
Proof.
  intros pl m ss m' e nm a l n s s' e1 l2 n2 s2 s2' e2 U ME CR (_ & VI) NA HR K1 F1 K2 F2. destruct (usable_clean _ _ U) as (k & shape & st & C). pose proof (usable_fresh_orig _ _ U) as FO.
  pose proof (make_env_wf _ _ _ _ _ _ _ C ME) as W. destruct (make_env_orig _ _ _ _ _ _ _ C FO ME) as [OR _].
  destruct (fit_planned _ _ _ _ _ _ _ F1) as (v1 & q1 & p1 & P1 & _ & _ & G1 & N1). destruct (fit_planned _ _ _ _ _ _ _ F2) as (v2 & q2 & p2 & P2 & _ & _ & G2 & N2).
  assert (EQ : q2 = q1). { assert (R2 : run pl e1 l2 = run pl e (l ++ OFit nm n s s' :: l2)). { unfold run. rewrite fold_left_app. cbn [fold_left do_op]. change (fold_left (do_op pl) l e) with (run pl e l). now rewrite F1. }
    assert (K3 : Forall keeps_walls (l ++ OFit nm n s s' :: l2)) by (apply Forall_app; split; [exact K1|constructor; [exact I|exact K2]]). rewrite R2, (plan_of pl k shape st nm a _ n2 s2 e W OR CR VI NA HR K3 None 0) in P2. rewrite (plan_of pl k shape st nm a _ n s e W OR CR VI NA HR K1 None 0) in P1. congruence. }
  subst q2. assert (EP : p2 = p1) by congruence. subst p2.
  destruct (q_known _ _ _ N1) as (a1 & L1 & _ & (w1 & Q1) & PP1 & _). destruct (q_known _ _ _ N2) as (a2 & L2 & _ & (w2 & Q2) & PP2 & _).
  unfold get_agent_q_values, get_agent_pi_p. rewrite L1, L2. cbn [bind]. rewrite Q1, Q2, PP1, PP2. split; reflexivity.
Qed.

(** The hypotheses are met: agent "p" wants feature 0, which nobody consumes; "q" wants and consumes feature 1. "p" plans, "q" steps onto
    feature 1 and consumes it, "p" plans again. *)
Example C141_example : exists m m' e e1 e2 e3, grid_mdp (A:=Q) Square [[1; 0; 0]; [0; 1; 0]]%Q None (3, 1) false = Ok m /\
  make_env m [mkSpec "p"%string 1%Z None 2%Z [1; 0; 0; 0]%Q []; mkSpec "q"%string 1%Z None 2%Z [0; 1; 0; 0]%Q [1%Z]] = (m', Ok e) /\
  env_fit (vi_greedy (1 # 2) (1 # 4) 10)%Q e "p" None 0 0 = (e1, Ok tt) /\
  run (vi_greedy (1 # 2) (1 # 4) 10)%Q e1 [OFit "q" None 0 0; OStep "q" 0] = e2 /\
  env_fit (vi_greedy (1 # 2) (1 # 4) 10)%Q e2 "p" None 0 0 = (e3, Ok tt) /\
  m_features (e_mdp e1) <> m_features (e_mdp e2) /\ get2 0%Q (m_features (e_mdp e1)) 1 1 = 1%Q /\ get2 0%Q (m_features (e_mdp e2)) 1 1 = 0%Q /\
  get_agent_q_values e3 "p" = get_agent_q_values e1 "p".
Proof. do 6 eexists. do 5 (split; [vm_compute; reflexivity|]). split; [vm_compute; discriminate|]. vmr. Qed.
