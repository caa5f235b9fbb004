(** C16, continued: an agent's mark is set when it moves and stays until it is consumed. *)
From Coq Require Import String List ZArith QArith Reals Bool Lia Lra.
From Verif Require Import PyBase PyProofs GridModel GridSpec MDPModel MDPSpec MDPProofs MDPProofs2 MDPProofs3 MDPProofs4 MDPProps ActionModel EnvModel EnvSpec EnvProofs EnvProofs2 EnvProofs3 EnvProofs4 EnvProps StepSpec StepProps.
Import ListNotations.
Local Close Scope Q_scope.
Local Open Scope nat_scope.

(** The agent's feature is 1 in the state it stands on. *)
Definition marked (e : env R) (a : attached R) : Prop :=
  exists s, stands_on (e_mdp e) (at_pos a) s /\ feat (e_mdp e) (at_feature_idx a) s = 1%R.

Lemma put_named : forall k shape st (e : env R) a a' b, wf k shape st e -> In a (e_agents e) -> at_name a' = at_name a -> forall m', In b (e_agents (with_agent (with_mdp e m') a')) ->
  (b = a' /\ at_name b = at_name a) \/ (In b (e_agents e) /\ at_name b <> at_name a).
Proof. intros k shape st e a a' b W Ha EN m' Hb. apply (in_put _ a a' Ha EN) in Hb. destruct Hb as [->|[Hb N]]; [left; auto|right; split; [exact Hb|congruence]]. Qed.

Lemma mut_kept : forall k shape st l e e', wf k shape st e -> mut l e e' -> l <> LRestore -> l <> LZero -> l <> LBad ->
  (forall f, f < m_n_features (e_mdp e) -> total_consumed e f <= total_consumed e' f) /\
  forall a a', In a (e_agents e) -> In a' (e_agents e') -> at_name a' = at_name a -> marked e a ->
    marked e' a' \/ total_consumed e (at_feature_idx a) < total_consumed e' (at_feature_idx a).
Proof.
  intros k shape st l e e' W M N1 N2 N3. pose proof (wf_table _ _ _ _ W) as T. pose proof (wf_nf _ _ _ _ W) as NF.
  assert (SN : forall x y, In x (e_agents e) -> In y (e_agents e) -> at_name x = at_name y -> x = y).
  { intros x y Hx Hy E. eapply same_name_same; eauto. apply (wf_names _ _ _ _ W). }
  assert (FI : forall b, In b (e_agents e) -> at_feature_idx b = m_n_non_agent (e_mdp e) + at_idx b /\ at_idx b < m_n_agents (e_mdp e)).
  { intros b Hb. destruct (wf_agents _ _ _ _ W b Hb) as (X1 & X2 & _). split; lia. }
  destruct l; try congruence; cbn [mut] in M.
  - destruct M as (a & a' & Ha & EI & EP & EC & ->). destruct (ident_name _ _ EI) as (EN & EX & _ & EF & _).
    pose proof (fun f => total_put k shape st e (e_mdp e) a a' f W Ha EI) as TP. rewrite with_mdp_id in TP.
    split; [intros f _; specialize (TP f); rewrite EC in TP; lia|].
    intros b b' Hb Hb' En (s & S1 & S2). left. apply (in_put _ a a' Ha EN) in Hb'. destruct Hb' as [->|[Hb' Nb]].
    + assert (b = a) by (apply SN; congruence). subst b. exists s. cbn [with_agent e_mdp]. rewrite EP.
      assert (at_feature_idx a' = at_feature_idx a) as -> by (unfold ident in EI; congruence). auto.
    + assert (b' = b) by (apply SN; congruence). subst b'. exists s. auto.
  - destruct M as (a & a' & s0 & Ha & EI & EC & SP & ->). destruct (ident_name _ _ EI) as (EN & EX & _).
    assert (EF : at_feature_idx a' = at_feature_idx a) by (unfold ident in EI; congruence). destruct (FI a Ha) as [FA IA].
    pose proof (fun f => total_put k shape st e (row_set (e_mdp e) (at_idx a) (onehot (e_mdp e) s0)) a a' f W Ha EI) as TP.
    split; [intros f _; specialize (TP f); rewrite EC in TP; lia|].
    assert (Hs0 : s0 < m_n_states (e_mdp e)) by (eapply py_index_ok; exact SP).
    intros b b' Hb Hb' En (s & S1 & S2). left. apply (in_put _ a a' Ha EN) in Hb'. destruct Hb' as [->|[Hb' Nb]].
    + exists s0. split; [exact SP|]. cbn [with_agent with_mdp e_mdp]. rewrite feat_row_set by assumption. rewrite EF, FA, Nat.eqb_refl.
      rewrite feat_onehot by assumption. now rewrite Nat.eqb_refl.
    + assert (b' = b) by (apply SN; congruence). subst b'. exists s. split; [exact S1|]. cbn [with_agent with_mdp e_mdp]. rewrite feat_row_set by assumption.
      destruct (FI b Hb) as [FB IB]. rewrite FB in *. destruct (Nat.eqb_spec (m_n_non_agent (e_mdp e) + at_idx b) (m_n_non_agent (e_mdp e) + at_idx a)) as [X|]; [|exact S2].
      exfalso. apply (other_idx k shape st e b a W Hb Ha); [congruence|lia].
  - destruct M as (a & a' & m' & c & Ha & E & EI & EP & EC & ->). destruct (ident_name _ _ EI) as (EN & EX & _).
    assert (EF : at_feature_idx a' = at_feature_idx a) by (unfold ident in EI; congruence).
    destruct (consume_resolved _ _ _ _ _ _ _ W Ha E) as (ridx & p & Hp & F2 & L & NS & H).
    assert (TP : forall f, total_consumed (with_agent (with_mdp e m') a') f = total_consumed e f + nth f c 0).
    { intros f. pose proof (total_put k shape st e m' a a' f W Ha EI) as TP. rewrite EC, nth_add in TP by (rewrite L; symmetry; apply (wf_agents _ _ _ _ W a Ha)). lia. }
    split; [intros f _; rewrite TP; lia|].
    assert (K : forall b, In b (e_agents e) -> marked e b -> (exists s, stands_on m' (at_pos b) s /\ feat m' (at_feature_idx b) s = 1%R) \/ nth (at_feature_idx b) c 0 = 1).
    { intros b Hb (s & S1 & S2). destruct (FI b Hb) as [FB IB]. destruct (H (at_feature_idx b) ltac:(lia)) as (H1 & H2 & H3 & H4).
      destruct (in_dec Nat.eq_dec (at_feature_idx b) ridx) as [Hin|Hin].
      - destruct (Nat.eq_dec s p) as [->|Ns]; [right; apply H3; [exact Hin|rewrite S2; lra]|].
        left. exists s. split; [unfold stands_on in *; now rewrite NS|]. now rewrite H1.
      - left. exists s. split; [unfold stands_on in *; now rewrite NS|]. destruct (Nat.eq_dec s p) as [->|Ns]; [|now rewrite H1]. destruct (H2 Hin) as [-> _]. exact S2. }
    intros b b' Hb Hb' En MB. rewrite TP.
    assert (EB : at_pos b' = at_pos b /\ at_feature_idx b' = at_feature_idx b).
    { apply (in_put _ a a' Ha EN) in Hb'. destruct Hb' as [->|[Hb' Nb]]; [assert (b = a) by (apply SN; congruence); subst b; auto|].
      assert (b' = b) by (apply SN; congruence). now subst b'. }
    destruct EB as [EB1 EB2]. destruct (K b Hb MB) as [(s & K1 & K2)|K1]; [left|right; lia].
    exists s. rewrite EB1, EB2. auto.
  - subst e'. split; [reflexivity|]. intros b b' Hb Hb' En MB. left. cbn [tick e_agents] in Hb'. assert (b' = b) by (apply SN; congruence). now subst b'.
  - destruct M as (w & m' & E & ->). destruct (set_walls_mident _ _ _ _ _ _ (wf_grid _ _ _ _ W) E) as (X & _ & F). split; [reflexivity|].
    intros b b' Hb Hb' En (s & S1 & S2). left. cbn [with_mdp e_agents] in Hb'. assert (b' = b) by (apply SN; congruence). subst b'.
    exists s. split; [eapply stands_mident; eauto|]. unfold feat. cbn [with_mdp e_mdp]. now rewrite F.
Qed.

Lemma mut_named : forall k shape st l e e' a, wf k shape st e -> mut l e e' -> In a (e_agents e) -> exists a', In a' (e_agents e') /\ at_name a' = at_name a /\ at_feature_idx a' = at_feature_idx a.
Proof.
  intros k shape st l e e' a W M Ha. assert (S : static e e') by (eapply mut_static; eauto).
  destruct (static_in _ _ _ (static_sym _ _ S) Ha) as (b & Hb & EI). exists b. split; [exact Hb|]. unfold ident in EI. split; congruence.
Qed.

Lemma muts_kept : forall k shape st (P : label -> Prop) e e', muts P e e' -> wf k shape st e -> ~ P LRestore -> ~ P LZero -> ~ P LBad ->
  (forall f, f < m_n_features (e_mdp e) -> total_consumed e f <= total_consumed e' f) /\
  forall a a', In a (e_agents e) -> In a' (e_agents e') -> at_name a' = at_name a -> marked e a ->
    marked e' a' \/ total_consumed e (at_feature_idx a) < total_consumed e' (at_feature_idx a).
Proof.
  intros k shape st P e e' M W N1 N2 N3. induction M as [e|l e e1 e2 Pl M MM IH].
  - split; [reflexivity|]. intros a a' Ha Ha' En MA. left. assert (a' = a) by (eapply same_name_same; eauto; apply (wf_names _ _ _ _ W)). now subst a'.
  - assert (W1 : wf k shape st e1) by (eapply mut_wf; eauto). specialize (IH W1). destruct IH as [IH1 IH2].
    destruct (mut_kept k shape st l e e1 W M) as [K1 K2]; try (intros ->; contradiction).
    assert (EN : m_n_features (e_mdp e1) = m_n_features (e_mdp e)).
    { assert (S : static e e1) by (eapply mut_static; eauto). destruct S as (_ & _ & X). unfold mident in X. congruence. }
    rewrite EN in IH1. split; [intros f Hf; specialize (IH1 f Hf); specialize (K1 f Hf); lia|].
    intros a a' Ha Ha' En MA. destruct (mut_named _ _ _ _ _ _ _ W M Ha) as (a1 & Ha1 & En1 & Ef1).
    assert (Hf : at_feature_idx a < m_n_features (e_mdp e)).
    { destruct (wf_agents _ _ _ _ W a Ha) as (X1 & X2 & _). pose proof (wf_nf _ _ _ _ W). lia. }
    specialize (IH1 _ Hf). specialize (K1 _ Hf).
    destruct (K2 a a1 Ha Ha1 En1 MA) as [MA1|]; [|right; lia].
    destruct (IH2 a1 a' Ha1 Ha' ltac:(congruence) MA1) as [|X]; [now left|right; rewrite Ef1 in X; lia].
Qed.

(** Once set, the mark stays through any calls other than resets, until the agents' counts of that
    feature go up: it follows the agent when the agent moves, and nothing else erases it. *)
Theorem C16_until_eaten : forall pl e l nm a a', reachable pl e -> consumes_in_range e -> Forall no_reset l -> Forall (position_ok e) l ->
  agent_named e nm a -> marked e a -> agent_named (run pl e l) nm a' ->
  marked (run pl e l) a' \/ total_consumed e (at_feature_idx a) < total_consumed (run pl e l) (at_feature_idx a).
Proof.
  intros pl e l nm a a' RE CR NR PO [Ha EN] MA [Ha' EN']. destruct (reachable_wf _ _ RE) as (k & shape & st & W). clear RE.
  assert (K : forall l e, Forall no_reset l -> Forall (position_ok e) l -> wf k shape st e -> consumes_in_range e -> exists P, muts P e (run pl e l) /\ ~ P LRestore /\ ~ P LZero /\ ~ P LBad).
  { clear. induction l as [|o l IH]; intros e NR PO W CR.
    - exists (fun _ => False). split; [constructor|]. tauto.
    - inversion NR as [|? ? Ho NR']. inversion PO as [|? ? P0 PO']. subst. cbn [run fold_left]. fold (run pl (do_op pl e o) l).
      pose proof (do_op_muts pl k shape st e o W) as M. assert (S : static e (do_op pl e o)) by (eapply muts_static; eauto).
      destruct (IH (do_op pl e o)) as (P & M2 & Q1 & Q2 & Q3).
      + exact NR'.
      + eapply Forall_impl; [|exact PO']. intros [] Hp; cbn in *; auto. destruct S as (_ & _ & X). unfold mident in X. inversion X as [[E0 E1 E2 E3 E4 E5 E6 E7]]. now rewrite E2.
      + now apply do_op_wf.
      + eapply static_consumes; eauto.
      + exists (fun x => op_label e o x \/ P x). split; [|split; [|split]].
        * eapply muts_trans; eapply muts_weaken; [|exact M| |exact M2]; cbn; tauto.
        * intros [X|X]; [|tauto]. destruct o; cbn in X; try tauto; try discriminate. now elim Ho.
        * intros [X|X]; [|tauto]. destruct o; cbn in X, P0; try tauto; try discriminate. lia.
        * intros [X|X]; [|tauto]. destruct o; cbn in X; try tauto; try discriminate. }
  destruct (K l e NR PO W CR) as (P & M & Q1 & Q2 & Q3). eapply (muts_kept k shape st P); eauto. congruence.
Qed.

(** It is set anew when the agent moves: by a step, after which it is there unless that very step
    consumed it, by an accepted assignment of its position, and by a reset. *)
Theorem C16_renewed : forall pl e nm a', reachable pl e ->
  (forall seed e' p a, env_step pl e nm seed = (e', Ok p) -> agent_named e nm a -> agent_named e' nm a' ->
     marked e' a' \/ nth (at_feature_idx a) (at_consumed a') 0 = S (nth (at_feature_idx a) (at_consumed a) 0)) /\
  (forall p e', set_agent_position e nm p = (e', Ok tt) -> agent_named e' nm a' -> marked e' a') /\
  (forall e', env_reset e = (e', Ok tt) -> agent_named e' nm a' -> marked e' a').
Proof.
  intros pl e nm a' RE. destruct (reachable_wf _ _ RE) as (k & shape & st & W).
  assert (SN : forall x y, In x (e_agents e) -> In y (e_agents e) -> at_name x = at_name y -> x = y).
  { intros x y Hx Hy E. eapply same_name_same; eauto. apply (wf_names _ _ _ _ W). }
  split; [|split].
  - intros seed e' p a E [Ha EN] [Ha' EN'].
    assert (W' : wf k shape st e').
    { replace e' with (do_op pl e (OStep nm seed)) by (cbn [do_op]; now rewrite E). now apply do_op_wf. }
    destruct (C19_step _ _ _ _ _ _ RE E) as (b & b' & act & s & ridx & [Hb NB] & [Hb' NB'] & _ & _ & GN & Ep & SA & EPOS & _ & _ & _ & SB & F2 & H).
    assert (b = a) by (apply SN; congruence). subst b. assert (b' = a') by (eapply same_name_same; eauto; [apply (wf_names _ _ _ _ W')|congruence]). subst b'.
    destruct (wf_agents _ _ _ _ W a Ha) as (X1 & X2 & _). pose proof (wf_nf _ _ _ _ W) as NF.
    destruct (H (at_feature_idx a) ltac:(lia)) as (_ & H2 & H3). cbv zeta in *. unfold moved_feat in H2, H3. rewrite !Nat.eqb_refl in H2, H3.
    destruct (in_dec Nat.eq_dec (at_feature_idx a) ridx) as [Hin|Hin]; [right; apply H2; split; [exact Hin|lra]|left].
    exists s. split.
    + rewrite EPOS, Ep. unfold stands_on. rewrite SB. pose proof (next_state_lt _ _ _ _ _ _ _ (wf_grid _ _ _ _ W) GN).
      cbn. now apply py_index_nat.
    + destruct SA as (_ & _ & _ & _ & _ & -> & _). apply H3. tauto.
  - intros p e' E [Ha' EN']. unfold set_agent_position in E.
    destruct (lookup_spec k shape st e nm W) as [(a & EL & Ha & EN)|(EL & _)]; rewrite EL in E; [|discriminate E].
    destruct (wf_agents _ _ _ _ W a Ha) as (Hi & FA & _). pose proof (wf_table _ _ _ _ W) as T. pose proof (wf_nf _ _ _ _ W) as NF.
    destruct (move_agent_spec (e_mdp e) a p T NF Hi) as [(s & SP & Hs & EM)|[(_ & EM)|(_ & EM)]]; rewrite EM in E; [|discriminate E|discriminate E].
    apply (f_equal fst) in E. cbn [fst] in E. subst e'. cbn [with_agent e_agents] in Ha'.
    apply (in_put _ a (set_pos_only a p) Ha eq_refl) in Ha'. destruct Ha' as [->|[_ NB]]; [|cbn in NB; congruence].
    exists s. split; [exact SP|]. cbn [with_agent with_mdp e_mdp set_pos_only at_feature_idx].
    rewrite feat_row_set by assumption. rewrite FA, (Nat.add_comm (at_idx a)), Nat.eqb_refl, feat_onehot by assumption. now rewrite Nat.eqb_refl.
  - intros e' E [Ha' _]. destruct (reachable_marks _ _ RE) as [_ OM]. destruct (env_reset_spec k shape st e W) as (e2 & E2 & MM & _). rewrite E in E2.
    assert (e2 = e') by (apply (f_equal fst) in E2; cbn in E2; congruence). subst e2.
    assert (W' : wf k shape st e') by (eapply muts_wf; eauto).
    assert (M1 : marks1 e') by exact (reset_marks1 k shape st e e' W OM E). destruct (M1 a' Ha') as (s & S1 & S2). exists s. split; [exact S1|].
    destruct (wf_agents _ _ _ _ W' a' Ha') as (_ & -> & _). unfold row_index in S2. rewrite Nat.add_comm. rewrite S2 by (eapply py_index_ok; exact S1). now rewrite Nat.eqb_refl.
Qed.

(** Agent q walks 3, 2, 0 onto agent p and consumes its mark; p's mark comes back when p moves. *)
Definition ex_hunter {A} `{Num A} : spec A := mkSpec "q"%string 1 None 3 [n0; n0; n1; n0] [2]%Z.
Example C16_example_eaten : exists m m' e, grid_mdp (A:=Q) Square ex_ft None (2, 2) false = Ok m /\ make_env m [ex_p; ex_hunter] = (m', Ok e) /\
  let pl := ex_pl [0; 1; 3; 2]%Z in
  let e1 := run pl e [OFit "q" None 0 0; OStep "q" 0] in let e2 := run pl e1 [OStep "q" 0] in let e3 := run pl e2 [OSetPosition "p" 1] in
  (nth 2 (m_features (e_mdp e1)) [], total_consumed e1 2) = ([1; 0; 0; 0]%Q, 0) /\
  (nth 2 (m_features (e_mdp e2)) [], total_consumed e2 2) = ([0; 0; 0; 0]%Q, 1) /\
  (nth 2 (m_features (e_mdp e3)) [], total_consumed e3 2) = ([0; 1; 0; 0]%Q, 1).
Proof. do 3 eexists. split; [vm_compute; reflexivity|]. split; [vm_compute; reflexivity|]. vm_compute. repeat split. Qed.
