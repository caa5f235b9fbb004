From Coq Require Import String List ZArith Reals Bool Lia Lra.
From Verif Require Import PyBase PyProofs GridModel GridSpec MDPModel MDPSpec MDPProofs MDPProofs2 MDPProofs3 MDPProofs4 MDPProps ActionModel EnvModel EnvSpec EnvProofs EnvProofs2 EnvProofs3.
Import ListNotations.
Local Open Scope nat_scope.

Lemma nth_firstn_lt : forall A n (l : list A) i d, i < n -> nth i (firstn n l) d = nth i l d.
Proof. induction n; intros l i d H; [lia|]. destruct l; [reflexivity|]. destruct i; [reflexivity|]. cbn. apply IHn. lia. Qed.

Definition b2n (b : bool) : nat := if b then 1 else 0.

Lemma count_change : forall (P Q : nat -> bool) p, (forall t, t <> p -> P t = Q t) -> forall n, p < n ->
  length (filter Q (seq 0 n)) + b2n (P p) = length (filter P (seq 0 n)) + b2n (Q p).
Proof.
  intros P Q p H. assert (EQ : forall n, n <= p -> length (filter Q (seq 0 n)) = length (filter P (seq 0 n))).
  { intros n Hn. f_equal. apply filter_ext_in. intros t Ht. apply in_seq in Ht. symmetry. apply H. lia. }
  induction n as [|n IH]; intros Hn; [lia|]. rewrite seq_S, !filter_app, !app_length. cbn [Nat.add filter].
  destruct (Nat.eq_dec n p) as [->|N].
  - rewrite EQ by lia. destruct (P p), (Q p); cbn; lia.
  - specialize (IH ltac:(lia)). rewrite (H n N). destruct (Q n); cbn; lia.
Qed.

Lemma holding_ext : forall (m m' : mdp R) f, m_n_states m' = m_n_states m -> (forall t, t < m_n_states m -> feat m' f t = feat m f t) -> holding m' f = holding m f.
Proof.
  intros m m' f N H. unfold holding. rewrite N. f_equal. apply filter_ext_in. intros t Ht. apply in_seq in Ht.
  change (nltb n0 (feat m' f t) = nltb n0 (feat m f t)). rewrite H by lia. reflexivity.
Qed.

Lemma feat_row_set : forall (m : mdp R) i r f t, table_ok m -> m_n_features m = m_n_non_agent m + m_n_agents m -> i < m_n_agents m ->
  feat (row_set m i r) f t = if f =? m_n_non_agent m + i then nth t r 0%R else feat m f t.
Proof.
  intros m i r f t [T _] NF Hi. unfold feat, get2, row_set. cbn [m_features with_features]. rewrite nth_upd.
  destruct (Nat.eqb_spec f (m_n_non_agent m + i)) as [->|]; [|reflexivity].
  destruct (Nat.ltb_spec (m_n_non_agent m + i) (length (m_features m))); [reflexivity|lia].
Qed.
Lemma nth_zeros : forall n t, nth t (zeros1 (A:=R) n) 0%R = 0%R.
Proof. intros. unfold zeros1. apply nth_repeat. Qed.
Lemma nth_add : forall (a c : list nat) f, length c = length a -> nth f (map (fun '(x, y) => x + y) (combine a c)) 0 = nth f a 0 + nth f c 0.
Proof.
  induction a as [|x a IH]; intros [|y c] f L; try discriminate L.
  - destruct f; reflexivity.
  - destruct f; [reflexivity|]. cbn. apply IH. now inversion L.
Qed.

Lemma total_put : forall k shape st e m' a a' f, wf k shape st e -> In a (e_agents e) -> ident a' = ident a ->
  total_consumed (with_agent (with_mdp e m') a') f + nth f (at_consumed a) 0 = total_consumed e f + nth f (at_consumed a') 0.
Proof.
  intros k shape st e m' a a' f W Ha EI. destruct (ident_name _ _ EI) as (EN & _). unfold total_consumed. cbn [with_agent with_mdp e_agents].
  apply (sum_put (fun a => nth f (at_consumed a) 0)); auto. apply (wf_names _ _ _ _ W).
Qed.

Lemma consume_resolved : forall k shape st e a m' c, wf k shape st e -> In a (e_agents e) ->
  consume_features (e_mdp e) (at_consumes a) (at_pos a) = (m', Ok c) ->
  exists ridx p, stands_on (e_mdp e) (at_pos a) p /\ Forall2 (fun z f => py_index (m_n_features (e_mdp e)) z = Ok f) (at_consumes a) ridx /\
   length c = m_n_features (e_mdp e) /\ m_n_states m' = m_n_states (e_mdp e) /\
   forall f, f < m_n_features (e_mdp e) ->
      (forall t, t <> p -> feat m' f t = feat (e_mdp e) f t) /\
      (~ In f ridx -> feat m' f p = feat (e_mdp e) f p /\ nth f c 0 = 0) /\
      (In f ridx -> (0 < feat (e_mdp e) f p)%R -> feat m' f p = 0%R /\ nth f c 0 = 1) /\
      (In f ridx -> (feat (e_mdp e) f p <= 0)%R -> feat m' f p = feat (e_mdp e) f p /\ nth f c 0 = 0).
Proof.
  intros k shape st e a m' c W Ha E. pose proof (wf_table _ _ _ _ W) as T. pose proof T as T'. apply table_shape in T.
  destruct (wf_agents _ _ _ _ W a Ha) as (_ & _ & _ & _ & (p & Hp) & _).
  destruct (consume_loop_ok _ _ _ _ _ _ E) as (ridx & F2). rewrite (shape2_length _ _ _ _ T) in F2.
  destruct (C13_consume (e_mdp e) (at_consumes a) ridx (at_pos a) p T' F2 Hp) as (m2 & c2 & E2 & SB & _ & L & H).
  rewrite E in E2. inversion E2. subst. exists ridx, p. split; [exact Hp|]. split; [exact F2|]. split; [exact L|].
  split; [rewrite SB; reflexivity|exact H].
Qed.

Lemma mut_conserved : forall k shape st l e e' f, wf k shape st e -> mut l e e' -> l <> LRestore -> l <> LBad -> f < m_n_non_agent (e_mdp e) ->
  holding (e_mdp e') f + total_consumed e' f = holding (e_mdp e) f + total_consumed e f.
Proof.
  intros k shape st l e e' f W M N1 N2 Hf. pose proof (wf_table _ _ _ _ W) as T. pose proof (wf_nf _ _ _ _ W) as NF.
  destruct l; try congruence; cbn [mut] in M.
  - destruct M as (a & a' & Ha & EI & EP & EC & ->). rewrite <- (with_mdp_id e) at 2. pose proof (total_put k shape st e (e_mdp e) a a' f W Ha EI) as TP.
    rewrite EC in TP. cbn [with_agent e_mdp] in *. lia.
  - destruct M as (a & a' & s & Ha & EI & EC & SP & ->). destruct (wf_agents _ _ _ _ W a Ha) as (Hi & _).
    pose proof (total_put k shape st e (row_set (e_mdp e) (at_idx a) (onehot (e_mdp e) s)) a a' f W Ha EI) as TP. rewrite EC in TP.
    assert (HH : holding (e_mdp (with_agent (with_mdp e (row_set (e_mdp e) (at_idx a) (onehot (e_mdp e) s))) a')) f = holding (e_mdp e) f); [|lia].
    apply holding_ext; [reflexivity|]. intros t Ht. cbn [with_agent with_mdp e_mdp]. rewrite feat_row_set by assumption. destruct (Nat.eqb_spec f (m_n_non_agent (e_mdp e) + at_idx a)); [lia|reflexivity].
  - destruct M as (a & Ha & ->). destruct (wf_agents _ _ _ _ W a Ha) as (Hi & _). cbn [with_mdp e_mdp]. unfold total_consumed. cbn [with_mdp e_agents]. f_equal.
    apply holding_ext; [reflexivity|]. intros t Ht. rewrite feat_row_set by assumption. destruct (Nat.eqb_spec f (m_n_non_agent (e_mdp e) + at_idx a)); [lia|reflexivity].
  - destruct M as (a & a' & m' & c & Ha & E & EI & EP & EC & ->).
    destruct (consume_resolved _ _ _ _ _ _ _ W Ha E) as (ridx & p & Hp & F2 & L & NS & H). destruct (H f ltac:(lia)) as (H1 & H2 & H3 & H4).
    pose proof (total_put k shape st e m' a a' f W Ha EI) as TP. rewrite EC, nth_add in TP by (rewrite L; symmetry; apply (wf_agents _ _ _ _ W a Ha)).
    cbn [with_agent with_mdp e_mdp]. 
    assert (HH : holding m' f + nth f c 0 = holding (e_mdp e) f); [|lia].
    unfold holding. rewrite NS.
    pose proof (count_change (fun t => nltb n0 (feat (e_mdp e) f t)) (fun t => nltb n0 (feat m' f t)) p) as CC.
    specialize (CC ltac:(intros t Ht; cbv beta; now rewrite H1)). destruct (py_index_ok _ _ _ Hp) as [Hp' _]. specialize (CC _ Hp'). cbv beta in CC.
    unfold feat in CC. change 0%R with (n0 (A:=R)) in CC.
    assert (X : b2n (nltb n0 (get2 n0 (m_features (e_mdp e)) f p)) = nth f c 0 + b2n (nltb n0 (get2 n0 (m_features m') f p))); [|lia].
    change (b2n (nltb n0 (feat (e_mdp e) f p)) = nth f c 0 + b2n (nltb n0 (feat m' f p))).
    destruct (in_dec Nat.eq_dec f ridx) as [Hin|Hin].
    + destruct (Rlt_le_dec 0 (feat (e_mdp e) f p)) as [Pos|Neg].
      * destruct (H3 Hin Pos) as [-> ->]. cbn [nltb n0 NumR]. unfold Rltb. destruct (Rlt_dec 0 (feat (e_mdp e) f p)); [|lra]. destruct (Rlt_dec 0 0); [lra|reflexivity].
      * destruct (H4 Hin Neg) as [-> ->]. reflexivity.
    + destruct (H2 Hin) as [-> ->]. reflexivity.
  - subst. reflexivity.
  - destruct M as (w & m' & E & ->). destruct (set_walls_mident _ _ _ _ _ _ (wf_grid _ _ _ _ W) E) as (X & _ & F). unfold mident in X. inversion X.
    unfold holding, total_consumed. cbn [with_mdp e_mdp e_agents]. rewrite F. congruence.
Qed.
Lemma muts_conserved : forall k shape st (P : label -> Prop) e e' f, wf k shape st e -> muts P e e' -> ~ P LRestore -> ~ P LBad -> f < m_n_non_agent (e_mdp e) ->
  holding (e_mdp e') f + total_consumed e' f = holding (e_mdp e) f + total_consumed e f.
Proof.
  intros k shape st P e e' f W M N1 N2 Hf. induction M as [|l e e1 e2 Pl M MM IH]; [reflexivity|].
  assert (W1 : wf k shape st e1) by (eapply mut_wf; eauto). assert (S : static e e1) by (eapply mut_static; eauto).
  rewrite IH; [|exact W1|destruct S as (_ & _ & X); unfold mident in X; inversion X; lia].
  eapply mut_conserved; eauto; intros ->; contradiction.
Qed.

(** * The agents' own rows *)
Definition row_index (e : env R) (a : attached R) : nat := m_n_non_agent (e_mdp e) + at_idx a.
(** row marks only the position *)
Definition marks (e : env R) : Prop := forall a, In a (e_agents e) -> exists s, stands_on (e_mdp e) (at_pos a) s /\
  (forall t, t < m_n_states (e_mdp e) -> t <> s -> feat (e_mdp e) (row_index e a) t = 0%R) /\
  (feat (e_mdp e) (row_index e a) s = 0%R \/ feat (e_mdp e) (row_index e a) s = 1%R).
Definition marks1 (e : env R) : Prop := forall a, In a (e_agents e) -> exists s, stands_on (e_mdp e) (at_pos a) s /\
  forall t, t < m_n_states (e_mdp e) -> feat (e_mdp e) (row_index e a) t = if t =? s then 1%R else 0%R.
Definition orig_marks (e : env R) : Prop := forall a, In a (e_agents e) -> exists s, stands_on (e_mdp e) (at_start a) s /\
  forall t, t < m_n_states (e_mdp e) -> get2 0%R (m_orig_features (e_mdp e)) (row_index e a) t = if t =? s then 1%R else 0%R.
Definition consumes_ordinary (e : env R) : Prop := forall a, In a (e_agents e) -> forall z f, In z (at_consumes a) ->
  py_index (m_n_features (e_mdp e)) z = Ok f -> f < m_n_non_agent (e_mdp e).

Lemma marks1_marks : forall e, marks1 e -> marks e.
Proof.
  intros e M a Ha. destruct (M a Ha) as (s & Hs & H). exists s. split; [exact Hs|]. split.
  - intros t Ht N. rewrite H by exact Ht. destruct (Nat.eqb_spec t s); [contradiction|reflexivity].
  - right. rewrite H; [now rewrite Nat.eqb_refl|]. eapply py_index_ok; exact Hs.
Qed.

Lemma other_idx : forall k shape st e a b, wf k shape st e -> In a (e_agents e) -> In b (e_agents e) -> at_name a <> at_name b -> at_idx a <> at_idx b.
Proof.
  intros k shape st e a b W Ha Hb N E. apply N. pose proof (wf_idx _ _ _ _ W) as ND. revert ND Ha Hb E.
  generalize (e_agents e) as l. clear. induction l as [|c l IH]; intros ND Ha Hb E; [destruct Ha|]. cbn in ND. inversion ND as [|? ? NI ND']. subst.
  destruct Ha as [->|Ha], Hb as [->|Hb]; auto.
  - elim NI. rewrite E. now apply in_map.
  - elim NI. rewrite <- E. now apply in_map.
Qed.

Lemma feat_onehot : forall (m : mdp R) s t, s < m_n_states m -> t < m_n_states m -> nth t (onehot m s) 0%R = if t =? s then 1%R else 0%R.
Proof. intros. unfold onehot. now apply onehot_nth. Qed.

Lemma stands_mident : forall m m' p s, mident m' = mident m -> stands_on m p s -> stands_on m' p s.
Proof. intros m m' p s E H. unfold mident in E. unfold stands_on in *. inversion E. congruence. Qed.

(** A statement about each agent's row, preserved by elementary changes. *)
Lemma mut_rows : forall k shape st l e e' (Q : (nat -> R) -> nat -> Prop), wf k shape st e -> mut l e e' -> l <> LRestore ->
  (forall g h s, (forall t, t < m_n_states (e_mdp e) -> g t = h t) -> s < m_n_states (e_mdp e) -> Q g s -> Q h s) ->
  (forall s, s < m_n_states (e_mdp e) -> Q (fun t => if t =? s then 1%R else 0%R) s) ->
  (l = LZero -> forall s, Q (fun _ => 0%R) s) ->
  (l = LBad -> forall g h s, (forall t, h t = g t \/ h t = 0%R) -> Q g s -> Q h s) ->
  (l = LConsume -> forall a ridx p s, In a (e_agents e) -> Forall2 (fun z f => py_index (m_n_features (e_mdp e)) z = Ok f) (at_consumes a) ridx ->
     forall b, In b (e_agents e) -> In (row_index e b) ridx -> forall g h, (forall t, t <> p -> h t = g t) -> h p = 0%R -> Q g s -> Q h s) ->
  (forall a, In a (e_agents e) -> exists s, stands_on (e_mdp e) (at_pos a) s /\ Q (feat (e_mdp e) (row_index e a)) s) ->
  forall a, In a (e_agents e') -> exists s, stands_on (e_mdp e') (at_pos a) s /\ Q (feat (e_mdp e') (row_index e' a)) s.
Proof.
  intros k shape st l e e' Q W M N EXT Q1 QZ QB QC IHa. pose proof (wf_table _ _ _ _ W) as T. pose proof (wf_nf _ _ _ _ W) as NF.
  assert (LT : forall p s, stands_on (e_mdp e) p s -> s < m_n_states (e_mdp e)) by (intros p s H; eapply py_index_ok; exact H).
  destruct l; try congruence; cbn [mut] in M.
  - destruct M as (a & a' & Ha & EI & EP & EC & ->). destruct (ident_name _ _ EI) as (EN & EX & _). intros b Hb. apply (in_put _ a a' Ha EN) in Hb.
    destruct Hb as [->|[Hb _]]; [|now apply IHa]. destruct (IHa a Ha) as (s & H1 & H2). exists s. rewrite EP. split; [exact H1|]. unfold row_index in *. cbn [with_agent e_mdp]. now rewrite EX.
  - destruct M as (a & a' & s & Ha & EI & EC & SP & ->). destruct (ident_name _ _ EI) as (EN & EX & _). destruct (wf_agents _ _ _ _ W a Ha) as (Hi & _).
    intros b Hb. apply (in_put _ a a' Ha EN) in Hb. destruct Hb as [->|[Hb NB]].
    + exists s. split; [exact SP|]. apply (EXT (fun t => if t =? s then 1%R else 0%R)); [|eauto|eauto]. intros t Ht. cbn [with_agent with_mdp e_mdp]. rewrite feat_row_set by assumption.
      unfold row_index. cbn [with_agent with_mdp e_mdp row_set with_features m_n_non_agent]. rewrite EX, Nat.eqb_refl. rewrite feat_onehot; eauto.
    + destruct (IHa b Hb) as (sb & H1 & H2). exists sb. split; [exact H1|]. apply (EXT (feat (e_mdp e) (row_index e b))); [|eauto|exact H2].
      intros t Ht. cbn [with_agent with_mdp e_mdp]. rewrite feat_row_set by assumption. unfold row_index. cbn [with_agent with_mdp e_mdp row_set with_features m_n_non_agent].
      destruct (Nat.eqb_spec (m_n_non_agent (e_mdp e) + at_idx b) (m_n_non_agent (e_mdp e) + at_idx a)) as [X|]; [|reflexivity].
      exfalso. apply (other_idx k shape st e b a W Hb Ha); [congruence|lia].
  - destruct M as (a & Ha & ->). destruct (wf_agents _ _ _ _ W a Ha) as (Hi & _). intros b Hb. destruct (IHa b Hb) as (sb & H1 & H2). exists sb. split; [exact H1|].
    destruct (Nat.eq_dec (row_index e b) (row_index e a)) as [X|X].
    + apply (EXT (fun _ => 0%R)); [|eauto|auto]. intros t Ht. cbn [with_mdp e_mdp]. rewrite feat_row_set by assumption. unfold row_index in *. cbn [with_mdp e_mdp row_set with_features m_n_non_agent].
      rewrite X, Nat.eqb_refl. symmetry. apply nth_zeros.
    + apply (EXT (feat (e_mdp e) (row_index e b))); [|eauto|exact H2]. intros t Ht. cbn [with_mdp e_mdp]. rewrite feat_row_set by assumption. unfold row_index in *. cbn [with_mdp e_mdp row_set with_features m_n_non_agent].
      destruct (Nat.eqb_spec (m_n_non_agent (e_mdp e) + at_idx b) (m_n_non_agent (e_mdp e) + at_idx a)); [lia|reflexivity].
  - destruct M as (a & a' & m' & c & Ha & E & EI & EP & EC & ->). destruct (ident_name _ _ EI) as (EN & EX & _).
    destruct (consume_resolved _ _ _ _ _ _ _ W Ha E) as (ridx & p & Hp & F2 & L & NS & H).
    destruct (consume_result _ _ _ _ _ _ _ W Ha E) as (g & Em & _).
    assert (K : forall b, In b (e_agents e) -> exists s, stands_on m' (at_pos b) s /\ Q (feat m' (m_n_non_agent m' + at_idx b)) s).
    { intros b Hb. destruct (IHa b Hb) as (sb & H1 & H2). exists sb. split; [subst m'; exact H1|].
      replace (m_n_non_agent m' + at_idx b) with (row_index e b) by (subst m'; reflexivity).
      destruct (wf_agents _ _ _ _ W b Hb) as (Hib & _). destruct (H (row_index e b) ltac:(unfold row_index; lia)) as (A1 & A2 & A3 & A4).
      destruct (in_dec Nat.eq_dec (row_index e b) ridx) as [Hin|Hin].
      - destruct (Rlt_le_dec 0 (feat (e_mdp e) (row_index e b) p)) as [Pos|Neg].
        + apply (QC eq_refl a ridx p sb Ha F2 b Hb Hin (feat (e_mdp e) (row_index e b))); [exact A1|apply A3; assumption|exact H2].
        + apply (EXT (feat (e_mdp e) (row_index e b))); [|eauto|exact H2]. intros t Ht. destruct (Nat.eq_dec t p) as [->|X]; [symmetry; apply A4; assumption|symmetry; now apply A1].
      - apply (EXT (feat (e_mdp e) (row_index e b))); [|eauto|exact H2]. intros t Ht. destruct (Nat.eq_dec t p) as [->|X]; [symmetry; apply A2; assumption|symmetry; now apply A1]. }
    intros b Hb. apply (in_put _ a a' Ha EN) in Hb. destruct Hb as [->|[Hb _]].
    + destruct (K a Ha) as (s & K1 & K2). exists s. rewrite EP. split; [exact K1|]. unfold row_index. rewrite EX. exact K2.
    + exact (K b Hb).
  - destruct M as (a & g & Ha & _ & S & G & ->). intros b Hb. destruct (IHa b Hb) as (sb & H1 & H2). exists sb. split; [exact H1|].
    apply (QB eq_refl (feat (e_mdp e) (row_index e b))); [|exact H2]. intros t. apply G.
  - subst. exact IHa.
  - destruct M as (w & m' & E & ->). destruct (set_walls_mident _ _ _ _ _ _ (wf_grid _ _ _ _ W) E) as (X & _ & F).
    intros b Hb. destruct (IHa b Hb) as (sb & H1 & H2). exists sb. split; [eapply stands_mident; eauto|].
    unfold mident in X. inversion X as [[E0 E1 E2 E3 E4 E5 E6 E7]]. unfold row_index, feat in *. cbn [with_mdp e_mdp]. rewrite F, E6. exact H2.
Qed.

Lemma mut_marks : forall k shape st l e e', wf k shape st e -> mut l e e' -> l <> LRestore -> marks e -> marks e'.
Proof.
  intros k shape st l e e' W M N H.
  assert (S : static e e') by (eapply mut_static; eauto). destruct S as (_ & _ & X). unfold mident in X. inversion X as [[E0 E1 E2 E3 E4 E5 E6 E7]].
  unfold marks in *. rewrite E2.
  apply (mut_rows k shape st l e e' (fun g s => (forall t, t < m_n_states (e_mdp e) -> t <> s -> g t = 0%R) /\ (g s = 0%R \/ g s = 1%R)) W M N).
  - intros g h s EX Hs [H1 H2]. split; [intros t Ht Nt; rewrite <- EX by exact Ht; auto|]. now rewrite <- !EX by exact Hs.
  - intros s Hs. split; [intros t _ Nt; destruct (Nat.eqb_spec t s); [contradiction|reflexivity]|]. rewrite Nat.eqb_refl. auto.
  - intros _ s. auto.
  - intros _ g h s G [H1 H2]. split.
    + intros t Ht Nt. destruct (G t) as [->| ->]; auto.
    + destruct (G s) as [->| ->]; auto.
  - intros _ a ridx p s Ha F2 b Hb Hin g h G P0 [H1 H2]. split.
    + intros t Ht Nt. destruct (Nat.eq_dec t p) as [->|]; [exact P0|]. rewrite G by assumption. auto.
    + destruct (Nat.eq_dec s p) as [->|]; [auto|]. rewrite G by assumption. auto.
  - exact H.
Qed.
Lemma mut_marks1 : forall k shape st l e e', wf k shape st e -> mut l e e' -> l <> LRestore -> l <> LZero -> l <> LBad -> consumes_ordinary e -> marks1 e -> marks1 e'.
Proof.
  intros k shape st l e e' W M N N2 N3 CO H.
  assert (S : static e e') by (eapply mut_static; eauto). destruct S as (_ & _ & X). unfold mident in X. inversion X as [[E0 E1 E2 E3 E4 E5 E6 E7]].
  unfold marks1 in *. rewrite E2.
  apply (mut_rows k shape st l e e' (fun g s => forall t, t < m_n_states (e_mdp e) -> g t = if t =? s then 1%R else 0%R) W M N); try congruence.
  - intros g h s EX Hs H1 t Ht. rewrite <- EX by exact Ht. auto.
  - intros _ a ridx p s Ha F2 b Hb Hin. exfalso.
    assert (Y : exists z, In z (at_consumes a) /\ py_index (m_n_features (e_mdp e)) z = Ok (row_index e b)).
    { clear -F2 Hin. induction F2; [destruct Hin|]. destruct Hin as [->|Hin]; [eexists; split; [now left|assumption]|]. destruct (IHF2 Hin) as (z & Hz & Ez). exists z. split; [now right|exact Ez]. }
    destruct Y as (z & Hz & Ez). specialize (CO a Ha z _ Hz Ez). unfold row_index in CO. lia.
  - exact H.
Qed.

Lemma static_ordinary : forall e e', static e e' -> consumes_ordinary e -> consumes_ordinary e'.
Proof.
  intros e e' S C a Ha z f Hz Ez. destruct (static_in _ _ _ S Ha) as (b & Hb & EI). destruct (ident_name _ _ EI) as (_ & _ & EC & _).
  destruct S as (_ & _ & M). unfold mident in M. inversion M as [[E0 E1 E2 E3 E4 E5 E6 E7]]. rewrite E6. apply (C b Hb z); [congruence|]. now rewrite <- E5.
Qed.
Lemma static_orig_marks : forall e e', static e e' -> orig_marks e -> orig_marks e'.
Proof.
  intros e e' S C a Ha. destruct (static_in _ _ _ S Ha) as (b & Hb & EI). destruct (ident_name _ _ EI) as (_ & EX & _ & _ & ES & _).
  destruct (C b Hb) as (s & H1 & H2). destruct S as (_ & _ & M). exists s. split; [rewrite <- ES; eapply stands_mident; eauto|].
  unfold mident in M. inversion M as [[E0 E1 E2 E3 E4 E5 E6 E7]]. unfold row_index in *. rewrite E2, E4, E6, <- EX. exact H2.
Qed.

Lemma muts_marks : forall k shape st (P : label -> Prop) e e', wf k shape st e -> muts P e e' -> ~ P LRestore -> marks e -> marks e'.
Proof.
  intros k shape st P e e' W M N H. induction M as [|l e e1 e2 Pl M MM IH]; [exact H|].
  apply IH; [eapply mut_wf; eauto|]. eapply mut_marks; eauto. intros ->; contradiction.
Qed.
Lemma muts_marks1 : forall k shape st (P : label -> Prop) e e', wf k shape st e -> muts P e e' -> ~ P LRestore -> ~ P LZero -> ~ P LBad -> consumes_ordinary e -> marks1 e -> marks1 e'.
Proof.
  intros k shape st P e e' W M N N2 N3 C H. induction M as [|l e e1 e2 Pl M MM IH]; [exact H|].
  apply IH; [eapply mut_wf; eauto|eapply static_ordinary; [eapply mut_static; eauto|exact C]|]. eapply mut_marks1; eauto; intros ->; contradiction.
Qed.

(** Construction and reset put the rows in order. *)
Lemma rows_from_nth : forall m ss i s p, nth_error ss i = Some s -> stands_on m (sp_pos s) p -> nth i (rows_from m ss) [] = onehot m p.
Proof.
  induction ss as [|x ss IH]; intros [|i] s p E SP; try discriminate E; cbn.
  - inversion E. subst. unfold stands_on in SP. now rewrite SP.
  - eapply IH; eauto.
Qed.
Lemma make_env_marks : forall k shape st m ss m' e, clean k shape st m -> fresh_orig m -> make_env m ss = (m', Ok e) -> marks1 e /\ orig_marks e.
Proof.
  intros k shape st m ss m' e C FO E. pose proof (make_env_valid _ _ _ _ _ _ _ C E) as V.
  destruct (make_env_orig _ _ _ _ _ _ _ C FO E) as [OR _].
  destruct (make_env_ok k shape st m ss C V) as (m0 & C0 & A0 & F0 & N0 & S0 & W0 & NS0 & _ & _ & E'). cbv zeta in E'. rewrite E in E'. inversion E' as [[E1 E2]]. clear E'.
  set (m1 := match ss with [] => m0 | _ => extended m0 (rows_from m0 ss) end) in *.
  destruct (dict_inv (m_n_non_agent m0) ss 0 []) as (D1 & D2 & D3 & D4); [constructor|constructor|intros a []|].
  assert (K : forall a, In a (e_agents e) -> at_start a = at_pos a /\ exists s, stands_on (e_mdp e) (at_pos a) s /\
     forall t, t < m_n_states (e_mdp e) -> feat (e_mdp e) (row_index e a) t = if t =? s then 1%R else 0%R).
  { subst e. cbn [e_agents e_mdp]. intros a Ha. destruct (D4 a Ha) as [[]|Hin]. destruct (agents_from_in _ _ _ _ Hin) as (i & s & Hn & ->). split; [reflexivity|].
    assert (Hs : In s ss) by (eapply nth_error_In; eauto). destruct (V s Hs) as (V1 & V2 & V3).
    assert (SO : exists p, stands_on m0 (sp_pos s) p) by (apply stands_on_iff; rewrite NS0; exact V3). destruct SO as (p & SO).
    assert (M1 : m1 = extended m0 (rows_from m0 ss)) by (unfold m1; destruct ss; [destruct Hs|reflexivity]).
    exists p. rewrite M1. split; [exact SO|]. intros t Ht. unfold row_index, feat, get2. cbn [e_mdp extended m_features m_n_non_agent at_idx new_agent].
    destruct C0 as [G [T _] NF _ _]. rewrite app_nth2 by lia. replace (m_n_non_agent m0 + (0 + i) - length (m_features m0)) with i by lia.
    rewrite (rows_from_nth m0 ss i s p Hn SO). apply feat_onehot; [eapply py_index_ok; exact SO|exact Ht]. }
  rewrite <- E2. split.
  - intros a Ha. apply K. exact Ha.
  - intros a Ha. destruct (K a Ha) as (K1 & s & K2 & K3). exists s. rewrite K1. split; [exact K2|]. rewrite OR. exact K3.
Qed.

Lemma reset_marks1 : forall k shape st e e', wf k shape st e -> orig_marks e -> env_reset e = (e', Ok tt) -> marks1 e'.
Proof.
  intros k shape st e e' W OM E. destruct (env_reset_spec k shape st e W) as (e2 & E2 & M & F & _ & HA). rewrite E in E2. inversion E2. subst e2.
  assert (S : static e e') by (eapply muts_static; eauto). destruct S as (_ & _ & X). pose proof X as X'. unfold mident in X. inversion X as [[E0 E1 E3 E4 E5 E6 E7 E8]].
  intros b Hb. destruct (HA b Hb) as (a & Ha & ->). destruct (OM a Ha) as (s & H1 & H2). exists s. cbn. split; [eapply stands_mident; eauto|].
  unfold row_index, feat in *. rewrite F, E3, E7. exact H2.
Qed.

(** Every reachable environment: marks, and the originals one-hot. *)
Lemma reachable_marks : forall pl e, reachable pl e -> marks e /\ orig_marks e.
Proof.
  intros pl e H. induction H as [m ss m' e U E|e o H IH].
  - destruct (usable_clean _ _ U) as (k & shape & st & C). pose proof (usable_fresh_orig _ _ U) as FO.
    destruct (make_env_marks _ _ _ _ _ _ _ C FO E) as [M O]. split; [now apply marks1_marks|exact O].
  - destruct IH as [IH1 IH2]. destruct (reachable_wf _ _ H) as (k & shape & st & W). pose proof (do_op_muts pl k shape st e o W) as M.
    split; [|eapply static_orig_marks; [eapply muts_static; eauto|exact IH2]].
    assert (D : o = OReset \/ o <> OReset) by (destruct o; auto; right; discriminate). destruct D as [->|D].
    + cbn [do_op]. destruct (env_reset_spec k shape st e W) as (e2 & E2 & _). rewrite E2. cbn. apply marks1_marks. eapply reset_marks1; eauto.
    + eapply muts_marks; eauto. destruct o; cbn; try tauto; try congruence.
Qed.
