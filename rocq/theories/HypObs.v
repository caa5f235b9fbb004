(** Hypothesis testing: what one move shows about each feature (C91). *)
From Coq Require Import List ZArith Reals Bool Lia Lra.
From Verif Require Import PyBase PyProofs ActionModel ActionSpec RSum ActionProofs MDPModel MDPProofs MDPProofs2 VIModel VISpec VIProofs VIProofs2 VIProps VIEnvProps MCTSModel MCTSProofs MCTSProps IRLModel IRLFit HypModel HypProofs.
Import ListNotations.
Local Open Scope R_scope.

(** ** Specification *)
(** Settings the learner accepts, with which values can be estimated. *)
Definition hyp_ok (lr decay asym tol g : R) (K : Z) (soft : bool) (norm : norm_arg) (c : hyp_cfg) : Prop :=
  hyptest_config lr decay asym tol g K soft norm = Ok c /\ 0 < g < 1 /\ (0 < K)%Z.
(** Reward for the feature [f] alone. *)
Definition only_feature (n f : nat) : list R := map (fun i => if (i =? f)%nat then 1 else 0) (seq 0 n).
(** The action values found for an agent who wants the feature [f] and nothing else. *)
Definition values_for (soft : bool) (tol g : R) (K : Z) (m : mdp R) (f : nat) (q : list (list (fval R))) : Prop :=
  exists v, solve_value_iteration (if soft then soft_backup else hard_backup) (only_feature (length (m_features m)) f) (m_features m) K g (m_sas m) tol = Ok (v, q).
(** [a] is the first action that can lead from [s] to [t]. *)
Definition first_action (m : mdp R) (s a t : nat) : Prop := 0 < prob (m_sas m) s a t /\ forall b, 0 < prob (m_sas m) s b t -> (a <= b)%nat.
(** Each action has at most one outcome in [s]. *)
Definition one_outcome (m : mdp R) (s : nat) : Prop := forall a t t', 0 < prob (m_sas m) s a t -> 0 < prob (m_sas m) s a t' -> t = t'.
(** What choosing [a] in [s] shows if the possible actions have the values [x]: nothing if these are all equal, otherwise the
    standard score of the chosen action among the possible ones. *)
Definition shows (x : nat -> R) (opts : list nat) (a : nat) (w : weight) : Prop :=
  ((forall b b', In b opts -> In b' opts -> x b = x b') -> w = None) /\
  (~ (forall b b', In b opts -> In b' opts -> x b = x b') -> exists z : nat -> R, w = Some (z a) /\
     rmean (map z opts) = 0 /\ rmean (map (fun b => z b * z b) opts) = 1 /\
     (forall b, z b * rstd (map x opts) = x b - rmean (map x opts)) /\
     (forall b b', z b < z b' <-> x b < x b') /\ (forall b, 0 < z b <-> rmean (map x opts) < x b)).

(** ** Proofs *)
Lemma hyp_inv : forall lr decay asym tol g K soft norm c, hyptest_config lr decay asym tol g K soft norm = Ok c ->
  0 < lr /\ 0 <= decay /\ 1 < asym /\ h_lr c = lr /\ h_decaying c = Rltb 0 decay /\ h_power c = (fun n => Rpower (INR n) (- decay)) /\ h_asym c = asym /\ h_norm c = norm /\
  forall w features sas, h_solve c w features sas = bind (solve_value_iteration (if soft then soft_backup else hard_backup) w features K g sas tol) (fun '(_, q) => Ok q).
Proof.
  intros lr decay asym tol g K soft norm c E. unfold hyptest_config in E. cbn [nltb n0 n1 NumR] in E. unfold Rltb at 1 2 3 in E. destruct (Rlt_dec 0 lr) as [L|L]; cbn [negb] in E; [|discriminate]. destruct (Rlt_dec decay 0) as [D|D]; [discriminate|]. destruct (Rlt_dec 1 asym) as [Y|Y]; cbn [negb] in E; [|discriminate].
  match type of E with Ok ?k = _ => assert (EC : c = k) by congruence end. clear E. subst c. cbn [h_lr h_decaying h_power h_asym h_norm h_solve]. repeat split; (assumption || lra || reflexivity).
Qed.
Lemma hyp_config_ok : forall lr decay asym tol g K soft norm, 0 < lr -> 0 <= decay -> 1 < asym -> exists c, hyptest_config lr decay asym tol g K soft norm = Ok c.
Proof.
  intros lr decay asym tol g K soft norm HL HD HA. unfold hyptest_config. cbn [nltb n0 n1 NumR]. unfold Rltb at 1 2 3. destruct (Rlt_dec 0 lr); [|lra]. destruct (Rlt_dec decay 0); [lra|]. destruct (Rlt_dec 1 asym); [|lra]. cbn [negb]. eauto.
Qed.
Lemma prob_in_range : forall sas s a t, is_mdp sas -> prob sas s a t <> 0 -> (s < n_states sas)%nat /\ (a < n_actions sas)%nat /\ (t < n_states sas)%nat /\ 0 < prob sas s a t.
Proof.
  intros sas s a t [_ M] H. unfold prob in *.
  assert (S : (s < length sas)%nat) by (destruct (Nat.lt_ge_cases s (length sas)) as [L|L]; [exact L|exfalso; apply H; rewrite (nth_overflow sas) by exact L; now destruct a, t]).
  destruct (M _ (nth_In sas [] S)) as [LA MR]. assert (B : (a < length (nth s sas []))%nat) by (destruct (Nat.lt_ge_cases a (length (nth s sas []))) as [L|L]; [exact L|exfalso; apply H; rewrite (nth_overflow (nth s sas [])) by exact L; now destruct t]).
  destruct (MR _ (nth_In _ [] B)) as (LR & NN & _). assert (T : (t < length (nth a (nth s sas []) []))%nat) by (destruct (Nat.lt_ge_cases t (length (nth a (nth s sas []) []))) as [L|L]; [exact L|exfalso; apply H; now rewrite nth_overflow by exact L]).
  pose proof (NN _ (nth_In _ 0 T)). unfold n_states, n_actions in *. repeat split; try congruence; try lia. lra.
Qed.
Lemma where_head : forall A (p : A -> bool) l d a rest, where_ p l = a :: rest -> (a < length l)%nat /\ p (nth a l d) = true /\ forall b, (b < length l)%nat -> p (nth b l d) = true -> (a <= b)%nat.
Proof.
  intros A p l d a rest E. assert (Ia : In a (where_ p l)) by (rewrite E; now left). apply (in_where _ _ _ _ d) in Ia. destruct Ia as [La Pa]. split; [exact La|]. split; [exact Pa|]. intros b Lb Pb.
  assert (Ib : In b (where_ p l)) by (apply (in_where _ _ _ _ d); auto).
  assert (X : forall l i, match where_from p i l with [] => True | a :: rest => forall b, In b rest -> (a <= b)%nat end).
  { clear. assert (Y : forall l i b, In b (where_from p i l) -> (i <= b)%nat) by (induction l as [|x l IH]; intros i b H; cbn in H; [destruct H|]; destruct (p x); [destruct H as [<-|H]; [lia|]|]; apply IH in H; lia).
    induction l as [|x l IH]; intros i; cbn [where_from]; [exact I|]. destruct (p x); [|apply IH]. intros b Hb. apply Y in Hb. lia. }
  specialize (X l 0%nat). unfold where_ in *. rewrite E in X, Ib. destruct Ib as [->|Ib]; [lia|now apply X].
Qed.
Lemma move_action_spec : forall m s t, is_mdp (m_sas m) -> m_n_states m = n_states (m_sas m) -> (s < m_n_states m)%nat -> (t < m_n_states m)%nat -> (exists b, 0 < prob (m_sas m) s b t) ->
  exists a, move_action m (Z.of_nat s) (Z.of_nat t) = Ok (s, a) /\ first_action m s a t.
Proof.
  intros m s t M N Hs Ht (b & Hb). unfold move_action. rewrite !py_index_nat by assumption. set (p := fun x => negb (neqb x n0)). assert (P : forall x : R, p x = true <-> x <> 0) by (intros x; unfold p; cbn [neqb n0 NumR]; destruct (Reqb x 0) eqn:E; [apply Reqb_true in E|apply Reqb_false in E]; cbn [negb]; split; intros; (discriminate || tauto || congruence)).
  assert (C : forall a, nth a (sas_col m s t) 0 = prob (m_sas m) s a t).
  { intros a. unfold sas_col, prob. change (@n0 R NumR) with 0. destruct (Nat.lt_ge_cases a (length (nth s (m_sas m) []))) as [L|L]; [rewrite (nth_map_lt _ _ _ _ _ _ [] L); reflexivity|]. rewrite nth_overflow by (now rewrite map_length). rewrite (nth_overflow (nth s (m_sas m) [])) by exact L. now destruct t. }
  assert (L : forall a, prob (m_sas m) s a t <> 0 -> (a < length (sas_col m s t))%nat) by (intros a Ha; destruct (Nat.lt_ge_cases a (length (sas_col m s t))) as [X|X]; [exact X|exfalso; apply Ha; rewrite <- C; now apply nth_overflow]).
  destruct (where_ p (sas_col m s t)) as [|a rest] eqn:E.
  - exfalso. assert (I : In b (where_ p (sas_col m s t))) by (apply (in_where _ _ _ _ 0); split; [apply L; lra|apply P; rewrite C; lra]). rewrite E in I. destruct I.
  - exists a. split; [reflexivity|]. destruct (where_head _ _ _ 0 _ _ E) as (_ & P1 & P2). apply P in P1. rewrite C in P1. split; [now apply (prob_in_range _ _ _ _ M P1)|]. intros b' H'. apply P2; [apply L; lra|]. apply P. rewrite C. lra.
Qed.
Lemma options_spec : forall m s, is_mdp (m_sas m) -> m_n_states m = n_states (m_sas m) -> (s < m_n_states m)%nat -> exists acts, get_actions_states (m_sas m) (Z.of_nat s) = Ok acts /\
  (forall b, In b (map fst acts) <-> possible (m_sas m) s b) /\ (one_outcome m s -> NoDup (map fst acts)).
Proof.
  intros m s M N Hs. destruct (get_actions_states (m_sas m) (Z.of_nat s)) as [acts|e] eqn:E; [|exfalso; unfold get_actions_states in E; rewrite py_index_nat in E by (unfold n_states in N; lia); discriminate].
  exists acts. split; [reflexivity|]. destruct (get_actions_states_spec _ _ _ E) as (s' & ES & H). rewrite py_index_nat in ES by (unfold n_states in N; lia). assert (s' = s) by congruence. subst s'. split.
  - intros b. rewrite in_map_iff. split.
    + intros ([b' t] & <- & I). apply H in I. rewrite get3_prob in I. destruct (prob_in_range _ _ _ _ M I) as (_ & _ & Ht & P). exists t. auto.
    + intros (t & Ht & P). exists (b, t). split; [reflexivity|]. apply H. rewrite get3_prob. lra.
  - intros OO. assert (ND : NoDup acts).
    { clear H. unfold get_actions_states in E. rewrite py_index_nat in E by (unfold n_states in N; lia). cbn [bind] in E. assert (EA : acts = concat (map (fun '(a, row) => map (fun t => (a, t)) (where_ (fun x => negb (neqb x n0)) row)) (combine (seq 0 (length (nth s (m_sas m) []))) (nth s (m_sas m) [])))) by congruence. subst acts. clear.
      generalize (nth s (m_sas m) []). intros rows. generalize 0%nat. induction rows as [|row rows IH]; intros i; [constructor|]. cbn [length seq combine map concat].
      assert (X : forall l, NoDup l -> forall l' : list (nat * nat), NoDup l' -> (forall p, In p l' -> fst p <> i) -> NoDup (map (fun t : nat => (i, t)) l ++ l')).
      { induction l as [|t l IHl]; intros HN l' HN' D; [exact HN'|]. inversion_clear HN as [|? ? N1 N2]. cbn [map app]. constructor; [|now apply IHl]. intros I. apply in_app_iff in I. destruct I as [I|I]; [apply in_map_iff in I; destruct I as (t' & ET & I); assert (t' = t) by congruence; now subst|]. apply (D _ I). reflexivity. }
      apply X; [apply where_NoDup|apply IH|]. intros [a t] Ip. apply in_concat in Ip. destruct Ip as (l & Hl & Ip). apply in_map_iff in Hl. destruct Hl as ([a' r] & <- & Hc). apply in_map_iff in Ip. destruct Ip as (t' & ET & _). assert (a' = a) by congruence. subst a'. apply in_combine_l in Hc. apply in_seq in Hc. cbn. lia. }
    assert (U : forall a t t', In (a, t) acts -> In (a, t') acts -> t = t') by (intros a t t' I I'; apply H in I, I'; rewrite get3_prob in I, I'; apply (OO a); now apply (prob_in_range _ _ _ _ M)).
    clear - ND U. induction acts as [|[a t] acts IH]; [constructor|]. inversion_clear ND as [|? ? N1 N2]. cbn [map fst]. constructor; [|apply IH; [exact N2|]; intros; eapply U; right; eassumption].
    intros I. apply in_map_iff in I. destruct I as ([a' t'] & EA & I). cbn [fst] in EA. subst a'. apply N1. rewrite (U a t t'); [exact I|now left|now right].
Qed.
(** Value iteration succeeds for every hypothesis. *)
Lemma solve_ok : forall lr decay asym tol g K soft norm c m w, hyp_ok lr decay asym tol g K soft norm c -> is_mdp (m_sas m) -> length w = length (m_features m) ->
  exists v q, solve_value_iteration (if soft then soft_backup else hard_backup) w (m_features m) K g (m_sas m) tol = Ok (v, mask_q (m_sas m) q) /\ length q = n_states (m_sas m) /\ Forall (fun row => length row = n_actions (m_sas m)) q.
Proof.
  intros lr decay asym tol g K soft norm c m w (EC & G & HK) M L. replace K with (Z.of_nat (S (Z.to_nat K - 1))) by lia. destruct soft.
  - destruct (solve_spec soft_backup (log_sum_exp soft_eps) (m_sas m) w (m_features m) (Z.to_nat K - 1) g tol M G L (fun l _ => bk_soft l) (fun l l' d => lse_ne soft_eps (n_actions (m_sas m)) l l' d soft_eps_pos (proj1 M))) as (v & q & E & H1 & H2 & H3 & _). eauto 10.
  - destruct (solve_spec hard_backup lmax (m_sas m) w (m_features m) (Z.to_nat K - 1) g tol M G L (bk_hard (m_sas m) M) (fun l l' d => lmax_ne (n_actions (m_sas m)) l l' d (proj1 M))) as (v & q & E & H1 & H2 & H3 & _). eauto 10.
Qed.
Lemma only_length : forall n f, length (only_feature n f) = n. Proof. intros. unfold only_feature. now rewrite map_length, seq_length. Qed.
Lemma excluded_spec : forall f ex, existsb (Z.eqb (Z.of_nat f)) ex = true <-> In (Z.of_nat f) ex.
Proof. intros f ex. rewrite existsb_exists. split; [intros (z & I & E); apply Z.eqb_eq in E; now subst|intros I; exists (Z.of_nat f); split; [exact I|apply Z.eqb_refl]]. Qed.
Lemma estimate_ok : forall lr decay asym tol g K soft norm c m ex, hyp_ok lr decay asym tol g K soft norm c -> is_mdp (m_sas m) ->
  exists q, estimate_q c m ex = Ok q /\ length q = length (m_features m) /\ forall f, (f < length (m_features m))%nat ->
    (In (Z.of_nat f) ex -> nth f q None = None) /\ (~ In (Z.of_nat f) ex -> exists v q', solve_value_iteration (if soft then soft_backup else hard_backup) (only_feature (length (m_features m)) f) (m_features m) K g (m_sas m) tol = Ok (v, mask_q (m_sas m) q') /\ length q' = n_states (m_sas m) /\ Forall (fun row => length row = n_actions (m_sas m)) q' /\ nth f q None = Some (mask_q (m_sas m) q')).
Proof.
  intros lr decay asym tol g K soft norm c m ex OK M. destruct (hyp_inv _ _ _ _ _ _ _ _ _ (proj1 OK)) as (_ & _ & _ & _ & _ & _ & _ & _ & ES). unfold estimate_q. fold (only_feature (length (m_features m))).
  set (n := length (m_features m)). match goal with |- context [mapM ?f (seq 0 n)] => set (F := f) end. assert (EX : forall l, exists q, mapM F l = Ok q).
  { induction l as [|f l (q & IH)]; [now exists []|]. cbn [mapM]. assert (X : exists o, F f = Ok o). { unfold F. destruct (existsb _ _); [eauto|]. rewrite ES. destruct (solve_ok _ _ _ _ _ _ _ _ _ m (only_feature n f) OK M (only_length _ _)) as (v & q' & E & _). unfold only_feature in E. rewrite E. cbn [bind]. eauto. }
    destruct X as (o & E). rewrite E. cbn [bind]. rewrite IH. cbn [bind]. eauto. }
  destruct (EX (seq 0 n)) as (q & E). exists q. split; [exact E|]. destruct (mapM_nth _ _ _ _ _ E) as [L H]. rewrite seq_length in L. split; [exact L|]. intros f Hf. specialize (H f 0%nat None). rewrite seq_length, seq_nth0 in H by assumption. specialize (H Hf). unfold F in H. split; intros X.
  - apply excluded_spec in X. rewrite X in H. congruence.
  - destruct (existsb _ _) eqn:EE; [apply excluded_spec in EE; contradiction|]. destruct (solve_ok _ _ _ _ _ _ _ _ _ m (only_feature n f) OK M (only_length _ _)) as (v & q' & E' & H1 & H2). exists v, q'. split; [exact E'|]. split; [exact H1|]. split; [exact H2|]. rewrite ES in H. unfold only_feature in E'. rewrite E' in H. cbn [bind] in H. congruence.
Qed.
(** One move succeeds unless the normalisation is 'relative'. *)
Lemma move_ok : forall lr decay asym tol g K soft norm c m ex s t, hyp_ok lr decay asym tol g K soft norm c -> norm <> Relative -> is_mdp (m_sas m) -> m_n_states m = n_states (m_sas m) ->
  (s < m_n_states m)%nat -> (t < m_n_states m)%nat -> (exists b, 0 < prob (m_sas m) s b t) ->
  exists a acts r q, single_move c m ex None (Z.of_nat s) (Z.of_nat t) = Ok (r, q) /\ first_action m s a t /\ get_actions_states (m_sas m) (Z.of_nat s) = Ok acts /\ estimate_q c m ex = Ok q /\ r = map (fun qf => hyp_weight norm qf s (map fst acts) a) q.
Proof.
  intros lr decay asym tol g K soft norm c m ex s t OK NR M N Hs Ht Hb. destruct (move_action_spec m s t M N Hs Ht Hb) as (a & EA & FA). destruct (estimate_ok _ _ _ _ _ _ _ _ _ m ex OK M) as (q & EQ & _). destruct (options_spec m s M N Hs) as (acts & EO & _).
  exists a, acts, (map (fun qf => hyp_weight norm qf s (map fst acts) a) q), q. split; [|auto]. unfold single_move. rewrite EA. cbn [bind]. rewrite EQ. cbn [bind]. rewrite EO. cbn [bind]. destruct (hyp_inv _ _ _ _ _ _ _ _ _ (proj1 OK)) as (_ & _ & _ & _ & _ & _ & _ & EN & _). rewrite EN. destruct norm; [reflexivity|congruence|reflexivity].
Qed.
Lemma shows_score : forall (x : nat -> R) opts a, opts <> [] -> shows x opts a (if Req_EM_T (rstd (map x opts)) 0 then None else Some (score (map x opts) (x a))).
Proof.
  intros x opts a NE. set (l := map x opts). assert (NL : l <> []) by (unfold l; now destruct opts).
  assert (EQ : rstd l = 0 <-> forall b b', In b opts -> In b' opts -> x b = x b').
  { rewrite rstd_zero, rvar_equal by exact NL. unfold l. split; [intros H b b' I I'; apply H; now apply in_map|]. intros H y y' I I'. apply in_map_iff in I, I'. destruct I as (b & <- & I), I' as (b' & <- & I'). now apply H. }
  destruct (Req_EM_T (rstd l) 0) as [Z|Z]; split; intros H; [reflexivity|tauto|tauto|]. destruct (score_spec l NL Z) as (S1 & S2 & S3 & S4). exists (fun b => score l (x b)). split; [reflexivity|]. fold l.
  rewrite <- (map_map x (score l)). split; [exact S1|]. rewrite <- (map_map x (fun y => score l y * score l y)). split; [exact S2|]. split; [intros b; unfold score; field; exact Z|]. split; intros; [apply S3|apply S4].
Qed.
(** Observing one move, from [s] to an adjacent [t]. For each feature that is not excluded, the evidence is the standard
    score of the action taken among the possible actions, by their values to an agent who wants only that feature. *)
Theorem C91_evidence : forall lr decay asym tol g K soft c m ex s t, hyp_ok lr decay asym tol g K soft ZScore c -> is_mdp (m_sas m) -> m_n_states m = n_states (m_sas m) ->
  (s < m_n_states m)%nat -> (t < m_n_states m)%nat -> (exists b, 0 < prob (m_sas m) s b t) ->
  exists a r q, single_move c m ex None (Z.of_nat s) (Z.of_nat t) = Ok (r, q) /\ first_action m s a t /\ length r = length (m_features m) /\
  forall f, (f < length (m_features m))%nat -> (In (Z.of_nat f) ex -> nth f r None = None) /\
  (~ In (Z.of_nat f) ex -> exists qf x opts, values_for soft tol g K m f qf /\ (forall b, In b opts <-> possible (m_sas m) s b) /\ (one_outcome m s -> NoDup opts) /\
    (forall b, In b opts -> nth b (nth s qf []) NaN = Fin (x b)) /\ shows x opts a (nth f r None)).
Proof.
  intros lr decay asym tol g K soft c m ex s t OK M N Hs Ht Hb. destruct (move_ok _ _ _ _ _ _ _ _ _ m ex s t OK ltac:(discriminate) M N Hs Ht Hb) as (a & acts & r & q & ES & FA & EO & EQ & ER).
  exists a, r, q. split; [exact ES|]. split; [exact FA|]. destruct (estimate_ok _ _ _ _ _ _ _ _ _ m ex OK M) as (q' & EQ' & LQ & HQ). assert (q' = q) by congruence. subst q'. split; [rewrite ER, map_length; exact LQ|].
  intros f Hf. destruct (HQ f Hf) as [H1 H2]. assert (EN : nth f r None = hyp_weight ZScore (nth f q None) s (map fst acts) a) by (rewrite ER; rewrite (nth_map_lt _ _ _ _ _ _ None) by lia; reflexivity). split; intros X.
  - rewrite EN, H1 by exact X. reflexivity.
  - destruct (H2 X) as (v & q' & SV & L1 & L2 & EF). destruct (options_spec m s M N Hs) as (acts' & EO' & OP & ND). assert (acts' = acts) by congruence. subst acts'. exists (mask_q (m_sas m) q'), (fun b => nth b (nth s q' []) 0), (map fst acts).
    assert (V : forall b, In b (map fst acts) -> nth b (nth s (mask_q (m_sas m) q') []) NaN = Fin (nth b (nth s q' []) 0) /\ (b < length (nth s (mask_q (m_sas m) q') []))%nat).
    { intros b Ib. apply OP in Ib. pose proof Ib as (t' & _ & P). destruct (prob_in_range (m_sas m) s b t' M ltac:(lra)) as (R1 & R2 & _ & _). destruct (mask_q_nth (m_sas m) q' s b M L1 L2 R1 R2) as (_ & LL & [[_ E]|[NP _]]); [|contradiction]. split; [exact E|]. now rewrite LL. }
    split; [exists v; exact SV|]. split; [exact OP|]. split; [exact ND|]. split; [intros b Ib; now apply V|].
    assert (IA : In a (map fst acts)) by (apply OP; exists t; split; [congruence|apply FA]). rewrite EN, EF, (weight_spec _ _ _ _ (fun b => nth b (nth s q' []) 0) V IA). apply shows_score. intros E. rewrite E in IA. destruct IA.
Qed.
(** Without normalisation the evidence is the value itself, to an agent who wants only that feature, of the action taken. *)
Theorem C91_unnormalised : forall lr decay asym tol g K soft c m ex s t, hyp_ok lr decay asym tol g K soft OtherNorm c -> is_mdp (m_sas m) -> m_n_states m = n_states (m_sas m) ->
  (s < m_n_states m)%nat -> (t < m_n_states m)%nat -> (exists b, 0 < prob (m_sas m) s b t) ->
  exists a r q, single_move c m ex None (Z.of_nat s) (Z.of_nat t) = Ok (r, q) /\ first_action m s a t /\ length r = length (m_features m) /\
  forall f, (f < length (m_features m))%nat -> (In (Z.of_nat f) ex -> nth f r None = None) /\
  (~ In (Z.of_nat f) ex -> exists qf x, values_for soft tol g K m f qf /\ nth a (nth s qf []) NaN = Fin x /\ nth f r None = Some x).
Proof.
  intros lr decay asym tol g K soft c m ex s t OK M N Hs Ht Hb. destruct (move_ok _ _ _ _ _ _ _ _ _ m ex s t OK ltac:(discriminate) M N Hs Ht Hb) as (a & acts & r & q & ES & FA & EO & EQ & ER).
  exists a, r, q. split; [exact ES|]. split; [exact FA|]. destruct (estimate_ok _ _ _ _ _ _ _ _ _ m ex OK M) as (q' & EQ' & LQ & HQ). assert (q' = q) by congruence. subst q'. split; [rewrite ER, map_length; exact LQ|].
  intros f Hf. destruct (HQ f Hf) as [H1 H2]. assert (EN : nth f r None = hyp_weight OtherNorm (nth f q None) s (map fst acts) a) by (rewrite ER; rewrite (nth_map_lt _ _ _ _ _ _ None) by lia; reflexivity). split; intros X.
  - rewrite EN, H1 by exact X. reflexivity.
  - destruct (H2 X) as (v & q' & SV & L1 & L2 & EF). pose proof (proj1 FA) as P. destruct (prob_in_range (m_sas m) s a t M) as (R1 & R2 & _ & _); [lra|]. destruct (mask_q_nth (m_sas m) q' s a M L1 L2 R1 R2) as (_ & _ & [[_ E]|[NP _]]).
    + exists (mask_q (m_sas m) q'), (nth a (nth s q' []) 0). split; [exists v; exact SV|]. split; [exact E|]. rewrite EN, EF. unfold hyp_weight. rewrite E. reflexivity.
    + exfalso. apply NP. exists t. split; [congruence|exact P].
Qed.
