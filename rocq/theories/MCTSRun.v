(** C43, C71: a tree search runs to its end. *)
From Coq Require Import String List ZArith QArith Reals Bool Lia Lra.
From Verif Require Import PyBase PyProofs GridModel GridSpec GridProofs GridProofs2 MDPModel MDPSpec MDPProofs MDPProofs2 MDPProofs3 MDPProofs4 MDPProps ActionModel ActionSpec SoftmaxModel SoftmaxProofs ActionProofs RSum ActionProps EnvModel PlanProps EnvSpec StepSpec EnvProofs EnvProofs2 EnvProofs3 EnvProofs4 EnvProofs5 EnvProps StepProps VIModel VISpec VIProofs VIProofs2 VIProps VIEnvProps MCTSModel MCTSSpec MCTSProofs MCTSProofs2 MCTSProofs3 MCTSProps MCTSWalk MCTSEaten MCTSCache MCTSFit.
Import ListNotations.
Local Close Scope Q_scope.
Local Open Scope nat_scope.

(** Some action is possible in [s]. *)
Definition lively (sas : list (list (list R))) (s : nat) : Prop := exists t, can_go sas s t.
(** From a state where something is possible one only gets to such states. *)
Definition no_dead_ends (sas : list (list (list R))) : Prop := forall s t, can_go sas s t -> lively sas t.

(** The action selection picks an action with a known value whenever there is one, given values that
    are finite or minus infinity. *)
Definition picks_known (select : list (fval R) -> nat -> res nat) : Prop :=
  forall row d, (forall v, In v row -> v = NInf \/ exists x, v = Fin x) -> (exists x, In (Fin x) row) ->
  exists a x, select row d = Ok a /\ a < length row /\ nth a row NaN = Fin x.

(** Opponents can be simulated: they move at random, or by a plan computed with admissible settings. *)
Definition can_simulate (pol : opp_policy R) (max_iter : Z) (discount : R) : Prop :=
  match pol with
  | OppRandom => True
  | OppSolve select => picks_known select /\ (0 < discount < 1)%R /\ (0 < max_iter)%Z
  | OppUnsupported => False
  end.

Theorem select_max_known : picks_known select_max.
Proof.
  intros row d H (x0 & I0). unfold select_max, random_max. destruct (max_actions_spec row) as (l & E & ND & NE & B).
  - intros ->. destruct I0.
  - intros v Hv. destruct (H v Hv) as [->|(x & ->)]; discriminate.
  - rewrite E. cbn [bind]. assert (I : In (nth (d mod length l) l 0) l). { apply nth_In. apply Nat.mod_upper_bound. destruct l; [congruence|cbn; lia]. }
    set (a := nth (d mod length l) l 0) in *. apply B in I. destruct I as [La LE]. apply (In_nth _ _ NaN) in I0. destruct I0 as (b & Lb & Eb). specialize (LE b Lb). rewrite Eb in LE.
    destruct (H (nth a row NaN)) as [X|(x & X)]; [now apply nth_In| |exists a, x; auto]. rewrite X in LE. cbn in LE. contradiction.
Qed.
Theorem select_softmax_known : forall T u, (0 < T)%R -> (forall d, 0 <= u d < 1)%R -> picks_known (select_softmax T u).
Proof.
  intros T u HT HU row d H (x0 & I0). unfold select_softmax.
  assert (C1 : forall v, In v row -> v <> NaN /\ v <> PInf) by (intros v Hv; destruct (H v Hv) as [->|(x & ->)]; split; discriminate).
  assert (C2 : exists v, In v row /\ v <> NInf) by (exists (Fin x0); split; [exact I0|discriminate]).
  pose proof (gibbs_total_pos T row C1 C2) as TP. rewrite softmax_gibbs by assumption. set (ws := map (gibbs_weight T) row) in *.
  assert (EM : map (fun v => Fin (gibbs_weight T v / Rsum ws)%R) row = map Fin (map (fun w => w / Rsum ws)%R ws)) by (generalize (Rsum ws); intros cc; unfold ws; now rewrite !map_map).
  rewrite EM. set (ps := map (fun w => w / Rsum ws)%R ws).
  assert (MM : mapM (fun v => match fin_of v with Some a => Ok a | None => Err ValueError end) (map Fin ps) = Ok ps).
  { clear. induction ps as [|y l IH]; [reflexivity|]. cbn [map mapM fin_of bind]. rewrite IH. reflexivity. }
  rewrite MM. cbn [bind].
  assert (S1 : Rsum ps = 1%R). { unfold ps. rewrite Rsum_div, map_id. field. lra. }
  assert (PN : forall x, In x ps -> (0 <= x)%R).
  { intros x Hx. unfold ps in Hx. apply in_map_iff in Hx. destruct Hx as (w & <- & Hw). unfold ws in Hw. apply in_map_iff in Hw. destruct Hw as (v & <- & _).
    apply Rmult_le_pos; [|apply Rlt_le, Rinv_0_lt_compat, TP]. destruct v; cbn; try lra. apply Rlt_le, exp_pos. }
  destruct (C28_zero_weight_never_drawn ps (u d) PN) as (_ & _ & L & P); [lra|apply HU|]. set (a := rand_choice_nb ps (u d)) in *. assert (Lr : a < length row) by (unfold ps, ws in L; now rewrite !map_length in L).
  unfold ps, ws in P. rewrite map_map in P. rewrite (nth_map_lt _ _ _ _ _ _ NaN) in P by exact Lr.
  destruct (nth a row NaN) as [| | |x] eqn:EX; [| | |exists a, x; auto]; cbn in P; exfalso; unfold Rdiv in P; rewrite Rmult_0_l in P; lra.
Qed.

(** * One search iteration *)
Section Run.
Variables (score : scorer R) (c : search R) (V N : list R) (rnd : nat -> nat) (nS nF : nat).
Hypotheses (M : is_mdp (s_sas c)) (W : well_shaped c nS nF) (ND : no_dead_ends (s_sas c))
  (FI : forall i, i < length (s_start c) -> nth i (s_feature_idx c) 0 < nF)
  (RW : forall i, i < length (s_start c) -> length (nth i (s_rewards c) []) = nF)
  (CA : s_caching c = true -> forall i, i < length (s_start c) -> length (where_ (fun b => b) (nth i (s_consumes c) [])) <= 1)
  (OP : s_interactive c = true -> (1 < length (s_start c) -> can_simulate (s_policy c) (s_max_iter c) (s_discount c)) /\
    forall i, 0 < i < length (s_start c) -> exists f, nth f (nth i (s_rewards c) []) 0%R <> 0%R).

(** Q values that solve the problem: known exactly for the possible actions. *)
Definition masked (q : list (list (fval R))) : Prop :=
  length q = nS /\ forall s, s < nS -> length (nth s q []) = n_actions (s_sas c) /\
    forall a, a < n_actions (s_sas c) -> (nth a (nth s q []) NaN = NInf <-> ~ possible (s_sas c) s a) /\ (possible (s_sas c) s a -> exists x, nth a (nth s q []) NaN = Fin x).
Definition sane (k : cache R) : Prop := forall a key q, In (key, Some q) (nth a k []) -> masked q.
Definition standing (z : Z) : Prop := exists s, py_index nS z = Ok s /\ lively (s_sas c) s.
Definition live (st : it_state R) : Prop :=
  shaped c nS nF st /\ length (it_nodes st) = length (s_start c) /\ (forall i, i < length (s_start c) -> standing (nth i (it_nodes st) 0%Z)) /\ sane (it_cache st).

Lemma go_possible : forall s t, s < nS -> can_go (s_sas c) s t -> t < nS /\ exists a, a < n_actions (s_sas c) /\ possible (s_sas c) s a.
Proof using M W ND FI RW CA OP.
  intros s t Hs (a & G). destruct W as (_ & LS & _). destruct M as [AP MM]. destruct (MM (nth s (s_sas c) [])) as [LM MR]; [apply nth_In; lia|].
  assert (La : a < n_actions (s_sas c)). { destruct (Nat.lt_ge_cases a (n_actions (s_sas c))) as [|L]; [assumption|]. elim G. unfold get3. rewrite (nth_overflow (nth s (s_sas c) [])) by lia. now destruct t. }
  destruct (MR (nth a (nth s (s_sas c) []) [])) as (LR & NR & _); [apply nth_In; lia|].
  assert (Lt : t < nS). { destruct (Nat.lt_ge_cases t nS) as [|L]; [assumption|]. elim G. unfold get3. apply nth_overflow. unfold n_states in LR. lia. }
  split; [exact Lt|]. exists a. split; [exact La|]. exists t. split; [unfold n_states; lia|]. unfold prob. assert (X : (0 <= nth t (nth a (nth s (s_sas c) []) []) 0)%R) by (apply NR, nth_In; unfold n_states in LR; lia).
  unfold get3 in G. lra.
Qed.
Lemma go_standing : forall s t, s < nS -> can_go (s_sas c) s t -> standing (Z.of_nat t).
Proof using M W ND FI RW CA OP. intros s t Hs G. exists t. split; [apply py_index_nat; eapply go_possible; eauto|]. eapply ND; eauto. Qed.
Lemma moves_there : forall z acts, standing z -> get_actions_states (s_sas c) z = Ok acts ->
  map snd acts <> [] /\ forall t, In t (map snd acts) -> standing (Z.of_nat t).
Proof using M W ND FI RW CA OP.
  intros z acts (s & P & (t & a & G)) GA. destruct (get_actions_states_spec _ _ _ GA) as (s' & P' & H). destruct W as (_ & LS & _). rewrite LS in P'. assert (s' = s) by congruence. subst s'.
  assert (Hs : s < nS) by (eapply py_index_ok; eauto). split.
  - intros X. apply map_eq_nil in X. subst acts. apply H in G. destruct G.
  - intros u Hu. apply in_map_iff in Hu. destruct Hu as ([b u'] & E & I). cbn in E. subst u'. apply H in I. eapply go_standing; [exact Hs|]. exists b. exact I.
Qed.

Lemma next_node_goes : forall ex states node d, states <> [] -> exists x ex', mcts_next_node score ex V N states (s_C c) node d = Ok (x, ex').
Proof using M W ND FI RW CA OP.
  intros ex states node d NE. unfold mcts_next_node. destruct (ex && negb _) eqn:E.
  - destruct (pick_ok (filter (fun s => neqb (nth s N n0) n0) states) d) as (x & -> & _).
    { intros X. rewrite X in E. rewrite andb_false_r in E. discriminate. }
    cbn [bind]. eauto.
  - destruct ex.
    + unfold fargmax. destruct (where_ isnan _) as [|i r] eqn:EW; cbn [bind]; [|eauto]. destruct states as [|s r]; [congruence|]. cbn [map fmax_list bind]. eauto.
    + destruct (pick_ok states d NE) as (x & -> & _). cbn [bind]. eauto.
Qed.

Lemma solve_masked : forall rf ft, length rf = length ft -> (0 < s_discount c < 1)%R -> (0 < s_max_iter c)%Z ->
  exists v q, solve_value_iteration hard_backup rf ft (s_max_iter c) (s_discount c) (s_sas c) (s_tol c) = Ok (v, q) /\ masked q.
Proof using M W ND FI RW CA OP.
  intros rf ft L G K. destruct W as (_ & LS & _). destruct (solve_spec hard_backup lmax (s_sas c) rf ft (Z.to_nat (s_max_iter c) - 1) (s_discount c) (s_tol c) M G L (bk_hard _ M) (fun l l' d => lmax_ne (n_actions (s_sas c)) l l' d (proj1 M))) as (v & q & E & _).
  replace (Z.of_nat (S (Z.to_nat (s_max_iter c) - 1))) with (s_max_iter c) in E by lia. exists v, (mask_q (s_sas c) q). split; [exact E|].
  destruct (C30_mask _ _ _ _ _ _ _ _ _ M (or_introl eq_refl) E) as (_ & L2 & H). split; [unfold n_states in L2; lia|]. intros s Hs. apply H. unfold n_states. lia.
Qed.

Lemma opp_goes : forall states node rf ft q d, standing node -> states <> [] -> (forall t, In t states -> standing (Z.of_nat t)) -> length rf = length ft ->
  can_simulate (s_policy c) (s_max_iter c) (s_discount c) -> (forall qv, q = Some qv -> masked qv) ->
  exists x q', opp_next_state (s_policy c) states node rf ft (s_sas c) (s_max_iter c) (s_discount c) (s_tol c) q d = Ok (x, q') /\ standing (Z.of_nat x) /\ (forall qv, q' = Some qv -> masked qv).
Proof using M W ND FI RW CA OP.
  intros states node rf ft q d ST NE ALL L CS SQ. pose proof solve_masked as SMK. pose proof go_possible as GPS. pose proof go_standing as GST. unfold opp_next_state. destruct (s_policy c) as [|sel|]; cbn [can_simulate] in CS; [| |contradiction].
  - destruct (pick_ok states d NE) as (x & -> & I). cbn [bind]. exists x, q. auto.
  - destruct CS as (PK & G & K).
    assert (QV : exists qv, match q with Some qv => Ok qv | None => let* (_, qv) := solve_value_iteration hard_backup rf ft (s_max_iter c) (s_discount c) (s_sas c) (s_tol c) in Ok qv end = Ok qv /\ masked qv).
    { destruct q as [qv|]; [exists qv; auto|]. destruct (SMK rf ft L G K) as (v & qv & E & MQ). exists qv. rewrite E. auto. }
    destruct QV as (qv & -> & MQ). cbn [bind]. destruct ST as (s & PS & (t0 & G0)). pose proof W as (_ & LS & _). rewrite LS, PS. cbn [bind].
    assert (Hs : s < nS) by (eapply py_index_ok; eauto). destruct (GPS s t0 Hs G0) as (_ & a0 & La0 & P0). destruct MQ as [LQ MQ]. destruct (MQ s Hs) as [LR HA].
    destruct (PK (nth s qv []) d) as (a & x & -> & La & EX).
    { intros v Hv. apply (In_nth _ _ NaN) in Hv. destruct Hv as (b & Lb & <-). destruct (HA b ltac:(lia)) as [H1 H2]. destruct (possible_dec (s_sas c) s b) as [P|P]; [right; auto|left; now apply H1]. }
    { destruct (proj2 (HA a0 La0) P0) as (x & Ex). exists x. rewrite <- Ex. apply nth_In. lia. }
    cbn [bind]. assert (PA : possible (s_sas c) s a). { destruct (possible_dec (s_sas c) s a) as [P|P]; [exact P|]. apply (proj1 (HA a ltac:(lia))) in P. congruence. }
    destruct PA as (u & Hu & PU). unfold prob in PU. set (row := nth a (nth s (s_sas c) []) []) in *. destruct (argmax_spec row) as (AL & AM & _). { intros X. rewrite X in PU. destruct u; cbn in PU; lra. }
    assert (PM : (0 < nth (argmax row) row 0)%R). { eapply Rlt_le_trans; [exact PU|]. apply AM. apply nth_In. destruct (Nat.lt_ge_cases u (length row)) as [|X]; [assumption|]. rewrite nth_overflow in PU by exact X. lra. }
    assert (EXB : existsb (fun row0 => nltb n0 (nth (argmax row) row0 n0)) (nth s (s_sas c) []) = true).
    { apply existsb_exists. exists row. split; [apply nth_In; destruct M as [_ MM]; destruct (MM (nth s (s_sas c) [])) as [-> _]; [apply nth_In; lia|lia]|]. cbn. unfold Rltb. destruct (Rlt_dec 0 (nth (argmax row) row 0%R)) as [|XX]; [reflexivity|exact (False_ind _ (XX PM))]. }
    rewrite EXB. exists (argmax row), (Some qv). split; [reflexivity|]. split; [eapply GST; [exact Hs|]; exists a; unfold get3; fold row; lra|]. intros q' E. inversion E. subst. split; assumption.
Qed.

Lemma move_goes : forall st, live st -> exists r, it_move score c V N rnd st = Ok r.
Proof using M W ND FI RW CA OP.
  intros st (SH & LN & SN & SC). pose proof SH as ((S1 & S2) & HA & LM). pose proof W as (_ & LS & LC & LCI & _). set (a := it_actor st) in *. destruct (SN a HA) as (s & PS & LV). unfold it_move. fold a.
  assert (MK : exists ft, mark_actor c st = Ok ft). { unfold mark_actor. fold a. rewrite map_length, (S2 _ (FI a HA)), PS. cbn [bind]. eauto. }
  destruct MK as (ft & MK). rewrite MK. cbn [bind]. assert (SF : shape2 nF nS ft). { eapply shape_mark; [| | |split; [exact S1|exact S2]|exact MK]; [|exact LC|apply W]. intros i. destruct (Nat.lt_ge_cases i (length (s_start c))); [left; auto|right; lia]. }
  fold (overlap_of c st). destruct (overlap_of c st) as [[added active] caught] eqn:OV. destruct caught; [eauto|].
  assert (GA : exists acts, get_actions_states (s_sas c) (nth a (it_nodes st) 0%Z) = Ok acts). { unfold get_actions_states. rewrite LS, PS. cbn [bind]. eauto. }
  destruct GA as (acts & GA). rewrite GA. cbn [bind]. destruct (moves_there _ _ (SN a HA) GA) as [NE ALL].
  match goal with |- exists r, bind ?X _ = Ok r => assert (ST : exists y, X = Ok y /\ exists p, py_index nS (nth a (snd (fst (fst y))) 0%Z) = Ok p) end.
  { destruct (Nat.eqb_spec a 0) as [E|E].
    - destruct (next_node_goes (it_expand st) (map snd acts) (nth 0 (it_nodes st) 0%Z) (rnd (Z.to_nat (it_total st))) NE) as (x & ex & EN). rewrite EN. cbn [bind]. eexists. split; [reflexivity|]. cbn [fst snd].
      destruct (ALL x) as (p & P & _); [exact (next_node_in _ _ _ _ _ _ _ _ _ _ EN)|]. exists p. rewrite E, nth_upd_same by lia. exact P.
    - destruct (s_interactive c && nth a active false) eqn:EI; [|eexists; split; [reflexivity|]; cbn [fst snd]; eauto]. apply andb_true_iff in EI. destruct EI as [EI _]. destruct (OP EI) as [CS PR].
      unfold opponent_move. fold a. assert (NP : preferences (nth a (s_rewards c) []) <> []). { destruct (PR a ltac:(lia)) as (f & Hf). intros X. apply pref_in in Hf. rewrite X in Hf. destruct Hf. }
      destruct (preferences (nth a (s_rewards c) [])) as [|p0 pr]; [congruence|]. set (key := (others_nodes (it_nodes st) a, _)).
      assert (LRW : length (nth a (s_rewards c) []) = length ft) by (destruct SF; rewrite RW; auto).
      assert (GO : forall q, (forall qv, q = Some qv -> masked qv) -> exists x q', opp_next_state (s_policy c) (map snd acts) (nth a (it_nodes st) 0%Z) (nth a (s_rewards c) []) ft (s_sas c) (s_max_iter c) (s_discount c) (s_tol c) q (rnd (Z.to_nat (it_total st))) = Ok (x, q') /\ standing (Z.of_nat x)).
      { intros q Hq. destruct (opp_goes (map snd acts) (nth a (it_nodes st) 0%Z) (nth a (s_rewards c) []) ft q (rnd (Z.to_nat (it_total st))) (SN a HA) NE ALL LRW (CS ltac:(lia)) Hq) as (x & q' & EO & SX & _). eauto. }
      destruct (if s_caching c then cache_find (it_cache st) a key else None) as [q|] eqn:CF.
      + destruct (GO q) as (x & q' & -> & (p & P & _)).
        { intros qv ->. destruct (s_caching c); [|discriminate]. unfold cache_find in CF. destruct (find _ _) as [[k' q']|] eqn:EF; [|discriminate]. apply find_some in EF. destruct EF as [EF _]. inversion CF. cbn in H0. subst q'. eapply SC. exact EF. }
        cbn [bind]. eexists. split; [reflexivity|]. cbn [fst snd]. exists p. rewrite nth_upd_same by lia. exact P.
      + destruct (GO None) as (x & q' & -> & (p & P & _)); [discriminate|]. cbn [bind]. eexists. split; [reflexivity|]. cbn [fst snd]. exists p. rewrite nth_upd_same by lia. exact P. }
  destruct ST as ([[[[[ex rw] vs] nodes] k] ot] & -> & p & P). cbn [fst snd] in P. cbn [bind]. destruct (nth a active false); cbn [bind]; [|eauto]. rewrite LS, P. cbn [bind]. unfold record_consumed.
  destruct (s_caching c) eqn:EC; cbn [bind]; [|eauto]. specialize (CA eq_refl a HA). destruct (where_ (fun b => b) (nth a (s_consumes c) [])) as [|f [|g r]]; cbn [bind]; [eauto| |cbn in CA; lia]. destruct (neqb _ _); cbn [bind]; eauto.
Qed.

Lemma live_start : forall k, sane k -> (forall i, i < length (s_start c) -> standing (nth i (s_start c) 0%Z)) -> live (it_start c k).
Proof using M W ND FI RW CA OP.
  intros k SK ST. pose proof W as (SF & LS & LC & LCI & HN). split; [|split; [reflexivity|split; [exact ST|exact SK]]]. apply shaped_start; [|exact LC|exact HN|exact SF].
  intros i. destruct (Nat.lt_ge_cases i (length (s_start c))); [left; auto|right; lia].
Qed.

Lemma live_move : forall st st', live st -> it_move score c V N rnd st = Ok (inl st') -> length (it_nodes st') = length (s_start c) /\ (forall i, i < length (s_start c) -> standing (nth i (it_nodes st') 0%Z)) /\ sane (it_cache st').
Proof using M W ND FI RW CA OP.
  intros st st' (SH & LN & SN & SC) H. pose proof SH as ((S1 & S2) & HA & LM). pose proof W as (_ & LS & LC & LCI & _). apply it_move_ok in H. destruct H as (ft & added & active & acts & MK & OV & GA & _ & _ & _ & _ & _ & WH & _).
  destruct (moves_there _ _ (SN _ HA) GA) as [NE ALL]. destruct WH as [(A0 & x & NN & _ & _ & EN & EC & _)|[(A0 & EI & AC & x & OM & _ & _ & _ & EN & _)|(_ & _ & _ & _ & _ & EN & EC & _)]]; rewrite EN, ?EC.
  - split; [now rewrite upd_length|]. split; [|exact SC]. intros i Hi. destruct (Nat.eq_dec i 0) as [->|D]; [|rewrite nth_upd_other by congruence; auto]. rewrite nth_upd_same by lia. apply ALL. exact (next_node_in _ _ _ _ _ _ _ _ _ _ NN).
  - set (a := it_actor st) in *. assert (SF : shape2 nF nS ft). { eapply shape_mark; [| | |split; [exact S1|exact S2]|exact MK]; [|exact LC|apply W]. intros i. destruct (Nat.lt_ge_cases i (length (s_start c))); [left; auto|right; lia]. }
    destruct (OP EI) as [CS _]. assert (LRW : length (nth a (s_rewards c) []) = length ft) by (destruct SF; rewrite RW; auto).
    unfold opponent_move in OM. fold a in OM. destruct (preferences (nth a (s_rewards c) [])) as [|p0 pr]; [discriminate|]. set (key := (others_nodes (it_nodes st) a, _)) in OM.
    assert (GO : forall q, (forall qv, q = Some qv -> masked qv) -> exists x q', opp_next_state (s_policy c) (map snd acts) (nth a (it_nodes st) 0%Z) (nth a (s_rewards c) []) ft (s_sas c) (s_max_iter c) (s_discount c) (s_tol c) q (rnd (Z.to_nat (it_total st))) = Ok (x, q') /\ standing (Z.of_nat x) /\ (forall qv, q' = Some qv -> masked qv)).
    { intros q Hq. apply opp_goes; auto. apply CS. lia. }
    assert (X : standing (Z.of_nat x) /\ sane (it_cache st')).
    { destruct (if s_caching c then cache_find (it_cache st) a key else None) as [q|] eqn:CF.
      - destruct (GO q) as (y & q' & EO & SY & _).
        { intros qv ->. destruct (s_caching c); [|discriminate]. unfold cache_find in CF. destruct (find _ _) as [[k' q']|] eqn:EF; [|discriminate]. apply find_some in EF. destruct EF as [EF _]. inversion CF. cbn in H0. subst q'. eapply SC. exact EF. }
        rewrite EO in OM. cbn [bind] in OM. inversion OM. subst. auto.
      - destruct (GO None) as (y & q' & EO & SY & MQ); [discriminate|]. rewrite EO in OM. cbn [bind] in OM. inversion OM. subst y. split; [exact SY|]. destruct (s_caching c); [|exact SC].
        intros b key' qv I. unfold cache_put in I. destruct (Nat.eq_dec a b) as [->|D]; [|rewrite nth_upd_other in I by congruence; eapply SC; exact I].
        destruct (Nat.lt_ge_cases b (length (it_cache st))) as [Lb|Lb].
        + rewrite nth_upd_same in I by exact Lb. destruct I as [I|I]; [inversion I; subst; auto|]. eapply SC. exact I.
        + rewrite nth_overflow in I by (rewrite upd_length; exact Lb). destruct I. }
    destruct X as [X1 X2]. split; [now rewrite upd_length|]. split; [|exact X2]. intros i Hi. destruct (Nat.eq_dec i a) as [->|D]; [|rewrite nth_upd_other by congruence; auto]. rewrite nth_upd_same by lia. exact X1.
  - auto.
Qed.

Lemma live_body : forall st st', live st -> it_body score c V N rnd st = Ok (inl st') -> live st'.
Proof using M W ND FI RW CA OP.
  intros st st' L B. assert (SH' : shaped c nS nF st'). { destruct L as (SH & _). pose proof W as (_ & _ & LC & LCI & HN). eapply shaped_body; [| | |exact SH|exact B]; [|exact LC|exact HN]. intros i. destruct (Nat.lt_ge_cases i (length (s_start c))); [left; auto|right; lia]. }
  split; [exact SH'|]. apply it_body_inv in B. destruct B as (row & k & _ & _ & [(K & [(s1 & MV & E)|(s1 & MV & E)])|(K & E)]); [|discriminate|];
  assert (II : forall (x y : it_state R), @inl _ (it_state R) x = inl y -> x = y) by (intros ? ? X; now inversion X); apply II in E; subst st'.
  - destruct (live_move _ _ L MV) as (H1 & H2 & H3). unfold it_next. destruct (_ && _); cbn [it_nodes it_cache]; auto.
  - destruct L as (_ & H1 & H2 & H3). unfold it_next. destruct (_ && _); cbn [it_nodes it_cache]; auto.
Qed.

Lemma it_loop_goes : forall (P : it_state R -> Prop) (mu : it_state R -> nat),
  (forall st, P st -> (it_total st < n_steps c)%Z -> exists r, it_body score c V N rnd st = Ok r) ->
  (forall st st', P st -> (it_total st < n_steps c)%Z -> it_body score c V N rnd st = Ok (inl st') -> P st' /\ mu st' < mu st) ->
  forall fuel st, P st -> mu st < fuel -> exists st' b, it_loop score c V N rnd fuel st = Ok (st', b).
Proof using M W ND FI RW CA OP.
  intros P mu H1 H2. induction fuel as [|fuel IH]; intros st HP L; [lia|]. cbn [it_loop]. destruct (Z.ltb_spec (it_total st) (n_steps c)) as [L1|L1]; [|eauto].
  destruct (H1 st HP L1) as ([r|r] & B); rewrite B; cbn [bind]; [|eauto]. destruct (H2 st r HP L1 B). apply IH; [assumption|lia].
Qed.
End Run.

(** Everything a search needs: a well-formed problem without dead ends, agents that can move, feature
    indices and reward functions that fit, with caching at most one consumed feature per agent, and
    opponents that can be simulated and care about something. *)
Definition ready (c : search R) (nS nF : nat) : Prop :=
  is_mdp (s_sas c) /\ well_shaped c nS nF /\ no_dead_ends (s_sas c) /\
  (forall i, i < length (s_start c) -> nth i (s_feature_idx c) 0 < nF) /\
  (forall i, i < length (s_start c) -> length (nth i (s_rewards c) []) = nF) /\
  (s_caching c = true -> forall i, i < length (s_start c) -> length (where_ (fun b => b) (nth i (s_consumes c) [])) <= 1) /\
  (s_interactive c = true -> (1 < length (s_start c) -> can_simulate (s_policy c) (s_max_iter c) (s_discount c)) /\
    forall i, 0 < i < length (s_start c) -> exists f, nth f (nth i (s_rewards c) []) 0%R <> 0%R) /\
  (forall i, i < length (s_start c) -> exists s, py_index nS (nth i (s_start c) 0%Z) = Ok s /\ lively (s_sas c) s).
(** The schedule can be followed. *)
Definition playable (interactive : bool) (n : nat) (m : list (list Z)) : Prop :=
  if interactive then regular_schedule n m else (0 < nth 0 (nth 0 m []) 0)%Z.
(** Passes through the loop that suffice. *)
Definition passes (n : nat) (m : list (list Z)) : nat := S (Z.to_nat (zsum (map zsum m)) + n * length (nth 0 m [])).

Lemma iteration_completes : forall score c (V N : list R) rnd nS nF k, ready c nS nF -> playable (s_interactive c) (length (s_start c)) (s_n_moves c) -> sane c nS k ->
  forall fuel, passes (length (s_start c)) (s_n_moves c) <= fuel ->
  exists reward visited k' o, mcts_iteration score c V N k rnd fuel = Ok (reward, visited, k', o) /\ sane c nS k'.
Proof.
  intros score c V N rnd nS nF k (M & W & ND & FI & RW & CA & OP & ST) PL SK fuel HF. pose proof W as (_ & _ & _ & _ & HN).
  assert (LS : live c nS nF (it_start c k)) by (apply live_start; auto).
  pose proof (live_body score c V N rnd nS nF M W ND FI RW CA OP) as LB. pose proof (move_goes score c V N rnd nS nF M W ND FI RW CA OP) as MG. pose proof (it_loop_goes score c V N rnd nS nF M W ND FI RW CA OP) as LG.
  assert (GO : exists st b, it_loop score c V N rnd fuel (it_start c k) = Ok (st, b)).
  { unfold playable in PL. destruct (s_interactive c) eqn:EI.
    - destruct PL as (Lm & (T & LT) & NN). assert (ET : T = length (nth 0 (s_n_moves c) [])) by (symmetry; apply LT, nth_In; lia).
      apply (LG (fun st => live c nS nF st /\ follows c T st) (left_over c T)).
      + intros st [L F] LE. unfold it_body. pose proof F as (_ & _ & _ & t & SC). pose proof (sched_open _ _ _ HN Lm LT NN _ _ _ _ _ _ SC LE) as OT.
        assert (HA : it_actor st < length (s_start c)) by (destruct L as ((_ & HA & _) & _); exact HA). rewrite (nth_error_nth' (s_n_moves c) []) by lia.
        assert (TU : nth (it_actor st) (it_turns st) 0 = t) by (pose proof (sc_tu _ _ _ _ _ _ _ _ _ SC (it_actor st) HA) as X; cbn beta in X; now rewrite Nat.ltb_irrefl in X). rewrite TU. rewrite (nth_error_nth' _ 0%Z) by (rewrite LT by (apply nth_In; lia); lia).
        destruct (0 <? _)%Z; [|cbn [bind]; eauto]. destruct (MG st L) as ([r|r] & ->); cbn [bind]; eauto.
      + intros st st' [L F] LE B. destruct (follows_body score c V N rnd T HN Lm LT NN EI st st' F LE B) as [F' DE]. split; [split; [eapply LB; eauto|exact F']|exact DE].
      + split; [exact LS|]. now apply follows_start.
      + unfold left_over. rewrite (room_start c T HN Lm). cbn [it_start it_total]. unfold passes in HF. unfold n_steps. rewrite Z.sub_0_r. lia.
    - apply (LG (fun st => live c nS nF st /\ alone c st) (fun st => Z.to_nat (n_steps c - it_total st))).
      + intros st [L (A0 & T0 & _)] LE. unfold it_body. rewrite A0, T0.
        destruct (s_n_moves c) as [|row m] eqn:EM; [cbn in PL; lia|]. cbn [nth] in PL. destruct row as [|z row]; [cbn in PL; lia|]. cbn [nth_error nth] in *. destruct (Z.ltb_spec 0 z); [|lia]. destruct (MG st L) as ([r|r] & ->); cbn [bind]; eauto.
      + intros st st' [L AL] LE B. destruct (alone_body score c V N rnd HN EI st _ AL LE B) as (s1 & E & A' & T'). inversion E. subst s1. split; [split; [eapply LB; eauto|exact A']|]. specialize (T' PL). lia.
      + split; [exact LS|]. now apply alone_start.
      + cbn [it_start it_total]. rewrite Z.sub_0_r. unfold passes in HF. unfold n_steps. lia. }
  destruct GO as (st & b & E). unfold mcts_iteration. rewrite E. cbn [bind]. do 4 eexists. split; [reflexivity|]. revert E.
  apply (it_loop_inv score c V N rnd (live c nS nF) (fun st _ => sane c nS (it_cache st))).
  - intros s s' L _ B. eapply LB; eauto.
  - intros s s' L _ B. apply it_body_inv in B. destruct B as (row & z & _ & _ & [(K & [(s1 & MV & E)|(s1 & MV & E)])|(K & E)]); try discriminate. assert (s' = s1) by (now inversion E). subst s1. apply it_move_caught in MV. destruct MV as (ft & ad & ac & _ & _ & ->). apply L.
  - intros s L _. apply L.
  - exact LS.
Qed.

Lemma search_completes : forall score c rnd nS nF, ready c nS nF -> playable (s_interactive c) (length (s_start c)) (s_n_moves c) ->
  forall fuel, passes (length (s_start c)) (s_n_moves c) <= fuel ->
  forall todo i V N k states, sane c nS k -> exists r, search_loop score c rnd fuel i todo V N k states = Ok r.
Proof.
  intros score c rnd nS nF RD PL fuel HF. induction todo as [|todo IH]; intros i V N k states SK; cbn [search_loop]; [eauto|].
  destruct (iteration_completes score c V N (rnd i) nS nF k RD PL SK fuel HF) as (rw & vs & k' & o & -> & SK'). cbn [bind]. destruct (backprop (V, N) rw vs) as [V' N']. apply IH. exact SK'.
Qed.

(** * In environments *)
Lemma edge_back : forall k shape st s a t, grid_edge k shape st s a t -> exists b, grid_edge k shape st t b s.
Proof.
  intros k shape st s a t [[L E]|(S & E & ->)]; [|exists (dirs_of k); right; auto]. unfold grid_edge. rewrite <- E.
  destruct k; cbn [dirs_of move_of] in *; [exists ((a + 2) mod 4)|exists ((a + 3) mod 6)]; left; (split; [apply Nat.mod_upper_bound; lia|]); [now apply square_move_back|now apply hex_move_back].
Qed.
Lemma go_edge : forall k shape st m, grid_inv k shape st m -> forall s t, s < nst shape -> (can_go (m_sas m) s t <-> t < nst shape /\ exists a, walled_edge k shape st (m_walls m) s a t).
Proof.
  intros k shape st m G s t Hs. destruct (grid_shape _ _ _ _ G) as (_ & _ & [SL SR]). split.
  - intros (a & X). assert (La : a < actions_of k st). { destruct (Nat.lt_ge_cases a (actions_of k st)) as [L|L]; [exact L|]. elim X. unfold get3. rewrite (nth_overflow (nth s (m_sas m) [])) by (rewrite (proj1 (SR s Hs)); exact L). now destruct t. }
    assert (Lt : t < nst shape). { destruct (Nat.lt_ge_cases t (nst shape)) as [L|L]; [exact L|]. elim X. unfold get3. apply nth_overflow. rewrite (proj2 (SR s Hs) a La). exact L. }
    split; [exact Lt|]. exists a. destruct (inv_edge _ _ _ _ G s a t Hs La Lt) as [[_ H]|[E _]]; [exact H|contradiction].
  - intros (Lt & a & H). exists a. destruct (inv_edge _ _ _ _ G s a t Hs (edge_action _ _ _ _ _ _ (proj1 H)) Lt) as [[-> _]|[_ E]]; [lra|contradiction].
Qed.
(** On a grid, with any walls, one can go back; so there are no dead ends. *)
Theorem C71_grids_have_no_dead_ends : forall pl e, reachable pl e -> no_dead_ends (m_sas (e_mdp e)) /\ forall s t, can_go (m_sas (e_mdp e)) s t -> can_go (m_sas (e_mdp e)) t s.
Proof.
  intros pl e RE. destruct (reachable_wf _ _ RE) as (k & shape & st & W). pose proof (wf_grid _ _ _ _ W) as G. destruct (grid_shape _ _ _ _ G) as (_ & _ & [SL SR]).
  assert (B : forall s t, can_go (m_sas (e_mdp e)) s t -> can_go (m_sas (e_mdp e)) t s).
  { intros s t H. assert (Hs : s < nst shape). { destruct (Nat.lt_ge_cases s (nst shape)) as [L|L]; [exact L|]. destruct H as (a & X). elim X. unfold get3. rewrite (nth_overflow (m_sas (e_mdp e))) by lia. destruct a; now destruct t. }
    apply (go_edge _ _ _ _ G _ _ Hs) in H. destruct H as (Ht & a & (E & W1 & W2)). apply (go_edge _ _ _ _ G _ _ Ht). split; [exact Hs|]. destruct (edge_back _ _ _ _ _ _ E) as (b & E'). exists b. split; auto. }
  split; [|exact B]. intros s t H. exists s. now apply B.
Qed.

(** The agents a search considers: the planning agent, and the others if it is interactive. *)
Definition considered (interactive : bool) (e : env R) (a b : attached R) : Prop := In b (e_agents e) /\ (b = a \/ interactive = true).
(** The conditions under which a search for agent [a] completes. *)
Definition searchable (cfg : mcts_config R) (e : env R) (a : attached R) (n_moves : list (list Z)) : Prop :=
  (forall b, considered (mc_interactive cfg) e a b -> exists i act, stands_on (e_mdp e) (at_pos b) i /\ can_do (e_mdp e) i act) /\
  playable (mc_interactive cfg) (length (e_agents e)) n_moves /\
  (mc_caching cfg = true -> forall b, considered (mc_interactive cfg) e a b -> forall z z', In z (at_consumes b) -> In z' (at_consumes b) ->
     py_index (m_n_features (e_mdp e)) z = py_index (m_n_features (e_mdp e)) z') /\
  (mc_interactive cfg = true -> forall b, In b (e_agents e) -> b <> a -> can_simulate (mc_policy cfg) (mc_max_iter cfg) (mc_discount cfg) /\ exists f, nth f (at_reward b) 0%R <> 0%R).

Lemma count_true : forall l : list bool, (forall f g, nth f l false = true -> nth g l false = true -> f = g) -> length (where_ (fun b => b) l) <= 1.
Proof.
  intros l H. pose proof (where_NoDup _ (fun b : bool => b) l) as ND. assert (I : forall f, In f (where_ (fun b => b) l) -> nth f l false = true) by (intros f Hf; apply (in_where _ _ _ _ false) in Hf; apply Hf).
  destruct (where_ (fun b => b) l) as [|f [|g r]]; cbn; try lia. inversion ND as [|? ? N1 _]. subst. elim N1. left. apply H; apply I; [now right; left|now left].
Qed.
Lemma others_count : forall (l : list (attached R)) a, NoDup (map at_name l) -> In a l -> S (length (filter (fun b => negb (String.eqb (at_name b) (at_name a))) l)) = length l.
Proof.
  induction l as [|b l IH]; intros a ND I; [destruct I|]. cbn [map] in ND. inversion ND as [|? ? N1 N2]. subst. cbn [filter]. destruct I as [->|I].
  - rewrite String.eqb_refl. cbn [negb length]. f_equal. clear - N1. induction l as [|x l IH]; [reflexivity|]. cbn [filter]. destruct (String.eqb_spec (at_name x) (at_name a)) as [E|E]; cbn [negb length]; [elim N1; rewrite <- E; now left|]. f_equal. apply IH. intros X. apply N1. now right.
  - destruct (String.eqb_spec (at_name b) (at_name a)) as [E|E]; cbn [negb length]; [elim N1; rewrite E; now apply in_map|]. f_equal. now apply IH.
Qed.

(** A search for an agent of an environment ends and gives values, whatever the random draws and
    whatever score is used to choose among nodes. *)
Theorem C71_search_completes : forall pl e a score cfg n_moves, reachable pl e -> In a (e_agents e) -> consumes_in_range e -> searchable cfg e a n_moves ->
  forall fuel rnd, passes (length (e_agents e)) n_moves <= fuel -> exists v q, mcts_fit score cfg e a (Some n_moves) rnd fuel = Ok (v, q) /\ length v = m_n_states (e_mdp e).
Proof.
  intros pl e a score cfg nm RE Ha CR (SB1 & SB2 & SB3 & SB4). destruct (reachable_wf _ _ RE) as (k & shape & st & W). pose proof (wf_grid _ _ _ _ W) as G. pose proof (gi_ns _ _ _ _ G) as NS. destruct (grid_shape _ _ _ _ G) as (_ & _ & SH). pose proof SH as [SL _].
  set (l := all_info (mc_interactive cfg) e a). set (nF := m_n_features (e_mdp e)).
  set (others := if mc_interactive cfg then filter (fun b => negb (String.eqb (at_name b) (at_name a))) (e_agents e) else []).
  assert (EL : l = map agent_info (a :: others)). { unfold l, all_info, others. cbn [map]. f_equal. destruct (mc_interactive cfg); reflexivity. }
  assert (CO : forall b, In b (a :: others) -> considered (mc_interactive cfg) e a b /\ agent_ok (e_mdp e) b).
  { intros b [<-|Hb]; [split; [split; auto|now apply (wf_agents _ _ _ _ W)]|]. unfold others in Hb. destruct (mc_interactive cfg) eqn:EI; [|destruct Hb]. apply filter_In in Hb. destruct Hb as [Hb _]. split; [split; auto|now apply (wf_agents _ _ _ _ W)]. }
  assert (OT : forall b, In b others -> b <> a /\ mc_interactive cfg = true /\ In b (e_agents e)).
  { intros b Hb. unfold others in Hb. destruct (mc_interactive cfg); [|destruct Hb]. apply filter_In in Hb. destruct Hb as [Hb E]. split; [|auto]. intros ->. now rewrite String.eqb_refl in E. }
  assert (LL : mc_interactive cfg = true -> length l = length (e_agents e)). { intros EI. rewrite EL, map_length. cbn [length]. unfold others. rewrite EI. apply others_count; [apply (wf_names _ _ _ _ W)|exact Ha]. }
  assert (NTH : forall i, i < length l -> exists b, In b (a :: others) /\ nth i l no_info = agent_info b /\ (0 < i -> In b others)).
  { intros i Hi. rewrite EL in *. rewrite map_length in Hi. exists (nth i (a :: others) a). split; [now apply nth_In|]. split; [now apply nth_map_lt|]. destruct i; [lia|]. intros _. cbn [nth]. apply nth_In. cbn in Hi. lia. }
  assert (RWL : forall i, In i l -> length (i_reward i) = nF). { intros i Hi. rewrite EL in Hi. apply in_map_iff in Hi. destruct Hi as (b & <- & Hb). apply CO in Hb. cbn. apply Hb. }
  destruct (C44_accepted (mc_interactive cfg) (m_features (e_mdp e)) (m_sas (e_mdp e)) l nm (mc_C cfg) (mc_cost cfg) (mc_policy cfg) (mc_caching cfg) (mc_max_iter cfg) (mc_discount cfg) (mc_tol cfg)) as (c & MS).
  { intros i z Hi Hz. rewrite (RWL i Hi). rewrite EL in Hi. apply in_map_iff in Hi. destruct Hi as (b & <- & Hb). apply CO in Hb. cbn in Hz. destruct Hb as [[Hb _] _]. apply (CR b Hb z Hz). }
  { intros i Hi. rewrite (RWL i Hi). symmetry. apply RWL. apply nth_In. rewrite EL. cbn. lia. }
  assert (FIE : forall b, agent_ok (e_mdp e) b -> at_feature_idx b < nF). { intros b (B1 & B2 & _). unfold nF. pose proof (wf_nf _ _ _ _ W). lia. }
  (* the fields of the search *)
  assert (FLD : s_interactive c = mc_interactive cfg /\ s_sas c = m_sas (e_mdp e) /\ s_features c = m_features (e_mdp e) /\ s_start c = map i_pos l /\ s_n_moves c = nm /\ s_rewards c = map i_reward l /\ s_feature_idx c = map i_feature l /\
    s_policy c = mc_policy cfg /\ s_caching c = mc_caching cfg /\ s_max_iter c = mc_max_iter cfg /\ s_discount c = mc_discount cfg /\ length (s_consumes c) = length l /\
    (forall i, i < length l -> length (nth i (s_consumes c) []) = nF /\ forall f, nth f (nth i (s_consumes c) []) false = true -> exists z, In z (i_consumes (nth i l no_info)) /\ py_index nF z = Ok f)).
  { clear - MS RWL. unfold make_search in MS. destruct (negb _); [discriminate|]. apply bind_ok in MS. destruct MS as (masks & MM & MS). assert (OI : forall (x y : search R), Ok x = Ok y -> x = y) by (intros ? ? X; now inversion X). apply OI in MS. subst c.
    cbn [s_interactive s_sas s_features s_start s_n_moves s_rewards s_feature_idx s_policy s_caching s_max_iter s_discount s_consumes]. destruct (mapM_nth _ _ _ _ _ MM) as [LM SM]. repeat (split; [reflexivity|]). split; [exact LM|]. intros i Hi.
    destruct (mask_spec _ _ (SM i no_info [] Hi)) as [L S]. rewrite (RWL (nth i l no_info)) in * by (now apply nth_In). split; [exact L|]. intros f Hf. apply S in Hf. apply Hf. }
  destruct FLD as (F1 & F2 & F3 & F4 & F5 & F6 & F7 & F8 & F9 & F10 & F11 & F12 & F13).
  assert (LST : length (s_start c) = length l) by (rewrite F4; apply map_length).
  assert (RD : ready c (nst shape) nF).
  { unfold ready, well_shaped. rewrite F1, F2, F3, F8, F9, F10, F11, F12, LST. split; [eapply grid_is_mdp; exact G|]. split; [|split; [eapply C71_grids_have_no_dead_ends; exact RE|]].
    { split; [pose proof (wf_table _ _ _ _ W) as TB; apply table_shape in TB; rewrite NS in TB; exact TB|]. split; [exact SL|]. split; [reflexivity|]. split; [intros i Hi; now apply F13|]. rewrite EL. cbn. lia. }
    split. { intros i Hi. rewrite F7, (nth_map_lt _ _ _ _ _ _ no_info) by exact Hi. destruct (NTH i Hi) as (b & Hb & -> & _). cbn. apply FIE. now apply CO. }
    split. { intros i Hi. rewrite F6, (nth_map_lt _ _ _ _ _ _ no_info) by exact Hi. apply RWL. now apply nth_In. }
    split. { intros EC i Hi. apply count_true. intros f g Hf Hg. destruct (F13 i Hi) as [_ LF]. destruct (LF f Hf) as (z & Hz & Pz). destruct (LF g Hg) as (z' & Hz' & Pz'). destruct (NTH i Hi) as (b & Hb & Eb & _). rewrite Eb in *. cbn in Hz, Hz'.
      pose proof (SB3 EC b (proj1 (CO b Hb)) z z' Hz Hz') as X. fold nF in X. congruence. }
    split. { intros EI. split.
      - intros Hl. destruct (NTH 1 Hl) as (b & _ & _ & Hb). destruct (OT b (Hb ltac:(lia))) as (D & _ & Ib). now apply (SB4 EI b Ib D).
      - intros i Hi. destruct (NTH i ltac:(lia)) as (b & _ & Eb & Hb). destruct (OT b (Hb ltac:(lia))) as (D & _ & Ib). destruct (SB4 EI b Ib D) as (_ & f & Hf). exists f. rewrite F6, (nth_map_lt _ _ _ _ _ _ no_info) by lia. rewrite Eb. exact Hf. }
    intros i Hi. rewrite F4, (nth_map_lt _ _ _ _ _ _ no_info) by exact Hi. destruct (NTH i Hi) as (b & Hb & -> & _). destruct (SB1 b (proj1 (CO b Hb))) as (s & act & SO & CD). unfold stands_on in SO. rewrite NS in SO. exists s. split; [exact SO|].
    apply (can_do_edge _ _ _ _ _ _ G) in CD; [|eapply py_index_ok; exact SO]. destruct CD as (_ & t & _ & X). exists t, act. exact X. }
  assert (PB : playable (s_interactive c) (length (s_start c)) (s_n_moves c)). { rewrite F1, F5, LST. unfold playable in *. destruct (mc_interactive cfg); [|exact SB2]. now rewrite LL. }
  intros fuel rnd HF'. assert (HF : passes (length (s_start c)) (s_n_moves c) <= fuel).
  { rewrite LST, F5. eapply Nat.le_trans; [|exact HF']. unfold passes. apply le_n_S, Nat.add_le_mono_l, Nat.mul_le_mono_r. rewrite EL, map_length. cbn [length]. unfold others. destruct (mc_interactive cfg); [|cbn; destruct (e_agents e); [destruct Ha|cbn; lia]]. rewrite others_count; [lia|apply (wf_names _ _ _ _ W)|exact Ha]. }
  unfold mcts_fit, run_mcts. fold l. rewrite MS. cbn [bind].
  destruct (search_completes score c rnd _ _ RD PB fuel HF (Z.to_nat (mc_n_iter cfg)) 0 (zeros1 (length (m_sas (e_mdp e)))) (zeros1 (length (m_sas (e_mdp e)))) (repeat [] (length l)) []) as ([[[V N] k'] sts] & ES).
  { intros b key q I. rewrite nth_repeat in I. destruct I. }
  rewrite ES. cbn [bind]. destruct (wf_agents _ _ _ _ W a Ha) as (_ & _ & _ & _ & (i & SO) & _). unfold stands_on in SO. rewrite NS in SO.
  unfold mcts_action_values, get_actions_states. rewrite SL, SO. cbn [bind]. unfold mcts_q. rewrite NS, SO. cbn [bind]. do 2 eexists. split; [reflexivity|]. rewrite map_length.
  assert (P0 : py_index (nst shape) (nth 0 (s_start c) 0%Z) = Ok i). { rewrite F4, EL. cbn. exact SO. }
  assert (LV : length V = nst shape); [|lia]. clear MS. refine (proj1 (search_stats score c rnd fuel (nst shape) (actions_of k st) i _ _ P0 _ _ _ _ _ _ (@nil R) _ _ _ _ _ _ _ _ _ ES)).
  - rewrite F2. exact SH.
  - rewrite LST, EL. cbn. lia.
  - unfold zeros1. rewrite repeat_length. exact SL.
  - unfold zeros1. rewrite repeat_length. exact SL.
  - reflexivity.
  - reflexivity.
  - intros s Hs. unfold zeros1. rewrite !nth_repeat. split; reflexivity.
Qed.

(** The agent named [nm] plans with tree search: the loop runs as long as it needs to. *)
Definition runs_mcts (pl : plugins R) (nm : string) (score : scorer R) (cfg : mcts_config R) : Prop :=
  pl_forgets pl nm = true /\ forall e n seed, NoDup (map at_name (e_agents e)) -> exists rnd fuel, passes (length (e_agents e)) (match n with Some m => m | None => [] end) <= fuel /\
    forall a, agent_named e nm a -> pl_fit pl nm e n seed = mcts_fit score cfg e a n rnd fuel.
(** Action probabilities come from one of the two selectors. *)
Definition gives_probabilities (pl : plugins R) (nm : string) : Prop := pl_pi_p pl nm = max_get_pi_p \/ exists T, pl_pi_p pl nm = softmax_get_pi_p T.

Lemma softmax_length : forall row T, length (softmax row T) = length row.
Proof. intros row T. unfold softmax. destruct (forallb isninf row) eqn:E; [apply map_length|]. destruct row as [|x row]; [discriminate|]. cbn [fmax_list]. now rewrite !map_length. Qed.
Lemma softmax_pi_p_total : forall T (q : list (list (fval R))), (exists row, In row q /\ some_known row) -> exists p, get_pi_p (softmax_get_pi_p T) q = Ok p.
Proof.
  intros T q K. unfold get_pi_p. rewrite (proj2 (check_q_ok q) K). unfold softmax_get_pi_p. cbn [bind]. unfold ActionModel.clean at 1. rewrite !map_length, Nat.eqb_refl. cbn [negb].
  match goal with |- context [if forallb ?f ?l then _ else _] => assert (X : forallb f l = true) end.
  { clear. unfold ActionModel.clean. rewrite map_map. assert (SL : forall row, length (softmax (map nan_to_ninf row) T) = length row).
    { intros row. rewrite softmax_length. apply map_length. }
    induction q as [|row q IH]; [reflexivity|]. cbn [map combine forallb]. rewrite IH, andb_true_r. destruct (nan_state row); rewrite ?map_length, SL; apply Nat.eqb_refl. }
  rewrite X. eauto.
Qed.

(** Fitting a tree-search agent with a schedule succeeds; the agent's next step is then as in C42. *)
Theorem C71_fit_succeeds : forall pl e nm a score cfg n_moves s s', reachable pl e -> agent_named e nm a -> runs_mcts pl nm score cfg -> selects_best pl nm -> gives_probabilities pl nm ->
  consumes_in_range e -> searchable cfg e a n_moves -> exists e1, env_fit pl e nm (Some n_moves) s s' = (e1, Ok tt).
Proof.
  intros pl e nm a score cfg n s s' RE NA RM SB GP CR SR. destruct (reachable_wf _ _ RE) as (k & shape & st & W). pose proof NA as [Ha EN]. pose proof (wf_grid _ _ _ _ W) as G. pose proof (gi_ns _ _ _ _ G) as NS.
  destruct (proj2 RM e (Some n) s (wf_names _ _ _ _ W)) as (rnd & fuel & HF & PF). specialize (PF a NA).
  destruct (C71_search_completes pl e a score cfg n RE Ha CR SR fuel rnd HF) as (v & q & MF & LV). destruct (C42_values _ _ _ _ _ _ _ _ _ _ RE Ha MF) as (i & SO & VO & _).
  assert (Hi : i < nst shape) by (rewrite <- NS; eapply py_index_ok; exact SO).
  assert (EX : exists act, can_do (e_mdp e) i act). { destruct SR as (S1 & _). destruct (S1 a) as (j & act & SO' & CD); [split; auto|]. unfold stands_on in *. assert (j = i) by congruence. subst j. eauto. }
  assert (EL : lookup e nm = Ok a). { destruct (lookup_spec k shape st e nm W) as [(b & EL & Hb & EN')|(_ & NI)]; [rewrite EL; f_equal; eapply same_name_same; eauto; [apply (wf_names _ _ _ _ W)|congruence]|]. elim NI. apply (wf_lookup _ _ _ _ W). rewrite <- EN. now apply in_map. }
  unfold env_fit. rewrite EL. pose proof VO as (LQ & LR & HQ). unfold alg_fit. destruct (wf_agents _ _ _ _ W a Ha) as (_ & _ & _ & LRW & _). rewrite LRW, Nat.eqb_refl. cbn [negb]. rewrite EN, PF, MF. cbn [bind]. rewrite LV, LQ, !Nat.eqb_refl. cbn [negb].
  replace (forallb (fun row => length row =? m_n_actions (e_mdp e)) q) with true by (symmetry; apply forallb_forall; intros row Hr; apply Nat.eqb_eq; auto). cbn [negb].
  destruct (select_only_at _ _ _ pl nm _ _ _ G SB Hi VO) as [S1 _]. destruct (S1 EX s') as (pi & Epi & _).
  assert (KQ : exists row, In row q /\ some_known row).
  { destruct EX as (act & C). exists (nth i q []). assert (La : act < m_n_actions (e_mdp e)). { pose proof C as C'. apply (can_do_edge _ _ _ _ _ _ G Hi) in C'. destruct (grid_shape _ _ _ _ G) as (_ & X & _). rewrite (gi_na _ _ _ _ G), <- X. tauto. }
    split; [apply nth_In; lia|]. destruct (HQ i act ltac:(lia) La) as [F _]. destruct (F (conj eq_refl C)) as (x & Ex). exists (Fin x). split; [|discriminate]. rewrite <- Ex. apply nth_In. rewrite LR; [exact La|]. apply nth_In. lia. }
  assert (EP : exists p, get_pi_p (pl_pi_p pl nm) q = Ok p).
  { destruct GP as [->|(T & ->)]; [|now apply softmax_pi_p_total]. destruct (C25_probabilities q) as (p & E & _); [|exact KQ|eauto]. intros row Hr X. apply LR in Hr. rewrite X in Hr. cbn in Hr.
    destruct EX as (act & C). apply (can_do_edge _ _ _ _ _ _ G Hi) in C. destruct (grid_shape _ _ _ _ G) as (_ & Y & _). rewrite (gi_na _ _ _ _ G), <- Y in Hr. lia. }
  destruct EP as (p & EP). unfold get_policy. cbn [at_fit set_fit at_name]. rewrite EN, EP, Epi. eauto.
Qed.

(** * C43: without a schedule *)
(** Fitting without a schedule raises TypeError in every environment. *)
Theorem C43_without_schedule_refuted : forall pl e nm a score cfg s s', reachable pl e -> agent_named e nm a -> runs_mcts pl nm score cfg -> consumes_in_range e -> (0 < mc_n_iter cfg)%Z ->
  env_fit pl e nm None s s' = (with_agent e (set_fit a None), Err TypeError).
Proof.
  intros pl e nm a score cfg s s' RE NA RM CR NI. destruct (reachable_wf _ _ RE) as (k & shape & st & W). pose proof NA as [Ha EN].
  destruct (proj2 RM e None s (wf_names _ _ _ _ W)) as (rnd & fuel & HF & PF). specialize (PF a NA).
  assert (EL : lookup e nm = Ok a). { destruct (lookup_spec k shape st e nm W) as [(b & EL & Hb & EN')|(_ & X)]; [rewrite EL; f_equal; eapply same_name_same; eauto; [apply (wf_names _ _ _ _ W)|congruence]|]. elim X. apply (wf_lookup _ _ _ _ W). rewrite <- EN. now apply in_map. }
  unfold env_fit. rewrite EL. unfold alg_fit, failed_fit. destruct (wf_agents _ _ _ _ W a Ha) as (_ & _ & _ & LRW & _). rewrite LRW, Nat.eqb_refl. cbn [negb andb]. rewrite EN, PF, (proj1 RM). unfold mcts_fit, run_mcts.
  assert (AO : forall i, In i (all_info (mc_interactive cfg) e a) -> exists b, In b (e_agents e) /\ i = agent_info b).
  { intros i [<-|Hi]; [eauto|]. destruct (mc_interactive cfg); [|destruct Hi]. apply in_map_iff in Hi. destruct Hi as (b & <- & Hb). apply filter_In in Hb. exists b. tauto. }
  assert (RWL : forall i, In i (all_info (mc_interactive cfg) e a) -> length (i_reward i) = m_n_features (e_mdp e)). { intros i Hi. destruct (AO i Hi) as (b & Hb & ->). cbn. apply (wf_agents _ _ _ _ W b Hb). }
  destruct (C44_accepted (mc_interactive cfg) (m_features (e_mdp e)) (m_sas (e_mdp e)) (all_info (mc_interactive cfg) e a) [] (mc_C cfg) (mc_cost cfg) (mc_policy cfg) (mc_caching cfg) (mc_max_iter cfg) (mc_discount cfg) (mc_tol cfg)) as (c & ->).
  { intros i z Hi Hz. rewrite (RWL i Hi). destruct (AO i Hi) as (b & Hb & ->). apply (CR b Hb z Hz). }
  { intros i Hi. rewrite (RWL i Hi). symmetry. apply RWL. now left. }
  cbn [bind]. destruct (Z.ltb_spec 0 (mc_n_iter cfg)); [reflexivity|lia].
Qed.
(** The agents' own moves per turn as a schedule: first the planning agent, then the others if the search is
    interactive. *)
Definition own_moves (interactive : bool) (e : env R) (a : attached R) : list (list Z) :=
  [at_n_moves a] :: (if interactive then map (fun b => [at_n_moves b]) (filter (fun b => negb (String.eqb (at_name b) (at_name a))) (e_agents e)) else []).
(** Given explicitly, that schedule works. *)
Theorem C43_with_schedule_partial : forall pl e nm a score cfg s s', reachable pl e -> agent_named e nm a -> runs_mcts pl nm score cfg -> selects_best pl nm -> gives_probabilities pl nm ->
  consumes_in_range e -> (forall b, In b (e_agents e) -> (0 < at_n_moves b)%Z) ->
  (forall b, considered (mc_interactive cfg) e a b -> exists i act, stands_on (e_mdp e) (at_pos b) i /\ can_do (e_mdp e) i act) -> mc_caching cfg = false ->
  (mc_interactive cfg = true -> forall b, In b (e_agents e) -> b <> a -> can_simulate (mc_policy cfg) (mc_max_iter cfg) (mc_discount cfg) /\ exists f, nth f (at_reward b) 0%R <> 0%R) ->
  exists e1, env_fit pl e nm (Some (own_moves (mc_interactive cfg) e a)) s s' = (e1, Ok tt).
Proof.
  intros pl e nm a score cfg s s' RE NA RM SB GP CR NM ST NC OP. eapply C71_fit_succeeds; eauto. destruct (reachable_wf _ _ RE) as (k & shape & st & W). pose proof NA as [Ha EN].
  split; [exact ST|]. split; [|split; [congruence|exact OP]]. unfold playable, own_moves. destruct (mc_interactive cfg); [|cbn; apply NM, Ha].
  split; [cbn [length]; rewrite map_length; apply others_count; [apply (wf_names _ _ _ _ W)|exact Ha]|]. split.
  - exists 1. intros row [<-|Hr]; [reflexivity|]. apply in_map_iff in Hr. destruct Hr as (b & <- & _). reflexivity.
  - intros row z [<-|Hr]; [intros [<-|[]]; apply Z.lt_le_incl, NM, Ha|]. apply in_map_iff in Hr. destruct Hr as (b & <- & Hb). intros [<-|[]]. apply filter_In in Hb. apply Z.lt_le_incl, NM. tauto.
Qed.
(** C222: fitting tree search with the schedule of the agents' own moves. *)
Theorem C222_own_moves : forall pl e nm a score cfg s s', reachable pl e -> agent_named e nm a -> runs_mcts pl nm score cfg -> selects_best pl nm -> gives_probabilities pl nm ->
  consumes_in_range e -> (forall b, In b (e_agents e) -> (0 < at_n_moves b)%Z) ->
  (forall b, considered (mc_interactive cfg) e a b -> exists i act, stands_on (e_mdp e) (at_pos b) i /\ can_do (e_mdp e) i act) -> mc_caching cfg = false ->
  (mc_interactive cfg = true -> forall b, In b (e_agents e) -> b <> a -> can_simulate (mc_policy cfg) (mc_max_iter cfg) (mc_discount cfg) /\ exists f, nth f (at_reward b) 0%R <> 0%R) ->
  exists e1, env_fit pl e nm (Some (own_moves (mc_interactive cfg) e a)) s s' = (e1, Ok tt).
Proof. exact (@C43_with_schedule_partial). Qed.

(** * Examples *)
(** The agents plan with tree search, draw 0 everywhere, and pick the best action. *)
Definition mcts_greedy {A} `{Num A} (score : scorer A) (cfg : mcts_config A) : plugins A :=
  mkPlugins (fun nm e n _ => match find_agent (e_agents e) nm with
                             | Some a => mcts_fit score cfg e a n (fun _ _ => 0) (passes (length (e_agents e)) (match n with Some m => m | None => [] end))
                             | None => Err KeyError end)
    (fun _ seed => max_get_pi (fun _ => seed)) (fun _ => max_get_pi_p) (fun _ => true).
Example C71_plugin : forall score cfg nm, let pl := mcts_greedy (A:=R) score cfg in runs_mcts pl nm score cfg /\ selects_best pl nm /\ gives_probabilities pl nm.
Proof.
  intros score cfg nm pl. split; [|split; [left; intros seed; exists (fun _ => seed); reflexivity|now left]].
  split; [reflexivity|]. intros e n seed ND. exists (fun _ _ => 0). eexists. split; [apply le_n|]. intros a [Ha Na]. unfold pl. cbn [mcts_greedy pl_fit]. destruct (find_agent (e_agents e) nm) as [b|] eqn:F.
  - unfold find_agent in F. apply find_some in F. destruct F as [Hb Nb]. apply String.eqb_eq in Nb. assert (b = a) by (eapply same_name_same; eauto; congruence). now subst b.
  - unfold find_agent in F. pose proof (find_none _ _ F a Ha) as X. cbn in X. rewrite Na, String.eqb_refl in X. discriminate.
Qed.

(** Two agents in opposite corners of a 2 x 2 grid; the first plans its two moves, expecting the second to
    answer with a greedy move of its own. *)
Definition ex_cfg {A} `{Num A} (interactive caching : bool) (discount tol : A) : mcts_config A := mkMCTS 3 n1 n0 interactive (OppSolve select_max) caching 5 discount tol.
Example C71_example : forall pl, exists e a, reachable pl e /\ agent_named e "p" a /\ consumes_in_range e /\ searchable (ex_cfg (A:=R) true false (9/10)%R (1/100)%R) e a [[2]; [1]]%Z /\
  own_moves true e a = [[2]; [1]]%Z /\ exists b, e_agents e = [a; b] /\ at_pos a = 0%Z /\ at_pos b = 3%Z /\ at_consumes a = [0%Z] /\ at_feature_idx a = 2 /\ m_n_states (e_mdp e) = 4 /\ m_n_features (e_mdp e) = 4 /\
  can_do (e_mdp e) 0 0 /\ can_do (e_mdp e) 0 1.
Proof.
  intros pl. destruct (ex_usable pl) as (m & GM & U & NO & NS).
  destruct (proj2 (C17_accepts_iff pl m [ex_p; ex_q] U)) as (m' & e & E).
  { rewrite NO, NS. intros s [<-|[<-|[]]]; (split; [reflexivity|]; split; [cbn; intros z Hz; lia|cbn; lia]). }
  assert (ND : NoDup (map sp_name [ex_p (A:=R); ex_q])) by (repeat constructor; cbn; intuition discriminate).
  pose proof (reach_new pl m _ m' e U E) as RE. destruct (C17_result pl m _ m' e U ND E) as (EM & _ & _ & _ & LA & HI & NF & _ & SAS & WA).
  destruct (HI 0 ex_p eq_refl) as (a & Ea & (A1 & A2 & A3 & A4 & _ & _ & A6 & _ & A5 & _) & p1 & S1 & _). destruct (HI 1 ex_q eq_refl) as (b & Eb & (B1 & B2 & B3 & B4 & _ & _ & _ & _ & B5 & _) & p2 & S2 & _).
  assert (AL : e_agents e = [a; b]). { destruct (e_agents e) as [|x [|y [|]]]; cbn in *; congruence. }
  destruct (reachable_wf _ _ RE) as (k' & shape' & st' & W). pose proof (wf_grid _ _ _ _ W) as G'.
  destruct (grid_mdp_ok Square ex_ft None (2, 2) false) as (m2 & GM2 & G & WL & _); [cbn; lia|repeat constructor|reflexivity|apply binary_zeros|]. assert (m2 = m) by congruence. subst m2.
  assert (N4 : nst shape' = 4). { destruct (grid_shape _ _ _ _ G') as (X & _). destruct (grid_shape _ _ _ _ G) as (Y & _). rewrite EM, SAS in X. rewrite X in Y. cbn in Y. exact Y. }
  assert (CD : forall i act t, i < 4 -> t < 4 -> act < 4 -> grid_edge Square (2, 2) false i act t -> can_do (e_mdp e) i act).
  { intros i act t Hi Ht Hact GE. apply (can_do_edge _ _ _ _ _ _ G'); [lia|]. rewrite EM, SAS. destruct (grid_shape _ _ _ _ G) as (_ & X & _). split; [rewrite X; exact Hact|]. exists t. split; [lia|].
    destruct (inv_edge _ _ _ _ G i act t ltac:(cbn; lia) ltac:(cbn; lia) ltac:(cbn; lia)) as [[-> _]|[_ X2]]; [lra|]. elim X2. split; [exact GE|]. unfold is_wall. rewrite WL. unfold walls_arg. cbn.
    assert (Z4 : forall j, j < 4 -> nth j [0; 0; 0; 0]%R 0%R <> 1%R) by (intros j Hj; do 4 (destruct j as [|j]; [cbn; lra|]); lia).
    split; [exact (Z4 i Hi)|exact (Z4 t Ht)]. }
  assert (NSE : m_n_states (e_mdp e) = 4) by (rewrite (gi_ns _ _ _ _ G'); exact N4).
  exists e, a. split; [exact RE|]. split; [split; [rewrite AL; now left|exact A1]|]. split; [|split].
  - intros x Hx z Hz. rewrite EM, NF, NO. rewrite AL in Hx. destruct Hx as [<-|[<-|[]]]; rewrite ?A4, ?B4 in Hz; cbn in Hz |- *; lia.
  - split; [|split; [|split]].
    + intros x [Hx _]. rewrite AL in Hx. unfold stands_on. rewrite NSE. destruct Hx as [<-|[<-|[]]]; cbn in *.
      * exists 0, 0. rewrite A5. split; [reflexivity|]. apply (CD 0 0 1); try lia. left. split; [cbn; lia|reflexivity].
      * exists 3, 2. rewrite B5. split; [reflexivity|]. apply (CD 3 2 2); try lia. left. split; [cbn; lia|reflexivity].
    + rewrite AL. split; [reflexivity|]. split; [exists 1; intros row [<-|[<-|[]]]; reflexivity|]. intros row z [<-|[<-|[]]] [<-|[]]; lia.
    + discriminate.
    + intros _ x Hx NE. split; [cbn; split; [apply select_max_known|split; [lra|lia]]|]. rewrite AL in Hx. destruct Hx as [<-|[<-|[]]]; [congruence|]. exists 0. rewrite B3. cbn. lra.
  - split; [unfold own_moves; rewrite AL; cbn [filter map]; rewrite String.eqb_refl; rewrite A1, B1, A2; cbn; now rewrite B2|]. exists b. split; [exact AL|]. split; [exact A5|]. split; [exact B5|]. split; [exact A4|].
    split; [rewrite A6, NO; reflexivity|]. split; [exact NSE|]. split; [rewrite EM, NF, NO; reflexivity|].
    split; [apply (CD 0 0 1)|apply (CD 0 1 2)]; try lia; left; (split; [cbn; lia|reflexivity]).
Qed.

(** A run of the same search over the rationals, with the mean value in place of the UCB score (which needs
    square roots and logarithms): agent p plans, then steps to state 2. Without a schedule: TypeError. *)
Definition mean_score {A} `{Num A} : scorer A := fun V N C node s => Fin (ndiv (nth s V n0) (nadd n1 (nth s N n0))).
Example C71_run : exists m m' e e1 e2 s, grid_mdp (A:=Q) Square ex_ft None (2, 2) false = Ok m /\ make_env m [ex_p; ex_q] = (m', Ok e) /\
  let pl := mcts_greedy mean_score (ex_cfg true false (9 # 10) (1 # 100))%Q in
  env_fit pl e "p" (Some [[2]; [1]]%Z) 0 0 = (e1, Ok tt) /\ env_step pl e1 "p" 0 = (e2, Ok s) /\ (s = 1 \/ s = 2)%Z /\ snd (env_fit pl e "p" None 0 0) = Err TypeError.
Proof. do 6 eexists. split; [vm_compute; reflexivity|]. split; [vm_compute; reflexivity|]. cbv zeta. split; [vm_compute; reflexivity|]. split; [vm_compute; reflexivity|]. split; [vm_compute; tauto|vm_compute; reflexivity]. Qed.

(** * C72: opponents without preferences *)
(** Planning against an agent whose reward function is zero everywhere fails, although the same search
    succeeds once that agent has a preference. *)
Theorem C72_indifferent_opponent_refuted : exists m m' e e', grid_mdp (A:=Q) Square ex_ft None (2, 2) false = Ok m /\
  let pl := mcts_greedy mean_score (ex_cfg true false (9 # 10) (1 # 100))%Q in let q r := mkSpec "q"%string 1%Z None 3%Z r [] in
  make_env m [ex_p; q [0; 0; 0; 0]%Q] = (m', Ok e) /\ snd (env_fit pl e "p" (Some [[1]; [1]]%Z) 0 0) = Err TypeError /\
  make_env m [ex_p; q [0; 0; 1; 0]%Q] = (m', Ok e') /\ snd (env_fit pl e' "p" (Some [[1]; [1]]%Z) 0 0) = Ok tt.
Proof. do 4 eexists. split; [vm_compute; reflexivity|]. cbv zeta. split; [vm_compute; reflexivity|]. split; [vm_compute; reflexivity|]. split; [vm_compute; reflexivity|]. vm_compute; reflexivity. Qed.

(** * C73: caching with several consumed features *)
Theorem C73_cached_consumer_refuted : exists m m' e, grid_mdp (A:=Q) Square ex_ft None (2, 2) false = Ok m /\
  let pl caching := mcts_greedy mean_score (ex_cfg false caching (9 # 10) (1 # 100))%Q in
  make_env m [mkSpec "p"%string 1%Z None 0%Z [1; 1; 0]%Q [0; 1]%Z] = (m', Ok e) /\
  snd (env_fit (pl false) e "p" (Some [[2]]%Z) 0 0) = Ok tt /\ snd (env_fit (pl true) e "p" (Some [[2]]%Z) 0 0) = Err ValueError.
Proof. do 3 eexists. split; [vm_compute; reflexivity|]. cbv zeta. split; [vm_compute; reflexivity|]. split; vm_compute; reflexivity. Qed.

(** * C74: depth of a search that ignores the other agents *)
(** Whenever other agents have moves in the schedule, a completed iteration visits more states than the
    planning agent has moves. *)
Theorem C74_depth_refuted : forall score c (V N : list R) k rnd s0, 0 < length (s_start c) -> s_interactive c = false -> terminates (s_policy c) ->
  py_index (length (s_sas c)) (nth 0 (s_start c) 0%Z) = Ok s0 -> (0 < nth 0 (nth 0 (s_n_moves c) []) 0)%Z ->
  (0 <= planned (s_n_moves c) 0)%Z -> (0 < zsum (map zsum (tl (s_n_moves c))))%Z ->
  exists fuel0, forall fuel reward visited st k', fuel0 <= fuel -> mcts_iteration score c V N k rnd fuel = Ok (reward, visited, st, k') -> (planned (s_n_moves c) 0 < Z.of_nat (length visited))%Z.
Proof.
  intros score c V N k rnd s0 Hn INT TP P0 KP PN OT. destruct (C35_alone_partial score c V N k rnd s0 Hn INT TP P0 KP) as (fuel0 & H). exists fuel0. intros fuel reward visited st k' HF E. specialize (H fuel HF). rewrite E in H. destruct H as [_ ->].
  unfold n_steps, planned in *. destruct (s_n_moves c) as [|r m]; [cbn in OT; lia|]. cbn [nth tl map] in *. rewrite zsum_cons. lia.
Qed.
(** With only the planning agent in the schedule it visits exactly as many. *)
Theorem C74_own_schedule_partial : forall score c (V N : list R) k rnd s0 row, 0 < length (s_start c) -> s_interactive c = false -> terminates (s_policy c) ->
  py_index (length (s_sas c)) (nth 0 (s_start c) 0%Z) = Ok s0 -> s_n_moves c = [row] -> (0 < nth 0 row 0)%Z -> (0 <= zsum row)%Z ->
  exists fuel0, forall fuel reward visited st k', fuel0 <= fuel -> mcts_iteration score c V N k rnd fuel = Ok (reward, visited, st, k') -> Z.of_nat (length visited) = zsum row.
Proof.
  intros score c V N k rnd s0 row Hn INT TP P0 EM KP PN. destruct (C35_alone_partial score c V N k rnd s0 Hn INT TP P0) as (fuel0 & H); [now rewrite EM|]. exists fuel0. intros fuel reward visited st k' HF E. specialize (H fuel HF). rewrite E in H. destruct H as [_ ->].
  unfold n_steps. rewrite EM. cbn [map]. rewrite zsum_cons. unfold zsum at 2. cbn. lia.
Qed.
(** Agent p plans one move of its own; the other agent's move makes the search two moves deep. *)
Example C74_run : exists m m' e a c r, grid_mdp (A:=Q) Square ex_ft None (2, 2) false = Ok m /\ make_env m [ex_p; ex_q] = (m', Ok e) /\ find_agent (e_agents e) "p" = Some a /\
  make_search false (m_features m') (m_sas m') (all_info false e a) [[1]; [1]]%Z 1%Q 0%Q OppRandom false 1 (1 # 2)%Q (1 # 2)%Q = Ok c /\
  mcts_iteration mean_score c (repeat 0%Q 4) (repeat 0%Q 4) [] (fun _ => 0) 10 = Ok r /\ length (snd (fst (fst r))) = 2.
Proof. do 6 eexists. vmr. Qed.
