(** C120: a tree search tries every possible first move; C121: its values are not averages. *)
From Coq Require Import String List ZArith QArith Reals Bool Lia Lra.
From Verif Require Import PyBase PyProofs GridModel GridSpec GridProofs GridProofs2 MDPModel MDPSpec MDPProofs MDPProofs2 MDPProofs3 MDPProofs4 MDPProps ActionModel ActionSpec SoftmaxModel SoftmaxProofs ActionProofs RSum ActionProps EnvModel PlanProps EnvSpec StepSpec EnvProofs EnvProofs2 EnvProofs3 EnvProofs4 EnvProofs5 EnvProps StepProps VIModel VISpec VIProofs VIProofs2 VIProps VIEnvProps MCTSModel MCTSSpec MCTSProofs MCTSProofs2 MCTSProofs3 MCTSProps MCTSWalk MCTSEaten MCTSCache MCTSFit MCTSRun MCTSKept MCTSEnv.
Import ListNotations.
Local Close Scope Q_scope. Local Close Scope R_scope.
Local Open Scope nat_scope.

(** * The first move of an iteration *)
Section First.
Context {A : Type} {NA : Num A} (score : scorer A) (c : search A) (V N : list A) (rnd : nat -> nat).
Lemma body_prefix : forall st r, it_body score c V N rnd st = Ok r -> match r with inl st' | inr st' => exists l, it_visited st' = it_visited st ++ l end.
Proof.
  intros st r H. unfold it_body in H. destruct (nth_error (s_n_moves c) _) as [row|]; [|discriminate]. destruct (nth_error row _) as [k|]; [|discriminate].
  apply bind_ok in H. destruct H as (r1 & M & H).
  assert (P1 : match r1 with inl st' | inr st' => exists l, it_visited st' = it_visited st ++ l end).
  { destruct (0 <? k)%Z; [|inversion M; subst; exists []; now rewrite app_nil_r]. destruct r1 as [s1|s1].
    - apply it_move_ok in M. destruct M as (ft & ad & act & acts & _ & _ & _ & _ & _ & _ & _ & _ & [(_ & x & _ & _ & -> & _)|[(_ & _ & _ & x & _ & _ & _ & -> & _)|(_ & _ & _ & _ & -> & _)]] & _); [now exists [x]| |]; exists []; now rewrite app_nil_r.
    - apply it_move_caught in M. destruct M as (ft & ad & act & _ & _ & ->). exists []. cbn [it_visited]. now rewrite app_nil_r. }
  destruct r1 as [s1|s1]; injection H as <-; [|exact P1]. destruct (it_next_fields c k s1) as (_ & -> & _). exact P1.
Qed.
Lemma loop_prefix : forall fuel st st' b, it_loop score c V N rnd fuel st = Ok (st', b) -> exists l, it_visited st' = it_visited st ++ l.
Proof.
  induction fuel as [|fuel IH]; intros st st' b H; [discriminate|]. cbn [it_loop] in H. destruct (it_total st <? n_steps c)%Z.
  - apply bind_ok in H. destruct H as ([s1|s1] & B & H); apply body_prefix in B; destruct B as (l & B).
    + apply IH in H. destruct H as (l' & H). exists (l ++ l'). now rewrite H, B, app_assoc.
    + injection H as <- <-. eauto.
  - injection H as <- <-. exists []. now rewrite app_nil_r.
Qed.
End First.

Lemma first_move : forall score c (V N : list R) k rnd fuel nS nA s0 reward visited k' o z row rows, shape3 nS nA nS (s_sas c) -> 0 < length (s_start c) -> py_index nS (nth 0 (s_start c) 0%Z) = Ok s0 ->
  s_n_moves c = (z :: row) :: rows -> (0 < z)%Z -> (0 < n_steps c)%Z ->
  length (s_consumes_agents c) = length (s_start c) -> (forall row, In row (s_consumes_agents c) -> length row = length (s_start c)) ->
  (s_interactive c = true -> forall i, i < length (s_start c) -> eats (s_consumes_agents c) (s_start c) i 0 = false) ->
  mcts_iteration score c V N k rnd fuel = Ok (reward, visited, k', o) ->
  exists x l, visited = x :: l /\ can_go (s_sas c) s0 x /\ ((exists t, can_go (s_sas c) s0 t /\ nth t N 0%R = 0%R) -> nth x N 0%R = 0%R).
Proof.
  intros score c V N k rnd fuel nS nA s0 reward visited k' o z row rows SH Hn P0 EN Hz NT LC LR NE H.
  unfold mcts_iteration in H. apply bind_ok in H. destruct H as ([st cg] & L & H). injection H as <- <- <- <-.
  destruct fuel as [|fuel]; [discriminate|]. cbn [it_loop] in L. replace (it_total (it_start c k) <? n_steps c)%Z with true in L by (symmetry; now apply Z.ltb_lt).
  apply bind_ok in L. destruct L as (r & B & L). unfold it_body in B. cbn [it_start it_actor] in B. rewrite EN in B. cbn [nth_error] in B. fold (it_start c k) in B.
  replace (nth 0 (it_turns (it_start c k)) 0) with 0 in B by (cbn [it_start it_turns]; destruct (length (s_start c)); reflexivity). cbn [nth_error] in B.
  replace (0 <? z)%Z with true in B by (symmetry; now apply Z.ltb_lt). apply bind_ok in B. destruct B as (r1 & M & B).
  destruct r1 as [s1|s1].
  - injection B as <-. apply it_move_ok in M. destruct M as (ft & ad & act & acts & _ & _ & GA & _ & _ & _ & _ & _ & [(_ & x & NX & _ & EV & _)|[(X & _)|(X & _)]] & _); [|now contradiction X|now contradiction X].
    apply loop_prefix in L. destruct L as (l & L). destruct (it_next_fields c z s1) as (_ & E2 & _). rewrite E2, EV in L. cbn [it_start it_visited app] in L. exists x, l. split; [exact L|].
    cbn [it_start it_actor it_nodes it_expand] in *. apply get_actions_states_spec in GA. destruct GA as (s & PS & GA). destruct SH as [SL _]. rewrite SL, P0 in PS. injection PS as <-.
    assert (IN : forall t, In t (map snd acts) <-> can_go (s_sas c) s0 t).
    { intros t. rewrite in_map_iff. split; [intros ([a t'] & E & I); cbn in E; subst t'; exists a; now apply GA|intros (a & Ha); exists (a, t); split; [reflexivity|now apply GA]]. }
    split; [apply IN; eapply (next_node_in (A:=R)); exact NX|]. intros (t & Ht & Et).
    destruct (C37_expand score V N (map snd acts) (s_C c) (nth 0 (s_start c) 0%Z)) as [X _]; [exists t; split; [now apply IN|exact Et]|].
    destruct (X (rnd (Z.to_nat (it_total (it_start c k))))) as (y & Ey & _ & Ny). cbn [it_start it_total] in *. rewrite NX in Ey. injection Ey as <- _. exact Ny.
  - exfalso. apply it_move_caught in M. destruct M as (ft & ad & act & _ & OV & _). unfold overlap_of in OV. destruct (s_interactive c) eqn:SI; [|discriminate]. cbn [it_start it_nodes it_active] in OV.
    destruct (C38_caught_iff (length (s_start c)) _ _ _ _ _ _ _ _ LC LR Hn ltac:(apply repeat_length) OV) as [X _]. destruct (X eq_refl) as (i & Hi & Ei). rewrite (NE eq_refl i Hi) in Ei. discriminate.
Qed.

(** * Counting *)
Lemma visits_pos : forall states s j, j < length states -> In s (nth j states []) -> (1 <= visits states s)%R.
Proof.
  intros states s j Hj I. assert (Z1 : In (nth j states []) states) by now apply nth_In. revert Z1 I. generalize (nth j states []). intros l' Z1 Z2. unfold visits.
  clear j Hj. induction states as [|m states IH]; [destruct Z1|]. rewrite sumf_cons.
  assert (0 <= sumf (fun l => INR (occurrences s l)) states)%R by (apply sumf_nonneg; intros; apply pos_INR). assert (0 <= INR (occurrences s m))%R by apply pos_INR.
  destruct Z1 as [->|Z1]; [|specialize (IH Z1); lra]. apply (count_occ_In Nat.eq_dec) in Z2. assert (INR 1 <= INR (occurrences s l'))%R by (apply le_INR; unfold occurrences; lia). cbn in H1. lra.
Qed.
Lemma visits_zero : forall states s, (visits states s = 0)%R -> forall j, j < length states -> ~ In s (nth j states []).
Proof. intros states s E j Hj I. pose proof (visits_pos states s j Hj I). lra. Qed.
Lemma visits_none : forall states s, (forall l, In l states -> ~ In s l) -> visits states s = 0%R.
Proof.
  intros states s H. unfold visits. apply sumf_0. intros l Hl. unfold occurrences. rewrite (proj1 (count_occ_not_In Nat.eq_dec l s)); [reflexivity|now apply H].
Qed.

(** If every round begins with a new member of [ts] as long as there is one, then after as many rounds as [ts]
    has members all have occurred. *)
Lemma all_occur : forall (ok : nat -> Prop) ts states, (forall t, ok t -> In t ts) -> length ts <= length states ->
  (forall j, j < length states -> exists x l, nth j states [] = x :: l /\ ok x /\ ((exists t, ok t /\ visits (firstn j states) t = 0%R) -> visits (firstn j states) x = 0%R)) ->
  forall t, ok t -> exists j, j < length states /\ In t (nth j states []).
Proof.
  intros ok ts states TS LE H t Ht. destruct (Exists_dec (fun l => In t l) states ltac:(intros; apply in_dec, Nat.eq_dec)) as [X|X].
  { apply Exists_exists in X. destruct X as (l & Hl & It). apply (In_nth _ _ []) in Hl. destruct Hl as (j & Hj & <-). eauto. }
  exfalso. assert (NT : forall l, In l states -> ~ In t l) by (intros l Hl It; apply X, Exists_exists; eauto).
  set (x := fun j => hd 0 (nth j states [])).
  assert (XJ : forall j, j < length states -> ok (x j) /\ In (x j) (nth j states []) /\ visits (firstn j states) (x j) = 0%R).
  { intros j Hj. destruct (H j Hj) as (y & l & E & OY & V). unfold x. rewrite E. cbn [hd]. split; [exact OY|]. split; [now left|]. apply V. exists t. split; [exact Ht|]. apply visits_none. intros l' Hl'. apply NT. rewrite <- (firstn_skipn j states). apply in_or_app. now left. }
  assert (INJ : forall i j, i < j -> j < length states -> x i <> x j).
  { intros i j Hij Hj E. destruct (XJ j Hj) as (_ & _ & Z). destruct (XJ i ltac:(lia)) as (_ & I & _). rewrite E in I.
    apply (visits_zero _ _ Z i); [rewrite firstn_length; lia|]. replace (nth i (firstn j states) []) with (nth i states []); [exact I|]. rewrite <- (firstn_skipn j states) at 1. apply app_nth1. rewrite firstn_length. lia. }
  assert (ND : NoDup (t :: map x (seq 0 (length states)))).
  { constructor.
    - intros I. apply in_map_iff in I. destruct I as (j & E & Hj). apply in_seq in Hj. destruct (XJ j ltac:(lia)) as (_ & I & _). rewrite E in I. apply (NT (nth j states [])); [apply nth_In; lia|exact I].
    - assert (AUX : forall n s, s + n <= length states -> NoDup (map x (seq s n))); [|now apply AUX].
      induction n as [|n IH]; intros s Hs; cbn [seq map]; constructor; [|apply IH; lia]. intros I. apply in_map_iff in I. destruct I as (j & E & Hj). apply in_seq in Hj. apply (INJ s j); [lia|lia|now symmetry]. }
  assert (INC : incl (t :: map x (seq 0 (length states))) ts).
  { intros y [<-|Hy]; [now apply TS|]. apply in_map_iff in Hy. destruct Hy as (j & <- & Hj). apply in_seq in Hj. apply TS, XJ. lia. }
  pose proof (NoDup_incl_length ND INC) as LL. cbn [length] in LL. rewrite map_length, seq_length in LL. lia.
Qed.

(** * In environments *)
Lemma agents_square : forall pl cfg e a n c, reachable pl e -> In a (e_agents e) -> fit_search cfg e a n = Ok c ->
  length (s_consumes_agents c) = length (s_start c) /\ forall row, In row (s_consumes_agents c) -> length row = length (s_start c).
Proof.
  intros pl cfg e a n c RE Ha FS. unfold fit_search in FS. unfold make_search in FS. destruct (negb _); [discriminate|]. apply bind_ok in FS. destruct FS as (masks & MM & FS). assert (OI : forall (x y : search R), Ok x = Ok y -> x = y) by (intros ? ? X; now inversion X). apply OI in FS. subst c.
  cbn [s_consumes_agents s_start]. destruct (mapM_nth _ _ _ _ _ MM) as [LM _]. rewrite !map_length. split; [exact LM|]. intros row Hr. apply in_map_iff in Hr. destruct Hr as (m & <- & _). unfold consumes_row.
  rewrite <- (map_length (fun _ : info R => false) (all_info (mc_interactive cfg) e a)). generalize (map (fun _ : info R => false) (all_info (mc_interactive cfg) e a)). induction (where_ (fun b => b) m) as [|x l IH]; intros r; [reflexivity|]. cbn [fold_left]. rewrite IH. 
  destruct (agent_of_feature _ x); [apply upd_length|reflexivity].
Qed.

Lemma only_valid : forall k shape st m, grid_inv k shape st m -> forall i va, i < nst shape -> state_valid_actions m (Z.of_nat i) = Ok va ->
  (forall t, can_go (m_sas m) i t -> exists act, In act va /\ travels m i [act] t) /\ forall act t, travels m i [act] t -> can_go (m_sas m) i t.
Proof.
  intros k shape st m G i va Hi EV. destruct (in_valid_actions _ _ _ _ G i Hi) as (va' & E & IV). assert (va' = va) by congruence. subst va'. split.
  - intros t H. apply (go_edge _ _ _ _ G _ _ Hi) in H. destruct H as (Ht & act & WE). assert (I : In act va) by (apply IV; eauto). exists act. split; [exact I|]. econstructor; [exact EV|exact I|eapply next_state_edge; eauto|constructor].
  - intros act t T. apply (go_edge _ _ _ _ G _ _ Hi). inversion T as [|? ? ? x ? va1 E1 I NX T']. subst. inversion T'. subst. assert (va1 = va) by congruence. subst va1. apply IV in I. destruct I as (u & Hu & WE). pose proof (next_state_edge _ _ _ _ G _ _ _ Hi Hu WE). assert (u = t) by congruence. subst u. eauto.
Qed.

(** Fit with tree search, with at least as many iterations as there are possible actions, a schedule that gives
    the agent a move in its first turn, and nobody on the agent's state who would consume it. Then every possible
    action was tried: the state it leads to was visited in some iteration, and the action's value is the total
    of the rewards of these visits, divided by one more than their number. *)
Theorem C120_tries_every_move : forall pl score cfg e a n rnd fuel v q i va z row rows, reachable pl e -> In a (e_agents e) ->
  mcts_fit score cfg e a (Some n) rnd fuel = Ok (v, q) ->
  stands_on (e_mdp e) (at_pos a) i -> state_valid_actions (e_mdp e) (Z.of_nat i) = Ok va -> (Z.of_nat (length va) <= mc_n_iter cfg)%Z ->
  n = (z :: row) :: rows -> (0 < z)%Z -> (forall r k, In r n -> In k r -> (0 <= k)%Z) ->
  (mc_interactive cfg = true -> forall b y, In b (e_agents e) -> at_pos b = at_pos a -> In y (at_consumes b) -> py_index (m_n_features (e_mdp e)) y <> Ok (at_feature_idx a)) ->
  exists c states rewards, fit_search cfg e a n = Ok c /\ length states = Z.to_nat (mc_n_iter cfg) /\ length rewards = length states /\
    (forall j, j < length states -> exists V1 N1 k1 k2 o, mcts_iteration score c V1 N1 k1 (rnd j) fuel = Ok (nth j rewards 0%R, nth j states [], k2, o)) /\
    forall act t, travels (e_mdp e) i [act] t -> (exists j, j < length states /\ In t (nth j states [])) /\ (1 <= visits states t)%R /\
      nth act (nth i q []) NaN = Fin (value_total rewards states t / (1 + visits states t))%R.
Proof.
  intros pl score cfg e a n rnd fuel v q i va z row rows RE Ha H SO EV LE EN Hz NN NE.
  destruct (C36_fit pl score cfg e a n rnd fuel v q RE Ha H) as (c & i' & states & rewards & FS & SO' & LS & LR & HQ & HJ). assert (i' = i) by (unfold stands_on in *; congruence). subst i'.
  exists c, states, rewards. split; [exact FS|]. split; [exact LS|]. split; [exact LR|]. split.
  { intros j Hj. destruct (HJ j Hj) as (V1 & N1 & k1 & k2 & o & _ & E). eauto 10. }
  destruct (reachable_wf _ _ RE) as (k & shape & st & W). pose proof (wf_grid _ _ _ _ W) as G. pose proof (gi_ns _ _ _ _ G) as NS. destruct (grid_shape _ _ _ _ G) as (_ & _ & SH).
  assert (Hi : i < nst shape) by (rewrite <- NS; eapply py_index_ok; exact SO). destruct (only_valid _ _ _ _ G i va Hi EV) as [OV1 OV2].
  destruct (C44_environment pl cfg e a n c RE Ha FS) as (l & (L0 & _ & LI) & ST & _ & _ & CA & _). destruct (agents_square pl cfg e a n c RE Ha FS) as [SQ1 SQ2].
  assert (SAS : s_sas c = m_sas (e_mdp e) /\ s_n_moves c = n /\ s_interactive c = mc_interactive cfg). { unfold fit_search, make_search in FS. destruct (negb _); [discriminate|]. apply bind_ok in FS. destruct FS as (masks & _ & FS). now inversion FS. }
  destruct SAS as (SAS & NM & SI). destruct l as [|x l]; [discriminate|]. cbn in L0. assert (x = a) by congruence. subst x.
  assert (NT : (0 < n_steps c)%Z).
  { unfold n_steps. rewrite NM, EN. cbn [map]. rewrite zsum_cons. subst n.
    assert (0 <= zsum (map zsum rows))%Z. { apply zsum_nonneg. intros y Hy. apply in_map_iff in Hy. destruct Hy as (r & <- & Hr). apply zsum_nonneg. intros y Hy. eapply NN; [right; exact Hr|exact Hy]. }
    rewrite zsum_cons. assert (0 <= zsum row)%Z by (apply zsum_nonneg; intros y Hy; eapply NN; [now left|now right]). lia. }
  assert (NEA : s_interactive c = true -> forall y, y < length (s_start c) -> eats (s_consumes_agents c) (s_start c) y 0 = false).
  { intros IA y Hy. rewrite ST in Hy. rewrite map_length in Hy. destruct (nth_error (a :: l) y) as [b|] eqn:Eb; [|apply nth_error_None in Eb; lia]. unfold eats. rewrite ST.
    destruct (nth 0 (nth y (s_consumes_agents c) []) false) eqn:EE; [|reflexivity]. cbn [andb]. apply Z.eqb_neq. rewrite (nth_map_lt _ _ _ _ _ _ a) by exact Hy. rewrite (nth_error_nth _ _ _ Eb). cbn [map nth]. intros EP.
    destruct (CA y 0 b a Eb eq_refl) as [CA1 _]. apply CA1 in EE. destruct EE as (zz & Hzz & PZ). rewrite SI in IA.
    assert (Hb : In b (e_agents e)). { assert (X : In b (a :: l)) by (eapply nth_error_In; exact Eb). apply LI in X. destruct X as [->|[_ X]]; assumption. }
    exact (NE IA b zz Hb EP Hzz PZ). }
  assert (ALL : forall t, can_go (m_sas (e_mdp e)) i t -> exists j, j < length states /\ In t (nth j states [])).
  { apply (all_occur _ (map (fun act => match get_next_state (e_mdp e) (Z.of_nat i) (Z.of_nat act) with Ok t => t | Err _ => 0 end) va)).
    - intros t Ht. destruct (OV1 t Ht) as (act & I & T). apply in_map_iff. exists act. split; [|exact I]. apply travels_one in T. destruct T as [_ ->]. reflexivity.
    - rewrite map_length, LS. lia.
    - intros j Hj. destruct (HJ j Hj) as (V1 & N1 & k1 & k2 & o & ST1 & IT).
      destruct (first_move score c V1 N1 k1 (rnd j) fuel (nst shape) (actions_of k st) i _ _ _ _ z row rows ltac:(rewrite SAS; exact SH) ltac:(rewrite ST; cbn; lia)
        ltac:(rewrite ST; cbn [map nth]; unfold stands_on in SO; rewrite NS in SO; exact SO) ltac:(congruence) Hz NT SQ1 SQ2 NEA IT) as (x & l' & E & CG & NX).
      rewrite SAS in CG, NX. exists x, l'. split; [exact E|]. split; [exact CG|]. intros (t & Ht & Vt).
        assert (BD : forall t, can_go (m_sas (e_mdp e)) i t -> t < m_n_states (e_mdp e)) by (intros u Hu; apply (go_edge _ _ _ _ G _ _ Hi) in Hu; rewrite NS; tauto).
        rewrite <- (proj1 (ST1 x (BD x CG))). apply NX. exists t. split; [exact Ht|]. rewrite (proj1 (ST1 t (BD t Ht))). exact Vt. }
  intros act t T. destruct (ALL t (OV2 act t T)) as (j & Hj & It). split; [eauto|]. split; [eapply visits_pos; eauto|]. now apply HQ.
Qed.

(** The hypotheses are met by p of C71_example, which can go two ways, with as many iterations as it has actions. *)
Example C120_example : forall pl score, exists e a v q va, let cfg := mkMCTS (Z.of_nat (length va)) 1%R 0%R true (OppSolve select_max) false 5 (9/10)%R (1/100)%R in
  reachable pl e /\ In a (e_agents e) /\ mcts_fit score cfg e a (Some [[2]; [1]]%Z) (fun _ _ => 0) (passes 2 [[2]; [1]]%Z) = Ok (v, q) /\
  stands_on (e_mdp e) (at_pos a) 0 /\ state_valid_actions (e_mdp e) 0 = Ok va /\ In 0 va /\ In 1 va /\
  forall b y, In b (e_agents e) -> at_pos b = at_pos a -> In y (at_consumes b) -> py_index (m_n_features (e_mdp e)) y <> Ok (at_feature_idx a).
Proof.
  intros pl score. destruct (C71_example pl) as (e & a & RE & [Ha EN] & CR & SR & _ & b & AL & PA & PB & CA & FA & NS & NF & (va & SV0 & I0) & (va' & SV1 & I1)). change (Z.of_nat 0) with 0%Z in *. assert (va' = va) by congruence. subst va'.
  set (cfg := mkMCTS (Z.of_nat (length va)) 1%R 0%R true (OppSolve select_max) false 5 (9/10)%R (1/100)%R).
  destruct (C71_search_completes pl e a score cfg _ RE Ha CR SR (passes 2 [[2]; [1]]%Z) (fun _ _ => 0)) as (v & q & MF & _); [rewrite AL; cbn [length]; lia|].
  exists e, a, v, q, va. cbv zeta. split; [exact RE|]. split; [exact Ha|]. split; [exact MF|]. split; [unfold stands_on; rewrite NS, PA; reflexivity|]. split; [exact SV0|]. split; [exact I0|]. split; [exact I1|].
  intros x y Hx EP Hy. rewrite AL in Hx. destruct Hx as [<-|[<-|[]]]; [|rewrite PB, PA in EP; discriminate]. rewrite CA in Hy. destruct Hy as [<-|[]]. rewrite NF, FA. discriminate.
Qed.

(** * C121: values are not averages *)
(** The value of a tried action is its average reward, pulled towards 0 by the factor N / (N + 1). *)
Theorem C121_shrunk_partial : forall pl score cfg e a n rnd fuel v q, reachable pl e -> In a (e_agents e) -> mcts_fit score cfg e a (Some n) rnd fuel = Ok (v, q) ->
  exists c i states rewards, fit_search cfg e a n = Ok c /\ stands_on (e_mdp e) (at_pos a) i /\ length states = Z.to_nat (mc_n_iter cfg) /\ length rewards = length states /\
    (forall j, j < length states -> exists V1 N1 k1 k2 o, mcts_iteration score c V1 N1 k1 (rnd j) fuel = Ok (nth j rewards 0%R, nth j states [], k2, o)) /\
    forall act t, travels (e_mdp e) i [act] t ->
      ((forall j, j < length states -> ~ In t (nth j states [])) -> nth act (nth i q []) NaN = Fin 0%R) /\
      ((exists j, j < length states /\ In t (nth j states [])) ->
         let average := (value_total rewards states t / visits states t)%R in
         exists x, nth act (nth i q []) NaN = Fin x /\ x = (average * (visits states t / (1 + visits states t)))%R /\ Rabs (x - average) = (Rabs average / (1 + visits states t))%R /\
           (average <> 0%R -> x <> average)).
Proof.
  intros pl score cfg e a n rnd fuel v q RE Ha H. destruct (C36_fit pl score cfg e a n rnd fuel v q RE Ha H) as (c & i & states & rewards & FS & SO & LS & LR & HQ & HJ).
  exists c, i, states, rewards. split; [exact FS|]. split; [exact SO|]. split; [exact LS|]. split; [exact LR|]. split.
  { intros j Hj. destruct (HJ j Hj) as (V1 & N1 & k1 & k2 & o & _ & E). eauto 10. }
  intros act t T. rewrite (HQ act t T). split.
  - intros NT. assert (Z : forall l, In l states -> ~ In t l). { intros l Hl. apply (In_nth _ _ []) in Hl. destruct Hl as (j & Hj & <-). now apply NT. }
    rewrite (visits_none states t Z). replace (value_total rewards states t) with 0%R; [f_equal; lra|]. symmetry. unfold value_total. apply sumf_0. intros [r l] Hp. cbn [fst snd]. apply in_combine_r in Hp.
    unfold occurrences. rewrite (proj1 (count_occ_not_In Nat.eq_dec l t)); [cbn; lra|now apply Z].
  - intros (j & Hj & It). pose proof (visits_pos states t j Hj It) as VP. cbv zeta. set (N := visits states t) in *. set (X := value_total rewards states t). exists (X / (1 + N))%R. split; [reflexivity|].
    assert (E : (X / (1 + N) = X / N * (N / (1 + N)))%R) by (field; lra). split; [exact E|].
    assert (E2 : (X / (1 + N) - X / N = - (X / N / (1 + N)))%R) by (field; lra). split.
    + rewrite E2, Rabs_Ropp. unfold Rdiv at 1. rewrite Rabs_mult. rewrite (Rabs_right (/ (1 + N))); [reflexivity|]. apply Rle_ge, Rlt_le, Rinv_0_lt_compat. lra.
    + intros NZ Eq. assert (X / N / (1 + N) = 0)%R by lra. apply NZ. apply (Rmult_eq_reg_r (/ (1 + N))); [unfold Rdiv in H0 |- *; lra|]. apply Rinv_neq_0_compat. lra.
Qed.
(** C221: what tree search reports. *)
Theorem C221_shrunk : forall pl score cfg e a n rnd fuel v q, reachable pl e -> In a (e_agents e) -> mcts_fit score cfg e a (Some n) rnd fuel = Ok (v, q) ->
  exists c i states rewards, fit_search cfg e a n = Ok c /\ stands_on (e_mdp e) (at_pos a) i /\ length states = Z.to_nat (mc_n_iter cfg) /\ length rewards = length states /\
    (forall j, j < length states -> exists V1 N1 k1 k2 o, mcts_iteration score c V1 N1 k1 (rnd j) fuel = Ok (nth j rewards 0%R, nth j states [], k2, o)) /\
    forall act t, travels (e_mdp e) i [act] t ->
      ((forall j, j < length states -> ~ In t (nth j states [])) -> nth act (nth i q []) NaN = Fin 0%R) /\
      ((exists j, j < length states /\ In t (nth j states [])) ->
         let average := (value_total rewards states t / visits states t)%R in
         exists x, nth act (nth i q []) NaN = Fin x /\ x = (average * (visits states t / (1 + visits states t)))%R /\ Rabs (x - average) = (Rabs average / (1 + visits states t))%R /\
           (average <> 0%R -> x <> average)).
Proof. exact (@C121_shrunk_partial). Qed.

(** An agent between a state worth 9/10 and a state worth 1 looks one step ahead, in three iterations. It tries both, finds
    9/10 twice and 1 once, and then steps to the worse one: 2 * 9/10 / 3 is more than 1 / 2. *)
Definition ends_ft : list (list Q) := [[1; 0; 0]; [0; 0; 1]]%Q.
Definition ends_p : spec Q := mkSpec "p"%string 1%Z None 1%Z [1; 9 # 10; 0]%Q [].
Definition ends_cfg : mcts_config Q := mkMCTS 3 0%Q 0%Q false OppRandom false 1 (1 # 2)%Q (1 # 2)%Q.
Theorem C121_worse_chosen_refuted : exists m m' e a e1 e2 v q V N k st, grid_mdp (A:=Q) Square ends_ft None (3, 1) false = Ok m /\ make_env m [ends_p] = (m', Ok e) /\ find_agent (e_agents e) "p" = Some a /\
  let score := MCTSProps.mean_score in let pl := mcts_greedy score ends_cfg in
  run_mcts score false 3 (m_features m') (m_sas m') (all_info false e a) 0%Q (Some [[1%Z]]) 0%Q OppRandom false 1 (1 # 2)%Q (1 # 2)%Q None (fun _ _ => 0) (passes 1 [[1%Z]]) = Ok (V, N, k, st) /\
  mcts_fit score ends_cfg e a (Some [[1%Z]]) (fun _ _ => 0) (passes 1 [[1%Z]]) = Ok (v, q) /\ 
  st = [[2]; [0]; [2]] /\ V = [1; 0; 9 # 5]%Q /\ N = [1; 0; 2]%Q /\
  env_fit pl e "p" (Some [[1%Z]]) 0 0 = (e1, Ok tt) /\ env_step pl e1 "p" 0 = (e2, Ok 2%Z).
Proof. do 12 eexists. cbv zeta. vmr. Qed.
