(** C244: agents that plan in IEEE 754 double precision walk as agents that plan with rounded real numbers. *)
From Coq Require Import String List ZArith Reals Bool Lia Lra.
From Flocq Require Import Core BinarySingleNaN.
From Verif Require Import PyBase PyProofs GridModel GridSpec MDPModel MDPSpec MDPProofs2 ActionModel ActionProofs RSum EnvModel EnvSpec EnvProofs VISpec VIModel ActionSpec SoftmaxProofs VIProps VIEnvProps VIWalkSpec GoalSpec RoundModel RoundSpec RoundProps RoundExample RoundWalk IEEEModel SimRound SimMDP SimEnv IEEE MCTSSpec.
Import ListNotations.
Local Open Scope R_scope.

(** A finite number of size at most [F]. *)
Definition fits (F : R) (x : b64) : Prop := finite x /\ Rabs (val x) <= F.
(** An agent's entry: it has no plan yet, at most 1000 weights, all finite, and their sizes times [F] sum to at most 10^300. *)
Definition entry_fits (F : R) (s : spec b64) : Prop :=
  sp_fit s = None /\ Forall finite (sp_reward s) /\ (length (sp_reward s) <= 1000)%nat /\ Rsum (map Rabs (map val (sp_reward s))) * F <= 10 ^ 300.
(** The calls considered: all but [step_proba]. *)
Definition ordinary (F : R) (o : op b64) : Prop := match o with OStepProba _ _ _ => False | OSetWalls w => Forall (fits F) w | _ => True end.

(** The same entries and calls with real numbers. *)
Definition spec_val (s : spec b64) : spec R := mkSpec (sp_name s) (sp_n_moves s) None (sp_pos s) (map val (sp_reward s)) (sp_consumes s).
Definition op_val (o : op b64) : op R := match o with
  | OFit nm n s s2 => OFit nm n s s2 | OStep nm s => OStep nm s | OStepMulti nm k p t rf st rnd => OStepMulti nm k p t rf st rnd
  | OStepProba nm p s => OStepProba nm (option_map (map val) p) s | OInteractive l n => OInteractive l n | OSetPosition nm p => OSetPosition nm p
  | OSetWalls w => OSetWalls (map val w) | OReset => OReset end.
(** The MDP whose numbers are those the double precision numbers stand for. *)
Definition mdp_val (m : mdp b64) : mdp R :=
  mkMDP (m_shape m) (map (map (map val)) (m_sas m)) (map (map (map val)) (m_orig_sas m)) (m_deterministic m) (m_adjacency m) (m_n_states m) (m_n_actions m)
    (map (map val) (m_features m)) (map (map val) (m_orig_features m)) (m_n_features m) (m_n_non_agent m) (m_n_agents m) (map val (m_walls m)).

(** Environments over double precision numbers: a grid with an environment built on it, and any calls but [step_proba]. All agents plan by value iteration with discount 0.9
    and choose greedily. *)
Definition ieee_greedy (tol : b64) (mi : Z) : plugins b64 := @vi_greedy b64 NumB nine_tenths tol mi.
Record made (F : R) (tol : b64) (mi : Z) (k : gkind) (feats : list (list b64)) (walls : option (list b64)) (shape : nat * nat) (st : bool) (ss : list (spec b64)) (m m1 : mdp b64) (e : env b64) : Prop := {
  md_feats : Forall (Forall (fits F)) feats;
  md_walls : match walls with Some w => Forall (fits F) w | None => True end;
  md_entries : Forall (entry_fits F) ss;
  md_grid : @grid_mdp b64 NumB k feats walls shape st = Ok m;
  md_env : @make_env b64 NumB m ss = (m1, Ok e) }.

(** What can be seen of the two environments is the same. *)
Record shows (e' : env b64) (e : env R) : Prop := {
  sh_names : e_names e' = e_names e;
  sh_agents : map at_name (e_agents e') = map at_name (e_agents e);
  sh_pos : map at_pos (e_agents e') = map at_pos (e_agents e);
  sh_hist : map at_hist (e_agents e') = map at_hist (e_agents e);
  sh_consumed : map at_consumed (e_agents e') = map at_consumed (e_agents e);
  sh_pi : map at_pi (e_agents e') = map at_pi (e_agents e);
  sh_q : map (fun a => option_map (fun f => map (map fval_of) (snd f)) (at_fit a)) (e_agents e') = map (fun a => option_map snd (at_fit a)) (e_agents e);
  sh_features : map (map val) (m_features (e_mdp e')) = m_features (e_mdp e);
  sh_sas : map (map (map val)) (m_sas (e_mdp e')) = m_sas (e_mdp e);
  sh_steps : e_n_steps e' = e_n_steps e }.
(** The next call returns the same, or raises the same error. *)
Record same_returns (pl' : plugins b64) (pl : plugins R) (e' : env b64) (e : env R) : Prop := {
  rt_fit : forall nm n s s2, snd (@env_fit b64 pl' e' nm n s s2) = snd (@env_fit R pl e nm n s s2);
  rt_step : forall nm s, snd (@env_step b64 NumB pl' e' nm s) = snd (@env_step R NumR pl e nm s);
  rt_multi : forall nm k p t rf st rnd, snd (@step_multi b64 NumB pl' e' nm k p t rf st rnd) = snd (@step_multi R NumR pl e nm k p t rf st rnd);
  rt_position : forall nm p, snd (@set_agent_position b64 NumB e' nm p) = snd (@set_agent_position R NumR e nm p);
  rt_reset : snd (@env_reset b64 NumB e') = snd (@env_reset R NumR e) }.

Section Range.
Variable F : R.
Hypothesis F1 : 1 <= F.
Definition near (b : b64) (x : R) : Prop := stands b x /\ Rabs x <= F.
Definition weights (l' : list b64) (l : list R) : Prop := Forall2 stands l' l /\ (length l <= 1000)%nat /\ Rsum (map Rabs l) * F <= 10 ^ 300.
(** No sum or product has a size of at most -1: this only says how numbers of size up to [F] compare. *)
Lemma near_computes : computes NumB near float64 (-1).
Proof using F1.
  pose proof ieee_computes as C. split.
  - split; [apply (c_zero _ _ _ _ C)|rewrite Rabs_R0; lra].
  - split; [apply (c_one _ _ _ _ C)|rewrite Rabs_R1; lra].
  - intros b x c y _ _ H. pose proof (Rabs_pos (x + y)). lra.
  - intros b x c y _ _ H. pose proof (Rabs_pos (x - y)). lra.
  - intros b x c y _ _ H. pose proof (Rabs_pos (x * y)). lra.
  - intros b x c y [B _] [D _]. now apply (c_ltb _ _ _ _ C).
  - intros b x c y [B _] [D _]. now apply (c_eqb _ _ _ _ C).
Qed.
Lemma fits_near : forall l, Forall (fits F) l -> Forall2 near l (map val l).
Proof using. induction 1 as [|x l [A B] H IH]; cbn; constructor; auto. now repeat split. Qed.
Lemma fits_near2 : forall l, Forall (Forall (fits F)) l -> Forall2 (Forall2 near) l (map (map val) l).
Proof using. induction 1; cbn; constructor; auto. now apply fits_near. Qed.
Lemma near_stands : forall l' l, Forall2 near l' l -> Forall2 stands l' l.
Proof using. induction 1 as [|x y l' l [A _] H IH]; constructor; auto. Qed.
Lemma near_stands2 : forall l' l, Forall2 (Forall2 near) l' l -> Forall2 (Forall2 stands) l' l.
Proof using. induction 1; constructor; auto. now apply near_stands. Qed.
Lemma near_stands3 : forall l' l, Forall2 (Forall2 (Forall2 near)) l' l -> Forall2 (Forall2 (Forall2 stands)) l' l.
Proof using. induction 1; constructor; auto. now apply near_stands2. Qed.
Lemma near_entry : forall f' f i t, Forall2 (Forall2 near) f' f -> Rabs (nth t (nth i f []) 0) <= F.
Proof using F1.
  intros f' f i t H. assert (K : Forall2 near (nth i f' []) (nth i f [])) by (apply (F2_nth (Forall2 near)); [exact H|constructor]).
  assert (N : near (nth t (nth i f' []) (B754_zero false)) (nth t (nth i f []) 0)) by (apply F2_nth; [exact K|apply (c_zero _ _ _ _ near_computes)]). apply N.
Qed.
Lemma weight_sum : forall (rf : list R), sumf (fun i => Rabs (nth i rf 0)) (seq 0 (length rf)) = Rsum (map Rabs rf).
Proof using.
  intros rf. unfold sumf. f_equal. rewrite <- (map_map (fun i => nth i rf 0) Rabs). f_equal. apply nth_ext with 0 0; [now rewrite map_length, seq_length|]. intros n Hn. rewrite map_length, seq_length in Hn. rewrite (nth_indep _ 0 (nth 0 rf 0)) by (now rewrite map_length, seq_length). rewrite (map_nth (fun i => nth i rf 0) (seq 0 (length rf)) 0%nat). now rewrite seq_nth.
Qed.
Lemma weight_bound : forall f' f rf t, Forall2 (Forall2 near) f' f -> weight_of rf f t <= Rsum (map Rabs rf) * F.
Proof using F1.
  intros f' f rf t H. unfold weight_of. rewrite <- weight_sum, Rmult_comm, <- sumf_scal. apply sumf_le. intros i _. rewrite Rabs_mult, Rmult_comm. apply Rmult_le_compat_r; [apply Rabs_pos|now apply near_entry with f'].
Qed.

Variables (tol : b64) (mi : Z).
Hypothesis FT : finite tol.
Notation pl' := (ieee_greedy tol mi).
Notation pl := (rounded_greedy float64 g64 (val tol) mi).
Lemma plans_alike : alike near stands weights pl' pl.
Proof using F1 FT.
  pose proof ieee_computes as C. split.
  - intros e' e nm n s ES RE. cbn [ieee_greedy vi_greedy rounded_greedy pl_fit]. pose proof (findS stands weights _ _ nm (es_agents _ _ _ _ _ ES)) as K.
    destruct (find_agent (e_agents e') nm) as [a'|], (find_agent (e_agents e) nm) as [a|]; try contradiction; [|reflexivity]. cbn in K. destruct (as_reward _ _ _ _ K) as (W1 & W2 & W3). destruct (map_stands _ _ W1) as [FR ER].
    pose proof (es_mdp _ _ _ _ _ ES) as MS. destruct (map_stands3 _ _ (near_stands3 _ _ (ms_sas _ _ _ MS))) as [F3 E3]. destruct (map_stands2 _ _ (near_stands2 _ _ (ms_f _ _ _ MS))) as [F2 E2].
    destruct (C206_grids pl _ (usable_again _ _ RE)) as [MD SU]. destruct C243_settings as [[FG EG] _].
    assert (WB : forall t, weight_of (at_reward a) (m_features (e_mdp e)) t <= 10 ^ 300) by (intros t; eapply Rle_trans; [eapply weight_bound, (ms_f _ _ _ MS)|exact W3]).
    unfold vi_fit. rewrite E3 in MD, SU |- *. rewrite E2 in WB |- *. rewrite ER in WB, W2 |- *. rewrite map_length in W2.
    pose proof (C243_large (at_reward a') (m_features (e_mdp e')) nine_tenths (m_sas (e_mdp e')) tol mi ltac:(split; assumption) EG MD SU W2 (fun t _ => WB t)) as L. cbv zeta in L.
    destruct (@solve_value_iteration b64 NumB (@hard_backup b64 NumB) (at_reward a') (m_features (e_mdp e')) mi nine_tenths (m_sas (e_mdp e')) tol) as [[v q]|x].
    + destruct L as (L1 & L2 & L3). rewrite L3. cbn. split; cbn; [now rewrite !map_length|]. clear -L2. induction L2 as [|r q HR H IH]; cbn; constructor; auto. clear -HR. induction HR as [|[| | |x] r HX H IH]; cbn; constructor; auto; try exact I. split; auto.
    + rewrite L. reflexivity.
  - intros nm s q' q H. cbn [ieee_greedy vi_greedy rounded_greedy pl_pi]. apply (max_get_piS NumB stands); [apply (c_ltb _ _ _ _ C)|apply (c_eqb _ _ _ _ C)|exact H].
  - intros nm q' q H. cbn [ieee_greedy vi_greedy rounded_greedy pl_pi_p]. apply (max_get_pi_pS NumB stands); [apply (c_ltb _ _ _ _ C)|apply (c_eqb _ _ _ _ C)|exact H].
  - reflexivity.
Qed.
Lemma weights_length : forall l' l, weights l' l -> length l' = length l.
Proof using. intros l' l (H & _). apply (F2_length _ _ _ H). Qed.
Lemma entry_ssim : forall s, entry_fits F s -> ssim stands weights s (spec_val s).
Proof using. intros s (H1 & H2 & H3 & H4). split; cbn; auto; [now rewrite H1|]. split; [now apply stands_map|]. now rewrite map_length. Qed.
Lemma op_same : forall o, ordinary F o -> osame near o (op_val o).
Proof using. intros [] H; cbn in *; try constructor; [contradiction|]. now apply fits_near. Qed.

Lemma map_F2 : forall {X Y Z} (P : X -> Y -> Prop) (f : X -> Z) (g : Y -> Z) l l', (forall x y, P x y -> f x = g y) -> Forall2 P l l' -> map f l = map g l'.
Proof using. induction 2; cbn; [reflexivity|]. f_equal; auto. Qed.
Lemma esim_shows : forall e' e, esim near stands weights e' e -> shows e' e.
Proof using.
  intros e' e ES. pose proof (es_agents _ _ _ _ _ ES) as A. split; try (apply (map_F2 (asim stands weights)); [|exact A]; intros x y XY; apply XY); try apply ES.
  - apply (map_F2 (asim stands weights)); [|exact A]. intros x y XY. pose proof (as_fit _ _ _ _ XY) as K. destruct (at_fit x) as [[v' q']|], (at_fit y) as [[v q]|]; try contradiction; [|reflexivity]. destruct K as [_ K]. cbn in *. f_equal. symmetry. now apply map_fstands2.
  - symmetry. now apply map_stands2, near_stands2, (ms_f _ _ _ (es_mdp _ _ _ _ _ ES)).
  - symmetry. now apply map_stands3, near_stands3, (ms_sas _ _ _ (es_mdp _ _ _ _ _ ES)).
Qed.
Lemma rsim_eq : forall {X} (r' r : res X), rsim eq r' r -> r' = r.
Proof using. intros X [x|x] [y|y]; cbn; intros H; try contradiction; congruence. Qed.
Lemma esim_returns : forall e' e, esim near stands weights e' e -> reachable pl e -> same_returns pl' pl e' e.
Proof using F1 FT.
  intros e' e ES RE. pose proof plans_alike as AL. pose proof near_computes as CP. split; intros; apply rsim_eq.
  - apply (env_fitS near stands weights weights_length pl' pl AL); assumption.
  - apply (env_stepS NumB near stands weights float64 (-1) CP pl' pl AL); assumption.
  - apply (step_multiS NumB near stands weights float64 (-1) CP weights_length pl' pl AL); assumption.
  - apply (set_positionS NumB near stands weights float64 (-1) CP); assumption.
  - apply (env_resetS NumB near stands weights float64 (-1) CP); assumption.
Qed.
Lemma made_sim : forall k feats walls shape st ss m' m1' e', made F tol mi k feats walls shape st ss m' m1' e' ->
  exists m m1 e, grid_mdp k (map (map val) feats) (option_map (map val) walls) shape st = Ok m /\ make_env m (map spec_val ss) = (m1, Ok e) /\ esim near stands weights e' e /\ reachable pl e.
Proof using F1.
  intros k feats walls shape st ss m' m1' e' [H1 H2 H3 H4 H5]. pose proof near_computes as CP.
  pose proof (grid_mdpS NumB near float64 (-1) CP k feats (map (map val) feats) walls (option_map (map val) walls) shape st (fits_near2 _ H1)) as G. rewrite H4 in G.
  assert (HW : match walls, option_map (map val) walls with Some a, Some b => Forall2 near a b | None, None => True | _, _ => False end) by (destruct walls; cbn; [now apply fits_near|exact I]). specialize (G HW).
  destruct (grid_mdp k (map (map val) feats) (option_map (map val) walls) shape st) as [m|] eqn:EG; [|contradiction]. cbn in G.
  assert (SS : Forall2 (ssim stands weights) ss (map spec_val ss)) by (clear -H3; induction H3; cbn; constructor; auto; now apply entry_ssim).
  destruct (make_envS NumB near stands weights float64 (-1) CP weights_length m' m ss _ G SS) as [K1 K2]. rewrite H5 in K1, K2. destruct (make_env m (map spec_val ss)) as [m1 [e|]] eqn:EE; [|contradiction]. cbn in K2.
  exists m, m1, e. repeat split; auto; try apply K2. apply (reach_new pl m (map spec_val ss) m1 e); [|exact EE]. exact (usable_grid pl _ _ _ _ _ _ [] EG).
Qed.
End Range.

(** C244. Whatever calls are made, the environment over double precision numbers shows the same agents at the same positions, with the same histories, policies and action values, over the same
    features and transitions, as the environment over real numbers whose agents plan with rounding; and the next call returns the same or raises the same error. *)
Theorem C244_runs : forall F tol mi k feats walls shape st ss m' m1' e', 1 <= F -> finite tol -> made F tol mi k feats walls shape st ss m' m1' e' ->
  exists m m1 e, grid_mdp k (map (map val) feats) (option_map (map val) walls) shape st = Ok m /\ make_env m (map spec_val ss) = (m1, Ok e) /\
  forall l, Forall (ordinary F) l ->
    let e1' := @run b64 NumB (ieee_greedy tol mi) e' l in let e1 := run (rounded_greedy float64 g64 (val tol) mi) e (map op_val l) in
    shows e1' e1 /\ same_returns (ieee_greedy tol mi) (rounded_greedy float64 g64 (val tol) mi) e1' e1.
Proof.
  intros F tol mi k feats walls shape st ss m' m1' e' HF FT MD. destruct (made_sim F HF tol mi k feats walls shape st ss m' m1' e' MD) as (m & m1 & e & G & E & ES & RE). exists m, m1, e. split; [exact G|]. split; [exact E|]. intros l HL.
  destruct (runS NumB (near F) stands (weights F) float64 (-1) (near_computes F HF) (weights_length F) _ _ (plans_alike F HF tol mi FT) l (map op_val l)) with (e' := e') (e := e) as [S1 S2]; auto.
  { clear -HL. induction HL; cbn; constructor; auto. now apply op_same. }
  split; [now apply (esim_shows F)|now apply (esim_returns F HF)].
Qed.

(** ** The way to a goal *)
Definition with_adjacency (m : mdp R) (adj : list (list Z)) : mdp R :=
  mkMDP (m_shape m) (m_sas m) (m_orig_sas m) (m_deterministic m) adj (m_n_states m) (m_n_actions m) (m_features m) (m_orig_features m) (m_n_features m) (m_n_non_agent m) (m_n_agents m) (m_walls m).
Lemma msim_val : forall F m' m, msim (near F) m' m -> m = with_adjacency (mdp_val m') (m_adjacency m).
Proof.
  intros F m' m H. unfold with_adjacency. cbn. rewrite (ms_shape _ _ _ H), (ms_det _ _ _ H), (ms_n _ _ _ H), (ms_na _ _ _ H), (ms_nf _ _ _ H), (ms_non _ _ _ H), (ms_ag _ _ _ H).
  rewrite <- (proj2 (map_stands3 _ _ (near_stands3 F _ _ (ms_sas _ _ _ H)))), <- (proj2 (map_stands3 _ _ (near_stands3 F _ _ (ms_orig _ _ _ H)))), <- (proj2 (map_stands2 _ _ (near_stands2 F _ _ (ms_f _ _ _ H)))), <- (proj2 (map_stands2 _ _ (near_stands2 F _ _ (ms_of _ _ _ H)))), <- (proj2 (map_stands _ _ (near_stands F _ _ (ms_walls _ _ _ H)))). now destruct m.
Qed.
Lemma travels_adj : forall m adj i acts t, travels m i acts t <-> travels (with_adjacency m adj) i acts t.
Proof. intros m adj i acts t. split; induction 1; econstructor; eauto. Qed.
Lemma fewest_adj : forall m adj i goal d, fewest_moves m i goal d <-> fewest_moves (with_adjacency m adj) i goal d.
Proof.
  intros m adj i goal d. unfold fewest_moves. split; intros [(acts & T & L) H]; (split; [exists acts; split; [now apply travels_adj in T || (apply travels_adj; exact T)|exact L]|]); intros acts' T'; apply H.
  - now apply <- (travels_adj m adj).
  - now apply -> (travels_adj m adj).
Qed.
Lemma tolerance_rounded : forall b, finite b -> float64 (val b) = val b.
Proof. intros b _. unfold val, float64. apply Generic_fmt.round_generic; [typeclasses eauto|]. rewrite <- fexp_64. apply generic_format_B2R. Qed.
Lemma agents_F2 : forall F l' l a' , Forall2 (asim stands (weights F)) l' l -> In a' l' -> exists a, In a l /\ asim stands (weights F) a' a.
Proof. intros F l' l a' H. induction H as [|x y l' l XY H IH]; intros []; [subst; exists y; split; [now left|exact XY]|]. destruct (IH H0) as (a & A1 & A2). exists a. split; [now right|exact A2]. Qed.
Lemma agents_F2r : forall F l' l a , Forall2 (asim stands (weights F)) l' l -> In a l -> exists a', In a' l' /\ asim stands (weights F) a' a.
Proof. intros F l' l a H. induction H as [|x y l' l XY H IH]; intros []; [subst; exists x; split; [now left|exact XY]|]. destruct (IH H0) as (a' & A1 & A2). exists a'. split; [now right|exact A2]. Qed.

(** Planning in double precision succeeds. *)
Theorem C244_fit : forall F tol mi k feats walls shape st ss m' m1' e' l nm a n s s2, 1 <= F -> finite tol -> (0 < mi)%Z -> made F tol mi k feats walls shape st ss m' m1' e' -> Forall (ordinary F) l ->
  let e0 := @run b64 NumB (ieee_greedy tol mi) e' l in agent_named e0 nm a -> exists e1, @env_fit b64 (ieee_greedy tol mi) e0 nm n s s2 = (e1, Ok tt).
Proof.
  intros F tol mi k feats walls shape st ss m' m1' e' l nm a n s s2 HF FT MI MD HL e0 [NA NN]. destruct (made_sim F HF tol mi k feats walls shape st ss m' m1' e' MD) as (m & m1 & e & G & E & ES & RE).
  pose proof (plans_alike F HF tol mi FT) as AL.
  destruct (runS NumB (near F) stands (weights F) float64 (-1) (near_computes F HF) (weights_length F) _ _ AL l (map op_val l)) with (e' := e') (e := e) as [S1 S2]; auto. { clear -HL. induction HL; cbn; constructor; auto. now apply op_same. }
  fold e0 in S1. set (er := run _ e (map op_val l)) in *. destruct (agents_F2 F _ _ _ (es_agents _ _ _ _ _ S1) NA) as (b & Hb & AB).
  assert (NB : agent_named er nm b) by (split; [exact Hb|rewrite <- (as_name _ _ _ _ AB); exact NN]).
  assert (NBR := default_numbers 2 ltac:(lia)). destruct NBR as (GB & _ & GU & _). apply Raux.Rabs_le_inv in GB.
  assert (MI' : mi = Z.of_nat (S (Nat.pred (Z.to_nat mi)))) by lia.
  destruct (C207_fit float64 u64 eta64 C206_float64 (rounded_greedy float64 g64 (val tol) mi) er nm b g64 (val tol) (Nat.pred (Z.to_nat mi)) n s s2 S2 NB) as (e1 & EF); [rewrite <- MI'; apply C207_plugin|lra|exact GU|now apply tolerance_rounded|].
  destruct (env_fitS (near F) stands (weights F) (weights_length F) _ _ AL e0 er nm n s s2 S1 S2) as [K1 K2]. rewrite EF in K2. destruct (env_fit (ieee_greedy tol mi) e0 nm n s s2) as [e1' [[]|x]]; [eauto|contradiction].
Qed.

(** With the default settings, an agent that plans in double precision reaches the only state with a reward along a shortest path, if the reward is at least 1, the path has at most 100 moves and the
    sizes of the weights sum to at most 1000 in every state. *)
Theorem C244_shortest_path : forall F k feats walls shape st ss m' m1' e' l nm a i goal R0 d n s s2 e1, 1 <= F -> made F tolerance 500 k feats walls shape st ss m' m1' e' -> Forall (ordinary F) l ->
  let pl := ieee_greedy tolerance 500 in let e0 := @run b64 NumB pl e' l in let m := mdp_val (e_mdp e0) in let weights_of := map val (at_reward a) in
  agent_named e0 nm a -> stands_on m (at_pos a) i -> fewest_moves m i goal d -> (0 < d <= 100)%nat -> only_goal m (reward_of weights_of (m_features m)) goal R0 -> 1 <= R0 ->
  (forall t, (t < m_n_states m)%nat -> weight_of weights_of (m_features m) t <= 1000) -> consumes_in_range e0 -> @env_fit b64 pl e0 nm n s s2 = (e1, Ok tt) ->
  forall seeds, length seeds = d -> exists a1 ps, agent_named (@run b64 NumB pl e1 (map (OStep nm) seeds)) nm a1 /\ at_hist a1 = at_hist a ++ map Z.of_nat ps /\ length ps = d /\ walk (m_sas m) i ps /\
    last ps i = goal /\ stands_on m (at_pos a1) goal.
Proof.
  intros F k feats walls shape st ss m' m1' e' l nm a i goal R0 d n s s2 e1 HF MD HL pl e0 m wo [NA NN] SO FM D OG HR WB CR EF seeds LS. destruct (made_sim F HF tolerance 500 k feats walls shape st ss m' m1' e' MD) as (mr & mr1 & e & G & E & ES & RE).
  destruct C243_settings as [_ [FT VT]]. pose proof (plans_alike F HF tolerance 500 FT) as AL. rewrite VT in AL, RE. set (plr := rounded_greedy float64 g64 tol64 500) in *. fold pl in AL.
  destruct (runS NumB (near F) stands (weights F) float64 (-1) (near_computes F HF) (weights_length F) _ _ AL l (map op_val l)) with (e' := e') (e := e) as [S1 S2]; auto. { clear -HL. induction HL; cbn; constructor; auto. now apply op_same. }
  fold e0 in S1. set (er := run plr e (map op_val l)) in *. destruct (agents_F2 F _ _ _ (es_agents _ _ _ _ _ S1) NA) as (b & Hb & AB).
  assert (NB : agent_named er nm b) by (split; [exact Hb|rewrite <- (as_name _ _ _ _ AB); exact NN]).
  pose proof (msim_val F _ _ (es_mdp _ _ _ _ _ S1)) as ME. fold m in ME. destruct (as_reward _ _ _ _ AB) as (W1 & W2 & _). destruct (map_stands _ _ W1) as [_ ER]. fold wo in ER.
  destruct (env_fitS (near F) stands (weights F) (weights_length F) _ _ AL e0 er nm n s s2 S1 S2) as [K1 K2]. rewrite EF in K1, K2. destruct (env_fit plr er nm n s s2) as [e1r [[]|x]] eqn:EFR; [|contradiction]. cbn in K1.
  assert (R1 : reachable plr e1r) by (pose proof (reach_op plr er (OFit nm n s s2) S2) as X; cbn [do_op] in X; now rewrite EFR in X).
  destruct (C207_defaults plr er nm n s s2 e1r b i goal R0 d S2) as [P1 P2]; auto.
  - apply C207_plugin.
  - rewrite <- (as_pos _ _ _ _ AB). rewrite ME. exact SO.
  - rewrite ME. now apply -> fewest_adj.
  - rewrite ER, ME. exact OG.
  - rewrite ER, ME. exact WB.
  - assert (CRR : consumes_in_range er). { intros b' Hb' z Hz. destruct (agents_F2r F _ _ _ (es_agents _ _ _ _ _ S1) Hb') as (a' & Ha' & AB'). rewrite <- (ms_nf _ _ _ (es_mdp _ _ _ _ _ S1)). apply (CR a' Ha'). now rewrite (as_consumes _ _ _ _ AB'). }
    destruct (P2 CRR seeds LS) as (b1 & NB1 & SB1 & LH). destruct (P1 (map (OStep nm) seeds) b1) as (ps & HP & SP & WK & _ & GO); [|exact NB1|].
    { clear. induction seeds; cbn; constructor; auto. repeat split. }
    destruct (runS NumB (near F) stands (weights F) float64 (-1) (near_computes F HF) (weights_length F) _ _ AL (map (OStep nm) seeds) (map (OStep nm) seeds)) with (e' := e1) (e := e1r) as [T1 T2]; auto.
    { clear. induction seeds; cbn; constructor; auto. constructor. }
    destruct NB1 as [IB1 NMB1]. destruct (agents_F2r F _ _ _ (es_agents _ _ _ _ _ T1) IB1) as (a1 & IA1 & AB1). exists a1, ps.
    assert (LP : length ps = d) by (rewrite HP, app_length, map_length in LH; lia).
    split; [split; [exact IA1|rewrite (as_name _ _ _ _ AB1); exact NMB1]|]. split; [rewrite (as_hist _ _ _ _ AB1), (as_hist _ _ _ _ AB); exact HP|]. split; [exact LP|].
    rewrite ME in WK, SB1, SP. split; [exact WK|]. split; [|rewrite (as_pos _ _ _ _ AB1); exact SB1]. unfold stands_on in SB1, SP. cbn in SB1, SP. rewrite SB1 in SP. now inversion SP.
Qed.

Lemma one_agent : forall {A} `{Num A} (m m1 : mdp A) s e, make_env m [s] = (m1, Ok e) -> exists a, e_agents e = [a] /\ at_reward a = sp_reward s /\ at_consumes a = sp_consumes s /\ at_pos a = sp_pos s /\ at_hist a = [sp_pos s].
Proof.
  intros A NA m m1 s e E. unfold make_env in E. destruct (if 0 <? m_n_agents m then _ else _)%nat as [m0|]; [|discriminate]. cbn [attach_all length] in E. unfold attach_checked, attach in E. destruct (negb _); [discriminate|]. destruct (existsb _ _); [discriminate|].
  destruct (add_agent_feature m0 (sp_pos s)) as [m2 [u|]]; [|discriminate]. unfold move_agent in E. destruct (_ <=? _)%Z; [discriminate|]. destruct (update_agent_feature _ _ _) as [m3 [v|]]; [|discriminate]. injection E as <- <-. eexists. repeat split.
Qed.
(** Three squares in a row: the agent goes from the first to the last, where its reward of 5 is. *)
Example C244_example : let pl := ieee_greedy tolerance 500 in let z := @n0 b64 NumB in let i := @n1 b64 NumB in
  exists m' m1' e' a e1, made 1 tolerance 500 Square [[z; z; i]] None (1, 3)%nat false [mkSpec "p"%string 1%Z None 0%Z [@nofZ b64 NumB 5; z] []] m' m1' e' /\ agent_named e' "p" a /\
    fewest_moves (mdp_val (e_mdp e')) 0 2 2 /\ only_goal (mdp_val (e_mdp e')) (reward_of (map val (at_reward a)) (m_features (mdp_val (e_mdp e')))) 2 5 /\ @env_fit b64 pl e' "p" None 0 0 = (e1, Ok tt) /\
    forall x y, exists a1 t, agent_named (@run b64 NumB pl e1 [OStep "p" x; OStep "p" y]) "p" a1 /\ at_hist a1 = [0%Z; t; 2%Z].
Proof.
  intros pl z i. destruct C243_settings as [_ [FT VT]]. destruct (c_zero _ _ _ _ ieee_computes) as [F0 V0]. destruct (c_one _ _ _ _ ieee_computes) as [F1 V1]. destruct (whole 5 ltac:(lia)) as [F5 V5].
  destruct C207_example as (m & m1 & e & a & e1 & G & E & NA & FM & OG & EF & _).
  assert (H1 : 1 <= 1) by lra. assert (FZ : fits 1 z) by (split; [exact F0|fold z in V0; rewrite V0, Rabs_R0; lra]). assert (FI : fits 1 i) by (split; [exact F1|fold i in V1; rewrite V1, Rabs_R1; lra]).
  assert (FF : Forall (Forall (fits 1)) [[z; z; i]]) by (repeat (apply Forall_cons || apply Forall_nil); assumption).
  set (sp := mkSpec "p"%string 1%Z None 0%Z [@nofZ b64 NumB 5; z] []).
  pose proof (grid_mdpS NumB (near 1) float64 (-1) (near_computes 1 H1) Square [[z; z; i]] [[0; 0; 1]] None None (1, 3)%nat false) as GS. rewrite G in GS. fold z i in V0, V1.
  specialize (GS ltac:(pose proof (fits_near2 1 _ FF) as X; cbn [map] in X; rewrite V0, V1 in X; exact X) I). destruct (@grid_mdp b64 NumB Square [[z; z; i]] None (1, 3)%nat false) as [m'|] eqn:GB; [|contradiction]. cbn in GS.
  assert (EN : entry_fits 1 sp). { split; [reflexivity|]. split; [repeat (apply Forall_cons || apply Forall_nil); assumption|]. split; [cbn; lia|]. cbn [sp sp_reward map]. fold z in V0. rewrite V5, V0. cbn [Rsum fold_right]. rewrite Rabs_R0, Rabs_pos_eq by lra. apply Rle_trans with (10 ^ 1); [lra|]. apply Rle_pow; [lra|lia]. }
  assert (SS : Forall2 (ssim stands (weights 1)) [sp] [mkSpec "p"%string 1%Z None 0%Z [5; 0] []]) by (pose proof (entry_ssim 1 sp EN) as X; unfold spec_val in X; cbn [sp sp_name sp_n_moves sp_pos sp_reward sp_consumes map] in X; rewrite V5, V0 in X; constructor; [exact X|constructor]).
  destruct (make_envS NumB (near 1) stands (weights 1) float64 (-1) (near_computes 1 H1) (weights_length 1) m' m _ _ GS SS) as [_ ES0]. rewrite E in ES0. cbn [snd] in ES0. destruct (@make_env b64 NumB m' [sp]) as [m1' [e'|]] eqn:EB; [|contradiction]. clear ES0.
  destruct (one_agent _ _ _ _ EB) as (a' & EA & RA & CA & PA & HA). cbn [sp sp_reward sp_consumes sp_pos] in RA, CA, PA, HA.
  assert (MD : made 1 tolerance 500 Square [[z; z; i]] None (1, 3)%nat false [sp] m' m1' e'). { split; auto. }
  destruct (made_sim 1 H1 tolerance 500 _ _ _ _ _ _ _ _ _ MD) as (m2 & m3 & e2 & G2 & E2 & ES & RE).
  cbn [map option_map spec_val sp sp_name sp_n_moves sp_pos sp_reward sp_consumes] in G2, E2. fold z i in V0, V1. rewrite V0, V1 in G2. cbv [spec_val sp sp_name sp_n_moves sp_pos sp_reward sp_consumes] in E2. cbn [map] in E2. rewrite V5, V0 in E2. rewrite G in G2. injection G2 as <-. rewrite E in E2. injection E2 as <- <-.
  destruct NA as [IA NM]. destruct (agents_F2r 1 _ _ _ (es_agents _ _ _ _ _ ES) IA) as (b & IA' & AA). rewrite EA in IA'. destruct IA' as [<-|[]]. assert (NA' : agent_named e' "p" a') by (split; [rewrite EA; now left|now rewrite (as_name _ _ _ _ AA)]).
  pose proof (msim_val 1 _ _ (es_mdp _ _ _ _ _ ES)) as ME. destruct (as_reward _ _ _ _ AA) as (W1 & W2 & _). destruct (map_stands _ _ W1) as [_ ER].
  destruct (C244_fit 1 tolerance 500 _ _ _ _ _ _ _ _ _ [] "p" a' None 0%nat 0%nat H1 FT ltac:(lia) MD (Forall_nil _) NA') as (e1' & EF').
  assert (FM' : fewest_moves (mdp_val (e_mdp e')) 0 2 2) by (rewrite ME in FM; now apply <- fewest_adj in FM).
  assert (OG' : only_goal (mdp_val (e_mdp e')) (reward_of (map val (at_reward a')) (m_features (mdp_val (e_mdp e')))) 2 5) by (rewrite ER, ME in OG; exact OG).
  exists m', m1', e', a', e1'. split; [exact MD|]. split; [exact NA'|]. split; [exact FM'|]. split; [exact OG'|]. split; [exact EF'|]. intros x y.
  destruct (C244_shortest_path 1 _ _ _ _ _ _ _ _ _ [] "p" a' 0%nat 2%nat 5 2%nat None 0%nat 0%nat e1' H1 MD (Forall_nil _) NA') with (seeds := [x; y]) as (a1 & ps & N1 & HH & LP & WK & LA & _); auto.
  - unfold stands_on. rewrite PA. destruct OG' as [LG _]. unfold py_index. cbn [Z.leb Z.compare]. destruct (Z.ltb_spec 0 (Z.of_nat (m_n_states (mdp_val (e_mdp e'))))) as [_|X]; [|lia]. cbn [run fold_left]. destruct (Z.ltb_spec 0 (Z.of_nat (m_n_states (mdp_val (e_mdp e'))))); [reflexivity|lia].
  - lia.
  - lra.
  - intros t _. pose proof (ms_f _ _ _ (es_mdp _ _ _ _ _ ES)) as MF. rewrite ME in MF. cbn [m_features with_adjacency] in MF. eapply Rle_trans; [apply (weight_bound 1 H1 _ _ _ t MF)|]. rewrite RA. cbn [map]. rewrite V5, V0. cbn [Rsum fold_right]. rewrite Rabs_R0, Rabs_pos_eq by lra. lra.
  - intros b Hb w Hw. cbn [run fold_left] in Hb. rewrite EA in Hb. destruct Hb as [<-|[]]. rewrite CA in Hw. destruct Hw.
  - rewrite HA in HH. destruct ps as [|p [|q [|]]]; cbn in LP; try lia. cbn in LA. subst q. exists a1, (Z.of_nat p). split; [exact N1|exact HH].
Qed.
