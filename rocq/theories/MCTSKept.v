(** C112: a tree search that keeps its cache from one fit to the next ([reset_cache=False]). *)
From Coq Require Import String List ZArith QArith Reals Bool Lia Lra.
From Verif Require Import PyBase PyProofs GridModel GridSpec GridProofs GridProofs2 MDPModel MDPSpec MDPProofs MDPProofs2 MDPProofs3 MDPProofs4 MDPProps ActionModel ActionSpec SoftmaxModel SoftmaxProofs ActionProofs RSum ActionProps EnvModel PlanProps EnvSpec StepSpec EnvProofs EnvProofs2 EnvProofs3 EnvProofs4 EnvProofs5 EnvProps StepProps VIModel VISpec VIProofs VIProofs2 VIProps VIEnvProps MCTSModel MCTSSpec MCTSProofs MCTSProofs2 MCTSProofs3 MCTSProps MCTSWalk MCTSEaten MCTSCache MCTSFit MCTSRun.
Import ListNotations.
Local Close Scope Q_scope. Local Close Scope R_scope.
Local Open Scope nat_scope.

(** mcts.py 933-1000 [MCTS._fit] of an object made with [reset_cache=False] (lines 836, 944-945): [k] is
    [self.cache], None for a new object or after [clear_cache] (889-890). Returns the fit and the new cache;
    for what the object keeps when the fit raises see [kept_after]. *)
Definition kept_fit {A} `{Num A} (score : scorer A) (cfg : mcts_config A) (e : env A) (a : attached A) (n_moves : option (list (list Z)))
    (k : option (cache A)) (rnd : nat -> nat -> nat) (fuel : nat) : res (fitted A * cache A) :=
  let m := e_mdp e in
  let* (V, N, k', _) := run_mcts score (mc_interactive cfg) (mc_n_iter cfg) (m_features m) (m_sas m)
      (all_info (mc_interactive cfg) e a) (mc_C cfg) n_moves (mc_cost cfg) (mc_policy cfg) (mc_caching cfg)
      (mc_max_iter cfg) (mc_discount cfg) (mc_tol cfg) k rnd fuel in
  let* values := mcts_action_values (at_pos a) (m_sas m) V N in
  let* q := mcts_q (m_n_states m) (m_n_actions m) (at_pos a) values in
  Ok ((map Fin V, q), k').

(** mcts.py 399-455: the cache once the actor has chosen its move. Entries are added to the dictionaries in
    place (453-455), so they remain when something after that raises. *)
Definition stored {A} `{Num A} (c : search A) (rnd : nat -> nat) (st : it_state A) : cache A :=
  let a := it_actor st in
  match mark_actor c st, get_actions_states (s_sas c) (nth a (it_nodes st) 0%Z) with
  | Ok features, Ok acts =>
    let '(_, active, caught) :=
      if s_interactive c then check_agent_overlap (s_consumes_agents c) (it_nodes st) (s_cost c) (it_active st) (s_values c)
      else (n0, it_active st, false) in
    if negb caught && negb (a =? 0) && s_interactive c && nth a active false then
      match opponent_move c st features (map snd acts) (rnd (Z.to_nat (it_total st))) with Ok (_, k) => k | Err _ => it_cache st end
    else it_cache st
  | _, _ => it_cache st
  end.
(** mcts.py 353-505: the cache after one pass through the loop body, whether or not it raises. *)
Definition body_stored {A} `{Num A} (c : search A) (rnd : nat -> nat) (st : it_state A) : cache A :=
  match nth_error (s_n_moves c) (it_actor st) with
  | None => it_cache st
  | Some row => match nth_error row (nth (it_actor st) (it_turns st) 0) with
                | None => it_cache st
                | Some k => if (0 <? k)%Z then stored c rnd st else it_cache st
                end
  end.
(** mcts.py 353: the cache when the loop ends, raises, or is interrupted after [fuel] passes. *)
Fixpoint loop_stored {A} `{Num A} (score : scorer A) (c : search A) (V N : list A) (rnd : nat -> nat) (fuel : nat) (st : it_state A) : cache A :=
  match fuel with
  | O => it_cache st
  | S fuel' =>
    if (it_total st <? n_steps c)%Z then
      match it_body score c V N rnd st with
      | Ok (inl st') => loop_stored score c V N rnd fuel' st'
      | _ => body_stored c rnd st
      end
    else it_cache st
  end.
(** mcts.py 721-765: the cache when the iterations end or one of them raises. *)
Fixpoint search_stored {A} `{Num A} (score : scorer A) (c : search A) (rnd : nat -> nat -> nat) (fuel i todo : nat) (V N : list A) (k : cache A) : cache A :=
  match todo with
  | O => k
  | S todo' =>
    match mcts_iteration score c V N k (rnd i) fuel with
    | Ok (reward, visited, k', _) => let '(V', N') := backprop (V, N) reward visited in search_stored score c rnd fuel (S i) todo' V' N' k'
    | Err _ => loop_stored score c V N (rnd i) fuel (it_start c k)
    end
  end.
(** mcts.py 933-1000: [self.cache] after a fit was tried. If [run_mcts] returns, what it returned (955-961), even
    if something raises later; if it raises, the old object, to which entries may have been added. A cache
    begun by the raising fit itself (714-715) is lost. *)
Definition kept_after {A} `{Num A} (score : scorer A) (cfg : mcts_config A) (e : env A) (a : attached A) (n_moves : option (list (list Z)))
    (k : option (cache A)) (rnd : nat -> nat -> nat) (fuel : nat) : option (cache A) :=
  let m := e_mdp e in
  let l := all_info (mc_interactive cfg) e a in
  match run_mcts score (mc_interactive cfg) (mc_n_iter cfg) (m_features m) (m_sas m) l (mc_C cfg) n_moves (mc_cost cfg) (mc_policy cfg)
      (mc_caching cfg) (mc_max_iter cfg) (mc_discount cfg) (mc_tol cfg) k rnd fuel, k with
  | Ok (_, _, k', _), _ => Some k'
  | Err _, None => None
  | Err _, Some k0 =>
    match n_moves, make_search (mc_interactive cfg) (m_features m) (m_sas m) l (match n_moves with Some n => n | None => [] end) (mc_C cfg)
        (mc_cost cfg) (mc_policy cfg) (mc_caching cfg) (mc_max_iter cfg) (mc_discount cfg) (mc_tol cfg) with
    | Some _, Ok c => Some (search_stored score c rnd fuel 0 (Z.to_nat (mc_n_iter cfg)) (zeros1 (length (m_sas m))) (zeros1 (length (m_sas m))) k0)
    | _, _ => Some k0
    end
  end.

(** With no cache it is [_fit] as modelled before. *)
Theorem kept_fit_new : forall A (NA : Num A) (score : scorer A) cfg e a n rnd fuel,
  mcts_fit score cfg e a n rnd fuel = let* (f, _) := kept_fit score cfg e a n None rnd fuel in Ok f.
Proof.
  intros A NA score cfg e a n rnd fuel. unfold mcts_fit, kept_fit. destruct (run_mcts _ _ _ _ _ _ _ _ _ _ _ _ _ _ _ _ _) as [[[[V N] k] s]|x]; cbn [bind]; [|reflexivity].
  destruct (mcts_action_values _ _ _ _) as [v|x]; cbn [bind]; [|reflexivity]. destruct (mcts_q _ _ _ _) as [q|x]; reflexivity.
Qed.

(** After a fit that succeeds the object keeps the cache it returned. *)
Lemma kept_after_ok : forall A (NA : Num A) (score : scorer A) cfg e a n k rnd fuel f k', kept_fit score cfg e a n k rnd fuel = Ok (f, k') -> kept_after score cfg e a n k rnd fuel = Some k'.
Proof.
  intros A NA score cfg e a n k rnd fuel f k' E. unfold kept_fit in E. unfold kept_after. destruct (run_mcts _ _ _ _ _ _ _ _ _ _ _ _ _ _ _ _ _) as [[[[V N] k1] s]|x]; cbn [bind] in E; [|discriminate].
  destruct (mcts_action_values _ _ _ _) as [v|x]; cbn [bind] in E; [|discriminate]. destruct (mcts_q _ _ _ _) as [q|x]; cbn [bind] in E; [|discriminate]. injection E as _ ->. destruct k; reflexivity.
Qed.
(** The cache that grows in place is the one an iteration that ends well returns. *)
Lemma loop_stored_ok : forall A (NA : Num A) (score : scorer A) c V N rnd fuel st st' b, it_loop score c V N rnd fuel st = Ok (st', b) -> loop_stored score c V N rnd fuel st = it_cache st'.
Proof.
  intros A NA score c V N rnd fuel. induction fuel as [|fuel IH]; intros st st' b E; [discriminate|]. cbn [it_loop loop_stored] in *. destruct (it_total st <? n_steps c)%Z; [|injection E as <- _; reflexivity].
  destruct (it_body score c V N rnd st) as [[st1|st1]|x] eqn:B; cbn [bind] in E; [eapply IH; exact E| |discriminate]. injection E as <- _.
  unfold it_body in B. unfold body_stored. destruct (nth_error (s_n_moves c) (it_actor st)) as [row|]; [|discriminate]. destruct (nth_error row _) as [n|]; [|discriminate]. destruct (0 <? n)%Z; [|discriminate].
  destruct (it_move score c V N rnd st) as [[x|x]|x] eqn:M; cbn [bind] in B; try discriminate. injection B as ->. unfold it_move in M. unfold stored. destruct (mark_actor c st) as [ft|]; cbn [bind] in M; [|discriminate].
  destruct (if s_interactive c then _ else _) as [[ad ac] ca]. destruct ca.
  - injection M as <-. cbn [negb andb it_cache]. destruct (get_actions_states _ _); reflexivity.
  - exfalso. apply bind_ok in M. destruct M as (acts & _ & M). apply bind_ok in M. destruct M as ([[[[[ex rw] vi] no] k] ot] & _ & M). apply bind_ok in M. destruct M as ([f2 co] & _ & M). discriminate.
Qed.
(** * Refuted *)
(** A row of seven cells. The planning agent, in cell 2, likes the berries in cell 3; the hunter, in cell 4, is
    after the food in cell 6 and eats the other agent when they meet. There is a wall in cell 5. *)
Definition row_env : res (env Q) :=
  let* m := grid_mdp (A:=Q) Square [[0; 0; 0; 1; 0; 0; 0]; [0; 0; 0; 0; 0; 0; 1]]%Q (Some [0; 0; 0; 0; 0; 1; 0]%Q) (7, 1) false in
  snd (make_env m [mkSpec "prey"%string 1 None 2 [1; 0; 0; 0]%Q []; mkSpec "hunter"%string 1 None 4 [0; 1; 0; 0]%Q [2%Z]]).
Definition row_cfg : mcts_config Q := mkMCTS 2 0%Q (-100)%Q true (OppSolve select_max) true 6 (1 # 2)%Q (1 # 2)%Q.
(** The two iterations of a search try the first action, then the second. *)
Definition prey_fit (e : env Q) (k : option (cache Q)) : res (fitted Q * cache Q) :=
  let* a := lookup e "prey" in kept_fit mean_score row_cfg e a (Some [[1; 1]; [1; 1]]%Z) k (fun i t => if t =? 0 then i else 0) 30.
(** The wall is removed between two fits. The hunter now goes for its food and the berries are safe; the search
    that kept its cache still has the hunter come and catch the agent, so it prefers to go away. *)
Theorem C112_walls_refuted : exists e e' f0 k v q v' q' k1 k2, row_env = Ok e /\ prey_fit e None = Ok (f0, k) /\ e' = do_op (ex_pl []) e (OSetWalls (repeat 0 7)%Q) /\
  prey_fit e' None = Ok ((v, q), k1) /\ prey_fit e' (Some k) = Ok ((v', q'), k2) /\
  nth 2 q [] = [NaN; Fin (1 # 2); NaN; Fin 0]%Q /\ nth 2 q' [] = [NaN; Fin (-99 # 2); NaN; Fin 0]%Q.
Proof. do 10 eexists. do 2 (split; [vm_compute; reflexivity|]). split; [reflexivity|]. vm_compute. auto 10. Qed.
(** Nothing but moves: the agent eats the hunter's food in cell 5, the hunter arrives in cell 3. Planning again,
    the search that kept its cache has the hunter still go for cell 5. *)
Definition meal_env : res (env Q) :=
  let* m := grid_mdp (A:=Q) Square [[1; 0; 0; 0; 0; 1; 0]; [0; 0; 0; 0; 1; 0; 0]]%Q None (7, 1) false in
  snd (make_env m [mkSpec "prey"%string 1 None 4 [0; 1; 0; 0]%Q [0%Z]; mkSpec "hunter"%string 1 None 1 [1; 0; 0; 0]%Q [2%Z]]).
Theorem C112_meal_refuted : exists e e' f0 k v q v' q' k1 k2, meal_env = Ok e /\ prey_fit e None = Ok (f0, k) /\
  e' = run (ex_pl (repeat 1%Z 7)) e [OFit "prey" None 0 0; OStep "prey" 0; OSetPosition "hunter" 3] /\ map at_pos (e_agents e') = [5; 3]%Z /\
  prey_fit e' None = Ok ((v, q), k1) /\ prey_fit e' (Some k) = Ok ((v', q'), k2) /\
  nth 5 q [] = [NaN; Fin 0; NaN; Fin (1 # 2)]%Q /\ nth 5 q' [] = [NaN; Fin 0; NaN; Fin (-99 # 2)]%Q.
Proof. do 10 eexists. do 2 (split; [vm_compute; reflexivity|]). split; [reflexivity|]. vm_compute. auto 10. Qed.

(** * What holds *)
(** Searches whose opponents face the same problem. *)
Definition alike (c c' : search R) : Prop :=
  s_sas c = s_sas c' /\ s_rewards c = s_rewards c' /\ s_policy c = s_policy c' /\ s_max_iter c = s_max_iter c' /\ s_discount c = s_discount c' /\ s_tol c = s_tol c' /\
  length (s_start c) = length (s_start c') /\
  forall a f s, 0 < a < length (s_start c) -> nth f (nth a (s_rewards c) []) 0%R <> 0%R -> nth s (nth f (s_features c) []) 0%R = nth s (nth f (s_features c') []) 0%R.
Lemma cache_ok_alike : forall c c' nS nF k, alike c c' -> cache_ok c nS nF k -> cache_ok c' nS nF k.
Proof.
  intros c c' nS nF k (E1 & E2 & E3 & E4 & E5 & E6 & E7 & EF) H a key q Ha Hin. rewrite <- E7 in Ha. specialize (H a key q Ha Hin). unfold entry_ok in *. rewrite <- E3.
  destruct (s_policy c); try exact I. destruct H as (qv & v & -> & H). exists qv, v. split; [reflexivity|]. intros ft L HF. rewrite <- E1, <- E2, <- E4, <- E5, <- E6. apply H; [exact L|].
  intros j f Hj s Hs. rewrite <- E2 in HF. rewrite (HF j f Hj s Hs). unfold seen_row. destruct (in_dec _ _ _); [reflexivity|]. symmetry. apply (EF a); [exact Ha|]. apply pref_in. eapply nth_error_In; eauto.
Qed.
Lemma search_keeps : forall score c rnd fuel nS nF, well_shaped c nS nF ->
  (forall i, i < length (s_start c) -> length (where_ (fun b => b) (nth i (s_consumes c) [])) <= 1) ->
  (forall i f, 0 < i < length (s_start c) -> nth f (nth i (s_rewards c) []) 0%R <> 0%R -> ordinary c f) ->
  forall n V N k states i V' N' k' states', cache_ok c nS nF k ->
  search_loop score (with_caching true c) rnd fuel i n V N k states = Ok (V', N', k', states') -> cache_ok c nS nF k'.
Proof.
  intros score c rnd fuel nS nF WS ONE ORD n. induction n as [|n IH]; intros V N k states i V' N' k' states' CK E; cbn [search_loop] in E; [inversion E; now subst|].
  pose proof (loop_sim score c V N (rnd i) nS nF WS ONE ORD fuel _ _ (same_start c k k) (good_start c nS nF WS k CK)) as L. unfold mcts_iteration in E.
  destruct (it_loop score (with_caching true c) V N (rnd i) fuel (it_start (with_caching true c) k)) as [[a b]|e]; [|discriminate]. cbn [bind] in E.
  destruct (it_loop score (with_caching false c) V N (rnd i) fuel (it_start (with_caching false c) k)) as [[a' b']|e']; [|contradiction].
  destruct L as (_ & _ & _ & _ & CK'). destruct (backprop (V, N) (it_reward a) (it_visited a)) as [V1 N1]. eapply IH; [exact CK'|exact E].
Qed.
(** Also what a search leaves when it raises. *)
Lemma stored_keeps : forall c rnd nS nF, well_shaped c nS nF ->
  (forall i f, 0 < i < length (s_start c) -> nth f (nth i (s_rewards c) []) 0%R <> 0%R -> ordinary c f) ->
  forall st, good c nS nF st -> cache_ok c nS nF (body_stored (with_caching true c) rnd st).
Proof.
  intros c rnd nS nF WS ORD st G. pose proof (gd_cache _ _ _ _ G) as CK. unfold body_stored. destruct (nth_error _ _) as [row|]; [|exact CK]. destruct (nth_error row _) as [n|]; [|exact CK]. destruct (0 <? n)%Z; [|exact CK].
  unfold stored. rewrite mark_on. cbn [with_caching s_sas s_interactive s_consumes_agents s_cost s_values]. destruct (mark_actor c st) as [ft|] eqn:MA; [|exact CK]. destruct (get_actions_states _ _) as [acts|]; [|exact CK].
  destruct (if s_interactive c then _ else _) as [[ad ac] ca]. destruct (negb ca && negb (it_actor st =? 0) && s_interactive c && nth (it_actor st) ac false) eqn:B; [|exact CK].
  repeat (apply andb_true_iff in B; let X := fresh "B" in destruct B as [B X]). apply negb_true_iff, Nat.eqb_neq in B2.
  assert (S : same st st) by (constructor; reflexivity).
  pose proof (opponent_sim c nS nF WS ORD st st ft (map snd acts) (rnd (Z.to_nat (it_total st))) S G ltac:(lia) MA) as OS.
  destruct (opponent_move (with_caching true c) st ft (map snd acts) (rnd (Z.to_nat (it_total st)))) as [[x k]|e]; [|exact CK]. destruct (opponent_move (with_caching false c) _ _ _ _) as [[y k']|]; [apply OS|contradiction].
Qed.
Lemma loop_stored_keeps : forall score c V N rnd nS nF, well_shaped c nS nF ->
  (forall i, i < length (s_start c) -> length (where_ (fun b => b) (nth i (s_consumes c) [])) <= 1) ->
  (forall i f, 0 < i < length (s_start c) -> nth f (nth i (s_rewards c) []) 0%R <> 0%R -> ordinary c f) ->
  forall fuel st st', same st st' -> good c nS nF st -> cache_ok c nS nF (loop_stored score (with_caching true c) V N rnd fuel st).
Proof.
  intros score c V N rnd nS nF WS ONE ORD fuel. induction fuel as [|fuel IH]; intros st st' S G; cbn [loop_stored]; [apply G|]. destruct (_ <? _)%Z; [|apply G].
  pose proof (body_sim score c V N rnd nS nF WS ONE ORD st st' S G) as M. pose proof (stored_keeps c rnd nS nF WS ORD st G) as K.
  destruct (it_body score (with_caching true c) V N rnd st) as [[a|a]|e]; [|exact K|exact K]. destruct (it_body score (with_caching false c) V N rnd st') as [[b|b]|e']; cbn [moved_alike] in M; try contradiction. destruct M as [S' G']. eapply IH; eauto.
Qed.
Lemma search_stored_keeps : forall score c rnd fuel nS nF, well_shaped c nS nF ->
  (forall i, i < length (s_start c) -> length (where_ (fun b => b) (nth i (s_consumes c) [])) <= 1) ->
  (forall i f, 0 < i < length (s_start c) -> nth f (nth i (s_rewards c) []) 0%R <> 0%R -> ordinary c f) ->
  forall n V N k i, cache_ok c nS nF k -> cache_ok c nS nF (search_stored score (with_caching true c) rnd fuel i n V N k).
Proof.
  intros score c rnd fuel nS nF WS ONE ORD n. induction n as [|n IH]; intros V N k i CK; cbn [search_stored]; [exact CK|].
  pose proof (loop_stored_keeps score c V N (rnd i) nS nF WS ONE ORD fuel _ _ (same_start c k k) (good_start c nS nF WS k CK)) as L.
  destruct (mcts_iteration score (with_caching true c) V N k (rnd i) fuel) as [[[[rw vs] k'] ot]|x] eqn:MI; [|exact L]. unfold mcts_iteration in MI. apply bind_ok in MI. destruct MI as ([st b] & E & MI). rewrite (loop_stored_ok _ _ _ _ _ _ _ _ _ _ _ E) in L. injection MI as _ _ <- _.
  destruct (backprop (V, N) rw vs) as [V1 N1]. now apply IH.
Qed.
Lemma outcome_sym : forall A (r r' : res (list A * list A * cache A * list (list nat))), same_outcome r r' -> same_outcome r' r.
Proof. intros A [[[[V N] k] s]|x] [[[[V' N'] k'] s']|x'] H; cbn in *; try contradiction; [|auto]. destruct H as (-> & -> & ->). auto. Qed.
Lemma outcome_trans : forall A (r r' r2 : res (list A * list A * cache A * list (list nat))), same_outcome r r' -> same_outcome r' r2 -> same_outcome r r2.
Proof. intros A [[[[V N] k] s]|x] [[[[V' N'] k'] s']|x'] [[[[V2 N2] k2] s2]|x2] H H'; cbn in *; try contradiction; [|congruence]. destruct H as (-> & -> & ->). exact H'. Qed.
Lemma caching_same : forall (c : search R), with_caching (s_caching c) c = c.
Proof. intros []. reflexivity. Qed.
Lemma empty_ok : forall c nS nF n, cache_ok c nS nF (repeat [] n).
Proof. intros c nS nF n a key q _ H. rewrite nth_repeat in H. destruct H. Qed.
(** A search started with any sound cache has the outcome of one started with an empty cache. *)
Lemma search_same : forall score c rnd fuel nS nF, well_shaped c nS nF ->
  (forall i, i < length (s_start c) -> length (where_ (fun b => b) (nth i (s_consumes c) [])) <= 1) ->
  (forall i f, 0 < i < length (s_start c) -> nth f (nth i (s_rewards c) []) 0%R <> 0%R -> ordinary c f) ->
  forall n V N k k' states i, (s_caching c = true -> cache_ok c nS nF k) -> (s_caching c = true -> cache_ok c nS nF k') ->
  same_outcome (search_loop score c rnd fuel i n V N k states) (search_loop score c rnd fuel i n V N k' states).
Proof.
  intros score c rnd fuel nS nF WS ONE ORD n V N k k' states i CK CK'. rewrite <- (caching_same c) at 1 2. destruct (s_caching c).
  - eapply outcome_trans; [apply (search_sim _ _ _ _ nS nF WS ONE ORD _ _ _ k k); auto|]. apply outcome_sym. apply (search_sim _ _ _ _ nS nF WS ONE ORD _ _ _ _ k). auto.
  - eapply outcome_trans; [apply outcome_sym; apply (search_sim _ _ _ _ nS nF WS ONE ORD _ _ _ (repeat [] 0)); apply empty_ok|]. apply (search_sim _ _ _ _ nS nF WS ONE ORD). apply empty_ok.
Qed.

(** ** In an environment *)
(** [e] is [e0] again as far as opponents are concerned: the same transitions, the same agents (their positions
    may differ), and every ordinary feature is where it was. *)
Definition same_problem (e0 e : env R) : Prop :=
  m_sas (e_mdp e) = m_sas (e_mdp e0) /\ n_ordinary (e_mdp e) = n_ordinary (e_mdp e0) /\
  map (fun b => (at_name b, at_reward b, at_consumes b)) (e_agents e) = map (fun b => (at_name b, at_reward b, at_consumes b)) (e_agents e0) /\
  forall f s, f < n_ordinary (e_mdp e0) -> feat (e_mdp e) f s = feat (e_mdp e0) f s.
(** The caches an object has after any number of fits for agent [nm], each in such an environment, with any schedules
    and random draws, whether they succeed or raise. *)
Inductive kept_from (score : scorer R) (cfg : mcts_config R) (e0 : env R) (nm : string) : option (cache R) -> Prop :=
| kept_none : kept_from score cfg e0 nm None
| kept_some : forall k pl e a n rnd fuel, kept_from score cfg e0 nm k -> reachable pl e -> same_problem e0 e -> agent_named e nm a ->
    kept_from score cfg e0 nm (kept_after score cfg e a n k rnd fuel).
(** Other agents care only about ordinary features, and no agent consumes more than one feature. *)
Definition others_want_ordinary (e : env R) (nm : string) : Prop :=
  forall b f, In b (e_agents e) -> at_name b <> nm -> nth f (at_reward b) 0%R <> 0%R -> f < n_ordinary (e_mdp e).
Definition consume_at_most_one (e : env R) : Prop :=
  forall b z z', In b (e_agents e) -> In z (at_consumes b) -> In z' (at_consumes b) -> py_index (m_n_features (e_mdp e)) z = py_index (m_n_features (e_mdp e)) z'.

(** The agents of a search and what it is made of. *)
Definition searchers (interactive : bool) (e : env R) (a : attached R) : list (attached R) :=
  a :: (if interactive then filter (fun b => negb (String.eqb (at_name b) (at_name a))) (e_agents e) else []).
Lemma all_info_searchers : forall i e a, all_info i e a = map agent_info (searchers i e a).
Proof. intros [] e a; reflexivity. Qed.
Definition fit_search (cfg : mcts_config R) (e : env R) (a : attached R) (nm : list (list Z)) : res (search R) :=
  make_search (mc_interactive cfg) (m_features (e_mdp e)) (m_sas (e_mdp e)) (all_info (mc_interactive cfg) e a) nm (mc_C cfg) (mc_cost cfg) (mc_policy cfg) (mc_caching cfg) (mc_max_iter cfg) (mc_discount cfg) (mc_tol cfg).

Lemma fit_search_ok : forall pl cfg e a nm n c, reachable pl e -> agent_named e nm a -> fit_search cfg e a n = Ok c ->
  others_want_ordinary e nm -> consume_at_most_one e ->
  well_shaped c (m_n_states (e_mdp e)) (m_n_features (e_mdp e)) /\
  (forall i, i < length (s_start c) -> length (where_ (fun b => b) (nth i (s_consumes c) [])) <= 1) /\
  (forall i f, 0 < i < length (s_start c) -> nth f (nth i (s_rewards c) []) 0%R <> 0%R -> ordinary c f) /\
  s_sas c = m_sas (e_mdp e) /\ s_features c = m_features (e_mdp e) /\ s_rewards c = map at_reward (searchers (mc_interactive cfg) e a) /\ s_policy c = mc_policy cfg /\ s_max_iter c = mc_max_iter cfg /\
  s_discount c = mc_discount cfg /\ s_tol c = mc_tol cfg /\ length (s_start c) = length (searchers (mc_interactive cfg) e a) /\
  (forall b, In b (tl (searchers (mc_interactive cfg) e a)) -> In b (e_agents e) /\ at_name b <> nm).
Proof.
  intros pl cfg e a nm n c RE [Ha EN] MS OW CO. destruct (reachable_wf _ _ RE) as (k & shape & st & W). pose proof (wf_grid _ _ _ _ W) as G. pose proof (gi_ns _ _ _ _ G) as NS. destruct (grid_shape _ _ _ _ G) as (_ & _ & SH). pose proof SH as [SL _].
  set (nF := m_n_features (e_mdp e)). set (l := searchers (mc_interactive cfg) e a).
  assert (OT : forall b, In b (tl l) -> In b (e_agents e) /\ at_name b <> nm).
  { intros b Hb. unfold l, searchers in Hb. cbn [tl] in Hb. destruct (mc_interactive cfg); [|destruct Hb]. apply filter_In in Hb. destruct Hb as [Hb E]. split; [exact Hb|]. intros E'. rewrite E', <- EN, String.eqb_refl in E. discriminate. }
  assert (IN : forall b, In b l -> In b (e_agents e) /\ agent_ok (e_mdp e) b). { intros b Hb. assert (X : In b (e_agents e)) by (destruct Hb as [<-|Hb]; [exact Ha|now apply OT]). split; [exact X|now apply (wf_agents _ _ _ _ W)]. }
  unfold fit_search in MS. rewrite all_info_searchers in MS. fold l in MS. unfold make_search in MS. destruct (negb _); [discriminate|]. apply bind_ok in MS. destruct MS as (masks & MM & MS). assert (OI : forall (x y : search R), Ok x = Ok y -> x = y) by (intros ? ? X; now inversion X). apply OI in MS. subst c.
  cbn [s_interactive s_sas s_features s_start s_n_moves s_rewards s_feature_idx s_policy s_caching s_max_iter s_discount s_consumes s_tol]. destruct (mapM_nth _ _ _ _ _ MM) as [LM SM]. rewrite !map_length in *. assert (ERW : map i_reward (map agent_info l) = map at_reward l) by (rewrite map_map; reflexivity). rewrite ERW.
  assert (MK : forall i, i < length l -> length (nth i masks []) = nF /\ forall f, nth f (nth i masks []) false = true -> exists z, In z (at_consumes (nth i l a)) /\ py_index nF z = Ok f).
  { intros i Hi. specialize (SM i (agent_info a) [] Hi). rewrite map_nth in SM. destruct (mask_spec _ _ SM) as [L S]. cbn [agent_info i_reward i_consumes] in *. destruct (IN (nth i l a) (nth_In _ _ Hi)) as [_ (_ & _ & _ & LR & _)]. rewrite LR in *. split; [exact L|].
    intros f Hf. apply S in Hf. apply Hf. }
  assert (RW : forall i, i < length l -> nth i (map at_reward l) [] = at_reward (nth i l a)) by (intros i Hi; now apply nth_map_lt).
  split; [|split; [|split; [|repeat (split; [reflexivity|]); exact OT]]].
  - unfold well_shaped. cbn [s_features s_sas s_consumes s_start]. rewrite !map_length. split; [pose proof (wf_table _ _ _ _ W) as TB; apply table_shape in TB; exact TB|]. split; [rewrite NS; exact SL|]. split; [exact LM|]. split; [intros i Hi; now apply MK|]. unfold l. cbn. lia.
  - intros i Hi. apply count_true. intros f g Hf Hg. destruct (MK i Hi) as [_ X]. destruct (X f Hf) as (z & Hz & Pz). destruct (X g Hg) as (z' & Hz' & Pz'). destruct (IN (nth i l a) (nth_In _ _ Hi)) as [Ib _]. pose proof (CO _ z z' Ib Hz Hz') as Y. fold nF in Y. congruence.
  - intros i f Hi Hf. rewrite RW in Hf by lia. assert (Ib : In (nth i l a) (tl l)). { unfold l, searchers in *. destruct i; [lia|]. cbn [nth tl length] in *. apply nth_In. lia. }
    destruct (OT _ Ib) as [I1 I2]. pose proof (OW _ f I1 I2 Hf) as Lf. intros j Hj E. cbn [s_start s_feature_idx] in *. rewrite !map_length in Hj. rewrite map_map, (nth_map_lt _ _ _ _ _ _ a) in E by exact Hj. cbn [agent_info i_feature] in E.
    destruct (IN (nth j l a) (nth_In _ _ Hj)) as [_ (_ & X & _)]. unfold n_ordinary in Lf. rewrite (wf_nf _ _ _ _ W) in Lf. lia.
Qed.
Lemma map_filter_named : forall nm (l l' : list (attached R)), map (fun b => (at_name b, at_reward b, at_consumes b)) l = map (fun b => (at_name b, at_reward b, at_consumes b)) l' ->
  map at_reward (filter (fun b => negb (String.eqb (at_name b) nm)) l) = map at_reward (filter (fun b => negb (String.eqb (at_name b) nm)) l').
Proof.
  induction l as [|b l IH]; intros [|b' l'] E; try discriminate; [reflexivity|]. cbn [map] in E. injection E as E1 E2 E3 E4. cbn [filter]. rewrite E1. destruct (negb _); cbn [map]; [rewrite E2; f_equal|]; now apply IH.
Qed.
Lemma searchers_rewards : forall pl pl' i e e0 a a0 nm, reachable pl e -> reachable pl' e0 -> same_problem e0 e -> agent_named e nm a -> agent_named e0 nm a0 -> map at_reward (searchers i e a) = map at_reward (searchers i e0 a0).
Proof.
  intros pl pl' i e e0 a a0 nm RE RE0 (_ & _ & EA & _) [Ha EN] [Ha0 EN0]. unfold searchers. cbn [map]. rewrite EN, EN0. f_equal.
  - apply (in_map (fun b => (at_name b, at_reward b, at_consumes b))) in Ha. rewrite EA in Ha. apply in_map_iff in Ha. destruct Ha as (b & E & Hb). injection E as E1 E2 E3. rewrite <- E2. f_equal. destruct (reachable_wf _ _ RE0) as (k & shape & st & W).
    eapply same_name_same; eauto; [apply (wf_names _ _ _ _ W)|congruence].
  - destruct i; [|reflexivity]. now apply map_filter_named.
Qed.
Lemma same_problem_named : forall e0 e nm a, same_problem e0 e -> agent_named e nm a -> exists a0, agent_named e0 nm a0.
Proof.
  intros e0 e nm a (_ & _ & EA & _) [Ha EN]. apply (in_map (fun b => (at_name b, at_reward b, at_consumes b))) in Ha. rewrite EA in Ha. apply in_map_iff in Ha. destruct Ha as (b & E & Hb). injection E as E1 E2 E3. exists b. split; congruence.
Qed.
Lemma same_problem_sizes : forall pl pl' e0 e, reachable pl e0 -> reachable pl' e -> same_problem e0 e -> e_agents e <> [] -> m_n_states (e_mdp e) = m_n_states (e_mdp e0) /\ m_n_features (e_mdp e) = m_n_features (e_mdp e0).
Proof.
  intros pl pl' e0 e RE0 RE (ES & EO & EA & _) NE. destruct (reachable_wf _ _ RE0) as (k & shape & st & W). destruct (reachable_wf _ _ RE) as (k' & shape' & st' & W').
  pose proof (wf_grid _ _ _ _ W) as G. pose proof (wf_grid _ _ _ _ W') as G'. destruct (grid_shape _ _ _ _ G) as (_ & _ & [SL _]). destruct (grid_shape _ _ _ _ G') as (_ & _ & [SL' _]).
  split; [rewrite (gi_ns _ _ _ _ G), (gi_ns _ _ _ _ G'); congruence|]. destruct (e_agents e) as [|b l] eqn:E; [congruence|]. destruct (e_agents e0) as [|b0 l0] eqn:E0; [discriminate|]. cbn [map] in EA. injection EA as _ ER _ _.
  destruct (wf_agents _ _ _ _ W b0 ltac:(rewrite E0; now left)) as (_ & _ & _ & L0 & _). destruct (wf_agents _ _ _ _ W' b ltac:(rewrite E; now left)) as (_ & _ & _ & L & _). congruence.
Qed.
Lemma carry : forall pl pl' e0 e nm, reachable pl e0 -> reachable pl' e -> same_problem e0 e -> e_agents e <> [] -> others_want_ordinary e0 nm -> consume_at_most_one e0 -> others_want_ordinary e nm /\ consume_at_most_one e.
Proof.
  intros pl pl' e0 e nm RE0 RE SP NE OW CO. destruct (same_problem_sizes _ _ _ _ RE0 RE SP NE) as [_ NF]. destruct SP as (ES & EO & EA & _).
  assert (TR : forall b, In b (e_agents e) -> exists b0, In b0 (e_agents e0) /\ at_name b0 = at_name b /\ at_reward b0 = at_reward b /\ at_consumes b0 = at_consumes b).
  { intros b Hb. apply (in_map (fun b => (at_name b, at_reward b, at_consumes b))) in Hb. rewrite EA in Hb. apply in_map_iff in Hb. destruct Hb as (b0 & E & Hb). injection E as E1 E2 E3. eauto 10. }
  split.
  - intros b f Hb Hn Hf. destruct (TR b Hb) as (b0 & H0 & E1 & E2 & E3). rewrite EO. apply (OW b0); [exact H0|congruence|congruence].
  - intros b z z' Hb Hz Hz'. destruct (TR b Hb) as (b0 & H0 & E1 & E2 & E3). rewrite NF. apply (CO b0); [exact H0|congruence|congruence].
Qed.
Lemma fit_search_alike : forall pl pl' cfg e0 e a0 a nm n0 n c0 c, reachable pl e0 -> reachable pl' e -> same_problem e0 e -> agent_named e0 nm a0 -> agent_named e nm a -> others_want_ordinary e0 nm -> consume_at_most_one e0 ->
  fit_search cfg e0 a0 n0 = Ok c0 -> fit_search cfg e a n = Ok c -> alike c0 c.
Proof.
  intros pl pl' cfg e0 e a0 a nm n0 n c0 c RE0 RE SP NA0 NA OW CO E0 E. assert (NE : e_agents e <> []) by (destruct NA as [H _]; intros X; rewrite X in H; destruct H).
  destruct (carry _ _ _ _ nm RE0 RE SP NE OW CO) as [OW' CO'].
  destruct (fit_search_ok _ _ _ _ _ _ _ RE0 NA0 E0 OW CO) as (_ & _ & _ & S1 & S2 & S3 & S4 & S5 & S6 & S7 & S8 & S9). destruct (fit_search_ok _ _ _ _ _ _ _ RE NA E OW' CO') as (_ & _ & _ & T1 & T2 & T3 & T4 & T5 & T6 & T7 & T8 & T9).
  pose proof (searchers_rewards _ _ (mc_interactive cfg) _ _ _ _ _ RE RE0 SP NA NA0) as ER. destruct SP as (ES & EO & EA & EF).
  unfold alike. rewrite S1, T1, S2, T2, S3, T3, S4, T4, S5, T5, S6, T6, S7, T7, S8, T8, ER. split; [now symmetry|]. do 5 (split; [reflexivity|]). split; [rewrite <- (map_length at_reward), <- ER; now rewrite map_length|].
  intros i f s Hi Hf. symmetry. apply EF. set (l := searchers (mc_interactive cfg) e0 a0) in *. rewrite (nth_map_lt _ _ _ _ _ _ a0) in Hf by lia.
  assert (Ib : In (nth i l a0) (tl l)). { unfold l, searchers in *. destruct i; [lia|]. cbn [nth tl length] in *. apply nth_In. lia. }
  destruct (S9 _ Ib) as [I1 I2]. exact (OW _ f I1 I2 Hf).
Qed.
Lemma fit_search_caching : forall cfg e a n c, fit_search cfg e a n = Ok c -> s_caching c = mc_caching cfg.
Proof. intros cfg e a n c E. unfold fit_search, make_search in E. destruct (negb _); [discriminate|]. apply bind_ok in E. destruct E as (masks & _ & E). inversion E. reflexivity. Qed.
Lemma same_problem_trans : forall e0 e e', same_problem e0 e -> same_problem e0 e' -> same_problem e e'.
Proof. intros e0 e e' (A1 & A2 & A3 & A4) (B1 & B2 & B3 & B4). split; [congruence|]. split; [congruence|]. split; [congruence|]. intros f s Hf. rewrite A4, B4 by congruence. reflexivity. Qed.
Lemma named_some : forall e nm (a : attached R), agent_named e nm a -> e_agents e <> [].
Proof. intros e nm a [H _] X. rewrite X in H. destruct H. Qed.

Lemma kept_sound : forall pl0 score cfg e0 nm k, reachable pl0 e0 -> others_want_ordinary e0 nm -> consume_at_most_one e0 -> kept_from score cfg e0 nm k ->
  forall k0, k = Some k0 -> mc_caching cfg = true -> forall pl e a n c, reachable pl e -> same_problem e0 e -> agent_named e nm a -> fit_search cfg e a n = Ok c -> cache_ok c (m_n_states (e_mdp e)) (m_n_features (e_mdp e)) k0.
Proof.
  intros pl0 score cfg e0 nm k RE0 OW CO K. induction K as [|k pl1 e1 a1 n1 rnd fuel K IH RE1 SP1 NA1]; intros k0 Ek CA pl e a n c RE SP NA FS; [discriminate|].
  destruct (carry _ _ _ _ nm RE0 RE1 SP1 (named_some _ _ _ NA1) OW CO) as [OW1 CO1]. pose proof (same_problem_trans _ _ _ SP1 SP) as SP2. destruct (same_problem_sizes _ _ _ _ RE1 RE SP2 (named_some _ _ _ NA)) as [ENS ENF].
  assert (OLD : forall k2, k = Some k2 -> cache_ok c (m_n_states (e_mdp e)) (m_n_features (e_mdp e)) k2) by (intros k2 ->; eapply IH; eauto).
  unfold kept_after in Ek. cbv zeta in Ek. fold (fit_search cfg e1 a1 (match n1 with Some m => m | None => [] end)) in Ek. unfold run_mcts in Ek. fold (fit_search cfg e1 a1 (match n1 with Some m => m | None => [] end)) in Ek.
  destruct (fit_search cfg e1 a1 (match n1 with Some m => m | None => [] end)) as [c1|x] eqn:FS1; cbn [bind] in Ek.
  2: { destruct k as [k2|]; [|discriminate]. apply OLD. destruct n1; cbn in Ek; [unfold fit_search in FS1; rewrite FS1 in Ek|]; congruence. }
  rewrite ENS, ENF. apply (cache_ok_alike c1 c); [eapply (fit_search_alike pl1 pl cfg e1 e); eauto|].
  destruct (fit_search_ok _ _ _ _ _ _ _ RE1 NA1 FS1 OW1 CO1) as (WS & ONE & ORD & _).
  assert (OK0 : cache_ok c1 (m_n_states (e_mdp e1)) (m_n_features (e_mdp e1)) (match k with Some k' => k' | None => repeat [] (length (all_info (mc_interactive cfg) e1 a1)) end)).
  { destruct k as [k2|]; [|apply empty_ok]. eapply IH; eauto. }
  destruct n1 as [n1|].
  - assert (FS2 := FS1). unfold fit_search in FS2. rewrite FS2 in Ek. rewrite <- (caching_same c1), (fit_search_caching _ _ _ _ _ FS1), CA in Ek.
    match type of Ek with match ?r with _ => _ end = _ => destruct r as [[[[V N] k1] sts]|x] eqn:RM end.
    + assert (k1 = k0) by (destruct k; congruence). subst k1. eapply search_keeps; eauto.
    + destruct k as [k2|]; [|discriminate]. injection Ek as <-. now apply search_stored_keeps.
  - destruct (0 <? mc_n_iter cfg)%Z; destruct k as [k2|]; try discriminate; injection Ek as <-; exact OK0.
Qed.

(** As long as nothing opponents depend on has changed since the cache was begun, every fit yields what it would have
    yielded with an empty cache: the same values, or the same exception. *)
Theorem C112_kept_partial : forall pl0 score cfg e0 nm k, reachable pl0 e0 -> others_want_ordinary e0 nm -> consume_at_most_one e0 -> kept_from score cfg e0 nm k ->
  forall pl e a n rnd fuel, reachable pl e -> same_problem e0 e -> agent_named e nm a ->
  mcts_fit score cfg e a n rnd fuel = let* (f, _) := kept_fit score cfg e a n k rnd fuel in Ok f.
Proof.
  intros pl0 score cfg e0 nm k RE0 OW CO K pl e a n rnd fuel RE SP NA. destruct k as [k0|]; [|apply kept_fit_new]. unfold mcts_fit, kept_fit, run_mcts. fold (fit_search cfg e a (match n with Some m => m | None => [] end)).
  destruct (fit_search cfg e a (match n with Some m => m | None => [] end)) as [c|x] eqn:FS; cbn [bind]; [|reflexivity].
  destruct (carry _ _ _ _ nm RE0 RE SP (named_some _ _ _ NA) OW CO) as [OW1 CO1]. destruct (fit_search_ok _ _ _ _ _ _ _ RE NA FS OW1 CO1) as (WS & ONE & ORD & _).
  assert (SO : same_outcome
    (match n with None => if (0 <? mc_n_iter cfg)%Z then Err TypeError else Ok (zeros1 (length (m_sas (e_mdp e))), zeros1 (length (m_sas (e_mdp e))), repeat [] (length (all_info (mc_interactive cfg) e a)), [])
     | Some _ => search_loop score c rnd fuel 0 (Z.to_nat (mc_n_iter cfg)) (zeros1 (length (m_sas (e_mdp e)))) (zeros1 (length (m_sas (e_mdp e)))) (repeat [] (length (all_info (mc_interactive cfg) e a))) [] end)
    (match n with None => if (0 <? mc_n_iter cfg)%Z then Err TypeError else Ok (zeros1 (length (m_sas (e_mdp e))), zeros1 (length (m_sas (e_mdp e))), k0, [])
     | Some _ => search_loop score c rnd fuel 0 (Z.to_nat (mc_n_iter cfg)) (zeros1 (length (m_sas (e_mdp e)))) (zeros1 (length (m_sas (e_mdp e)))) k0 [] end)).
  { destruct n as [n|]; [|destruct (0 <? mc_n_iter cfg)%Z; cbn; auto]. apply (search_same _ _ _ _ _ _ WS ONE ORD); [intros _; apply empty_ok|]. intros CA. rewrite (fit_search_caching _ _ _ _ _ FS) in CA. eapply (kept_sound pl0 score cfg e0 nm (Some k0)); eauto. }
  match goal with |- bind ?r _ = bind (bind ?r' _) _ => change (same_outcome r r') in SO; destruct r as [[[[V N] k1] s1]|x1], r' as [[[[V' N'] k2] s2]|x2] end; cbn in SO; try contradiction; [|now rewrite SO].
  destruct SO as (-> & -> & ->). cbn [bind]. destruct (mcts_action_values _ _ _ _) as [vs|y]; cbn [bind]; [|reflexivity]. destruct (mcts_q _ _ _ _); reflexivity.
Qed.
(** C217: a fit with the kept cache gives what one with an empty cache gives. *)
Theorem C217_kept : forall pl0 score cfg e0 nm k, reachable pl0 e0 -> others_want_ordinary e0 nm -> consume_at_most_one e0 -> kept_from score cfg e0 nm k ->
  forall pl e a n rnd fuel, reachable pl e -> same_problem e0 e -> agent_named e nm a ->
  mcts_fit score cfg e a n rnd fuel = let* (f, _) := kept_fit score cfg e a n k rnd fuel in Ok f.
Proof. exact (@C112_kept_partial). Qed.

(** The same, as C171: a property of its own. *)
Theorem C171_kept : forall pl0 score cfg e0 nm k, reachable pl0 e0 -> others_want_ordinary e0 nm -> consume_at_most_one e0 -> kept_from score cfg e0 nm k ->
  forall pl e a n rnd fuel, reachable pl e -> same_problem e0 e -> agent_named e nm a ->
  mcts_fit score cfg e a n rnd fuel = let* (f, _) := kept_fit score cfg e a n k rnd fuel in Ok f.
Proof. exact (@C112_kept_partial). Qed.

(** ** Calls that disturb nothing *)
(** Fits and [set_agent_position] always; steps if no agent consumes anything. *)
Definition harmless (e : env R) (o : op R) : Prop :=
  match o with
  | OFit _ _ _ _ | OSetPosition _ _ | OInteractive _ _ => True
  | OStep _ _ | OStepMulti _ _ _ _ _ _ _ | OStepProba _ _ _ => forall b, In b (e_agents e) -> at_consumes b = []
  | OSetWalls _ | OReset => False
  end.
Lemma same_problem_refl : forall e, same_problem e e.
Proof. intros e. repeat split. Qed.
Lemma same_problem_chain : forall e1 e2 e3, same_problem e1 e2 -> same_problem e2 e3 -> same_problem e1 e3.
Proof. intros e1 e2 e3 (A1 & A2 & A3 & A4) (B1 & B2 & B3 & B4). split; [congruence|]. split; [congruence|]. split; [congruence|]. intros f s Hf. rewrite B4 by congruence. now apply A4. Qed.
Lemma static_agents : forall e e', static e e' -> map (fun b => (at_name b, at_reward b, at_consumes b)) (e_agents e') = map (fun b => (at_name b, at_reward b, at_consumes b)) (e_agents e).
Proof.
  intros e e' (_ & E & _). revert E. generalize (e_agents e) (e_agents e'). induction l as [|b l IH]; intros [|b' l'] E; try discriminate; [reflexivity|]. cbn [map] in E. injection E as E1 E2 E3 E4 E5 E6 E7 E8. cbn [map]. f_equal; [congruence|now apply IH].
Qed.
Lemma feat_row_set : forall m i row f s, f < m_n_non_agent m -> feat (row_set m i row) f s = feat m f s.
Proof. intros m i row f s Hf. unfold feat, row_set, get2. cbn [with_features m_features]. now rewrite nth_upd_other by lia. Qed.
Lemma mut_same_problem : forall k shape st l e e', wf k shape st e -> mut l e e' ->
  (l = LAgent \/ l = LMove \/ l = LZero \/ l = LTick \/ ((l = LConsume \/ l = LBad) /\ forall b, In b (e_agents e) -> at_consumes b = [])) -> same_problem e e'.
Proof.
  intros k shape st l e e' W M HL. pose proof (static_agents _ _ (mut_static _ _ _ _ _ _ W M)) as SA. assert (NO : n_ordinary (e_mdp e) = m_n_non_agent (e_mdp e)) by (unfold n_ordinary; rewrite (wf_nf _ _ _ _ W); lia).
  assert (K : m_sas (e_mdp e') = m_sas (e_mdp e) /\ n_ordinary (e_mdp e') = n_ordinary (e_mdp e) /\ forall f s, f < n_ordinary (e_mdp e) -> feat (e_mdp e') f s = feat (e_mdp e) f s); [|destruct K as (K1 & K2 & K3); split; [exact K1|]; split; [exact K2|]; split; [exact SA|exact K3]].
  destruct HL as [->|[->|[->|[->|[HL NC]]]]]; cbn [mut] in M.
  - destruct M as (a & a' & _ & _ & _ & _ & ->). repeat split.
  - destruct M as (a & a' & s & _ & _ & _ & _ & ->). cbn [with_agent with_mdp e_mdp]. split; [reflexivity|]. split; [reflexivity|]. intros f t Hf. apply feat_row_set. lia.
  - destruct M as (a & _ & ->). cbn [with_agent with_mdp e_mdp]. split; [reflexivity|]. split; [reflexivity|]. intros f t Hf. apply feat_row_set. lia.
  - subst e'. repeat split.
  - destruct HL as [->| ->]; cbn [mut] in M.
    + destruct M as (a & a' & m' & c & Ha & CF & _ & _ & _ & ->). rewrite (NC a Ha) in CF. unfold consume_features in CF. cbn in CF. injection CF as <- _. repeat split.
    + destruct M as (a & g & Ha & (z & Hz & _) & _). rewrite (NC a Ha) in Hz. destruct Hz.
Qed.
Lemma op_same_problem : forall pl k shape st e o, wf k shape st e -> harmless e o -> same_problem e (do_op pl e o).
Proof.
  intros pl k shape st e o W H.
  assert (K : forall (P : label -> Prop) e1 e2, wf k shape st e1 -> static e e1 -> muts P e1 e2 -> (forall l, P l -> l = LAgent \/ l = LMove \/ l = LZero \/ l = LTick \/ ((l = LConsume \/ l = LBad) /\ forall b, In b (e_agents e) -> at_consumes b = [])) -> same_problem e1 e2).
  { intros P e1 e2 W1 S1 M HP. induction M as [e1|l e1 e2 e3 PL M1 M IH]; [apply same_problem_refl|]. pose proof (mut_wf _ _ _ _ _ _ W1 M1) as W2. eapply same_problem_chain; [|apply IH; [exact W2|eapply static_trans; [exact S1|eapply mut_static; eauto]]].
    eapply mut_same_problem; [exact W1|exact M1|]. destruct (HP l PL) as [X|[X|[X|[X|[X NC]]]]]; auto. do 4 right. split; [exact X|]. intros b Hb. pose proof (static_in _ _ _ S1 Hb) as (b0 & H0 & E). injection E. intros _ _ _ E3 _ _ _. rewrite <- E3. now apply NC. }
  destruct o; cbn [harmless] in H; try contradiction.
  - unfold do_op, env_fit. destruct (lookup_spec k shape st e name W) as [(a & EL & Ha & EN)|(EL & _)]; rewrite EL; [|apply same_problem_refl].
    assert (LA : forall a', ident a' = ident a -> at_pos a' = at_pos a -> at_consumed a' = at_consumed a -> same_problem e (with_agent e a')). { intros a' I1 I2 I3. eapply (mut_same_problem _ _ _ LAgent); [exact W| |now left]. exists a, a'. auto. }
    destruct (alg_fit pl e a n_moves seed) as [f|x]; [|unfold failed_fit; cbn [fst]; destruct (_ && _); [now apply LA|apply same_problem_refl]].
    destruct (get_policy pl (set_fit a (Some f)) seed') as [a' r] eqn:GP. destruct (get_policy_spec _ _ _ _ _ GP) as (H1 & H2 & H3 & H4 & H5 & _). cbn [fst]. apply LA; auto.
  - eapply K; [exact W|apply static_refl|apply (do_op_muts pl k shape st e (OStep name seed) W)|]. intros [] X; cbn in X; try contradiction; auto 10.
  - eapply K; [exact W|apply static_refl|apply (do_op_muts pl k shape st e (OStepMulti name n_steps plan n_turns refit stop rnd) W)|]. intros [] X; cbn in X; try contradiction; auto 10.
  - eapply K; [exact W|apply static_refl|apply (do_op_muts pl k shape st e (OStepProba name position seed) W)|]. intros [] X; cbn in X; try contradiction; auto 10.
  - eapply K; [exact W|apply static_refl|apply (do_op_muts pl k shape st e (OInteractive names n_moves) W)|]. intros [] X; cbn in X; contradiction.
  - eapply K; [exact W|apply static_refl|apply (do_op_muts pl k shape st e (OSetPosition name p) W)|]. intros [] X; cbn in X; try contradiction; auto 10.
Qed.
(** So the cache may be kept across such calls. *)
Theorem C112_undisturbed_partial : forall pl e l, reachable pl e -> Forall (harmless e) l -> same_problem e (run pl e l).
Proof.
  intros pl e l RE FH. destruct (reachable_wf _ _ RE) as (k & shape & st & W). clear RE. revert e W FH. induction l as [|o l IH]; intros e W FH; [apply same_problem_refl|]. inversion FH as [|? ? H1 H2]. subst. cbn [run fold_left]. fold (run pl (do_op pl e o) l).
  eapply same_problem_chain; [eapply op_same_problem; eauto|]. apply IH; [now apply do_op_wf|]. pose proof (muts_static _ _ _ _ _ _ W (do_op_muts pl k shape st e o W)) as S. apply Forall_forall. intros o' Ho. rewrite Forall_forall in H2. specialize (H2 o' Ho).
  assert (NC : (forall b, In b (e_agents e) -> at_consumes b = []) -> forall b, In b (e_agents (do_op pl e o)) -> at_consumes b = []). { intros X b Hb. destruct (static_in _ _ _ S Hb) as (b0 & H0 & E). injection E. intros _ _ _ E3 _ _ _. rewrite <- E3. now apply X. }
  destruct o'; cbn [harmless] in *; auto.
Qed.
(** C217: calls after which this still holds. *)
Theorem C217_undisturbed : forall pl e l, reachable pl e -> Forall (harmless e) l -> same_problem e (run pl e l).
Proof. exact (@C112_undisturbed_partial). Qed.

(** The same, as C171: a property of its own. *)
Theorem C171_undisturbed : forall pl e l, reachable pl e -> Forall (harmless e) l -> same_problem e (run pl e l).
Proof. exact (@C112_undisturbed_partial). Qed.

(** Two agents after the same food: the first plans, is put elsewhere and plans again, with the same result from
    the kept cache as from an empty one; and the hypotheses of [C112_kept_partial] hold. *)
Definition food_specs {A} `{Num A} : list (spec A) := [mkSpec "p"%string 1 None 0 [n1; n0; n0; n0] [0%Z]; mkSpec "q"%string 1 None 3 [n1; n0; n0; n0] [0%Z]].
Example C112_hypotheses : forall pl, exists m m' e a, usable pl m /\ make_env m food_specs = (m', Ok e) /\ reachable pl e /\ agent_named e "p" a /\ others_want_ordinary e "p" /\ consume_at_most_one e /\
  same_problem e (run pl e [OFit "p" (Some [[1; 1]; [1; 1]]%Z) 0 0; OSetPosition "p" 1]).
Proof.
  intros pl. destruct (ex_usable pl) as (m & GM & U & NO & NS).
  destruct (proj2 (C17_accepts_iff pl m food_specs U)) as (m' & e & E).
  { rewrite NO, NS. intros s [<-|[<-|[]]]; (split; [reflexivity|]; split; [cbn; intros z Hz; lia|cbn; lia]). }
  assert (ND : NoDup (map sp_name (food_specs (A:=R)))) by (repeat constructor; cbn; intuition discriminate).
  pose proof (reach_new pl m _ m' e U E) as RE. destruct (C17_result pl m _ m' e U ND E) as (EM & _ & _ & _ & LA & HI & NF & _ & SAS & WA).
  destruct (HI 0 (nth 0 food_specs (mkSpec "" 0 None 0 [] [])) eq_refl) as (a & Ea & (A1 & A2 & A3 & A4 & _) & _). destruct (HI 1 (nth 1 food_specs (mkSpec "" 0 None 0 [] [])) eq_refl) as (b & Eb & (B1 & B2 & B3 & B4 & _) & _).
  assert (AL : e_agents e = [a; b]). { destruct (e_agents e) as [|x [|y [|]]]; cbn in *; congruence. }
  destruct (reachable_wf _ _ RE) as (k' & shape' & st' & W). assert (NOE : n_ordinary (e_mdp e) = 2). { destruct (wf_agents _ _ _ _ W a ltac:(rewrite AL; now left)) as (_ & X & _). destruct (HI 0 _ eq_refl) as (a2 & Ea2 & (_ & _ & _ & _ & _ & I1 & I2 & _) & _). assert (a2 = a) by congruence. subst a2. unfold n_ordinary. rewrite (wf_nf _ _ _ _ W). rewrite NO in I2. lia. }
  exists m, m', e, a. split; [exact U|]. split; [exact E|]. split; [exact RE|]. split; [split; [rewrite AL; now left|exact A1]|]. split; [|split].
  - intros x f Hx Hn Hf. rewrite NOE. rewrite AL in Hx. destruct Hx as [<-|[<-|[]]]; [cbn in A1; congruence|]. rewrite B3 in Hf. cbn in Hf. destruct f as [|[|[|[|f]]]]; try lia; try (now elim Hf); destruct f; now elim Hf.
  - intros x z z' Hx Hz Hz'. rewrite AL in Hx. destruct Hx as [<-|[<-|[]]]; rewrite ?A4, ?B4 in *; cbn in Hz, Hz'; destruct Hz as [<-|[]], Hz' as [<-|[]]; reflexivity.
  - apply C112_undisturbed_partial; [exact RE|]. repeat constructor.
Qed.
Example C112_example : exists m m' e f k e' f' k1 k2, grid_mdp (A:=Q) Square ex_ft None (2, 2) false = Ok m /\ make_env m food_specs = (m', Ok e) /\
  let cfg := mkMCTS 2 0%Q (-100)%Q true (OppSolve select_max) true 3 (1 # 2)%Q (1 # 2)%Q in
  let fit e k := let* a := lookup e "p" in kept_fit mean_score cfg e a (Some [[1; 1]; [1; 1]]%Z) k (fun i t => i) 30 in
  fit e None = Ok (f, k) /\ map (@length _) k = [0; 4] /\ e' = do_op (ex_pl []) e (OSetPosition "p" 1) /\ fit e' (Some k) = Ok (f', k1) /\ fit e' None = Ok (f', k2) /\ map (@length _) k1 = [0; 6].
Proof. do 9 eexists. do 2 (split; [vm_compute; reflexivity|]). cbv zeta. split; [vm_compute; reflexivity|]. split; [vm_compute; reflexivity|]. split; [reflexivity|]. vm_compute. auto. Qed.

(** A fit that raises leaves entries behind, and the next fit makes use of them without harm: the schedule of the
    second fit gives the other agent one turn too few. *)
Example C112_raises_example : exists m m' e f k e' k1 f' k2 k3, grid_mdp (A:=Q) Square ex_ft None (2, 2) false = Ok m /\ make_env m food_specs = (m', Ok e) /\
  let cfg := mkMCTS 2 0%Q (-100)%Q true (OppSolve select_max) true 3 (1 # 2)%Q (1 # 2)%Q in
  let fit e n k := let* a := lookup e "p" in kept_fit mean_score cfg e a (Some n) k (fun i t => i) 30 in
  let after e n k := let* a := lookup e "p" in Ok (kept_after mean_score cfg e a (Some n) k (fun i t => i) 30) in
  fit e [[1; 1]; [1; 1]]%Z None = Ok (f, k) /\ map (@length _) k = [0; 4] /\ e' = do_op (ex_pl []) e (OSetPosition "p" 1) /\
  fit e' [[2; 1; 1]; [1]]%Z (Some k) = Err IndexError /\ after e' [[2; 1; 1]; [1]]%Z (Some k) = Ok (Some k1) /\ map (@length _) k1 = [0; 5] /\
  after e' [[2; 1; 1]; [1]]%Z None = Ok None /\
  fit e' [[1; 1]; [1; 1]]%Z (Some k1) = Ok (f', k2) /\ fit e' [[1; 1]; [1; 1]]%Z None = Ok (f', k3).
Proof. do 10 eexists. do 2 (split; [vm_compute; reflexivity|]). cbv zeta. split; [vm_compute; reflexivity|]. split; [vm_compute; reflexivity|]. split; [reflexivity|]. do 5 (split; [vm_compute; reflexivity|]). vm_compute; reflexivity. Qed.
