(** C35, C36: search iterations are legal bounded walks; search statistics. *)
From Coq Require Import String List ZArith QArith Reals Bool Lia Lra.
From Verif Require Import PyBase PyProofs MDPModel MDPProofs MDPProps ActionModel ActionSpec ActionProofs SoftmaxModel EnvModel PlanProps RSum VIModel MCTSModel MCTSSpec MCTSProofs MCTSProofs2 MCTSProofs3 MCTSProps.
Import ListNotations.
Local Close Scope Q_scope.
Local Open Scope nat_scope.

Lemma caught_by : forall score c (V N : list R) rnd k fuel st, length (s_consumes_agents c) = length (s_start c) -> (forall row, In row (s_consumes_agents c) -> length row = length (s_start c)) -> 0 < length (s_start c) ->
  it_loop score c V N rnd fuel (it_start c k) = Ok (st, true) ->
  s_interactive c = true /\ exists i, i < length (s_start c) /\ eats (s_consumes_agents c) (it_nodes st) i 0 = true.
Proof.
  intros score c V N rnd k fuel st L1 L2 Hn H.
  assert (G : length (it_active (it_start c k)) = length (s_start c)) by apply repeat_length.
  cut (true = true -> s_interactive c = true /\ exists i, i < length (s_start c) /\ eats (s_consumes_agents c) (it_nodes st) i 0 = true); [auto|].
  revert H. generalize true at 1 2 as b. intros b. apply (it_loop_inv score c V N rnd (fun st => length (it_active st) = length (s_start c))
     (fun st b => b = true -> s_interactive c = true /\ exists i, i < length (s_start c) /\ eats (s_consumes_agents c) (it_nodes st) i 0 = true)); [| |discriminate|exact G].
  - intros s s' LA _ B. apply it_body_inv in B. destruct B as (row & q & _ & _ & [(K & [(s1 & M & E)|(s1 & M & E)])|(K & E)]); [|discriminate|].
    + assert (II : forall (x y : it_state R), @inl _ (it_state R) x = inl y -> x = y) by (intros ? ? X; now inversion X). apply II in E. subst s'. destruct (it_next_fields c q s1) as (_ & _ & _ & _ & _ & -> & _).
      apply it_move_ok in M. destruct M as (ft & ad & ac & acts & _ & OV & _ & _ & _ & _ & -> & _). unfold overlap_of in OV. destruct (s_interactive c); [|congruence].
      destruct (Exists_dec (fun i => eats (s_consumes_agents c) (it_nodes s) i 0 = true) (seq 0 (length (s_start c))) ltac:(intros; apply bool_dec)) as [X|X].
      * exfalso. pose proof (C38_caught_iff _ _ _ _ _ _ _ _ _ L1 L2 Hn LA OV) as CI. apply Exists_exists in X. destruct X as (i & Hi & Ei). apply in_seq in Hi. destruct CI as [_ CI]. discriminate CI. exists i. split; [lia|exact Ei].
      * destruct (C38_not_caught (length (s_start c)) (s_consumes_agents c) (it_nodes s) (s_cost c) (it_active s) (s_values c) L1 L2 Hn LA) as (a' & E & LA' & _).
        { intros i Hi. destruct (eats _ _ i 0) eqn:EI; [|reflexivity]. exfalso. apply X. apply Exists_exists. exists i. split; [apply in_seq; lia|exact EI]. }
        rewrite OV in E. inversion E. subst. exact LA'.
    + assert (II : forall (x y : it_state R), @inl _ (it_state R) x = inl y -> x = y) by (intros ? ? X; now inversion X). apply II in E. subst s'. destruct (it_next_fields c q s) as (_ & _ & _ & _ & _ & -> & _). exact LA.
  - intros s s' LA _ B _. apply it_body_inv in B. destruct B as (row & q & _ & _ & [(K & [(s1 & M & E)|(s1 & M & E)])|(K & E)]); [discriminate| |discriminate].
    inversion E. subst s1. apply it_move_caught in M. destruct M as (ft & ad & ac & _ & OV & ->). cbn [it_nodes]. unfold overlap_of in OV. destruct (s_interactive c); [|discriminate]. split; [reflexivity|].
    now apply (C38_caught_iff _ _ _ _ _ _ _ _ _ L1 L2 Hn LA OV).
Qed.

(** Interactive search, any number of agents. With enough fuel the iteration ends (with a result or an
    exception), for every scorer and every sequence of draws. If it yields a result, the visited states are
    a walk from the primary agent's state; there are never more of them than planned for it, and fewer
    only if another agent that consumes it stands in its state at the end. *)
Theorem C35_interactive : forall score c (V N : list R) k rnd s0, 0 < length (s_start c) -> regular_schedule (length (s_start c)) (s_n_moves c) -> s_interactive c = true ->
  terminates (s_policy c) -> length (s_consumes_agents c) = length (s_start c) -> (forall row, In row (s_consumes_agents c) -> length row = length (s_start c)) ->
  py_index (length (s_sas c)) (nth 0 (s_start c) 0%Z) = Ok s0 ->
  exists fuel0, forall fuel, fuel0 <= fuel ->
    match it_loop score c V N rnd fuel (it_start c k) with
    | Ok (st, caught) =>
        mcts_iteration score c V N k rnd fuel = Ok (it_reward st, it_visited st, it_cache st, it_others st) /\
        walk (s_sas c) s0 (it_visited st) /\
        (Z.of_nat (length (it_visited st)) <= planned (s_n_moves c) 0)%Z /\
        (caught = false -> Z.of_nat (length (it_visited st)) = planned (s_n_moves c) 0) /\
        (caught = true -> exists i, i < length (s_start c) /\ eats (s_consumes_agents c) (it_nodes st) i 0 = true)
    | Err x => x <> Diverges
    end.
Proof.
  intros score c V N k rnd s0 Hn (Lm & (T & LT) & NN) INT TP LC1 LC2 P0. exists (enough c T). intros fuel Hf.
  pose proof (interactive_terminates score c V N rnd T Hn Lm LT NN INT TP k fuel Hf) as NT.
  destruct (it_loop score c V N rnd fuel (it_start c k)) as [[st b]|x] eqn:E; [|congruence].
  split; [unfold mcts_iteration; now rewrite E|].
  destruct (interactive_length score c V N rnd T Hn Lm LT NN INT k fuel st b E) as [I1 I2]. destruct (loop_walk score c V N rnd s0 Hn P0 k fuel st b E) as (_ & W & _).
  split; [exact W|]. split; [exact I1|]. split; [exact I2|]. intros ->. eapply caught_by; eauto.
Qed.
(** The opponents' selectors of the library meet the termination hypothesis. *)
Example C35_selectors : (forall A (NA : Num A), terminates (OppSolve (select_max (A:=A)))) /\ (forall t u, terminates (OppSolve (select_softmax t u))) /\ terminates (@OppRandom R).
Proof.
  split; [|split; [|exact I]].
  - intros A NA row d H. unfold select_max, random_max, max_actions in H. destruct row; discriminate.
  - intros t u row d H. unfold select_softmax in H. apply (f_equal is_ok) in H as H'. destruct (mapM _ _) as [ps|e] eqn:E; cbn [bind] in H; [discriminate|]. inversion H. subst e. clear H H'. revert E. generalize (softmax row t). induction l as [|v l IH]; intros E; [discriminate|].
    cbn [mapM] in E. destruct (fin_of v); cbn [bind] in E; [|discriminate]. destruct (mapM _ l); cbn [bind] in E; [discriminate|]. inversion E. subst. now apply IH.
Qed.

(** * Without interaction *)
Section Alone.
Variables (score : scorer R) (c : search R) (V N : list R) (rnd : nat -> nat).
Hypotheses (Hn : 0 < length (s_start c)) (INT : s_interactive c = false).
Definition alone (st : it_state R) : Prop :=
  it_actor st = 0 /\ nth 0 (it_turns st) 0 = 0 /\ it_total st = Z.of_nat (length (it_visited st)) /\ (it_total st <= Z.max 0 (n_steps c))%Z.
Lemma alone_start : forall k, alone (it_start c k).
Proof using Hn. intros k. unfold alone, it_start. cbn [it_actor it_turns it_total it_visited length]. rewrite nth_repeat. repeat split; lia. Qed.
Lemma alone_next : forall k st, it_next c k st = st.
Proof using INT. intros k st. unfold it_next. now rewrite INT. Qed.
Lemma alone_body : forall st r, alone st -> (it_total st < n_steps c)%Z -> it_body score c V N rnd st = Ok r -> 
  (exists st', r = inl st' /\ alone st' /\ ((0 < nth 0 (nth 0 (s_n_moves c) []) 0)%Z -> it_total st' = it_total st + 1)%Z).
Proof using Hn INT.
  intros st r (A0 & T0 & TV & TL) LT B. apply it_body_inv in B. destruct B as (row & k & E1 & E2 & B). rewrite A0, T0 in *.
  assert (K : nth 0 (nth 0 (s_n_moves c) []) 0%Z = k). { rewrite (nth_error_nth _ _ [] E1). now apply nth_error_nth. }
  destruct B as [(KP & [(s1 & M & ->)|(s1 & M & ->)])|(KP & ->)]; rewrite ?alone_next.
  - exists s1. split; [reflexivity|]. apply it_move_ok in M. destruct M as (ft & ad & ac & acts & _ & _ & _ & T1 & A1 & U1 & _ & _ & WH & _). split; [|auto].
    unfold alone. rewrite A1, U1, T1. split; [exact A0|]. split; [exact T0|]. destruct WH as [(_ & x & _ & _ & -> & _)|[(X & _)|(X & _)]]; [|congruence|congruence]. rewrite app_length. cbn. lia.
  - apply it_move_caught in M. destruct M as (ft & ad & ac & _ & OV & _). unfold overlap_of in OV. rewrite INT in OV. discriminate.
  - exists st. split; [reflexivity|]. split; [unfold alone; auto|]. lia.
Qed.
End Alone.

(** Without interaction the walk has as many steps as there are moves in the whole schedule, provided the
    first entry of the schedule is positive. *)
Theorem C35_alone_partial : forall score c (V N : list R) k rnd s0, 0 < length (s_start c) -> s_interactive c = false -> terminates (s_policy c) ->
  py_index (length (s_sas c)) (nth 0 (s_start c) 0%Z) = Ok s0 -> (0 < nth 0 (nth 0 (s_n_moves c) []) 0)%Z ->
  exists fuel0, forall fuel, fuel0 <= fuel ->
    match mcts_iteration score c V N k rnd fuel with
    | Ok (reward, visited, _, _) => walk (s_sas c) s0 visited /\ Z.of_nat (length visited) = Z.max 0 (n_steps c)
    | Err x => x <> Diverges
    end.
Proof.
  intros score c V N k rnd s0 Hn INT TP P0 KP. exists (S (Z.to_nat (n_steps c))). intros fuel Hf. unfold mcts_iteration.
  assert (NT : it_loop score c V N rnd fuel (it_start c k) <> Err Diverges).
  { apply (it_loop_fuel score c V N rnd (alone c) (fun st => Z.to_nat (n_steps c - it_total st))).
    - intros st st' A L B. destruct (alone_body score c V N rnd Hn INT st _ A L B) as (s & E & A' & T'). inversion E. subst s. split; [exact A'|]. specialize (T' KP). lia.
    - intros st _. now apply it_body_nodiv.
    - now apply alone_start.
    - cbn [it_start it_total]. rewrite Z.sub_0_r. lia. }
  destruct (it_loop score c V N rnd fuel (it_start c k)) as [[st b]|x] eqn:E; cbn [bind]; [|congruence].
  destruct (loop_walk score c V N rnd s0 Hn P0 k fuel st b E) as (_ & W & _). split; [exact W|].
  revert E. apply (it_loop_inv score c V N rnd (alone c) (fun st _ => Z.of_nat (length (it_visited st)) = Z.max 0 (n_steps c))).
  - intros s s' A L B. destruct (alone_body score c V N rnd Hn INT s _ A L B) as (s1 & E & A' & _). now inversion E.
  - intros s s' A L B. destruct (alone_body score c V N rnd Hn INT s _ A L B) as (s1 & E & _). discriminate.
  - intros s (_ & _ & TV & TL) L. lia.
  - now apply alone_start.
Qed.
(** If the first entry is not positive although there are moves to make, the iteration never ends. *)
Theorem C35_alone_refuted : forall score c (V N : list R) k rnd row, s_interactive c = false -> nth_error (s_n_moves c) 0 = Some row -> (exists z, nth_error row 0 = Some z /\ (z <= 0)%Z) -> (0 < n_steps c)%Z ->
  forall fuel, mcts_iteration score c V N k rnd fuel = Err Diverges.
Proof.
  intros score c V N k rnd row INT E1 (z & E2 & Z0) NS fuel. unfold mcts_iteration.
  assert (G : it_loop score c V N rnd fuel (it_start c k) = Err Diverges).
  { assert (T0 : nth 0 (it_turns (it_start c k)) 0 = 0) by apply nth_repeat. assert (T1 : it_total (it_start c k) = 0%Z) by reflexivity. assert (A1 : it_actor (it_start c k) = 0) by reflexivity.
    generalize dependent (it_start c k). intros st T0 T1 A1. induction fuel as [|fuel IH]; [reflexivity|]. cbn [it_loop]. rewrite T1. destruct (Z.ltb_spec 0 (n_steps c)); [|lia].
    unfold it_body. rewrite A1, T0, E1, E2. destruct (Z.ltb_spec 0 z); [lia|]. cbn [bind]. rewrite (alone_next c INT). exact IH. }
  now rewrite G.
Qed.
(** Two agents one of which does not move in the first turn; a schedule of the same kind is fine in
    interactive mode. *)
Definition quiet (int : bool) : search Q :=
  mkSearch int row3 [[1; 0; 0]; [0; 1; 0]; [0; 0; 1]]%Q [1; 2]%Z [[0; 2]; [1; 1]]%Z [[false; false]; [false; false]] [[true; false; false]; [false; false; false]]
    [0; 0]%Q [[1; 0; 0]; [1; 0; 0]]%Q [1; 2] 0%Q 0%Q OppRandom false 1 0%Q 0%Q.
Example C35_example : mcts_iteration (A:=Q) mean_score (quiet true) [0; 0; 0]%Q [0; 0; 0]%Q [[]; []] (fun _ => 1) 20 = Ok (1%Q, [0; 1], [[]; []], [[1; 0]]) /\
  mcts_iteration (A:=Q) mean_score (quiet false) [0; 0; 0]%Q [0; 0; 0]%Q [[]; []] (fun _ => 1) 1000 = Err Diverges.
Proof. vm_compute. auto. Qed.

(** * C36 *)
Lemma backprop_spec : forall visited (V N : list R) reward, length V = length N -> (forall v, In v visited -> v < length N) ->
  let '(V', N') := backprop (V, N) reward visited in
  length V' = length V /\ length N' = length N /\
  forall s, nth s N' 0%R = (nth s N 0 + INR (occurrences s visited))%R /\ nth s V' 0%R = (nth s V 0 + INR (occurrences s visited) * reward)%R.
Proof.
  induction visited as [|v l IH]; intros V N reward L H; cbn [backprop fold_left].
  - split; [reflexivity|]. split; [reflexivity|]. intros s. cbn. split; lra.
  - assert (Lv : v < length N) by (apply H; now left).
    specialize (IH (upd V v (nadd (nth v V n0) reward)) (upd N v (nadd (nth v N n0) n1)) reward). unfold backprop in IH. rewrite !upd_length in IH.
    specialize (IH L ltac:(intros; apply H; now right)). destruct (fold_left _ l _) as [V' N']. destruct IH as (A1 & A2 & A3). split; [exact A1|]. split; [exact A2|].
    intros s. destruct (A3 s) as [B1 B2]. rewrite B1, B2. unfold occurrences. cbn [count_occ]. destruct (Nat.eq_dec v s) as [->|D].
    + rewrite !nth_upd_same by lia. rewrite S_INR. cbn [nadd n1 n0 NumR]. split; lra.
    + rewrite !nth_upd_other by congruence. split; lra.
Qed.

(** Statistics after some iterations with the given rewards and visited states. *)
Definition visits (states : list (list nat)) (s : nat) : R := sumf (fun l => INR (occurrences s l)) states.
Definition value_total (rewards : list R) (states : list (list nat)) (s : nat) : R := sumf (fun p => (INR (occurrences s (snd p)) * fst p)%R) (combine rewards states).

Lemma walk_bound : forall nS nA sas, shape3 nS nA nS sas -> forall l s, s < nS -> walk sas s l -> forall v, In v l -> v < nS.
Proof.
  intros nS nA sas [L SH]. induction l as [|t l IH]; intros s Hs W v Hv; [destruct Hv|]. destruct W as [(a & G) W].
  assert (Ht : t < nS).
  { unfold get3 in G. destruct (SH s Hs) as [L1 S1]. destruct (Nat.lt_ge_cases a nA) as [La|La]; [|rewrite (nth_overflow (nth s sas [])) in G by lia; destruct t; now contradiction G].
    specialize (S1 a La). destruct (Nat.lt_ge_cases t nS) as [|Lt]; [assumption|]. rewrite (nth_overflow (nth a (nth s sas []) [])) in G by lia. now contradiction G. }
  destruct Hv as [<-|Hv]; [exact Ht|]. eapply IH; eauto.
Qed.
Lemma combine_snoc : forall A B (l1 : list A) (l2 : list B) x y, length l1 = length l2 -> combine (l1 ++ [x]) (l2 ++ [y]) = combine l1 l2 ++ [(x, y)].
Proof. induction l1 as [|a l1 IH]; intros [|b l2] x y L; try discriminate; [reflexivity|]. cbn. rewrite IH; [reflexivity|]. cbn in L. lia. Qed.
Lemma visits_snoc : forall sts v s, visits (sts ++ [v]) s = (visits sts s + INR (occurrences s v))%R.
Proof. intros. unfold visits. rewrite sumf_app, sumf_cons, sumf_nil. lra. Qed.
Lemma value_snoc : forall rs sts r v s, length rs = length sts -> value_total (rs ++ [r]) (sts ++ [v]) s = (value_total rs sts s + INR (occurrences s v) * r)%R.
Proof. intros. unfold value_total. rewrite combine_snoc by assumption. rewrite sumf_app, sumf_cons, sumf_nil. cbn [fst snd]. lra. Qed.

Lemma search_stats : forall score c rnd fuel nS nA s0, shape3 nS nA nS (s_sas c) -> 0 < length (s_start c) -> py_index nS (nth 0 (s_start c) 0%Z) = Ok s0 ->
  forall todo i V N k states rewards V' N' k' states', length V = nS -> length N = nS -> length rewards = length states -> length states = i ->
  (forall s, s < nS -> nth s N 0%R = visits states s /\ nth s V 0%R = value_total rewards states s) ->
  search_loop score c rnd fuel i todo V N k states = Ok (V', N', k', states') ->
  length V' = nS /\ length N' = nS /\ exists more rmore, states' = states ++ more /\ length more = todo /\ length rmore = todo /\
    (forall s, s < nS -> nth s N' 0%R = visits (states ++ more) s /\ nth s V' 0%R = value_total (rewards ++ rmore) (states ++ more) s) /\
    (forall j, j < todo -> exists V1 N1 k1 k2 o, (forall s, s < nS -> nth s N1 0%R = visits (states ++ firstn j more) s /\ nth s V1 0%R = value_total (rewards ++ firstn j rmore) (states ++ firstn j more) s) /\
       mcts_iteration score c V1 N1 k1 (rnd (i + j)) fuel = Ok (nth j rmore 0%R, nth j more [], k2, o)).
Proof.
  intros score c rnd fuel nS nA s0 SH Hn P0. induction todo as [|todo IH]; intros i V N k states rewards V' N' k' states' LV LN LR LS ST H; cbn [search_loop] in H.
  - assert (V' = V /\ N' = N /\ states' = states) as (-> & -> & ->) by (inversion H; auto). split; [exact LV|]. split; [exact LN|]. exists [], []. rewrite !app_nil_r. repeat (split; [now auto|]). intros j Hj. lia.
  - apply bind_ok in H. destruct H as ([[[reward visited] k1] o] & MI & H).
    assert (WK : forall v, In v visited -> v < nS).
    { unfold mcts_iteration in MI. apply bind_ok in MI. destruct MI as ([st b] & E & MI). assert (it_visited st = visited) as <- by (now inversion MI).
      assert (PL : length (s_sas c) = nS) by (apply SH). rewrite <- PL in P0.
      destruct (loop_walk score c V N (rnd i) s0 Hn P0 k fuel st b E) as (_ & W & _). eapply walk_bound; eauto. apply py_index_ok in P0. lia. }
    pose proof (backprop_spec visited V N reward ltac:(lia) ltac:(intros v Hv; rewrite LN; auto)) as BP. destruct (backprop (V, N) reward visited) as [V1 N1]. destruct BP as (B1 & B2 & B3).
    destruct (IH (S i) V1 N1 k1 (states ++ [visited]) (rewards ++ [reward]) V' N' k' states') as (C1 & C2 & more & rmore & C3 & C4 & C5 & C6 & C7).
    + lia.
    + lia.
    + rewrite !app_length. cbn. lia.
    + rewrite app_length. cbn. lia.
    + intros s Hs. destruct (B3 s) as [D1 D2]. destruct (ST s Hs) as [E1 E2]. rewrite D1, D2, E1, E2, visits_snoc, value_snoc by assumption. split; reflexivity.
    + exact H.
    + split; [exact C1|]. split; [exact C2|]. exists (visited :: more), (reward :: rmore). rewrite <- !app_assoc in *. cbn [app] in *. split; [exact C3|]. split; [cbn; lia|]. split; [cbn; lia|]. split.
      * intros s Hs. specialize (C6 s Hs). rewrite <- ?app_assoc in C6. exact C6.
      * intros [|j] Hj.
        -- exists V, N, k, k1, o. cbn [firstn nth]. rewrite !app_nil_r. split; [exact ST|]. rewrite Nat.add_0_r. exact MI.
        -- destruct (C7 j ltac:(lia)) as (V2 & N2 & k2 & k3 & o2 & Q1 & Q2). exists V2, N2, k2, k3, o2. split; [|rewrite Nat.add_succ_r; exact Q2].
           intros s Hs. specialize (Q1 s Hs). rewrite <- ?app_assoc in Q1. exact Q1.
Qed.

(** After [n] iterations: the recorded walks [states] and their rewards are those of [n] iterations, each
    run with the statistics of the ones before; a state's visit count is the number of its occurrences in
    them, its accumulated value the sum over its occurrences of the reward of the iteration. *)
Theorem C36_statistics : forall score c rnd fuel nS nA s0 n k V N k' states, shape3 nS nA nS (s_sas c) -> 0 < length (s_start c) -> py_index nS (nth 0 (s_start c) 0%Z) = Ok s0 ->
  search_loop score c rnd fuel 0 n (zeros1 nS) (zeros1 nS) k [] = Ok (V, N, k', states) ->
  length states = n /\ length V = nS /\ length N = nS /\ exists rewards, length rewards = n /\
    (forall s, s < nS -> nth s N 0%R = visits states s /\ nth s V 0%R = value_total rewards states s) /\
    (forall j, j < n -> exists V1 N1 k1 k2 o, (forall s, s < nS -> nth s N1 0%R = visits (firstn j states) s /\ nth s V1 0%R = value_total (firstn j rewards) (firstn j states) s) /\
       mcts_iteration score c V1 N1 k1 (rnd j) fuel = Ok (nth j rewards 0%R, nth j states [], k2, o)).
Proof.
  intros score c rnd fuel nS nA s0 n k V N k' states SH Hn P0 H.
  destruct (search_stats score c rnd fuel nS nA s0 SH Hn P0 n 0 (zeros1 nS) (zeros1 nS) k [] [] V N k' states) as (A1 & A2 & more & rm & A3 & A4 & A5 & A6 & A7); auto.
  - unfold zeros1. apply repeat_length.
  - unfold zeros1. apply repeat_length.
  - intros s Hs. unfold zeros1. rewrite nth_repeat. cbn. split; reflexivity.
  - cbn [app] in *. subst more. split; [exact A4|]. split; [exact A1|]. split; [exact A2|]. exists rm. auto.
Qed.
Example C36_example : exists V N k st, search_loop (A:=Q) mean_score (quiet true) (fun i _ => i) 20 0 3 [0; 0; 0]%Q [0; 0; 0]%Q [[]; []] [] = Ok (V, N, k, st) /\
  st = [[2; 1]; [0; 1]; [0; 1]] /\ N = [2; 3; 1]%Q /\ V = [2; 2; 0]%Q.
Proof. do 4 eexists. vm_compute. auto 10. Qed.
