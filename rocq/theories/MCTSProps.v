(** C35-C38, C44: search iterations, tree policy, overlaps, agent tables. *)
From Coq Require Import String List ZArith QArith Reals Bool Lia Lra.
From Verif Require Import PyBase PyProofs MDPModel MDPProps ActionModel ActionSpec ActionProofs SoftmaxModel EnvModel PlanProps RSum VIModel MCTSModel MCTSSpec MCTSProofs MCTSProofs2 MCTSProofs3.
Import ListNotations.
Local Close Scope Q_scope.
Local Open Scope nat_scope.

(** * C38: who eats whom *)
Lemma hit_eats : forall consumes nodes i j, nth j (nth i consumes []) false = true -> hit nodes (i, j) = eats consumes nodes i j.
Proof. intros. unfold hit, eats. rewrite H. reflexivity. Qed.
Lemma pairs_eats : forall consumes nodes i j, In (i, j) (true_pairs consumes) /\ hit nodes (i, j) = true <-> i < length consumes /\ eats consumes nodes i j = true.
Proof.
  intros consumes nodes i j. rewrite in_true_pairs. unfold eats. rewrite andb_true_iff. unfold hit. cbn [fst snd]. tauto.
Qed.
Lemma eaten_sum : forall n consumes nodes values l, length consumes = n -> (forall row, In row consumes -> length row = n) -> 0 < n ->
  (l = true_pairs consumes \/ exists i0, 0 < i0 < n /\ l = concat (map (fun i => map (pair i) (where_ (fun b => b) (nth i consumes []))) (seq 0 i0))) ->
  Rsum (map (fun p => nth (snd p) values 0%R) (filter (fun p => hit nodes p && (fst p =? 0)) l)) = eaten_value n consumes nodes values.
Proof.
  intros n consumes nodes values l Lc Lr Hn H.
  assert (G : forall m, 0 < m <= n -> Rsum (map (fun p => nth (snd p) values 0%R) (filter (fun p => hit nodes p && (fst p =? 0)) (concat (map (fun i => map (pair i) (where_ (fun b => b) (nth i consumes []))) (seq 0 m))))) = eaten_value n consumes nodes values).
  { intros m Hm. destruct m as [|m]; [lia|]. cbn [seq map concat]. rewrite filter_app, (filter_nil _ _ (concat _)).
    - rewrite app_nil_r, Rsum_map_filter, map_map, where_filter, (Lr (nth 0 consumes [])) by (apply nth_In; lia). rewrite Rsum_map_filter. unfold eaten_value, sumf. f_equal. apply map_ext. intros j.
      cbn [fst snd]. unfold eats, hit. cbn [fst snd]. rewrite Nat.eqb_refl, andb_true_r. destruct (nth j (nth 0 consumes []) false); reflexivity.
    - intros p Hp. apply in_concat in Hp. destruct Hp as (b & Hb & Hp). apply in_map_iff in Hb. destruct Hb as (i & <- & Hi). apply in_seq in Hi. apply in_map_iff in Hp. destruct Hp as (j & <- & _). cbn [fst]. destruct (Nat.eqb_spec i 0); [lia|apply andb_false_r]. }
  destruct H as [->|(i0 & Hi & ->)]; [rewrite true_pairs_blocks, Lc; apply G; lia|apply G; lia].
Qed.

(** Nobody eats the primary agent: it gains the values of the agents it eats, and exactly the agents that are
    eaten become inactive. *)
Theorem C38_not_caught : forall n consumes nodes cost active values, length consumes = n -> (forall row, In row consumes -> length row = n) -> 0 < n -> length active = n ->
  (forall i, i < n -> eats consumes nodes i 0 = false) ->
  exists active', check_agent_overlap consumes nodes cost active values = (eaten_value n consumes nodes values, active', false) /\ length active' = n /\
    forall j, j < n -> (nth j active' true = false <-> nth j active true = false \/ exists i, i < n /\ eats consumes nodes i j = true).
Proof.
  intros n consumes nodes cost active values Lc Lr Hn La H. unfold check_agent_overlap.
  rewrite overlap_clear.
  - eexists. split; [f_equal; f_equal|].
    + rewrite fold_reward, (eaten_sum n consumes) by auto. cbn. lra.
    + split; [now rewrite fold_upd_length|]. intros j Hj. rewrite fold_upd_false. split.
      * intros [_ [X|([i j'] & Hp & Hh & E)]]; [now left|]. cbn in E. subst j'. right. exists i. rewrite <- Lc. now apply pairs_eats.
      * intros X. split; [lia|]. destruct X as [X|(i & Hi & X)]; [now left|]. right. exists (i, j). rewrite <- Lc in Hi. destruct (proj2 (pairs_eats consumes nodes i j) (conj Hi X)). auto.
  - intros [i j] Hp Hh. cbn. intros ->. destruct (proj1 (pairs_eats consumes nodes i 0) (conj Hp Hh)) as [Hi E]. rewrite H in E by lia. discriminate.
Qed.
(** Agent [i0] is the first to eat the primary agent: the primary agent is charged for it, in addition to
    what it has eaten; besides it, exactly the agents eaten by earlier agents become inactive. (An agent that
    consumes itself is caught before it eats anything.) *)
Theorem C38_caught : forall n consumes nodes cost active values i0, length consumes = n -> (forall row, In row consumes -> length row = n) -> 0 < n -> length active = n ->
  i0 < n -> eats consumes nodes i0 0 = true -> (forall i, i < i0 -> eats consumes nodes i 0 = false) ->
  exists active', check_agent_overlap consumes nodes cost active values = (((if i0 =? 0 then 0 else eaten_value n consumes nodes values) + cost)%R, active', true) /\ length active' = n /\
    forall j, j < n -> (nth j active' true = false <-> nth j active true = false \/ j = 0 \/ exists i, i < i0 /\ eats consumes nodes i j = true).
Proof.
  intros n consumes nodes cost active values i0 Lc Lr Hn La Hi E H. unfold check_agent_overlap.
  set (blk := fun i => map (pair i) (where_ (fun b : bool => b) (nth i consumes []))).
  assert (SP : exists r, true_pairs consumes = concat (map blk (seq 0 i0)) ++ (i0, 0) :: r).
  { rewrite true_pairs_blocks, Lc. replace n with (i0 + (1 + (n - i0 - 1))) by lia. rewrite !seq_app, !map_app, !concat_app. fold blk. unfold eats in E. apply andb_true_iff in E. destruct E as [E _].
    destruct (where_true_0 _ E) as (r & W). eexists. f_equal. cbn [seq map concat Nat.add]. unfold blk at 1. rewrite W. cbn [map]. rewrite app_nil_r. cbn. reflexivity. }
  destruct SP as (r & SP).
  assert (IN : forall i j, In (i, j) (concat (map blk (seq 0 i0))) /\ hit nodes (i, j) = true <-> i < i0 /\ eats consumes nodes i j = true).
  { intros i j. rewrite in_concat. split.
    - intros [(b & Hb & Hp) Hh]. apply in_map_iff in Hb. destruct Hb as (i' & <- & Hi'). apply in_seq in Hi'. unfold blk in Hp. apply in_map_iff in Hp. destruct Hp as (j' & X & Hj). inversion X. subst i' j'.
      split; [lia|]. apply (in_where _ _ _ _ false) in Hj. rewrite <- hit_eats; tauto.
    - intros [L X]. destruct (proj2 (pairs_eats consumes nodes i j)) as [Hp Hh]; [split; [lia|exact X]|]. split; [|exact Hh]. exists (blk i). split; [apply in_map, in_seq; lia|].
      unfold blk. apply in_map. apply (in_where _ _ _ _ false). apply in_true_pairs in Hp. split; [|tauto]. destruct (Nat.lt_ge_cases j (length (nth i consumes []))) as [|G]; [assumption|]. rewrite (nth_overflow _ _ G) in Hp. destruct Hp; discriminate. }
  rewrite SP, overlap_app.
  - cbn [overlap_loop]. assert (HH : (nth i0 nodes 0 =? nth 0 nodes 0)%Z = true) by (unfold eats in E; apply andb_true_iff in E; tauto). rewrite HH. cbn [Nat.eqb]. eexists. split; [f_equal; f_equal|].
    + rewrite fold_reward. cbn [nadd NumR]. destruct (Nat.eqb_spec i0 0) as [->|N0]; [cbn; lra|]. rewrite (eaten_sum n consumes nodes values _ Lc Lr Hn); [cbn; lra|]. right. exists i0. split; [lia|reflexivity].
    + split; [rewrite upd_length; now rewrite fold_upd_length|]. intros j Hj. destruct (Nat.eq_dec j 0) as [->|Nj].
      * rewrite nth_upd_same by (rewrite fold_upd_length; lia). tauto.
      * rewrite nth_upd_other by assumption. rewrite fold_upd_false. split.
        -- intros [_ [X|([i j'] & Hp & Hh & X)]]; [now left|]. cbn in X. subst j'. right. right. exists i. now apply IN.
        -- intros X. split; [lia|]. destruct X as [X|[X|(i & L & X)]]; [now left|contradiction|]. right. exists (i, j). destruct (proj2 (IN i j) (conj L X)). auto.
  - intros [i j] Hp Hh. cbn. intros ->. destruct (proj1 (IN i 0) (conj Hp Hh)) as [L X]. rewrite H in X by assumption. discriminate.
Qed.
Lemma least : forall (p : nat -> bool) n, (exists i, i < n /\ p i = true) -> exists i0, i0 < n /\ p i0 = true /\ forall i, i < i0 -> p i = false.
Proof.
  intros p. induction n as [|n IH]; intros (i & Hi & Ei); [lia|]. destruct (existsb p (seq 0 n)) eqn:X.
  - apply existsb_exists in X. destruct X as (j & Hj & Ej). apply in_seq in Hj. destruct IH as (i0 & L & Q); [exists j; split; [lia|exact Ej]|]. exists i0. split; [lia|exact Q].
  - assert (N : forall j, j < n -> p j = false). { intros j Hj. destruct (p j) eqn:Ej; [|reflexivity]. assert (existsb p (seq 0 n) = true) by (apply existsb_exists; exists j; split; [apply in_seq; lia|exact Ej]). congruence. }
    exists i. split; [exact Hi|]. split; [exact Ei|]. intros j Hj. apply N. lia.
Qed.
(** In short: being caught is being eaten. *)
Theorem C38_caught_iff : forall n consumes nodes (cost : R) active values r active' b, length consumes = n -> (forall row, In row consumes -> length row = n) -> 0 < n -> length active = n ->
  check_agent_overlap consumes nodes cost active values = (r, active', b) -> (b = true <-> exists i, i < n /\ eats consumes nodes i 0 = true).
Proof.
  intros n consumes nodes cost active values r active' b Lc Lr Hn La E.
  destruct (Exists_dec (fun i => eats consumes nodes i 0 = true) (seq 0 n) ltac:(intros; apply bool_dec)) as [X|X].
  - assert (exists i0, i0 < n /\ eats consumes nodes i0 0 = true /\ forall i, i < i0 -> eats consumes nodes i 0 = false) as (i0 & L & E0 & M).
    { apply least. apply Exists_exists in X. destruct X as (i & Hi & Ei). apply in_seq in Hi. exists i. split; [lia|exact Ei]. }
    destruct (C38_caught n consumes nodes cost active values i0 Lc Lr Hn La L E0 M) as (a & E1 & _). rewrite E in E1. inversion E1. subst. split; [eauto|reflexivity].
  - assert (M : forall i, i < n -> eats consumes nodes i 0 = false). { intros i Hi. destruct (eats consumes nodes i 0) eqn:EI; [|reflexivity]. exfalso. apply X. apply Exists_exists. exists i. split; [apply in_seq; lia|exact EI]. }
    destruct (C38_not_caught n consumes nodes cost active values Lc Lr Hn La M) as (a & E1 & _). rewrite E in E1. inversion E1. subst. split; [discriminate|]. intros (i & Hi & EI). rewrite M in EI by assumption. discriminate.
Qed.
(** Three agents; the third eats the first two, the first eats the second; all in one state. *)
Example C38_example :
  check_agent_overlap [[false; true; false]; [false; false; false]; [true; true; false]] [4; 4; 4]%Z (-50)%Q [true; true; true] [0; 3; 1]%Q = ((-47)%Q, [false; false; true], true) /\
  check_agent_overlap [[false; true; false]; [false; false; false]; [true; true; false]] [4; 4; 5]%Z (-50)%Q [true; true; true] [0; 3; 1]%Q = (3%Q, [true; false; true], false).
Proof. vm_compute. auto. Qed.

(** * C37: the tree policy *)
Lemma unexplored_spec : forall (N : list R) states s, In s (filter (fun s => neqb (nth s N n0) n0) states) <-> In s states /\ nth s N 0%R = 0%R.
Proof. intros N states s. rewrite filter_In. cbn. unfold Reqb. destruct (Req_EM_T (nth s N 0%R) 0); intuition discriminate. Qed.
Lemma pick_any : forall l x, In x l -> exists d, pick l d = Ok x.
Proof.
  intros l x H. apply (In_nth _ _ 0) in H. destruct H as (i & Li & E). exists i. destruct l as [|y l]; [cbn in Li; lia|]. unfold pick. rewrite Nat.mod_small by exact Li. now rewrite E.
Qed.
Lemma pick_ok : forall l d, l <> [] -> exists x, pick l d = Ok x /\ In x l.
Proof. intros l d H. destruct (pick l d) as [x|e] eqn:E; [exists x; split; [reflexivity|now apply pick_in in E]|]. destruct l; [congruence|discriminate]. Qed.

(** While expanding, if there are unvisited successors, one of them is chosen, expansion ends, and each of
    them is chosen for some draw. *)
Theorem C37_expand : forall score (V N : list R) states C node, (exists s, In s states /\ nth s N 0%R = 0%R) ->
  (forall d, exists x, mcts_next_node score true V N states C node d = Ok (x, false) /\ In x states /\ nth x N 0%R = 0%R) /\
  (forall s, In s states -> nth s N 0%R = 0%R -> exists d, mcts_next_node score true V N states C node d = Ok (s, false)).
Proof.
  intros score V N states C node (s & Hs & Z). unfold mcts_next_node. cbn [andb].
  assert (U : In s (filter (fun s => neqb (nth s N n0) n0) states)) by (apply unexplored_spec; auto).
  destruct (Nat.eqb_spec (length (filter (fun s => neqb (nth s N n0) n0) states)) 0) as [E|E]; [destruct (filter _ states); [destruct U|discriminate]|]. cbn [negb]. split.
  - intros d. destruct (pick_ok _ d (fun X => E (f_equal (@length nat) X))) as (x & P & I). rewrite P. exists x. split; [reflexivity|]. now apply unexplored_spec in I.
  - intros t Ht Zt. destruct (pick_any (filter (fun s => neqb (nth s N n0) n0) states) t) as (d & P); [now apply unexplored_spec|]. exists d. now rewrite P.
Qed.
(** After expansion, successors are drawn at random. *)
Theorem C37_simulate : forall score (V N : list R) states C node, states <> [] ->
  (forall d, exists x, mcts_next_node score false V N states C node d = Ok (x, false) /\ In x states) /\
  (forall s, In s states -> exists d, mcts_next_node score false V N states C node d = Ok (s, false)).
Proof.
  intros score V N states C node NE. unfold mcts_next_node. cbn [andb]. split.
  - intros d. destruct (pick_ok states d NE) as (x & P & I). rewrite P. exists x. auto.
  - intros s Hs. destruct (pick_any states s Hs) as (d & P). exists d. now rewrite P.
Qed.
Lemma all_explored : forall (N : list R) states, (forall s, In s states -> nth s N 0%R <> 0%R) -> filter (fun s => neqb (nth s N n0) n0) states = [].
Proof. intros N states H. apply filter_nil. intros s Hs. specialize (H s Hs). cbn. unfold Reqb. destruct (Req_EM_T (nth s N 0%R) 0); [contradiction|reflexivity]. Qed.
(** While expanding, if all successors have been visited and so has the current state, the successor with
    the greatest UCT score is chosen. *)
Theorem C37_exploit_partial : forall (V N : list R) states C node p d, states <> [] -> (forall s, In s states -> nth s N 0%R <> 0%R) ->
  py_index (length N) node = Ok p -> nth p N 0%R <> 0%R ->
  exists x, mcts_next_node uct true V N states C node d = Ok (x, true) /\ In x states /\
    forall y, In y states -> (uct_score V N C p y <= uct_score V N C p x)%R.
Proof.
  intros V N states C node p d NE AV HP NP. unfold mcts_next_node. cbn [andb]. rewrite (all_explored N states AV). cbn [length Nat.eqb negb].
  assert (SC : forall s, uct V N C node s = Fin (uct_score V N C p s)).
  { intros s. unfold uct. rewrite HP. unfold Reqb. destruct (Req_EM_T (nth p N 0%R) 0); [contradiction|reflexivity]. }
  assert (EM : map (uct V N C node) states = map (fun s => Fin (uct_score V N C p s)) states) by (apply map_ext; exact SC).
  unfold fargmax. rewrite EM.
  assert (W : where_ isnan (map (fun s => Fin (uct_score V N C p s)) states) = []).
  { destruct (where_ isnan _) as [|i r] eqn:E; [reflexivity|]. exfalso. assert (I : In i (where_ isnan (map (fun s => Fin (uct_score V N C p s)) states))) by (rewrite E; now left).
    apply (in_where _ _ _ _ NaN) in I. destruct I as [Li I]. rewrite map_length in Li. rewrite (nth_map_lt _ _ _ _ i NaN 0) in I by exact Li. discriminate. }
  rewrite W.
  destruct (max_actions_spec (map (fun s => Fin (uct_score V N C p s)) states)) as (l & MA & ND & NL & B).
  { intros E. apply map_eq_nil in E. contradiction. }
  { intros v Hv. apply in_map_iff in Hv. destruct Hv as (s & <- & _). discriminate. }
  unfold max_actions in MA. apply bind_ok in MA. destruct MA as (mx & FM & MA). rewrite FM. cbn [bind]. assert (OI : forall (x y : list nat), Ok x = Ok y -> x = y) by (intros ? ? X; now inversion X). apply OI in MA. rewrite MA.
  destruct l as [|i l]; [congruence|]. cbn [nth]. exists (nth i states 0). split; [reflexivity|].
  destruct (proj1 (B i) (or_introl eq_refl)) as [Li Bi]. rewrite map_length in Li. split; [now apply nth_In|].
  intros y Hy. apply (In_nth _ _ 0) in Hy. destruct Hy as (j & Lj & <-). specialize (Bi j ltac:(now rewrite map_length)). rewrite !(nth_map_lt _ _ _ _ _ _ 0) in Bi by assumption. exact Bi.
Qed.
(** C227: the best successor is taken once all have been visited. *)
Theorem C227_exploit : forall (V N : list R) states C node p d, states <> [] -> (forall s, In s states -> nth s N 0%R <> 0%R) ->
  py_index (length N) node = Ok p -> nth p N 0%R <> 0%R ->
  exists x, mcts_next_node uct true V N states C node d = Ok (x, true) /\ In x states /\
    forall y, In y states -> (uct_score V N C p y <= uct_score V N C p x)%R.
Proof. exact (@C37_exploit_partial). Qed.
(** While expanding, if all successors have been visited but the current state itself has not (the start
    of the search is not counted as visited until the walk returns to it), the score is NaN and the first
    successor is chosen, whatever the values. *)
Theorem C37_unvisited_refuted : forall (V N : list R) x states C node p d, (forall s, In s (x :: states) -> nth s N 0%R <> 0%R) ->
  py_index (length N) node = Ok p -> nth p N 0%R = 0%R ->
  mcts_next_node uct true V N (x :: states) C node d = Ok (x, true).
Proof.
  intros V N x states C node p d AV HP NP. unfold mcts_next_node. cbn [andb]. rewrite (all_explored N _ AV). cbn [length Nat.eqb negb map].
  assert (SC : uct V N C node x = NaN). { unfold uct. rewrite HP. unfold Reqb. destruct (Req_EM_T (nth p N 0%R) 0); [reflexivity|contradiction]. }
  rewrite SC. reflexivity.
Qed.
(** With exploration constant 0 the score is the mean value of the state (NaN if the current state is
    unvisited), so such searches can be run exactly. *)
Definition mean_score {A} `{Num A} : scorer A := fun V N _ node s =>
  match py_index (length N) node with
  | Err _ => NaN
  | Ok p => if neqb (nth p N n0) n0 then NaN else Fin (ndiv (nth s V n0) (nadd n1 (nth s N n0)))
  end.
Lemma mean_score_uct : forall V N node s, mean_score V N 0%R node s = uct V N 0%R node s.
Proof. intros V N node s. unfold mean_score, uct. destruct (py_index _ _); [|reflexivity]. cbn [neqb NumR n0]. destruct (Reqb _ _); [reflexivity|]. cbn [ndiv nadd n1 NumR]. f_equal. lra. Qed.
(** The agent stands in the middle of three states in a row; the only reward is in the state of the second
    of its two successors, and it looks one step ahead. Of 20 iterations, 19 go to the worthless
    successor. *)
Definition row3 : list (list (list Q)) := [[[0; 1; 0]; [0; 0; 0]]; [[0; 0; 1]; [1; 0; 0]]; [[0; 0; 0]; [0; 1; 0]]]%Q.
Theorem C37_search_refuted : exists V k st, run_mcts (A:=Q) mean_score false 20 [[1; 0; 0]; [0; 1; 0]]%Q row3 [mkInfo 1 1 [] [1; 0]%Q 1] 0%Q (Some [[1%Z]]) 0%Q OppRandom false 1 0%Q 0%Q
    None (fun _ _ => 0) 5 = Ok (V, [1; 0; 19]%Q, k, st) /\ V = [1; 0; 0]%Q /\ get_actions_states row3 1 = Ok [(0, 2); (1, 0)].
Proof. do 3 eexists. vm_compute. auto. Qed.
(** The hypotheses of [C37_exploit_partial]: the walk has returned to the start. *)
Example C37_example : mcts_next_node (A:=Q) mean_score true [1; 0; 0]%Q [1; 1; 1]%Q [2; 0] 0%Q 1%Z 0 = Ok (0, true).
Proof. vm_compute. reflexivity. Qed.

(** * C44: agent tables *)
Definition no_info {A} `{Num A} : info A := mkInfo 0 0 [] [] 0.
Lemma mask_spec : forall (i : info R) m, consume_mask i = Ok m ->
  length m = length (i_reward i) /\ forall f, nth f m false = true <-> f < length (i_reward i) /\ exists z, In z (i_consumes i) /\ py_index (length (i_reward i)) z = Ok f.
Proof.
  intros i m H. unfold consume_mask in H.
  assert (G : forall l m0 m, length m0 = length (i_reward i) -> foldM (fun m z => let* j := py_index (length m) z in Ok (upd m j true)) l m0 = Ok m ->
     length m = length (i_reward i) /\ forall f, nth f m false = true <-> f < length (i_reward i) /\ (nth f m0 false = true \/ exists z, In z l /\ py_index (length (i_reward i)) z = Ok f)).
  { clear. induction l as [|z l IH]; intros m0 m L H.
    - inversion H. subst. split; [exact L|]. intros f. split; [|intros [_ [X|(z & [] & _)]]; exact X]. intros X. split; [|now left]. destruct (Nat.lt_ge_cases f (length m)) as [|G]; [lia|]. rewrite (nth_overflow _ _ G) in X. discriminate.
    - cbn [foldM] in H. apply bind_ok in H. destruct H as (m1 & P & H). apply bind_ok in P. destruct P as (j & P & E). inversion E. subst m1. clear E. rewrite L in P.
      destruct (IH (upd m0 j true) m) as [L1 S1]; [now rewrite upd_length|exact H|]. split; [exact L1|]. intros f. rewrite S1. pose proof (py_index_ok _ _ _ P) as PK.
      split; intros [Lf X]; (split; [exact Lf|]).
      + destruct X as [X|(z' & Hz & X)]; [|right; exists z'; split; [now right|exact X]]. destruct (Nat.eq_dec f j) as [->|D]; [right; exists z; split; [now left|exact P]|]. rewrite nth_upd_other in X by assumption. now left.
      + destruct (Nat.eq_dec f j) as [->|D]; [left; apply nth_upd_same; lia|]. rewrite nth_upd_other by assumption. destruct X as [X|(z' & [<-|Hz] & X)]; [now left|congruence|right; eauto]. }
  destruct (G _ _ _ (map_length _ _) H) as [L S]. split; [exact L|]. intros f. rewrite S. split; intros [Lf X]; (split; [exact Lf|]); [|now right].
  destruct X as [X|X]; [|exact X]. rewrite (nth_map_lt _ _ _ _ f false 0%R) in X by exact Lf. discriminate.
Qed.
Lemma agent_of_feature_spec : forall (l : list (info R)) f a, NoDup (map i_feature l) -> (agent_of_feature l f = Some a <-> a < length l /\ i_feature (nth a l no_info) = f).
Proof.
  intros l f a ND. unfold agent_of_feature. fold (@no_info R _).
  assert (U : forall x y, x < length l -> y < length l -> i_feature (nth x l no_info) = i_feature (nth y l no_info) -> x = y).
  { intros x y Lx Ly E. apply (proj1 (NoDup_nth (map i_feature l) 0) ND); [now rewrite map_length|now rewrite map_length|]. now rewrite !(nth_map_lt _ _ _ _ _ 0 no_info). }
  destruct (filter (fun a => i_feature (nth a l no_info) =? f) (seq 0 (length l))) as [|x r] eqn:E.
  - split; [discriminate|]. intros [La Ea]. assert (In a (filter (fun a => i_feature (nth a l no_info) =? f) (seq 0 (length l)))) by (apply filter_In; split; [apply in_seq; lia|now apply Nat.eqb_eq]). rewrite E in H. destruct H.
  - assert (I : forall y, In y (x :: r) <-> y < length l /\ i_feature (nth y l no_info) = f). { intros y. rewrite <- E, filter_In, in_seq, Nat.eqb_eq. intuition lia. }
    assert (r = []). { destruct r as [|y r]; [reflexivity|]. exfalso. destruct (proj1 (I x) (or_introl eq_refl)) as [Lx Ex]. destruct (proj1 (I y)) as [Ly Ey]; [right; now left|].
      assert (x = y) by (apply U; congruence). assert (NoDup (x :: y :: r)) by (rewrite <- E; apply NoDup_filter, seq_NoDup). inversion H0. subst. apply H3. now left. }
    subst r. cbn [last]. split; [intros X; inversion X; subst; apply I; now left|]. intros X. apply I in X. destruct X as [->|[]]. reflexivity.
Qed.
Lemma consumes_row_spec : forall (l : list (info R)) mask j, NoDup (map i_feature l) ->
  length (consumes_row l mask) = length l /\ (nth j (consumes_row l mask) false = true <-> j < length l /\ nth (i_feature (nth j l no_info)) mask false = true).
Proof.
  intros l mask j ND. unfold consumes_row.
  assert (G : forall fs row, length row = length l -> let r := fold_left (fun row f => match agent_of_feature l f with Some a => upd row a true | None => row end) fs row in
     length r = length l /\ (nth j r false = true <-> j < length l /\ (nth j row false = true \/ In (i_feature (nth j l no_info)) fs))).
  { induction fs as [|f fs IH]; intros row L; cbn [fold_left].
    - split; [exact L|]. split; [|intros [_ [X|[]]]; exact X]. intros X. split; [|now left]. destruct (Nat.lt_ge_cases j (length row)) as [|G]; [lia|]. rewrite (nth_overflow _ _ G) in X. discriminate.
    - cbv zeta in *. destruct (agent_of_feature l f) as [a|] eqn:E.
      + destruct (proj1 (agent_of_feature_spec l f a ND) E) as [La Ea]. destruct (IH (upd row a true)) as [L1 S1]; [now rewrite upd_length|]. split; [exact L1|]. rewrite S1.
        split; intros [Lj X]; (split; [exact Lj|]).
        * destruct X as [X|X]; [|right; now right]. destruct (Nat.eq_dec j a) as [->|D]; [right; left; congruence|]. rewrite nth_upd_other in X by assumption. now left.
        * destruct (Nat.eq_dec j a) as [->|D]; [left; apply nth_upd_same; lia|]. rewrite nth_upd_other by assumption. destruct X as [X|[X|X]]; [now left| |now right].
          exfalso. apply D. assert (agent_of_feature l f = Some j) by (apply agent_of_feature_spec; auto). congruence.
      + destruct (IH row L) as [L1 S1]. split; [exact L1|]. rewrite S1. split; intros [Lj X]; (split; [exact Lj|]); destruct X as [X|X]; auto; [right; now right|].
        destruct X as [X|X]; [|now right]. assert (agent_of_feature l f = Some j) by (apply agent_of_feature_spec; auto). congruence. }
  destruct (G (where_ (fun b => b) mask) (map (fun _ => false) l) (map_length _ _)) as [L S]. split; [exact L|]. rewrite S. split; intros [Lj X]; (split; [exact Lj|]).
  - destruct X as [X|X]; [rewrite (nth_map_lt _ _ _ _ j false no_info) in X by exact Lj; discriminate|]. apply (in_where _ _ _ _ false) in X. tauto.
  - right. apply (in_where _ _ _ _ false). split; [|exact X]. destruct (Nat.lt_ge_cases (i_feature (nth j l no_info)) (length mask)) as [|H]; [assumption|]. rewrite (nth_overflow _ _ H) in X. discriminate.
Qed.
Lemma mapM_nth : forall A B (f : A -> res B) l r, mapM f l = Ok r -> length r = length l /\ forall i d d', i < length l -> f (nth i l d) = Ok (nth i r d').
Proof.
  induction l as [|x l IH]; intros r H; cbn [mapM] in H; [inversion H; split; [reflexivity|intros; cbn in *; lia]|].
  apply bind_ok in H. destruct H as (y & E & H). apply bind_ok in H. destruct H as (ys & E2 & H). inversion H. subst. destruct (IH ys E2) as [L S]. split; [cbn; lia|].
  intros [|i] d d' Hi; cbn; [exact E|]. apply S. cbn in Hi. lia.
Qed.
(** Agent [i] consumes feature number [f] of [n] (negative numbers count from the end). *)
Definition lists_feature (n : nat) (i : info R) (f : nat) : Prop := exists z, In z (i_consumes i) /\ py_index n z = Ok f.
Theorem C44_agent_table : forall int ft sas (l : list (info R)) nm C cost pol ca mi g tol c nf, NoDup (map i_feature l) -> (forall i, In i l -> i_feature i < nf) ->
  length (i_reward (nth 0 l no_info)) = nf -> make_search int ft sas l nm C cost pol ca mi g tol = Ok c ->
  s_start c = map i_pos l /\ s_rewards c = map i_reward l /\ s_feature_idx c = map i_feature l /\
  length (s_consumes_agents c) = length l /\ (forall row, In row (s_consumes_agents c) -> length row = length l) /\
  (forall i j, i < length l -> j < length l ->
     (nth j (nth i (s_consumes_agents c) []) false = true <-> lists_feature nf (nth i l no_info) (i_feature (nth j l no_info)))) /\
  (forall i f, i < length l -> (nth f (nth i (s_consumes c) []) false = true <-> lists_feature nf (nth i l no_info) f)) /\
  (forall j, j < length l -> nth j (s_values c) 0%R = if j =? 0 then 0%R else nth (i_feature (nth j l no_info)) (i_reward (nth 0 l no_info)) 0%R).
Proof.
  intros int ft sas l nm C cost pol ca mi g tol c nf ND LF L0 H. unfold make_search in H. fold (@no_info R _) in H. destruct (forallb _ l) eqn:FB; cbn [negb] in H; [|discriminate].
  apply bind_ok in H. destruct H as (masks & MM & H). assert (OI : forall (x y : search R), Ok x = Ok y -> x = y) by (intros ? ? X; now inversion X). apply OI in H. subst c. cbn [s_start s_rewards s_feature_idx s_consumes_agents s_consumes s_values].
  destruct (mapM_nth _ _ _ _ _ MM) as [LM SM].
  assert (RL : forall i, i < length l -> length (i_reward (nth i l no_info)) = nf). { intros i Hi. rewrite forallb_forall in FB. rewrite <- L0. apply Nat.eqb_eq, FB. now apply nth_In. }
  assert (MS : forall i f, i < length l -> (nth f (nth i masks []) false = true <-> lists_feature nf (nth i l no_info) f)).
  { intros i f Hi. destruct (mask_spec _ _ (SM i no_info [] Hi)) as [_ S]. rewrite S, (RL i Hi). unfold lists_feature. split; [tauto|]. intros X. split; [|exact X]. destruct X as (z & _ & P). apply py_index_ok in P. lia. }
  repeat (split; [reflexivity|]). split; [now rewrite map_length|]. split.
  { intros row Hr. apply in_map_iff in Hr. destruct Hr as (mk & <- & _). now apply (consumes_row_spec l mk 0). }
  split; [|split].
  - intros i j Hi Hj. rewrite (nth_map_lt _ _ _ _ i [] []) by lia. destruct (consumes_row_spec l (nth i masks []) j ND) as [_ S]. rewrite S, MS by assumption. tauto.
  - exact MS.
  - intros j Hj. rewrite (nth_map_lt _ _ _ _ j 0%R 0) by (now rewrite seq_length). rewrite seq_nth by exact Hj. reflexivity.
Qed.
(** The table is accepted whenever the reward functions have equal lengths and consumed features are in
    range. *)
Theorem C44_accepted : forall int ft sas (l : list (info R)) nm C cost pol ca mi g tol,
  (forall i z, In i l -> In z (i_consumes i) -> (- Z.of_nat (length (i_reward i)) <= z < Z.of_nat (length (i_reward i)))%Z) ->
  (forall i, In i l -> length (i_reward i) = length (i_reward (nth 0 l no_info))) ->
  exists c, make_search int ft sas l nm C cost pol ca mi g tol = Ok c.
Proof.
  intros int ft sas l nm C cost pol ca mi g tol HZ HL. unfold make_search. fold (@no_info R _).
  assert (FB : forallb (fun i => length (i_reward i) =? length (i_reward (nth 0 l no_info))) l = true) by (apply forallb_forall; intros i Hi; apply Nat.eqb_eq; auto). rewrite FB. cbn [negb].
  assert (MM : exists masks, mapM consume_mask l = Ok masks).
  { clear FB HL. induction l as [|i l IH]; [eexists; reflexivity|]. cbn [mapM].
    assert (E : forall zs m, length m = length (i_reward i) -> (forall z, In z zs -> (- Z.of_nat (length (i_reward i)) <= z < Z.of_nat (length (i_reward i)))%Z) ->
      exists m', foldM (fun m z => let* j := py_index (length m) z in Ok (upd m j true)) zs m = Ok m').
    { induction zs as [|z zs IHz]; intros m Lm HZz; [eexists; reflexivity|]. cbn [foldM]. destruct (py_index (length m) z) as [j|e] eqn:P; cbn [bind].
      - apply IHz; [now rewrite upd_length|]. intros; apply HZz; now right.
      - exfalso. specialize (HZz z (or_introl eq_refl)). unfold py_index in P. rewrite Lm in P. destruct (Z.leb_spec 0 z); [destruct (Z.ltb_spec z (Z.of_nat (length (i_reward i)))); [discriminate|lia]|]. destruct (Z.leb_spec (- Z.of_nat (length (i_reward i))) z); [discriminate|lia]. }
    destruct (E (i_consumes i) (map (fun _ => false) (i_reward i)) (map_length _ _) ltac:(intros z Hz; apply (HZ i z (or_introl eq_refl) Hz))) as (m & Em).
    destruct IH as (ms & Ems); [intros i' z Hi Hz; apply (HZ i' z (or_intror Hi) Hz)|]. unfold consume_mask at 1. rewrite Em. cbn [bind]. rewrite Ems. eexists. reflexivity. }
  destruct MM as (masks & ->). eexists. reflexivity.
Qed.
(** Two agents, four features: the second eats the first (its feature given as -2), the first eats feature 0. *)
Example C44_example : exists c, make_search (A:=Q) true [] [] [mkInfo 0 1 [0%Z] [5; 0; 0; 7]%Q 2; mkInfo 1 1 [(-2)%Z] [0; 1; 0; 0]%Q 3] [] 0%Q 0%Q OppRandom false 1 0%Q 0%Q = Ok c /\
  s_consumes_agents c = [[false; false]; [true; false]] /\ s_values c = [0; 7]%Q.
Proof. eexists. vm_compute. auto. Qed.
