(** Proofs about search iterations: single moves, schedules, walks. *)
From Coq Require Import List ZArith Reals Bool Lia Lra.
From Verif Require Import PyBase PyProofs MDPModel ActionModel EnvModel PlanProps VIModel MCTSModel MCTSSpec.
Import ListNotations.
Local Open Scope nat_scope.

(** * One move *)
Section Move.
Context {A : Type} {NA : Num A}.
Variables (score : scorer A) (c : search A) (V N : list A) (rnd : nat -> nat).

Definition overlap_of (st : it_state A) : A * list bool * bool :=
  if s_interactive c then check_agent_overlap (s_consumes_agents c) (it_nodes st) (s_cost c) (it_active st) (s_values c)
  else (n0, it_active st, false).

Lemma it_move_caught : forall st st', it_move score c V N rnd st = Ok (inr st') ->
  exists features added active, mark_actor c st = Ok features /\ overlap_of st = (added, active, true) /\
    st' = mkIt (it_total st) (it_expand st) (nadd (it_reward st) added) (it_visited st) (it_nodes st) (it_actor st) features (it_moves st)
                  (it_turns st) active (it_consumed st) (it_cache st) (it_others st).
Proof using.
  intros st st' H. unfold it_move in H. apply bind_ok in H. destruct H as (ft & MA & H). fold (overlap_of st) in H.
  destruct (overlap_of st) as [[added active] caught] eqn:OV. exists ft, added, active. split; [exact MA|].
  destruct caught; [split; [reflexivity|now inversion H]|]. exfalso.
  apply bind_ok in H. destruct H as (acts & _ & H). apply bind_ok in H. destruct H as ([[[[[? ?] ?] ?] ?] ?] & _ & H). apply bind_ok in H. destruct H as ([? ?] & _ & H). discriminate.
Qed.

Lemma it_move_ok : forall st st', it_move score c V N rnd st = Ok (inl st') ->
  exists features added active acts, mark_actor c st = Ok features /\ overlap_of st = (added, active, false) /\
    get_actions_states (s_sas c) (nth (it_actor st) (it_nodes st) 0%Z) = Ok acts /\
    it_total st' = (it_total st + 1)%Z /\ it_actor st' = it_actor st /\ it_turns st' = it_turns st /\ it_active st' = active /\
    it_moves st' = upd (it_moves st) (it_actor st) (nth (it_actor st) (it_moves st) 0 + 1)%Z /\
    ((it_actor st = 0 /\ exists x,
        mcts_next_node score (it_expand st) V N (map snd acts) (s_C c) (nth 0 (it_nodes st) 0%Z) (rnd (Z.to_nat (it_total st))) = Ok (x, it_expand st') /\
        it_reward st' = nadd (nadd (it_reward st) added) (nth x (state_rewards (length (s_sas c)) (nth 0 (s_rewards c) []) features) n0) /\
        it_visited st' = it_visited st ++ [x] /\ it_nodes st' = upd (it_nodes st) 0 (Z.of_nat x) /\ it_cache st' = it_cache st /\ it_others st' = it_others st)
     \/ (it_actor st <> 0 /\ s_interactive c = true /\ nth (it_actor st) active false = true /\ exists x,
        opponent_move c st features (map snd acts) (rnd (Z.to_nat (it_total st))) = Ok (x, it_cache st') /\
        it_expand st' = it_expand st /\ it_reward st' = nadd (it_reward st) added /\ it_visited st' = it_visited st /\
        it_nodes st' = upd (it_nodes st) (it_actor st) (Z.of_nat x) /\
        it_others st' = upd (it_others st) (it_actor st - 1) (nth (it_actor st - 1) (it_others st) [] ++ [x]))
     \/ (it_actor st <> 0 /\ (s_interactive c && nth (it_actor st) active false) = false /\
        it_expand st' = it_expand st /\ it_reward st' = nadd (it_reward st) added /\ it_visited st' = it_visited st /\ it_nodes st' = it_nodes st /\
        it_cache st' = it_cache st /\ it_others st' = it_others st)) /\
    ((nth (it_actor st) active false = false /\ it_features st' = features /\ it_consumed st' = it_consumed st)
     \/ (nth (it_actor st) active false = true /\ exists p, py_index (length (s_sas c)) (nth (it_actor st) (it_nodes st') 0%Z) = Ok p /\
        record_consumed (s_caching c) features (nth (it_actor st) (s_consumes c) []) p (nth (it_actor st) (it_nodes st') 0%Z) (it_consumed st) = Ok (it_consumed st') /\
        it_features st' = consume_at features (nth (it_actor st) (s_consumes c) []) p)).
Proof using.
  intros st st' H. unfold it_move in H. apply bind_ok in H. destruct H as (ft & MA & H). fold (overlap_of st) in H.
  destruct (overlap_of st) as [[added active] caught] eqn:OV. destruct caught; [discriminate|].
  apply bind_ok in H. destruct H as (acts & GA & H). exists ft, added, active, acts.
  apply bind_ok in H. destruct H as ([[[[[ex rw] vs] nd] ca] ot] & H1 & H). apply bind_ok in H. destruct H as ([ft' co] & H2 & H).
  assert (OI : forall (x y : it_state A), @Ok (it_state A + it_state A) (inl x) = Ok (inl y) -> x = y) by (intros x y X; now inversion X). apply OI in H. subst st'. cbn [it_total it_actor it_turns it_active it_moves it_expand it_reward it_visited it_nodes it_cache it_others it_features it_consumed].
  repeat (split; [first [reflexivity|assumption]|]). split.
  - destruct (Nat.eqb_spec (it_actor st) 0) as [E|E].
    + left. split; [exact E|]. apply bind_ok in H1. destruct H1 as ([x ex'] & NN & H1). inversion H1. subst. exists x. rewrite ?E in *. auto 10.
    + right. destruct (s_interactive c && nth (it_actor st) active false) eqn:EI.
      * left. split; [exact E|]. apply andb_true_iff in EI. destruct EI as [E1 E2]. split; [exact E1|]. split; [exact E2|].
        apply bind_ok in H1. destruct H1 as ([x ca'] & NN & H1). inversion H1. subst. exists x. auto 10.
      * right. inversion H1. subst. auto 10.
  - destruct (nth (it_actor st) active false).
    + right. split; [reflexivity|]. apply bind_ok in H2. destruct H2 as (p & HP & H2). apply bind_ok in H2. destruct H2 as (co' & HC & H2). inversion H2. subst. exists p. auto.
    + left. inversion H2. auto.
Qed.
End Move.

(** * Successors *)
Lemma get_actions_states_spec : forall (sas : list (list (list R))) node l, get_actions_states sas node = Ok l ->
  exists s, py_index (length sas) node = Ok s /\ forall a t, In (a, t) l <-> get3 0%R sas s a t <> 0%R.
Proof.
  intros sas node l H. unfold get_actions_states in H. apply bind_ok in H. destruct H as (s & P & H). exists s. split; [exact P|]. inversion H. subst l. clear H.
  intros a t. rewrite in_concat. split.
  - intros (row & Hr & Ht). apply in_map_iff in Hr. destruct Hr as ([a' r] & <- & Hr). apply in_map_iff in Ht. destruct Ht as (t' & E & Ht). inversion E. subst a' t'. clear E.
    apply (in_where _ _ _ _ 0%R) in Ht. destruct Ht as [L E]. apply (In_nth _ _ (0, [])) in Hr. destruct Hr as (i & Li & Ei). rewrite combine_length, seq_length, Nat.min_id in Li. rewrite combine_nth in Ei by apply seq_length.
    inversion Ei. rewrite seq_nth in H0 by exact Li. cbn in H0. subst i. cbn beta in E. subst r. unfold get3. cbn in E. unfold Reqb in E. match type of E with context [Req_EM_T ?x ?y] => destruct (Req_EM_T x y) as [|NE] end; [discriminate|]. rewrite seq_nth by exact Li. exact NE.
  - intros E. unfold get3 in E. assert (La : a < length (nth s sas [])).
    { destruct (Nat.lt_ge_cases a (length (nth s sas []))) as [|G]; [assumption|]. rewrite (nth_overflow _ _ G) in E. destruct t; now contradiction E. }
    assert (Lt : t < length (nth a (nth s sas []) [])).
    { destruct (Nat.lt_ge_cases t (length (nth a (nth s sas []) []))) as [|G]; [assumption|]. rewrite (nth_overflow (nth a (nth s sas []) []) _ G) in E. now contradiction E. }
    exists (map (fun t => (a, t)) (where_ (fun x => negb (neqb x n0)) (nth a (nth s sas []) []))). split.
    + apply in_map_iff. exists (a, nth a (nth s sas []) []). split; [reflexivity|].
      replace (a, nth a (nth s sas []) []) with (nth a (combine (seq 0 (length (nth s sas []))) (nth s sas [])) (0, [])).
      * apply nth_In. rewrite combine_length, seq_length. lia.
      * rewrite combine_nth by apply seq_length. now rewrite seq_nth.
    + apply in_map_iff. exists t. split; [reflexivity|]. apply (in_where _ _ _ _ 0%R). split; [exact Lt|]. cbn. unfold Reqb. destruct (Req_EM_T _ _); [contradiction|reflexivity].
Qed.

Lemma pick_in : forall l d x, pick l d = Ok x -> In x l.
Proof.
  intros [|y l] d x H; [discriminate|]. unfold pick in H. assert (OI : forall (x y : nat), Ok x = Ok y -> x = y) by (intros ? ? X; now inversion X). apply OI in H. subst x.
  apply nth_In. apply Nat.mod_upper_bound. discriminate.
Qed.
Lemma fargmax_lt : forall {A} `{Num A} (l : list (fval A)) i, fargmax l = Ok i -> i < length l.
Proof.
  intros A NA l i H. unfold fargmax in H. destruct (where_ isnan l) as [|j r] eqn:W.
  - apply bind_ok in H. destruct H as (mx & FM & H). assert (0 < length l) by (destruct l; [discriminate|cbn; lia]).
    assert (OI : forall (x y : nat), Ok x = Ok y -> x = y) by (intros ? ? X; now inversion X). apply OI in H. subst i.
    destruct (where_ (feqb mx) l) as [|k r] eqn:E; [exact H0|]. cbn. assert (In k (where_ (feqb mx) l)) by (rewrite E; now left). apply (in_where _ _ _ _ NaN) in H. tauto.
  - inversion H. subst j. assert (In i (where_ isnan l)) by (rewrite W; now left). apply (in_where _ _ _ _ NaN) in H0. tauto.
Qed.
Lemma next_node_in : forall {A} `{Num A} score ex (V N : list A) states C node d x ex', mcts_next_node score ex V N states C node d = Ok (x, ex') -> In x states.
Proof.
  intros A NA score ex V N states C node d x ex' H. unfold mcts_next_node in H. destruct (ex && negb (_ =? 0)).
  - apply bind_ok in H. destruct H as (y & P & H). inversion H. subst. apply pick_in in P. apply filter_In in P. tauto.
  - destruct ex.
    + apply bind_ok in H. destruct H as (i & P & H). inversion H. subst. apply fargmax_lt in P. rewrite map_length in P. now apply nth_In.
    + apply bind_ok in H. destruct H as (y & P & H). inversion H. subst. now apply pick_in in P.
Qed.

(** * Runs of the loop *)
Section Loop.
Context {A : Type} {NA : Num A}.
Variables (score : scorer A) (c : search A) (V N : list A) (rnd : nat -> nat).

(** What holds initially and is kept by every pass holds at the end. *)
Lemma it_loop_inv : forall (P : it_state A -> Prop) (Q : it_state A -> bool -> Prop),
  (forall st st', P st -> (it_total st < n_steps c)%Z -> it_body score c V N rnd st = Ok (inl st') -> P st') ->
  (forall st st', P st -> (it_total st < n_steps c)%Z -> it_body score c V N rnd st = Ok (inr st') -> Q st' true) ->
  (forall st, P st -> (n_steps c <= it_total st)%Z -> Q st false) ->
  forall fuel st st' b, P st -> it_loop score c V N rnd fuel st = Ok (st', b) -> Q st' b.
Proof using.
  intros P Q H1 H2 H3. induction fuel as [|fuel IH]; intros st st' b HP H; [discriminate|]. cbn in H.
  destruct (Z.ltb_spec (it_total st) (n_steps c)) as [L|L].
  - apply bind_ok in H. destruct H as ([r|r] & B & H).
    + eapply IH; [|exact H]. eauto.
    + inversion H. subst. eauto.
  - inversion H. subst. eauto.
Qed.
(** A measure that decreases with every pass bounds the number of passes. *)
Lemma it_loop_fuel : forall (P : it_state A -> Prop) (mu : it_state A -> nat),
  (forall st st', P st -> (it_total st < n_steps c)%Z -> it_body score c V N rnd st = Ok (inl st') -> P st' /\ mu st' < mu st) ->
  (forall st, P st -> it_body score c V N rnd st <> Err Diverges) ->
  forall fuel st, P st -> mu st < fuel -> it_loop score c V N rnd fuel st <> Err Diverges.
Proof using.
  intros P mu H1 H2. induction fuel as [|fuel IH]; intros st HP L; [lia|]. cbn. destruct (Z.ltb_spec (it_total st) (n_steps c)) as [L1|L1]; [|discriminate].
  destruct (it_body score c V N rnd st) as [[r|r]|e] eqn:B; cbn.
  - destruct (H1 st r HP L1 B). apply IH; [assumption|lia].
  - discriminate.
  - intros E. inversion E. subst. now apply (H2 st HP).
Qed.
Lemma it_body_inv : forall st r, it_body score c V N rnd st = Ok r ->
  exists row k, nth_error (s_n_moves c) (it_actor st) = Some row /\ nth_error row (nth (it_actor st) (it_turns st) 0) = Some k /\
   ((0 < k)%Z /\ ((exists st', it_move score c V N rnd st = Ok (inl st') /\ r = inl (it_next c k st')) \/ (exists st', it_move score c V N rnd st = Ok (inr st') /\ r = inr st'))
    \/ (k <= 0)%Z /\ r = inl (it_next c k st)).
Proof using.
  intros st r H. unfold it_body in H. destruct (nth_error (s_n_moves c) (it_actor st)) as [row|] eqn:E1; [|discriminate]. destruct (nth_error row _) as [k|] eqn:E2; [|discriminate].
  exists row, k. split; [reflexivity|]. split; [exact E2|]. apply bind_ok in H. destruct H as (r' & M & H). destruct (Z.ltb_spec 0 k) as [L|L].
  - left. split; [exact L|]. destruct r' as [s|s]; inversion H; subst; eauto.
  - right. inversion M. subst r'. inversion H. split; [lia|reflexivity].
Qed.
End Loop.

(** ** Moves never diverge *)
Lemma foldM_err : forall A B (f : B -> A -> res B) l b e, foldM f l b = Err e -> exists b' x, f b' x = Err e.
Proof. induction l as [|x l IH]; cbn; intros b e H; [discriminate|]. destruct (f b x) as [b'|e'] eqn:E; cbn in H; [eauto|]. inversion H. subst. eauto. Qed.
Section NoDiverge.
Context {A : Type} {NA : Num A}.
Ltac nod := repeat match goal with
  | H : bind ?m _ = Err Diverges |- _ => destruct m eqn:?; cbn [bind] in H
  | H : Err _ = Err Diverges |- _ => inversion H; clear H; subst
  | H : Ok _ = Err Diverges |- _ => discriminate
  | p : (_ * _)%type |- _ => destruct p
  end.
Lemma py_index_nodiv : forall n i, py_index n i <> Err Diverges.
Proof using. intros n i H. unfold py_index in H. destruct (0 <=? i)%Z; destruct (_ : bool); discriminate. Qed.
Lemma hard_nodiv : forall (l : list A), hard_backup l <> Err Diverges.
Proof using. intros [|x l]; discriminate. Qed.
Lemma pick_nodiv : forall l d, pick l d <> Err Diverges.
Proof using. intros [|x l] d; discriminate. Qed.
Lemma vi_loop_nodiv : forall k (v : list A) q r g sas tol, vi_loop hard_backup k v q r g sas tol <> Err Diverges.
Proof using.
  induction k as [|k IH]; intros v q r g sas tol H; [discriminate|]. cbn in H. nod.
  - destruct (nltb _ _); [discriminate|]. now apply IH in H.
  - unfold state_value_iterator in Heqr0. apply foldM_err in Heqr0. destruct Heqr0 as (b & x & E). unfold sweep_state in E. destruct b as [[? ?] ?]. nod. now apply hard_nodiv in Heqr0.
Qed.
Lemma solve_nodiv : forall (rf : list A) ft mi g sas tol, solve_value_iteration hard_backup rf ft mi g sas tol <> Err Diverges.
Proof using.
  intros rf ft mi g sas tol H. unfold solve_value_iteration in H. destruct (negb _); [discriminate|]. destruct (negb _); [discriminate|]. nod.
  - destruct o; discriminate.
  - now apply vi_loop_nodiv in Heqr.
Qed.
Lemma fargmax_nodiv : forall (l : list (fval A)), fargmax l <> Err Diverges.
Proof using. intros l H. unfold fargmax in H. destruct (where_ isnan l); [|discriminate]. destruct l; discriminate. Qed.
Lemma next_node_nodiv : forall score ex (V N : list A) states C node d, mcts_next_node score ex V N states C node d <> Err Diverges.
Proof using.
  intros score ex V N states C node d H. unfold mcts_next_node in H. destruct (ex && _); [|destruct ex]; nod.
  - now apply pick_nodiv in Heqr.
  - now apply fargmax_nodiv in Heqr.
  - now apply pick_nodiv in Heqr.
Qed.
Lemma opp_nodiv : forall pol, terminates pol -> forall states node (rf : list A) ft sas mi g tol q d, opp_next_state pol states node rf ft sas mi g tol q d <> Err Diverges.
Proof using.
  intros pol T states node rf ft sas mi g tol q d H. unfold opp_next_state in H. destruct pol as [|sel|].
  - nod. now apply pick_nodiv in Heqr.
  - nod.
    + destruct (existsb _ _); discriminate.
    + now apply T in Heqr1.
    + now apply py_index_nodiv in Heqr0.
    + destruct q; [discriminate|]. nod. now apply solve_nodiv in Heqr0.
  - discriminate.
Qed.
Variables (score : scorer A) (c : search A) (V N : list A) (rnd : nat -> nat).
Hypothesis T : terminates (s_policy c).
Lemma opponent_nodiv : forall st ft states d, opponent_move c st ft states d <> Err Diverges.
Proof using T.
  intros st ft states d H. unfold opponent_move in H. destruct (preferences _); [discriminate|]. destruct (if s_caching c then _ else _); nod; now apply (opp_nodiv _ T) in Heqr.
Qed.
Lemma it_body_nodiv : forall st, it_body score c V N rnd st <> Err Diverges.
Proof using T.
  intros st H. unfold it_body in H. destruct (nth_error (s_n_moves c) _) as [row|]; [|discriminate]. destruct (nth_error row _) as [k|]; [|discriminate].
  destruct (0 <? k)%Z; cbn [bind] in H; [|discriminate].
  destruct (it_move score c V N rnd st) as [z|e] eqn:M; cbn [bind] in H; [destruct z; discriminate|]. inversion H. subst e. clear H. unfold it_move in M.
  destruct (mark_actor c st) as [ft|e] eqn:M1; cbn [bind] in M; [|inversion M; subst e; unfold mark_actor in M1; destruct (py_index _ _) eqn:P; cbn [bind] in M1; [discriminate|inversion M1; subst; now apply py_index_nodiv in P]].
  destruct (if s_interactive c then _ else _) as [[added active] caught]. destruct caught; [discriminate|].
  destruct (get_actions_states _ _) as [acts|e] eqn:M2; cbn [bind] in M; [|inversion M; subst e; unfold get_actions_states in M2; destruct (py_index _ _) eqn:P; cbn [bind] in M2; [discriminate|inversion M2; subst; now apply py_index_nodiv in P]].
  match type of M with bind ?m _ = _ => destruct m as [[[[[[ex rw] vs] nd] ca] ot]|e] eqn:M3; cbn [bind] in M end.
  2:{ inversion M. subst e. destruct (_ =? 0).
      - destruct (mcts_next_node _ _ _ _ _ _ _ _) as [[x y]|e] eqn:P; cbn [bind] in M3; [discriminate|]. inversion M3. subst. now apply next_node_nodiv in P.
      - destruct (_ && _); [|discriminate]. destruct (opponent_move _ _ _ _ _) as [[x y]|e] eqn:P; cbn [bind] in M3; [discriminate|]. inversion M3. subst. now apply opponent_nodiv in P. }
  destruct (nth _ active false); [|discriminate]. destruct (py_index _ _) as [p|e] eqn:P; cbn [bind] in M; [|inversion M; subst; now apply py_index_nodiv in P].
  unfold record_consumed in M. destruct (s_caching c); [|discriminate]. destruct (where_ _ _) as [|f [|g r]]; try discriminate. destruct (neqb _ _); discriminate.
Qed.
End NoDiverge.
