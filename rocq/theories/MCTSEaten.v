(** C39, C40: eaten agents and consumed features within a search iteration. *)
From Coq Require Import String List ZArith QArith Reals Bool Lia Lra.
From Verif Require Import PyBase PyProofs MDPModel MDPProofs MDPProps ActionModel ActionSpec ActionProofs EnvModel PlanProps RSum VIModel VISpec VIProofs2 MCTSModel MCTSSpec MCTSProofs MCTSProofs2 MCTSProofs3 MCTSProps MCTSWalk.
Import ListNotations.
Local Close Scope Q_scope.
Local Open Scope nat_scope.

(** [st'] can follow [st] in a search iteration. *)
Inductive later {A} `{Num A} (score : scorer A) (c : search A) (V N : list A) (rnd : nat -> nat) : it_state A -> it_state A -> Prop :=
| later_now : forall st, later score c V N rnd st st
| later_pass : forall st st1 st2, (it_total st < n_steps c)%Z -> it_body score c V N rnd st = Ok (inl st1) -> later score c V N rnd st1 st2 -> later score c V N rnd st st2.
Lemma later_trans : forall A (NA : Num A) score (c : search A) V N rnd s1 s2, later score c V N rnd s1 s2 -> forall s3, later score c V N rnd s2 s3 -> later score c V N rnd s1 s3.
Proof. intros A NA score c V N rnd s1 s2 H. induction H as [|st st1 st2 L B H IH]; intros s3 H3; [exact H3|]. eapply later_pass; eauto. Qed.
Lemma later_ind_pass : forall A (NA : Num A) score (c : search A) V N rnd (P : it_state A -> Prop),
  (forall st st', P st -> (it_total st < n_steps c)%Z -> it_body score c V N rnd st = Ok (inl st') -> P st') ->
  forall st st', later score c V N rnd st st' -> P st -> P st'.
Proof. intros A NA score c V N rnd P H st st' L. induction L; auto. intros HP. eauto. Qed.
(** The state in which a finished iteration ends. *)
Lemma loop_later : forall A (NA : Num A) score (c : search A) V N rnd fuel st st', it_loop score c V N rnd fuel st = Ok (st', false) -> later score c V N rnd st st'.
Proof.
  intros A NA score c V N rnd. induction fuel as [|fuel IH]; intros st st' H; [discriminate|]. cbn in H. destruct (Z.ltb_spec (it_total st) (n_steps c)) as [L|L].
  - apply bind_ok in H. destruct H as ([s1|s1] & B & H); [|inversion H]. eapply later_pass; [exact L|exact B|now apply IH].
  - inversion H. constructor.
Qed.

(** * C39 *)
Lemma overlap_active : forall A (NA : Num A) pairs nodes cost values r active r' active' b, overlap_loop (A:=A) pairs nodes cost values r active = (r', active', b) ->
  length active' = length active /\ forall i, nth i active false = false -> nth i active' false = false.
Proof.
  intros A NA. induction pairs as [|[a1 a2] l IH]; intros nodes cost values r active r' active' b H; cbn in H.
  - inversion H. subst. auto.
  - assert (U : forall i, nth i active false = false -> nth i (upd active a2 false) false = false).
    { intros i Hi. destruct (Nat.eq_dec i a2) as [->|D]; [|now rewrite nth_upd_other]. destruct (Nat.lt_ge_cases a2 (length active)); [now apply nth_upd_same|]. apply nth_overflow. now rewrite upd_length. }
    destruct (_ =? _)%Z; [|now apply IH in H]. destruct (a2 =? 0).
    + inversion H. subst. rewrite upd_length. auto.
    + apply IH in H. rewrite upd_length in H. destruct H as [H1 H2]. split; [exact H1|]. intros i Hi. apply H2, U, Hi.
Qed.
Lemma overlap_of_active : forall A (NA : Num A) (c : search A) st r active b, overlap_of c st = (r, active, b) ->
  length active = length (it_active st) /\ forall i, nth i (it_active st) false = false -> nth i active false = false.
Proof.
  intros A NA c st r active b H. unfold overlap_of in H. destruct (s_interactive c).
  - unfold check_agent_overlap in H. now apply overlap_active in H.
  - inversion H. subst. auto.
Qed.
(** A feature row that changes between [ft] and [ft'], other than row [f0]. *)
Definition same_rows_but {A} (f0 : nat) (ft ft' : list (list A)) : Prop := length ft' = length ft /\ forall f, f <> f0 -> nth f ft' [] = nth f ft [].

Lemma mark_rows : forall A (NA : Num A) (c : search A) st ft, mark_actor c st = Ok ft ->
  same_rows_but (nth (it_actor st) (s_feature_idx c) 0) (it_features st) ft /\
  length (nth (nth (it_actor st) (s_feature_idx c) 0) ft []) = length (nth (nth (it_actor st) (s_feature_idx c) 0) (it_features st) []).
Proof.
  intros A NA c st ft H. unfold mark_actor in H. apply bind_ok in H. destruct H as (p & _ & H). inversion H. subst ft. clear H. set (fi := nth (it_actor st) (s_feature_idx c) 0). split.
  - split; [apply upd_length|]. intros f Hf. now rewrite nth_upd_other.
  - destruct (Nat.lt_ge_cases fi (length (it_features st))) as [L|L].
    + rewrite nth_upd_same by exact L. now rewrite upd_length, map_length.
    + rewrite !nth_overflow; [reflexivity|exact L|now rewrite upd_length].
Qed.

(** One pass: an agent that is out of the game stays where it is. *)
Lemma out_pass : forall (NA : Num R) score (c : search R) V N rnd i st st', i <> 0 -> nth i (it_active st) false = false -> it_body score c V N rnd st = Ok (inl st') ->
  nth i (it_active st') false = false /\ nth i (it_nodes st') 0%Z = nth i (it_nodes st) 0%Z /\ nth (i - 1) (it_others st') [] = nth (i - 1) (it_others st) [] /\
  (it_actor st = i -> same_rows_but (nth i (s_feature_idx c) 0) (it_features st) (it_features st')).
Proof.
  intros NA score c V N rnd i st st' Hi OUT B. apply it_body_inv in B. destruct B as (row & k & _ & _ & [(K & [(s1 & M & E)|(s1 & M & E)])|(K & E)]); [|discriminate|].
  - assert (II : forall (x y : it_state R), @inl _ (it_state R) x = inl y -> x = y) by (intros ? ? X; now inversion X). apply II in E. subst st'.
    destruct (it_next_fields c k s1) as (_ & _ & -> & _ & -> & -> & _ & _ & _ & ->).
    apply it_move_ok in M. destruct M as (ft & ad & ac & acts & MA & OV & _ & _ & _ & _ & -> & _ & WH & CO). apply overlap_of_active in OV. destruct OV as [_ OV]. specialize (OV i OUT).
    split; [exact OV|]. split; [|split].
    + destruct WH as [(Z0 & x & _ & _ & _ & -> & _)|[(Z0 & _ & AC & x & _ & _ & _ & _ & -> & _)|(Z0 & _ & _ & _ & _ & -> & _)]]; [now rewrite nth_upd_other| |reflexivity].
      rewrite nth_upd_other; [reflexivity|]. intros ->. congruence.
    + destruct WH as [(Z0 & x & _ & _ & _ & _ & _ & ->)|[(Z0 & _ & AC & x & _ & _ & _ & _ & _ & ->)|(Z0 & _ & _ & _ & _ & _ & _ & ->)]]; [reflexivity| |reflexivity].
      rewrite nth_upd_other; [reflexivity|]. intros EI. assert (i = it_actor st) by lia. congruence.
    + intros AI. rewrite AI in *. destruct CO as [(_ & -> & _)|(AC & _)]; [|congruence]. apply mark_rows in MA. rewrite AI in MA. exact (proj1 MA).
  - assert (II : forall (x y : it_state R), @inl _ (it_state R) x = inl y -> x = y) by (intros ? ? X; now inversion X). apply II in E. subst st'.
    destruct (it_next_fields c k st) as (_ & _ & -> & _ & -> & -> & _ & _ & _ & ->). repeat split; auto.
Qed.
(** What holds: an opponent that has been eaten never becomes active again, never moves again, records no
    further states, and in its own turns changes no feature but its own position marker. *)
Theorem C39_out_partial : forall score (c : search R) V N rnd i st st', i <> 0 -> nth i (it_active st) false = false -> later score c V N rnd st st' ->
  nth i (it_active st') false = false /\ nth i (it_nodes st') 0%Z = nth i (it_nodes st) 0%Z /\ nth (i - 1) (it_others st') [] = nth (i - 1) (it_others st) [] /\
  forall st2, it_actor st' = i -> it_body score c V N rnd st' = Ok (inl st2) -> same_rows_but (nth i (s_feature_idx c) 0) (it_features st') (it_features st2).
Proof.
  intros score c V N rnd i st st' Hi OUT L.
  assert (G : nth i (it_active st') false = false /\ nth i (it_nodes st') 0%Z = nth i (it_nodes st) 0%Z /\ nth (i - 1) (it_others st') [] = nth (i - 1) (it_others st) []).
  { refine (later_ind_pass _ _ score c V N rnd (fun st' => nth i (it_active st') false = false /\ nth i (it_nodes st') 0%Z = nth i (it_nodes st) 0%Z /\ nth (i - 1) (it_others st') [] = nth (i - 1) (it_others st) []) _ st st' L _); [|auto].
    intros s s' (P1 & P2 & P3) _ B. destruct (out_pass _ score c V N rnd i s s' Hi P1 B) as (Q1 & Q2 & Q3 & _). rewrite Q2, Q3. auto. }
  destruct G as (G1 & G2 & G3). repeat (split; [assumption|]). intros st2 AI B. now apply (out_pass _ score c V N rnd i st' st2 Hi G1 B).
Qed.

(** The same, as C168: a property of its own. *)
Theorem C168_out : forall score (c : search R) V N rnd i st st', i <> 0 -> nth i (it_active st) false = false -> later score c V N rnd st st' ->
  nth i (it_active st') false = false /\ nth i (it_nodes st') 0%Z = nth i (it_nodes st) 0%Z /\ nth (i - 1) (it_others st') [] = nth (i - 1) (it_others st) [] /\
  forall st2, it_actor st' = i -> it_body score c V N rnd st' = Ok (inl st2) -> same_rows_but (nth i (s_feature_idx c) 0) (it_features st') (it_features st2).
Proof. exact (@C39_out_partial). Qed.

(** Three states in a row; the primary agent eats the other one, which is worth 5. *)
Definition hunt (n_moves : list (list Z)) (mutual : bool) : res (search Q) :=
  make_search true [[0; 0; 0]; [1; 0; 0]; [0; 1; 0]]%Q row3 [mkInfo 0 1 [2%Z] [0; 0; 5]%Q 1; mkInfo 1 2 (if mutual then [1%Z] else []) [0; 1; 0]%Q 2]
    n_moves 0%Q (-100)%Q OppRandom false 1 0%Q 0%Q.
(** Stepping onto the prey collects its feature (5); the prey then pays 5 more in each of its two moves,
    although it is out of the game after the first. *)
Theorem C39_pays_repeatedly_refuted : exists c, hunt [[1]; [2]]%Z false = Ok c /\ 
  mcts_iteration (A:=Q) mean_score c [0; 0; 0]%Q [0; 0; 0]%Q [[]; []] (fun _ => 0) 20 = Ok (15%Q, [1], [[]; []], [[]]).
Proof. eexists. split; vm_compute; reflexivity. Qed.
(** When two agents eat each other, the primary agent is paid for its prey and then caught by it. *)
Theorem C39_eaten_catches_refuted : exists c st, hunt [[1]; [2]]%Z true = Ok c /\
  it_loop (A:=Q) mean_score c [0; 0; 0]%Q [0; 0; 0]%Q (fun _ => 0) 20 (it_start c [[]; []]) = Ok (st, true) /\ it_reward st = (-90)%Q /\ it_active st = [false; false].
Proof. do 2 eexists. split; [vm_compute; reflexivity|]. vm_compute. auto. Qed.
(** [C39_out_partial] at work: after the first of the prey's moves. *)
Example C39_example : exists c st1 st2 st3, hunt [[1]; [2]]%Z false = Ok c /\
  it_body (A:=Q) mean_score c [0; 0; 0]%Q [0; 0; 0]%Q (fun _ => 0) (it_start c [[]; []]) = Ok (inl st1) /\
  it_body (A:=Q) mean_score c [0; 0; 0]%Q [0; 0; 0]%Q (fun _ => 0) st1 = Ok (inl st2) /\ it_active st2 = [true; false] /\ it_actor st2 = 1 /\
  it_body (A:=Q) mean_score c [0; 0; 0]%Q [0; 0; 0]%Q (fun _ => 0) st2 = Ok (inl st3) /\ it_nodes st3 = [1; 1]%Z.
Proof. do 4 eexists. split; [vm_compute; reflexivity|]. split; [vm_compute; reflexivity|]. split; [vm_compute; reflexivity|]. vm_compute. auto. Qed.

(** * C40 *)
(** An ordinary feature is one that marks no agent of the search. *)
Definition ordinary (c : search R) (f : nat) : Prop := forall i, i < length (s_start c) -> nth i (s_feature_idx c) 0 <> f.

Lemma consume_at_nth : forall A (NA : Num A) (ft : list (list A)) mask p f, length mask = length ft -> 
  nth f (consume_at ft mask p) [] = if nth f mask false then upd (nth f ft []) p n0 else nth f ft [].
Proof.
  intros A NA ft mask p f L. unfold consume_at. destruct (Nat.lt_ge_cases f (length ft)) as [Lf|Lf].
  - rewrite (nth_map_lt _ _ _ _ f [] (false, [])) by (rewrite combine_length; lia). rewrite combine_nth by exact L. reflexivity.
  - rewrite !(nth_overflow ft) by exact Lf. rewrite (nth_overflow mask) by lia. apply nth_overflow. rewrite map_length, combine_length. lia.
Qed.
Lemma consume_at_length : forall A (NA : Num A) (ft : list (list A)) mask p, length mask = length ft -> length (consume_at ft mask p) = length ft.
Proof. intros. unfold consume_at. rewrite map_length, combine_length. lia. Qed.
Lemma nth_upd_zero : forall (l : list R) p s, nth s (upd l p 0%R) 0%R = nth s l 0%R \/ nth s (upd l p 0%R) 0%R = 0%R.
Proof. intros l p s. destruct (Nat.eq_dec s p) as [->|D]; [|left; now rewrite nth_upd_other]. destruct (Nat.lt_ge_cases p (length l)); [right; now apply nth_upd_same|]. left. rewrite !nth_overflow; auto. now rewrite upd_length. Qed.

Section Features.
Variables (score : scorer R) (c : search R) (V N : list R) (rnd : nat -> nat).
Variables (nS nF : nat).
Hypotheses (LC : forall i, length (nth i (s_consumes c) []) = nF \/ length (s_consumes c) <= i)
  (LSC : length (s_consumes c) = length (s_start c)) (Hn : 0 < length (s_start c)).

Lemma shape_mark : forall st ft, shape2 nF nS (it_features st) -> mark_actor c st = Ok ft -> shape2 nF nS ft.
Proof using LC LSC Hn.
  intros st ft [L1 L2] M. destruct (mark_rows _ _ _ _ _ M) as [[M1 M2] M3]. split; [lia|]. intros f Hf. destruct (Nat.eq_dec f (nth (it_actor st) (s_feature_idx c) 0)) as [->|D]; [rewrite M3|rewrite M2 by assumption]; auto.
Qed.
Lemma shape_consume : forall (ft : list (list R)) mask p, shape2 nF nS ft -> length mask = nF -> shape2 nF nS (consume_at ft mask p).
Proof using LC LSC Hn.
  intros ft mask p [L1 L2] LM. split; [rewrite consume_at_length; lia|]. intros f Hf. rewrite consume_at_nth by lia. destruct (nth f mask false); [rewrite upd_length|]; auto.
Qed.
Definition shaped (st : it_state R) : Prop := shape2 nF nS (it_features st) /\ it_actor st < length (s_start c) /\ length (it_moves st) = length (s_start c).
Lemma shaped_start : forall k, shape2 nF nS (s_features c) -> shaped (it_start c k).
Proof using LC LSC Hn. intros k SH. unfold shaped, it_start. cbn [it_features it_actor it_moves]. split; [exact SH|]. split; [exact Hn|apply repeat_length]. Qed.
Lemma next_actor : forall k st, it_actor st < length (s_start c) -> length (it_moves st) = length (s_start c) -> it_actor (it_next c k st) < length (s_start c) /\ length (it_moves (it_next c k st)) = length (s_start c).
Proof using LC LSC Hn. intros k st H1 H2. unfold it_next. destruct (_ && _); [|auto]. cbn [it_actor it_moves]. rewrite upd_length. destruct (Nat.ltb_spec (it_actor st) (length (it_moves st) - 1)); lia. Qed.
Lemma shaped_body : forall st st', shaped st -> it_body score c V N rnd st = Ok (inl st') -> shaped st'.
Proof using LC LSC Hn.
  intros st st' (S1 & S2 & S3) B. apply it_body_inv in B. destruct B as (row & k & _ & _ & [(K & [(s1 & M & E)|(s1 & M & E)])|(K & E)]); [|discriminate|];
  assert (II : forall (x y : it_state R), @inl _ (it_state R) x = inl y -> x = y) by (intros ? ? X; now inversion X); apply II in E; subst st'; unfold shaped.
  - apply it_move_ok in M. destruct M as (ft & ad & ac & acts & MA & _ & _ & _ & A1 & _ & _ & M1 & _ & CO).
    destruct (it_next_fields c k s1) as (_ & _ & _ & _ & -> & _). assert (SF : shape2 nF nS ft) by (eapply shape_mark; eauto).
    split; [|apply next_actor; [now rewrite A1|now rewrite M1, upd_length]]. destruct CO as [(_ & -> & _)|(_ & p & _ & _ & ->)]; [exact SF|]. apply shape_consume; [exact SF|]. destruct (LC (it_actor st)); [assumption|lia].
  - destruct (it_next_fields c k st) as (_ & _ & _ & _ & -> & _). split; [exact S1|]. now apply next_actor.
Qed.

(** Passes and ordinary features. *)
Lemma ordinary_body : forall f st st', ordinary c f -> shaped st -> it_body score c V N rnd st = Ok (inl st') ->
  forall s, nth s (nth f (it_features st') []) 0%R = nth s (nth f (it_features st) []) 0%R \/ nth s (nth f (it_features st') []) 0%R = 0%R.
Proof using LC LSC Hn.
  intros f st st' OF (S1 & S2 & S3) B s. apply it_body_inv in B. destruct B as (row & k & _ & _ & [(K & [(s1 & M & E)|(s1 & M & E)])|(K & E)]); [|discriminate|];
  assert (II : forall (x y : it_state R), @inl _ (it_state R) x = inl y -> x = y) by (intros ? ? X; now inversion X); apply II in E; subst st'.
  - apply it_move_ok in M. destruct M as (ft & ad & ac & acts & MA & _ & _ & _ & A1 & _ & _ & M1 & _ & CO).
    destruct (it_next_fields c k s1) as (_ & _ & _ & _ & -> & _). assert (SF : shape2 nF nS ft) by (eapply shape_mark; eauto).
    destruct (mark_rows _ _ _ _ _ MA) as [[_ M2] _]. specialize (M2 f ltac:(intros E; apply (OF (it_actor st)); [assumption|congruence])). rewrite <- M2.
    destruct CO as [(_ & -> & _)|(_ & p & _ & _ & ->)]; [now left|]. destruct (LC (it_actor st)) as [LM|]; [|lia]. rewrite consume_at_nth by (destruct SF; lia). destruct (nth f _ false); [|now left].
    apply nth_upd_zero.
  - destruct (it_next_fields c k st) as (_ & _ & _ & _ & -> & _). now left.
Qed.
End Features.

Definition well_shaped (c : search R) (nS nF : nat) : Prop :=
  shape2 nF nS (s_features c) /\ length (s_sas c) = nS /\ length (s_consumes c) = length (s_start c) /\ (forall i, i < length (s_start c) -> length (nth i (s_consumes c) []) = nF) /\ 0 < length (s_start c).

(** Ordinary features are never created, and what is gone stays gone: from any point of an iteration to
    any later one, each entry of an ordinary feature keeps its value or becomes 0. *)
Theorem C40_never_created : forall score c V N rnd nS nF k st st', well_shaped c nS nF ->
  later score c V N rnd (it_start c k) st -> later score c V N rnd st st' -> forall f s, ordinary c f ->
  nth s (nth f (it_features st') []) 0%R = nth s (nth f (it_features st) []) 0%R \/ nth s (nth f (it_features st') []) 0%R = 0%R.
Proof.
  intros score c V N rnd nS nF k st st' (W1 & W2 & W3 & W4 & W5) L1 L2 f s OF.
  assert (LC : forall i, length (nth i (s_consumes c) []) = nF \/ length (s_consumes c) <= i) by (intros i; destruct (Nat.lt_ge_cases i (length (s_start c))); [left; auto|right; lia]).
  assert (S1 : shaped c nS nF st).
  { refine (later_ind_pass _ _ score c V N rnd (shaped c nS nF) _ _ _ L1 _); [intros; eapply shaped_body; eauto|]. now apply shaped_start. }
  enough (G : shaped c nS nF st' /\ (nth s (nth f (it_features st') []) 0%R = nth s (nth f (it_features st) []) 0%R \/ nth s (nth f (it_features st') []) 0%R = 0%R)) by apply G.
  refine (later_ind_pass _ _ score c V N rnd (fun st' => shaped c nS nF st' /\ (nth s (nth f (it_features st') []) 0%R = nth s (nth f (it_features st) []) 0%R \/ nth s (nth f (it_features st') []) 0%R = 0%R)) _ _ _ L2 _); [|split; [exact S1|now left]]. intros s1 s2 [P1 P2] _ B. split; [eapply shaped_body; eauto|].
  destruct (ordinary_body score c V N rnd nS nF LC W3 W5 f s1 s2 OF P1 B s) as [->| ->]; auto.
Qed.

(** A move of an active agent ends in a state where none of the features it consumes is left. *)
Theorem C40_consumed : forall score c V N rnd nS nF k st st', well_shaped c nS nF ->
  later score c V N rnd (it_start c k) st -> it_move score c V N rnd st = Ok (inl st') -> nth (it_actor st) (it_active st') false = true ->
  exists p, p < nS /\ py_index nS (nth (it_actor st) (it_nodes st') 0%Z) = Ok p /\
    forall f, takes (s_consumes c) (it_actor st) f -> nth p (nth f (it_features st') []) 0%R = 0%R.
Proof.
  intros score c V N rnd nS nF k st st' (W1 & W2 & W3 & W4 & W5) L1 M AC.
  assert (LC : forall i, length (nth i (s_consumes c) []) = nF \/ length (s_consumes c) <= i) by (intros i; destruct (Nat.lt_ge_cases i (length (s_start c))); [left; auto|right; lia]).
  assert (S1 : shaped c nS nF st).
  { refine (later_ind_pass _ _ score c V N rnd (shaped c nS nF) _ _ _ L1 _); [intros; eapply shaped_body; eauto|]. now apply shaped_start. }
  destruct S1 as (S1 & S2 & S3). apply it_move_ok in M. destruct M as (ft & ad & ac & acts & MA & _ & _ & _ & A1 & _ & EA & M1 & _ & CO). rewrite EA in AC.
  destruct CO as [(X & _)|(_ & p & HP & _ & EF)]; [congruence|]. rewrite W2 in HP. exists p. pose proof (py_index_ok _ _ _ HP) as [Lp _]. split; [exact Lp|]. split; [exact HP|].
  intros f TF. unfold takes in TF. assert (SF : shape2 nF nS ft) by (eapply shape_mark; eauto). destruct SF as [F1 F2]. specialize (W4 _ S2).
  assert (Lf : f < nF) by (destruct (Nat.lt_ge_cases f nF); [assumption|]; rewrite nth_overflow in TF by lia; discriminate).
  rewrite EF, consume_at_nth by lia. rewrite TF. apply nth_upd_same. now rewrite F2.
Qed.

(** What a move of the primary agent to state [x] pays: what it gains or loses by overlaps, and the weights
    of the features found in [x], as they are before the move (with the agent's own marker at the state
    it comes from). *)
Theorem C40_collects : forall score c V N rnd nS nF k st st', well_shaped c nS nF -> length (nth 0 (s_rewards c) []) = nF -> nS = length (s_sas c) ->
  later score c V N rnd (it_start c k) st -> it_actor st = 0 -> it_move score c V N rnd st = Ok (inl st') -> shape3 nS (length (nth 0 (s_sas c) [])) nS (s_sas c) ->
  exists x added active ft, it_visited st' = it_visited st ++ [x] /\ overlap_of c st = (added, active, false) /\ mark_actor c st = Ok ft /\
    it_reward st' = (it_reward st + added + reward_of (nth 0 (s_rewards c) []) ft x)%R /\
    forall f, ordinary c f -> nth f ft [] = nth f (it_features st) [].
Proof.
  intros score c V N rnd nS nF k st st' (W1 & W2 & W3 & W4 & W5) LR ENS L1 A0 M SAS.
  assert (LC : forall i, length (nth i (s_consumes c) []) = nF \/ length (s_consumes c) <= i) by (intros i; destruct (Nat.lt_ge_cases i (length (s_start c))); [left; auto|right; lia]).
  assert (S1 : shaped c nS nF st).
  { refine (later_ind_pass _ _ score c V N rnd (shaped c nS nF) _ _ _ L1 _); [intros; eapply shaped_body; eauto|]. now apply shaped_start. }
  destruct S1 as (S1 & S2 & S3). apply it_move_ok in M. destruct M as (ft & ad & ac & acts & MA & OV & GA & _ & A1 & _ & EA & M1 & WH & CO).
  destruct WH as [(_ & x & NX & ER & EV & _)|[(X & _)|(X & _)]]; [|congruence|congruence]. exists x, ad, ac, ft. split; [exact EV|]. split; [exact OV|]. split; [exact MA|].
  assert (Lx : x < nS).
  { apply next_node_in in NX. apply in_map_iff in NX. destruct NX as ([a t] & E & NX). cbn in E. subst t. apply get_actions_states_spec in GA. destruct GA as (s & PS & GA). apply GA in NX. apply py_index_ok in PS.
    apply (walk_bound nS _ (s_sas c) SAS [x] s ltac:(lia)); [split; [now exists a|exact I]|now left]. }
  assert (SF : shape2 nF nS ft) by (eapply shape_mark; eauto). destruct SF as [F1 F2]. split.
  - rewrite ER. cbn [nadd NumR n0]. rewrite state_rewards_nth by lia. reflexivity.
  - intros f OF. destruct (mark_rows _ _ _ _ _ MA) as [[_ M2] _]. apply M2. intros E. apply (OF (it_actor st)); [assumption|congruence].
Qed.

(** * The reward of an iteration without interaction, exactly *)
(** What the [i]-th of the visited states [l] holds of feature [f] when the agent (which starts in [s0], is
    marked by feature [own] and consumes the features [cons]) arrives there: its own marker is at the state it
    comes from; features it consumes are gone from the states visited before. *)
Definition held (features : list (list R)) (own : nat) (cons : nat -> bool) (s0 : nat) (l : list nat) (i f : nat) : R :=
  let x := nth i l 0 in
  if f =? own then (if x =? (match i with 0 => s0 | S j => nth j l 0 end) then 1%R else 0%R)
  else if cons f && existsb (Nat.eqb x) (firstn i l) then 0%R
  else nth x (nth f features []) 0%R.
Definition gathered (rf : list R) (features : list (list R)) (own : nat) (cons : nat -> bool) (s0 : nat) (l : list nat) : R :=
  sumf (fun i => sumf (fun f => (nth f rf 0 * held features own cons s0 l i f)%R) (seq 0 (length rf))) (seq 0 (length l)).

Lemma gathered_snoc : forall rf features own cons s0 l x, gathered rf features own cons s0 (l ++ [x]) =
  (gathered rf features own cons s0 l + sumf (fun f => (nth f rf 0 * (if (f =? own)%nat then (if (x =? last l s0)%nat then 1 else 0) else if cons f && existsb (Nat.eqb x) l then 0 else nth x (nth f features []) 0))%R) (seq 0 (length rf)))%R.
Proof.
  intros rf features own cons s0 l x. unfold gathered. rewrite app_length. cbn [length]. rewrite Nat.add_1_r, seq_S, sumf_app, sumf_cons, sumf_nil. cbn [Nat.add]. rewrite Rplus_0_r. f_equal.
  - apply sumf_ext. intros i Hi. apply in_seq in Hi. apply sumf_ext. intros f _. f_equal. unfold held. rewrite app_nth1 by lia. rewrite firstn_app. replace (i - length l) with 0 by lia. rewrite firstn_O, app_nil_r.
    destruct i as [|j]; [reflexivity|]. rewrite app_nth1 by lia. reflexivity.
  - apply sumf_ext. intros f _. f_equal. unfold held. rewrite app_nth2, Nat.sub_diag by lia. cbn [nth]. rewrite firstn_app, Nat.sub_diag, firstn_all, firstn_O, app_nil_r.
    assert (EL : (match length l with 0 => s0 | S j => nth j (l ++ [x]) 0 end) = last l s0).
    { destruct (exists_last (l := x :: l) ltac:(discriminate)) as (_ & _ & _). destruct l as [|y l] using rev_ind; [reflexivity|]. rewrite last_last, app_length. cbn [length]. rewrite Nat.add_1_r. rewrite app_nth1 by (rewrite app_length; cbn; lia). rewrite app_nth2, Nat.sub_diag by lia. reflexivity. }
    rewrite EL. reflexivity.
Qed.

Section AloneReward.
Variables (score : scorer R) (c : search R) (V N : list R) (rnd : nat -> nat) (nS nF s0 : nat).
Hypotheses (WS : well_shaped c nS nF) (LR : length (nth 0 (s_rewards c) []) = nF) (SAS : shape3 nS (length (nth 0 (s_sas c) [])) nS (s_sas c))
  (INT : s_interactive c = false) (P0 : py_index nS (nth 0 (s_start c) 0%Z) = Ok s0).
Let rf := nth 0 (s_rewards c) [].
Let own := nth 0 (s_feature_idx c) 0.
Let cons f := nth f (nth 0 (s_consumes c) []) false.
Definition collecting (st : it_state R) : Prop :=
  shaped c nS nF st /\ it_actor st = 0 /\ nth 0 (it_active st) false = true /\ py_index nS (nth 0 (it_nodes st) 0%Z) = Ok (last (it_visited st) s0) /\ 0 < length (it_nodes st) /\
  it_reward st = gathered rf (s_features c) own cons s0 (it_visited st) /\
  forall f s, f < nF -> f <> own -> nth s (nth f (it_features st) []) 0%R = if cons f && existsb (Nat.eqb s) (it_visited st) then 0%R else nth s (nth f (s_features c) []) 0%R.
Lemma collecting_start : forall k, collecting (it_start c k).
Proof using WS LR P0.
  intros k. destruct WS as (W1 & W2 & W3 & W4 & W5). 
  assert (LC : forall i, length (nth i (s_consumes c) []) = nF \/ length (s_consumes c) <= i) by (intros i; destruct (Nat.lt_ge_cases i (length (s_start c))); [left; auto|right; lia]).
  unfold collecting. split; [now apply shaped_start|]. unfold it_start. cbn [it_actor it_active it_nodes it_visited it_reward it_features last].
  split; [reflexivity|]. split; [destruct (length (s_start c)); [lia|reflexivity]|]. split; [exact P0|]. split; [exact W5|]. split; [reflexivity|]. intros f s _ _. cbn [existsb]. now rewrite andb_false_r.
Qed.
Lemma collecting_body : forall st st', collecting st -> it_body score c V N rnd st = Ok (inl st') -> collecting st'.
Proof using WS LR SAS INT P0.
  intros st st' (S0 & A0 & AC & NO & LN & RW & FT) B. destruct WS as (W1 & W2 & W3 & W4 & W5).
  assert (LC : forall i, length (nth i (s_consumes c) []) = nF \/ length (s_consumes c) <= i) by (intros i; destruct (Nat.lt_ge_cases i (length (s_start c))); [left; auto|right; lia]).
  assert (SB : shaped c nS nF st') by (eapply shaped_body; eauto).
  apply it_body_inv in B. destruct B as (row & k & _ & _ & [(K & [(s1 & M & E)|(s1 & M & E)])|(K & E)]); [|discriminate|];
  assert (II : forall (x y : it_state R), @inl _ (it_state R) x = inl y -> x = y) by (intros ? ? X; now inversion X); apply II in E; subst st'; rewrite (alone_next c INT) in *.
  2:{ unfold collecting. auto 10. }
  apply it_move_ok in M. destruct M as (ft & ad & ac & acts & MA & OV & GA & _ & A1 & _ & EA & M1 & WH & CO). rewrite A0 in *.
  unfold overlap_of in OV. rewrite INT in OV. assert (ad = 0%R /\ ac = it_active st) as [-> ->] by (now inversion OV). clear OV.
  destruct WH as [(_ & x & NX & ER & EV & EN & _)|[(X & _)|(X & _)]]; [|congruence|congruence].
  assert (Lx : x < nS).
  { apply next_node_in in NX. apply in_map_iff in NX. destruct NX as ([a t] & E & NX). cbn in E. subst t. apply get_actions_states_spec in GA. destruct GA as (s & PS & GA). apply GA in NX. apply py_index_ok in PS.
    apply (walk_bound nS _ (s_sas c) SAS [x] s ltac:(lia)); [split; [now exists a|exact I]|now left]. }
  assert (SF : shape2 nF nS ft). { destruct S0 as (S1 & _). eapply shape_mark; eauto. }
  assert (E0 : nth 0 (it_nodes s1) 0%Z = Z.of_nat x) by (rewrite EN; now apply nth_upd_same).
  destruct CO as [(X & _)|(_ & p & HP & _ & EF)]; [congruence|].
  assert (p = x). { rewrite E0, W2 in HP. apply py_index_ok in HP. lia. } subst p.
  assert (MO : forall f, f <> own -> nth f ft [] = nth f (it_features st) []). { intros f Hf. destruct (mark_rows _ _ _ _ _ MA) as [[_ M2] _]. apply M2. rewrite A0. exact Hf. }
  assert (OW : own < nF -> forall s, nth s (nth own ft []) 0%R = if s =? last (it_visited st) s0 then 1%R else 0%R).
  { intros Lo s. unfold mark_actor in MA. rewrite A0 in MA. fold own in MA. apply bind_ok in MA. destruct MA as (p & HP' & MA). inversion MA. subst ft. clear MA. destruct S0 as ([S1 S1'] & _).
    rewrite nth_upd_same by lia. rewrite map_length, (S1' own Lo) in HP'. rewrite NO in HP'. inversion HP'. subst p.
    destruct (Nat.eqb_spec s (last (it_visited st) s0)) as [->|D].
    - apply nth_upd_same. rewrite map_length, (S1' own Lo). apply py_index_ok in NO. lia.
    - rewrite nth_upd_other by assumption. destruct (Nat.lt_ge_cases s (length (nth own (it_features st) []))) as [Ls|Ls]; [|apply nth_overflow; now rewrite map_length].
      now rewrite (nth_map_lt _ _ _ _ s 0%R 0%R). }
  unfold collecting. rewrite A1, EA, EV, E0, last_last. split; [exact SB|]. split; [reflexivity|]. split; [exact AC|]. split; [now apply py_index_nat|]. split; [rewrite EN, upd_length; exact LN|]. split.
  - rewrite ER, gathered_snoc, RW. cbn [nadd NumR n0]. rewrite Rplus_0_r. f_equal. fold rf. destruct SF as [F1 F2]. rewrite state_rewards_nth by (rewrite ?W2; fold rf in LR; lia).
    unfold reward_of. apply sumf_ext. intros f Hf. apply in_seq in Hf. fold rf in LR. f_equal. destruct (Nat.eqb_spec f own) as [->|D].
    + apply OW. lia.
    + rewrite MO by assumption. rewrite FT by (assumption || lia). reflexivity.
  - intros f s Lf Hf. specialize (W4 0 W5). rewrite EF, consume_at_nth by (destruct SF; lia). change (nth f (nth 0 (s_consumes c) []) false) with (cons f). rewrite existsb_app. cbn [existsb]. rewrite orb_false_r. rewrite MO by assumption. destruct (cons f) eqn:EC; cbn [andb].
    + destruct (Nat.eqb_spec s x) as [->|D].
      * rewrite orb_true_r. destruct S0 as ([S1 S1'] & _). apply nth_upd_same. now rewrite S1'.
      * rewrite nth_upd_other by assumption. rewrite orb_false_r, FT, EC by assumption. reflexivity.
    + rewrite FT, EC by assumption. reflexivity.
Qed.
End AloneReward.

(** The reward of an iteration without interaction is what the visited states pay, consumed features paying
    once. *)
Theorem C40_reward_alone : forall score c (V N : list R) k rnd fuel nS nF s0 reward visited k' o, well_shaped c nS nF -> length (nth 0 (s_rewards c) []) = nF ->
  shape3 nS (length (nth 0 (s_sas c) [])) nS (s_sas c) -> s_interactive c = false -> py_index nS (nth 0 (s_start c) 0%Z) = Ok s0 ->
  mcts_iteration score c V N k rnd fuel = Ok (reward, visited, k', o) ->
  reward = gathered (nth 0 (s_rewards c) []) (s_features c) (nth 0 (s_feature_idx c) 0) (fun f => nth f (nth 0 (s_consumes c) []) false) s0 visited.
Proof.
  intros score c V N k rnd fuel nS nF s0 reward visited k' o WS LR SAS INT P0 H. unfold mcts_iteration in H. apply bind_ok in H. destruct H as ([st b] & H & E).
  assert (it_reward st = reward /\ it_visited st = visited) as [<- <-] by (inversion E; auto). clear E.
  enough (G : collecting c nS nF s0 st) by apply G.
  revert H. apply (it_loop_inv score c V N rnd (collecting c nS nF s0) (fun st _ => collecting c nS nF s0 st)).
  - intros s s' C _ B. eapply collecting_body; eauto.
  - intros s s' C _ B. exfalso. apply it_body_inv in B. destruct B as (row & q & _ & _ & [(K & [(s1 & M & E)|(s1 & M & E)])|(K & E)]); try discriminate.
    apply it_move_caught in M. destruct M as (ft & ad & ac & _ & OV & _). unfold overlap_of in OV. rewrite INT in OV. discriminate.
  - auto.
  - now apply collecting_start.
Qed.

(** A berry worth 3 in state 2 is consumed on arrival; the second visit pays nothing. *)
Example C40_example : exists c, make_search false [[0; 0; 1]; [0; 1; 0]]%Q row3 [mkInfo 1 1 [0%Z] [3; 0]%Q 1] [[3%Z]] 0%Q 0%Q OppRandom false 1 0%Q 0%Q = Ok c /\
  mcts_iteration (A:=Q) mean_score c [0; 0; 0]%Q [0; 0; 0]%Q [[]] (fun _ => 0) 20 = Ok (3%Q, [2; 1; 2], [[]], []).
Proof. eexists. split; vm_compute; reflexivity. Qed.
