(** C41: caching the opponents' Q values. *)
From Coq Require Import String List ZArith QArith Reals Bool Lia Lra.
From Verif Require Import PyBase PyProofs MDPModel MDPProofs MDPProps ActionModel ActionSpec ActionProofs EnvModel PlanProps RSum VIModel VISpec VIProofs2 MCTSModel MCTSSpec MCTSProofs MCTSProofs2 MCTSProofs3 MCTSProps MCTSWalk MCTSEaten.
Import ListNotations.
Local Close Scope Q_scope.
Local Open Scope nat_scope.

(** The same search with caching switched on or off. *)
Definition with_caching {A} (b : bool) (c : search A) : search A :=
  mkSearch (s_interactive c) (s_sas c) (s_features c) (s_start c) (s_n_moves c) (s_consumes_agents c) (s_consumes c) (s_values c) (s_rewards c) (s_feature_idx c)
    (s_C c) (s_cost c) (s_policy c) b (s_max_iter c) (s_discount c) (s_tol c).

(** Refuted. A hub (0) with two rooms (1 and 2); the hunter comes from state 4 through state 3, from where
    it can enter either room. It wants to be where the primary agent is, and eats it. Each room leads
    back to the hub. *)
Definition hub : list (list (list Q)) :=
  [[[0; 1; 0; 0; 0]; [0; 0; 1; 0; 0]]; [[1; 0; 0; 0; 0]; [0; 0; 0; 0; 0]]; [[1; 0; 0; 0; 0]; [0; 0; 0; 0; 0]];
   [[0; 1; 0; 0; 0]; [0; 0; 1; 0; 0]]; [[0; 0; 0; 1; 0]; [0; 0; 0; 0; 0]]]%Q.
Definition hunted (caching : bool) : res (list Q * list Q * cache Q * list (list nat)) :=
  run_mcts mean_score true 2 [[1; 0; 0; 0; 0]; [0; 0; 0; 0; 1]]%Q hub [mkInfo 0 1 [] [0; 0]%Q 0; mkInfo 4 1 [0%Z] [1; 0]%Q 1] 0%Q (Some [[1; 1; 1]; [1; 1; 1]]%Z) (-100)%Q
    (OppSolve (select_max (A:=Q))) caching 3 (1 # 2)%Q (1 # 100)%Q None (fun i t => i) 30.
(** In both searches the second iteration goes into room 2, back, and into room 2 again. Without the cache
    the hunter sees where the primary agent has been, enters room 2 and catches it; with the cache it
    uses values computed when the primary agent had been in room 1, and misses it. *)
Theorem C41_stale_values_refuted : exists V V' N N' k k' st, hunted false = Ok (V, N, k, st) /\ hunted true = Ok (V', N', k', st) /\ N = N' /\
  V = [-200; -200; -200; 0; 0]%Q /\ V' = [-100; -200; 0; 0; 0]%Q.
Proof. do 7 eexists. vm_compute. auto 10. Qed.

(** * What holds *)
Lemma solve_ext : forall (rf : list R) ft ft' mi g sas tol nF nS, length sas = nS -> length ft = nF -> length ft' = nF ->
  (forall f s, s < nS -> nth f rf 0%R <> 0%R -> nth s (nth f ft []) 0%R = nth s (nth f ft' []) 0%R) ->
  solve_value_iteration hard_backup rf ft mi g sas tol = solve_value_iteration hard_backup rf ft' mi g sas tol.
Proof.
  intros rf ft ft' mi g sas tol nF nS LS L L' H. unfold solve_value_iteration. destruct (negb (nltb g n1 && nltb n0 g)); [reflexivity|]. rewrite L, L'. destruct (length rf =? nF) eqn:E; [|reflexivity]. apply Nat.eqb_eq in E. cbn [negb].
  replace (state_rewards (length sas) rf ft') with (state_rewards (length sas) rf ft); [reflexivity|]. rewrite LS.
  apply (nth_ext _ _ 0%R 0%R); [unfold state_rewards; now rewrite !map_length|]. intros s Hs. unfold state_rewards in Hs. rewrite map_length, seq_length in Hs.
  rewrite !state_rewards_nth by lia. unfold reward_of. apply sumf_ext. intros f _. destruct (Req_EM_T (nth f rf 0%R) 0) as [->|D]; [lra|]. now rewrite H.
Qed.
Lemma pref_in : forall (rf : list R) f, In f (preferences rf) <-> nth f rf 0%R <> 0%R.
Proof.
  intros rf f. unfold preferences. rewrite (in_where _ _ _ _ 0%R). cbn [neqb NumR n0]. unfold Reqb. split.
  - intros [_ H]. destruct (Req_EM_T (nth f rf 0%R) 0); [discriminate|assumption].
  - intros H. split; [|destruct (Req_EM_T (nth f rf 0%R) 0); [contradiction|reflexivity]]. destruct (Nat.lt_ge_cases f (length rf)); [assumption|]. rewrite nth_overflow in H by assumption. now contradiction H.
Qed.
Lemma key_sound : forall k k', key_eqb k k' = true -> k = k'.
Proof.
  intros [a b] [a' b'] H. unfold key_eqb in H. cbn [fst snd] in H. destruct (list_eq_dec Z.eq_dec a a'); [|discriminate]. destruct (list_eq_dec (list_eq_dec Z.eq_dec) b b'); [|discriminate]. now subst.
Qed.

Section Sim.
Variables (score : scorer R) (c : search R) (V N : list R) (rnd : nat -> nat) (nS nF : nat).
Hypotheses (WS : well_shaped c nS nF)
  (ONE : forall i, i < length (s_start c) -> length (where_ (fun b => b) (nth i (s_consumes c) [])) <= 1)
  (ORD : forall i f, 0 < i < length (s_start c) -> nth f (nth i (s_rewards c) []) 0%R <> 0%R -> ordinary c f).
Let on := with_caching true c.
Let off := with_caching false c.

(** [s] is not in the record [r], or the entry is gone. *)
Definition seen_row (r : list Z) (f s : nat) : R := if in_dec Z.eq_dec (Z.of_nat s) r then 0%R else nth s (nth f (s_features c) []) 0%R.
(** The cached value is what solving yields for any features agreeing with the key's records. *)
Definition entry_ok (a : nat) (key : cache_key) (q : option (list (list (fval R)))) : Prop :=
  match s_policy c with
  | OppSolve _ => exists qv v, q = Some qv /\ forall ft, length ft = nF ->
      (forall j f, nth_error (preferences (nth a (s_rewards c) [])) j = Some f -> forall s, s < nS -> nth s (nth f ft []) 0%R = seen_row (nth j (snd key) []) f s) ->
      solve_value_iteration hard_backup (nth a (s_rewards c) []) ft (s_max_iter c) (s_discount c) (s_sas c) (s_tol c) = Ok (v, qv)
  | _ => True
  end.
Definition cache_ok (k : cache R) : Prop := forall a key q, 0 < a < length (s_start c) -> In (key, q) (nth a k []) -> entry_ok a key q.

Record same (st st' : it_state R) : Prop := mkSame {
  sm_total : it_total st = it_total st'; sm_expand : it_expand st = it_expand st'; sm_reward : it_reward st = it_reward st'; sm_visited : it_visited st = it_visited st';
  sm_nodes : it_nodes st = it_nodes st'; sm_actor : it_actor st = it_actor st'; sm_features : it_features st = it_features st'; sm_moves : it_moves st = it_moves st';
  sm_turns : it_turns st = it_turns st'; sm_active : it_active st = it_active st'; sm_others : it_others st = it_others st' }.
Record good (st : it_state R) : Prop := mkGood {
  gd_shaped : shaped c nS nF st; gd_nodes : length (it_nodes st) = length (s_start c); gd_alone : s_interactive c = false -> it_actor st = 0;
  gd_len : length (it_consumed st) = nF;
  gd_rows : forall f s, ordinary c f -> f < nF -> s < nS -> nth s (nth f (it_features st) []) 0%R = seen_row (nth f (it_consumed st) []) f s;
  gd_cache : cache_ok (it_cache st) }.

Lemma good_start : forall k, cache_ok k -> good (it_start on k).
Proof using WS.
  intros k CK. destruct WS as (W1 & W2 & W3 & W4 & W5). constructor.
  - unfold shaped, it_start. cbn [it_features it_actor it_moves on with_caching s_features s_start]. split; [exact W1|]. split; [exact W5|apply repeat_length].
  - reflexivity.
  - reflexivity.
  - cbn [it_start it_consumed on with_caching s_features]. rewrite repeat_length. apply W1.
  - intros f s _ Hf Hs. cbn [it_start it_consumed it_features on with_caching s_features]. rewrite nth_repeat. unfold seen_row. now destruct (in_dec _ _ _) as [[]|].
  - exact CK.
Qed.
Lemma same_start : forall k k', same (it_start on k) (it_start off k').
Proof using. intros k k'. constructor; reflexivity. Qed.

(** Opponents. *)
Lemma opponent_sim : forall st st' ft states d, same st st' -> good st -> 0 < it_actor st -> mark_actor c st = Ok ft ->
  match opponent_move on st ft states d, opponent_move off st' ft states d with
  | Ok (x, k), Ok (y, _) => x = y /\ cache_ok k
  | Err e, Err e' => e = e'
  | _, _ => False
  end.
Proof using WS ORD.
  intros st st' ft states d S G A0 MA. unfold opponent_move. rewrite <- (sm_actor _ _ S), <- (sm_nodes _ _ S). cbn [on off with_caching s_rewards s_caching s_policy s_sas s_max_iter s_discount s_tol]. set (a := it_actor st) in *.
  destruct (gd_shaped _ G) as (SH & La & _). destruct WS as (W1 & W2 & W3 & W4 & W5).
  set (rf := nth a (s_rewards c) []). destruct (preferences rf) as [|f0 pr] eqn:EP; [reflexivity|].
  set (key := (others_nodes (it_nodes st) a, map (fun f => nth f (it_consumed st) []) (f0 :: pr))).
  set (key' := (others_nodes (it_nodes st) a, map (fun f => nth f (it_consumed st') []) (f0 :: pr))).
  assert (LF : length ft = nF). { destruct (mark_rows _ _ _ _ _ MA) as [[X _] _]. destruct SH. lia. }
  assert (SEEN : forall j f, nth_error (preferences rf) j = Some f -> forall s, s < nS -> nth s (nth f ft []) 0%R = seen_row (nth j (snd key) []) f s).
  { intros j f Hj s Hs. assert (IN : In f (preferences rf)) by (eapply nth_error_In; eauto). apply pref_in in IN. assert (OF : ordinary c f) by (apply (ORD a); [lia|exact IN]).
    destruct (mark_rows _ _ _ _ _ MA) as [[_ X] _]. rewrite X by (intros E; apply (OF (it_actor st)); [assumption|congruence]). unfold key. cbn [snd]. rewrite EP in Hj.
    assert (Lj : j < length (f0 :: pr)) by (apply nth_error_Some; congruence). rewrite (nth_map_lt _ _ _ _ j [] 0) by exact Lj. rewrite (nth_error_nth _ _ 0 Hj).
    destruct (Nat.lt_ge_cases f nF) as [Lf|Lf]; [now apply (gd_rows _ G)|].
    destruct SH as [SH _]. rewrite nth_overflow by (rewrite nth_overflow by lia; cbn; lia). unfold seen_row. destruct (in_dec _ _ _); [reflexivity|]. rewrite nth_overflow; [reflexivity|]. rewrite nth_overflow by (destruct W1; lia). cbn. lia. }
  cbn [opp_next_state]. destruct (s_policy c) as [|sel|] eqn:POL.
  - assert (NOQ : forall q, opp_next_state OppRandom states (nth a (it_nodes st) 0%Z) rf ft (s_sas c) (s_max_iter c) (s_discount c) (s_tol c) q d = match pick states d with Ok x => Ok (x, q) | Err e => Err e end). { intros q. cbn. destruct (pick states d); reflexivity. }
    rewrite !NOQ. destruct (cache_find (it_cache st) a key) as [q|] eqn:CF; rewrite ?NOQ; destruct (pick states d) as [x|e]; cbn [bind]; auto.
    + split; [reflexivity|]. apply (gd_cache _ G).
    + split; [reflexivity|]. intros b k q Hb Hin. unfold entry_ok. now rewrite POL.
  - assert (GO : forall q, match q with None => True | Some qv => exists v, solve_value_iteration hard_backup rf ft (s_max_iter c) (s_discount c) (s_sas c) (s_tol c) = Ok (v, qv) end ->
       opp_next_state (OppSolve sel) states (nth a (it_nodes st) 0%Z) rf ft (s_sas c) (s_max_iter c) (s_discount c) (s_tol c) q d =
       opp_next_state (OppSolve sel) states (nth a (it_nodes st) 0%Z) rf ft (s_sas c) (s_max_iter c) (s_discount c) (s_tol c) None d).
    { intros [qv|] H; [|reflexivity]. destruct H as (v & H). unfold opp_next_state. rewrite H. reflexivity. }
    destruct (cache_find (it_cache st) a key) as [q|] eqn:CF.
    + unfold cache_find in CF. destruct (find _ _) as [[k q0]|] eqn:FI; [|discriminate]. cbn [snd] in CF. inversion CF. subst q0. clear CF. apply find_some in FI. destruct FI as [FI KE]. cbn [fst] in KE. apply key_sound in KE. subst k.
      pose proof (gd_cache _ G a key q ltac:(lia) FI) as EO. unfold entry_ok in EO. rewrite POL in EO. destruct EO as (qv & v & -> & EO).
      rewrite (GO (Some qv)) by (exists v; apply EO; assumption).
      destruct (opp_next_state (OppSolve sel) states _ rf ft _ _ _ _ None d) as [[x q']|e]; cbn [bind]; [|reflexivity]. split; [reflexivity|apply (gd_cache _ G)].
    + destruct (opp_next_state (OppSolve sel) states _ rf ft _ _ _ _ None d) as [[x q']|e] eqn:ON; cbn [bind]; [|reflexivity]. split; [reflexivity|].
      intros b k q Hb Hin. unfold cache_put in Hin. destruct (Nat.eq_dec b a) as [->|D].
      2:{ rewrite nth_upd_other in Hin by assumption. now apply (gd_cache _ G). }
      destruct (Nat.lt_ge_cases a (length (it_cache st))) as [Lk|Lk].
      2:{ rewrite nth_overflow in Hin by (now rewrite upd_length). destruct Hin. }
      rewrite nth_upd_same in Hin by exact Lk. destruct Hin as [E|Hin]; [|now apply (gd_cache _ G)]. inversion E. subst k q. clear E.
      unfold entry_ok. rewrite POL. unfold opp_next_state in ON. apply bind_ok in ON. destruct ON as (qv & SV & ON). apply bind_ok in SV. destruct SV as ([v qv'] & SV & E). inversion E. subst qv'. clear E.
      apply bind_ok in ON. destruct ON as (s0 & _ & ON). apply bind_ok in ON. destruct ON as (act & _ & ON). destruct (existsb _ _); [|discriminate]. inversion ON. exists qv, v. split; [reflexivity|].
      intros ft2 L2 H2. rewrite <- SV. apply (solve_ext _ _ _ _ _ _ _ nF nS W2 L2 LF). intros f s Hs NZ. apply pref_in in NZ. apply In_nth_error in NZ. destruct NZ as (j & Hj). rewrite (H2 j f Hj s Hs). now rewrite (SEEN j f Hj s Hs).
  - destruct (cache_find _ _ _); reflexivity.
Qed.

(** Consumption. *)
Lemma mask_one : forall i f g, i < length (s_start c) -> nth f (nth i (s_consumes c) []) false = true -> nth g (nth i (s_consumes c) []) false = true -> f = g.
Proof using ONE.
  intros i f g Hi Hf Hg. specialize (ONE i Hi). assert (W : forall f, nth f (nth i (s_consumes c) []) false = true -> In f (where_ (fun b => b) (nth i (s_consumes c) []))).
  { intros h H. apply (in_where _ _ _ _ false). split; [|exact H]. destruct (Nat.lt_ge_cases h (length (nth i (s_consumes c) []))); [assumption|]. rewrite nth_overflow in H by assumption. discriminate. }
  apply W in Hf, Hg. destruct (where_ _ _) as [|x [|y r]]; [destruct Hf| |cbn in ONE; lia]. destruct Hf as [<-|[]], Hg as [<-|[]]. reflexivity.
Qed.
Lemma record_sim : forall a ft p consumed, a < length (s_start c) -> shape2 nF nS ft -> p < nS -> length consumed = nF ->
  (forall f s, ordinary c f -> f < nF -> s < nS -> nth s (nth f ft []) 0%R = seen_row (nth f consumed []) f s) ->
  exists consumed', record_consumed true ft (nth a (s_consumes c) []) p (Z.of_nat p) consumed = Ok consumed' /\ length consumed' = nF /\
    forall f s, ordinary c f -> f < nF -> s < nS -> nth s (nth f (consume_at ft (nth a (s_consumes c) []) p) []) 0%R = seen_row (nth f consumed' []) f s.
Proof using WS ONE.
  intros a ft p consumed Ha SF Hp LC H. destruct WS as (W1 & W2 & W3 & W4 & W5). specialize (W4 a Ha). unfold record_consumed.
  pose proof (fun f => in_where _ (fun b : bool => b) (nth a (s_consumes c) []) f false) as IW. specialize (ONE a Ha).
  destruct SF as [F1 F2].
  destruct (where_ (fun b => b) (nth a (s_consumes c) [])) as [|g [|h r]] eqn:EW; [| |cbn in ONE; lia].
  - exists consumed. split; [reflexivity|]. split; [exact LC|]. intros f s OF Lf Ls. rewrite consume_at_nth by lia. destruct (nth f (nth a (s_consumes c) []) false) eqn:EF; [|now apply H].
    exfalso. apply (IW f). split; [lia|exact EF].
  - assert (Lg : g < nF /\ nth g (nth a (s_consumes c) []) false = true) by (rewrite <- W4; apply IW; now left). destruct Lg as [Lg Eg].
    assert (ME : forall f, f < nF -> nth f (nth a (s_consumes c) []) false = true -> f = g) by (intros f Lf Ef; assert (X : In f [g]) by (apply IW; split; [lia|exact Ef]); destruct X as [X|[]]; congruence).
    change (get2 n0 ft g p) with (nth p (nth g ft []) 0%R). cbn [neqb NumR n0]. unfold Reqb. destruct (Req_EM_T (nth p (nth g ft []) 0%R) 0) as [E0|E0].
    + exists consumed. split; [reflexivity|]. split; [exact LC|]. intros f s OF Lf Ls. rewrite consume_at_nth by lia. destruct (nth f (nth a (s_consumes c) []) false) eqn:EF; [|now apply H].
      apply ME in EF; [|exact Lf]. subst f. rewrite <- H by assumption. destruct (Nat.eq_dec s p) as [->|D]; [|now rewrite nth_upd_other]. rewrite nth_upd_same by (rewrite F2; assumption). now rewrite E0.
    + eexists. split; [reflexivity|]. split; [now rewrite upd_length|]. intros f s OF Lf Ls. rewrite consume_at_nth by lia. destruct (Nat.eq_dec f g) as [->|D].
      * rewrite Eg, nth_upd_same by lia. unfold seen_row. destruct (Nat.eq_dec s p) as [->|D].
        -- rewrite nth_upd_same by (rewrite F2; assumption). destruct (in_dec _ _ _) as [|NI]; [reflexivity|]. exfalso. apply NI. apply in_or_app. right. now left.
        -- rewrite nth_upd_other by assumption. rewrite H by assumption. unfold seen_row. destruct (in_dec Z.eq_dec (Z.of_nat s) (nth g consumed [])) as [I1|I1]; destruct (in_dec Z.eq_dec (Z.of_nat s) (nth g consumed [] ++ [Z.of_nat p])) as [I2|I2]; try reflexivity.
           ++ exfalso. apply I2. apply in_or_app. now left.
           ++ exfalso. apply in_app_or in I2. destruct I2 as [I2|[I2|[]]]; [contradiction|]. lia.
      * rewrite nth_upd_other by congruence. destruct (nth f (nth a (s_consumes c) []) false) eqn:EF; [|now apply H]. apply ME in EF; [congruence|exact Lf].
Qed.

(** One move. *)
Lemma mark_on : forall b st, mark_actor (with_caching b c) st = mark_actor c st.
Proof using. reflexivity. Qed.
Lemma mark_same : forall st st', same st st' -> mark_actor c st = mark_actor c st'.
Proof using. intros st st' S. unfold mark_actor. now rewrite (sm_actor _ _ S), (sm_features _ _ S), (sm_nodes _ _ S). Qed.
Definition moved_alike (r r' : res (it_state R + it_state R)) : Prop :=
  match r, r' with
  | Ok (inl a), Ok (inl b) => same a b /\ good a
  | Ok (inr a), Ok (inr b) => it_reward a = it_reward b /\ it_visited a = it_visited b /\ it_others a = it_others b /\ cache_ok (it_cache a)
  | Err e, Err e' => e = e'
  | _, _ => False
  end.
Lemma consume_sim : forall st st' ft nodes active ex rw vs k ot node_p, same st st' -> good st -> mark_actor c st = Ok ft -> length nodes = length (s_start c) -> cache_ok k ->
  (nth (it_actor st) active false = true -> nth (it_actor st) nodes 0%Z = Z.of_nat node_p) ->
  moved_alike
   (let* (features', consumed) :=
      if nth (it_actor st) active false then
        let node := nth (it_actor st) nodes 0%Z in
        let* p := py_index (length (s_sas c)) node in
        let* consumed := record_consumed true ft (nth (it_actor st) (s_consumes c) []) p node (it_consumed st) in
        Ok (consume_at ft (nth (it_actor st) (s_consumes c) []) p, consumed)
      else Ok (ft, it_consumed st) in
    Ok (inl (mkIt (it_total st + 1) ex rw vs nodes (it_actor st) features'
                  (upd (it_moves st) (it_actor st) (nth (it_actor st) (it_moves st) 0 + 1)%Z) (it_turns st) active consumed k ot)))
   (let* (features', consumed) :=
      if nth (it_actor st) active false then
        let node := nth (it_actor st) nodes 0%Z in
        let* p := py_index (length (s_sas c)) node in
        let* consumed := record_consumed false ft (nth (it_actor st) (s_consumes c) []) p node (it_consumed st') in
        Ok (consume_at ft (nth (it_actor st) (s_consumes c) []) p, consumed)
      else Ok (ft, it_consumed st') in
    Ok (inl (mkIt (it_total st + 1) ex rw vs nodes (it_actor st) features'
                  (upd (it_moves st) (it_actor st) (nth (it_actor st) (it_moves st) 0 + 1)%Z) (it_turns st) active consumed (it_cache st') ot))).
Proof using WS ONE.
  intros st st' ft nodes active ex rw vs k ot x S G MA LN CK HN. destruct (gd_shaped _ G) as (SH & La & Lm). destruct WS as (W1 & W2 & W3 & W4 & W5).
  assert (LC : forall i, length (nth i (s_consumes c) []) = nF \/ length (s_consumes c) <= i) by (intros i; destruct (Nat.lt_ge_cases i (length (s_start c))); [left; auto|right; lia]).
  assert (SF : shape2 nF nS ft) by (eapply shape_mark; eauto).
  assert (ROW : forall f s, ordinary c f -> f < nF -> s < nS -> nth s (nth f ft []) 0%R = seen_row (nth f (it_consumed st) []) f s).
  { intros f s OF Lf Ls. destruct (mark_rows _ _ _ _ _ MA) as [[_ X] _]. rewrite X by (intros E; apply (OF (it_actor st)); [assumption|congruence]). now apply (gd_rows _ G). }
  destruct (nth (it_actor st) active false) eqn:AC.
  - cbv zeta. rewrite (HN eq_refl). destruct (py_index (length (s_sas c)) (Z.of_nat x)) as [p|e] eqn:PI; cbn [bind]; [|reflexivity].
    pose proof (py_index_ok _ _ _ PI) as [Lp EX]. assert (x = p) by lia. subst p. rewrite W2 in Lp.
    destruct (record_sim (it_actor st) ft x (it_consumed st) La SF Lp (gd_len _ G) ROW) as (co & E & L & H). rewrite E. cbn [bind record_consumed moved_alike]. split; [constructor; reflexivity|].
    constructor.
    + split; [apply (shape_consume c nS nF LC W3 W5); auto|]. cbn. rewrite upd_length. auto.
    + exact LN.
    + cbn. apply (gd_alone _ G).
    + exact L.
    + exact H.
    + exact CK.
  - cbn [bind moved_alike]. split; [constructor; reflexivity|]. constructor; cbn.
    + split; [exact SF|]. cbn. rewrite upd_length. auto.
    + exact LN.
    + apply (gd_alone _ G).
    + apply (gd_len _ G).
    + exact ROW.
    + exact CK.
Qed.
Lemma move_sim : forall st st', same st st' -> good st -> moved_alike (it_move score on V N rnd st) (it_move score off V N rnd st').
Proof using WS ONE ORD.
  intros st st' S G. unfold it_move. unfold on, off. rewrite !mark_on. fold on off. rewrite <- (mark_same _ _ S). destruct (mark_actor c st) as [ft|e] eqn:MA; cbn [bind]; [|reflexivity].
  rewrite <- (sm_actor _ _ S), <- (sm_nodes _ _ S), <- (sm_active _ _ S), <- (sm_reward _ _ S), <- (sm_total _ _ S), <- (sm_expand _ _ S), <- (sm_visited _ _ S), <- (sm_moves _ _ S), <- (sm_turns _ _ S), <- (sm_others _ _ S).
  cbn [on off with_caching s_interactive s_consumes_agents s_cost s_values s_sas s_rewards s_C s_caching s_consumes].
  change (if s_interactive c then check_agent_overlap (s_consumes_agents c) (it_nodes st) (s_cost c) (it_active st) (s_values c) else (n0, it_active st, false)) with (overlap_of c st).
  destruct (overlap_of c st) as [[added active] caught] eqn:OV. destruct caught; [cbn [moved_alike it_reward it_visited it_others it_cache]; repeat split; apply (gd_cache _ G)|].
  destruct (get_actions_states (s_sas c) (nth (it_actor st) (it_nodes st) 0%Z)) as [acts|e]; cbn [bind]; [|reflexivity].
  destruct (gd_shaped _ G) as (SH & La & Lm). pose proof (gd_nodes _ G) as LN.
  destruct (Nat.eqb_spec (it_actor st) 0) as [A0|A0].
  - destruct (mcts_next_node score (it_expand st) V N (map snd acts) (s_C c) (nth 0 (it_nodes st) 0%Z) (rnd (Z.to_nat (it_total st)))) as [[x ex]|e]; cbn [bind]; [|reflexivity].
    apply (consume_sim st st' ft _ active ex _ _ _ _ x S G MA); [now rewrite upd_length|apply (gd_cache _ G)|]. intros _. rewrite A0. apply nth_upd_same. lia.
  - destruct (s_interactive c && nth (it_actor st) active false) eqn:IA.
    + pose proof (opponent_sim st st' ft (map snd acts) (rnd (Z.to_nat (it_total st))) S G ltac:(lia) MA) as OS. fold on off.
      destruct (opponent_move on st ft (map snd acts) (rnd (Z.to_nat (it_total st)))) as [[x k]|e]; destruct (opponent_move off st' ft (map snd acts) (rnd (Z.to_nat (it_total st)))) as [[y k']|e'] eqn:OM; try contradiction; cbn [bind]; [|exact OS].
      destruct OS as [<- CK]. assert (k' = it_cache st'). { unfold opponent_move in OM. cbn [off with_caching s_caching] in OM. destruct (preferences _); [discriminate|]. apply bind_ok in OM. destruct OM as ([z q] & _ & OM). now inversion OM. } subst k'.
      apply (consume_sim st st' ft _ active _ _ _ k _ x S G MA); [now rewrite upd_length|exact CK|]. intros _. apply nth_upd_same. lia.
    + cbn [bind]. apply (consume_sim st st' ft _ active _ _ _ _ _ 0 S G MA LN (gd_cache _ G)). intros AC. rewrite AC, andb_true_r in IA. elim A0. now apply (gd_alone _ G).
Qed.
Lemma next_sim : forall k st st', same st st' -> good st -> same (it_next on k st) (it_next off k st') /\ good (it_next on k st).
Proof using WS.
  intros k st st' S G. destruct (gd_shaped _ G) as (SH & La & Lm). destruct WS as (W1 & W2 & W3 & W4 & W5). unfold it_next. cbn [on off with_caching s_interactive]. rewrite <- (sm_actor _ _ S), <- (sm_moves _ _ S).
  destruct (s_interactive c && (nth (it_actor st) (it_moves st) 0 =? k)%Z) eqn:E; [|split; assumption]. split.
  - constructor; cbn; try apply S; try reflexivity. now rewrite (sm_turns _ _ S).
  - apply andb_true_iff in E. destruct E as [E _]. constructor; cbn [it_features it_actor it_moves it_nodes it_consumed it_cache]; try apply G; [|congruence]. split; [exact SH|]. cbn [it_actor it_moves]. rewrite upd_length. split; [|exact Lm]. destruct (Nat.ltb_spec (it_actor st) (length (it_moves st) - 1)); lia.
Qed.
Lemma body_sim : forall st st', same st st' -> good st -> moved_alike (it_body score on V N rnd st) (it_body score off V N rnd st').
Proof using WS ONE ORD.
  intros st st' S G. unfold it_body. rewrite <- (sm_actor _ _ S), <- (sm_turns _ _ S). cbn [on off with_caching s_n_moves]. fold on off.
  destruct (nth_error (s_n_moves c) (it_actor st)) as [row|]; [|reflexivity]. destruct (nth_error row _) as [k|]; [|reflexivity]. destruct (0 <? k)%Z.
  - pose proof (move_sim st st' S G) as M. destruct (it_move score on V N rnd st) as [[a|a]|e]; destruct (it_move score off V N rnd st') as [[b|b]|e']; cbn [moved_alike] in M; try contradiction; cbn [bind moved_alike].
    + destruct M. now apply next_sim.
    + exact M.
    + exact M.
  - cbn [bind moved_alike]. now apply next_sim.
Qed.
Lemma loop_sim : forall fuel st st', same st st' -> good st ->
  match it_loop score on V N rnd fuel st, it_loop score off V N rnd fuel st' with
  | Ok (a, b), Ok (a', b') => b = b' /\ it_reward a = it_reward a' /\ it_visited a = it_visited a' /\ it_others a = it_others a' /\ cache_ok (it_cache a)
  | Err e, Err e' => e = e'
  | _, _ => False
  end.
Proof using WS ONE ORD.
  induction fuel as [|fuel IH]; intros st st' S G; [reflexivity|]. cbn [it_loop]. rewrite <- (sm_total _ _ S). change (n_steps off) with (n_steps on). destruct (it_total st <? n_steps on)%Z.
  - pose proof (body_sim st st' S G) as M. destruct (it_body score on V N rnd st) as [[a|a]|e]; destruct (it_body score off V N rnd st') as [[b|b]|e']; cbn [moved_alike] in M; try contradiction; cbn [bind].
    + destruct M. now apply IH.
    + split; [reflexivity|exact M].
    + exact M.
  - split; [reflexivity|]. split; [apply S|]. split; [apply S|]. split; [apply S|apply G].
Qed.
End Sim.

(** Same statistics and walks, or the same exception. *)
Definition same_outcome {A} (r r' : res (list A * list A * cache A * list (list nat))) : Prop :=
  match r, r' with
  | Ok (V, N, _, states), Ok (V', N', _, states') => V = V' /\ N = N' /\ states = states'
  | Err e, Err e' => e = e'
  | _, _ => False
  end.
Lemma search_sim : forall score c rnd fuel nS nF, well_shaped c nS nF ->
  (forall i, i < length (s_start c) -> length (where_ (fun b => b) (nth i (s_consumes c) [])) <= 1) ->
  (forall i f, 0 < i < length (s_start c) -> nth f (nth i (s_rewards c) []) 0%R <> 0%R -> ordinary c f) ->
  forall n V N k k' states i, cache_ok c nS nF k ->
  same_outcome (search_loop score (with_caching true c) rnd fuel i n V N k states) (search_loop score (with_caching false c) rnd fuel i n V N k' states).
Proof.
  intros score c rnd fuel nS nF WS ONE ORD n. induction n as [|n IH]; intros V N k k' states i CK; cbn [search_loop]; [cbn; auto|].
  pose proof (loop_sim score c V N (rnd i) nS nF WS ONE ORD fuel _ _ (same_start c k k') (good_start c nS nF WS k CK)) as L. unfold mcts_iteration.
  destruct (it_loop score (with_caching true c) V N (rnd i) fuel (it_start (with_caching true c) k)) as [[a b]|e]; destruct (it_loop score (with_caching false c) V N (rnd i) fuel (it_start (with_caching false c) k')) as [[a' b']|e']; try contradiction; cbn [bind]; [|exact L].
  destruct L as (_ & -> & -> & _ & CK'). destruct (backprop (V, N) (it_reward a') (it_visited a')) as [V1 N1]. now apply IH.
Qed.

(** If opponents care about ordinary features only (not about where agents are) and no agent consumes more
    than one feature, a search with cache has the same outcome as without: the same statistics and
    walks, or the same exception. *)
Theorem C41_ordinary_partial : forall score c rnd fuel nS nF, well_shaped c nS nF ->
  (forall i, i < length (s_start c) -> length (where_ (fun b => b) (nth i (s_consumes c) [])) <= 1) ->
  (forall i f, 0 < i < length (s_start c) -> nth f (nth i (s_rewards c) []) 0%R <> 0%R -> ordinary c f) ->
  forall n agents,
  same_outcome (search_loop score (with_caching true c) rnd fuel 0 n (zeros1 nS) (zeros1 nS) (repeat [] agents) [])
               (search_loop score (with_caching false c) rnd fuel 0 n (zeros1 nS) (zeros1 nS) (repeat [] agents) []).
Proof.
  intros score c rnd fuel nS nF WS ONE ORD n agents. apply (search_sim _ _ _ _ nS nF); try assumption.
  intros a key q _ H. rewrite nth_repeat in H. destruct H.
Qed.

(** The same, as C171: a property of its own. *)
Theorem C171_same_outcome : forall score c rnd fuel nS nF, well_shaped c nS nF ->
  (forall i, i < length (s_start c) -> length (where_ (fun b => b) (nth i (s_consumes c) [])) <= 1) ->
  (forall i f, 0 < i < length (s_start c) -> nth f (nth i (s_rewards c) []) 0%R <> 0%R -> ordinary c f) ->
  forall n agents,
  same_outcome (search_loop score (with_caching true c) rnd fuel 0 n (zeros1 nS) (zeros1 nS) (repeat [] agents) [])
               (search_loop score (with_caching false c) rnd fuel 0 n (zeros1 nS) (zeros1 nS) (repeat [] agents) []).
Proof. exact (@C41_ordinary_partial). Qed.

(** Two berry pickers: the hypotheses hold and the cache is used. *)
Definition pickers (caching : bool) : search Q :=
  mkSearch true row3 [[1; 0; 1]; [1; 0; 0]; [0; 1; 0]]%Q [0; 1]%Z [[1; 1]; [1; 1]]%Z [[false; false]; [false; false]] [[true; false; false]; [true; false; false]]
    [0; 0]%Q [[1; 0; 0]; [1; 0; 0]]%Q [1; 2] 0%Q 0%Q (OppSolve (select_max (A:=Q))) caching 5 (1 # 2)%Q (1 # 100)%Q.
Example C41_example : exists V N k k' st, search_loop (A:=Q) mean_score (pickers true) (fun i t => i + t) 20 0 4 [0; 0; 0]%Q [0; 0; 0]%Q [[]; []] [] = Ok (V, N, k, st) /\
  search_loop (A:=Q) mean_score (pickers false) (fun i t => i + t) 20 0 4 [0; 0; 0]%Q [0; 0; 0]%Q [[]; []] [] = Ok (V, N, k', st) /\ map (@length _) k = [0; 4] /\ length st = 4.
Proof. do 5 eexists. vm_compute. auto 10. Qed.
(** The hypotheses of [C41_ordinary_partial] for this search, over the reals. *)
Example C41_hypotheses : forall sas, length sas = 3 ->
  let c := mkSearch true sas [[1; 0; 1]; [1; 0; 0]; [0; 1; 0]]%R [0; 1]%Z [[1; 1]; [1; 1]]%Z [[false; false]; [false; false]] [[true; false; false]; [true; false; false]]
    [0; 0]%R [[1; 0; 0]; [1; 0; 0]]%R [1; 2] 0%R 0%R (OppSolve (select_max (A:=R))) true 5 (1 / 2)%R (1 / 100)%R in
  well_shaped c 3 3 /\ (forall i, i < length (s_start c) -> length (where_ (fun b => b) (nth i (s_consumes c) [])) <= 1) /\
  (forall i f, 0 < i < length (s_start c) -> nth f (nth i (s_rewards c) []) 0%R <> 0%R -> ordinary c f) /\ exists f, nth f (nth 1 (s_rewards c) []) 0%R <> 0%R.
Proof.
  intros sas LS c. split; [|split; [|split]].
  - split; [split; [reflexivity|]|split; [exact LS|split; [reflexivity|split; [|cbn; lia]]]].
    + intros f Hf. destruct f as [|[|[|f]]]; [reflexivity..|lia].
    + intros i Hi. cbn in Hi. destruct i as [|[|i]]; [reflexivity..|lia].
  - intros i Hi. cbn in Hi. destruct i as [|[|i]]; [cbn; lia..|lia].
  - intros i f Hi Hf j Hj. cbn in Hi, Hj. assert (i = 1) by lia. subst i. cbn in Hf. destruct f as [|[|[|f]]]; try (now elim Hf); [|destruct f; now elim Hf]. destruct j as [|[|j]]; cbn; lia.
  - exists 0. cbn. apply R1_neq_R0.
Qed.
