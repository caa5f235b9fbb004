(** Properties C19-C22, C24, C34: stepping agents. *)
From Coq Require Import String List ZArith QArith Reals Bool Lia Lra.
From Verif Require Import PyBase PyProofs GridModel GridSpec MDPModel MDPSpec MDPProofs MDPProofs2 MDPProofs3 MDPProofs4 MDPProps ActionModel EnvModel PlanProps EnvSpec StepSpec EnvProofs EnvProofs2 EnvProofs3 EnvProofs4 EnvProofs5 EnvProps.
Import ListNotations.
Local Close Scope Q_scope.
Local Open Scope nat_scope.

Lemma ident_same : forall a b, ident b = ident a -> same_agent a b.
Proof. intros a b E. destruct (ident_name _ _ E) as (H1 & H2 & H3 & H4 & H5 & H6 & H7). unfold same_agent. auto 10. Qed.

(** ** C19: a step changes only what it should *)

Theorem C19_step : forall pl e nm seed e' p, reachable pl e -> env_step pl e nm seed = (e', Ok p) ->
  exists a a' act s ridx, agent_named e nm a /\ agent_named e' nm a' /\
    picks pl a seed act /\ (0 <= act)%Z /\ get_next_state (e_mdp e) (at_pos a) act = Ok s /\ p = Z.of_nat s /\
    same_agent a a' /\ at_pos a' = p /\ at_hist a' = at_hist a ++ [p] /\ e_n_steps e' = S (e_n_steps e) /\
    others_same e e' nm /\ same_but_features (e_mdp e) (e_mdp e') /\
    Forall2 (fun z f => py_index (m_n_features (e_mdp e)) z = Ok f) (at_consumes a) ridx /\
    forall f, f < m_n_features (e_mdp e) ->
      let eaten := In f ridx /\ (0 < moved_feat e a s f s)%R in
      (forall t, t < m_n_states (e_mdp e) -> t <> s -> feat (e_mdp e') f t = moved_feat e a s f t) /\
      (eaten -> feat (e_mdp e') f s = 0%R /\ nth f (at_consumed a') 0 = S (nth f (at_consumed a) 0)) /\
      (~ eaten -> feat (e_mdp e') f s = moved_feat e a s f s /\ nth f (at_consumed a') 0 = nth f (at_consumed a) 0).
Proof.
  intros pl e nm seed e' p RE E. destruct (reachable_wf _ _ RE) as (k & shape & st & W).
  destruct (env_step_full _ _ _ _ _ _ _ _ _ W E) as [(X & _)|[(a & a' & x & _ & X & _)|H]]; [discriminate X|discriminate X|].
  destruct H as (a & a2 & s & [Ha EN] & (v & q & pi & i & F & Epi & Ei & An & NS & Hs) & (W1 & W2 & W3 & W4) & RP & SB & [(X & _)|(ER & NST & ridx & F2 & CO)]); [discriminate X|].
  inversion ER as [EP]. clear ER. destruct (ident_name _ _ W1) as (N1 & _). pose proof (replaced_in _ _ _ _ Ha N1 RP) as RI. clear RP. rename RI into RP.
  exists a, a2, (nth i pi 0%Z), s, ridx. split; [split; assumption|]. split. { split; [apply RP; now left|congruence]. }
  split; [exists v, q, pi, i; auto|]. split; [exact An|]. split; [exact NS|]. split; [reflexivity|]. split; [now apply ident_same|].
  split; [exact W2|]. split; [exact W3|]. split; [exact NST|]. split.
  { intros b Nb. rewrite (RP b). split; [intros [->|X]; [congruence|tauto]|]. intros Hb. right. split; [exact Hb|congruence]. }
  split; [exact SB|]. split; [exact F2|]. exact CO.
Qed.

(** Unknown name: ValueError; known but never fitted: AttributeError; nothing changes. *)
Theorem C19_rejects : forall pl e nm seed, reachable pl e ->
  (~ In nm (e_names e) -> env_step pl e nm seed = (e, Err ValueError)) /\
  (forall a, agent_named e nm a -> at_fit a = None -> env_step pl e nm seed = (e, Err AttributeError)).
Proof.
  intros pl e nm seed RE. destruct (reachable_wf _ _ RE) as (k & shape & st & W).
  destruct (env_step pl e nm seed) as [e' r] eqn:E.
  destruct (env_step_full _ _ _ _ _ _ _ _ _ W E) as [(-> & NI & ->)|[(a & a' & x & [Ha EN] & -> & E1 & H1 & H2 & H3 & H4 & H5 & H6)|H]].
  - split; [reflexivity|]. intros a [Ha EN] _. elim NI. apply (wf_lookup _ _ _ _ W). rewrite <- EN. now apply in_map.
  - split.
    + intros NI. elim NI. apply (wf_lookup _ _ _ _ W). rewrite <- EN. now apply in_map.
    + intros b [Hb EB] F. assert (b = a) by (eapply same_name_same; eauto; [apply (wf_names _ _ _ _ W)|congruence]). subst b.
      destruct (H6 F) as [-> ->]. reflexivity.
  - destruct H as (a & a2 & s & [Ha EN] & (v & q & pi & i & F & _) & _). split.
    + intros NI. elim NI. apply (wf_lookup _ _ _ _ W). rewrite <- EN. now apply in_map.
    + intros b [Hb EB] F'. assert (b = a) by (eapply same_name_same; eauto; [apply (wf_names _ _ _ _ W)|congruence]). congruence.
Qed.

(** A step that raises moves nobody, as long as the consumed features are valid indices: only the
    policy cached on the named agent may have changed. *)
Theorem C19_failed_step : forall pl e nm seed e' x, reachable pl e -> consumes_in_range e -> env_step pl e nm seed = (e', Err x) ->
  e_mdp e' = e_mdp e /\ e_n_steps e' = e_n_steps e /\ others_same e e' nm /\
  forall a', In a' (e_agents e') -> exists a, In a (e_agents e) /\ same_agent a a' /\ at_pos a' = at_pos a /\
    at_hist a' = at_hist a /\ at_consumed a' = at_consumed a /\ at_fit a' = at_fit a.
Proof.
  intros pl e nm seed e' x RE CR E. destruct (reachable_wf _ _ RE) as (k & shape & st & W).
  destruct (env_step_full _ _ _ _ _ _ _ _ _ W E) as [(_ & NI & ->)|[(a & a' & y & [Ha EN] & Ey & -> & H1 & H2 & H3 & H4 & H5 & H6)|H]].
  - split; [reflexivity|]. split; [reflexivity|]. split; [intros b _; reflexivity|]. intros a' Ha'. exists a'. split; [exact Ha'|]. unfold same_agent. auto 20.
  - destruct (ident_name _ _ H1) as (N1 & _). pose proof (in_put _ a a' Ha N1) as IP. split; [reflexivity|]. split; [reflexivity|]. split.
    + intros b Nb. cbn [with_agent e_agents]. rewrite (IP b). split; [intros [->|X]; [congruence|tauto]|]. intros Hb. right. split; [exact Hb|congruence].
    + intros b Hb. cbn [with_agent e_agents] in Hb. apply IP in Hb. destruct Hb as [->|[Hb _]].
      * exists a. split; [exact Ha|]. split; [now apply ident_same|]. auto.
      * exists b. split; [exact Hb|]. unfold same_agent. auto 20.
  - destruct H as (a & a2 & s & _ & _ & _ & _ & _ & [(_ & NC & _)|(X & _)]); [contradiction|discriminate X].
Qed.

Example C19_example : exists m m' e e1 e2, grid_mdp (A:=Q) Square ex_ft None (2, 2) false = Ok m /\ make_env m [ex_p; ex_q] = (m', Ok e) /\
  env_step (ex_pl [1; 0; 0; 0]%Z) e "p" 0 = (e, Err AttributeError) /\ env_step (ex_pl [1; 0; 0; 0]%Z) e "r" 0 = (e, Err ValueError) /\
  env_fit (ex_pl [1; 0; 0; 0]%Z) e "p" None 0 0 = (e1, Ok tt) /\ env_step (ex_pl [1; 0; 0; 0]%Z) e1 "p" 0 = (e2, Ok 2%Z) /\
  map at_pos (e_agents e2) = [2; 3]%Z /\ map at_hist (e_agents e2) = [[0; 2]; [3]]%Z /\ e_n_steps e2 = 1.
Proof. do 5 eexists. vmr. Qed.

(** ** C34: an agent only moves along possible transitions *)

Lemma step_moves : forall k shape st (m : mdp R) x act s, grid_inv k shape st m -> get_next_state m x act = Ok s -> (0 <= act)%Z ->
  exists i va, stands_on m x i /\ state_valid_actions m (Z.of_nat i) = Ok va /\
    ((In (Z.to_nat act) va /\ travels m i [Z.to_nat act] s) \/ (~ In (Z.to_nat act) va /\ s = 0)).
Proof.
  intros k shape st m x act s G E HA.
  assert (E0 := E). unfold get_next_state in E0. destruct (Z.ltb_spec act 0); [lia|].
  apply bind_ok in E0. destruct E0 as (i & Ei & E0). apply bind_ok in E0. destruct E0 as (j & Ej & E0).
  assert (Hi : i < nst shape) by (rewrite <- (gi_ns _ _ _ _ G); eapply py_index_ok; eauto).
  assert (Hs : s < nst shape) by (rewrite <- (gi_ns _ _ _ _ G); eapply next_state_lt; eauto).
  assert (JA : j = Z.to_nat act /\ j < m_n_actions m).
  { unfold py_index in Ej. destruct (Z.leb_spec 0 act); [|lia]. destruct (Z.ltb_spec act (Z.of_nat (m_n_actions m))); inversion Ej. split; [reflexivity|lia]. }
  destruct JA as [-> JL].
  assert (EQ : get_next_state m (Z.of_nat i) (Z.of_nat (Z.to_nat act)) = Ok s).
  { rewrite <- E. unfold get_next_state. destruct (Z.ltb_spec (Z.of_nat (Z.to_nat act)) 0); [lia|]. destruct (Z.ltb_spec act 0); [lia|].
    rewrite Ei, py_index_nat by (rewrite (gi_ns _ _ _ _ G); exact Hi). rewrite Z2Nat.id by lia. reflexivity. }
  destruct (in_valid_actions _ _ _ _ G i Hi) as (va & Ev & V). exists i, va. split; [exact Ei|]. split; [exact Ev|].
  destruct (in_dec Nat.eq_dec (Z.to_nat act) va) as [I|I].
  - left. split; [exact I|]. eapply travels_step; eauto. constructor.
  - right. split; [exact I|].
    rewrite (next_state_no_edge _ _ _ _ G i (Z.to_nat act) Hi) in EQ; [congruence|rewrite <- (gi_na _ _ _ _ G); exact JL|].
    intros t Ht Wt. apply I, V. eauto.
Qed.

(** Every successful step: if the action picked is possible where the agent stands, it moves along
    that transition; if not, it is put on state 0. *)
Theorem C34_possible_actions_partial : forall pl e nm seed e' p, reachable pl e -> env_step pl e nm seed = (e', Ok p) ->
  exists a act i va s, agent_named e nm a /\ picks pl a seed act /\ stands_on (e_mdp e) (at_pos a) i /\ p = Z.of_nat s /\
    state_valid_actions (e_mdp e) (Z.of_nat i) = Ok va /\
    ((In (Z.to_nat act) va /\ travels (e_mdp e) i [Z.to_nat act] s) \/ (~ In (Z.to_nat act) va /\ s = 0)).
Proof.
  intros pl e nm seed e' p RE E. destruct (reachable_wf _ _ RE) as (k & shape & st & W).
  destruct (C19_step _ _ _ _ _ _ RE E) as (a & a' & act & s & ridx & NA & _ & PK & An & NS & EP & _).
  destruct (step_moves _ _ _ _ _ _ _ (wf_grid _ _ _ _ W) NS An) as (i & va & SO & Ev & H).
  exists a, act, i, va, s. auto 10.
Qed.

(** Refuted: an agent with the Null algorithm and greedy selection, on the far corner of a 2 x 2 grid,
    may jump to the opposite corner. *)
Definition greedy {A} `{Num A} : plugins A :=
  mkPlugins (fun _ e _ _ => null_fit e) (fun _ seed => max_get_pi (fun _ => seed)) (fun _ => max_get_pi_p) (fun _ => false).
Theorem C34_teleport_refuted : exists m m' e e1 e2 seed, grid_mdp (A:=Q) Square ex_ft None (2, 2) false = Ok m /\
  make_env m [mkSpec "q"%string 1%Z None 3%Z [1; 0; 0]%Q []] = (m', Ok e) /\
  env_fit greedy e "q" None 0 0 = (e1, Ok tt) /\ env_step greedy e1 "q" seed = (e2, Ok 0%Z) /\
  state_valid_actions (e_mdp e1) 3 = Ok [2; 3] /\ get_next_state (e_mdp e1) 3 2 = Ok 2 /\ get_next_state (e_mdp e1) 3 3 = Ok 1.
Proof. do 5 eexists. exists 0. vmr. Qed.

(** ** C20: the position history is the walk the agent took *)

Definition tr (m : mdp R) := (m_sas m, m_n_states m, m_n_actions m, m_deterministic m).
Lemma tr_next : forall m m' x act, tr m' = tr m -> get_next_state m' x act = get_next_state m x act.
Proof. unfold tr, get_next_state. intros m m' x act E. inversion E as [[E1 E2 E3 E4]]. now rewrite E1, E2, E3, E4. Qed.
Lemma nth_last_cons : forall (rest : list Z) start, nth (length rest) (start :: rest) 0%Z = last (start :: rest) 0%Z.
Proof. induction rest as [|y rest IH]; intros start; [reflexivity|]. change (nth (length rest) (y :: rest) 0%Z = last (y :: rest) 0%Z). apply IH. Qed.
Lemma walk_snoc : forall m good start pos h act s, walk_history m good start pos h -> (0 <= act)%Z -> good pos act ->
  get_next_state m pos act = Ok s -> walk_history m good start (Z.of_nat s) (h ++ [Z.of_nat s]).
Proof.
  intros m good start pos h act s ((rest & ->) & L & C) HA GA E. split; [exists (rest ++ [Z.of_nat s]); reflexivity|].
  split; [apply last_last|]. intros i Hi. rewrite app_length in Hi. cbn [length] in Hi.
  destruct (Nat.eq_dec (S i) (length (start :: rest))) as [X|X].
  - exists act, s. rewrite (app_nth1 (start :: rest)) by lia. rewrite (app_nth2 (start :: rest)) by lia. rewrite X, Nat.sub_diag.
    assert (P : nth i (start :: rest) 0%Z = pos).
    { rewrite <- L, <- nth_last_cons. f_equal. cbn [length] in X. lia. }
    rewrite P. cbn [nth]. auto.
  - destruct (C i) as (act' & s' & H1 & H2 & H3 & H4); [cbn [length] in *; lia|]. exists act', s'.
    rewrite !(app_nth1 (start :: rest)) by (cbn [length] in *; lia). auto.
Qed.


Lemma mut_tr : forall k shape st l e e', wf k shape st e -> mut l e e' -> l <> LWalls -> tr (e_mdp e') = tr (e_mdp e).
Proof.
  intros k shape st l e e' W M N. destruct l; try congruence; cbn [mut] in M.
  - destruct M as (a & a' & _ & _ & _ & _ & ->). reflexivity.
  - destruct M as (a & a' & s & _ & _ & _ & _ & ->). reflexivity.
  - destruct M as (a & _ & ->). reflexivity.
  - destruct M as (a & a' & m' & c & Ha & E & _ & _ & _ & ->). destruct (consume_result _ _ _ _ _ _ _ W Ha E) as (g & -> & _). reflexivity.
  - destruct M as (a & g & _ & _ & _ & _ & ->). reflexivity.
  - subst. reflexivity.
  - destruct M as (m' & E & ->). unfold reset_mdp, set_features in E. destruct (forallb _ _); [|discriminate].
    assert (OI : forall u v : mdp R, Ok u = Ok v -> v = u) by congruence. apply OI in E. subst m'. reflexivity.
Qed.
Lemma muts_tr : forall k shape st (P : label -> Prop) e e', wf k shape st e -> muts P e e' -> ~ P LWalls -> tr (e_mdp e') = tr (e_mdp e).
Proof.
  intros k shape st P e e' W M N. induction M as [|l e e1 e2 Pl M MM IH]; [reflexivity|].
  rewrite IH by (eapply mut_wf; eauto). eapply mut_tr; eauto. intros ->. contradiction.
Qed.
Lemma env_reset_tr : forall k shape st e, wf k shape st e -> exists e', env_reset e = (e', Ok tt) /\ tr (e_mdp e') = tr (e_mdp e) /\
  forall b, In b (e_agents e') -> at_hist b = [at_start b] /\ at_pos b = at_start b.
Proof.
  intros k shape st e W. destruct (env_reset_spec k shape st e W) as (e' & E & M & _ & _ & H). exists e'. split; [exact E|].
  split; [eapply muts_tr; eauto; cbn; tauto|]. intros b Hb. destruct (H b Hb) as (a & _ & ->). split; reflexivity.
Qed.
Lemma make_env_fresh : forall pl m ss m' e, usable pl m -> make_env m ss = (m', Ok e) -> e_mdp e = m' /\ e_n_steps e = 0 /\
  forall a, In a (e_agents e) -> at_hist a = [at_start a] /\ at_pos a = at_start a.
Proof.
  intros pl m ss m' e U E. destruct (usable_clean _ _ U) as (k & shape & st & C).
  destruct (make_env_ok k shape st m ss C (make_env_valid _ _ _ _ _ _ _ C E)) as (m0 & _ & _ & _ & _ & _ & _ & _ & _ & _ & E').
  cbv zeta in E'. rewrite E in E'. set (m1 := match ss with [] => m0 | _ => extended m0 (rows_from m0 ss) end) in *.
  assert (PI : forall (x y : mdp R) (u v : res (env R)), (x, u) = (y, v) -> x = y /\ u = v) by (intros x y u v X; inversion X; auto).
  apply PI in E'. destruct E' as [-> EE]. assert (OI : forall u v : env R, Ok u = Ok v -> u = v) by congruence. apply OI in EE. subst e. clear OI PI.
  split; [reflexivity|]. split; [reflexivity|]. cbn [e_agents].
  assert (K : forall l acc, (forall a, In a l -> at_hist a = [at_start a] /\ at_pos a = at_start a) ->
     (forall a, In a acc -> at_hist a = [at_start a] /\ at_pos a = at_start a) ->
     forall a : attached R, In a (fold_left put_agent l acc) -> at_hist a = [at_start a] /\ at_pos a = at_start a).
  { induction l as [|x l IH]; intros acc HL HA a Ha; [now apply HA|]. cbn [fold_left] in Ha. apply (IH _ (fun b Hb => HL b (or_intror Hb))) in Ha; [exact Ha|].
    intros b Hb. unfold put_agent in Hb. destruct (existsb _ _).
    - apply in_map_iff in Hb. destruct Hb as (c & <- & Hc). destruct (String.eqb _ _); [apply HL; now left|now apply HA].
    - apply in_app_iff in Hb. destruct Hb as [Hb|[<-|[]]]; [now apply HA|apply HL; now left]. }
  apply K; [|intros a []]. intros a Ha. destruct (agents_from_in _ _ _ _ Ha) as (i & s & _ & ->). split; reflexivity.
Qed.

(** After construction and any sequence of fits, steps, multi-steps, probabilistic steps and resets,
    on any agents, succeeding or raising. With [good := fun _ _ => True] it says that histories follow
    the transition function; with the possible actions for [good], that they follow possible moves. *)
Theorem C20_history : forall pl m ss m' e l good, usable pl m -> make_env m ss = (m', Ok e) -> Forall walk_op l -> plays pl good ->
  forall a, In a (e_agents (run pl e l)) -> walk_history m' good (at_start a) (at_pos a) (at_hist a).
Proof.
  intros pl m ss m' e l good U E WL PG.
  destruct (make_env_fresh _ _ _ _ _ U E) as (EM & _ & FR).
  assert (RE : reachable pl e) by (econstructor; eauto).
  destruct (reachable_wf _ _ RE) as (k & shape & st & W).
  set (P := fun e : env R => tr (e_mdp e) = tr m' /\ forall a, In a (e_agents e) -> walk_history m' good (at_start a) (at_pos a) (at_hist a)).
  assert (P0 : P e).
  { split; [now rewrite EM|]. intros a Ha. destruct (FR a Ha) as (H1 & H2). rewrite H1, H2.
    split; [now exists []|]. split; [reflexivity|]. cbn [length]. intros i Hi. lia. }
  assert (K : forall e o, wf k shape st e -> P e -> walk_op o -> P (do_op pl e o)).
  { apply kept_by_walking.
    - intros e0 nm n s s' W0 [P1 P2]. destruct (env_fit_refitted pl _ _ _ _ nm n s s' W0) as [RF _]. split; [destruct RF as (-> & _); exact P1|].
      intros b Hb. destruct (refitted_in _ _ _ RF Hb) as (a & Ha & EI & EP & EH & _). destruct (ident_name _ _ EI) as (_ & _ & _ & _ & -> & _). rewrite EP, EH. auto.
    - intros e0 nm s W0 [P1 P2]. destruct (env_step pl e0 nm s) as [e1 r] eqn:ES. cbn [fst].
      destruct (env_step_full _ _ _ _ _ _ _ _ _ W0 ES) as [(_ & _ & ->)|[(a & a' & x & [Ha EN] & _ & -> & H1 & H2 & H3 & H4 & _)|H]].
      + split; assumption.
      + destruct (ident_name _ _ H1) as (N1 & _ & _ & _ & N5 & _). split; [exact P1|]. intros b Hb. cbn [with_agent e_agents] in Hb.
        apply (in_put _ a a' Ha N1) in Hb. destruct Hb as [->|[Hb _]]; [|auto]. rewrite N5, H2, H4. auto.
      + destruct H as (a & a2 & s' & [Ha EN] & (v & q & pi & i & F & Epi & Ei & An & NS & Hs) & (W1 & W2 & W3 & W4) & RP & SB & _).
        destruct (ident_name _ _ W1) as (N1 & _ & _ & _ & N5 & _). pose proof (replaced_in _ _ _ _ Ha N1 RP) as RI. clear RP. rename RI into RP. split; [rewrite SB; exact P1|]. intros b Hb. apply RP in Hb. destruct Hb as [->|[Hb _]]; [|auto].
        rewrite N5, W2, W3. apply (walk_snoc _ _ _ (at_pos a) _ (nth i pi 0%Z)); auto; [|rewrite <- (tr_next _ _ _ _ P1); exact NS]. eapply PG; eauto.
    - intros e0 nm p s W0 [P1 P2]. pose proof (step_proba_refitted pl _ _ _ _ nm p s W0) as RF. split; [destruct RF as (-> & _); exact P1|].
      intros b Hb. destruct (refitted_in _ _ _ RF Hb) as (a & Ha & EI & EP & EH & _). destruct (ident_name _ _ EI) as (_ & _ & _ & _ & -> & _). rewrite EP, EH. auto.
    - intros e0 W0 [P1 P2]. destruct (env_reset_tr _ _ _ _ W0) as (e1 & -> & T1 & H). cbn [fst]. split; [rewrite <- P1; exact T1|].
      intros b Hb. destruct (H b Hb) as (H1 & H2). rewrite H1, H2. split; [now exists []|]. split; [reflexivity|]. cbn [length]. intros i Hi. lia. }
  assert (PF : P (run pl e l)).
  { clear E EM RE FR. revert e W P0. induction WL as [|o l Ho WL IH]; intros e W P0; [exact P0|]. cbn [run fold_left].
    apply IH; [now apply do_op_wf|]. now apply K. }
  exact (proj2 PF).
Qed.

Theorem C20_connected : forall pl m ss m' e l, usable pl m -> make_env m ss = (m', Ok e) -> Forall walk_op l ->
  plays pl (fun x act => exists va, state_valid_actions m' x = Ok va /\ In (Z.to_nat act) va) ->
  forall a i, In a (e_agents (run pl e l)) -> S i < length (at_hist a) ->
    exists act s t, stands_on m' (nth i (at_hist a) 0%Z) s /\ nth (S i) (at_hist a) 0%Z = Z.of_nat t /\ travels m' s [act] t.
Proof.
  intros pl m ss m' e l U E WL PL a i Ha Hi.
  destruct (C20_history _ _ _ _ _ _ _ U E WL PL a Ha) as (_ & _ & C). destruct (C i Hi) as (act & s & HA & (va & Ev & Iv) & NS & X).
  assert (G : exists k shape st, grid_inv k shape st m').
  { assert (RE : reachable pl e) by (econstructor; eauto). destruct (reachable_wf _ _ RE) as (k & shape & st & W).
    destruct (make_env_fresh _ _ _ _ _ U E) as (<- & _). exists k, shape, st. apply (wf_grid _ _ _ _ W). }
  destruct G as (k & shape & st & G). destruct (step_moves _ _ _ _ _ _ _ G NS HA) as (j & va' & SO & Ev' & H).
  assert (EQ : state_valid_actions m' (nth i (at_hist a) 0%Z) = state_valid_actions m' (Z.of_nat j)).
  { unfold state_valid_actions. unfold stands_on in SO. rewrite SO, py_index_nat; [reflexivity|]. eapply py_index_ok; eauto. }
  rewrite EQ, Ev' in Ev. inversion Ev. subst va'. destruct H as [[_ T]|[N _]]; [|contradiction]. exists (Z.to_nat act), j, s. auto.
Qed.

(** The same about the history the environment reports: it exists for every agent, starts where the agent was put, ends where it
    stands, and is a walk. *)
Theorem C20_reported : forall pl m ss m' e l good sp, usable pl m -> NoDup (map sp_name ss) -> make_env m ss = (m', Ok e) -> Forall walk_op l -> plays pl good -> In sp ss ->
  exists h a, get_history (run pl e l) (sp_name sp) = Ok h /\ agent_named (run pl e l) (sp_name sp) a /\ walk_history m' good (sp_pos sp) (at_pos a) h.
Proof.
  intros pl m ss m' e l good sp U ND E WL PG HS. destruct (C17_result _ _ _ _ _ U ND E) as (_ & _ & _ & EN & _ & H & _).
  apply In_nth_error in HS. destruct HS as (i & Hi). destruct (H i sp Hi) as (a & Ha & FR & _). apply nth_error_In in Ha.
  assert (RE : reachable pl e) by (econstructor; eauto). destruct (reachable_wf _ _ RE) as (k & shape & st & W).
  pose proof (run_static pl k shape st l e W) as S. pose proof (run_wf pl k shape st l e W) as W2.
  destruct (static_in _ _ _ (static_sym _ _ S) Ha) as (b & Hb & EI). unfold ident in EI. injection EI as E1 E2 E3 E4 E5 E6 E7.
  destruct FR as (F1 & _ & _ & _ & _ & _ & _ & F8 & _).
  assert (NB : at_name b = sp_name sp) by congruence. exists (at_hist b), b. split; [|split; [split; assumption|]].
  - unfold get_history. rewrite <- NB. rewrite (EnvProofs2.lookup_in _ _ _ _ _ W2 Hb). reflexivity.
  - pose proof (C20_history _ _ _ _ _ _ _ U E WL PG b Hb) as X. assert (SP : at_start b = sp_pos sp) by (clear - E7 F8; congruence). now rewrite SP in X.
Qed.

(** One entry per step: with valid consumed features, each successful step, of whichever agent, adds
    exactly one entry to the histories and one to the step counter; nothing else does. *)
Theorem C20_count : forall pl e l, reachable pl e -> consumes_in_range e -> Forall counted_op l ->
  total_history (run pl e l) + e_n_steps e = total_history e + e_n_steps (run pl e l).
Proof.
  intros pl e l RE CR WL. destruct (reachable_wf _ _ RE) as (k & shape & st & W).
  set (P := fun e1 : env R => static e e1 /\ total_history e1 + e_n_steps e = total_history e + e_n_steps e1).
  assert (RFT : forall e1 e2, refitted e1 e2 -> total_history e2 = total_history e1).
  { intros e1 e2 (_ & _ & H). unfold total_history. f_equal.
    rewrite <- !(map_map (fun a => (ident a, at_pos a, at_hist a, at_consumed a)) (fun x => length (snd (fst x)))). now rewrite H. }
  assert (RFS : forall e1 e2, refitted e1 e2 -> static e1 e2).
  { intros e1 e2 (H1 & H2 & H3). split; [exact H2|]. split; [|now rewrite H1].
    rewrite <- !(map_map (fun a => (ident a, at_pos a, at_hist a, at_consumed a)) (fun x => fst (fst (fst x)))). now rewrite H3. }
  assert (K : forall e o, wf k shape st e -> P e -> counted_op o -> P (do_op pl e o)).
  { apply kept_by_stepping.
    - intros e0 nm n s s' W0 [P1 P2]. destruct (env_fit_refitted pl _ _ _ _ nm n s s' W0) as [RF NS]. split.
      + eapply static_trans; eauto.
      + rewrite NS. rewrite (RFT _ _ RF). exact P2.
    - intros e0 nm s W0 [P1 P2]. assert (SS : static e0 (fst (env_step pl e0 nm s))) by (eapply muts_static; [exact W0|]; eapply env_step_muts; eauto).
      assert (CR0 : consumes_in_range e0) by (eapply static_consumes; eauto).
      destruct (env_step pl e0 nm s) as [e1 r] eqn:ES. cbn [fst] in *. split; [eapply static_trans; eauto|].
      destruct (env_step_full _ _ _ _ _ _ _ _ _ W0 ES) as [(_ & _ & ->)|[(a & a' & x & [Ha EN] & _ & -> & H1 & H2 & H3 & H4 & _)|H]].
      + exact P2.
      + rewrite (RFT e0 (with_agent e0 a')); [exact P2|]. eapply refitted_with; eauto.
      + destruct H as (a & a2 & s' & [Ha EN] & _ & (W1 & W2 & W3 & W4) & RP & SB & [(_ & NC & _)|(_ & NS & _)]); [contradiction|].
        rewrite NS. assert (T : total_history e1 = S (total_history e0)); [|lia].
        destruct (ident_name _ _ W1) as (N1 & _).
        pose proof (sum_put (fun a => length (at_hist a)) (e_agents e0) a a2 (wf_names _ _ _ _ W0) Ha N1) as SP.
        rewrite <- RP in SP. rewrite W3, app_length in SP. cbn [length] in SP. unfold total_history. lia. }
  assert (PF : forall e1, wf k shape st e1 -> P e1 -> P (run pl e1 l)).
  { induction WL as [|o l Ho WL IH]; intros e1 W1 P1; [exact P1|]. cbn [run fold_left]. apply IH; [now apply do_op_wf|]. now apply K. }
  apply (PF e W). split; [apply static_refl|reflexivity].
Qed.

(** Both agents of the example walk on possible moves only. *)
Example C20_example : plays (ex_pl (A:=R) [1; 1; 0; 3]%Z) (fun x act => (0 <= act <= 3)%Z) /\
  exists m m' e, grid_mdp (A:=Q) Square ex_ft None (2, 2) false = Ok m /\ make_env m [ex_p; ex_q] = (m', Ok e) /\
  let e' := run (ex_pl [1; 1; 0; 3]%Z) e [OFit "p" None 0 0; OStep "p" 0; OStep "q" 0; OFit "q" None 0 0; OStepMulti "p" (StepsInt 3) None 1 false false (fun _ => 0); OStep "q" 0] in
  map at_hist (e_agents e') = [[0; 2; 3; 1; 3]; [3; 1]]%Z /\ map at_pos (e_agents e') = [3; 1]%Z /\ e_n_steps e' = 5.
Proof.
  split.
  - intros nm seed q pi x i E _ HP. unfold get_pi in E. apply bind_ok in E. destruct E as ([] & _ & E). apply bind_ok in E. destruct E as (pi0 & E0 & E).
    cbn in E0. inversion E0. subst pi0. clear E0. destruct (negb _); [discriminate|].
    assert (OI : forall u v : list Z, Ok u = Ok v -> v = u) by congruence. apply OI in E. subst pi. clear OI.
    split; [exact HP|]. apply Z.leb_le.
    assert (X : forall l : list Z, (forall z, In z l -> (z <= 3)%Z) -> forall i, (nth i l 0 <=? 3)%Z = true).
    { intros l H j. apply Z.leb_le. destruct (nth_in_or_default j l 0%Z) as [I| ->]; [auto|lia]. }
    apply X. intros z Hz. apply in_map_iff in Hz. destruct Hz as ((row, a) & <- & Hz). apply in_combine_r in Hz.
    destruct (nan_state row); [lia|]. cbn in Hz. lia.
  - do 3 eexists. cbv zeta. vmr.
Qed.

(** The hypotheses of [C20_connected] are met: these four actions are possible moves of the 2 x 2 grid. *)
Example C20_connected_example : let pl := ex_pl (A:=R) [1; 1; 0; 3]%Z in
  exists m m' e, usable pl m /\ make_env m [ex_p; ex_q] = (m', Ok e) /\
    plays pl (fun x act => exists va, state_valid_actions m' x = Ok va /\ In (Z.to_nat act) va).
Proof.
  intros pl. destruct (grid_mdp_ok Square ex_ft None (2, 2) false) as (m & E & G & H1 & H2 & H3 & H4 & H5 & H6).
  { cbn; lia. } { repeat constructor. } { reflexivity. } { apply binary_zeros. }
  assert (U : usable pl m) by exact (usable_grid pl _ _ _ _ _ _ [] E).
  assert (N : n_ordinary m = 2) by (unfold n_ordinary; now rewrite H4, H5).
  assert (NS : m_n_states m = 4) by (now rewrite (gi_ns _ _ _ _ G)).
  destruct (proj2 (C17_accepts_iff pl m [ex_p; ex_q] U)) as (m' & e & EM).
  { rewrite N, NS. intros s [<-|[<-|[]]]; (split; [reflexivity|]; split; [cbn; intros z Hz; lia|cbn; lia]). }
  exists m, m', e. split; [exact U|]. split; [exact EM|].
  assert (RE : reachable pl e) by (econstructor; eauto). destruct (make_env_fresh _ _ _ _ _ U EM) as (EE & _).
  destruct (C17_result pl m [ex_p; ex_q] m' e U) as (_ & _ & _ & _ & _ & _ & _ & _ & ES & EW); [repeat constructor; cbn; intuition discriminate|exact EM|].
  assert (G' : grid_inv Square (2, 2) false m').
  { destruct (grid_clean _ _ _ _ _ _ [] E) as (C & _). rewrite <- EE. exact (wf_grid _ _ _ _ (make_env_wf _ _ _ _ _ _ _ C EM)). }
  intros nm seed q pi x i EP Ei HP. unfold get_pi in EP. apply bind_ok in EP. destruct EP as ([] & _ & EP). apply bind_ok in EP. destruct EP as (pi0 & E0 & EP).
  cbn in E0. inversion E0. subst pi0. clear E0. destruct (Nat.eqb_spec (length [1; 1; 0; 3]%Z) (length q)) as [L|]; [|discriminate].
  cbn [negb] in EP. assert (OI : forall u v : list Z, Ok u = Ok v -> v = u) by congruence. apply OI in EP. subst pi. clear OI.
  rewrite map_length, combine_length, <- L in Ei. change (Nat.min _ _) with 4 in Ei.
  assert (Hi : i < nst (2, 2)) by (eapply py_index_ok; exact Ei).
  assert (SV : state_valid_actions m' x = state_valid_actions m' (Z.of_nat i)).
  { unfold state_valid_actions. rewrite (gi_ns _ _ _ _ G'). change (nst (2, 2)) with 4 in *. rewrite Ei, py_index_nat by exact Hi. reflexivity. }
  destruct (in_valid_actions _ _ _ _ G' i Hi) as (va & Ev & V). exists va. split; [now rewrite SV|]. apply V.
  destruct q as [|r0 [|r1 [|r2 [|r3 [|]]]]]; try discriminate L. cbn [combine map] in *.
  assert (NW : forall s, ~ is_wall (m_walls m') s) by (intros s; rewrite EW, H1; apply no_wall_zeros).
  change (nst (2, 2)) with 4 in *.
  assert (ED : forall a t, a < 4 -> t < 4 -> square_move a (cell_of (2, 2) i) = cell_of (2, 2) t -> exists t, t < 4 /\ walled_edge Square (2, 2) false (m_walls m') i a t).
  { intros a t Ha Ht X. exists t. split; [exact Ht|]. split; [left; split; [exact Ha|exact X]|]. split; apply NW. }
  destruct i as [|[|[|[|]]]]; [| | | |lia]; cbn [nth] in HP |- *;
    match goal with |- context [nan_state ?r] => destruct (nan_state r); [cbn in HP; lia|] end.
  - apply (ED 1 2); [lia|lia|reflexivity].
  - apply (ED 1 3); [lia|lia|reflexivity].
  - apply (ED 0 3); [lia|lia|reflexivity].
  - apply (ED 3 1); [lia|lia|reflexivity].
Qed.

(** ** C21: multi-stepping *)

Lemma caught_iff : forall k shape st e a nm, wf k shape st e -> agent_named e nm a -> (caught e a = true <-> on_prey e nm).
Proof.
  intros k shape st e a nm W [Ha EN]. unfold caught, on_prey. rewrite existsb_exists. split.
  - intros (f & Hf & X). apply existsb_exists in X. destruct X as (b & Hb & X). apply andb_prop in X. destruct X as [X1 X2].
    apply Z.eqb_eq in X1. apply Z.eqb_eq in X2. exists a, b. split; [split; assumption|]. split; [exact Hb|]. split; [now rewrite X1|auto].
  - intros (a' & b & [Ha' EN'] & Hb & HI & HP). assert (a' = a) by (eapply same_name_same; eauto; [apply (wf_names _ _ _ _ W)|congruence]). subst a'.
    exists (Z.of_nat (at_feature_idx b)). split; [exact HI|]. apply existsb_exists. exists b. split; [exact Hb|].
    rewrite Z.eqb_refl, HP, Z.eqb_refl. reflexivity.
Qed.

Lemma multi_loop_spec : forall pl k shape st nm rf stop nt nas plan rnd todo i acc e e' r, wf k shape st e ->
  multi_loop pl e nm rf stop nt nas plan rnd i todo acc = (e', r) ->
  let R1 := round pl nm rf nt nas plan rnd in
  let ok := fun e1 => stop = true -> ~ on_prey e1 nm in
  match r with
  | Ok (Positions l) => exists ps, l = acc ++ ps /\ length ps = todo /\ rounds R1 ok i e ps e'
  | Ok StoppedCaught => stop = true /\ exists ps e1 p, rounds R1 ok i e ps e1 /\ length ps < todo /\ R1 (i + length ps) e1 e' p /\ on_prey e' nm
  | Err x => exists ps e1, rounds R1 ok i e ps e1 /\ length ps < todo /\ round_raises pl nm rf nt nas plan rnd (i + length ps) e1 e' x
  end.
Proof.
  intros pl k shape st nm rf stop nt nas plan rnd todo. induction todo as [|todo IH]; intros i acc e e' r W E R1 ok.
  - cbn [multi_loop] in E. inversion E. subst. exists []. rewrite app_nil_r. split; [reflexivity|]. split; [reflexivity|]. constructor.
  - cbn [multi_loop] in E. set (s1 := rnd (3 * i)) in E. set (s2 := rnd (3 * i + 1)) in E. set (s3 := rnd (3 * i + 2)) in E.
    assert (W1 : wf k shape st (fst (refit_step pl e nm rf i nt nas plan s1 s2))).
    { unfold refit_step. destruct rf; [|exact W]. destruct (step_plan i nt nas plan); [|exact W]. eapply muts_wf; [exact W|]. eapply env_fit_muts; eauto. }
    destruct (refit_step pl e nm rf i nt nas plan s1 s2) as [e1 [[]|x]] eqn:ER; cbn [fst] in W1.
    2:{ inversion E. subst. exists [], e. split; [constructor|]. split; [cbn; lia|]. cbn [length]. rewrite Nat.add_0_r. left. exact ER. }
    assert (W2 : wf k shape st (fst (env_step pl e1 nm s3))) by (eapply muts_wf; [exact W1|]; eapply env_step_muts; eauto).
    destruct (env_step pl e1 nm s3) as [e2 [p|x]] eqn:ES; cbn [fst] in W2.
    2:{ inversion E. subst. exists [], e. split; [constructor|]. split; [cbn; lia|]. cbn [length]. rewrite Nat.add_0_r. right. exists e1. split; [exact ER|exact ES]. }
    assert (RD : R1 i e e2 p) by (exists e1; split; assumption).
    assert (FA : exists a, agent_named e2 nm a /\ find_agent (e_agents e2) nm = Some a).
    { destruct (env_step_full _ _ _ _ _ _ _ _ _ W1 ES) as [(X & _)|[(a & a' & x & _ & X & _)|H]]; [discriminate X|discriminate X|].
      destruct H as (a & a2 & s' & [Ha EN] & _ & (H1 & _) & RP & _). destruct (ident_name _ _ H1) as (N1 & _).
      assert (I2 : In a2 (e_agents e2)) by (apply (replaced_in _ _ _ _ Ha N1 RP); now left).
      exists a2. split; [split; [exact I2|congruence]|]. apply find_agent_iff; [apply (wf_names _ _ _ _ W2)|]. split; [exact I2|congruence]. }
    destruct FA as (a2 & AN & FA). rewrite FA in E. pose proof (caught_iff _ _ _ _ _ _ W2 AN) as CI.
    destruct (caught e2 a2) eqn:C; destruct stop; cbn [andb] in E.
    + inversion E. subst. split; [reflexivity|]. exists [], e, p. split; [constructor|]. split; [cbn; lia|]. cbn [length]. rewrite Nat.add_0_r. split; [exact RD|]. now apply CI.
    + assert (OK : ok e2) by (intros X; discriminate X). pose proof (IH _ _ _ _ _ W2 E) as H. cbv zeta in H. destruct r as [[l|]|x].
      * destruct H as (ps & -> & L & RS). exists (p :: ps). rewrite <- app_assoc. split; [reflexivity|]. split; [cbn; lia|]. eapply rounds_more; eauto.
      * destruct H as [X _]. discriminate X.
      * destruct H as (ps & e3 & RS & L & RR). exists (p :: ps), e3. split; [eapply rounds_more; eauto|]. split; [cbn; lia|]. cbn [length]. rewrite <- Nat.add_succ_comm. exact RR.
    + assert (OK : ok e2) by (intros _ X; apply CI in X; discriminate X). pose proof (IH _ _ _ _ _ W2 E) as H. cbv zeta in H. destruct r as [[l|]|x].
      * destruct H as (ps & -> & L & RS). exists (p :: ps). rewrite <- app_assoc. split; [reflexivity|]. split; [cbn; lia|]. eapply rounds_more; eauto.
      * destruct H as [_ (ps & e3 & p' & RS & L & RR & OP)]. split; [reflexivity|]. exists (p :: ps), e3, p'. split; [eapply rounds_more; eauto|]. split; [cbn; lia|]. cbn [length]. rewrite <- Nat.add_succ_comm. auto.
      * destruct H as (ps & e3 & RS & L & RR). exists (p :: ps), e3. split; [eapply rounds_more; eauto|]. split; [cbn; lia|]. cbn [length]. rewrite <- Nat.add_succ_comm. exact RR.
    + assert (OK : ok e2) by (intros X; discriminate X). pose proof (IH _ _ _ _ _ W2 E) as H. cbv zeta in H. destruct r as [[l|]|x].
      * destruct H as (ps & -> & L & RS). exists (p :: ps). rewrite <- app_assoc. split; [reflexivity|]. split; [cbn; lia|]. eapply rounds_more; eauto.
      * destruct H as [X _]. discriminate X.
      * destruct H as (ps & e3 & RS & L & RR). exists (p :: ps), e3. split; [eapply rounds_more; eauto|]. split; [cbn; lia|]. cbn [length]. rewrite <- Nat.add_succ_comm. exact RR.
Qed.

Lemma mapM_ok_len : forall A B (f : A -> res B) l r, mapM f l = Ok r -> length r = length l.
Proof.
  induction l as [|x l IH]; intros r E; cbn [mapM] in E; [inversion E; reflexivity|].
  apply bind_ok in E. destruct E as (y & _ & E). apply bind_ok in E. destruct E as (ys & E1 & E). inversion E. cbn. now rewrite (IH ys).
Qed.
Lemma all_n_steps_spec : forall k shape st e nm a, wf k shape st e -> agent_named e nm a ->
  exists rest, all_n_steps e nm = Ok (at_n_moves a :: rest) /\ forall n, In n rest -> exists b, In b (e_agents e) /\ at_n_moves b = n.
Proof.
  intros k shape st e nm a W [Ha EN]. unfold all_n_steps. cbn [mapM].
  rewrite (proj2 (find_agent_iff _ nm a (wf_names _ _ _ _ W)) (conj Ha EN)). cbn [bind].
  assert (K : forall l, (forall x, In x l -> In x (e_names e)) -> exists rest,
    mapM (fun nm0 => match find_agent (e_agents e) nm0 with Some a0 => Ok (at_n_moves a0) | None => Err KeyError end) l = Ok rest /\
    forall n, In n rest -> exists b, In b (e_agents e) /\ at_n_moves b = n).
  { induction l as [|x l IH]; intros H; [exists []; split; [reflexivity|intros n []]|]. cbn [mapM].
    assert (Hx : In x (map at_name (e_agents e))) by (apply (wf_lookup _ _ _ _ W); apply H; now left).
    apply in_map_iff in Hx. destruct Hx as (b & Eb & Hb). rewrite (proj2 (find_agent_iff _ x b (wf_names _ _ _ _ W)) (conj Hb Eb)). cbn [bind].
    destruct IH as (rest & -> & HR); [intros y Hy; apply H; now right|]. cbn [bind]. exists (at_n_moves b :: rest). split; [reflexivity|].
    intros n [<-|Hn]; [eauto|auto]. }
  destruct (K (filter (fun x => negb (String.eqb x nm)) (e_names e))) as (rest & -> & HR).
  - intros x Hx. apply filter_In in Hx. tauto.
  - cbn [bind]. exists rest. split; [reflexivity|exact HR].
Qed.

(** The planning horizons a call uses: those given, or the agents' moves per turn. *)
Definition plan_used (e : env R) (nm : string) (given : option (list Z)) (plan : list Z) : Prop :=
  match given with Some p => plan = p | None => all_n_steps e nm = Ok plan end.

Theorem C21_step_multi : forall pl e nm arg given nt refit stop rnd e' r, reachable pl e ->
  step_multi pl e nm arg given nt refit stop rnd = (e', r) ->
  (* refused *)
  (exists x, r = Err x /\ e' = e /\
     (~ In nm (e_names e) \/ (forall a, agent_named e nm a -> requested a arg = None) \/ (forall plan, plan_used e nm given plan -> ~ good_plan e plan))) \/
  (* or accepted *)
  exists a n moves plan, agent_named e nm a /\ requested a arg = Some n /\ all_n_steps e nm = Ok moves /\ plan_used e nm given plan /\ good_plan e plan /\
  let R1 := round pl nm refit nt moves plan rnd in
  let ok := fun e1 => stop = true -> ~ on_prey e1 nm in
  match r with
  | Ok (Positions ps) => length ps = Z.to_nat n /\ rounds R1 ok 0 e ps e'
  | Ok StoppedCaught => stop = true /\ exists ps e1 p, rounds R1 ok 0 e ps e1 /\ length ps < Z.to_nat n /\ R1 (length ps) e1 e' p /\ on_prey e' nm
  | Err x => exists ps e1, rounds R1 ok 0 e ps e1 /\ length ps < Z.to_nat n /\ round_raises pl nm refit nt moves plan rnd (length ps) e1 e' x
  end.
Proof.
  intros pl e nm arg given nt refit stop rnd e' r RE E. destruct (reachable_wf _ _ RE) as (k & shape & st & W).
  unfold step_multi in E. destruct (lookup_spec k shape st e nm W) as [(a & EL & Ha & EN)|(EL & NI)]; rewrite EL in E.
  2:{ left. inversion E. subst. exists ValueError. auto. }
  assert (AN : agent_named e nm a) by (split; assumption).
  destruct (all_n_steps_spec _ _ _ _ _ _ W AN) as (rest & EM & _). set (moves := at_n_moves a :: rest) in *. rewrite EM in E. cbv zeta in E.
  set (plan := match given with Some p => p | None => moves end) in *.
  assert (PU : plan_used e nm given plan) by (unfold plan_used, plan; destruct given; auto).
  assert (PU' : forall p, plan_used e nm given p -> p = plan).
  { intros p. unfold plan_used, plan. destruct given; [auto|]. rewrite EM. congruence. }
  assert (UA : forall b, agent_named e nm b -> b = a).
  { intros b [Hb Eb]. eapply same_name_same; eauto; [apply (wf_names _ _ _ _ W)|congruence]. }
  destruct (Nat.eqb_spec (length plan) (length (e_agents e))) as [LP|LP]; cbn [negb] in E.
  2:{ left. inversion E. subst. exists ValueError. split; [reflexivity|]. split; [reflexivity|]. right. right. intros p Hp [X _]. rewrite (PU' p Hp) in X. contradiction. }
  destruct (forallb (fun i => (0 <? i)%Z) plan) eqn:FP; cbn [negb] in E.
  2:{ left. assert (exists x, r = Err x /\ e' = e) as (x & -> & ->) by (destruct arg as [|z|[|z]|]; inversion E; eauto).
      exists x. split; [reflexivity|]. split; [reflexivity|]. right. right. intros p Hp [_ X]. rewrite (PU' p Hp) in X.
      assert (Y : forallb (fun i => (0 <? i)%Z) plan = true); [|congruence]. apply forallb_forall. intros z Hz. apply Z.ltb_lt. auto. }
  assert (GP : good_plan e plan).
  { split; [exact LP|]. intros n Hn. rewrite forallb_forall in FP. apply Z.ltb_lt. auto. }
  destruct (requested a arg) as [n|] eqn:RQ.
  - right. exists a, n, moves, plan. split; [exact AN|]. split; [exact RQ|]. split; [exact EM|]. split; [exact PU|]. split; [exact GP|].
    assert (E2 : multi_loop pl e nm refit stop nt moves plan rnd 0 (Z.to_nat n) [] = (e', r)).
    { destruct arg as [|z|[|z]|]; cbn in RQ; inversion RQ; subst n; exact E. }
    pose proof (multi_loop_spec _ _ _ _ _ _ _ _ _ _ _ _ _ _ _ _ _ W E2) as H. cbv zeta in *. cbn [app Nat.add] in H.
    destruct r as [[ps|]|x]; [|exact H|exact H]. destruct H as (ps' & -> & L & RS). auto.
  - left. assert (exists x, r = Err x /\ e' = e) as (x & -> & ->) by (destruct arg as [|z|[|z]|]; cbn in RQ; try discriminate; inversion E; eauto).
    exists x. split; [reflexivity|]. split; [reflexivity|]. right. left. intros b Hb. now rewrite (UA b Hb).
Qed.

Example C21_example : exists m m' e e1 e2 e3 e4, grid_mdp (A:=Q) Square ex_ft None (2, 2) false = Ok m /\ make_env m [ex_p; ex_q] = (m', Ok e) /\
  env_fit (ex_pl [0; 1; 3; 2]%Z) e "q" None 0 0 = (e1, Ok tt) /\
  step_multi (ex_pl [0; 1; 3; 2]%Z) e1 "q" (StepsInt 5) None 1 false true (fun _ => 0) = (e2, Ok StoppedCaught) /\ e_n_steps e2 = 2 /\
  step_multi (ex_pl [0; 1; 3; 2]%Z) e1 "q" (StepsInt 5) None 1 false false (fun _ => 0) = (e3, Ok (Positions [2; 0; 1; 3; 2]%Z)) /\ e_n_steps e3 = 5 /\
  step_multi (ex_pl [0; 1; 3; 2]%Z) e1 "q" StepsOther None 1 false false (fun _ => 0) = (e1, Err UnboundLocalError) /\
  step_multi (ex_pl [0; 1; 3; 2]%Z) e1 "q" (StepsInt 1) None 1 true false (fun _ => 0) = (e4, Ok (Positions [2]%Z)).
Proof. do 7 eexists. vmr. Qed.

(** ** C22: multi-stepping with re-fitting *)

Lemma step_plan_fails : forall i nt moves m rest plan, moves = m :: rest -> plan <> [] -> (m <= Z.of_nat i)%Z ->
  step_plan i nt moves plan = Err ValueError.
Proof.
  intros i nt moves m rest plan -> NP H. destruct plan as [|p plan]; [congruence|]. unfold step_plan. cbn [length seq combine mapM nth_error Nat.eqb].
  destruct (C23_rejected (Z.of_nat i) nt m p) as (X & _). rewrite (X H). reflexivity.
Qed.

Lemma rounds_refit_bound : forall pl nm nt moves plan rnd ok m rest i e ps e', moves = m :: rest -> plan <> [] ->
  rounds (round pl nm true nt moves plan rnd) ok i e ps e' -> (Z.of_nat i <= m \/ ps = [])%Z -> ps = [] \/ (Z.of_nat (i + length ps) <= m)%Z.
Proof.
  intros pl nm nt moves plan rnd ok m rest i e ps e' EM NP H. induction H as [|i e e1 e2 p ps (e0 & RF & _) OK H IH]; [auto|].
  intros _. right. unfold refit_step in RF.
  destruct (Z.le_gt_cases m (Z.of_nat i)) as [X|X]; [rewrite (step_plan_fails i nt moves m rest plan EM NP X) in RF; discriminate RF|].
  destruct IH as [->|IH]; [left; lia|cbn [length]; lia|cbn [length]; lia].
Qed.

(** Refuted, for every environment, agent and argument: more steps than the agent's moves per turn are
    never performed. The call raises, or stops at a catch before. *)
Theorem C22_beyond_one_turn_refuted : forall pl e nm a arg given nt stop rnd e' r n, reachable pl e -> agent_named e nm a ->
  requested a arg = Some n -> (Z.max 0 (at_n_moves a) < n)%Z -> step_multi pl e nm arg given nt true stop rnd = (e', r) ->
  (exists x, r = Err x) \/ (stop = true /\ r = Ok StoppedCaught).
Proof.
  intros pl e nm a arg given nt stop rnd e' r n RE AN RQ Hn E. destruct (reachable_wf _ _ RE) as (k & shape & st & W).
  destruct (C21_step_multi _ _ _ _ _ _ _ _ _ _ _ RE E) as [(x & -> & _)|(a' & n' & moves & plan & AN' & RQ' & EM & PU & [LP _] & H)]; [eauto|].
  assert (a' = a). { destruct AN, AN'. eapply same_name_same; eauto; [apply (wf_names _ _ _ _ W)|congruence]. } subst a'.
  assert (n' = n) by congruence. subst n'. cbv zeta in H. destruct r as [[ps|]|x]; [exfalso|right; split; [apply H|reflexivity]|eauto].
  destruct H as [L RS]. destruct (all_n_steps_spec _ _ _ _ _ _ W AN) as (rest & EM' & _). rewrite EM in EM'.
  assert (EM2 : moves = at_n_moves a :: rest) by congruence.
  assert (NP : plan <> []). { intros ->. destruct AN as [Ha _]. destruct (e_agents e); [destruct Ha|discriminate LP]. }
  destruct ps as [|p ps]; [cbn in L; lia|].
  destruct (rounds_refit_bound _ _ _ _ _ _ _ _ _ _ _ _ _ EM2 NP RS) as [X|X]; [|discriminate X|lia].
  inversion RS as [|? ? ? ? ? ? (e0 & RF & _) _ _]; subst. unfold refit_step in RF.
  destruct (Z.le_gt_cases (at_n_moves a) 0) as [Y|Y]; [|lia].
  rewrite (step_plan_fails 0 nt _ _ _ plan eq_refl NP Y) in RF. discriminate RF.
Qed.

(** Up to the agent's moves per turn, re-fitting as such never makes the call fail: if it raises, an
    algorithm's fit or a step raised. *)
Lemma step_plan_ok : forall i nt plan moves, length plan = length moves -> (1 <= nt)%Z -> (forall n, In n plan -> (0 < n)%Z) ->
  (forall n, In n moves -> (0 < n)%Z) -> (Z.of_nat i < nth 0 moves 0)%Z -> exists p, step_plan i nt moves plan = Ok p.
Proof.
  intros i nt plan moves L HN HP HM Hi. unfold step_plan.
  assert (K : forall l, (forall j n, In (j, n) l -> j < length moves /\ (0 < n)%Z) -> exists p,
     mapM (fun '(j, n_moves) => match nth_error moves j with
                              | Some k => get_n_moves_plan (if j =? 0 then Z.of_nat i else 0%Z) nt k n_moves | None => Err IndexError end) l = Ok p).
  { induction l as [|[j n] l IH]; intros H; [eexists; reflexivity|]. cbn [mapM]. destruct (H j n) as [Hj Hn]; [now left|].
    destruct (nth_error moves j) as [q|] eqn:Eq; [|apply nth_error_None in Eq; lia].
    assert (Hq : (0 < q)%Z) by (apply HM; eapply nth_error_In; eauto).
    assert (HC : (0 <= (if (j =? 0)%nat then Z.of_nat i else 0) < q)%Z).
    { destruct (Nat.eqb_spec j 0) as [->|]; [|lia]. destruct moves as [|q0 ms]; [discriminate|]. cbn in Eq, Hi. inversion Eq. subst. lia. }
    destruct (C23_schedule _ nt q n HC ltac:(lia) ltac:(lia)) as (p & -> & _). cbn [bind].
    destruct IH as (ps & ->); [intros j' n' H'; apply H; now right|]. eexists. reflexivity. }
  apply K. intros j n H. split.
  - apply in_combine_l in H. apply in_seq in H. lia.
  - apply HP. now apply in_combine_r in H.
Qed.

Lemma rounds_run : forall pl nm refit nt moves plan rnd ok i e ps e', rounds (round pl nm refit nt moves plan rnd) ok i e ps e' -> exists l, e' = run pl e l.
Proof.
  intros pl nm refit nt moves plan rnd ok i e ps e' H. induction H as [|i e e1 e2 p ps (e0 & R1 & R2) _ _ (l & ->)]; [exists []; reflexivity|].
  assert (X : exists l0, e0 = run pl e l0).
  { unfold refit_step in R1. destruct refit; [|inversion R1; exists []; reflexivity]. destruct (step_plan i nt moves plan) as [pp|x]; [|discriminate].
    exists [OFit nm (Some pp) (rnd (3 * i)) (rnd (3 * i + 1))]. cbn [run fold_left do_op]. now rewrite R1. }
  destruct X as (l0 & ->). exists (l0 ++ OStep nm (rnd (3 * i + 2)) :: l). unfold run in *. rewrite fold_left_app. cbn [fold_left do_op]. now rewrite R2.
Qed.
(** If every planning horizon is usable and no more steps are asked for than the agent has moves, then an error is one of a fit or of a
    step, made from an environment that earlier calls could have led to. *)
Theorem C22_within_one_turn_partial : forall pl e nm a arg given nt stop rnd e' x n, reachable pl e -> agent_named e nm a ->
  requested a arg = Some n -> (n <= at_n_moves a)%Z -> (1 <= nt)%Z -> (forall b, In b (e_agents e) -> (0 < at_n_moves b)%Z) ->
  (forall plan, plan_used e nm given plan -> good_plan e plan) -> NoDup (e_names e) ->
  step_multi pl e nm arg given nt true stop rnd = (e', Err x) ->
  exists e1 l p s s' s3, e1 = run pl e l /\ ((env_fit pl e1 nm (Some p) s s' = (e', Err x)) \/ (exists e2, env_fit pl e1 nm (Some p) s s' = (e2, Ok tt) /\ env_step pl e2 nm s3 = (e', Err x))).
Proof.
  intros pl e nm a arg given nt stop rnd e' x n RE AN RQ Hn HT HM HG ND E. destruct (reachable_wf _ _ RE) as (k & shape & st & W).
  destruct (C21_step_multi _ _ _ _ _ _ _ _ _ _ _ RE E) as [(y & _ & _ & R)|(a' & n' & moves & plan & AN' & RQ' & EM & PU & [LP PP] & H)].
  - exfalso. destruct R as [R|[R|R]].
    + apply R. apply (wf_lookup _ _ _ _ W). destruct AN as [Ha <-]. now apply in_map.
    + rewrite (R a AN) in RQ. discriminate RQ.
    + destruct (all_n_steps_spec _ _ _ _ _ _ W AN) as (rest & EM' & _).
      apply (R (match given with Some p => p | None => at_n_moves a :: rest end)); [|apply HG]; unfold plan_used; destruct given; auto.
  - assert (a' = a). { destruct AN, AN'. eapply same_name_same; eauto; [apply (wf_names _ _ _ _ W)|congruence]. } subst a'.
    assert (n' = n) by congruence. subst n'. cbv zeta in H. destruct H as (ps & e1 & RS & L & RR).
    destruct (all_n_steps_spec _ _ _ _ _ _ W AN) as (rest & EM' & HR). assert (EM2 : moves = at_n_moves a :: rest) by congruence.
    assert (LM : length moves = length (e_agents e)).
    { unfold all_n_steps in EM. apply mapM_ok_len in EM. cbn [length] in EM.
      rewrite EM. assert (X : length (e_agents e) = length (e_names e)).
      { rewrite <- (map_length at_name). apply Nat.le_antisymm; apply NoDup_incl_length; auto; try apply (wf_names _ _ _ _ W); intros y Hy; now apply (wf_lookup _ _ _ _ W). }
      rewrite X. assert (Hin : In nm (e_names e)). { apply (wf_lookup _ _ _ _ W). destruct AN as [Ha <-]. now apply in_map. }
      clear - ND Hin. induction (e_names e) as [|y l IH]; [destruct Hin|]. inversion ND as [|? ? NI ND']. subst. cbn [filter].
      destruct (String.eqb_spec y nm) as [->|Ny]; cbn [negb length].
      - f_equal. rewrite (filter_ext_in _ (fun _ => true)); [clear; induction l; cbn; congruence|]. intros z Hz. destruct (String.eqb_spec z nm) as [->|]; [contradiction|reflexivity].
      - f_equal. apply IH; auto. destruct Hin; [congruence|assumption]. }
    destruct (step_plan_ok (length ps) nt plan moves) as (p & SP).
    + congruence.
    + exact HT.
    + exact PP.
    + intros z Hz. rewrite EM2 in Hz. destruct Hz as [<-|Hz]; [apply HM; apply AN|]. destruct (HR z Hz) as (b & Hb & <-). now apply HM.
    + rewrite EM2. cbn [nth]. lia.
    + unfold round_raises, refit_step in RR. rewrite SP in RR.
      destruct (rounds_run _ _ _ _ _ _ _ _ _ _ _ _ RS) as (l & EL). exists e1, l, p, (rnd (3 * length ps)), (rnd (3 * length ps + 1)), (rnd (3 * length ps + 2)). split; [exact EL|]. destruct RR as [RR|(e2 & R1 & R2)]; eauto.
Qed.
(** C232: refitting multi-step within one turn. *)
Theorem C232_within_one_turn : forall pl e nm a arg given nt stop rnd e' x n, reachable pl e -> agent_named e nm a ->
  requested a arg = Some n -> (n <= at_n_moves a)%Z -> (1 <= nt)%Z -> (forall b, In b (e_agents e) -> (0 < at_n_moves b)%Z) ->
  (forall plan, plan_used e nm given plan -> good_plan e plan) -> NoDup (e_names e) ->
  step_multi pl e nm arg given nt true stop rnd = (e', Err x) ->
  exists e1 l p s s' s3, e1 = run pl e l /\ ((env_fit pl e1 nm (Some p) s s' = (e', Err x)) \/ (exists e2, env_fit pl e1 nm (Some p) s s' = (e2, Ok tt) /\ env_step pl e2 nm s3 = (e', Err x))).
Proof. exact (@C22_within_one_turn_partial). Qed.

Example C22_example : exists m m' e e2 e3, grid_mdp (A:=Q) Square ex_ft None (2, 2) false = Ok m /\ make_env m [ex_p; ex_q] = (m', Ok e) /\
  step_multi (ex_pl [1; 1; 0; 3]%Z) e "p" (StepsInt 2) None 1 true true (fun _ => 0) = (e2, Ok (Positions [2; 3]%Z)) /\
  step_multi (ex_pl [1; 1; 0; 3]%Z) e "p" (StepsInt 3) None 1 true true (fun _ => 0) = (e3, Err ValueError) /\
  map at_pos (e_agents e3) = [3; 3]%Z.
Proof. do 5 eexists. vmr. Qed.

(** ** C24: interactive multi-stepping *)

(** Refuted for every environment and all arguments: no agent is ever moved; unless there is nothing to
    do (no turns or no agents) the call raises. *)
Theorem C24_interactive_refuted : forall (e : env R) names n_moves,
  fst (step_multi_interactive e names n_moves) = e /\
  (snd (step_multi_interactive e names n_moves) = Ok tt ->
     (exists rows, n_moves = Some ([] :: rows)) \/ names = Some [] \/ (names = None /\ e_names e = [])).
Proof.
  intros e names n_moves. unfold step_multi_interactive. destruct n_moves as [[|row0 rows]|]; [split; [reflexivity|discriminate]| |split; [reflexivity|discriminate]].
  destruct (mapM _ _); [|split; [reflexivity|discriminate]]. destruct row0 as [|z row0]; cbn [length Nat.eqb orb].
  - split; [reflexivity|]. intros _. left. eauto.
  - destruct names as [[|nm l]|]; cbn [length Nat.eqb]; [split; auto| split; [reflexivity|discriminate]|].
    destruct (e_names e); cbn [length Nat.eqb]; [split; auto|split; [reflexivity|discriminate]].
Qed.

(** ** C66: which catches are detected *)

(** Refuted: the positions are compared as given. The prey was placed on state 3 as position -1; the
    hunter walks onto state 3 and goes on. With the position written as 3 it stops. *)
Theorem C66_negative_position_refuted : exists m m1 e1 m2 e2 e1' e2', grid_mdp (A:=Q) Square ex_ft None (2, 2) false = Ok m /\
  let prey p := mkSpec "p"%string 1%Z None p [0; 0; 0; 0]%Q [] in
  let hunter := mkSpec "h"%string 2%Z None 1%Z [0; 0; 1; 0]%Q [2%Z] in
  let pl := ex_pl [1; 1; 0; 3]%Z in
  make_env m [prey 3%Z; hunter] = (m1, Ok e1) /\ make_env m [prey (-1)%Z; hunter] = (m2, Ok e2) /\ m1 = m2 /\
  step_multi pl (fst (env_fit pl e1 "h" None 0 0)) "h" StepsDefault None 1 false true (fun _ => 0) = (e1', Ok StoppedCaught) /\
  step_multi pl (fst (env_fit pl e2 "h" None 0 0)) "h" StepsDefault None 1 false true (fun _ => 0) = (e2', Ok (Positions [3; 1]%Z)).
Proof. do 7 eexists. cbv zeta. vmr. Qed.
(** Likewise for consumed features given as negative indices. *)
Theorem C66_negative_feature_refuted : exists m m1 e1 e1', grid_mdp (A:=Q) Square ex_ft None (2, 2) false = Ok m /\
  let prey := mkSpec "p"%string 1%Z None 3%Z [0; 0; 0; 0]%Q [] in
  let hunter := mkSpec "h"%string 2%Z None 1%Z [0; 0; 1; 0]%Q [(-2)%Z] in
  let pl := ex_pl [1; 1; 0; 3]%Z in
  make_env m [prey; hunter] = (m1, Ok e1) /\ nth 2 (m_features m1) [] = [0; 0; 0; 1]%Q /\
  step_multi pl (fst (env_fit pl e1 "h" None 0 0)) "h" StepsDefault None 1 false true (fun _ => 0) = (e1', Ok (Positions [3; 1]%Z)) /\
  nth 2 (m_features (e_mdp e1')) [] = [0; 0; 0; 0]%Q.
Proof. do 4 eexists. cbv zeta. vmr. Qed.

(** An agent that consumes the row of an agent (written as a non-negative index) stops the call exactly
    when it stands on that agent's position, written the same way. *)
Theorem C66_detection_partial : forall pl e nm a, reachable pl e -> agent_named e nm a ->
  (caught e a = true <-> on_prey e nm).
Proof. intros pl e nm a RE AN. destruct (reachable_wf _ _ RE) as (k & shape & st & W). eapply caught_iff; eauto. Qed.

(** The same, as C173: a property of its own. *)
Theorem C173_detection : forall pl e nm a, reachable pl e -> agent_named e nm a ->
  (caught e a = true <-> on_prey e nm).
Proof. exact (@C66_detection_partial). Qed.
