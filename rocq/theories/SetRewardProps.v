(** Properties C131-C134: assigning the reward function, the consumed features or the moves per turn of an agent
    while the environment is in use. *)
From Coq Require Import String List ZArith QArith Reals Bool Lia Lra.
From Verif Require Import PyBase PyProofs GridModel GridSpec MDPModel MDPSpec MDPProofs MDPProofs2 MDPProofs3 MDPProofs4 MDPProps ActionModel ActionSpec ActionProofs RSum ActionProps EnvModel PlanProps EnvSpec StepSpec EnvProofs EnvProofs2 EnvProofs3 EnvProofs4 EnvProofs5 EnvProps StepProps VIModel VISpec VIProofs VIProofs2 VIProps VIEnvProps WorldModel WorldProofs WorldProofs2 WorldNew QueryModel QuerySpec QueryProofs QueryProps MCTSModel MCTSRun SetModel SetSpec SetProofs SetRewardSpec SetReward.
Import ListNotations.
Local Close Scope Q_scope.
Local Open Scope nat_scope.

(** ** C131: replacing an agent's reward function *)

(** The assignment succeeds exactly for the agents of the environment, and changes nothing else. *)
Theorem C131_assigned : forall pl e nm w e' r, reachable pl e -> assign_reward e nm w = (e', r) ->
  (r = Ok tt <-> exists a, agent_named e nm a) /\ (r <> Ok tt -> r = Err KeyError /\ e' = e) /\ same_but_reward nm e' e /\
  (r = Ok tt -> exists a, agent_named e' nm a /\ at_reward a = w).
Proof.
  intros pl e nm w e' r RE E. destruct (reachable_wf _ _ RE) as (k & shape & st & W). pose proof (wf_names _ _ _ _ W) as ND.
  assert (E' : e' = sre nm w e) by (rewrite <- (assign_reward_sr e nm w ND), E; reflexivity).
  assert (S : same_but_reward nm e' e) by (rewrite E'; apply same_sr).
  unfold assign_reward, assign_attr in E. destruct (find_agent (e_agents e) nm) as [a|] eqn:F; injection E as E1 E2; subst r.
  - apply find_agent_iff in F; [|exact ND]. destruct F as [F1 F2]. split; [split; [intros _; now exists a|auto]|]. split; [congruence|]. split; [exact S|]. intros _.
    exists (sr nm w a). rewrite E'. split; [split; [now apply in_map|rewrite sr_name; exact F2]|]. unfold sr. now rewrite F2, String.eqb_refl.
  - split; [split; [discriminate|]|].
    + intros (a & Ha & Na). exfalso. assert (X : find_agent (e_agents e) nm = Some a) by (apply find_agent_iff; auto). congruence.
    + split; [now split|]. split; [exact S|discriminate].
Qed.

(** Until the agent is fitted, every program has the same effects and results as without the assignment, the
    agent's own steps included: it goes on with the plan it has. *)
Theorem C131_until_fitted : forall pl e nm w e' ops, reachable pl e -> assign_reward e nm w = (e', Ok tt) -> Forall (not_planning nm) ops ->
  (forall nm', nm' <> nm -> ignores_reward pl nm' nm) ->
  let e1 := run pl e ops in let e2 := run pl e' ops in
  e2 = fst (assign_reward e1 nm w) /\
  (forall nm' s, snd (env_step pl e2 nm' s) = snd (env_step pl e1 nm' s)) /\
  (forall nm' n s s', nm' <> nm -> snd (env_fit pl e2 nm' n s s') = snd (env_fit pl e1 nm' n s s')) /\
  (forall nm' ns p t rf st rnd, rf = false \/ nm' <> nm -> snd (step_multi pl e2 nm' ns p t rf st rnd) = snd (step_multi pl e1 nm' ns p t rf st rnd)) /\
  (forall nm' p s, snd (env_step_proba pl e2 nm' p s) = snd (env_step_proba pl e1 nm' p s)) /\
  forall nm', get_agent_pi e2 nm' = get_agent_pi e1 nm' /\ get_agent_pi_p e2 nm' = get_agent_pi_p e1 nm' /\
    get_agent_q_values e2 nm' = get_agent_q_values e1 nm' /\ get_history e2 nm' = get_history e1 nm'.
Proof.
  intros pl e nm w e' ops RE E F IG e1 e2. destruct (reachable_wf _ _ RE) as (k & shape & st & W).
  assert (E' : e' = sre nm w e) by (rewrite <- (assign_reward_sr e nm w (wf_names _ _ _ _ W)), E; reflexivity).
  assert (P1 : forall nm' e0 n s, nm' <> nm -> pl_fit pl nm' (sre nm w e0) n s = pl_fit pl nm' e0 n s) by (intros nm' e0 n s N; apply IG; [exact N|apply same_sr]).
  assert (E2 : e2 = sre nm w e1) by (unfold e2, e1; rewrite E'; now apply run_sr).
  split; [rewrite assign_reward_sr; [exact E2|apply (wf_names _ _ _ _ (run_wf pl k shape st ops e W))]|].
  rewrite E2. split; [intros nm' s; now rewrite step_sr|].
  split; [intros nm' n s s' N; now rewrite (fit_sr nm w pl P1)|].
  split; [intros nm' ns p t rf stp rnd H; rewrite (multi_sr nm w pl P1); [reflexivity|intros ->; destruct H; [discriminate|assumption]]|].
  split; [intros; now rewrite proba_sr|]. intros nm'.
  unfold get_agent_pi, get_agent_pi_p, get_agent_q_values, get_history. rewrite lookup_sr. destruct (lookup e1 nm') as [a|x]; [|auto]. cbn [bind].
  now rewrite sr_fit, sr_pi, sr_pi_p, sr_hist.
Qed.

(** And from then on it plans as if it had had the new reward function all along: if the agent has not planned
    yet, the environment is the one its construction with the new reward function would have led to. *)
Lemma attach_all_sr : forall {A} `{Num A} nm (w : list A) nf na ss, (forall s, In s ss -> sp_name s = nm -> length w = length (sp_reward s)) ->
  forall m idx acc, attach_all nf na m idx (map (with_reward nm w) ss) (map (sr nm w) acc) =
    let '(m', r) := attach_all nf na m idx ss acc in (m', match r with Ok l => Ok (map (sr nm w) l) | Err x => Err x end).
Proof.
  intros A NA nm w nf na ss. induction ss as [|s ss IH]; intros L m idx acc; [reflexivity|]. cbn [map attach_all].
  assert (X : attach_checked nf na m idx (with_reward nm w s) = let '(m', r) := attach_checked nf na m idx s in (m', match r with Ok a => Ok (sr nm w a) | Err x => Err x end)).
  { unfold with_reward. destruct (String.eqb_spec (sp_name s) nm) as [E|N].
    - unfold attach_checked. cbn [sp_reward sp_consumes]. rewrite (L s (or_introl eq_refl) E). destruct (negb _); [reflexivity|]. destruct (existsb _ _); [reflexivity|].
      unfold attach. cbn [sp_name sp_n_moves sp_fit sp_pos sp_reward sp_consumes]. destruct (add_agent_feature m (sp_pos s)) as [m1 [u|x]]; [|reflexivity]. rewrite (L s (or_introl eq_refl) E).
      set (a0 := mkAttached (sp_name s) (sp_n_moves s) (sp_reward s) (sp_consumes s) (repeat 0 (length (sp_reward s))) idx (idx + m_n_non_agent m) (sp_fit s) (sp_pos s) (sp_pos s) [sp_pos s] None None).
      replace (mkAttached (sp_name s) (sp_n_moves s) w (sp_consumes s) (repeat 0 (length (sp_reward s))) idx (idx + m_n_non_agent m) (sp_fit s) (sp_pos s) (sp_pos s) [sp_pos s] None None) with (sr nm w a0).
      + rewrite move_sr. destruct (move_agent m1 a0 (sp_pos s)) as [[m2 a'] [v|x]]; reflexivity.
      + unfold sr. cbn [a0 at_name]. rewrite E, String.eqb_refl. unfold a0, set_reward. cbn. now rewrite E.
    - destruct (attach_checked nf na m idx s) as [m' [a|x]] eqn:AC; [|reflexivity]. rewrite sr_other; [reflexivity|].
      unfold attach_checked in AC. destruct (negb _); [discriminate|]. destruct (existsb _ _); [discriminate|]. unfold attach in AC. destruct (add_agent_feature m (sp_pos s)) as [m1 [u|x]]; [|discriminate].
      unfold move_agent in AC. destruct (_ <=? _)%Z; [discriminate|]. cbn [at_idx] in AC. destruct (update_agent_feature m1 idx (sp_pos s)) as [m2 [v|x]]; [|discriminate]. injection AC as _ <-. exact N. }
  rewrite X. destruct (attach_checked nf na m idx s) as [m' [a|x]]; [|reflexivity]. rewrite put_sr. apply IH. intros t Ht. apply L. now right.
Qed.
Lemma make_env_sr : forall {A} `{Num A} nm (w : list A) ss m m' e, (forall s, In s ss -> sp_name s = nm -> length w = length (sp_reward s)) -> make_env m ss = (m', Ok e) ->
  make_env m (map (with_reward nm w) ss) = (m', Ok (sre nm w e)).
Proof.
  intros A NA nm w ss m m' e L E. unfold make_env in *. destruct (if 0 <? m_n_agents m then remove_agent_features m else Ok m) as [m0|x]; [|discriminate].
  rewrite map_length. change (@nil (attached A)) with (map (sr nm w) []) at 1. rewrite attach_all_sr by exact L. destruct (attach_all (m_n_features m0) (length ss) m0 0 ss []) as [m1 [ags|x]]; [|discriminate].
  injection E as <- <-. do 2 f_equal. unfold sre. cbn [e_mdp e_names e_agents e_n_agents e_n_steps]. rewrite map_length, map_map. f_equal. apply map_ext. intros s. unfold with_reward. now destruct (String.eqb _ _).
Qed.
Theorem C131_as_if_given : forall pl m ss m' e nm w ops e1, usable pl m -> make_env m ss = (m', Ok e) ->
  (forall s, In s ss -> sp_name s = nm -> length w = length (sp_reward s)) -> (forall nm', nm' <> nm -> ignores_reward pl nm' nm) -> Forall (not_planning nm) ops ->
  assign_reward (run pl e ops) nm w = (e1, Ok tt) ->
  exists e', make_env m (map (with_reward nm w) ss) = (m', Ok e') /\ e1 = run pl e' ops.
Proof.
  intros pl m ss m' e nm w ops e1 U E L IG F AR. exists (sre nm w e). split; [now apply make_env_sr|].
  assert (P1 : forall nm' e0 n s, nm' <> nm -> pl_fit pl nm' (sre nm w e0) n s = pl_fit pl nm' e0 n s) by (intros nm' e0 n s N; apply IG; [exact N|apply same_sr]).
  destruct (reachable_wf _ _ (reach_new _ _ _ _ _ U E)) as (k & shape & st & W).
  rewrite (run_sr nm w pl P1) by exact F. rewrite <- assign_reward_sr; [now rewrite AR|]. apply (wf_names _ _ _ _ (run_wf pl k shape st ops e W)).
Qed.

(** The next fit plans with it. *)
Theorem C131_next_fit : forall pl e nm w e' ops g tol mi n s s' e2, reachable pl e -> assign_reward e nm w = (e', Ok tt) -> Forall (not_planning nm) ops ->
  (forall nm', nm' <> nm -> ignores_reward pl nm' nm) ->
  (forall e a n seed, NoDup (map at_name (e_agents e)) -> agent_named e nm a -> pl_fit pl nm e n seed = vi_fit g tol mi (e_mdp e) (at_reward a)) ->
  env_fit pl (run pl e' ops) nm n s s' = (e2, Ok tt) ->
  exists v q, solve_value_iteration hard_backup w (m_features (e_mdp (run pl e' ops))) mi g (m_sas (e_mdp (run pl e' ops))) tol = Ok (v, q) /\ get_agent_q_values e2 nm = Ok (Some q).
Proof.
  intros pl e nm w e' ops g tol mi n s s' e2 RE E F IG VI EF. destruct (reachable_wf _ _ RE) as (k & shape & st & W).
  assert (E' : e' = sre nm w e) by (rewrite <- (assign_reward_sr e nm w (wf_names _ _ _ _ W)), E; reflexivity).
  assert (P1 : forall nm' e0 n s, nm' <> nm -> pl_fit pl nm' (sre nm w e0) n s = pl_fit pl nm' e0 n s) by (intros nm' e0 n0 s0 N; apply IG; [exact N|apply same_sr]).
  assert (ER : run pl e' ops = sre nm w (run pl e ops)) by (rewrite E'; now apply run_sr).
  pose proof (run_wf pl k shape st ops e W) as W1.
  destruct (C113_latest_fit_partial pl _ nm n s s' e2 [] EF) as (v & q & p & pi & sd & FV & _ & _ & Q & _); [constructor|]. cbn [run fold_left] in Q.
  destruct (proj1 (proj1 (C131_assigned _ _ _ _ _ _ RE E)) eq_refl) as (a & Ha & Na).
  destruct (EnvProofs2.lookup_spec k shape st (run pl e ops) nm W1) as [(b & EL & Hb & Nb)|(EL & _)].
  - rewrite (VI (run pl e' ops) (sr nm w b) n s) in FV.
    + unfold sr in FV. rewrite Nb, String.eqb_refl in FV. cbn [set_reward at_reward] in FV. unfold vi_fit in FV. apply bind_ok in FV. destruct FV as ([v0 q0] & SV & FV). injection FV as <- <-. exists v0, q0. split; [exact SV|exact Q].
    + rewrite ER. cbn [sre e_agents]. rewrite map_map. rewrite (map_ext _ at_name) by apply sr_name. apply (wf_names _ _ _ _ W1).
    + rewrite ER. split; [cbn [sre e_agents]; now apply in_map|now rewrite sr_name].
  - exfalso. unfold env_fit in EF. rewrite ER, lookup_sr, EL in EF. discriminate.
Qed.

(** A reward function with the wrong number of entries makes the next fit raise; the agent keeps its plan. *)
Theorem C131_wrong_length : forall pl e nm w e' ops n s s', reachable pl e -> assign_reward e nm w = (e', Ok tt) -> Forall (not_planning nm) ops ->
  (forall nm', nm' <> nm -> ignores_reward pl nm' nm) -> length w <> m_n_features (e_mdp e) ->
  env_fit pl (run pl e' ops) nm n s s' = (run pl e' ops, Err AttributeError).
Proof.
  intros pl e nm w e' ops n s s' RE E F IG NL. destruct (reachable_wf _ _ RE) as (k & shape & st & W).
  assert (E' : e' = sre nm w e) by (rewrite <- (assign_reward_sr e nm w (wf_names _ _ _ _ W)), E; reflexivity).
  assert (P1 : forall nm' e0 n s, nm' <> nm -> pl_fit pl nm' (sre nm w e0) n s = pl_fit pl nm' e0 n s) by (intros nm' e0 n0 s0 N; apply IG; [exact N|apply same_sr]).
  assert (ER : run pl e' ops = sre nm w (run pl e ops)) by (rewrite E'; now apply run_sr).
  pose proof (run_wf pl k shape st ops e W) as W1. pose proof (run_static pl k shape st ops e W) as SS.
  assert (NF : m_n_features (e_mdp (run pl e ops)) = m_n_features (e_mdp e)). { destruct SS as (_ & _ & X). unfold mident in X. congruence. }
  destruct (proj1 (proj1 (C131_assigned _ _ _ _ _ _ RE E)) eq_refl) as (a & Ha & Na).
  destruct (EnvProofs2.lookup_spec k shape st (run pl e ops) nm W1) as [(b & EL & Hb & Nb)|(EL & X)].
  - rewrite ER. unfold env_fit. rewrite lookup_sr, EL. unfold alg_fit, failed_fit. rewrite mdp_sr, NF.
    replace (length (at_reward (sr nm w b)) =? m_n_features (e_mdp e)) with false; [reflexivity|]. symmetry. apply Nat.eqb_neq. unfold sr. rewrite Nb, String.eqb_refl. exact NL.
  - exfalso. apply X. destruct SS as (EN & _). rewrite EN. apply (wf_lookup _ _ _ _ W). rewrite <- Na. now apply in_map.
Qed.

(** Value iteration and the Null algorithm do not look at other agents' reward functions; tree search does not
    either unless it simulates the other agents. *)
Lemma find_reward : forall {A} (l1 l2 : list (attached A)) nm nm', nm' <> nm ->
  Forall2 (fun a b => a = b \/ at_name a = nm /\ at_name b = nm /\ set_reward a [] = set_reward b []) l1 l2 -> find_agent l1 nm' = find_agent l2 nm'.
Proof.
  intros A l1 l2 nm nm' N F. induction F as [|a b l1 l2 H F IH]; [reflexivity|]. unfold find_agent in *. cbn [find]. destruct H as [->|(Ea & Eb & _)].
  - now destruct (String.eqb _ _).
  - rewrite Ea, Eb. destruct (String.eqb_spec nm nm'); [congruence|exact IH].
Qed.
Theorem C131_library : forall {A} `{Num A} nm nm', nm' <> nm ->
  (forall g tol mi, ignores_reward (vi_greedy g tol mi) nm' nm) /\ (forall score cfg, mc_interactive cfg = false -> ignores_reward (mcts_greedy score cfg) nm' nm) /\ ignores_reward greedy nm' nm.
Proof.
  intros A NA nm nm' N. split; [|split].
  - intros g tol mi e1 e2 n s (E1 & _ & _ & _ & E5). cbn [vi_greedy pl_fit]. now rewrite E1, (find_reward _ _ _ _ N E5).
  - intros score cfg IN e1 e2 n s (E1 & _ & _ & _ & E5). cbn [mcts_greedy pl_fit]. rewrite (find_reward _ _ _ _ N E5).
    assert (LL : length (e_agents e1) = length (e_agents e2)) by (clear - E5; induction E5; cbn; congruence). rewrite LL.
    destruct (find_agent (e_agents e2) nm') as [a|]; [|reflexivity]. unfold mcts_fit, all_info. now rewrite E1, IN.
  - intros e1 e2 n s (E1 & _). cbn. unfold null_fit. now rewrite E1.
Qed.
(** Three states in a row, the agent in the middle. Planned for the right, given rewards on the left, it still steps
    right; fitted again it steps left. *)
Example C131_example : exists m m' e e1 e2 e3 e4 e5 e6, grid_mdp (A:=Q) Square [[1; 0; 0]; [0; 0; 1]]%Q None (3, 1) false = Ok m /\
  make_env m [mkSpec "q"%string 1%Z None 1%Z [0; 1; 0]%Q []] = (m', Ok e) /\ let pl := vi_greedy (1 # 2)%Q (1 # 2)%Q 5 in
  env_fit pl e "q" None 0 0 = (e1, Ok tt) /\ assign_reward e1 "q" [1; 0; 0]%Q = (e2, Ok tt) /\ env_step pl e2 "q" 0 = (e3, Ok 2%Z) /\
  set_agent_position e3 "q" 1 = (e4, Ok tt) /\ env_fit pl e4 "q" None 0 0 = (e5, Ok tt) /\ env_step pl e5 "q" 0 = (e6, Ok 0%Z) /\
  assign_reward e1 "r" [] = (e1, Err KeyError).
Proof. do 9 eexists. do 2 (split; [vm_compute; reflexivity|]). cbv zeta. vmr. Qed.

(** ** C132: invalid reward functions *)

(** Refuted: the assignment accepts arrays of every length, of which C131_wrong_length shows that no plan can be
    made with them unless the length is right ... *)
Theorem C132_refused_refuted : forall pl e nm a w, reachable pl e -> agent_named e nm a -> exists e', assign_reward e nm w = (e', Ok tt).
Proof.
  intros pl e nm a w RE NA. destruct (assign_reward e nm w) as [e' r] eqn:E. destruct (C131_assigned _ _ _ _ _ _ RE E) as ((_ & X) & _). exists e'. now rewrite X by eauto.
Qed.
(** ... and other agents that simulate this one can no longer plan. *)
Theorem C132_others_refuted : exists m m' e e1, grid_mdp (A:=Q) Square ex_ft None (2, 2) false = Ok m /\ make_env m [ex_p; ex_q] = (m', Ok e) /\
  let pl := mcts_greedy mean_score (ex_cfg true false (9 # 10) (1 # 100))%Q in
  snd (env_fit pl e "p" (Some [[2]; [1]]%Z) 0 0) = Ok tt /\ assign_reward e "q" [1]%Q = (e1, Ok tt) /\ snd (env_fit pl e1 "p" (Some [[2]; [1]]%Z) 0 0) = Err ValueError.
Proof. do 4 eexists. split; [vm_compute; reflexivity|]. split; [vm_compute; reflexivity|]. cbv zeta. vmr. Qed.

(** ** C133: replacing the features an agent consumes *)

(** The environment with [h] applied to the agent named [nm]. *)
Lemma assign_attr_in : forall pl e nm (h : attached R -> attached R) e', (forall a, at_name (h a) = at_name a) -> reachable pl e -> assign_attr h e nm = (e', Ok tt) ->
  exists a, agent_named e nm a /\ e' = with_agent e (h a) /\ forall b, In b (e_agents e') <-> b = h a \/ In b (e_agents e) /\ b <> a.
Proof.
  intros pl e nm h e' HN RE E. destruct (reachable_wf _ _ RE) as (k & shape & st & W). pose proof (wf_names _ _ _ _ W) as ND.
  unfold assign_attr in E. destruct (find_agent (e_agents e) nm) as [a|] eqn:F; [|discriminate]. injection E as <-. apply find_agent_iff in F; [|exact ND]. destruct F as [Ha Na].
  exists a. split; [split; assumption|]. split; [reflexivity|]. intros b. cbn [with_agent e_agents]. rewrite (in_put _ a (h a) Ha (HN a) b). split; (intros [X|[X Y]]; [now left|right; split; [exact X|]]).
  - intros ->. apply Y. symmetry. apply HN.
  - intros Z. apply Y. rewrite HN in Z. eapply same_name_same; eauto.
Qed.
Lemma consumes_wf : forall k shape st (e : env R) a c, wf k shape st e -> In a (e_agents e) -> (forall z, In z c -> (z < Z.of_nat (m_n_features (e_mdp e)))%Z) -> wf k shape st (with_agent e (set_consumes a c)).
Proof.
  intros k shape st e a c W Ha LT.
  assert (MN : map at_name (put_agent (e_agents e) (set_consumes a c)) = map at_name (e_agents e) /\ map at_idx (put_agent (e_agents e) (set_consumes a c)) = map at_idx (e_agents e)).
  { unfold put_agent. replace (existsb _ _) with true by (symmetry; apply existsb_exists; exists a; split; [exact Ha|apply String.eqb_refl]). rewrite !map_map.
    split; apply map_ext_in; intros b Hb; destruct (String.eqb_spec (at_name b) (at_name (set_consumes a c))) as [X|X]; try reflexivity; cbn in X; assert (b = a) by (eapply same_name_same; eauto; apply (wf_names _ _ _ _ W)); now subst b. }
  destruct MN as [M1 M2]. destruct W. constructor; cbn [with_agent e_mdp e_agents e_names] in *; auto; try (rewrite M1); try (rewrite M2); auto.
  intros b Hb. apply (in_put _ a (set_consumes a c) Ha eq_refl) in Hb. destruct Hb as [->|[Hb _]]; [|now apply wf_agents]. destruct (wf_agents a Ha) as (H1 & H2 & H3 & H4 & H5 & H6 & H7).
  repeat split; auto.
Qed.
Theorem C133_assigned : forall pl e nm c e' r, reachable pl e -> assign_consumes e nm c = (e', r) ->
  (r = Ok tt <-> exists a, agent_named e nm a) /\ (r <> Ok tt -> r = Err KeyError /\ e' = e) /\
  (r = Ok tt -> e_mdp e' = e_mdp e /\ e_names e' = e_names e /\ e_n_steps e' = e_n_steps e /\
     exists a, agent_named e nm a /\ forall b, In b (e_agents e') <-> b = set_consumes a c \/ In b (e_agents e) /\ b <> a).
Proof.
  intros pl e nm c e' r RE E. destruct (reachable_wf _ _ RE) as (k & shape & st & W). pose proof (wf_names _ _ _ _ W) as ND. pose proof E as E0.
  unfold assign_consumes, assign_attr in E0. destruct (find_agent (e_agents e) nm) as [a|] eqn:F; injection E0 as E1 E2; subst r.
  - apply find_agent_iff in F; [|exact ND]. split; [split; [intros _; now exists a|auto]|]. split; [congruence|]. intros _. rewrite <- E1. split; [reflexivity|]. split; [reflexivity|]. split; [reflexivity|].
    destruct (assign_attr_in pl e nm (fun a => set_consumes a c) e' (fun _ => eq_refl) RE E) as (b & Hb & _ & X). exists b. split; [exact Hb|]. rewrite E1. exact X.
  - split; [split; [discriminate|]|].
    + intros (a & Ha & Na). exfalso. assert (X : find_agent (e_agents e) nm = Some a) by (apply find_agent_iff; auto). congruence.
    + split; [now split|discriminate].
Qed.
(** Every later step of the agent consumes exactly the newly listed features of the state it reaches, until the
    attribute is assigned again: whatever is called in between. *)
Theorem C133_later_steps : forall pl e nm c e' ops seed e2 p, reachable pl e -> assign_consumes e nm c = (e', Ok tt) ->
  (forall z, In z c -> (z < Z.of_nat (m_n_features (e_mdp e)))%Z) -> env_step pl (run pl e' ops) nm seed = (e2, Ok p) ->
  let e1 := run pl e' ops in exists a a' s ridx, agent_named e1 nm a /\ agent_named e2 nm a' /\ p = Z.of_nat s /\ at_pos a' = p /\ at_hist a' = at_hist a ++ [p] /\
    others_same e1 e2 nm /\ Forall2 (fun z f => py_index (m_n_features (e_mdp e1)) z = Ok f) c ridx /\
    forall f, f < m_n_features (e_mdp e1) ->
      let eaten := In f ridx /\ (0 < moved_feat e1 a s f s)%R in
      (forall t, t < m_n_states (e_mdp e1) -> t <> s -> feat (e_mdp e2) f t = moved_feat e1 a s f t) /\
      (eaten -> feat (e_mdp e2) f s = 0%R /\ nth f (at_consumed a') 0 = S (nth f (at_consumed a) 0)) /\
      (~ eaten -> feat (e_mdp e2) f s = moved_feat e1 a s f s /\ nth f (at_consumed a') 0 = nth f (at_consumed a) 0).
Proof.
  intros pl e nm c e' ops seed e2 p RE E LT ES e1. destruct (reachable_wf _ _ RE) as (k & shape & st & W).
  destruct (assign_attr_in pl e nm (fun a => set_consumes a c) e' (fun _ => eq_refl) RE E) as (a0 & [Ha0 Na0] & EE & IN).
  assert (W' : wf k shape st e') by (rewrite EE; now apply consumes_wf). pose proof (run_wf pl k shape st ops e' W') as W1. fold e1 in W1, ES.
  destruct (env_step_full _ _ _ _ _ _ _ _ _ W1 ES) as [(X & _)|[(a & a' & x & _ & X & _)|H]]; [discriminate X|discriminate X|].
  destruct H as (a & a2 & s & [Ha EN] & (v & q & pi & i & F & Epi & Ei & An & NS & Hs) & (H1 & H2 & H3 & H4) & RP & SB & [(X & _)|(ER & NST & ridx & F2 & CO)]); [discriminate X|].
  injection ER as EP. destruct (ident_name _ _ H1) as (N1 & _). pose proof (replaced_in _ _ _ _ Ha N1 RP) as RI.
  assert (EC : at_consumes a = c).
  { destruct (static_in _ _ _ (run_static pl k shape st ops e' W') Ha) as (b & Hb & IB). destruct (ident_name _ _ IB) as (NB & _ & CB & _). rewrite <- CB. apply IN in Hb. destruct Hb as [->|[Hb NE]]; [reflexivity|].
    elim NE. eapply same_name_same; eauto; [apply (wf_names _ _ _ _ W)|congruence]. }
  exists a, a2, s, ridx. split; [split; assumption|]. split. { split; [apply RI; now left|congruence]. } rewrite EP in *. split; [reflexivity|]. split; [congruence|]. split; [congruence|].
  split. { intros b Nb. rewrite (RI b). split; [intros [->|X]; [congruence|tauto]|]. intros Hb. right. split; [exact Hb|congruence]. }
  rewrite <- EC. split; [exact F2|]. exact CO.
Qed.
(** An agent that eats nothing walks over food, is then told to eat it, and eats the next. *)
Example C133_example : exists m m' e e1 e2 e3 e4, grid_mdp (A:=Q) Square [[0; 1; 1]%Q] None (3, 1) false = Ok m /\
  make_env m [mkSpec "p"%string 1%Z None 0%Z [1; 0]%Q []] = (m', Ok e) /\ let pl := ex_pl [1; 1; 1]%Z in
  env_fit pl e "p" None 0 0 = (e1, Ok tt) /\ env_step pl e1 "p" 0 = (e2, Ok 1%Z) /\ assign_consumes e2 "p" [0%Z] = (e3, Ok tt) /\ env_step pl e3 "p" 0 = (e4, Ok 2%Z) /\
  m_features (e_mdp e4) = [[0; 1; 0]; [0; 0; 1]]%Q /\ map at_consumed (e_agents e4) = [[1; 0]].
Proof. do 7 eexists. do 2 (split; [vm_compute; reflexivity|]). cbv zeta. vmr. Qed.
(** C132, consumed features: an index the constructor refuses is accepted, and the next step raises after the agent
    has moved. *)
Theorem C132_consumes_refuted : exists m m' e e1 e2 e3, grid_mdp (A:=Q) Square [[0; 1; 1]%Q] None (3, 1) false = Ok m /\
  make_env m [mkSpec "p"%string 1%Z None 0%Z [1; 0]%Q []] = (m', Ok e) /\ snd (make_env m [mkSpec "p"%string 1%Z None 0%Z [1; 0]%Q [5%Z]]) = Err ValueError /\ let pl := ex_pl [1; 1; 1]%Z in
  env_fit pl e "p" None 0 0 = (e1, Ok tt) /\ assign_consumes e1 "p" [5%Z] = (e2, Ok tt) /\ env_step pl e2 "p" 0 = (e3, Err IndexError) /\
  map at_hist (e_agents e3) = [[0; 1]]%Z /\ e_n_steps e3 = 0.
Proof. do 6 eexists. do 3 (split; [vm_compute; reflexivity|]). cbv zeta. vmr. Qed.

(** ** C134: replacing the moves per turn *)

(** Until it is assigned again, a multi-step call without a number of steps makes the new number of steps, whatever
    was called in between; the agent's turn in other agents' default plans has that length too. *)
Lemma moves_wf : forall k shape st (e : env R) a n, wf k shape st e -> In a (e_agents e) -> wf k shape st (with_agent e (set_n_moves a n)).
Proof.
  intros k shape st e a n W Ha.
  assert (MN : map at_name (put_agent (e_agents e) (set_n_moves a n)) = map at_name (e_agents e) /\ map at_idx (put_agent (e_agents e) (set_n_moves a n)) = map at_idx (e_agents e)).
  { unfold put_agent. replace (existsb _ _) with true by (symmetry; apply existsb_exists; exists a; split; [exact Ha|apply String.eqb_refl]). rewrite !map_map.
    split; apply map_ext_in; intros b Hb; destruct (String.eqb_spec (at_name b) (at_name (set_n_moves a n))) as [X|X]; try reflexivity; cbn in X; assert (b = a) by (eapply same_name_same; eauto; apply (wf_names _ _ _ _ W)); now subst b. }
  destruct MN as [M1 M2]. destruct W. constructor; cbn [with_agent e_mdp e_agents e_names] in *; auto; try (rewrite M1); try (rewrite M2); auto.
  intros b Hb. apply (in_put _ a (set_n_moves a n) Ha eq_refl) in Hb. destruct Hb as [->|[Hb _]]; [|now apply wf_agents]. exact (wf_agents a Ha).
Qed.
Theorem C134_later_turns : forall pl e nm n e' ops given nt refit stop rnd, reachable pl e -> assign_n_moves e nm n = (e', Ok tt) ->
  let e1 := run pl e' ops in
  step_multi pl e1 nm StepsDefault given nt refit stop rnd = step_multi pl e1 nm (StepsInt n) given nt refit stop rnd /\
  (forall e2 ps, step_multi pl e1 nm StepsDefault given nt refit stop rnd = (e2, Ok (Positions ps)) -> length ps = Z.to_nat n) /\
  (exists l, all_n_steps e1 nm = Ok (n :: l)) /\
  ((n <= 0)%Z -> snd (step_multi pl e1 nm StepsDefault None nt refit stop rnd) = Err ValueError).
Proof.
  intros pl e nm n e' ops given nt refit stop rnd RE E e1. destruct (reachable_wf _ _ RE) as (k & shape & st & W).
  destruct (assign_attr_in pl e nm (fun a => set_n_moves a n) e' (fun _ => eq_refl) RE E) as (a0 & [Ha0 Na0] & EE & IN).
  assert (W' : wf k shape st e') by (rewrite EE; now apply moves_wf). pose proof (run_wf pl k shape st ops e' W') as W1. fold e1 in W1.
  pose proof (run_static pl k shape st ops e' W') as SS. fold e1 in SS.
  destruct (EnvProofs2.lookup_spec k shape st e1 nm W1) as [(a & EL & Ha & Na)|(EL & X)].
  2:{ exfalso. apply X. destruct SS as (EN & _). rewrite EN, EE. apply (wf_lookup _ _ _ _ W). rewrite <- Na0. now apply in_map. }
  assert (EM : at_n_moves a = n).
  { destruct (static_in _ _ _ SS Ha) as (b & Hb & IB). destruct (ident_name _ _ IB) as (NB & _). assert (MB : at_n_moves b = at_n_moves a) by (unfold ident in IB; congruence). rewrite <- MB. apply IN in Hb. destruct Hb as [->|[Hb NE]]; [reflexivity|].
    elim NE. eapply same_name_same; eauto; [apply (wf_names _ _ _ _ W)|congruence]. }
  assert (FA : find_agent (e_agents e1) nm = Some a) by (apply find_agent_iff; [apply (wf_names _ _ _ _ W1)|auto]).
  assert (AS : exists l, all_n_steps e1 nm = Ok (n :: l)).
  { unfold all_n_steps. cbn [mapM]. rewrite FA. cbn [bind]. rewrite EM. match goal with |- context [mapM ?f ?l] => destruct (mapM f l) as [y|x] eqn:MM end; [exists y; reflexivity|exfalso].
    assert (forall l, (forall x, In x l -> In x (e_names e1)) -> exists y, mapM (fun nm0 => match find_agent (e_agents e1) nm0 with Some a1 => Ok (at_n_moves a1) | None => Err KeyError end) l = Ok y).
    { induction l as [|z l IH]; intros HL; [eexists; reflexivity|]. cbn [mapM]. assert (Hz : In z (map at_name (e_agents e1))) by (apply (wf_lookup _ _ _ _ W1), HL; now left). apply in_map_iff in Hz. destruct Hz as (b & Nb & Hb).
      replace (find_agent (e_agents e1) z) with (Some b) by (symmetry; apply find_agent_iff; [apply (wf_names _ _ _ _ W1)|auto]). cbn [bind]. destruct IH as (y & ->); [intros x0 Hx; apply HL; now right|]. eexists; reflexivity. }
    destruct (H (filter (fun nm0 => negb (String.eqb nm0 nm)) (e_names e1))) as (y & EY); [intros z Hz; apply filter_In in Hz; tauto|congruence]. }
  assert (EQ : step_multi pl e1 nm StepsDefault given nt refit stop rnd = step_multi pl e1 nm (StepsInt n) given nt refit stop rnd).
  { unfold step_multi. rewrite EL, EM. reflexivity. }
  split; [exact EQ|]. split; [|split; [exact AS|]].
  - intros e2 ps SM. rewrite EQ in SM. unfold step_multi in SM. rewrite EL in SM. destruct AS as (l & AS). rewrite AS in SM. destruct (negb (_ =? _)); [discriminate|]. destruct (negb _); [discriminate|].
    assert (L : forall todo i acc e0 e3 qs, multi_loop pl e0 nm refit stop nt (n :: l) (match given with Some p => p | None => n :: l end) rnd i todo acc = (e3, Ok (Positions qs)) -> length qs = length acc + todo).
    { induction todo as [|todo IH]; intros i acc e0 e3 qs ML; cbn [multi_loop] in ML; [injection ML as _ <-; lia|].
      match type of ML with context [refit_step ?p1 ?p2 ?p3 ?p4 ?p5 ?p6 ?p7 ?p8 ?p9 ?p10] => destruct (refit_step p1 p2 p3 p4 p5 p6 p7 p8 p9 p10) as [e4 [u|x]] end; [|discriminate].
      destruct (env_step pl e4 nm _) as [e5 [p|x]]; [|discriminate]. destruct (_ && stop); [discriminate|]. apply IH in ML. rewrite app_length in ML. cbn in ML. lia. }
    apply L in SM. exact SM.
  - intros Hn. unfold step_multi. rewrite EL. destruct AS as (l & ->). destruct (negb (_ =? _)); [reflexivity|]. cbn [forallb]. replace (0 <? n)%Z with false by (symmetry; apply Z.ltb_ge; exact Hn). reflexivity.
Qed.
Example C134_example : exists m m' e e1 e2 e3, grid_mdp (A:=Q) Square [[0; 1; 1]%Q] None (3, 1) false = Ok m /\
  make_env m [mkSpec "p"%string 1%Z None 0%Z [1; 0]%Q []] = (m', Ok e) /\ let pl := ex_pl [1; 1; 1]%Z in
  env_fit pl e "p" None 0 0 = (e1, Ok tt) /\ assign_n_moves e1 "p" 2 = (e2, Ok tt) /\ step_multi pl e2 "p" StepsDefault None 1 false false (fun _ => 0) = (e3, Ok (Positions [1; 2]%Z)).
Proof. do 6 eexists. do 2 (split; [vm_compute; reflexivity|]). cbv zeta. vmr. Qed.
