(** Properties C109-C110: the same agent in two environments, and two environments with the same MDP. *)
From Coq Require Import String List ZArith QArith Reals Bool Lia.
From Verif Require Import PyBase PyProofs GridModel MDPModel MDPSpec MDPProps ActionModel EnvModel EnvSpec EnvProofs EnvProofs2 EnvProofs3 EnvProps VIModel VIEnvProps MCTSModel MCTSFit MCTSRun WorldModel WorldProofs WorldProofs2 WorldProofs3 WorldProps WorldProps2.
Import ListNotations.
Local Close Scope Q_scope. Local Close Scope R_scope.
Local Open Scope nat_scope.

Section World.
Context {A : Type} {NA : Num A}.
Implicit Types (e : env A) (w : world A).

(** Agent object [r] is behind the agent called [nm] of environment [j]. *)
Definition behind w (j : nat) (nm : string) (r : nat) : Prop := exists o, nth_error (w_envs w) j = Some o /\ agent_of o nm = Some r.
(** An agent without its plan. *)
Definition without_plan (a : attached A) : attached A := set_fit a None.

(** ** C109: one agent object in two environments *)
(** They always have the same plan: a plan made in one replaces the one made in the other. *)
Theorem C109_shared_plan_refuted : forall feats walls agents pls l w j j' e e' a a' r, made feats walls agents pls l w -> env_at w j = Some e -> env_at w j' = Some e' ->
  In a (e_agents e) -> In a' (e_agents e') -> behind w j (at_name a) r -> behind w j' (at_name a') r -> at_fit a = at_fit a'.
Proof.
  intros feats walls agents pls l w j j' e e' a a' r MD HE HE' Ha Ha' (o & Eo & B) (o' & Eo' & B'). pose proof (made_sane _ _ _ _ _ _ MD) as S.
  assert (K : forall j e o a, env_at w j = Some e -> nth_error (w_envs w) j = Some o -> In a (e_agents e) -> agent_of o (at_name a) = Some r -> exists g, nth_error (w_agents w) r = Some g /\ at_fit a = ag_fit g).
  { clear - S. intros j e o a HE Eo Ha B. unfold env_at in HE. rewrite Eo in HE. unfold see_env in HE. destruct (nth_error (w_mdps w) (eo_mdp o)); [|discriminate]. inversion HE. subst e. cbn [e_agents] in Ha. apply in_map_iff in Ha. destruct Ha as (b & <- & Hb).
    assert (EN : at_name (see_fit w o b) = at_name b). { unfold see_fit. destruct (agent_of o (at_name b)) as [q|]; [|reflexivity]. destruct (nth_error (w_agents w) q); reflexivity. } rewrite EN in B.
    destruct (s_names _ _ S _ _ Eo) as (_ & _ & HG). destruct (HG _ _ B) as (g & G & _). exists g. split; [exact G|]. unfold see_fit. rewrite B, G. reflexivity. }
  destruct (K _ _ _ _ HE Eo Ha B) as (g & G & ->). destruct (K _ _ _ _ HE' Eo' Ha' B') as (g' & G' & ->). congruence.
Qed.
(** Apart from the plans, a call on an environment with another MDP changes nothing. *)
Theorem C109_rest_partial : forall feats walls agents pls l w j j' i e o, made feats walls agents pls l w -> env_at w j = Some e -> e_agents e <> [] ->
  on_mdp w j' i -> ~ on_mdp w j i ->
  exists e', env_at (do_call pls w (COp j' o)) j = Some e' /\ e_mdp e' = e_mdp e /\ e_names e' = e_names e /\ e_n_agents e' = e_n_agents e /\ e_n_steps e' = e_n_steps e /\
    map without_plan (e_agents e') = map without_plan (e_agents e).
Proof.
  intros feats walls agents pls l w j j' i e o MD HE NE (eo' & Ej' & Ei) NM. subst i. pose proof (made_sane _ _ _ _ _ _ MD) as S. destruct (env_at_some _ _ _ HE) as (eo & mo & Ej & Em & Es).
  destruct (s_mdp _ _ S _ _ Em) as [LF LW].
  assert (D : eo_mdp eo <> eo_mdp eo') by (intros X; apply NM; exists eo; auto). assert (DJ : j <> j') by (intros ->; apply D; congruence).
  assert (OWN : length feats <= mo_feat mo). { destruct (s_env _ _ S _ _ Ej) as (mo' & Em' & H). assert (mo' = mo) by congruence. subst. apply H. intros X. apply NE. now apply (see_env_names _ _ _ Es). }
  cbn [do_call]. rewrite Ej'. destruct (nth_error (w_mdps w) (eo_mdp eo')) as [mo'|] eqn:Em'; [|eauto 10]. destruct (see_env w eo') as [e1|] eqn:Es'; [|eauto 10].
  assert (DF : mo_feat mo <> mo_feat mo'). { intros F. pose proof (s_own _ _ S _ _ _ _ D Em Em' F). lia. }
  set (w' := env_call (pls w j') w j' eo' mo' e1 o).
  assert (EE : nth_error (w_envs w') j = Some eo).
  { unfold w'. destruct o; cbn [env_call put_env put_mdp w_envs]; try (now rewrite nth_error_upd_other).
    - destruct (set_walls (e_mdp e1) walls0); cbn; [now rewrite nth_error_upd_other|exact Ej].
    - destruct (reset_agents e1 (e_agents e1)) as [e2 [u|x]]; [destruct (reset_mdp (e_mdp e2))|]; cbn; now rewrite nth_error_upd_other. }
  assert (EM : nth_error (w_mdps w') (eo_mdp eo) = Some mo).
  { unfold w'. destruct o; cbn [env_call put_env put_mdp w_mdps]; try (now rewrite nth_error_upd_other).
    - destruct (set_walls (e_mdp e1) walls0); cbn; [now rewrite nth_error_upd_other|exact Em].
    - destruct (reset_agents e1 (e_agents e1)) as [e2 [u|x]]; [destruct (reset_mdp (e_mdp e2))|]; cbn; now rewrite !nth_error_upd_other. }
  assert (EF : nth (mo_feat mo) (w_feats w') [] = nth (mo_feat mo) (w_feats w) []) by (unfold w'; eapply env_call_feats; eauto).
  assert (EW : nth (mo_wall mo) (w_walls w') [] = nth (mo_wall mo) (w_walls w) []) by (unfold w'; now apply env_call_walls).
  unfold env_at. rewrite EE. unfold see_env in *. rewrite EM. rewrite Em in Es. inversion Es. subst e. eexists. split; [reflexivity|]. cbn [e_mdp e_names e_n_agents e_n_steps e_agents].
  split; [unfold see_mdp; now rewrite EF, EW|]. do 3 (split; [reflexivity|]). rewrite !map_map. apply map_ext. intros a. unfold without_plan, see_fit.
  destruct (agent_of eo (at_name a)); [|reflexivity]. destruct (nth_error (w_agents w') n), (nth_error (w_agents w) n); reflexivity.
Qed.

(** The same, as C181: a property of its own. *)
Theorem C181_rest : forall feats walls agents pls l w j j' i e o, made feats walls agents pls l w -> env_at w j = Some e -> e_agents e <> [] ->
  on_mdp w j' i -> ~ on_mdp w j i ->
  exists e', env_at (do_call pls w (COp j' o)) j = Some e' /\ e_mdp e' = e_mdp e /\ e_names e' = e_names e /\ e_n_agents e' = e_n_agents e /\ e_n_steps e' = e_n_steps e /\
    map without_plan (e_agents e') = map without_plan (e_agents e).
Proof. exact (@C109_rest_partial). Qed.

(** ** C110: two environments with the same MDP *)
(** An environment always shows the MDP as the last constructor left it. *)
Theorem C110_new_environment : forall feats walls agents pls l w i j e cl ss m' r, made feats walls agents pls l w -> env_at w j = Some e -> on_mdp w j i ->
  entry_specs w cl = Some ss -> make_env (e_mdp e) ss = (m', r) -> env_at (do_call pls w (CEnv i cl)) j = Some (with_mdp e m').
Proof.
  intros feats walls agents pls l w i j e cl ss m' r MD HE (eo & Ej & Ei) ES ME. pose proof (made_sane _ _ _ _ _ _ MD) as S. destruct (env_at_some _ _ _ HE) as (eo2 & mo & Ej2 & Em & Es). assert (eo2 = eo) by congruence. subst eo2.
  rewrite Ei in Em. destruct (s_mdp _ _ S _ _ Em) as [LF LW]. pose proof (nth_error_lt _ _ _ _ Em) as Li. pose proof (nth_error_lt _ _ _ _ Ej) as Lj. rewrite <- Ei in Em. destruct (see_env_mdp _ _ _ _ Em Es) as (EM & _ & EW). rewrite Ei in Em.
  cbn [do_call]. rewrite Em, ES. cbv zeta. rewrite <- EM, ME. pose proof (make_env_walls _ _ _ _ ME) as MW.
  set (w1 := if _ && _ then _ else _).
  assert (V : nth_error (w_envs w1) j = Some eo /\ w_agents w1 = w_agents w /\ exists mo1, nth_error (w_mdps w1) i = Some mo1 /\ see_mdp w1 mo1 = m').
  { unfold w1. destruct (_ && _); cbn [put_mdp new_table w_envs w_mdps w_agents]; (split; [exact Ej|]; split; [reflexivity|]; eexists; split; [apply nth_error_upd_same, Li|]); unfold see_mdp, with_walls, with_features; cbn; change (nth (mo_wall mo) (w_walls w) []) with (m_walls (see_mdp w mo)); rewrite <- EM, <- MW.
    - rewrite nth_upd_same by exact LF. now destruct m'.
    - rewrite app_nth2, Nat.sub_diag by lia. now destruct m'. }
  destruct V as (V1 & V2 & mo1 & V3 & V4).
  assert (K : forall w2 : world A, nth_error (w_envs w2) j = Some eo -> w_agents w2 = w_agents w -> w_mdps w2 = w_mdps w1 -> w_feats w2 = w_feats w1 -> w_walls w2 = w_walls w1 -> env_at w2 j = Some (with_mdp e m')).
  { intros w2 K1 K2 K3 K4 K5. unfold env_at. rewrite K1. unfold see_env in *. rewrite Ei, K3, V3. rewrite Ei, Em in Es. inversion Es. unfold with_mdp. cbn [e_names e_agents e_n_agents e_n_steps]. f_equal. f_equal.
    - rewrite <- V4. unfold see_mdp. now rewrite K4, K5.
    - apply map_ext. intros a. unfold see_fit. now rewrite K2. }
  destruct r as [e'|x]; [|now apply K]. apply K; auto. cbn. rewrite nth_error_app1; [exact V1|]. eapply nth_error_lt; eauto.
Qed.
End World.

(** If it has another number of agents, no agent of the first environment can be fitted any more. *)
Theorem C110_fit_refuted : forall pl e ss m' e', reachable pl e -> make_env (e_mdp e) ss = (m', Ok e') -> length ss <> m_n_agents (e_mdp e) ->
  forall a n s s', In a (e_agents e) -> env_fit pl (with_mdp e m') (at_name a) n s s' = (with_mdp e m', Err AttributeError).
Proof.
  intros pl e ss m' e' R E NL a n s s' Ha. destruct (reachable_wf _ _ R) as (k & shape & st & W). pose proof (usable_again _ _ R) as U. destruct (usable_clean _ _ U) as (k2 & shape2 & st2 & C).
  pose proof (make_env_valid _ _ _ _ _ _ _ C E) as V. destruct (make_env_ok k2 shape2 st2 _ ss C V) as (m0 & C0 & A0 & F0 & N0 & S0 & W0 & NS0 & _ & _ & E'). cbv zeta in E'. rewrite E in E'. injection E' as E1 E2.
  assert (NF : m_n_features m' = n_ordinary (e_mdp e) + length ss).
  { rewrite E1. assert (LR : forall l, length (rows_from m0 l) = length l) by (induction l as [|x l IH]; cbn; [reflexivity|now rewrite IH]). destruct C0 as [_ [T _] _ _ _].
    destruct ss as [|x ss]; cbn [length]; [rewrite N0; lia|]. unfold extended. cbn [m_n_features]. rewrite app_length, LR. cbn [length]. lia. }
  destruct (wf_agents _ _ _ _ W a Ha) as (_ & _ & _ & LR & _). unfold n_ordinary in NF. rewrite (wf_nf _ _ _ _ W) in *.
  assert (D : length (at_reward a) <> m_n_features m') by lia.
  assert (EL : lookup (with_mdp e m') (at_name a) = Ok a). { destruct (lookup_spec _ _ _ _ (at_name a) W) as [(b & L & Hb & Nb)|[_ L]]; [|elim L; apply (wf_lookup _ _ _ _ W); now apply in_map]. assert (b = a) by (eapply same_name_same; [exact (wf_names _ _ _ _ W)| | |]; auto). subst b. exact L. }
  unfold env_fit. rewrite EL. unfold alg_fit, failed_fit. cbn [with_mdp e_mdp]. apply Nat.eqb_neq in D. rewrite D. reflexivity.
Qed.

(** For example: an agent at state 0, then another environment with two agents. *)
Example C110_example : forall pl, exists e m' e' a, reachable pl e /\ make_env (e_mdp e) [ex_p; ex_q] = (m', Ok e') /\ length [ex_p (A:=R); ex_q] <> m_n_agents (e_mdp e) /\ In a (e_agents e).
Proof.
  intros pl. destruct (ex_usable pl) as (m & E & U & NO & NS). set (s1 := mkSpec "p"%string 1%Z None 0%Z [1; 0; 0]%R [] : spec R).
  destruct (proj2 (C17_accepts_iff pl m [s1] U)) as (m1 & e & E1).
  { intros s [<-|[]]. rewrite NO, NS. unfold s1. repeat split; cbn; try lia; intros z []. }
  assert (RE : reachable pl e) by (eapply reach_new; eauto).
  destruct (C17_result pl m [s1] m1 e U ltac:(repeat constructor; intros []) E1) as (R1 & _ & _ & _ & RL & RA & RF & _).
  destruct (RA 0 s1 eq_refl) as (a & Na & _). destruct (usable_clean _ _ U) as (k & shape & st & C). pose proof (make_env_wf _ _ _ _ _ _ _ C E1) as W.
  pose proof (make_env_valid _ _ _ _ _ _ _ C E1) as V. destruct (make_env_ok k shape st _ _ C V) as (m0 & C0 & A0 & F0 & N0 & S0 & W0 & NS0 & _ & _ & E'). cbv zeta in E'. rewrite E1 in E'. injection E' as X1 X2.
  assert (NA1 : m_n_agents (e_mdp e) = 1). { rewrite X2. cbn [e_mdp extended m_n_agents rows_from length]. rewrite A0. reflexivity. }
  assert (NO1 : n_ordinary (e_mdp e) = 2). { unfold n_ordinary. rewrite NA1, R1, RF, NO. reflexivity. }
  assert (NS1 : m_n_states (e_mdp e) = 4). { rewrite X2. cbn [e_mdp extended m_n_states]. congruence. }
  destruct (proj2 (C17_accepts_iff pl (e_mdp e) [ex_p; ex_q] (usable_again _ _ RE))) as (m' & e' & E2).
  { intros s [<-|[<-|[]]]; rewrite NO1, NS1; repeat split; cbn; try lia; intros z Hz; cbn in Hz; lia. }
  exists e, m', e', a. split; [exact RE|]. split; [exact E2|]. split; [rewrite NA1; discriminate|]. eapply nth_error_In; eauto.
Qed.

(** With the same number of agents, moving an agent of the first environment moves the mark of an agent of
    the second one. *)
Definition two_on_one : list (call Q) :=
  [CMdp Square 0 None (2, 2) false; CEnv 0 [mkEntry 0 0%Z [1; 0; 0]%Q []]; CEnv 0 [mkEntry 1 3%Z [1; 0; 0]%Q []]].
Theorem C110_moves_other_refuted : exists w e e', made [ex_ft] [] [("p"%string, 1%Z); ("q"%string, 1%Z)] (fun _ _ => ex_pl (A:=Q) [2; 2; 2; 2]%Z) two_on_one w /\
  env_at w 1 = Some e /\ map at_pos (e_agents e) = [3%Z] /\ nth 2 (m_features (e_mdp e)) [] = [0; 0; 0; 1]%Q /\
  env_at (do_call (fun _ _ => ex_pl (A:=Q) [2; 2; 2; 2]%Z) w (COp 0 (OSetPosition "p" 1))) 1 = Some e' /\
  map at_pos (e_agents e') = [3%Z] /\ nth 2 (m_features (e_mdp e')) [] = [0; 1; 0; 0]%Q.
Proof. do 3 eexists. split; [split; [repeat constructor|reflexivity]|]. split; [vm_compute; reflexivity|]. vm_compute. repeat split. Qed.

(** ** C109, examples: one agent in two environments with their own MDPs *)
(** Value iteration: the feature is at state 1 in the first MDP and at state 2 in the second. The agent is
    fitted in the first environment and would step to state 1; once it is also fitted in the second
    one, it steps to state 2. *)
Definition one_agent : list (call Q) :=
  [CMdp Square 0 None (2, 2) false; CMdp Square 1 None (2, 2) false; CEnv 0 [mkEntry 0 0%Z [1; 0]%Q []]; CEnv 1 [mkEntry 0 0%Z [1; 0]%Q []]].
Definition two_features : list (list (list Q)) := [[[0; 1; 0; 0]]; [[0; 0; 1; 0]]]%Q.
Definition by_vi : world Q -> nat -> plugins Q := fun _ _ => vi_greedy (1 # 2)%Q (1 # 2)%Q 100%Z.
Definition position_in (w : world Q) (j : nat) : option (list Z) := option_map (fun e => map at_pos (e_agents e)) (env_at w j).
Example C109_value_iteration_example : exists w, made two_features [] [("p"%string, 1%Z)] by_vi one_agent w /\ behind w 0 "p" 0 /\ behind w 1 "p" 0 /\
  position_in (calls by_vi w [COp 0 (OFit "p" None 0 0); COp 0 (OStep "p" 0)]%string) 0 = Some [1%Z] /\
  position_in (calls by_vi w [COp 0 (OFit "p" None 0 0); COp 1 (OFit "p" None 0 0); COp 0 (OStep "p" 0)]%string) 0 = Some [2%Z].
Proof. eexists. split; [split; [repeat constructor|reflexivity]|]. split; [eexists; vm_compute; repeat split|]. split; [eexists; vm_compute; repeat split|]. split; vm_compute; reflexivity. Qed.
