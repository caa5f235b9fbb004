(** Property C135: after a reset, agents that are fitted before they act do what they would do in a new environment
    with the same walls. *)
From Coq Require Import String List ZArith QArith Reals Bool Lia.
From Verif Require Import PyBase PyProofs GridModel GridSpec MDPModel MDPSpec MDPProofs MDPProofs2 MDPProofs3 MDPProofs4 MDPProps ActionModel ActionSpec EnvModel EnvSpec EnvProofs EnvProofs2 EnvProofs3 EnvProofs4 EnvProps StepProps VIModel VIEnvProps MCTSModel MCTSRun AgainSpec Again.
Import ListNotations.
Local Close Scope Q_scope.
Local Open Scope nat_scope.

(** What an MDP is, besides its features and what never changes. *)
Definition core (m : mdp R) := (m_sas m, m_deterministic m, m_adjacency m, m_walls m).
Lemma mdp_parts : forall m m' : mdp R, mident m = mident m' -> core m = core m' -> m_features m = m_features m' -> m = m'.
Proof. intros [] [] E1 E2 E3. unfold mident, core in *. cbn in *. inversion E1. inversion E2. subst. reflexivity. Qed.
Lemma consume_core : forall idx s (m : mdp R) c m' r, consume_loop idx s m c = (m', r) -> core m' = core m.
Proof.
  induction idx as [|z idx IH]; intros s m c m' r E; cbn [consume_loop] in E; [now inversion E|].
  destruct (py_index _ z) as [fi|x]; [|now inversion E]. destruct (py_index _ s) as [si|x]; [|now inversion E].
  destruct (nltb n0 (get2 n0 (m_features m) fi si)); [|now apply IH in E]. destruct (py_index (length c) z) as [ci|x]; [|now inversion E]. now apply IH in E.
Qed.
Lemma mut_core : forall k shape st l e e', wf k shape st e -> l <> LWalls -> mut l e e' -> core (e_mdp e') = core (e_mdp e) /\ e_n_agents e' = e_n_agents e.
Proof.
  intros k shape st l e e' W N H. destruct l; cbn [mut] in H.
  - destruct H as (a & a' & _ & _ & _ & _ & ->). auto.
  - destruct H as (a & a' & s & _ & _ & _ & _ & ->). auto.
  - destruct H as (a & _ & ->). auto.
  - destruct H as (a & a' & m' & c & _ & E & _ & _ & _ & ->). split; [|reflexivity]. unfold consume_features in E. now apply consume_core in E.
  - destruct H as (a & g & _ & _ & _ & _ & ->). auto.
  - subst. auto.
  - now elim N.
  - destruct H as (m' & E & ->). unfold reset_mdp, set_features in E. destruct (forallb _ _); [|discriminate]. inversion E. auto.
Qed.
Lemma muts_core : forall k shape st (P : label -> Prop) e e', wf k shape st e -> (forall l, P l -> l <> LWalls) -> muts P e e' ->
  core (e_mdp e') = core (e_mdp e) /\ e_n_agents e' = e_n_agents e.
Proof.
  intros k shape st P e e' W N H. induction H as [e|l e e1 e2 Hl M H IH]; [auto|]. destruct (mut_core _ _ _ _ _ _ W (N l Hl) M) as [E1 E2].
  destruct IH as [E3 E4]; [eapply mut_wf; eauto|]. split; congruence.
Qed.
Lemma op_core : forall pl k shape st e o, wf k shape st e -> assigns_walls o = false -> core (e_mdp (do_op pl e o)) = core (e_mdp e) /\ e_n_agents (do_op pl e o) = e_n_agents e.
Proof.
  intros pl k shape st e o W K. eapply muts_core; [exact W| |eapply do_op_muts; exact W]. intros l Hl ->.
  destruct o; cbn [assigns_walls op_label step_label] in *; try discriminate; auto.
Qed.
Lemma walls_core : forall (m1 m2 : mdp R) w, mident m1 = mident m2 ->
  (exists x, set_walls m1 w = Err x /\ set_walls m2 w = Err x) \/ exists m1' m2', set_walls m1 w = Ok m1' /\ set_walls m2 w = Ok m2' /\ core m1' = core m2'.
Proof.
  intros m1 m2 w I. unfold mident in I. injection I as I1 I2 I3 I4 I5 I6 I7 I8. unfold set_walls. rewrite I1. destruct (m_shape m2) as [[a b]|]; [|eauto].
  destruct (negb _); [eauto|]. destruct (negb _); [eauto|]. unfold set_sas. rewrite I2. destruct (negb _); [cbn [bind]; eauto|]. destruct (entries3 (m_orig_sas m2)); [cbn [bind]; eauto|].
  destruct (existsb _ _); [cbn [bind]; eauto|]. right. cbn [bind]. do 2 eexists. split; [reflexivity|]. split; [reflexivity|]. reflexivity.
Qed.
Definition synced (e1 e2 : env R) : Prop := static e2 e1 /\ core (e_mdp e1) = core (e_mdp e2) /\ e_n_agents e1 = e_n_agents e2.
Lemma synced_run : forall pl k shape st l e1 e2, wf k shape st e1 -> wf k shape st e2 -> synced e1 e2 -> synced (run pl e1 l) (run pl e2 (filter assigns_walls l)).
Proof.
  intros pl k shape st. unfold run. induction l as [|o l IH]; intros e1 e2 W1 W2 (S & C & N); [repeat split; try assumption; apply S|]. cbn [filter fold_left].
  assert (S1 : static e2 (do_op pl e1 o)) by (eapply static_trans; [exact S|]; eapply muts_static; [exact W1|eapply do_op_muts; exact W1]).
  destruct (assigns_walls o) eqn:K.
  - cbn [fold_left]. apply IH; [now apply do_op_wf|now apply do_op_wf|]. split.
    + eapply static_trans; [|exact S1]. apply static_sym. eapply muts_static; [exact W2|eapply do_op_muts; exact W2].
    + destruct o; try discriminate K. cbn [do_op]. destruct S as (_ & _ & MI). destruct (walls_core (e_mdp e1) (e_mdp e2) walls MI) as [(x & -> & ->)|(m1 & m2 & -> & -> & CC)]; auto.
  - apply IH; [now apply do_op_wf|exact W2|]. destruct (op_core pl _ _ _ _ o W1 K) as [E1 E2]. split; [exact S1|]. split; congruence.
Qed.
Lemma walls_agents : forall pl l (e : env R), e_agents (run pl e (filter assigns_walls l)) = e_agents e /\ m_features (e_mdp (run pl e (filter assigns_walls l))) = m_features (e_mdp e).
Proof.
  intros pl. unfold run. induction l as [|o l IH]; intros e; [auto|]. cbn [filter]. destruct (assigns_walls o) eqn:K; [|apply IH]. cbn [fold_left].
  destruct (IH (do_op pl e o)) as [E1 E2]. rewrite E1, E2. destruct o; try discriminate K. cbn [do_op]. destruct (set_walls (e_mdp e) walls) as [m|x] eqn:SW; [|auto]. cbn [with_mdp e_agents e_mdp]. split; [reflexivity|].
  unfold set_walls, set_sas in SW. destruct (m_shape _) as [[a b]|]; [|discriminate]. destruct (negb _); [discriminate|]. destruct (negb _); [discriminate|]. destruct (negb _); [discriminate|].
  destruct (entries3 _); [discriminate|]. destruct (existsb _ _); [discriminate|]. cbn [bind] in SW. inversion SW. reflexivity.
Qed.
Lemma filter_walls : forall (l : list (op R)), filter assigns_walls (filter assigns_walls l) = filter assigns_walls l.
Proof. induction l as [|o l IH]; [reflexivity|]. cbn [filter]. destruct (assigns_walls o) eqn:K; [|exact IH]. cbn [filter]. now rewrite K, IH. Qed.

(** A new agent that has not been fitted yet. *)
Definition fresh_agent (a : attached R) : Prop := at_fit a = None /\ at_pos a = at_start a /\ at_hist a = [at_start a] /\ at_pi a = None /\ at_pi_p a = None.
Lemma fresh_agents : forall k shape st m ss m' e, clean k shape st m -> make_env m ss = (m', Ok e) -> Forall (fun s => sp_fit s = None) ss -> forall a, In a (e_agents e) -> fresh_agent a.
Proof.
  intros k shape st m ss m' e C E F a Ha. pose proof (make_env_valid _ _ _ _ _ _ _ C E) as V. destruct (make_env_ok k shape st m ss C V) as (m0 & _ & _ & _ & _ & _ & _ & _ & _ & _ & E'). cbv zeta in E'. rewrite E in E'. inversion E' as [[E1 E2]].
  rewrite E2 in Ha. cbn [e_agents] in Ha. destruct (dict_inv (m_n_non_agent m0) ss 0 []) as (_ & _ & _ & D4); [constructor|constructor|intros x []|].
  destruct (D4 a Ha) as [[]|Hin]. destruct (agents_from_in _ _ _ _ Hin) as (i & s & Hn & ->). rewrite Forall_forall in F. unfold fresh_agent. cbn. repeat split. apply F. eapply nth_error_In; eauto.
Qed.
Lemma reset_like : forall pl m ss m' e l, usable pl m -> make_env m ss = (m', Ok e) -> Forall (fun s => sp_fit s = None) ss ->
  same_but_records (do_op pl (run pl e l) OReset) (run pl e (filter assigns_walls l)).
Proof.
  intros pl m ss m' e l U E F. destruct (usable_clean _ _ U) as (k & shape & st & C). pose proof (usable_fresh_orig _ _ U) as FO.
  pose proof (make_env_wf _ _ _ _ _ _ _ C E) as W. destruct (make_env_orig _ _ _ _ _ _ _ C FO E) as [OR _].
  assert (SY : synced (run pl e l) (run pl e (filter assigns_walls l))) by (eapply synced_run; eauto; repeat split).
  set (l0 := filter assigns_walls l) in *. pose proof (run_wf pl k shape st l e W) as W1. pose proof (run_wf pl k shape st l0 e W) as W0.
  pose proof (run_static pl k shape st l e W) as SE.
  assert (RS : static (run pl e l0) (do_op pl (run pl e l) OReset)).
  { eapply static_trans; [apply SY|]. eapply muts_static; [exact W1|eapply do_op_muts; exact W1]. }
  destruct (op_core pl _ _ _ _ OReset W1 eq_refl) as [C1 N1]. destruct SY as (S & C2 & N2). destruct (walls_agents pl l e) as [AE FE]. fold l0 in AE, FE.
  pose proof (do_op_wf pl _ _ _ _ OReset W1) as W2. cbn [do_op] in *. destruct (env_reset_spec k shape st _ W1) as (er & ER & M & FF & _ & HA). rewrite ER in *. cbn [fst] in *.
  destruct RS as (R1 & R2 & R3). split; [|split; [exact R1|split; [congruence|]]].
  - apply mdp_parts; [exact R3|congruence|]. rewrite FF, FE, <- OR. destruct SE as (_ & _ & X). unfold mident in X. now inversion X.
  - assert (P : forall l1 l2 : list (attached R), map ident l1 = map ident l2 ->
      (forall b, In b l1 -> length (at_consumed b) = m_n_features (e_mdp er) /\ exists a, b = set_hist (set_policy (set_pos_only a (at_start a)) None None) [at_start a]) ->
      (forall a, In a l2 -> length (at_consumed a) = m_n_features (e_mdp er) /\ fresh_agent a) -> Forall2 same_agent_but_records l1 l2).
    { clear. induction l1 as [|b l1 IH]; intros [|a l2] I H1 H2; try discriminate I; constructor.
      - cbn [map] in I. assert (I1 : ident b = ident a) by congruence. destruct (H1 b (or_introl eq_refl)) as (L1 & x & Eb). destruct (H2 a (or_introl eq_refl)) as (L2 & F1 & F2 & F3 & F4 & F5).
        exists (at_consumed b), (at_fit b). split; [|split; [congruence|now right]]. subst b. destruct x, a. cbn in *. unfold ident in I1. cbn in I1. inversion I1. subst. reflexivity.
      - apply IH; [now inversion I|intros; apply H1; now right|intros; apply H2; now right]. }
    apply P; [exact R2| |].
    + intros b Hb. split; [apply (wf_agents _ _ _ _ W2 b Hb)|]. destruct (HA b Hb) as (a & _ & ->). eauto.
    + intros a Ha. split.
      * destruct (wf_agents _ _ _ _ W0 a Ha) as (_ & _ & L & _). rewrite L. unfold mident in R3. inversion R3. congruence.
      * rewrite AE in Ha. eapply fresh_agents; eauto.
Qed.

(** Whatever was done before the reset: from then on, every program in which agents are fitted before they act gets
    the same answers, call by call, as in the environment as it was constructed, with the same assignments to the
    walls; and after it positions, histories, policies, plans of the agents that have one in the new environment,
    walls, transitions and features are the same. *)
Theorem C135_reset_like_new : forall pl m ss m' e l p, usable pl m -> make_env m ss = (m', Ok e) -> Forall (fun s => sp_fit s = None) ss -> ignores_records pl ->
  let used := do_op pl (run pl e l) OReset in
  let fresh := run pl e (filter assigns_walls l) in
  prepared pl fresh p ->
  reports_all pl used p = reports_all pl fresh p /\ same_but_records (run pl used p) (run pl fresh p).
Proof.
  intros pl m ss m' e l p U E F IG used fresh P. pose proof (reset_like pl m ss m' e l U E F) as S. destruct (run_rec pl IG p used fresh S P) as [H1 H2]. auto.
Qed.

(** The library's algorithms do not look at these records. *)
Lemma find_like : forall {A} nm (l' l : list (attached A)), Forall2 same_agent_but_records l' l -> find_agent l' nm = None /\ find_agent l nm = None \/
  exists b a, find_agent l' nm = Some b /\ find_agent l nm = Some a /\ same_agent_but_records b a.
Proof. intros A nm l' l F. now apply find_rec. Qed.
Theorem C135_library : forall {A} `{Num A}, (forall g tol mi, ignores_records (vi_greedy g tol mi)) /\ (forall score cfg, ignores_records (mcts_greedy score cfg)) /\ ignores_records greedy.
Proof.
  intros A NA. split; [|split].
  - intros g tol mi nm e1 e2 n s (E1 & _ & _ & E4). cbn [vi_greedy pl_fit]. destruct (find_like nm _ _ E4) as [(-> & ->)|(b & a & -> & -> & (c & f & -> & _))]; [reflexivity|]. now rewrite E1.
  - intros score cfg nm e1 e2 n s (E1 & _ & _ & E4). cbn [mcts_greedy pl_fit].
    assert (LL : length (e_agents e1) = length (e_agents e2)) by (clear - E4; induction E4; cbn; congruence). rewrite LL.
    destruct (find_like nm _ _ E4) as [(-> & ->)|(b & a & -> & -> & (c & f & -> & _))]; [reflexivity|]. unfold mcts_fit. rewrite E1. cbn [set_consumed set_fit at_pos].
    replace (all_info (mc_interactive cfg) e1 (set_consumed (set_fit a f) c)) with (all_info (mc_interactive cfg) e2 a); [reflexivity|].
    unfold all_info. cbn [set_consumed set_fit at_name]. f_equal. destruct (mc_interactive cfg); [|reflexivity]. clear - E4. generalize (at_name a). intros nm. induction E4 as [|x y l1 l2 (c & f & -> & _) F IH]; [reflexivity|].
    cbn [filter set_consumed set_fit at_name]. destruct (negb _); cbn [map]; [f_equal; exact IH|exact IH].
  - intros nm e1 e2 n s (E1 & _). cbn. unfold null_fit. now rewrite E1.
Qed.
(** The world of C65_reset_keeps_records_refuted: "q" has eaten and walked; after the reset, with a wall built in between, it is fitted and walks
    as in a new environment with that wall, eating again. Without fitting it first the answers differ. *)
Example C135_example : exists m m' e, grid_mdp (A:=Q) Square ex_ft None (2, 2) false = Ok m /\ make_env m [ex_p; ex_q] = (m', Ok e) /\
  let pl := ex_pl [0; 0; 3; 2]%Z in
  let l := [OFit "q" None 0 0; OStep "q" 0; OSetWalls [0; 1; 0; 0]%Q; OStep "q" 0; OSetPosition "p" 2] in
  let used := do_op pl (run pl e l) OReset in let fresh := run pl e (filter assigns_walls l) in
  let p := [OStepMulti "q" (StepsInt 2) None 1 true false (fun _ => 0); OStep "q" 0; OReset; OStep "q" 0; OSetWalls [0]%Q] in
  prepared pl fresh p /\ reports_all pl used p = [MovedMulti (Err ValueError); Moved (Ok 0%Z); Done (Ok tt); Moved (Ok 2%Z); Done (Err AttributeError)] /\
  reports_all pl fresh p = reports_all pl used p /\
  total_consumed (run pl fresh p) 0 = 1 /\ total_consumed (run pl used p) 0 = 2 /\
  reports_all pl used [OStep "q" 0] <> reports_all pl fresh [OStep "q" 0].
Proof.
  do 3 eexists. do 2 (split; [vm_compute; reflexivity|]). cbv zeta.
  split. { vm_compute. repeat split; intros x [<-|[<-|[]]]; discriminate. }
  do 4 (split; [vm_compute; reflexivity|]). vm_compute. discriminate.
Qed.
