(** C239: a reset makes runs repeat if no plan leaves a choice. *)
From Coq Require Import String List ZArith QArith Reals Bool Lia Lra.
From Verif Require Import PyBase PyProofs GridModel GridSpec MDPModel MDPSpec MDPProofs MDPProofs2 MDPProofs3 MDPProofs4 MDPProps ActionModel ActionSpec ActionProofs EnvModel EnvSpec EnvProofs EnvProofs2 EnvProofs3 EnvProofs4 EnvProps StepProps VIModel VIEnvProps MCTSModel MCTSRun AgainSpec Again AgainProps RngModel RngSpec QuerySpec QueryProofs QueryProps VIInv WorldNew RngProps.
Import ListNotations.
Local Close Scope Q_scope.
Local Open Scope nat_scope.

(** The policy an agent draws for [q] is always the same. *)
Definition no_choice (pl : plugins R) (nm : string) (q : list (list (fval R))) : Prop :=
  forall s s', get_pi (pl_pi pl nm s) q = get_pi (pl_pi pl nm s') q.
(** Whatever is called, except assigning walls: no plan leaves a choice to the agent. *)
Definition never_a_choice (pl : plugins R) (e : env R) : Prop :=
  forall calls nm n s v q, Forall keeps_walls calls -> pl_fit pl nm (run pl e calls) n s = Ok (v, q) -> In nm (e_names e) -> no_choice pl nm q.

Section Decided.
Context (pl : plugins R) (DT : RngSpec.deterministic pl) (k : gkind) (shape : nat * nat) (st : bool) (e0 : env R) (W0 : wf k shape st e0) (NC : never_a_choice pl e0).
Let K (nm : string) (a : attached R) : Prop := forall v q, at_fit a = Some (v, q) -> no_choice pl nm q.
Let Inv (e : env R) : Prop := (exists l, Forall keeps_walls l /\ e = run pl e0 l) /\ forall nm, In nm (e_names e0) -> knows nm (K nm) e.

Lemma K_same : forall nm a b, at_name b = at_name a -> at_fit b = at_fit a -> at_pi b = at_pi a -> at_pi_p b = at_pi_p a -> K nm a -> K nm b.
Proof using. intros nm a b _ E _ _ H v q X. apply (H v q). congruence. Qed.
Lemma K_policy : forall nm a s a' r, at_name a = nm -> K nm a -> get_policy pl a s = (a', r) -> K nm a'.
Proof using. intros nm a s a' r _ H GP v q X. destruct (Again.policy_keeps _ _ _ _ _ GP) as (Y & _). apply (H v q). congruence. Qed.
Lemma K_reset : forall nm a, K nm a -> K nm (set_policy a None None).
Proof using. intros nm a H. exact H. Qed.
Lemma inv_wf : forall e, Inv e -> wf k shape st e /\ e_names e = e_names e0.
Proof using W0. intros e ((l & _ & ->) & _). split; [now apply run_wf|]. apply (run_static pl k shape st l e0 W0). Qed.
Lemma inv_next : forall e o, Inv e -> keeps_walls o -> (forall nm, In nm (e_names e0) -> knows nm (K nm) (do_op pl e o)) -> Inv (do_op pl e o).
Proof using.
  intros e o ((l & F & ->) & _) KW H. split; [|exact H]. exists (l ++ [o]). split; [apply Forall_app; auto|]. unfold run. rewrite fold_left_app. reflexivity.
Qed.
(** The plan a fit finds leaves no choice. *)
Lemma inv_plan : forall e nm a n s f, Inv e -> lookup e nm = Ok a -> alg_fit pl e a n s = Ok f -> no_choice pl nm (snd f).
Proof using W0 NC.
  intros e nm a n s [v q] IV L AF. destruct (inv_wf _ IV) as [_ EN]. destruct IV as ((l & F & ->) & _). pose proof (WorldProofs.lookup_in _ _ _ L) as [_ N]. subst nm.
  unfold alg_fit in AF. destruct (negb _) in AF; [discriminate|]. apply bind_ok in AF. destruct AF as ([v' q'] & EF & AF).
  destruct (negb _) in AF; [discriminate|]. destruct (negb _) in AF; [discriminate|]. destruct (negb _) in AF; [discriminate|]. injection AF as -> ->.
  apply (NC l _ n s v q F EF). unfold lookup in L. destruct (existsb _ _) eqn:X in L; [|discriminate]. apply existsb_exists in X. destruct X as (y & I & E). apply String.eqb_eq in E. rewrite E, <- EN. exact I.
Qed.
Lemma fit_knows : forall e nm n s s', Inv e -> In nm (e_names e0) -> knows nm (K nm) (fst (env_fit pl e nm n s s')).
Proof using W0 NC.
  intros e nm n s s' IV I. pose proof (proj2 IV nm I) as KN. unfold env_fit. destruct (lookup e nm) as [a|] eqn:L; [|exact KN]. destruct (look_keeps _ _ _ _ _ KN L) as [N KA].
  destruct (alg_fit pl e a n s) as [[v q]|x] eqn:AF.
  - pose proof (inv_plan _ _ _ _ _ _ IV L AF) as D. cbn [snd] in D. match goal with |- context [get_policy ?x ?y ?z] => destruct (get_policy x y z) as [a' r] eqn:GP end. cbn [fst]. apply knows_with0; [exact KN|]. intros _ v1 q1 X.
    destruct (Again.policy_keeps _ _ _ _ _ GP) as (Y & _). cbn in Y. rewrite Y in X. injection X as <- <-. exact D.
  - cbn [fst]. unfold failed_fit. destruct (_ && _); [|exact KN]. apply knows_with0; [exact KN|]. intros _ v1 q1 X. discriminate X.
Qed.
Lemma inv_fit : forall e nm n s s', Inv e -> Inv (fst (env_fit pl e nm n s s')).
Proof using W0 NC.
  intros e nm n s s' IV. apply (inv_next e (OFit nm n s s') IV I). intros nm' I'. cbn [do_op]. destruct (string_dec nm nm') as [->|NE]; [now apply fit_knows|]. apply fit_keeps; [exact NE|]. now apply IV.
Qed.
Lemma inv_step : forall e nm s, Inv e -> Inv (fst (env_step pl e nm s)).
Proof using.
  intros e nm s IV. apply (inv_next e (OStep nm s) IV I). intros nm' I'. cbn [do_op]. apply env_step_keeps; [apply K_same|apply K_policy|]. now apply IV.
Qed.
(** The draws do not matter. *)
Lemma d_policy : forall e nm a s s', Inv e -> lookup e nm = Ok a -> get_policy pl a s = get_policy pl a s'.
Proof using W0.
  intros e nm a s s' IV L. pose proof (WorldProofs.lookup_in _ _ _ L) as [_ N]. assert (I : In nm (e_names e0)).
  { destruct (inv_wf _ IV) as [_ EN]. unfold lookup in L. destruct (existsb _ _) eqn:X in L; [|discriminate]. apply existsb_exists in X. destruct X as (y & I & E). apply String.eqb_eq in E. now rewrite E, <- EN. }
  destruct (look_keeps _ _ _ _ _ (proj2 IV nm I) L) as [_ KA]. specialize (KA eq_refl). unfold get_policy. destruct (at_fit a) as [[v q]|] eqn:F; [|reflexivity]. destruct (get_pi_p _ q); [|reflexivity]. rewrite N. now rewrite (KA v q F s s').
Qed.
Lemma d_fit : forall e nm n s1 s2 s3 s4, Inv e -> env_fit pl e nm n s1 s2 = env_fit pl e nm n s3 s4.
Proof using DT W0 NC.
  intros e nm n s1 s2 s3 s4 IV. rewrite (env_fit_seed pl DT e nm n s1 s3). unfold env_fit. destruct (lookup e nm) as [a|] eqn:L; [|reflexivity]. destruct (alg_fit pl e a n s3) as [[v q]|] eqn:AF; [|reflexivity].
  pose proof (inv_plan _ _ _ _ _ _ IV L AF) as D. pose proof (WorldProofs.lookup_in _ _ _ L) as [_ N]. unfold get_policy. cbn [set_fit at_fit at_name snd] in *. destruct (get_pi_p _ q); [|reflexivity]. rewrite N. now rewrite (D s2 s4).
Qed.
Lemma d_step : forall e nm s s', Inv e -> env_step pl e nm s = env_step pl e nm s'.
Proof using W0.
  intros e nm s s' IV. unfold env_step. destruct (lookup e nm) as [a|] eqn:L; [|reflexivity]. replace (agent_step pl (e_mdp e) a s) with (agent_step pl (e_mdp e) a s'); [reflexivity|]. unfold agent_step. now rewrite (d_policy e nm a s' s IV L).
Qed.
Lemma d_loop : forall nm rf stop t l p rnd todo e i acc, Inv e -> multi_loop pl e nm rf stop t l p rnd i todo acc = multi_loop pl e nm rf stop t l p (fun _ => 0) i todo acc /\ Inv (fst (multi_loop pl e nm rf stop t l p rnd i todo acc)).
Proof using DT W0 NC.
  intros nm rf stop t l p rnd. induction todo as [|todo IH]; intros e i acc IV; [split; [reflexivity|exact IV]|]. cbn [multi_loop].
  assert (X : refit_step pl e nm rf i t l p (rnd (3 * i)) (rnd (3 * i + 1)) = refit_step pl e nm rf i t l p 0 0 /\ Inv (fst (refit_step pl e nm rf i t l p (rnd (3 * i)) (rnd (3 * i + 1))))).
  { unfold refit_step. destruct rf; [|split; [reflexivity|exact IV]]. destruct (step_plan _ _ _ _); [|split; [reflexivity|exact IV]]. split; [now apply d_fit|now apply inv_fit]. }
  destruct X as [X1 X2]. rewrite <- X1. destruct (refit_step _ _ _ _ _ _ _ _ _ _) as [e1 [u|x]]; [|split; [reflexivity|exact X2]]. cbn [fst] in X2.
  rewrite (d_step e1 nm 0 (rnd (3 * i + 2)) X2). pose proof (inv_step e1 nm (rnd (3 * i + 2)) X2) as Y. destruct (env_step pl e1 nm (rnd (3 * i + 2))) as [e2 [z|x]]; [|split; [reflexivity|exact Y]]. cbn [fst] in Y.
  destruct (_ && stop); [split; [reflexivity|exact Y]|]. now apply IH.
Qed.
Lemma d_multi : forall e nm n p t rf stop rnd, Inv e -> step_multi pl e nm n p t rf stop rnd = step_multi pl e nm n p t rf stop (fun _ => 0) /\ Inv (fst (step_multi pl e nm n p t rf stop rnd)).
Proof using DT W0 NC.
  intros e nm n p t rf stop rnd IV. unfold step_multi. destruct (lookup e nm); [|split; [reflexivity|exact IV]]. destruct (all_n_steps e nm) as [l|]; [|split; [reflexivity|exact IV]]. destruct (negb (_ =? _)); [split; [reflexivity|exact IV]|].
  destruct n as [|n|[|n ns]|]; try (split; [reflexivity|exact IV]); (destruct (negb _); [split; [reflexivity|exact IV]|]); first [now apply d_loop|split; [reflexivity|exact IV]].
Qed.
Lemma inv_op : forall e o, Inv e -> keeps_walls o -> Inv (do_op pl e o).
Proof using DT W0 NC.
  intros e o IV KW. destruct o as [n1 n s s'|n1 s|n1 n pn t rf stop rnd|n1 po s|names0 n|n1 z|w|].
  - now apply inv_fit.
  - now apply inv_step.
  - cbn [do_op]. now apply d_multi.
  - apply inv_next; auto. intros nm I. apply op_keeps; [apply K_same|apply K_policy|exact KW|now apply IV].
  - apply inv_next; auto. intros nm I. apply op_keeps; [apply K_same|apply K_policy|exact KW|now apply IV].
  - apply inv_next; auto. intros nm I. apply op_keeps; [apply K_same|apply K_policy|exact KW|now apply IV].
  - destruct KW.
  - apply inv_next; auto. intros nm I. cbn [do_op]. apply reset_keeps; [apply K_same|apply K_reset|now apply IV].
Qed.
Lemma d_call : forall e o o', Inv e -> is_call o o' -> exists o0, no_draws o = [o0] /\ do_op pl e o' = do_op pl e o0 /\ reports pl e o' = reports pl e o0.
Proof using DT W0 NC.
  intros e o o' IV C. destruct o, o'; cbn [is_call] in C; try contradiction; cbn [no_draws]; eexists; (split; [reflexivity|]); cbn [do_op reports].
  - destruct C as [-> ->]. now rewrite (d_fit e name n_moves seed seed' 0 0 IV).
  - subst. now rewrite (d_step e name seed 0 IV).
  - destruct C as (-> & -> & -> & -> & -> & ->). now rewrite (proj1 (d_multi e name n_steps plan n_turns refit stop rnd IV)).
  - destruct C as [-> ->]. assert (X : env_step_proba pl e name position seed = env_step_proba pl e name position 0).
    { unfold env_step_proba. destruct (lookup e name) as [a|] eqn:L; [|reflexivity]. replace (agent_step_proba pl (e_mdp e) a position seed) with (agent_step_proba pl (e_mdp e) a position 0); [reflexivity|]. unfold agent_step_proba. now rewrite (d_policy e name a 0 seed IV L). }
    now rewrite X.
  - destruct C as [-> ->]. auto.
  - destruct C as [-> ->]. auto.
  - subst. auto.
  - auto.
Qed.
Definition leaves_walls {A} (o : rop A) : Prop := match o with RSetWalls _ => False | _ => True end.
Lemma d_run : forall D p g e, Inv e -> Forall leaves_walls p -> final pl D g e p = run pl e (flat_map no_draws p) /\ answers pl D g e p = reports_all pl e (flat_map no_draws p) /\ Inv (final pl D g e p).
Proof using DT W0 NC.
  intros D. unfold final, answers. induction p as [|o p IH]; intros g e IV F; [auto|]. inversion_clear F as [|? ? LW F']. rewrite r_run_cons. destruct (r_op pl D g e o) as [[g1 e1] out] eqn:E. specialize (IH g1 e1).
  cbn [flat_map]. destruct (r_op_run pl D _ _ _ _ _ _ E) as [(L & -> & ->)|(L & o' & C & -> & ->)].
  - specialize (IH IV F'). destruct (r_run pl D g1 e p) as [[g2 e2] outs]. cbn [fst snd] in *. destruct o; try discriminate L; auto.
  - assert (KW : keeps_walls o') by (destruct o, o'; cbn in *; try contradiction; exact I). specialize (IH (inv_op e o' IV KW) F'). destruct (r_run pl D g1 (do_op pl e o') p) as [[g2 e2] outs]. cbn [fst snd] in *. destruct IH as (H1 & H2 & H3).
    destruct (d_call e o o' IV C) as (o0 & -> & E1 & E2). cbn [app]. unfold run in *. cbn [fold_left reports_all]. rewrite E1, E2 in *. split; [exact H1|]. split; [now rewrite H2|exact H3].
Qed.
Lemma inv_start : (forall a, In a (e_agents e0) -> at_fit a = None) -> Inv e0.
Proof using W0.
  intros H. split; [exists []; split; [constructor|reflexivity]|]. intros nm I. split; [apply existsb_exists; exists nm; split; [exact I|apply String.eqb_refl]|]. split.
  - apply (wf_lookup _ _ _ _ W0) in I. apply in_map_iff in I. destruct I as (a & Na & Ha). exists a. apply find_agent_iff; [apply (wf_names _ _ _ _ W0)|auto].
  - intros a Ha _ v q X. rewrite (H a Ha) in X. discriminate.
Qed.
End Decided.

(** Whatever was done before the reset, and whatever the generators have become: the same calls get the answers they got in the new environment, provided
    agents are fitted before they act, walls are not assigned and no plan leaves a choice. *)
Theorem C239_repeats : forall pl D D' m ss m' e g g' l p, usable pl m -> make_env m ss = (m', Ok e) -> Forall (fun s => sp_fit s = None) ss ->
  ignores_records pl -> RngSpec.deterministic pl -> never_a_choice pl e -> Forall leaves_walls l -> Forall leaves_walls p -> prepared pl e (flat_map no_draws p) ->
  answers pl D g' (final pl D' g e (l ++ [RReset])) p = answers pl D g e p.
Proof.
  intros pl D D' m ss m' e g g' l p U E F IG DT NC LW PW P. destruct (usable_clean _ _ U) as (k & shape & st & C). pose proof (make_env_wf _ _ _ _ _ _ _ C E) as W.
  assert (F0 : forall a, In a (e_agents e) -> at_fit a = None).
  { intros a Ha. unfold make_env in E. destruct (if 0 <? m_n_agents m then _ else _) as [m0|]; [|discriminate]. destruct (attach_all _ _ _ _ _ _) as [m1 [al|x]] eqn:AA; [|discriminate].
    injection E as _ <-. cbn [e_agents] in Ha. pose proof (attach_all_fit _ _ _ _ _ _ _ _ AA a Ha) as X.
    destruct (find _ (rev ss)) as [sp|] eqn:FS; [|destruct X]. apply find_some in FS. destruct FS as [FS1 FS2]. rewrite X. rewrite Forall_forall in F. apply F. now apply in_rev. }
  pose proof (inv_start pl k shape st e W F0) as I0.
  assert (LR : Forall leaves_walls (l ++ [RReset])) by (apply Forall_app; split; [exact LW|constructor; [exact I|constructor]]).
  destruct (d_run pl DT k shape st e W NC D' (l ++ [RReset]) g e I0 LR) as (H1 & _ & I1).
  destruct (d_run pl DT k shape st e W NC D p g e I0 PW) as (_ & -> & _). destruct (d_run pl DT k shape st e W NC D p g' _ I1 PW) as (_ & -> & _). rewrite H1.
  rewrite flat_map_app. unfold run. rewrite fold_left_app. cbn [flat_map no_draws app fold_left].
  pose proof (C135_reset_like_new pl m ss m' e (flat_map no_draws l) (flat_map no_draws p) U E F IG) as X. cbv zeta in X.
  assert (NF : filter assigns_walls (flat_map no_draws l) = []).
  { clear - LW. induction LW as [|o l H LW IH]; [reflexivity|]. cbn [flat_map]. rewrite filter_app, IH. destruct o; try contradiction; reflexivity. }
  rewrite NF in X. apply (X P).
Qed.

(** No state has two best actions. *)
Definition one_best (q : list (list (fval R))) : Prop := forall row a b, In row q -> best_action row a -> best_action row b -> a = b.
Lemma one_best_no_choice : forall pl nm q, (forall seed, exists draws, pl_pi pl nm seed = max_get_pi draws) -> one_best q -> no_choice pl nm q.
Proof.
  intros pl nm q SB OB s s'. destruct (SB s) as (d & ->). destruct (SB s') as (d' & ->). unfold get_pi. destruct (check_q_values q); [|reflexivity]. cbn [bind].
  replace (max_get_pi d (ActionModel.clean q)) with (max_get_pi d' (ActionModel.clean q)); [reflexivity|]. unfold max_get_pi. generalize 0. clear - OB. induction q as [|row q IH]; intros i; [reflexivity|]. cbn [ActionModel.clean map max_get_pi_from].
  assert (X : random_max (map nan_to_ninf row) (d' i) = random_max (map nan_to_ninf row) (d i)).
  { unfold random_max. destruct row as [|x row]; [reflexivity|]. destruct (clean_max (x :: row)) as (l & E & ND & NE & H); [discriminate|]. rewrite E. cbn [bind]. f_equal.
    assert (S1 : exists a, l = [a]). { destruct l as [|a [|b l]]; [congruence|now exists a|]. exfalso. assert (a = b) by (apply (OB (x :: row)); [now left| |]; apply H; cbn; auto). subst b. inversion_clear ND. apply H0. now left. }
    destruct S1 as (a & ->). cbn [length]. now rewrite !Nat.mod_1_r. }
  rewrite X. destruct (random_max _ (d i)); [|reflexivity]. cbn [bind]. fold (ActionModel.clean q). rewrite IH; [reflexivity|]. intros r b c Hr. apply OB. now right.
Qed.
(** Agents planning with value iteration and selecting the best action, who want ordinary features nobody consumes and whose plans, made in the new
    environment, have no ties: a reset makes every run repeat. *)
Theorem C239_value_iteration : forall pl D D' m ss m' e g g' l p, usable pl m -> make_env m ss = (m', Ok e) -> Forall (fun s => sp_fit s = None) ss ->
  ignores_records pl -> RngSpec.deterministic pl -> consumes_in_range e ->
  (forall nm a, agent_named e nm a -> uses_vi pl nm /\ (forall seed, exists draws, pl_pi pl nm seed = max_get_pi draws) /\
     (forall f, nth f (at_reward a) 0%R <> 0%R -> f < m_n_non_agent (e_mdp e) /\ nobody_consumes e f) /\
     forall v q, pl_fit pl nm e None 0 = Ok (v, q) -> one_best q) ->
  Forall leaves_walls l -> Forall leaves_walls p -> prepared pl e (flat_map no_draws p) ->
  answers pl D g' (final pl D' g e (l ++ [RReset])) p = answers pl D g e p.
Proof.
  intros pl D D' m ss m' e g g' l p U E F IG DT CR HA LW PW P. eapply C239_repeats; eauto.
  destruct (usable_clean _ _ U) as (k & shape & st & C). pose proof (usable_fresh_orig _ _ U) as FO. pose proof (make_env_wf _ _ _ _ _ _ _ C E) as W. destruct (make_env_orig _ _ _ _ _ _ _ C FO E) as [OR _].
  intros calls nm n s v q KW EF IN. apply (wf_lookup _ _ _ _ W) in IN. apply in_map_iff in IN. destruct IN as (a & Na & Ha). destruct (HA nm a (conj Ha Na)) as ((_ & VI) & SB & HR & OB).
  rewrite (plan_of pl k shape st nm a calls n s e W OR CR VI (conj Ha Na) HR KW None 0) in EF. exact (one_best_no_choice pl nm q SB (OB v q EF)).
Qed.
(** The run of C139_reset_repeats_refuted, with a reward at one end of the corridor only: no ties, and the answers repeat although the generator has moved on. *)
Example C239_example : exists m m' e v q, grid_mdp (A:=Q) Square [[0; 0; 1]%Q] None (3, 1) false = Ok m /\ make_env m [ex_one "q"%string] = (m', Ok e) /\
  pl_fit ex_vi "q"%string e None 0 = Ok (v, q) /\ map (max_actions (A:=Q)) q = [Ok [1]; Ok [1]; Ok [3]] /\
  let p := [RFit "q"%string None; RStep "q"%string; RStepMulti "q"%string (StepsInt 2) None 1%Z false false] in
  prepared ex_vi e (flat_map no_draws p) /\
  answers ex_vi shifting (new_rngs (fun s => s) (fun _ => Some 6) 0 0) e (p ++ [RReset] ++ p) =
    [Done (Ok tt); Moved (Ok 2%Z); MovedMulti (Ok (Positions [1; 2]%Z)); Done (Ok tt); Done (Ok tt); Moved (Ok 2%Z); MovedMulti (Ok (Positions [1; 2]%Z))].
Proof.
  do 5 eexists. do 4 (split; [vm_compute; reflexivity|]). cbv zeta. split; [|vm_compute; reflexivity]. vm_compute. repeat split; intros x [<-|[]]; discriminate.
Qed.
