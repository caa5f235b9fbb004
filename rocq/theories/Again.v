(** Auxiliary facts: environments that differ in records only do the same. *)
From Coq Require Import String List ZArith Bool Lia.
From Verif Require Import PyBase PyProofs GridModel MDPModel ActionModel EnvModel AgainSpec.
Import ListNotations.
Local Open Scope nat_scope.

Section Again.
Context {A : Type} {NA : Num A}.
Notation rec := (@same_agent_but_records A).
Notation same := (@same_but_records A).

(** [b] is [a] with another consumption record. *)
Definition rec1 (b a : attached A) : Prop := exists c, b = set_consumed a c /\ length c = length (at_consumed a).
Lemma rec1_rec : forall b a, rec1 b a -> rec b a.
Proof. intros b a (c & -> & L). exists c, (at_fit a). split; [now destruct a|auto]. Qed.
Lemma rec_rec1 : forall b a, rec b a -> at_fit a <> None -> rec1 b a.
Proof. intros b a (c & f & -> & L & [->|X]) N; [|tauto]. exists c. split; [now destruct a|exact L]. Qed.
Lemma rec_name : forall b a, rec b a -> at_name b = at_name a. Proof. now intros b a (c & f & -> & _). Qed.
Lemma rec_refl : forall a, rec a a. Proof. intros a. exists (at_consumed a), (at_fit a). split; [now destruct a|auto]. Qed.
Lemma rec_set_fit : forall b a f, rec b a -> rec1 (set_fit b f) (set_fit a f).
Proof. intros b a f (c & g & -> & L & _). exists c. split; [reflexivity|exact L]. Qed.

Lemma find_rec : forall l' l nm, Forall2 rec l' l ->
  (find_agent l' nm = None /\ find_agent l nm = None) \/ exists b a, find_agent l' nm = Some b /\ find_agent l nm = Some a /\ rec b a.
Proof.
  intros l' l nm F. unfold find_agent. induction F as [|b a l' l R F IH]; [auto|]. cbn [find]. rewrite (rec_name _ _ R).
  destruct (String.eqb (at_name a) nm); [|exact IH]. right. eauto.
Qed.
Lemma put_rec : forall l' l b a, Forall2 rec l' l -> rec b a -> Forall2 rec (put_agent l' b) (put_agent l a).
Proof.
  intros l' l b a F R. unfold put_agent. rewrite (rec_name _ _ R).
  assert (E : existsb (fun x => String.eqb (at_name x) (at_name a)) l' = existsb (fun x => String.eqb (at_name x) (at_name a)) l).
  { induction F as [|x y l' l Rxy F IH]; [reflexivity|]. cbn [existsb]. now rewrite (rec_name _ _ Rxy), IH. }
  rewrite E. destruct (existsb _ l).
  - clear E. induction F as [|x y l' l Rxy F IH]; constructor; [|exact IH]. rewrite (rec_name _ _ Rxy). now destruct (String.eqb _ _).
  - apply Forall2_app; [exact F|]. constructor; [exact R|constructor].
Qed.
Lemma with_agent_rec : forall e' e b a, same e' e -> rec b a -> same (with_agent e' b) (with_agent e a).
Proof. intros e' e b a (E1 & E2 & E3 & E4) R. repeat split; try assumption. cbn [with_agent e_agents]. now apply put_rec. Qed.
Lemma with_mdp_rec : forall e' e m, same e' e -> same (with_mdp e' m) (with_mdp e m).
Proof. intros e' e m (E1 & E2 & E3 & E4). repeat split; assumption. Qed.
Lemma tick_rec : forall e' e, same e' e -> same (tick e') (tick e).
Proof. intros e' e (E1 & E2 & E3 & E4). repeat split; assumption. Qed.
Lemma lookup_rec : forall e' e nm, same e' e ->
  (exists x, lookup e' nm = Err x /\ lookup e nm = Err x) \/
  exists b a, lookup e' nm = Ok b /\ lookup e nm = Ok a /\ rec b a /\ In a (e_agents e) /\ at_name a = nm.
Proof.
  intros e' e nm (E1 & E2 & E3 & E4). unfold lookup. rewrite E2. destruct (existsb _ _); [|eauto].
  destruct (find_rec _ _ nm E4) as [(-> & ->)|(b & a & -> & Ea & R)]; [eauto|]. rewrite Ea. right. exists b, a.
  unfold find_agent in Ea. apply find_some in Ea. destruct Ea as [H1 H2]. apply String.eqb_eq in H2. auto.
Qed.

(** The commutation of each function with another consumption record. *)
Context (pl : plugins A).
Lemma policy_c : forall a c s, get_policy pl (set_consumed a c) s = let '(a', r) := get_policy pl a s in (set_consumed a' c, r).
Proof.
  intros a c s. unfold get_policy. cbn [set_consumed at_fit at_name at_pi]. destruct (at_fit a) as [[v q]|]; [|reflexivity].
  destruct (get_pi_p _ q); [|reflexivity]. destruct (get_pi _ q); reflexivity.
Qed.
Lemma policy_keeps : forall a s a' r, get_policy pl a s = (a', r) -> at_fit a' = at_fit a /\ at_consumed a' = at_consumed a /\ at_name a' = at_name a.
Proof.
  intros a s a' r. unfold get_policy. destruct (at_fit a) as [[v q]|] eqn:E; [|intros X; inversion X; subst; auto].
  destruct (get_pi_p _ q); [|intros X; inversion X; subst; auto]. destruct (get_pi _ q); intros X; inversion X; subst; cbn; auto.
Qed.
Lemma move_c : forall m a c p, move_agent m (set_consumed a c) p = let '(m', a', r) := move_agent m a p in (m', set_consumed a' c, r).
Proof. intros m a c p. unfold move_agent. destruct (_ <=? p)%Z; [reflexivity|]. cbn [set_consumed at_idx]. destruct (update_agent_feature m (at_idx a) p) as [m' [u|x]]; reflexivity. Qed.
Lemma move_keeps : forall m a p m' a' r, move_agent m a p = (m', a', r) -> at_fit a' = at_fit a /\ at_consumed a' = at_consumed a /\ at_name a' = at_name a.
Proof.
  intros m a p m' a' r. unfold move_agent. destruct (_ <=? p)%Z; [intros X; inversion X; subst; auto|].
  destruct (update_agent_feature m (at_idx a) p) as [m1 [u|x]]; intros X; inversion X; subst; cbn; auto.
Qed.
Lemma astep_c : forall m a c s, agent_step pl m (set_consumed a c) s = let '(m', a', r) := agent_step pl m a s in (m', set_consumed a' c, r).
Proof.
  intros m a c s. unfold agent_step. cbn [set_consumed at_fit]. fold (set_consumed a c). destruct (at_fit a); [|reflexivity]. rewrite policy_c. destruct (get_policy pl a s) as [a1 [u|x]]; [|reflexivity].
  cbn [set_consumed at_pi at_pos]. fold (set_consumed a1 c). destruct (at_pi a1) as [pi|]; [|reflexivity]. destruct (py_index _ _) as [i|x]; cbn [bind]; [|reflexivity].
  destruct (_ <? 0)%Z; [reflexivity|]. destruct (get_next_state _ _ _) as [t|x]; [|reflexivity]. rewrite move_c. destruct (move_agent m a1 (Z.of_nat t)) as [[m2 a2] [v|x]]; [|reflexivity].
  cbn [set_consumed set_hist at_idx at_pos at_hist]. now destruct (update_agent_feature m2 _ _) as [m3 [z|x]].
Qed.
Lemma astep_keeps : forall m a s m' a' r, agent_step pl m a s = (m', a', r) -> at_fit a' = at_fit a /\ at_consumed a' = at_consumed a /\ at_name a' = at_name a.
Proof.
  intros m a s m' a' r. unfold agent_step. destruct (at_fit a) eqn:F; [|intros X; inversion X; subst; auto].
  destruct (get_policy pl a s) as [a1 [u|x]] eqn:GP; pose proof (policy_keeps _ _ _ _ GP) as (K1 & K2 & K3); [|intros X; inversion X; subst; rewrite <- F; auto].
  destruct (at_pi a1) as [pi|]; [|intros X; inversion X; subst; rewrite <- F; auto].
  destruct (let* i := py_index _ _ in _) as [act|x]; [|intros X; inversion X; subst; rewrite <- F; auto].
  destruct (_ <? 0)%Z; [intros X; inversion X; subst; rewrite <- F; auto|].
  destruct (get_next_state _ _ _) as [t|x]; [|intros X; inversion X; subst; rewrite <- F; auto].
  destruct (move_agent m a1 (Z.of_nat t)) as [[m2 a2] [v|x]] eqn:MV; pose proof (move_keeps _ _ _ _ _ _ MV) as (K4 & K5 & K6).
  - destruct (update_agent_feature m2 _ _) as [m3 [z|x]]; intros X; inversion X; subst; cbn [set_hist at_fit at_consumed at_name]; rewrite <- F; repeat split; congruence.
  - intros X; inversion X; subst; rewrite <- F; repeat split; congruence.
Qed.
Lemma rec1_astep : forall m b a s, rec1 b a -> exists m' b' a' r, agent_step pl m b s = (m', b', r) /\ agent_step pl m a s = (m', a', r) /\ rec1 b' a' /\ at_fit a' = at_fit a /\ at_name a' = at_name a.
Proof.
  intros m b a s (c & -> & L). rewrite astep_c. destruct (agent_step pl m a s) as [[m' a'] r] eqn:E. destruct (astep_keeps _ _ _ _ _ _ E) as (K1 & K2 & K3).
  exists m', (set_consumed a' c), a', r. repeat split; auto. exists c. split; [reflexivity|congruence].
Qed.
Lemma rec1_policy : forall b a s, rec1 b a -> exists b' a' r, get_policy pl b s = (b', r) /\ get_policy pl a s = (a', r) /\ rec1 b' a' /\ at_fit a' = at_fit a /\ at_name a' = at_name a.
Proof.
  intros b a s (c & -> & L). rewrite policy_c. destruct (get_policy pl a s) as [a' r] eqn:E. destruct (policy_keeps _ _ _ _ E) as (K1 & K2 & K3).
  exists (set_consumed a' c), a', r. repeat split; auto. exists c. split; [reflexivity|congruence].
Qed.
Lemma consume_rec : forall e' e b a, same e' e -> rec1 b a ->
  exists e2' e2 r, env_consume e' b = (e2', r) /\ env_consume e a = (e2, r) /\ same e2' e2.
Proof.
  intros e' e b a SB (c & -> & L). unfold env_consume. cbn [set_consumed at_consumes at_pos at_consumed]. pose proof SB as (E1 & _). rewrite E1.
  destruct (at_consumes a) as [|z zs]; [eauto 6|]. destruct (consume_features (e_mdp e) (z :: zs) (at_pos a)) as [m' [d|x]]; [|do 3 eexists; repeat split; now apply with_mdp_rec].
  rewrite L. destruct (length (at_consumed a) =? length d) eqn:LE; [|do 3 eexists; repeat split; now apply with_mdp_rec].
  do 3 eexists. split; [reflexivity|]. split; [reflexivity|]. apply with_agent_rec; [now apply with_mdp_rec|]. apply rec1_rec.
  exists (map (fun '(x, y) => x + y) (combine c d)). split; [reflexivity|]. cbn [set_consumed at_consumed]. rewrite !map_length, !combine_length. congruence.
Qed.
(** The plan of every other agent, and that of the stepping one, stay. *)
Lemma put_fits : forall (l : list (attached A)) a b, In b (put_agent l a) -> b = a \/ (In b l /\ at_name b <> at_name a).
Proof.
  intros l a b. unfold put_agent. destruct (existsb _ l) eqn:E.
  - intros H. apply in_map_iff in H. destruct H as (x & <- & Hx). destruct (String.eqb_spec (at_name x) (at_name a)); auto.
  - intros H. apply in_app_iff in H. destruct H as [H|[<-|[]]]; [|auto]. right. split; [exact H|]. intros X.
    assert (T : existsb (fun b => String.eqb (at_name b) (at_name a)) l = true) by (apply existsb_exists; exists b; split; [exact H|now apply String.eqb_eq]). congruence.
Qed.
Definition planned (e : env A) (nm : string) : Prop := forall a, In a (e_agents e) -> at_name a = nm -> at_fit a <> None.
Lemma step_rec : forall e' e nm s, same e' e -> planned e nm ->
  exists e2' e2 r, env_step pl e' nm s = (e2', r) /\ env_step pl e nm s = (e2, r) /\ same e2' e2 /\ planned e2 nm.
Proof.
  intros e' e nm s SB P. unfold env_step. destruct (lookup_rec e' e nm SB) as [(x & -> & ->)|(b & a & -> & -> & R & Ha & Na)]; [eauto 8|].
  pose proof SB as (E1 & _). rewrite E1. destruct (rec1_astep (e_mdp e) b a s) as (m' & b' & a' & r & -> & -> & R' & KF & KN); [apply rec_rec1; auto|].
  assert (SB1 : same (with_agent (with_mdp e' m') b') (with_agent (with_mdp e m') a')) by (apply with_agent_rec; [now apply with_mdp_rec|now apply rec1_rec]).
  assert (P1 : planned (with_agent (with_mdp e m') a') nm).
  { intros x Hx Nx. cbn [with_agent with_mdp e_agents] in Hx. apply put_fits in Hx. destruct Hx as [->|[Hx N]]; [rewrite KF; auto|auto]. }
  destruct r as [u|x]; [|eauto 8].
  destruct (consume_rec _ _ b' a' SB1 R') as (e2' & e2 & r & E2 & E3 & SB2). rewrite E2, E3.
  assert (P2 : planned e2 nm).
  { clear - P1 E3 KF Ha Na P. unfold env_consume in E3. destruct (at_consumes a') as [|z zs]; [inversion E3; subst; exact P1|].
    destruct (consume_features _ _ _) as [m1 [d|x]]; [|inversion E3; subst; exact P1]. destruct (_ =? _); [|inversion E3; subst; exact P1].
    inversion E3; subst. intros x Hx Nx. cbn [with_agent with_mdp e_agents] in Hx. apply put_fits in Hx. destruct Hx as [->|[Hx N]]; [cbn [set_consumed at_fit]; rewrite KF; auto|]. apply P1; auto. }
  destruct r as [u'|x]; [|eauto 8]. do 3 eexists. split; [|split; [reflexivity|]].
  - destruct R' as (c & -> & _). reflexivity.
  - split; [now apply tick_rec|exact P2].
Qed.
Lemma proba_rec : forall e' e nm p s, same e' e -> planned e nm ->
  exists e2' e2 r, env_step_proba pl e' nm p s = (e2', r) /\ env_step_proba pl e nm p s = (e2, r) /\ same e2' e2.
Proof.
  intros e' e nm p s SB P. unfold env_step_proba. destruct (lookup_rec e' e nm SB) as [(x & -> & ->)|(b & a & -> & -> & R & Ha & Na)]; [eauto 8|].
  pose proof SB as (E1 & _). rewrite E1. assert (R1 : rec1 b a) by (apply rec_rec1; auto).
  assert (X : exists b' a' r, agent_step_proba pl (e_mdp e) b p s = (b', r) /\ agent_step_proba pl (e_mdp e) a p s = (a', r) /\ rec b' a').
  { unfold agent_step_proba. assert (EP : at_pos b = at_pos a) by (destruct R1 as (c & -> & _); reflexivity). rewrite EP. destruct (match p with Some p0 => _ | None => _ end); [|eauto 8]. destruct (negb _); [eauto 8|].
    assert (EF : at_fit b = at_fit a) by (destruct R1 as (c & -> & _); reflexivity). rewrite EF. destruct (at_fit a); [|eauto 8].
    destruct (rec1_policy b a s R1) as (b' & a' & r & -> & -> & R' & _). destruct r; [|do 3 eexists; split; [reflexivity|split; [reflexivity|now apply rec1_rec]]].
    assert (EPP : at_pi_p b' = at_pi_p a') by (destruct R' as (c & -> & _); reflexivity). rewrite EPP. destruct (at_pi_p a'); do 3 eexists; (split; [reflexivity|split; [reflexivity|now apply rec1_rec]]). }
  destruct X as (b' & a' & r & -> & -> & R'). destruct r; do 3 eexists; (split; [reflexivity|split; [reflexivity|]]); [apply tick_rec|]; now apply with_agent_rec.
Qed.
Context (IG : ignores_records pl).
Lemma fit_rec : forall e' e nm n s s', same e' e ->
  exists e2' e2 r, env_fit pl e' nm n s s' = (e2', r) /\ env_fit pl e nm n s s' = (e2, r) /\ same e2' e2 /\ (r = Ok tt -> planned e2 nm).
Proof.
  intros e' e nm n s s' SB. unfold env_fit. destruct (lookup_rec e' e nm SB) as [(x & -> & ->)|(b & a & -> & -> & R & Ha & Na)].
  { do 3 eexists. split; [reflexivity|]. split; [reflexivity|]. split; [exact SB|discriminate]. }
  pose proof SB as (E1 & _).
  assert (AF : alg_fit pl e' b n s = alg_fit pl e a n s).
  { unfold alg_fit. rewrite E1, (rec_name _ _ R). replace (at_reward b) with (at_reward a) by (destruct R as (c & f & -> & _); reflexivity). now rewrite (IG (at_name a) e' e n s SB). }
  rewrite AF. destruct (alg_fit pl e a n s) as [f|x].
  - destruct (rec1_policy _ _ s' (rec_set_fit _ _ (Some f) R)) as (b' & a' & r & -> & -> & R' & KF & KN). do 3 eexists. split; [reflexivity|]. split; [reflexivity|].
    split; [apply with_agent_rec; [exact SB|now apply rec1_rec]|]. intros _ y Hy Ny. cbn [with_agent e_agents] in Hy. apply put_fits in Hy. destruct Hy as [->|[Hy N]]; [rewrite KF; discriminate|].
    elim N. rewrite Ny, KN. symmetry. exact Na.
  - do 3 eexists. split; [reflexivity|]. split; [reflexivity|]. split; [|discriminate]. unfold failed_fit. rewrite E1, (rec_name _ _ R).
    replace (at_reward b) with (at_reward a) by (destruct R as (c & f & -> & _); reflexivity). destruct (_ && _); [|exact SB]. apply with_agent_rec; [exact SB|]. apply rec1_rec. now apply rec_set_fit.
Qed.
Lemma caught_rec : forall e' e b a, same e' e -> rec b a -> caught e' b = caught e a.
Proof.
  intros e' e b a (_ & _ & _ & F) (c & f & -> & _). unfold caught. cbn [set_consumed set_fit at_consumes at_pos].
  assert (X : forall z, existsb (fun b => (Z.of_nat (at_feature_idx b) =? z)%Z && (at_pos a =? at_pos b)%Z) (e_agents e') = existsb (fun b => (Z.of_nat (at_feature_idx b) =? z)%Z && (at_pos a =? at_pos b)%Z) (e_agents e)).
  { intros z. induction F as [|x y l' l (c' & f' & -> & _) F IH]; [reflexivity|]. cbn [existsb]. rewrite IH. reflexivity. }
  induction (at_consumes a) as [|z l IH]; [reflexivity|]. cbn [existsb]. now rewrite IH, X.
Qed.
Lemma loop_rec : forall nm rf st t l p rnd todo i acc e' e, same e' e -> (rf = false -> planned e nm) ->
  exists e2' e2 r, multi_loop pl e' nm rf st t l p rnd i todo acc = (e2', r) /\ multi_loop pl e nm rf st t l p rnd i todo acc = (e2, r) /\ same e2' e2.
Proof.
  intros nm rf st t l p rnd todo. induction todo as [|todo IH]; intros i acc e' e SB P; [cbn [multi_loop]; eauto 8|]. cbn [multi_loop].
  assert (X : exists e1' e1 r, refit_step pl e' nm rf i t l p (rnd (3 * i)) (rnd (3 * i + 1)) = (e1', r) /\ refit_step pl e nm rf i t l p (rnd (3 * i)) (rnd (3 * i + 1)) = (e1, r) /\ same e1' e1 /\ (r = Ok tt -> planned e1 nm)).
  { unfold refit_step. destruct rf; [|do 3 eexists; split; [reflexivity|split; [reflexivity|split; [exact SB|auto]]]].
    destruct (step_plan i t l p); [now apply fit_rec|]. do 3 eexists; split; [reflexivity|split; [reflexivity|split; [exact SB|discriminate]]]. }
  destruct X as (e1' & e1 & r & -> & -> & SB1 & P1). destruct r as [[]|x]; [|eauto 8].
  destruct (step_rec e1' e1 nm (rnd (3 * i + 2)) SB1 (P1 eq_refl)) as (e2' & e2 & r & -> & -> & SB2 & P2). destruct r as [z|x]; [|eauto 8].
  replace (match find_agent (e_agents e2') nm with Some a => caught e2' a | None => false end) with (match find_agent (e_agents e2) nm with Some a => caught e2 a | None => false end).
  2:{ destruct SB2 as (Q1 & Q2 & Q3 & Q4). destruct (find_rec _ _ nm Q4) as [(-> & ->)|(b & a & -> & -> & R)]; [reflexivity|]. symmetry. now apply caught_rec. }
  destruct (_ && st); [eauto 8|]. apply IH; auto.
Qed.
Lemma steps_rec : forall e' e nm, same e' e -> all_n_steps e' nm = all_n_steps e nm.
Proof.
  intros e' e nm (_ & E2 & _ & F). unfold all_n_steps. rewrite E2. generalize (nm :: filter (fun n => negb (String.eqb n nm)) (e_names e)).
  induction l as [|x l IH]; [reflexivity|]. cbn [mapM]. rewrite IH. destruct (find_rec _ _ x F) as [(-> & ->)|(b & a & -> & -> & (c & f & -> & _))]; reflexivity.
Qed.
Lemma multi_rec : forall e' e nm ns pln t rf st rnd, same e' e -> (rf = false -> planned e nm) ->
  exists e2' e2 r, step_multi pl e' nm ns pln t rf st rnd = (e2', r) /\ step_multi pl e nm ns pln t rf st rnd = (e2, r) /\ same e2' e2.
Proof.
  intros e' e nm ns pln t rf st rnd SB P. unfold step_multi. destruct (lookup_rec e' e nm SB) as [(x & -> & ->)|(b & a & -> & -> & R & Ha & Na)]; [eauto 8|].
  rewrite (steps_rec e' e nm SB). destruct (all_n_steps e nm) as [nas|x]; [|eauto 8].
  assert (LE : length (e_agents e') = length (e_agents e)) by (destruct SB as (_ & _ & _ & F); clear - F; induction F; cbn; congruence). rewrite LE.
  destruct (negb (_ =? _)); [eauto 8|].
  assert (MV : at_n_moves b = at_n_moves a) by (destruct R as (c & f & -> & _); reflexivity). rewrite MV.
  destruct ns as [|n|[|n ns]|]; try (destruct (negb _); [eauto 8|]); try (now apply loop_rec); eauto 8.
Qed.
Lemma reset_agents_rec : forall l' l e' e, Forall2 rec l' l -> same e' e ->
  exists e2' e2 r, reset_agents e' l' = (e2', r) /\ reset_agents e l = (e2, r) /\ same e2' e2.
Proof.
  intros l' l e' e F. revert e' e. induction F as [|b a l' l R F IH]; intros e' e SB; [cbn [reset_agents]; eauto 8|]. cbn [reset_agents].
  pose proof SB as (E1 & _). rewrite E1. destruct R as (c & f & -> & L & FF). unfold move_agent. cbn [set_consumed set_fit at_start at_idx].
  destruct (_ <=? _)%Z; [do 3 eexists; repeat split; now apply with_mdp_rec|].
  destruct (update_agent_feature (e_mdp e) (at_idx a) (at_start a)) as [m' [u|x]]; [|do 3 eexists; repeat split; now apply with_mdp_rec].
  apply IH. apply with_agent_rec; [now apply with_mdp_rec|]. exists c, f. repeat split; assumption.
Qed.
Lemma op_rec : forall e' e o, same e' e -> ready e o -> same (do_op pl e' o) (do_op pl e o) /\ reports pl e' o = reports pl e o.
Proof.
  intros e' e o SB RD. pose proof SB as (E1 & E2 & E3 & E4). destruct o; cbn [do_op reports].
  - destruct (fit_rec e' e name n_moves seed seed' SB) as (x' & x & r & -> & -> & H & _). auto.
  - destruct (step_rec e' e name seed SB RD) as (x' & x & r & -> & -> & H & _). auto.
  - destruct (multi_rec e' e name n_steps plan n_turns refit stop rnd SB) as (x' & x & r & -> & -> & H); [intros ->; exact RD|auto].
  - destruct (proba_rec e' e name position seed SB RD) as (x' & x & r & -> & -> & H). auto.
  - assert (X : fst (step_multi_interactive e' names n_moves) = e' /\ fst (step_multi_interactive e names n_moves) = e /\ snd (step_multi_interactive e' names n_moves) = snd (step_multi_interactive e names n_moves)).
    { unfold step_multi_interactive. rewrite E2. destruct n_moves as [[|row rows]|]; try (repeat split; reflexivity).
      set (ns := match names with Some l => l | None => e_names e end).
      assert (Y : (exists x, mapM (fun nm => lookup e' nm) ns = Err x /\ mapM (fun nm => lookup e nm) ns = Err x) \/ (exists v u, mapM (fun nm => lookup e' nm) ns = Ok v /\ mapM (fun nm => lookup e nm) ns = Ok u)).
      { induction ns as [|nm ns IH]; [right; cbn; eauto|]. cbn [mapM]. destruct (lookup_rec e' e nm SB) as [(x & -> & ->)|(b & a & -> & -> & _)]; [left; cbn; eauto|].
        destruct IH as [(x & -> & ->)|(v & u & -> & ->)]; cbn; eauto. }
      destruct Y as [(x & -> & ->)|(v & u & -> & ->)]; [repeat split|]. destruct (_ || _); repeat split. }
    destruct X as (-> & -> & ->). auto.
  - unfold set_agent_position. destruct (lookup_rec e' e name SB) as [(x & -> & ->)|(b & a & -> & -> & R & _)]; [auto|]. rewrite E1. unfold move_agent.
    assert (EI : at_idx b = at_idx a) by (destruct R as (c & f & -> & _); reflexivity). rewrite EI.
    assert (RP : rec (set_pos_only b p) (set_pos_only a p)) by (destruct R as (c & f & -> & L & FF); exists c, f; repeat split; assumption).
    destruct (_ <=? _)%Z; [|destruct (update_agent_feature _ _ _) as [m' [u|x]]]; cbn [fst snd]; (split; [apply with_agent_rec; [now apply with_mdp_rec|assumption]|reflexivity]).
  - rewrite E1. destruct (set_walls (e_mdp e) walls); split; auto. now apply with_mdp_rec.
  - unfold env_reset. destruct (reset_agents_rec _ _ e' e E4 SB) as (x' & x & r & -> & -> & H). destruct r as [u|y]; [|auto].
    pose proof H as (H1 & _). rewrite H1. destruct (reset_mdp (e_mdp x)); cbn [fst snd]; split; auto. now apply with_mdp_rec.
Qed.
Lemma run_rec : forall l e' e, same e' e -> prepared pl e l -> same (run pl e' l) (run pl e l) /\ reports_all pl e' l = reports_all pl e l.
Proof.
  induction l as [|o l IH]; intros e' e SB P; [auto|]. destruct P as [RD P]. destruct (op_rec e' e o SB RD) as [H1 H2]. cbn [reports_all]. unfold run in *. cbn [fold_left].
  destruct (IH _ _ H1 P) as [H3 H4]. split; [exact H3|]. now rewrite H2, H4.
Qed.
End Again.
