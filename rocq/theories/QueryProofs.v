(** Lemmas about queries: what calls leave of the plan and the policy of an agent. *)
From Coq Require Import String List ZArith Bool Lia.
From Verif Require Import PyBase PyProofs GridModel MDPModel ActionModel EnvModel WorldProofs QueryModel QuerySpec.
Import ListNotations.
Local Open Scope nat_scope.

Section Query.
Context {A : Type} {NA : Num A}.
Implicit Types (e : env A) (a : attached A) (pl : plugins A).

Lemma find_put_same : forall (l : list (attached A)) a, find_agent l (at_name a) <> None -> find_agent (put_agent l a) (at_name a) = Some a.
Proof.
  intros l a H. unfold put_agent. replace (existsb (fun b => String.eqb (at_name b) (at_name a)) l) with true.
  - unfold find_agent in *. induction l as [|b l IH]; [now contradiction H|]. cbn [map find] in *.
    destruct (String.eqb (at_name b) (at_name a)) eqn:E; [now rewrite String.eqb_refl|]. rewrite E. now apply IH.
  - symmetry. apply existsb_exists. destruct (find_agent l (at_name a)) as [b|] eqn:F; [|now contradiction H]. apply find_in in F. exists b.
    split; [apply F|]. apply String.eqb_eq, F.
Qed.
Lemma find_put_other : forall (l : list (attached A)) a nm, at_name a <> nm -> find_agent (put_agent l a) nm = find_agent l nm.
Proof.
  intros l a nm H. unfold put_agent. destruct (existsb _ l).
  - unfold find_agent. induction l as [|b l IH]; [reflexivity|]. cbn [map find]. destruct (String.eqb_spec (at_name b) (at_name a)) as [E|E].
    + destruct (String.eqb_spec (at_name a) nm); [contradiction|]. destruct (String.eqb_spec (at_name b) nm); [congruence|]. exact IH.
    + destruct (String.eqb (at_name b) nm); [reflexivity|exact IH].
  - unfold find_agent. induction l as [|b l IH]; cbn [app find]; [now destruct (String.eqb_spec (at_name a) nm)|]. now destruct (String.eqb (at_name b) nm).
Qed.

Lemma put_in_either : forall (l : list (attached A)) a b, In b (put_agent l a) -> b = a \/ In b l.
Proof.
  intros l a b H. unfold put_agent in H. destruct (existsb _ l).
  - apply in_map_iff in H. destruct H as (c & E & Hc). destruct (String.eqb _ _); subst; auto.
  - apply in_app_or in H. destruct H as [H|[->|[]]]; auto.
Qed.
Lemma put_in_named : forall (l : list (attached A)) a b, In b (put_agent l a) -> at_name b = at_name a -> b = a.
Proof.
  intros l a b H N. unfold put_agent in H. destruct (existsb _ l) eqn:X.
  - apply in_map_iff in H. destruct H as (c & E & Hc). destruct (String.eqb_spec (at_name c) (at_name a)); congruence.
  - apply in_app_or in H. destruct H as [H|[->|[]]]; [|reflexivity]. exfalso. assert (Y : existsb (fun c => String.eqb (at_name c) (at_name a)) l = true); [|congruence].
    apply existsb_exists. exists b. split; [exact H|]. now apply String.eqb_eq.
Qed.

(** * Facts about one agent that calls keep *)
Section Ops.
Context (pl : plugins A) (nm : string) (K : attached A -> Prop).
(** [K] is about the plan and the policy only, and survives recomputing the policy. *)
Context (K_same : forall a b, at_name b = at_name a -> at_fit b = at_fit a -> at_pi b = at_pi a -> at_pi_p b = at_pi_p a -> K a -> K b).
Context (K_policy : forall a s a' r, at_name a = nm -> K a -> get_policy pl a s = (a', r) -> K a').

Definition knows e : Prop :=
  existsb (String.eqb nm) (e_names e) = true /\ (exists a, find_agent (e_agents e) nm = Some a) /\ forall a, In a (e_agents e) -> at_name a = nm -> K a.

Lemma knows_lookup : forall e, knows e -> exists a, lookup e nm = Ok a /\ at_name a = nm /\ K a.
Proof.
  intros e (E & (a & F) & P). exists a. unfold lookup. rewrite E, F. apply find_in in F. destruct F as [F1 F2]. auto.
Qed.
(** Replacing an agent. *)
Lemma knows_with : forall e m a, knows e -> (at_name a = nm -> K a) -> knows (with_agent (with_mdp e m) a).
Proof.
  intros e m a (E & (b & F) & P) H. split; [exact E|]. cbn [with_agent with_mdp e_agents]. split.
  - destruct (string_dec (at_name a) nm) as [N|N].
    + exists a. rewrite <- N. apply find_put_same. rewrite N, F. discriminate.
    + exists b. now rewrite find_put_other.
  - intros c Hc N. apply put_in_either in Hc. destruct Hc as [->|Hc]; auto.
Qed.
Lemma with_mdp_id : forall e, with_mdp e (e_mdp e) = e. Proof. now intros []. Qed.
Lemma knows_with0 : forall e a, knows e -> (at_name a = nm -> K a) -> knows (with_agent e a).
Proof. intros e a R H. rewrite <- (with_mdp_id e). now apply knows_with. Qed.

Lemma move_keeps : forall m a z m' a' r, K a -> move_agent m a z = (m', a', r) -> K a'.
Proof.
  intros m a z m' a' r P H. unfold move_agent in H. destruct (_ <=? _)%Z; [now injection H as <- <- <-|].
  destruct (update_agent_feature _ _ _) as [m1 [?|?]]; injection H as <- <- <-; [now apply (K_same a)|exact P].
Qed.
Lemma step_keeps : forall m a s m' a' r, at_name a = nm -> K a -> agent_step pl m a s = (m', a', r) -> K a'.
Proof.
  intros m a s m' a' r N P H. unfold agent_step in H. destruct (at_fit a); [|now injection H as <- <- <-].
  destruct (get_policy pl a s) as [a1 [[]|x]] eqn:GP; pose proof (K_policy _ _ _ _ N P GP) as P1; [|now injection H as <- <- <-].
  destruct (at_pi a1); [|now injection H as <- <- <-].
  destruct (let* i := py_index _ _ in _); [|now injection H as <- <- <-].
  destruct (_ <? _)%Z; [now injection H as <- <- <-|]. destruct (get_next_state _ _ _); [|now injection H as <- <- <-].
  destruct (move_agent m a1 _) as [[m2 ag2] [?|?]] eqn:MV; apply (move_keeps _ _ _ _ _ _ P1) in MV; [|now injection H as <- <- <-].
  destruct (update_agent_feature _ _ _) as [m3 [?|?]]; injection H as <- <- <-; now apply (K_same ag2).
Qed.
Lemma consume_keeps : forall e a, knows e -> (at_name a = nm -> K a) -> knows (fst (env_consume e a)).
Proof.
  intros e a R H. unfold env_consume. destruct (at_consumes a); [exact R|]. destruct (consume_features _ _ _) as [m' [c|x]]; [|exact R].
  destruct (_ =? _); [|exact R]. cbn [fst]. apply knows_with; [exact R|]. intros N. apply (K_same a); auto.
Qed.
Lemma look_keeps : forall e nm' a, knows e -> lookup e nm' = Ok a -> at_name a = nm' /\ (nm' = nm -> K a).
Proof.
  intros e nm' a H E. split; [now apply lookup_in in E|]. intros ->. destruct (knows_lookup _ H) as (b & Eb & _ & P). rewrite E in Eb. now injection Eb as <-.
Qed.
Lemma env_step_keeps : forall e nm' s, knows e -> knows (fst (env_step pl e nm' s)).
Proof.
  intros e nm' s H. unfold env_step. destruct (lookup e nm') as [a|] eqn:L; [|exact H]. destruct (look_keeps _ _ _ H L) as [N P].
  destruct (agent_step pl (e_mdp e) a s) as [[m1 a1] r] eqn:E. pose proof (step_name _ _ _ _ _ _ _ E) as N1.
  assert (P1 : at_name a1 = nm -> K a1).
  { intros X. assert (Y : at_name a = nm) by congruence. eapply step_keeps; [exact Y|apply P; congruence|exact E]. }
  assert (R1 := knows_with _ m1 a1 H P1). destruct r as [[]|x]; [|exact R1].
  assert (R2 := consume_keeps _ _ R1 P1). now destruct (env_consume _ _) as [e2 [?|?]].
Qed.
Lemma fit_keeps : forall e nm' n s s', nm' <> nm -> knows e -> knows (fst (env_fit pl e nm' n s s')).
Proof.
  intros e nm' n s s' NE H. unfold env_fit. destruct (lookup e nm') as [a|] eqn:L; [|exact H]. destruct (look_keeps _ _ _ H L) as [N _].
  destruct (alg_fit pl e a n s) as [f|x].
  - destruct (get_policy pl (set_fit a (Some f)) s') as [a' r] eqn:GP. apply policy_name in GP. cbn [fst]. apply knows_with0; [exact H|]. intros X. cbn in GP. congruence.
  - cbn [fst]. unfold failed_fit. destruct (_ && _); [|exact H]. apply knows_with0; [exact H|]. cbn. intros X. congruence.
Qed.
Lemma loop_keeps : forall e nm' rf st t l l' rnd todo i acc, nm' <> nm \/ rf = false -> knows e -> knows (fst (multi_loop pl e nm' rf st t l l' rnd i todo acc)).
Proof.
  intros e nm' rf st t l l' rnd todo. revert e. induction todo as [|todo IH]; intros e i acc C H; [exact H|]. cbn [multi_loop].
  assert (X : knows (fst (refit_step pl e nm' rf i t l l' (rnd (3 * i)) (rnd (3 * i + 1))))).
  { unfold refit_step. destruct rf; [|exact H]. destruct (step_plan _ _ _ _); [|exact H]. apply fit_keeps; [|exact H]. destruct C; [assumption|discriminate]. }
  destruct (refit_step _ _ _ _ _ _ _ _ _ _) as [e1 [[]|x]]; [|exact X]. cbn [fst] in X.
  pose proof (env_step_keeps e1 nm' (rnd (3 * i + 2)) X) as Y. destruct (env_step pl e1 nm' (rnd (3 * i + 2))) as [e2 [z|x]]; [|exact Y]. cbn [fst] in Y.
  destruct (_ && st); [exact Y|]. now apply IH.
Qed.
(** Every call keeps [K] unless it fits the agent or resets the environment. *)
Lemma op_keeps : forall e o, leaves_plan nm o -> knows e -> knows (do_op pl e o).
Proof.
  intros e o L H. destruct o as [n1 k s s'|n1 s|n1 k pn t rf st rnd|n1 po s|names0 k|n1 z|w|]; cbn [do_op leaves_plan] in *.
  - now apply fit_keeps.
  - now apply env_step_keeps.
  - unfold step_multi. destruct (lookup e n1); [|exact H]. destruct (all_n_steps e n1) as [l|]; [|exact H]. destruct (negb _); [exact H|].
    assert (X : forall n, knows (fst (multi_loop pl e n1 rf st t l (match pn with Some p0 => p0 | None => l end) rnd 0 (Z.to_nat n) []))) by (intros; now apply loop_keeps).
    destruct k as [|n|[|n r]|]; [| |exact H| |]; destruct (negb _); try exact H; first [exact (X _)|exact H].
  - unfold env_step_proba. destruct (lookup e n1) as [a|] eqn:L1; [|exact H]. destruct (look_keeps _ _ _ H L1) as [N P].
    destruct (agent_step_proba pl (e_mdp e) a po s) as [a' r] eqn:E.
    assert (P1 : at_name a' = nm -> K a').
    { unfold agent_step_proba in E. intros X. destruct (match po with Some p0 => _ | None => _ end); [|injection E as <- <-; apply P; congruence].
      destruct (negb _); [injection E as <- <-; apply P; congruence|]. destruct (at_fit a); [|injection E as <- <-; apply P; congruence].
      destruct (get_policy pl a s) as [a1 r1] eqn:GP. pose proof (policy_name _ _ _ _ _ GP) as N1.
      assert (EA : a' = a1) by (destruct r1 as [[]|x]; [destruct (at_pi_p a1)|]; now injection E as <- <-). subst a'.
      eapply K_policy; [|apply P|exact GP]; congruence. }
    destruct r; exact (knows_with0 _ _ H P1).
  - unfold step_multi_interactive. destruct k as [[|r0 rows]|]; [exact H| |exact H]. destruct (mapM _ _); [|exact H]. now destruct (_ || _).
  - unfold set_agent_position. destruct (lookup e n1) as [a|] eqn:L1; [|exact H]. destruct (look_keeps _ _ _ H L1) as [N P].
    destruct (move_agent (e_mdp e) a z) as [[m' a'] r] eqn:MV. cbn [fst]. apply knows_with; [exact H|]. intros X. pose proof (move_name _ _ _ _ _ _ MV).
    eapply move_keeps; [|exact MV]. apply P. congruence.
  - destruct (set_walls _ _); exact H.
  - destruct L.
Qed.
Lemma run_keeps : forall l e, Forall (leaves_plan nm) l -> knows e -> knows (run pl e l).
Proof. induction l as [|o l IH]; intros e F H; [exact H|]. inversion_clear F. cbn [run fold_left]. apply IH; [assumption|]. now apply op_keeps. Qed.
(** [reset] keeps [K] if [K] is not about the policy. *)
Lemma reset_keeps : (forall a, K a -> K (set_policy a None None)) -> forall e, knows e -> knows (fst (env_reset e)).
Proof.
  intros KP e H. unfold env_reset.
  assert (X : forall l e, (forall a, In a l -> at_name a = nm -> K a) -> knows e -> knows (fst (reset_agents e l))).
  { clear e H. induction l as [|a l IH]; intros e Hl H; [exact H|]. cbn [reset_agents]. destruct (move_agent (e_mdp e) a (at_start a)) as [[m' a'] [?|?]] eqn:MV; [|exact H].
    apply IH; [intros; apply Hl; [now right|assumption]|]. apply knows_with; [exact H|]. intros N. cbn in N. apply (K_same (set_policy a' None None)); auto. apply KP.
    eapply move_keeps; [|exact MV]. apply Hl; [now left|]. apply move_name in MV. congruence. }
  destruct H as (H1 & H2 & H3). specialize (X (e_agents e) e H3 (conj H1 (conj H2 H3))). destruct (reset_agents e (e_agents e)) as [e1 [?|?]]; [|exact X].
  cbn [fst] in X. destruct (reset_mdp (e_mdp e1)); exact X.
Qed.
End Ops.

(** The agent has the values [q], the probabilities [p] and some policy drawn from [q]. *)
Definition planned pl nm (q : list (list (fval A))) p a : Prop :=
  (exists v, at_fit a = Some (v, q)) /\ at_pi_p a = Some p /\ exists pi seed, at_pi a = Some pi /\ get_pi (pl_pi pl nm seed) q = Ok pi.
Lemma planned_same : forall pl nm q p a b, at_name b = at_name a -> at_fit b = at_fit a -> at_pi b = at_pi a -> at_pi_p b = at_pi_p a -> planned pl nm q p a -> planned pl nm q p b.
Proof. unfold planned. intros pl nm q p a b _ -> -> ->. auto. Qed.
Lemma planned_policy : forall pl nm q p, get_pi_p (pl_pi_p pl nm) q = Ok p ->
  forall a s a' r, at_name a = nm -> planned pl nm q p a -> get_policy pl a s = (a', r) -> planned pl nm q p a'.
Proof.
  intros pl nm q p EP a s a' r N ((v & EF) & PP & pi & s0 & PI & G) H. unfold get_policy in H. rewrite EF, N, EP in H.
  destruct (get_pi (pl_pi pl nm s) q) as [pi'|x] eqn:E; injection H as <- <-; (split; [now exists v|]; split; [reflexivity|]); [exists pi', s|exists pi, s0]; auto.
Qed.
(** A successful fit establishes it. *)
Lemma fit_planned : forall pl e nm n s s' e1, env_fit pl e nm n s s' = (e1, Ok tt) ->
  exists v q p, pl_fit pl nm e n s = Ok (v, q) /\ length q = m_n_states (e_mdp e) /\ (forall row, In row q -> length row = m_n_actions (e_mdp e)) /\
    get_pi_p (pl_pi_p pl nm) q = Ok p /\ knows nm (planned pl nm q p) e1.
Proof.
  intros pl e nm n s s' e1 H. unfold env_fit in H. destruct (lookup e nm) as [a|] eqn:L; [|discriminate]. pose proof (lookup_in _ _ _ L) as [_ N].
  destruct (alg_fit pl e a n s) as [[v q]|x] eqn:AF; [|discriminate]. unfold alg_fit in AF. rewrite N in AF.
  destruct (negb _) in AF; [discriminate|]. apply bind_ok in AF. destruct AF as ([v' q'] & EF & AF).
  destruct (negb _) in AF; [discriminate|]. destruct (negb (length q' =? _)) eqn:LQ in AF; [discriminate|]. destruct (negb (forallb _ _)) eqn:FA in AF; [discriminate|].
  injection AF as -> ->. apply negb_false_iff in LQ, FA. apply Nat.eqb_eq in LQ. rewrite forallb_forall in FA.
  unfold get_policy in H. cbn [at_fit set_fit] in H. change (at_name (set_fit a (Some (v, q)))) with (at_name a) in H. rewrite N in H.
  destruct (get_pi_p (pl_pi_p pl nm) q) as [p|x] eqn:EP; [|discriminate]. destruct (get_pi (pl_pi pl nm s') q) as [pi|x] eqn:EI; [|discriminate].
  injection H as <-. exists v, q, p. split; [exact EF|]. split; [exact LQ|]. split; [intros row Hr; apply Nat.eqb_eq; now apply FA|]. split; [exact EP|].
  unfold lookup in L. destruct (existsb (String.eqb nm) (e_names e)) eqn:X; [|discriminate]. destruct (find_agent (e_agents e) nm) eqn:F; [|discriminate].
  assert (NB : at_name (set_policy (set_fit a (Some (v, q))) (Some pi) (Some p)) = nm) by exact N.
  split; [exact X|]. cbn [with_agent e_agents]. split.
  - pose proof (find_put_same (e_agents e) _ : find_agent (e_agents e) (at_name (set_policy (set_fit a (Some (v, q))) (Some pi) (Some p))) <> None -> _) as FP.
    rewrite NB, F in FP. eexists. apply FP. discriminate.
  - intros b Hb Nb. apply put_in_named in Hb; [|exact (eq_trans Nb (eq_sym NB))]. subst b. split; [now exists v|]. split; [reflexivity|]. exists pi, s'. auto.
Qed.

(** The agent has not been fitted. *)
Lemma unfitted_policy : forall pl nm a s a' r, at_name a = nm -> at_fit a = None -> get_policy pl a s = (a', r) -> at_fit a' = None.
Proof. intros pl nm a s a' r _ E H. unfold get_policy in H. rewrite E in H. now injection H as <- <-. Qed.

(** Everything a step that succeeds says about plan and policy. *)
Lemma step_success : forall pl e nm seed e' p, env_step pl e nm seed = (e', Ok p) ->
  exists a v q pi pp i s a', lookup e nm = Ok a /\ at_fit a = Some (v, q) /\ get_pi_p (pl_pi_p pl nm) q = Ok pp /\ get_pi (pl_pi pl nm seed) q = Ok pi /\
    py_index (length pi) (at_pos a) = Ok i /\ (0 <= nth i pi 0)%Z /\ get_next_state (e_mdp e) (at_pos a) (nth i pi 0%Z) = Ok s /\ p = Z.of_nat s /\
    lookup e' nm = Ok a' /\ at_fit a' = Some (v, q) /\ at_pi a' = Some pi /\ at_pi_p a' = Some pp.
Proof.
  intros pl e nm seed e' p H. unfold env_step in H. destruct (lookup e nm) as [a|] eqn:L; [|discriminate]. pose proof (lookup_in _ _ _ L) as [_ N].
  destruct (agent_step pl (e_mdp e) a seed) as [[m1 a1] r] eqn:ES. destruct r as [[]|x]; [|discriminate].
  unfold agent_step in ES. destruct (at_fit a) as [[v q]|] eqn:FT; [|discriminate]. unfold get_policy in ES. rewrite FT, N in ES.
  destruct (get_pi_p (pl_pi_p pl nm) q) as [pp|x] eqn:EP; [|discriminate]. destruct (get_pi (pl_pi pl nm seed) q) as [pi|x] eqn:EI; [|discriminate].
  cbn [set_policy at_pi at_pos] in ES. destruct (py_index (length pi) (at_pos a)) as [i|x] eqn:PI; [|discriminate]. cbn [bind] in ES.
  destruct (Z.ltb_spec (nth i pi 0%Z) 0); [discriminate|]. destruct (get_next_state (e_mdp e) (at_pos a) (nth i pi 0%Z)) as [s|x] eqn:NS; [|discriminate].
  set (b := set_policy a (Some pi) (Some pp)) in *.
  destruct (move_agent (e_mdp e) b (Z.of_nat s)) as [[m2 b2] [?|x]] eqn:MV; [|discriminate].
  destruct (update_agent_feature _ _ _) as [m3 [?|x]]; [|discriminate]. injection ES as <- <-.
  assert (B2 : b2 = set_pos_only b (Z.of_nat s)). { unfold move_agent in MV. destruct (_ <=? _)%Z; [discriminate|]. destruct (update_agent_feature _ _ _) as [? [?|?]]; [|discriminate]. now injection MV as _ <-. }
  set (K := fun c : attached A => at_fit c = Some (v, q) /\ at_pi c = Some pi /\ at_pi_p c = Some pp).
  set (a3 := set_hist b2 (at_hist b2 ++ [at_pos b2])) in *. assert (K3 : K a3) by (unfold a3, K; rewrite B2; cbn; auto).
  assert (N3 : at_name a3 = nm) by (unfold a3; rewrite B2; exact N).
  assert (KN : knows nm K (with_agent (with_mdp e m3) a3)).
  { unfold lookup in L. destruct (existsb (String.eqb nm) (e_names e)) eqn:X; [|discriminate]. destruct (find_agent (e_agents e) nm) eqn:F; [|discriminate].
    split; [exact X|]. cbn [with_agent with_mdp e_agents]. split.
    - exists a3. pose proof (find_put_same (e_agents e) a3) as FP. rewrite N3, F in FP. apply FP. discriminate.
    - intros c Hc Nc. apply put_in_named in Hc; [|congruence]. now subst c. }
  assert (K_same : forall a b, at_name b = at_name a -> at_fit b = at_fit a -> at_pi b = at_pi a -> at_pi_p b = at_pi_p a -> K a -> K b) by (unfold K; intros ? ? _ -> -> ->; auto).
  pose proof (consume_keeps nm K K_same _ a3 KN (fun _ => K3)) as KC. destruct (env_consume _ a3) as [e2 [?|x]]; [|discriminate]. injection H as <- <-. cbn [fst] in KC.
  destruct (knows_lookup nm K _ KC) as (a' & L' & _ & H1 & H2 & H3).
  exists a, v, q, pi, pp, i, s, a'. do 7 (split; [assumption || reflexivity|]). split; [unfold a3; rewrite B2; reflexivity|]. auto.
Qed.
End Query.
