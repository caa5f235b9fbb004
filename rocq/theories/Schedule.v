(** The order in which different agents take steps: C157. *)
From Coq Require Import String List ZArith QArith Reals Bool Lia Lra.
From Verif Require Import PyBase PyProofs GridModel GridSpec MDPModel MDPSpec MDPProofs MDPProofs2 MDPProofs3 MDPProofs4 MDPProps ActionModel EnvModel PlanProps EnvSpec StepSpec EnvProofs EnvProofs2 EnvProofs3 EnvProofs4 EnvProofs5 EnvProps StepProps QueryModel QueryProofs.
Import ListNotations.
Local Close Scope Q_scope.
Local Open Scope nat_scope.

(** ** Specification *)
(** A schedule: which agent takes each step, with the state of the random number generator for it. *)
Definition schedule := list (string * nat).
Definition steps (l : schedule) : list (op R) := map (fun x => OStep (fst x) (snd x)) l.
(** The steps of one agent. *)
Definition steps_of (nm : string) (l : schedule) : schedule := filter (fun x => String.eqb (fst x) nm) l.
(** What the calls for agent [nm] return or raise, in order. *)
Fixpoint told (pl : plugins R) (e : env R) (l : schedule) (nm : string) : list (res Z) :=
  match l with
  | [] => []
  | (n, seed) :: r => let '(e', v) := env_step pl e n seed in (if String.eqb n nm then [v] else []) ++ told pl e' r nm
  end.
Definition nobody_eats (e : env R) : Prop := forall a, In a (e_agents e) -> at_consumes a = [].

(** ** One step *)
(** What becomes of the agent and which state it goes to; the features play no part. *)
Definition core (pl : plugins R) (m : mdp R) (a : attached R) (seed : nat) : attached R * res nat :=
  match at_fit a with
  | None => (a, Err AttributeError)
  | Some _ =>
    match get_policy pl a seed with
    | (a1, Err x) => (a1, Err x)
    | (a1, Ok _) =>
      match at_pi a1 with
      | None => (a1, Err TypeError)
      | Some pi =>
        match (let* i := py_index (length pi) (at_pos a1) in Ok (nth i pi 0%Z)) with
        | Err x => (a1, Err x)
        | Ok act =>
          if (act <? 0)%Z then (a1, Err ValueError)
          else match get_next_state m (at_pos a1) act with
          | Err x => (a1, Err x)
          | Ok s => (set_hist (set_pos_only a1 (Z.of_nat s)) (at_hist a1 ++ [Z.of_nat s]), Ok s)
          end
        end
      end
    end
  end.
Lemma core_row : forall pl m i v a seed, core pl (row_set m i v) a seed = core pl m a seed.
Proof. reflexivity. Qed.
Lemma core_ident : forall pl m a seed a' r, core pl m a seed = (a', r) -> ident a' = ident a.
Proof.
  intros pl m a seed a' r E. unfold core in E. destruct (at_fit a); [|congruence]. destruct (get_policy pl a seed) as [a1 r1] eqn:GP. destruct (get_policy_spec _ _ _ _ _ GP) as (H1 & _).
  assert (X : forall s, ident (set_hist (set_pos_only a1 (Z.of_nat s)) (at_hist a1 ++ [Z.of_nat s])) = ident a1) by reflexivity.
  destruct r1; [|congruence]. destruct (at_pi a1); [|congruence]. destruct (py_index (length l) (at_pos a1)); cbn [bind] in E; [|congruence]. destruct (nth a2 l 0 <? 0)%Z; [congruence|]. destruct (get_next_state m (at_pos a1) (nth a2 l 0%Z)) as [s|]; [|congruence].
  apply pair_equal_spec in E. destruct E as [<- _]. rewrite X. exact H1.
Qed.
Lemma with_same : forall e : env R, with_mdp e (e_mdp e) = e. Proof. now intros []. Qed.
(** The step of an agent that consumes nothing. *)
Definition after (e : env R) (a : attached R) (c : attached R * res nat) : env R * res Z :=
  match c with
  | (a', Err x) => (with_agent e a', Err x)
  | (a', Ok s) => (tick (with_agent (with_mdp e (row_set (e_mdp e) (at_idx a) (onehot (e_mdp e) s))) a'), Ok (Z.of_nat s))
  end.
Lemma step_after : forall pl k shape st e a seed, wf k shape st e -> In a (e_agents e) -> at_consumes a = [] -> env_step pl e (at_name a) seed = after e a (core pl (e_mdp e) a seed).
Proof.
  intros pl k shape st e a seed W Ha NC. unfold env_step. rewrite (lookup_in _ _ _ e a W Ha).
  assert (AS : agent_step pl (e_mdp e) a seed = match core pl (e_mdp e) a seed with (a', Err x) => (e_mdp e, a', Err x) | (a', Ok s) => (row_set (e_mdp e) (at_idx a) (onehot (e_mdp e) s), a', Ok tt) end).
  { unfold agent_step, core. destruct (at_fit a); [|reflexivity]. destruct (get_policy pl a seed) as [a1 r1] eqn:GP. destruct (get_policy_spec _ _ _ _ _ GP) as (H1 & H2 & _). destruct (ident_name _ _ H1) as (N1 & N2 & _).
    destruct r1; [|reflexivity]. destruct (at_pi a1) as [pi|]; [|reflexivity]. destruct (py_index (length pi) (at_pos a1)) as [i|]; cbn [bind]; [|reflexivity]. destruct (nth i pi 0 <? 0)%Z; [reflexivity|]. destruct (get_next_state (e_mdp e) (at_pos a1) (nth i pi 0%Z)) as [s|] eqn:NS; [|reflexivity].
    assert (Hs : s < m_n_states (e_mdp e)) by (eapply next_state_lt; [apply (wf_grid _ _ _ _ W)|exact NS]). assert (Hidx : at_idx a1 < m_n_agents (e_mdp e)) by (rewrite N2; apply (wf_agents _ _ _ _ W a Ha)). pose proof (wf_table _ _ _ _ W) as T. pose proof (wf_nf _ _ _ _ W) as NF.
    destruct (move_agent_spec (e_mdp e) a1 (Z.of_nat s) T NF Hidx) as [(s' & S1 & S2 & EM)|[[H _]|[H _]]]; [|lia|lia]. unfold stands_on in S1. rewrite py_index_nat in S1 by exact Hs. injection S1 as <-. rewrite EM. cbn [at_hist at_pos set_pos_only at_idx set_hist].
    rewrite update_agent_spec; [|apply table_row_set; [exact T|apply onehot_len]|exact NF|exact Hidx]. cbn [m_n_states row_set with_features]. rewrite py_index_nat by exact Hs. unfold row_set, onehot. cbn [m_features m_n_non_agent with_features m_n_states]. rewrite upd_upd. now rewrite N2. }
  rewrite AS. destruct (core pl (e_mdp e) a seed) as [a' [s|x]] eqn:EC; cbn [after].
  - assert (IA : ident a' = ident a) by (eapply core_ident; exact EC). assert (NC' : at_consumes a' = []) by (destruct (ident_name _ _ IA) as (_ & _ & _ & _ & _ & _ & _); unfold ident in IA; congruence).
    unfold env_consume. rewrite NC'. f_equal. f_equal. unfold core in EC. destruct (at_fit a); [|congruence]. destruct (get_policy pl a seed) as [a1 []]; [|congruence]. destruct (at_pi a1); [|congruence]. destruct (py_index (length l) (at_pos a1)); cbn [bind] in EC; [|congruence]. destruct (nth a2 l 0 <? 0)%Z; [congruence|]. destruct (get_next_state (e_mdp e) (at_pos a1) (nth a2 l 0%Z)); [|congruence].
    apply pair_equal_spec in EC. destruct EC as [<- E2]. injection E2 as <-. reflexivity.
  - now rewrite with_same.
Qed.

(** ** Two steps *)
Lemma put_swap : forall (l : list (attached R)) a b a' b', In a l -> In b l -> at_name a' = at_name a -> at_name b' = at_name b -> at_name a <> at_name b -> put_agent (put_agent l a') b' = put_agent (put_agent l b') a'.
Proof.
  intros l a b a' b' Ha Hb EA EB N.
  assert (Hb1 : In b (put_agent l a')) by (apply (in_put l a a' Ha EA); right; split; [exact Hb|congruence]). assert (Ha1 : In a (put_agent l b')) by (apply (in_put l b b' Hb EB); right; split; [exact Ha|congruence]).
  rewrite (put_in _ b b' Hb1 EB), (put_in _ a a' Ha1 EA), (put_in _ a a' Ha EA), (put_in _ b b' Hb EB), !map_map. apply map_ext. intros c.
  destruct (String.eqb_spec (at_name c) (at_name a')) as [E|E]; destruct (String.eqb_spec (at_name c) (at_name b')) as [E'|E'].
  - congruence.
  - destruct (String.eqb_spec (at_name a') (at_name b')); [congruence|]. destruct (String.eqb_spec (at_name c) (at_name a')); congruence.
  - destruct (String.eqb_spec (at_name b') (at_name a')); [congruence|]. destruct (String.eqb_spec (at_name c) (at_name b')); congruence.
  - destruct (String.eqb_spec (at_name c) (at_name b')); [congruence|]. destruct (String.eqb_spec (at_name c) (at_name a')); congruence.
Qed.
Lemma upd_swap : forall X (l : list X) i j x y, i <> j -> upd (upd l i x) j y = upd (upd l j y) i x.
Proof.
  intros X l. induction l as [|z l IH]; intros [|i] [|j] x y N; try reflexivity; try lia. cbn [upd]. f_equal. apply IH. lia.
Qed.
Definition well (e : env R) : Prop := (exists k shape st, wf k shape st e) /\ nobody_eats e.
Lemma eats_step : forall pl e nm seed, well e -> well (fst (env_step pl e nm seed)).
Proof.
  intros pl e nm seed ((k & shape & st & W) & NE). pose proof (do_op_wf pl k shape st e (OStep nm seed) W) as W1. cbn [do_op] in W1. split; [eauto|].
  pose proof (run_static pl k shape st [OStep nm seed] e W) as (_ & S2 & _). change (run pl e [OStep nm seed]) with (fst (env_step pl e nm seed)) in S2. intros a Ha. apply (in_map ident) in Ha. rewrite S2 in Ha. apply in_map_iff in Ha. destruct Ha as (b & Eb & Hb). specialize (NE b Hb). unfold ident in Eb. congruence.
Qed.
(** The second of two steps of different agents finds its agent as it was. *)
Lemma after_wf : forall pl e a seed, well e -> In a (e_agents e) -> well (fst (after e a (core pl (e_mdp e) a seed))).
Proof. intros pl e a seed WE Ha. pose proof WE as ((k & shape & st & W) & NE). rewrite <- (step_after pl k shape st e a seed W Ha (NE a Ha)). now apply eats_step. Qed.
Lemma after_in : forall e a b c, In a (e_agents e) -> In b (e_agents e) -> at_name a <> at_name b -> at_name (fst c) = at_name a -> In b (e_agents (fst (after e a c))).
Proof.
  intros e a b [a' [s|x]] Ha Hb N E; cbn [after fst e_agents tick with_agent with_mdp] in *; apply (in_put _ a a' Ha E); right; (split; [exact Hb|congruence]).
Qed.
Lemma core_after : forall pl e a c b seed, core pl (e_mdp (fst (after e a c))) b seed = core pl (e_mdp e) b seed.
Proof. intros pl e a [a' [s|x]] b seed; reflexivity. Qed.
Lemma swap_known : forall pl e a b s1 s2, well e -> In a (e_agents e) -> In b (e_agents e) -> at_name a <> at_name b ->
  let x := env_step pl e (at_name a) s1 in let y := env_step pl (fst x) (at_name b) s2 in
  let y' := env_step pl e (at_name b) s2 in let x' := env_step pl (fst y') (at_name a) s1 in
  fst y = fst x' /\ snd x = snd x' /\ snd y = snd y'.
Proof.
  intros pl e a b s1 s2 WE Ha Hb N x y y' x'. pose proof WE as ((k & shape & st & W) & NE).
  assert (IX : a <> b) by congruence. assert (ID : at_idx a <> at_idx b).
  { intros E. apply IX. pose proof (wf_idx _ _ _ _ W) as ND. destruct (In_nth _ _ a Ha) as (i & Hi & Ei). destruct (In_nth _ _ a Hb) as (j & Hj & Ej). assert (i = j); [|congruence].
    apply (proj1 (NoDup_nth (map at_idx (e_agents e)) 0) ND); rewrite ?map_length; auto. rewrite !(nth_map_lt _ _ _ _ _ _ a) by assumption. congruence. }
  assert (EX : x = after e a (core pl (e_mdp e) a s1)) by (eapply step_after; [exact W|exact Ha|now apply NE]). assert (EY' : y' = after e b (core pl (e_mdp e) b s2)) by (eapply step_after; [exact W|exact Hb|now apply NE]).
  destruct (core pl (e_mdp e) a s1) as [a' ra] eqn:CA. destruct (core pl (e_mdp e) b s2) as [b' rb] eqn:CB. pose proof (core_ident _ _ _ _ _ _ CA) as IA. pose proof (core_ident _ _ _ _ _ _ CB) as IB. pose proof (proj1 (ident_name _ _ IA)) as NA. pose proof (proj1 (ident_name _ _ IB)) as NB.
  pose proof (after_wf pl e a s1 WE Ha) as W1. pose proof (after_wf pl e b s2 WE Hb) as W2. rewrite CA in W1. rewrite CB in W2.
  assert (I1 : In b (e_agents (fst x))) by (rewrite EX; apply after_in; auto). assert (I2 : In a (e_agents (fst y'))) by (rewrite EY'; apply after_in; auto).
  assert (EY : y = after (fst x) b (b', rb)).
  { destruct W1 as ((k1 & sh1 & st1 & W1) & NE1). unfold y. rewrite EX in *. rewrite (step_after pl k1 sh1 st1 _ b s2 W1 I1 (NE1 b I1)), core_after, CB. reflexivity. }
  assert (EX' : x' = after (fst y') a (a', ra)).
  { destruct W2 as ((k1 & sh1 & st1 & W2) & NE1). unfold x'. rewrite EY' in *. rewrite (step_after pl k1 sh1 st1 _ a s1 W2 I2 (NE1 a I2)), core_after, CA. reflexivity. }
  rewrite EY, EX', EX, EY'. pose proof (put_swap (e_agents e) a b a' b' Ha Hb NA NB N) as PS.
  destruct ra as [s|xa], rb as [t|xb]; cbn [after fst snd e_mdp e_agents e_names e_n_agents e_n_steps with_agent with_mdp tick]; (split; [|split; reflexivity]); unfold with_agent, with_mdp, tick; cbn [e_mdp e_agents e_names e_n_agents e_n_steps]; rewrite PS; f_equal.
  unfold row_set, with_features, onehot. cbn [m_features m_n_non_agent m_n_states]. f_equal. apply upd_swap. lia.
Qed.
Lemma step_unknown : forall pl k shape st e nm seed, wf k shape st e -> ~ In nm (e_names e) -> env_step pl e nm seed = (e, Err ValueError).
Proof. intros pl k shape st e nm seed W NI. unfold env_step. destruct (lookup_spec _ _ _ e nm W) as [(a & E & Ha & EN)|[E _]]; [|now rewrite E]. elim NI. apply (wf_lookup _ _ _ _ W). rewrite <- EN. now apply in_map. Qed.
Lemma step_names : forall pl k shape st e nm seed, wf k shape st e -> e_names (fst (env_step pl e nm seed)) = e_names e.
Proof. intros pl k shape st e nm seed W. exact (proj1 (run_static pl k shape st [OStep nm seed] e W)). Qed.
(** Two steps of different agents can be exchanged: the same environment results, and each call returns or raises the same. *)
Lemma swap_well : forall pl e n1 n2 s1 s2, well e -> n1 <> n2 ->
  let x := env_step pl e n1 s1 in let y := env_step pl (fst x) n2 s2 in let y' := env_step pl e n2 s2 in let x' := env_step pl (fst y') n1 s1 in
  fst y = fst x' /\ snd x = snd x' /\ snd y = snd y'.
Proof.
  intros pl e n1 n2 s1 s2 WE N x y y' x'. pose proof WE as ((k & shape & st & W) & NE).
  destruct (in_dec string_dec n1 (e_names e)) as [I1|I1].
  2:{ assert (EX : x = (e, Err ValueError)) by (eapply step_unknown; eauto). assert (EX' : x' = (fst y', Err ValueError)).
      { destruct (eats_step pl e n2 s2 WE) as ((k1 & sh1 & st1 & W1) & _). unfold x'. eapply step_unknown; [exact W1|]. unfold y'. now rewrite (step_names pl k shape st). }
      unfold y. rewrite EX, EX'. cbn [fst snd]. fold y'. auto. }
  destruct (in_dec string_dec n2 (e_names e)) as [I2|I2].
  2:{ assert (EY' : y' = (e, Err ValueError)) by (eapply step_unknown; eauto). assert (EY : y = (fst x, Err ValueError)).
      { destruct (eats_step pl e n1 s1 WE) as ((k1 & sh1 & st1 & W1) & _). unfold y. eapply step_unknown; [exact W1|]. unfold x. now rewrite (step_names pl k shape st). }
      unfold x'. rewrite EY', EY. cbn [fst snd]. fold x. auto. }
  apply (wf_lookup _ _ _ _ W) in I1, I2. apply in_map_iff in I1, I2. destruct I1 as (a & EA & Ha). destruct I2 as (b & EB & Hb). subst n1 n2. now apply (swap_known pl e a b s1 s2).
Qed.
Theorem C157_two_steps : forall pl e n1 n2 s1 s2, reachable pl e -> nobody_eats e -> n1 <> n2 ->
  let x := env_step pl e n1 s1 in let y := env_step pl (fst x) n2 s2 in let y' := env_step pl e n2 s2 in let x' := env_step pl (fst y') n1 s1 in
  fst y = fst x' /\ snd x = snd x' /\ snd y = snd y'.
Proof. intros pl e n1 n2 s1 s2 RE NE N. destruct (reachable_wf _ _ RE) as (k & shape & st & W). apply swap_well; [split; eauto|exact N]. Qed.

(** ** Schedules *)
Definition alike (pl : plugins R) (l l' : schedule) : Prop := forall e, well e -> run pl e (steps l) = run pl e (steps l') /\ forall nm, told pl e l nm = told pl e l' nm.
Lemma alike_cons : forall pl x l l', alike pl l l' -> alike pl (x :: l) (x :: l').
Proof.
  intros pl [n s] l l' H e WE. destruct (H (fst (env_step pl e n s)) (eats_step pl e n s WE)) as [H1 H2]. split; [exact H1|]. intros nm. cbn [told]. destruct (env_step pl e n s) as [e' v]. cbn [fst] in H2. now rewrite H2.
Qed.
Lemma alike_swap : forall pl x y l, fst x <> fst y -> alike pl (x :: y :: l) (y :: x :: l).
Proof.
  intros pl [n1 s1] [n2 s2] l N e WE. cbn [fst] in N. destruct (swap_well pl e n1 n2 s1 s2 WE N) as (A & B & C). split.
  - cbn [steps map run fold_left do_op fst snd]. now rewrite A.
  - intros nm. cbn [told]. destruct (env_step pl e n1 s1) as [e1 v1]. destruct (env_step pl e n2 s2) as [e2 v2]. cbn [fst snd] in *. destruct (env_step pl e1 n2 s2) as [e12 v12]. destruct (env_step pl e2 n1 s1) as [e21 v21]. cbn [fst snd] in *. subst.
    destruct (String.eqb_spec n1 nm) as [E1|E1]; destruct (String.eqb_spec n2 nm) as [E2|E2]; try reflexivity. congruence.
Qed.
Lemma alike_trans : forall pl l1 l2 l3, alike pl l1 l2 -> alike pl l2 l3 -> alike pl l1 l3.
Proof. intros pl l1 l2 l3 H1 H2 e WE. destruct (H1 e WE) as [A B]. destruct (H2 e WE) as [C D]. split; [congruence|]. intros nm. now rewrite B. Qed.
Lemma alike_front : forall pl pre x post, Forall (fun y => fst y <> fst x) pre -> alike pl (pre ++ x :: post) (x :: pre ++ post).
Proof.
  intros pl pre x post F. induction F as [|y pre Hy F IH]; [intros e _; split; reflexivity|]. cbn [app]. eapply alike_trans; [apply alike_cons; exact IH|]. now apply alike_swap.
Qed.
Lemma steps_of_app : forall nm l l', steps_of nm (l ++ l') = steps_of nm l ++ steps_of nm l'.
Proof. intros. unfold steps_of. apply filter_app. Qed.
Lemma find_first : forall nm l x r, steps_of nm l = x :: r -> exists pre post, l = pre ++ x :: post /\ Forall (fun y => fst y <> nm) pre /\ fst x = nm.
Proof.
  intros nm l. induction l as [|y l IH]; intros x r E; [discriminate|]. cbn [steps_of filter] in E. destruct (String.eqb_spec (fst y) nm) as [EY|EY].
  - injection E as -> _. exists [], l. split; [reflexivity|]. split; [constructor|exact EY].
  - destruct (IH x r E) as (pre & post & -> & F & EX). exists (y :: pre), post. split; [reflexivity|]. split; [constructor; assumption|exact EX].
Qed.
Lemma schedules_alike : forall pl l l', (forall nm, steps_of nm l = steps_of nm l') -> alike pl l l'.
Proof.
  intros pl l. induction l as [|x l IH]; intros l' H.
  - destruct l' as [|y l']; [intros e _; split; reflexivity|]. specialize (H (fst y)). cbn [steps_of filter] in H. rewrite String.eqb_refl in H. discriminate.
  - pose proof (H (fst x)) as H0. cbn [steps_of filter] in H0. rewrite String.eqb_refl in H0. symmetry in H0. destruct (find_first _ _ _ _ H0) as (pre & post & -> & F & _).
    apply (alike_trans pl _ (x :: pre ++ post)).
    + apply alike_cons, IH. intros nm. specialize (H nm). rewrite steps_of_app in *. cbn [steps_of filter] in H. fold (steps_of nm l) in H. fold (steps_of nm post) in H. destruct (String.eqb_spec (fst x) nm) as [EX|EX]; [|exact H].
      assert (P0 : steps_of nm pre = []). { clear - F EX. subst nm. induction F as [|y pre Hy F IH]; [reflexivity|]. cbn [steps_of filter]. destruct (String.eqb_spec (fst y) (fst x)); [contradiction|exact IH]. }
      rewrite P0 in *. cbn [app] in *. congruence.
    + intros e WE. destruct (alike_front pl pre x post F e WE) as [A B]. split; [now rewrite A|]. intros nm. now rewrite B.
Qed.
(** If nobody consumes anything, it does not matter how the steps of different agents are interleaved: two schedules with the same
    steps for each agent lead to the same environment, and every call returns or raises the same. *)
Theorem C157_schedules : forall pl e l l', reachable pl e -> nobody_eats e -> (forall nm, steps_of nm l = steps_of nm l') ->
  run pl e (steps l) = run pl e (steps l') /\ forall nm, told pl e l nm = told pl e l' nm.
Proof. intros pl e l l' RE NE H. destruct (reachable_wf _ _ RE) as (k & shape & st & W). apply schedules_alike; [exact H|]. split; [eauto|exact NE]. Qed.

(** ** Concrete cases *)
(** Agents "p" and "q" on the square of four cells, consuming nothing. *)
Definition two_walkers {A} `{Num A} : list (spec A) := [mkSpec "p"%string 1 None 0 [n1; n0; n0; n0] []; mkSpec "q"%string 1 None 3 [n1; n0; n1; n0] []].
Example C157_hypotheses : forall pl, exists m m' e, usable pl m /\ make_env m two_walkers = (m', Ok e) /\ reachable pl e /\ nobody_eats e /\
  (forall nm, steps_of nm [("p", 0); ("q", 1); ("p", 2)]%string = steps_of nm [("q", 1); ("p", 0); ("p", 2)]%string).
Proof.
  intros pl. destruct (ex_usable pl) as (m & E & U & NO & NS). destruct (proj2 (C17_accepts_iff pl m two_walkers U)) as (m1 & e & E1).
  { intros s [<-|[<-|[]]]; rewrite NO, NS; repeat split; cbn; try lia; intros z []. }
  exists m, m1, e. split; [exact U|]. split; [exact E1|]. split; [eapply reach_new; eauto|]. split.
  - assert (ND : NoDup (map sp_name (two_walkers (A:=R)))) by (repeat constructor; cbn; intuition discriminate).
    destruct (C17_result pl m two_walkers m1 e U ND E1) as (_ & _ & _ & _ & RL & RA & _). intros a Ha. apply In_nth_error in Ha. destruct Ha as (i & Hi). assert (Li : i < 2) by (change 2 with (length (two_walkers (A:=R))); rewrite <- RL; apply nth_error_Some; congruence).
    destruct i as [|[|i]]; [destruct (RA 0 _ eq_refl) as (b & Hb & RB & _)|destruct (RA 1 _ eq_refl) as (b & Hb & RB & _)|lia]; assert (b = a) as -> by congruence; unfold fresh in RB; cbn in RB; intuition.
  - intros nm. unfold steps_of. cbn [filter fst]. destruct (String.eqb_spec "p" nm) as [N1|N1]; destruct (String.eqb_spec "q" nm) as [N2|N2]; try reflexivity. congruence.
Qed.
(** Who comes first matters if both consume the same feature: both stand on state 0 and move to state 1, where there is one unit of feature 1. *)
Definition two_eaters : list (spec Q) := [mkSpec "p"%string 1 None 0 [1; 0; 0; 0]%Q [1]%Z; mkSpec "q"%string 1 None 0 [1; 0; 1; 0]%Q [1]%Z].
Example C157_eaters : exists m m' e, grid_mdp (A:=Q) Square ex_ft None (2, 2) false = Ok m /\ make_env m two_eaters = (m', Ok e) /\
  let fitted := run (ex_pl [0; 2; 3; 2]%Z) e [OFit "p" None 0 0; OFit "q" None 0 0] in
  map at_consumed (e_agents (run (ex_pl [0; 2; 3; 2]%Z) fitted [OStep "p" 0; OStep "q" 0])) = [[0; 1; 0; 0]; [0; 0; 0; 0]] /\
  map at_consumed (e_agents (run (ex_pl [0; 2; 3; 2]%Z) fitted [OStep "q" 0; OStep "p" 0])) = [[0; 0; 0; 0]; [0; 1; 0; 0]].
Proof. cbv zeta. do 3 eexists. split; [vm_compute; reflexivity|]. split; [vm_compute; reflexivity|]. split; vm_compute; reflexivity. Qed.
