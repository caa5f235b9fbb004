(** The order in which agents that consume different things take steps: C195. *)
From Coq Require Import String List ZArith QArith Reals Bool Lia Lra.
From Verif Require Import PyBase PyProofs GridModel GridSpec MDPModel MDPSpec MDPProofs MDPProofs2 MDPProofs3 MDPProofs4 MDPProps ActionModel EnvModel PlanProps EnvSpec StepSpec EnvProofs EnvProofs2 EnvProofs3 EnvProofs4 EnvProofs5 EnvProps StepProps QueryModel QueryProofs Schedule.
Import ListNotations.
Local Close Scope Q_scope.
Local Open Scope nat_scope.

(** ** Specification *)
(** The rows of the feature table that concern agent [a]: the one that shows where it is, and those of the features it consumes
    (which may be given by negative numbers, counting from the end). *)
Definition concerns (e : env R) (a : attached R) (f : nat) : Prop :=
  f = at_feature_idx a \/
  exists z, In z (at_consumes a) /\ f < m_n_features (e_mdp e) /\ (z = Z.of_nat f \/ z = Z.of_nat f - Z.of_nat (m_n_features (e_mdp e)))%Z.
(** No row concerns two agents: they consume different features, and nobody consumes another agent. *)
Definition different_tastes (e : env R) : Prop :=
  forall a b f, In a (e_agents e) -> In b (e_agents e) -> concerns e a f -> concerns e b f -> at_name a = at_name b.

(** ** One step *)
Lemma agent_step_core : forall pl k shape st e a seed, wf k shape st e -> In a (e_agents e) ->
  agent_step pl (e_mdp e) a seed = match core pl (e_mdp e) a seed with (a', Err x) => (e_mdp e, a', Err x) | (a', Ok s) => (row_set (e_mdp e) (at_idx a) (onehot (e_mdp e) s), a', Ok tt) end.
Proof.
  intros pl k shape st e a seed W Ha. unfold agent_step, core. destruct (at_fit a); [|reflexivity]. destruct (get_policy pl a seed) as [a1 r1] eqn:GP. destruct (get_policy_spec _ _ _ _ _ GP) as (H1 & H2 & _). destruct (ident_name _ _ H1) as (N1 & N2 & _).
  destruct r1; [|reflexivity]. destruct (at_pi a1) as [pi|]; [|reflexivity]. destruct (py_index (length pi) (at_pos a1)) as [i|]; cbn [bind]; [|reflexivity]. destruct (nth i pi 0 <? 0)%Z; [reflexivity|]. destruct (get_next_state (e_mdp e) (at_pos a1) (nth i pi 0%Z)) as [s|] eqn:NS; [|reflexivity].
  assert (Hs : s < m_n_states (e_mdp e)) by (eapply next_state_lt; [apply (wf_grid _ _ _ _ W)|exact NS]). assert (Hidx : at_idx a1 < m_n_agents (e_mdp e)) by (rewrite N2; apply (wf_agents _ _ _ _ W a Ha)). pose proof (wf_table _ _ _ _ W) as T. pose proof (wf_nf _ _ _ _ W) as NF.
  destruct (move_agent_spec (e_mdp e) a1 (Z.of_nat s) T NF Hidx) as [(s' & S1 & S2 & EM)|[[H _]|[H _]]]; [|lia|lia]. unfold stands_on in S1. rewrite py_index_nat in S1 by exact Hs. injection S1 as <-. rewrite EM. cbn [at_hist at_pos set_pos_only at_idx set_hist].
  rewrite update_agent_spec; [|apply table_row_set; [exact T|apply onehot_len]|exact NF|exact Hidx]. cbn [m_n_states row_set with_features]. rewrite py_index_nat by exact Hs. unfold row_set, onehot. cbn [m_features m_n_non_agent with_features m_n_states]. rewrite upd_upd. now rewrite N2.
Qed.
Lemma core_moved : forall pl m a seed a' s, core pl m a seed = (a', Ok s) -> at_pos a' = Z.of_nat s.
Proof.
  intros pl m a seed a' s EC. unfold core in EC. destruct (at_fit a); [|congruence]. destruct (get_policy pl a seed) as [a1 []]; [|congruence]. destruct (at_pi a1); [|congruence]. destruct (py_index (length l) (at_pos a1)); cbn [bind] in EC; [|congruence]. destruct (nth a2 l 0 <? 0)%Z; [congruence|]. destruct (get_next_state m (at_pos a1) (nth a2 l 0%Z)); [|congruence].
  apply pair_equal_spec in EC. destruct EC as [<- E2]. injection E2 as <-. reflexivity.
Qed.
(** What becomes of the agent and of the feature table, whether the step is counted, and what is returned. *)
Definition settle (pl : plugins R) (m : mdp R) (a : attached R) (seed : nat) : attached R * list (list R) * bool * res Z :=
  match core pl m a seed with
  | (a', Err x) => (a', m_features m, false, Err x)
  | (a', Ok s) =>
    match at_consumes a with
    | [] => (a', m_features (row_set m (at_idx a) (onehot m s)), true, Ok (Z.of_nat s))
    | idx =>
      match consume_features (row_set m (at_idx a) (onehot m s)) idx (Z.of_nat s) with
      | (m', Err x) => (a', m_features m', false, Err x)
      | (m', Ok c) =>
        if length (at_consumed a') =? length c then (set_consumed a' (map (fun '(x, y) => x + y) (combine (at_consumed a') c)), m_features m', true, Ok (Z.of_nat s))
        else (a', m_features m', false, Err ValueError)
      end
    end
  end.
Definition settled (e : env R) (q : attached R * list (list R) * bool * res Z) : env R * res Z :=
  let '(a', g, t, r) := q in
  let e' := with_agent (with_mdp e (with_features (e_mdp e) g)) a' in
  (if t then tick e' else e', r).
Lemma loop_features : forall idx s (m : mdp R) c m' r, consume_loop idx s m c = (m', r) -> m' = with_features m (m_features m').
Proof.
  induction idx as [|z idx IH]; intros s m c m' r E; cbn [consume_loop] in E.
  - apply pair_equal_spec in E. destruct E as [<- _]. now destruct m.
  - destruct (py_index (length (m_features m)) z) as [fi|]; [|apply pair_equal_spec in E; destruct E as [<- _]; now destruct m]. destruct (py_index (m_n_states m) s) as [si|]; [|apply pair_equal_spec in E; destruct E as [<- _]; now destruct m].
    destruct (nltb n0 (get2 n0 (m_features m) fi si)).
    + destruct (py_index (length c) z); [|apply pair_equal_spec in E; destruct E as [<- _]; reflexivity]. specialize (IH _ _ _ _ _ E). rewrite IH. reflexivity.
    + now apply (IH _ _ _ _ _ E).
Qed.
Lemma step_settled : forall pl k shape st e a seed, wf k shape st e -> In a (e_agents e) -> env_step pl e (at_name a) seed = settled e (settle pl (e_mdp e) a seed).
Proof.
  intros pl k shape st e a seed W Ha. unfold env_step. rewrite (lookup_in _ _ _ e a W Ha), (agent_step_core pl k shape st e a seed W Ha). unfold settle.
  destruct (core pl (e_mdp e) a seed) as [a' [s|x]] eqn:EC.
  - assert (IA : ident a' = ident a) by (eapply core_ident; exact EC). assert (NC' : at_consumes a' = at_consumes a) by (unfold ident in IA; congruence). pose proof (proj1 (ident_name _ _ IA)) as NA. pose proof (core_moved _ _ _ _ _ _ EC) as PA.
    unfold env_consume. rewrite NC', PA. destruct (at_consumes a) as [|z idx].
    + reflexivity.
    + cbn [e_mdp with_agent with_mdp]. destruct (consume_features (row_set (e_mdp e) (at_idx a) (onehot (e_mdp e) s)) (z :: idx) (Z.of_nat s)) as [m' [c|x]] eqn:CF.
      * assert (EM : m' = with_features (e_mdp e) (m_features m')) by (unfold consume_features in CF; rewrite (loop_features _ _ _ _ _ _ CF) at 1; reflexivity). destruct (length (at_consumed a') =? length c); unfold settled.
        -- f_equal. unfold tick, with_agent, with_mdp. cbn [e_mdp e_names e_agents e_n_agents e_n_steps]. rewrite <- EM. f_equal. apply (put_put _ a); [exact Ha|exact NA|reflexivity].
        -- rewrite <- EM. reflexivity.
      * assert (EM : m' = with_features (e_mdp e) (m_features m')) by (unfold consume_features in CF; rewrite (loop_features _ _ _ _ _ _ CF) at 1; reflexivity). unfold settled. rewrite <- EM. reflexivity.
  - unfold settled. f_equal. destruct e as [m ? ? ? ?]. now destruct m.
Qed.

(** ** A step concerns only its agent's rows *)
Lemma with_features_self : forall m : mdp R, with_features m (m_features m) = m. Proof. now intros []. Qed.
Lemma loop_local : forall (T : nat -> Prop) idx s (m : mdp R) F' c m' r, length F' = length (m_features m) ->
  (forall z f, In z idx -> py_index (length (m_features m)) z = Ok f -> T f) -> (forall f, T f -> nth f F' [] = nth f (m_features m) []) ->
  consume_loop idx s m c = (m', r) ->
  exists G', consume_loop idx s (with_features m F') c = (with_features m G', r) /\ length G' = length F' /\
    (forall f, T f -> nth f G' [] = nth f (m_features m') []) /\ (forall f, ~ T f -> nth f G' [] = nth f F' []).
Proof.
  intros T. induction idx as [|z idx IH]; intros s m F' c m' r L HT HF E; cbn [consume_loop] in *.
  - apply pair_equal_spec in E. destruct E as [<- <-]. exists F'. auto.
  - cbn [m_features m_n_states with_features]. replace (py_index (length F') z) with (py_index (length (m_features m)) z) by now rewrite L. destruct (py_index (length (m_features m)) z) as [fi|x1] eqn:EZ.
    2:{ apply pair_equal_spec in E. destruct E as [<- <-]. exists F'. auto. }
    destruct (py_index (m_n_states m) s) as [si|x2].
    2:{ apply pair_equal_spec in E. destruct E as [<- <-]. exists F'. auto. }
    assert (Tf : T fi) by (eapply HT; [now left|exact EZ]). assert (Hfi : fi < length (m_features m)) by apply (py_index_ok _ _ _ EZ).
    unfold get2 in *. rewrite (HF fi Tf). destruct (nltb n0 (nth si (nth fi (m_features m) []) n0)) eqn:EL.
    + destruct (py_index (length c) z) as [ci|x3].
      * destruct (IH s (with_features m (set2 (m_features m) fi si n0)) (set2 F' fi si n0) (upd c ci (nth ci c 0 + 1)) m' r) with (4 := E) as (G' & G1 & G2 & G3 & G4).
        { cbn [m_features with_features]. unfold set2. now rewrite !upd_length. }
        { cbn [m_features with_features]. unfold set2. rewrite upd_length. intros z' f Hz. apply HT. now right. }
        { cbn [m_features with_features]. unfold set2. intros f Hf. destruct (Nat.eq_dec f fi) as [->|N]; [rewrite !nth_upd_same by congruence; now rewrite (HF fi Tf)|rewrite !nth_upd_other by exact N; now apply HF]. }
        exists G'. split; [exact G1|]. split; [rewrite G2; unfold set2; apply upd_length|]. split; [exact G3|]. intros f Hf. rewrite (G4 f Hf). unfold set2. apply nth_upd_other. intros ->. contradiction.
      * apply pair_equal_spec in E. destruct E as [<- <-]. exists (set2 F' fi si n0). split; [reflexivity|]. unfold set2. cbn [m_features with_features]. split; [apply upd_length|]. split.
        -- intros f Hf. destruct (Nat.eq_dec f fi) as [->|N]; [rewrite !nth_upd_same by congruence; now rewrite (HF fi Tf)|rewrite !nth_upd_other by exact N; now apply HF].
        -- intros f Hf. apply nth_upd_other. intros ->. contradiction.
    + apply (IH s m F' c m' r L); auto. intros z' f Hz. apply HT. now right.
Qed.
Lemma settle_local : forall pl (T : nat -> Prop) (m : mdp R) a seed F' a' G t r, length F' = length (m_features m) -> m_n_non_agent m + at_idx a < length (m_features m) ->
  T (m_n_non_agent m + at_idx a) -> (forall z f, In z (at_consumes a) -> py_index (length (m_features m)) z = Ok f -> T f) -> (forall f, T f -> nth f F' [] = nth f (m_features m) []) ->
  settle pl m a seed = (a', G, t, r) ->
  exists G', settle pl (with_features m F') a seed = (a', G', t, r) /\ length G' = length F' /\
    (forall f, T f -> nth f G' [] = nth f G []) /\ (forall f, ~ T f -> nth f G' [] = nth f F' []).
Proof.
  intros pl T m a seed F' a' G t r L Hi Ti HT HF E. unfold settle in *. change (core pl (with_features m F') a seed) with (core pl m a seed). destruct (core pl m a seed) as [a1 [s|x]].
  - set (o := onehot m s) in *. change (onehot (with_features m F') s) with o. unfold row_set in *. cbn [m_features with_features m_n_non_agent] in *. set (U := upd F' (m_n_non_agent m + at_idx a) o). set (V := upd (m_features m) (m_n_non_agent m + at_idx a) o) in *.
    assert (LU : length U = length V) by (unfold U, V; now rewrite !upd_length). assert (UV : forall f, T f -> nth f U [] = nth f V []).
    { intros f Hf. unfold U, V. destruct (Nat.eq_dec f (m_n_non_agent m + at_idx a)) as [->|N]; [now rewrite !nth_upd_same by congruence|rewrite !nth_upd_other by exact N; now apply HF]. }
    assert (UF : forall f, ~ T f -> nth f U [] = nth f F' []) by (intros f Hf; unfold U; apply nth_upd_other; intros ->; contradiction).
    destruct (at_consumes a) as [|z idx].
    + injection E as <- <- <- <-. exists U. split; [reflexivity|]. split; [unfold U; apply upd_length|]. auto.
    + unfold consume_features in *. cbn [m_n_features with_features] in *. change (with_features (with_features m F') U) with (with_features (with_features m V) U).
      destruct (consume_loop (z :: idx) (Z.of_nat s) (with_features m V) (repeat 0 (m_n_features m))) as [m' q] eqn:CL.
      destruct (fun H1 H2 => loop_local T _ _ (with_features m V) U _ _ _ LU H1 H2 CL) as (G' & G1 & G2 & G3 & G4).
      { cbn [m_features with_features]. unfold V. rewrite upd_length. exact HT. } { exact UV. }
      rewrite G1. assert (LG : length G' = length F') by (rewrite G2; unfold U; apply upd_length). assert (OFF : forall f, ~ T f -> nth f G' [] = nth f F' []) by (intros f Hf; rewrite (G4 f Hf); now apply UF).
      destruct q as [c|x]; [destruct (length (at_consumed a1) =? length c)|]; injection E as <- <- <- <-; exists G'; (split; [reflexivity|]); auto.
  - injection E as <- <- <- <-. exists F'. auto.
Qed.

(** ** Two steps *)
Definition tidy (e : env R) : Prop := (exists k shape st, wf k shape st e) /\ different_tastes e.
Lemma tidy_step : forall pl e nm seed, tidy e -> tidy (fst (env_step pl e nm seed)).
Proof.
  intros pl e nm seed ((k & shape & st & W) & DT). pose proof (do_op_wf pl k shape st e (OStep nm seed) W) as W1. cbn [do_op] in W1. split; [eauto|].
  pose proof (run_static pl k shape st [OStep nm seed] e W) as (S1 & S2 & S3). change (run pl e [OStep nm seed]) with (fst (env_step pl e nm seed)) in *.
  assert (B : forall a, In a (e_agents (fst (env_step pl e nm seed))) -> exists b, In b (e_agents e) /\ ident b = ident a) by (intros a Ha; apply (in_map ident) in Ha; rewrite S2 in Ha; apply in_map_iff in Ha; destruct Ha as (b & Eb & Hb); eauto).
  assert (NF : m_n_features (e_mdp (fst (env_step pl e nm seed))) = m_n_features (e_mdp e)) by (unfold mident in S3; congruence).
  assert (CC : forall a b f, ident b = ident a -> concerns (fst (env_step pl e nm seed)) a f -> concerns e b f).
  { intros a b f E C. unfold concerns in *. rewrite NF in C. unfold ident in E. replace (at_feature_idx b) with (at_feature_idx a) by congruence. replace (at_consumes b) with (at_consumes a) by congruence. exact C. }
  intros a b f Ha Hb Ca Cb. destruct (B a Ha) as (a0 & Ha0 & Ea). destruct (B b Hb) as (b0 & Hb0 & Eb). rewrite <- (proj1 (ident_name _ _ Ea)), <- (proj1 (ident_name _ _ Eb)). apply (DT a0 b0 f Ha0 Hb0); eapply CC; eassumption.
Qed.
Lemma concerns_index : forall k shape st e a z f, wf k shape st e -> In z (at_consumes a) -> py_index (length (m_features (e_mdp e))) z = Ok f -> concerns e a f.
Proof.
  intros k shape st e a z f W Hz E. right. exists z. split; [exact Hz|]. destruct (wf_table _ _ _ _ W) as [L _]. rewrite <- L in E. now apply py_index_ok.
Qed.
Lemma settle_ident : forall pl m a seed a' g t r, settle pl m a seed = (a', g, t, r) -> ident a' = ident a.
Proof.
  intros pl m a seed a' g t r E. unfold settle in E. destruct (core pl m a seed) as [a1 [s|x]] eqn:EC; pose proof (core_ident _ _ _ _ _ _ EC) as I.
  - destruct (at_consumes a); [congruence|]. destruct (consume_features (row_set m (at_idx a) (onehot m s)) (z :: l) (Z.of_nat s)) as [m' [c|x]]; [|congruence]. destruct (length (at_consumed a1) =? length c); [|congruence]. assert (a' = set_consumed a1 (map (fun '(x, y) => x + y) (combine (at_consumed a1) c))) as -> by congruence. rewrite <- I. reflexivity.
  - congruence.
Qed.
Lemma mark_row : forall k shape st e a, wf k shape st e -> In a (e_agents e) -> at_feature_idx a = m_n_non_agent (e_mdp e) + at_idx a /\ m_n_non_agent (e_mdp e) + at_idx a < length (m_features (e_mdp e)).
Proof.
  intros k shape st e a W Ha. destruct (wf_agents _ _ _ _ W a Ha) as (H1 & H2 & _). pose proof (wf_nf _ _ _ _ W). destruct (wf_table _ _ _ _ W) as [L _]. split; lia.
Qed.
(** After the step of [a], the step of [b] does what it would have done before. *)
Lemma settle_next : forall pl k shape st e a b s1 s2 a' G t r b' H u q, wf k shape st e -> different_tastes e -> In a (e_agents e) -> In b (e_agents e) -> at_name a <> at_name b ->
  settle pl (e_mdp e) a s1 = (a', G, t, r) -> settle pl (e_mdp e) b s2 = (b', H, u, q) ->
  exists H', settle pl (with_features (e_mdp e) G) b s2 = (b', H', u, q) /\ length H' = length (m_features (e_mdp e)) /\
    (forall f, concerns e b f -> nth f H' [] = nth f H []) /\ (forall f, ~ concerns e b f -> nth f H' [] = nth f G []).
Proof.
  intros pl k shape st e a b s1 s2 a' G t r b' H u q W DT Ha Hb N EA EB. destruct (mark_row _ _ _ _ _ W Ha) as [MA LA]. destruct (mark_row _ _ _ _ _ W Hb) as [MB LB].
  destruct (settle_local pl (concerns e a) (e_mdp e) a s1 (m_features (e_mdp e)) a' G t r eq_refl LA) as (G0 & G1 & G2 & G3 & G4).
  { left. now rewrite MA. } { intros z f Hz. now apply (concerns_index k shape st). } { reflexivity. } { exact EA. }
  rewrite with_features_self, EA in G1. injection G1 as <-.
  destruct (settle_local pl (concerns e b) (e_mdp e) b s2 G b' H u q G2 LB) as (H' & H1 & H2 & H3 & H4).
  { left. now rewrite MB. } { intros z f Hz. now apply (concerns_index k shape st). }
  { intros f Hf. apply G4. intros Hf'. apply N. now apply (DT a b f). } { exact EB. }
  exists H'. split; [exact H1|]. split; [congruence|]. auto.
Qed.
Lemma settled_in : forall e a b c, In a (e_agents e) -> In b (e_agents e) -> at_name a <> at_name b -> at_name (fst (fst (fst c))) = at_name a -> In b (e_agents (fst (settled e c))).
Proof.
  intros e a b [[[a' g] t] r] Ha Hb N E. cbn [fst] in E. assert (I : In b (put_agent (e_agents e) a')) by (apply (in_put _ a a' Ha E); right; split; [exact Hb|congruence]). unfold settled. destruct t; exact I.
Qed.
Lemma concerns_dec : forall e a f, {concerns e a f} + {~ concerns e a f}.
Proof.
  intros e a f. unfold concerns. destruct (Nat.eq_dec f (at_feature_idx a)) as [E|E]; [left; now left|]. destruct (lt_dec f (m_n_features (e_mdp e))) as [L|L]; [|right; intros [H|(z & _ & H & _)]; lia].
  destruct (in_dec Z.eq_dec (Z.of_nat f) (at_consumes a)) as [I|I]; [left; right; exists (Z.of_nat f); auto|]. destruct (in_dec Z.eq_dec (Z.of_nat f - Z.of_nat (m_n_features (e_mdp e)))%Z (at_consumes a)) as [J|J]; [left; right; eexists; split; [exact J|auto]|].
  right. intros [H|(z & H & _ & [->| ->])]; contradiction.
Qed.
Lemma swap_tastes_known : forall pl e a b s1 s2, tidy e -> In a (e_agents e) -> In b (e_agents e) -> at_name a <> at_name b ->
  let x := env_step pl e (at_name a) s1 in let y := env_step pl (fst x) (at_name b) s2 in
  let y' := env_step pl e (at_name b) s2 in let x' := env_step pl (fst y') (at_name a) s1 in
  fst y = fst x' /\ snd x = snd x' /\ snd y = snd y'.
Proof.
  intros pl e a b s1 s2 WE Ha Hb N x y y' x'. pose proof WE as ((k & shape & st & W) & DT).
  assert (EX : x = settled e (settle pl (e_mdp e) a s1)) by (eapply step_settled; eassumption). assert (EY' : y' = settled e (settle pl (e_mdp e) b s2)) by (eapply step_settled; eassumption).
  pose proof (tidy_step pl e (at_name a) s1 WE) as ((k1 & sh1 & st1 & W1) & _). pose proof (tidy_step pl e (at_name b) s2 WE) as ((k2 & sh2 & st2 & W2) & _). fold x in W1. fold y' in W2.
  destruct (settle pl (e_mdp e) a s1) as [[[a' G] t] r] eqn:SA. destruct (settle pl (e_mdp e) b s2) as [[[b' H] u] q] eqn:SB.
  pose proof (proj1 (ident_name _ _ (settle_ident _ _ _ _ _ _ _ _ SA))) as NA. pose proof (proj1 (ident_name _ _ (settle_ident _ _ _ _ _ _ _ _ SB))) as NB.
  destruct (settle_next pl k shape st e a b s1 s2 _ _ _ _ _ _ _ _ W DT Ha Hb N SA SB) as (H' & H1 & H2 & H3 & H4). destruct (settle_next pl k shape st e b a s2 s1 _ _ _ _ _ _ _ _ W DT Hb Ha (not_eq_sym N) SB SA) as (G' & G1 & G2 & G3 & G4).
  assert (I1 : In b (e_agents (fst x))) by (rewrite EX; apply (settled_in e a); auto). assert (I2 : In a (e_agents (fst y'))) by (rewrite EY'; apply (settled_in e b); auto).
  assert (EY : y = settled (fst x) (settle pl (e_mdp (fst x)) b s2)) by (unfold y; eapply step_settled; eassumption). assert (EX' : x' = settled (fst y') (settle pl (e_mdp (fst y')) a s1)) by (unfold x'; eapply step_settled; eassumption).
  assert (M1 : e_mdp (fst x) = with_features (e_mdp e) G) by (rewrite EX; unfold settled; destruct t; reflexivity). assert (M2 : e_mdp (fst y') = with_features (e_mdp e) H) by (rewrite EY'; unfold settled; destruct u; reflexivity).
  rewrite M1, H1 in EY. rewrite M2, G1 in EX'. pose proof (put_swap (e_agents e) a b a' b' Ha Hb NA NB N) as PS.
  assert (EG : H' = G').
  { apply (list_eq_nth _ _ _ []); [congruence|]. intros f Hf. destruct (mark_row _ _ _ _ _ W Ha) as [MA LA]. destruct (mark_row _ _ _ _ _ W Hb) as [MB LB].
    assert (DA : concerns e a f \/ ~ concerns e a f) by (destruct (concerns_dec e a f); auto). assert (DB : concerns e b f \/ ~ concerns e b f) by (destruct (concerns_dec e b f); auto).
    assert (OA : ~ concerns e a f -> nth f G [] = nth f (m_features (e_mdp e)) []).
    { destruct (settle_local pl (concerns e a) (e_mdp e) a s1 (m_features (e_mdp e)) a' G t r eq_refl LA) as (G0 & G5 & _ & _ & G6); [left; now rewrite MA|intros z g Hz; now apply (concerns_index k shape st)|reflexivity|exact SA|]. rewrite with_features_self, SA in G5. injection G5 as <-. apply G6. }
    assert (OB : ~ concerns e b f -> nth f H [] = nth f (m_features (e_mdp e)) []).
    { destruct (settle_local pl (concerns e b) (e_mdp e) b s2 (m_features (e_mdp e)) b' H u q eq_refl LB) as (H0 & H5 & _ & _ & H6); [left; now rewrite MB|intros z g Hz; now apply (concerns_index k shape st)|reflexivity|exact SB|]. rewrite with_features_self, SB in H5. injection H5 as <-. apply H6. }
    destruct DA as [CA|CA], DB as [CB|CB].
    - elim N. now apply (DT a b f).
    - rewrite (H4 f CB), (G3 f CA). reflexivity.
    - rewrite (H3 f CB), (G4 f CA). reflexivity.
    - rewrite (H4 f CB), (G4 f CA), (OA CA), (OB CB). reflexivity. }
  rewrite EY, EX', EX, EY', EG. unfold settled. destruct t, u; cbn [fst snd e_mdp e_agents e_names e_n_agents e_n_steps with_agent with_mdp tick]; (split; [|split; reflexivity]); unfold with_agent, with_mdp, tick; cbn [e_mdp e_agents e_names e_n_agents e_n_steps]; rewrite PS; reflexivity.
Qed.
Lemma swap_tastes : forall pl e n1 n2 s1 s2, tidy e -> n1 <> n2 ->
  let x := env_step pl e n1 s1 in let y := env_step pl (fst x) n2 s2 in let y' := env_step pl e n2 s2 in let x' := env_step pl (fst y') n1 s1 in
  fst y = fst x' /\ snd x = snd x' /\ snd y = snd y'.
Proof.
  intros pl e n1 n2 s1 s2 WE N x y y' x'. pose proof WE as ((k & shape & st & W) & DT).
  destruct (in_dec string_dec n1 (e_names e)) as [I1|I1].
  2:{ assert (EX : x = (e, Err ValueError)) by (eapply step_unknown; eauto). assert (EX' : x' = (fst y', Err ValueError)).
      { destruct (tidy_step pl e n2 s2 WE) as ((k1 & sh1 & st1 & W1) & _). unfold x'. eapply step_unknown; [exact W1|]. unfold y'. now rewrite (step_names pl k shape st). }
      unfold y. rewrite EX, EX'. cbn [fst snd]. fold y'. auto. }
  destruct (in_dec string_dec n2 (e_names e)) as [I2|I2].
  2:{ assert (EY' : y' = (e, Err ValueError)) by (eapply step_unknown; eauto). assert (EY : y = (fst x, Err ValueError)).
      { destruct (tidy_step pl e n1 s1 WE) as ((k1 & sh1 & st1 & W1) & _). unfold y. eapply step_unknown; [exact W1|]. unfold x. now rewrite (step_names pl k shape st). }
      unfold x'. rewrite EY', EY. cbn [fst snd]. fold x. auto. }
  apply (wf_lookup _ _ _ _ W) in I1, I2. apply in_map_iff in I1, I2. destruct I1 as (a & EA & Ha). destruct I2 as (b & EB & Hb). subst n1 n2. now apply (swap_tastes_known pl e a b s1 s2).
Qed.
Theorem C195_two_steps : forall pl e n1 n2 s1 s2, reachable pl e -> different_tastes e -> n1 <> n2 ->
  let x := env_step pl e n1 s1 in let y := env_step pl (fst x) n2 s2 in let y' := env_step pl e n2 s2 in let x' := env_step pl (fst y') n1 s1 in
  fst y = fst x' /\ snd x = snd x' /\ snd y = snd y'.
Proof. intros pl e n1 n2 s1 s2 RE NE N. destruct (reachable_wf _ _ RE) as (k & shape & st & W). apply swap_tastes; [split; eauto|exact N]. Qed.

(** ** Schedules *)
Definition like (pl : plugins R) (l l' : schedule) : Prop := forall e, tidy e -> run pl e (steps l) = run pl e (steps l') /\ forall nm, told pl e l nm = told pl e l' nm.
Lemma like_cons : forall pl x l l', like pl l l' -> like pl (x :: l) (x :: l').
Proof.
  intros pl [n s] l l' H e WE. destruct (H (fst (env_step pl e n s)) (tidy_step pl e n s WE)) as [H1 H2]. split; [exact H1|]. intros nm. cbn [told]. destruct (env_step pl e n s) as [e' v]. cbn [fst] in H2. now rewrite H2.
Qed.
Lemma like_swap : forall pl x y l, fst x <> fst y -> like pl (x :: y :: l) (y :: x :: l).
Proof.
  intros pl [n1 s1] [n2 s2] l N e WE. cbn [fst] in N. destruct (swap_tastes pl e n1 n2 s1 s2 WE N) as (A & B & C). split.
  - cbn [steps map run fold_left do_op fst snd]. now rewrite A.
  - intros nm. cbn [told]. destruct (env_step pl e n1 s1) as [e1 v1]. destruct (env_step pl e n2 s2) as [e2 v2]. cbn [fst snd] in *. destruct (env_step pl e1 n2 s2) as [e12 v12]. destruct (env_step pl e2 n1 s1) as [e21 v21]. cbn [fst snd] in *. subst.
    destruct (String.eqb_spec n1 nm) as [E1|E1]; destruct (String.eqb_spec n2 nm) as [E2|E2]; try reflexivity. congruence.
Qed.
Lemma like_trans : forall pl l1 l2 l3, like pl l1 l2 -> like pl l2 l3 -> like pl l1 l3.
Proof. intros pl l1 l2 l3 H1 H2 e WE. destruct (H1 e WE) as [A B]. destruct (H2 e WE) as [C D]. split; [congruence|]. intros nm. now rewrite B. Qed.
Lemma like_front : forall pl pre x post, Forall (fun y => fst y <> fst x) pre -> like pl (pre ++ x :: post) (x :: pre ++ post).
Proof.
  intros pl pre x post F. induction F as [|y pre Hy F IH]; [intros e _; split; reflexivity|]. cbn [app]. eapply like_trans; [apply like_cons; exact IH|]. now apply like_swap.
Qed.
Lemma schedules_like : forall pl l l', (forall nm, steps_of nm l = steps_of nm l') -> like pl l l'.
Proof.
  intros pl l. induction l as [|x l IH]; intros l' H.
  - destruct l' as [|y l']; [intros e _; split; reflexivity|]. specialize (H (fst y)). cbn [steps_of filter] in H. rewrite String.eqb_refl in H. discriminate.
  - pose proof (H (fst x)) as H0. cbn [steps_of filter] in H0. rewrite String.eqb_refl in H0. symmetry in H0. destruct (find_first _ _ _ _ H0) as (pre & post & -> & F & _).
    apply (like_trans pl _ (x :: pre ++ post)).
    + apply like_cons, IH. intros nm. specialize (H nm). rewrite steps_of_app in *. cbn [steps_of filter] in H. fold (steps_of nm l) in H. fold (steps_of nm post) in H. destruct (String.eqb_spec (fst x) nm) as [EX|EX]; [|exact H].
      assert (P0 : steps_of nm pre = []). { clear - F EX. subst nm. induction F as [|y pre Hy F IH]; [reflexivity|]. cbn [steps_of filter]. destruct (String.eqb_spec (fst y) (fst x)); [contradiction|exact IH]. }
      rewrite P0 in *. cbn [app] in *. congruence.
    + intros e WE. destruct (like_front pl pre x post F e WE) as [A B]. split; [now rewrite A|]. intros nm. now rewrite B.
Qed.
(** If the agents consume different features and nobody consumes another agent, it does not matter how their steps are interleaved. *)
Theorem C195_schedules : forall pl e l l', reachable pl e -> different_tastes e -> (forall nm, steps_of nm l = steps_of nm l') ->
  run pl e (steps l) = run pl e (steps l') /\ forall nm, told pl e l nm = told pl e l' nm.
Proof. intros pl e l l' RE NE H. destruct (reachable_wf _ _ RE) as (k & shape & st & W). apply schedules_like; [exact H|]. split; [eauto|exact NE]. Qed.

(** ** A concrete case *)
(** Agents "p" and "q" on the square of four cells: "p" consumes the second feature, "q" the first. *)
Definition two_tastes {A} `{Num A} : list (spec A) := [mkSpec "p"%string 1 None 0 [n1; n0; n0; n0] [1%Z]; mkSpec "q"%string 1 None 3 [n1; n0; n1; n0] [(-4)%Z]].
Example C195_example : forall pl, exists m m' e, usable pl m /\ make_env m two_tastes = (m', Ok e) /\ reachable pl e /\ different_tastes e /\
  (forall nm, steps_of nm [("p", 0); ("q", 1); ("p", 2)]%string = steps_of nm [("q", 1); ("p", 0); ("p", 2)]%string).
Proof.
  intros pl. destruct (ex_usable pl) as (m & E & U & NO & NS). destruct (proj2 (C17_accepts_iff pl m two_tastes U)) as (m1 & e & E1).
  { intros s [<-|[<-|[]]]; rewrite NO, NS; repeat split; cbn; try lia; intros z [<-|[]]; lia. }
  exists m, m1, e. split; [exact U|]. split; [exact E1|]. split; [eapply reach_new; eauto|]. split.
  - assert (ND : NoDup (map sp_name (two_tastes (A:=R)))) by (repeat constructor; cbn; intuition discriminate).
    destruct (C17_result pl m two_tastes m1 e U ND E1) as (R1 & R2 & R3 & R4 & RL & RA & RR).
    destruct (RA 0 _ eq_refl) as (a0 & H0 & F0 & _). destruct (RA 1 _ eq_refl) as (a1 & H1 & F1 & _). destruct RR as (NF & _). rewrite NO in *. change (length two_tastes) with 2 in *. cbn [Nat.add] in NF, F0, F1. unfold fresh in F0, F1. destruct F0 as (A1 & _ & _ & A2 & _ & _ & A3 & _). destruct F1 as (B1 & _ & _ & B2 & _ & _ & B3 & _).
    assert (EA : e_agents e = [a0; a1]) by (destruct (e_agents e) as [|x [|y [|z l]]]; cbn in RL, H0, H1; try lia; congruence).
    intros a b f Ha Hb Ca Cb. rewrite EA in Ha, Hb. unfold concerns in *. rewrite R1, NF in *. cbn [sp_consumes] in A2, B2.
    destruct Ha as [<-|[<-|[]]], Hb as [<-|[<-|[]]]; try reflexivity; exfalso; rewrite ?A2, ?A3, ?B2, ?B3 in *;
      destruct Ca as [Ca|(z & [<-|[]] & L1 & Ca)], Cb as [Cb|(z' & [<-|[]] & L2 & Cb)]; lia.
  - intros nm. unfold steps_of. cbn [filter fst]. destruct (String.eqb_spec "p" nm) as [N1|N1]; destruct (String.eqb_spec "q" nm) as [N2|N2]; try reflexivity. congruence.
Qed.
