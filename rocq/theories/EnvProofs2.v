From Coq Require Import String List ZArith Reals Bool Lia Lra.
From Verif Require Import PyBase PyProofs GridModel GridSpec MDPModel MDPSpec MDPProofs MDPProofs2 MDPProofs3 MDPProofs4 MDPProps ActionModel EnvModel EnvSpec EnvProofs.
Import ListNotations.
Local Open Scope nat_scope.

Lemma upd_upd : forall A (l : list A) i x y, upd (upd l i x) i y = upd l i y.
Proof. induction l; intros [|i] x y; cbn; auto. now rewrite IHl. Qed.

Lemma map_const_repeat : forall A B (c : B) (l : list A), map (fun _ => c) l = repeat c (length l).
Proof. induction l as [|x l IH]; [reflexivity|]. cbn [map length repeat]. now rewrite IH. Qed.

Lemma update_agent_spec : forall (m : mdp R) idx p, table_ok m -> m_n_features m = m_n_non_agent m + m_n_agents m -> idx < m_n_agents m ->
  update_agent_feature m idx p = match py_index (m_n_states m) p with
    | Ok s => (row_set m idx (onehot m s), Ok tt)
    | Err x => (row_set m idx (zeros1 (m_n_states m)), Err x) end.
Proof.
  intros m idx p T NF Hi. unfold update_agent_feature. pose proof T as [L T2]. rewrite <- L.
  replace (Z.of_nat (m_n_features m) - Z.of_nat (m_n_agents m) + Z.of_nat idx)%Z with (Z.of_nat (m_n_non_agent m + idx)) by lia.
  rewrite py_index_nat by lia.
  assert (ZR : map (fun _ : R => n0 (A:=R)) (nth (m_n_non_agent m + idx) (m_features m) []) = zeros1 (A:=R) (m_n_states m)).
  { apply Forall_shape2 in T2. destruct T2 as [_ H]. specialize (H (m_n_non_agent m + idx) ltac:(lia)). unfold zeros1.
    rewrite <- H. generalize (nth (m_n_non_agent m + idx) (m_features m) []). intros l0. apply map_const_repeat. }
  cbv zeta. rewrite ZR. destruct (py_index (m_n_states m) p); reflexivity.
Qed.

Lemma py_index_cases : forall n p, (exists s, py_index n p = Ok s /\ s < n) \/
  (py_index n p = Err IndexError /\ ((p < - Z.of_nat n)%Z \/ (Z.of_nat n <= p)%Z)).
Proof.
  intros n p. unfold py_index. destruct (Z.leb_spec 0 p).
  - destruct (Z.ltb_spec p (Z.of_nat n)); [left; eexists; split; [reflexivity|lia]|right; split; [reflexivity|lia]].
  - destruct (Z.leb_spec (- Z.of_nat n) p); [left; eexists; split; [reflexivity|lia]|right; split; [reflexivity|lia]].
Qed.

Lemma move_agent_spec : forall (m : mdp R) a p, table_ok m -> m_n_features m = m_n_non_agent m + m_n_agents m -> at_idx a < m_n_agents m ->
  (exists s, stands_on m p s /\ s < m_n_states m /\ move_agent m a p = (row_set m (at_idx a) (onehot m s), set_pos_only a p, Ok tt)) \/
  ((Z.of_nat (m_n_states m) <= p)%Z /\ move_agent m a p = (m, a, Err IndexError)) \/
  ((p < - Z.of_nat (m_n_states m))%Z /\ move_agent m a p = (row_set m (at_idx a) (zeros1 (m_n_states m)), a, Err IndexError)).
Proof.
  intros m a p T NF Hi. unfold move_agent. rewrite update_agent_spec by assumption.
  destruct (Z.leb_spec (Z.of_nat (m_n_states m)) p) as [L|L]; [right; left; auto|].
  destruct (py_index_cases (m_n_states m) p) as [(s & E & Hs)|(E & [H|H])]; [left| |lia].
  - exists s. rewrite E. split; [exact E|]. auto.
  - right. right. rewrite E. auto.
Qed.

Lemma get_policy_spec : forall pl (a a' : attached R) seed r, get_policy pl a seed = (a', r) ->
  ident a' = ident a /\ at_pos a' = at_pos a /\ at_consumed a' = at_consumed a /\ at_hist a' = at_hist a /\ at_fit a' = at_fit a /\
  (r = Ok tt -> exists v q pi, at_fit a = Some (v, q) /\ get_pi (pl_pi pl (at_name a) seed) q = Ok pi /\ at_pi a' = Some pi /\
     exists p, get_pi_p (pl_pi_p pl (at_name a)) q = Ok p /\ at_pi_p a' = Some p).
Proof.
  intros pl a a' seed r E. unfold get_policy in E. destruct (at_fit a) as [[v q]|] eqn:F.
  - destruct (get_pi_p (pl_pi_p pl (at_name a)) q) as [p|x] eqn:Ep.
    + destruct (get_pi (pl_pi pl (at_name a) seed) q) as [pi|x] eqn:Epi; inversion E; subst; cbn; rewrite ?F.
      * do 4 (split; [reflexivity|]). split; [reflexivity|]. intros _. exists v, q, pi. split; [reflexivity|]. split; [exact Epi|].
        split; [reflexivity|]. eauto.
      * repeat (split; [reflexivity|]). discriminate.
    + inversion E. subst. rewrite F. repeat (split; [reflexivity|]). discriminate.
  - inversion E. subst. rewrite F. repeat (split; [reflexivity|]). discriminate.
Qed.

Lemma lookup_spec : forall k shape st e nm, wf k shape st e ->
  (exists a, lookup e nm = Ok a /\ In a (e_agents e) /\ at_name a = nm) \/
  (lookup e nm = Err ValueError /\ ~ In nm (e_names e)).
Proof.
  intros k shape st e nm W. unfold lookup. destruct (existsb (String.eqb nm) (e_names e)) eqn:E.
  - left. apply existsb_exists in E. destruct E as (n & Hn & En). apply String.eqb_eq in En. subst n.
    apply (wf_lookup _ _ _ _ W) in Hn. apply in_map_iff in Hn. destruct Hn as (a & Ea & Ha).
    exists a. rewrite (proj2 (find_agent_iff _ nm a (wf_names _ _ _ _ W)) (conj Ha Ea)). auto.
  - right. split; [reflexivity|]. intros H. assert (X : existsb (String.eqb nm) (e_names e) = true); [|congruence].
    apply existsb_exists. exists nm. split; [exact H|apply String.eqb_refl].
Qed.
Lemma lookup_in : forall k shape st e a, wf k shape st e -> In a (e_agents e) -> lookup e (at_name a) = Ok a.
Proof.
  intros k shape st e a W Ha. destruct (lookup_spec k shape st e (at_name a) W) as [(b & E & Hb & N)|(_ & N)].
  - rewrite E. f_equal. eapply same_name_same; eauto. apply (wf_names _ _ _ _ W).
  - elim N. apply (wf_lookup _ _ _ _ W). now apply in_map.
Qed.

(** Everything [step] can do. *)
Lemma agent_step_spec : forall pl k shape st e a seed m' a' r, wf k shape st e -> In a (e_agents e) ->
  agent_step pl (e_mdp e) a seed = (m', a', r) ->
  (exists x, r = Err x /\ m' = e_mdp e /\ ident a' = ident a /\ at_pos a' = at_pos a /\ at_consumed a' = at_consumed a /\
     at_hist a' = at_hist a /\ at_fit a' = at_fit a /\ (at_fit a = None -> x = AttributeError /\ a' = a)) \/
  (exists v q pi i act s, r = Ok tt /\ at_fit a = Some (v, q) /\ get_pi (pl_pi pl (at_name a) seed) q = Ok pi /\
     py_index (length pi) (at_pos a) = Ok i /\ act = nth i pi 0%Z /\ (0 <= act)%Z /\
     get_next_state (e_mdp e) (at_pos a) act = Ok s /\ s < m_n_states (e_mdp e) /\
     m' = row_set (e_mdp e) (at_idx a) (onehot (e_mdp e) s) /\ ident a' = ident a /\ at_pos a' = Z.of_nat s /\
     at_consumed a' = at_consumed a /\ at_hist a' = at_hist a ++ [Z.of_nat s] /\ at_fit a' = at_fit a /\ at_pi a' = Some pi).
Proof.
  intros pl k shape st e a seed m' a' r W Ha E. unfold agent_step in E.
  destruct (at_fit a) as [[v q]|] eqn:F.
  2:{ inversion E. subst. left. exists AttributeError. rewrite F. auto 10. }
  destruct (get_policy pl a seed) as [a1 [[]|x]] eqn:GP.
  2:{ inversion E. subst. left. exists x. destruct (get_policy_spec _ _ _ _ _ GP) as (H1 & H2 & H3 & H4 & H5 & _). split; [reflexivity|].
      split; [reflexivity|]. do 4 (split; [assumption|]). split; [congruence|]. discriminate. }
  destruct (get_policy_spec _ _ _ _ _ GP) as (H1 & H2 & H3 & H4 & H5 & H6). destruct (H6 eq_refl) as (v' & q' & pi & F' & Epi & Api & _).
  rewrite F in F'. inversion F'. subst v' q'. clear F' H6. rewrite Api in E.
  assert (LEFT : forall x, (exists x', Err (A:=unit) x = Err x' /\ e_mdp e = e_mdp e /\ ident a1 = ident a /\ at_pos a1 = at_pos a /\ at_consumed a1 = at_consumed a /\
     at_hist a1 = at_hist a /\ at_fit a1 = Some (v, q) /\ (Some (v, q) = None -> x' = AttributeError /\ a1 = a))).
  { intros x. exists x. do 6 (split; [auto|]). split; [exact (eq_trans H5 F)|discriminate]. }
  rewrite H2 in E. destruct (py_index (length pi) (at_pos a)) as [i|x] eqn:Ei; cbn [bind] in E; [|inversion E; subst; left; apply LEFT].
  destruct (nth i pi 0 <? 0)%Z eqn:AN; [inversion E; subst; left; apply LEFT|].
  apply Z.ltb_ge in AN.
  destruct (get_next_state (e_mdp e) (at_pos a) (nth i pi 0%Z)) as [s|x] eqn:NS; [|inversion E; subst; left; apply LEFT].
  assert (Hs : s < m_n_states (e_mdp e)) by (eapply next_state_lt; [apply (wf_grid _ _ _ _ W)|exact NS]).
  destruct (ident_name _ _ H1) as (N1 & N2 & N3 & N4 & N5 & _).
  assert (Hidx : at_idx a1 < m_n_agents (e_mdp e)) by (rewrite N2; apply (wf_agents _ _ _ _ W a Ha)).
  pose proof (wf_table _ _ _ _ W) as T. pose proof (wf_nf _ _ _ _ W) as NF.
  destruct (move_agent_spec (e_mdp e) a1 (Z.of_nat s) T NF Hidx) as [(s' & S1 & S2 & EM)|[[H _]|[H _]]]; [|lia|lia].
  unfold stands_on in S1. rewrite py_index_nat in S1 by exact Hs. inversion S1. subst s'. rewrite EM in E.
  cbn [at_hist at_pos set_pos_only at_idx set_hist] in E.
  rewrite update_agent_spec in E.
  - cbn [m_n_states row_set with_features] in E. rewrite py_index_nat in E by exact Hs.
    inversion E. subst. right. exists v, q, pi, i, (nth i pi 0%Z), s. split; [reflexivity|]. split; [reflexivity|]. split; [exact Epi|].
    split; [exact Ei|]. split; [reflexivity|]. split; [exact AN|]. split; [exact NS|]. split; [exact Hs|].
    split. { unfold row_set, onehot. cbn [m_features m_n_non_agent with_features m_n_states]. rewrite upd_upd. now rewrite N2. }
    split; [exact H1|]. split; [reflexivity|]. split; [exact H3|]. split; [cbn; now rewrite H4|]. split; [cbn; congruence|]. cbn. exact Api.
  - apply table_row_set; [exact T|apply onehot_len].
  - exact NF.
  - exact Hidx.
Qed.

Definition step_label (e : env R) (l : label) : Prop :=
  match l with LAgent | LMove | LConsume | LTick => True | LBad => ~ consumes_in_range e | _ => False end.

(** * Static parts *)
Definition static (e e' : env R) : Prop :=
  e_names e' = e_names e /\ map ident (e_agents e') = map ident (e_agents e) /\ mident (e_mdp e') = mident (e_mdp e).
Lemma static_refl : forall e, static e e. Proof. repeat split. Qed.
Lemma static_trans : forall a b c, static a b -> static b c -> static a c.
Proof. intros a b c (H1 & H2 & H3) (H4 & H5 & H6). repeat split; congruence. Qed.
Lemma mut_static : forall k shape st l e e', wf k shape st e -> mut l e e' -> static e e'.
Proof.
  intros k shape st l e e' W H. pose proof (wf_names _ _ _ _ W) as ND.
  assert (P : forall a a' m', In a (e_agents e) -> ident a' = ident a -> mident m' = mident (e_mdp e) -> static e (with_agent (with_mdp e m') a')).
  { intros a a' m' Ha EI EM. split; [reflexivity|]. split; [|exact EM]. cbn [with_agent with_mdp e_agents].
    destruct (ident_name _ _ EI) as (EN & _). apply (map_put _ ident _ a); auto. }
  destruct l; cbn [mut] in H.
  - destruct H as (a & a' & Ha & EI & _ & _ & ->). rewrite <- (with_mdp_id e) at 2. now apply (P a).
  - destruct H as (a & a' & s & Ha & EI & _ & _ & ->). now apply (P a).
  - destruct H as (a & Ha & ->). repeat split.
  - destruct H as (a & a' & m' & c & Ha & E & EI & _ & _ & ->).
    destruct (consume_result _ _ _ _ _ _ _ W Ha E) as (g & -> & _). now apply (P a).
  - destruct H as (a & g & Ha & _ & _ & _ & ->). repeat split.
  - subst. repeat split.
  - destruct H as (w & m' & E & ->). destruct (set_walls_mident _ _ _ _ _ _ (wf_grid _ _ _ _ W) E) as (M & _ & _). split; [reflexivity|]. split; [reflexivity|exact M].
  - destruct H as (m' & E & ->). destruct (reset_mdp_ok _ _ _ _ W) as (m2 & E2 & M & _). rewrite E in E2. inversion E2. subst.
    split; [reflexivity|]. split; [reflexivity|exact M].
Qed.
Lemma muts_static : forall k shape st P e e', wf k shape st e -> muts P e e' -> static e e'.
Proof.
  intros k shape st P e e' W H. induction H; [apply static_refl|]. eapply static_trans; [eapply mut_static; eauto|].
  apply IHmuts. eapply mut_wf; eauto.
Qed.
Lemma static_in : forall e e' a, static e e' -> In a (e_agents e') -> exists b, In b (e_agents e) /\ ident b = ident a.
Proof.
  intros e e' a (_ & H & _) Ha. assert (X : In (ident a) (map ident (e_agents e))) by (rewrite <- H; now apply in_map).
  apply in_map_iff in X. destruct X as (b & E & Hb). eauto.
Qed.
Lemma static_sym : forall e e', static e e' -> static e' e.
Proof. intros e e' (H1 & H2 & H3). repeat split; congruence. Qed.
Lemma static_consumes : forall e e', static e e' -> consumes_in_range e -> consumes_in_range e'.
Proof.
  intros e e' S C a Ha z Hz. destruct (static_in _ _ _ S Ha) as (b & Hb & EI). destruct (ident_name _ _ EI) as (_ & _ & EC & _).
  destruct S as (_ & _ & M). unfold mident in M. inversion M as [[E0 E1 E2 E3 E4 E5 E6 E7]]. rewrite E5. apply (C b Hb). congruence.
Qed.
Lemma step_label_static : forall e e' l, static e e' -> step_label e' l -> step_label e l.
Proof.
  intros e e' l S H. destruct l; cbn in *; try assumption. intros C. apply H. eapply static_consumes; eauto.
Qed.

(** * Calls as sequences of elementary changes *)
Lemma consume_muts : forall k shape st e a, wf k shape st e -> In a (e_agents e) -> muts (step_label e) e (fst (env_consume e a)).
Proof.
  intros k shape st e a W Ha. unfold env_consume. destruct (at_consumes a) as [|z l] eqn:EC; [constructor|].
  rewrite <- EC. destruct (consume_features (e_mdp e) (at_consumes a) (at_pos a)) as [m' [c|x]] eqn:E.
  - destruct (consume_result _ _ _ _ _ _ _ W Ha E) as (g & -> & S & G & _ & L). specialize (L c eq_refl).
    destruct (wf_agents _ _ _ _ W a Ha) as (_ & _ & LC & _). rewrite LC, L, Nat.eqb_refl.
    cbn [fst]. apply (muts_one _ LConsume); [exact I|]. exists a. eexists. exists (with_features (e_mdp e) g), c.
    split; [exact Ha|]. split; [exact E|]. split; [|split; [|split; [|reflexivity]]]; reflexivity.
  - destruct (consume_result _ _ _ _ _ _ _ W Ha E) as (g & -> & S & G & X & _). destruct (X x eq_refl) as (_ & z' & Hz & Rz).
    cbn [fst]. apply (muts_one _ LBad).
    + cbn. intros C. specialize (C a Ha z' Hz). lia.
    + exists a, g. split; [exact Ha|]. split; [eauto|]. auto.
Qed.

Lemma with_agent_in : forall k shape st e m' a a', wf k shape st e -> In a (e_agents e) -> ident a' = ident a ->
  In a' (e_agents (with_agent (with_mdp e m') a')).
Proof.
  intros k shape st e m' a a' W Ha EI. destruct (ident_name _ _ EI) as (EN & _). cbn [with_agent with_mdp e_agents].
  apply (in_put _ a a' Ha EN). now left.
Qed.

Lemma env_step_muts : forall pl k shape st e nm seed, wf k shape st e -> muts (step_label e) e (fst (env_step pl e nm seed)).
Proof.
  intros pl k shape st e nm seed W. unfold env_step. destruct (lookup_spec k shape st e nm W) as [(a & EL & Ha & EN)|(EL & _)]; rewrite EL; [|constructor].
  destruct (agent_step pl (e_mdp e) a seed) as [[m1 a1] r] eqn:ES.
  destruct (agent_step_spec _ _ _ _ _ _ _ _ _ _ W Ha ES) as [(x & -> & -> & H1 & H2 & H3 & _)|H].
  - cbn [fst]. apply (muts_one _ LAgent); [exact I|]. exists a, a1. split; [exact Ha|]. split; [exact H1|]. split; [exact H2|]. split; [exact H3|].
    now rewrite with_mdp_id.
  - destruct H as (v & q & pi & i & act & s & -> & F & Epi & Ei & Eact & An & NS & Hs & -> & H1 & H2 & H3 & H4 & H5 & H6).
    set (e1 := with_agent (with_mdp e (row_set (e_mdp e) (at_idx a) (onehot (e_mdp e) s))) a1).
    assert (M1 : mut LMove e e1).
    { exists a, a1, s. split; [exact Ha|]. split; [exact H1|]. split; [exact H3|]. split; [rewrite H2; now apply py_index_nat|reflexivity]. }
    assert (W1 : wf k shape st e1) by (eapply mut_wf; eauto).
    assert (S1 : static e e1) by (eapply mut_static; eauto).
    assert (I1 : In a1 (e_agents e1)) by (eapply with_agent_in; eauto).
    pose proof (consume_muts _ _ _ _ _ W1 I1) as CM.
    assert (CM' : muts (step_label e) e1 (fst (env_consume e1 a1))) by (eapply muts_weaken; [|exact CM]; intros; eapply step_label_static; eauto).
    assert (K : muts (step_label e) e (fst (env_consume e1 a1))) by (eapply muts_cons; [|exact M1|exact CM']; exact I).
    destruct (env_consume e1 a1) as [e2 [[]|x]]; cbn [fst] in *; [|exact K].
    eapply muts_trans; [exact K|]. apply (muts_one _ LTick); [exact I|reflexivity].
Qed.

Lemma env_fit_muts : forall pl k shape st e nm n s s', wf k shape st e -> muts (step_label e) e (fst (env_fit pl e nm n s s')).
Proof.
  intros pl k shape st e nm n s s' W. unfold env_fit. destruct (lookup_spec k shape st e nm W) as [(a & EL & Ha & EN)|(EL & _)]; rewrite EL; [|constructor].
  destruct (alg_fit pl e a n s) as [f|x].
  2:{ unfold failed_fit. destruct (_ && _); [|constructor]. cbn [fst]. apply (muts_one _ LAgent); [exact I|]. exists a, (set_fit a None). auto. }
  destruct (get_policy pl (set_fit a (Some f)) s') as [a' r] eqn:GP. destruct (get_policy_spec _ _ _ _ _ GP) as (H1 & H2 & H3 & H4 & H5 & _).
  cbn [fst]. apply (muts_one _ LAgent); [exact I|]. exists a, a'. auto.
Qed.

Lemma step_proba_muts : forall pl k shape st e nm p s, wf k shape st e -> muts (step_label e) e (fst (env_step_proba pl e nm p s)).
Proof.
  intros pl k shape st e nm p s W. unfold env_step_proba. destruct (lookup_spec k shape st e nm W) as [(a & EL & Ha & EN)|(EL & _)]; rewrite EL; [|constructor].
  destruct (agent_step_proba pl (e_mdp e) a p s) as [a' r] eqn:E.
  assert (K : ident a' = ident a /\ at_pos a' = at_pos a /\ at_consumed a' = at_consumed a).
  { unfold agent_step_proba in E. destruct (match p with Some p0 => _ | None => _ end) as [pos|x]; [|inversion E; auto].
    destruct (negb _); [inversion E; auto|]. destruct (at_fit a); [|inversion E; auto].
    destruct (get_policy pl a s) as [a1 [[]|x]] eqn:GP; destruct (get_policy_spec _ _ _ _ _ GP) as (H1 & H2 & H3 & _).
    - destruct (at_pi_p a1); inversion E; subst; auto.
    - inversion E; subst; auto. }
  destruct K as (K1 & K2 & K3).
  assert (M : muts (step_label e) e (with_agent e a')).
  { apply (muts_one _ LAgent); [exact I|]. exists a, a'. auto. }
  destruct r; cbn [fst]; [|exact M]. eapply muts_trans; [exact M|]. apply (muts_one _ LTick); [exact I|reflexivity].
Qed.

Lemma multi_loop_muts : forall pl k shape st nm rf stop nt nas plan rnd todo i acc e, wf k shape st e ->
  muts (step_label e) e (fst (multi_loop pl e nm rf stop nt nas plan rnd i todo acc)).
Proof.
  induction todo as [|todo IH]; intros i acc e W; cbn [multi_loop]; [constructor|].
  set (s1 := rnd (3 * i)). set (s2 := rnd (3 * i + 1)). set (s3 := rnd (3 * i + 2)).
  assert (RF : muts (step_label e) e (fst (refit_step pl e nm rf i nt nas plan s1 s2))).
  { unfold refit_step. destruct rf; [|constructor]. destruct (step_plan i nt nas plan); [|constructor]. eapply env_fit_muts; eauto. }
  destruct (refit_step pl e nm rf i nt nas plan s1 s2) as [e1 [[]|x]]; cbn [fst] in *; [|exact RF].
  assert (W1 : wf k shape st e1) by (eapply muts_wf; eauto). assert (S1 : static e e1) by (eapply muts_static; eauto).
  pose proof (env_step_muts pl k shape st e1 nm s3 W1) as ST.
  assert (ST' : muts (step_label e) e (fst (env_step pl e1 nm s3))).
  { eapply muts_trans; [exact RF|]. eapply muts_weaken; [|exact ST]. intros; eapply step_label_static; eauto. }
  destruct (env_step pl e1 nm s3) as [e2 [p|x]]; cbn [fst] in *; [|exact ST'].
  match goal with |- context [if ?b then _ else _] => destruct b end; cbn [fst]; [exact ST'|].
  assert (W2 : wf k shape st e2) by (eapply muts_wf; eauto). assert (S2 : static e e2) by (eapply muts_static; eauto).
  eapply muts_trans; [exact ST'|]. eapply muts_weaken; [|apply IH; exact W2]. intros; eapply step_label_static; eauto.
Qed.

Lemma step_multi_muts : forall pl k shape st e nm n p t rf stop rnd, wf k shape st e ->
  muts (step_label e) e (fst (step_multi pl e nm n p t rf stop rnd)).
Proof.
  intros. unfold step_multi. destruct (lookup e nm); [|constructor]. destruct (all_n_steps e nm); [|constructor].
  destruct (negb _); [constructor|].
  assert (X : forall r, muts (step_label e) e (fst (if negb (forallb (fun i => (0 <? i)%Z) match p with Some p0 => p0 | None => a0 end) then (e, Err ValueError)
     else match r with Ok n0 => multi_loop pl e nm rf stop t a0 match p with Some p0 => p0 | None => a0 end rnd 0 (Z.to_nat n0) [] | Err x => (e, Err x) end))).
  { intros r. destruct (negb _); [constructor|]. destruct r; [|constructor]. eapply multi_loop_muts; eauto. }
  destruct n as [|z|[|z]|]; [apply (X (Ok (at_n_moves a)))|apply (X (Ok z))|apply muts_nil|apply (X (Ok z))|apply (X (Err UnboundLocalError))].
Qed.

Definition op_label (e : env R) (o : op R) (l : label) : Prop :=
  match o with
  | OSetPosition _ p => match l with LMove => True | LZero => (p < - Z.of_nat (m_n_states (e_mdp e)))%Z | _ => False end
  | OSetWalls _ => l = LWalls
  | OReset => match l with LMove | LAgent | LRestore => True | _ => False end
  | OInteractive _ _ => False
  | _ => step_label e l
  end.

Lemma with_agent_mdp_id : forall (e : env R) a, e_mdp (with_agent e a) = e_mdp e. Proof. reflexivity. Qed.

(** Re-assigning an agent its own (possibly unchanged) record. *)
Lemma set_position_muts : forall k shape st e nm p, wf k shape st e ->
  exists e', muts (op_label e (OSetPosition nm p)) e e' /\ fst (set_agent_position e nm p) = e'.
Proof.
  intros k shape st e nm p W. eexists. split; [|reflexivity]. unfold set_agent_position.
  destruct (lookup_spec k shape st e nm W) as [(a & EL & Ha & EN)|(EL & _)]; rewrite EL; [|constructor].
  destruct (wf_agents _ _ _ _ W a Ha) as (Hi & _).
  assert (PA : put_agent (e_agents e) a = e_agents e).
  { rewrite (put_in _ a a Ha eq_refl). rewrite <- (map_id (e_agents e)) at 2. apply map_ext_in. intros b Hb.
    destruct (String.eqb_spec (at_name b) (at_name a)) as [X|X]; [|reflexivity]. eapply same_name_same; eauto. apply (wf_names _ _ _ _ W). }
  assert (WA : forall m', with_agent (with_mdp e m') a = with_mdp e m').
  { intros m'. unfold with_agent. cbn [with_mdp e_agents e_mdp e_names e_n_agents e_n_steps]. rewrite PA. reflexivity. }
  destruct (move_agent_spec (e_mdp e) a p (wf_table _ _ _ _ W) (wf_nf _ _ _ _ W) Hi) as [(s & S1 & S2 & EM)|[[H EM]|[H EM]]]; rewrite EM; cbn [fst].
  - apply (muts_one _ LMove); [exact I|]. exists a, (set_pos_only a p), s. split; [exact Ha|]. split; [reflexivity|]. split; [reflexivity|]. split; [exact S1|reflexivity].
  - rewrite WA, with_mdp_id. constructor.
  - rewrite WA. apply (muts_one _ LZero); [exact H|]. exists a. split; [exact Ha|reflexivity].
Qed.

Definition reset_label (l : label) : Prop := match l with LMove | LAgent => True | _ => False end.

(** Resetting the agents: every agent in the list is put back, in order. *)
Lemma reset_agents_spec : forall k shape st l e, wf k shape st e -> NoDup (map at_name l) -> (forall a, In a l -> In a (e_agents e)) ->
  exists e', reset_agents e l = (e', Ok tt) /\ muts reset_label e e' /\
    (forall b, In b (e_agents e') -> (exists a, In a l /\ at_name a = at_name b /\
         b = set_hist (set_policy (set_pos_only a (at_start a)) None None) [at_start a]) \/
       (In b (e_agents e) /\ ~ In (at_name b) (map at_name l))) /\ e_n_steps e' = e_n_steps e.
Proof.
  induction l as [|a l IH]; intros e W ND H.
  - exists e. split; [reflexivity|]. split; [constructor|]. split; [|reflexivity]. intros b Hb. right. cbn. tauto.
  - cbn [map] in ND. inversion ND as [|? ? NI ND']. subst. cbn [reset_agents].
    assert (Ha : In a (e_agents e)) by (apply H; now left).
    destruct (wf_agents _ _ _ _ W a Ha) as (Hi & _ & _ & _ & _ & (s0 & S0) & _).
    destruct (move_agent_spec (e_mdp e) a (at_start a) (wf_table _ _ _ _ W) (wf_nf _ _ _ _ W) Hi) as [(s & S1 & S2 & EM)|[[X _]|[X _]]].
    2:{ exfalso. apply py_index_ok in S0. lia. } 2:{ exfalso. apply py_index_ok in S0. lia. }
    rewrite EM. set (a' := set_hist _ _). set (e1 := with_agent _ a').
    assert (M : mut LMove e e1).
    { exists a, a', s. split; [exact Ha|]. split; [reflexivity|]. split; [reflexivity|]. split; [exact S1|reflexivity]. }
    assert (W1 : wf k shape st e1) by (eapply mut_wf; eauto).
    assert (IN1 : forall b, In b (e_agents e1) <-> b = a' \/ (In b (e_agents e) /\ at_name b <> at_name a')).
    { intros b. unfold e1. cbn [with_agent with_mdp e_agents]. apply (in_put _ a a' Ha). reflexivity. }
    destruct (IH e1 W1 ND') as (e' & E & MM & HB & NS).
    { intros b Hb. apply IN1. right. split; [apply H; now right|]. intros X. apply NI. replace (at_name a) with (at_name b) by exact X. now apply in_map. }
    exists e'. split; [exact E|]. split; [eapply muts_cons; [|exact M|exact MM]; exact I|]. split; [|exact NS].
    intros b Hb. destruct (HB b Hb) as [(c & Hc & E1 & E2)|[Hb1 NB]].
    + left. exists c. split; [now right|auto].
    + apply IN1 in Hb1. destruct Hb1 as [->|[Hb2 N2]].
      * left. exists a. split; [now left|]. split; reflexivity.
      * right. split; [exact Hb2|]. cbn [map]. intros [X|X]; [|contradiction]. apply N2. rewrite <- X. reflexivity.
Qed.

Lemma env_reset_spec : forall k shape st e, wf k shape st e ->
  exists e', env_reset e = (e', Ok tt) /\ muts (op_label e OReset) e e' /\ m_features (e_mdp e') = m_orig_features (e_mdp e) /\
    e_n_steps e' = e_n_steps e /\
    forall b, In b (e_agents e') -> exists a, In a (e_agents e) /\ b = set_hist (set_policy (set_pos_only a (at_start a)) None None) [at_start a].
Proof.
  intros k shape st e W. unfold env_reset.
  destruct (reset_agents_spec k shape st (e_agents e) e W (wf_names _ _ _ _ W)) as (e1 & E & M & HB & NS); [auto|]. rewrite E.
  assert (W1 : wf k shape st e1) by (eapply muts_wf; eauto). assert (S1 : static e e1) by (eapply muts_static; eauto).
  destruct (reset_mdp_ok _ _ _ _ W1) as (m' & E' & MI & G & T & F). rewrite E'. eexists. split; [reflexivity|]. split.
  - eapply muts_trans; [eapply muts_weaken; [|exact M]; intros []; cbn; tauto|]. apply (muts_one _ LRestore); [exact I|]. exists m'. auto.
  - cbn [with_mdp e_mdp e_agents e_n_steps]. split; [|split; [exact NS|]].
    + rewrite F. destruct S1 as (_ & _ & X). unfold mident in X. inversion X. congruence.
    + intros b Hb. destruct (HB b Hb) as [(a & Ha & _ & X)|[Hb1 N]]; [eauto|]. elim N. now apply in_map.
Qed.

Lemma do_op_muts : forall pl k shape st e o, wf k shape st e -> muts (op_label e o) e (do_op pl e o).
Proof.
  intros pl k shape st e o W. destruct o; cbn [do_op op_label].
  - eapply env_fit_muts; eauto.
  - eapply env_step_muts; eauto.
  - eapply step_multi_muts; eauto.
  - eapply step_proba_muts; eauto.
  - unfold step_multi_interactive. destruct n_moves as [[|row0 rows]|]; try apply muts_nil.
    destruct (mapM _ _); [|constructor]. destruct (_ || _); constructor.
  - destruct (set_position_muts k shape st e name p W) as (e' & M & <-). exact M.
  - destruct (set_walls (e_mdp e) walls) as [m|x] eqn:E; [|constructor]. apply (muts_one _ LWalls); [reflexivity|]. exists walls, m. auto.
  - destruct (env_reset_spec k shape st e W) as (e' & -> & M & _). exact M.
Qed.
Lemma do_op_wf : forall pl k shape st e o, wf k shape st e -> wf k shape st (do_op pl e o).
Proof. intros. eapply muts_wf; [eassumption|]. now apply do_op_muts with (k:=k) (shape:=shape) (st:=st). Qed.
Lemma run_wf : forall pl k shape st l e, wf k shape st e -> wf k shape st (run pl e l).
Proof. induction l; intros e W; [exact W|]. cbn. apply IHl. now apply do_op_wf. Qed.
Lemma run_static : forall pl k shape st l e, wf k shape st e -> static e (run pl e l).
Proof.
  induction l as [|o l IH]; intros e W; [apply static_refl|]. cbn. eapply static_trans; [|apply IH; now apply do_op_wf].
  eapply muts_static; [exact W|]. eapply do_op_muts; eauto.
Qed.
