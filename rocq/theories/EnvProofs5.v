From Coq Require Import String List ZArith Reals Bool Lia Lra.
From Verif Require Import PyBase PyProofs GridModel GridSpec MDPModel MDPSpec MDPProofs MDPProofs2 MDPProofs3 MDPProofs4 MDPProps ActionModel EnvModel EnvSpec StepSpec EnvProofs EnvProofs2 EnvProofs3 EnvProofs4.
Import ListNotations.
Local Open Scope nat_scope.

Lemma with_agent_same : forall k shape st e a, wf k shape st e -> In a (e_agents e) -> with_agent e a = e.
Proof.
  intros k shape st e a W Ha. unfold with_agent.
  assert (PA : put_agent (e_agents e) a = e_agents e).
  { rewrite (put_in _ a a Ha eq_refl). rewrite <- (map_id (e_agents e)) at 2. apply map_ext_in. intros b Hb.
    destruct (String.eqb_spec (at_name b) (at_name a)) as [X|X]; [|reflexivity]. eapply same_name_same; eauto. apply (wf_names _ _ _ _ W). }
  rewrite PA. destruct e; reflexivity.
Qed.

(** What a step did to the agent that moved to state [s], as far as its own record goes. *)
Definition walked (a a2 : attached R) (s : nat) : Prop :=
  ident a2 = ident a /\ at_pos a2 = Z.of_nat s /\ at_hist a2 = at_hist a ++ [Z.of_nat s] /\ at_fit a2 = at_fit a.
(** The agents afterwards: [a2] replaced the agent of the same name. *)
Definition replaced (e e' : env R) (a2 : attached R) : Prop := e_agents e' = put_agent (e_agents e) a2.
Lemma replaced_in : forall e e' a a2, In a (e_agents e) -> at_name a2 = at_name a -> replaced e e' a2 ->
  forall b, In b (e_agents e') <-> b = a2 \/ (In b (e_agents e) /\ at_name b <> at_name a2).
Proof. intros e e' a a2 Ha E -> b. now apply (in_put _ a a2 Ha). Qed.
Lemma put_put : forall (l : list (attached R)) a a1 a2, In a l -> at_name a1 = at_name a -> at_name a2 = at_name a1 ->
  put_agent (put_agent l a1) a2 = put_agent l a2.
Proof.
  intros l a a1 a2 Ha E1 E2. assert (I1 : In a1 (put_agent l a1)) by (apply (in_put l a a1 Ha E1); now left).
  rewrite (put_in _ a1 a2 I1 E2), (put_in l a a1 Ha E1), (put_in l a a2 Ha (eq_trans E2 E1)), map_map. apply map_ext. intros b.
  rewrite E2. destruct (String.eqb_spec (at_name b) (at_name a1)) as [X|X]; [now rewrite String.eqb_refl|].
  destruct (String.eqb_spec (at_name b) (at_name a1)); [contradiction|reflexivity].
Qed.
Definition moved (pl : plugins R) (e : env R) (a : attached R) (seed s : nat) : Prop :=
  exists v q pi i, at_fit a = Some (v, q) /\ get_pi (pl_pi pl (at_name a) seed) q = Ok pi /\
    py_index (length pi) (at_pos a) = Ok i /\ (0 <= nth i pi 0)%Z /\
    get_next_state (e_mdp e) (at_pos a) (nth i pi 0%Z) = Ok s /\ s < m_n_states (e_mdp e).

Lemma env_step_full : forall pl k shape st e nm seed e' r, wf k shape st e -> env_step pl e nm seed = (e', r) ->
  (r = Err ValueError /\ ~ In nm (e_names e) /\ e' = e) \/
  (exists a a' x, agent_named e nm a /\ r = Err x /\ e' = with_agent e a' /\ ident a' = ident a /\ at_pos a' = at_pos a /\
     at_consumed a' = at_consumed a /\ at_hist a' = at_hist a /\ at_fit a' = at_fit a /\ (at_fit a = None -> x = AttributeError /\ e' = e)) \/
  (exists a a2 s, agent_named e nm a /\ moved pl e a seed s /\ walked a a2 s /\ replaced e e' a2 /\
     same_but_features (e_mdp e) (e_mdp e') /\
     ((r = Err IndexError /\ ~ consumes_in_range e /\ e_n_steps e' = e_n_steps e) \/
      (r = Ok (Z.of_nat s) /\ e_n_steps e' = S (e_n_steps e) /\ exists ridx,
        Forall2 (fun z f => py_index (m_n_features (e_mdp e)) z = Ok f) (at_consumes a) ridx /\
        forall f, f < m_n_features (e_mdp e) ->
          let eaten := In f ridx /\ (0 < moved_feat e a s f s)%R in
          (forall t, t < m_n_states (e_mdp e) -> t <> s -> feat (e_mdp e') f t = moved_feat e a s f t) /\
          (eaten -> feat (e_mdp e') f s = 0%R /\ nth f (at_consumed a2) 0 = S (nth f (at_consumed a) 0)) /\
          (~ eaten -> feat (e_mdp e') f s = moved_feat e a s f s /\ nth f (at_consumed a2) 0 = nth f (at_consumed a) 0)))).
Proof.
  intros pl k shape st e nm seed e' r W E. unfold env_step in E.
  destruct (lookup_spec k shape st e nm W) as [(a & EL & Ha & EN)|(EL & NI)]; rewrite EL in E; [|left; inversion E; subst; split; [reflexivity|split; [exact NI|reflexivity]]].
  right. destruct (agent_step pl (e_mdp e) a seed) as [[m1 a1] r1] eqn:ES.
  destruct (agent_step_spec _ _ _ _ _ _ _ _ _ _ W Ha ES) as [(x & -> & -> & H1 & H2 & H3 & H4 & H5 & H6)|H].
  - left. rewrite with_mdp_id in E. exists a, a1, x. split; [split; assumption|]. inversion E. subst e' r.
    split; [reflexivity|]. split; [reflexivity|]. do 5 (split; [assumption|]). intros F. destruct (H6 F) as [-> ->]. split; [reflexivity|].
    eapply with_agent_same; eauto.
  - right. destruct H as (v & q & pi & i & act & s & -> & F & Epi & Ei & -> & An & NS & Hs & -> & H1 & H2 & H3 & H4 & H5 & H6).
    set (e1 := with_agent (with_mdp e (row_set (e_mdp e) (at_idx a) (onehot (e_mdp e) s))) a1) in *. cbv zeta in E.
    assert (M1 : mut LMove e e1).
    { exists a, a1, s. split; [exact Ha|]. split; [exact H1|]. split; [exact H3|]. split; [rewrite H2; now apply py_index_nat|reflexivity]. }
    assert (W1 : wf k shape st e1) by (eapply mut_wf; eauto).
    assert (S1 : static e e1) by (eapply mut_static; eauto).
    assert (I1 : In a1 (e_agents e1)) by (eapply with_agent_in; eauto).
    destruct (ident_name _ _ H1) as (N1 & N2 & N3 & N4 & N5 & _).
    assert (RP : replaced e e1 a1).
    { reflexivity. }
    assert (MV : moved pl e a seed s) by (exists v, q, pi, i; auto 10).
    assert (FE : forall f t, t < m_n_states (e_mdp e) -> feat (e_mdp e1) f t = moved_feat e a s f t).
    { intros f t Ht. unfold e1. cbn [with_agent with_mdp e_mdp]. destruct (wf_agents _ _ _ _ W a Ha) as (Hi & Hf & _).
      rewrite feat_row_set; [|apply (wf_table _ _ _ _ W)|apply (wf_nf _ _ _ _ W)|exact Hi].
      unfold moved_feat. rewrite Hf, (Nat.add_comm (at_idx a)). destruct (f =? _); [|reflexivity]. now apply feat_onehot. }
    assert (SB : same_but_features (e_mdp e) (e_mdp e1)) by reflexivity.
    assert (WK : walked a a1 s) by (unfold walked; auto).
    assert (NF : m_n_features (e_mdp e1) = m_n_features (e_mdp e)) by reflexivity.
    assert (SN : e_n_steps e1 = e_n_steps e) by reflexivity.
    assert (SO1 : stands_on (e_mdp e1) (at_pos a1) s) by (rewrite H2; now apply py_index_nat).
    clearbody e1. unfold env_consume in E. destruct (at_consumes a1) as [|z l] eqn:EC.
    + exists a, a1, s. split; [split; assumption|]. split; [exact MV|]. split; [exact WK|].
      inversion E. subst e' r. cbn [tick e_agents e_mdp e_n_steps]. split; [exact RP|]. split; [exact SB|]. right. split; [now rewrite H2|]. split; [cbn; now rewrite SN|].
      exists []. split; [rewrite <- N3; constructor|]. intros f Hf. cbv zeta. split; [intros t Ht _; cbn; auto|].
      split; [intros [[] _]|]. intros _. rewrite H3. cbn; auto.
    + rewrite <- EC in E, N3. destruct (consume_features (e_mdp e1) (at_consumes a1) (at_pos a1)) as [m' [c|x]] eqn:CE.
      * destruct (consume_result _ _ _ _ _ _ _ W1 I1 CE) as (g & EM & SH & _ & _ & L). specialize (L c eq_refl).
        destruct (consume_resolved _ _ _ _ _ _ _ W1 I1 CE) as (ridx & p & SO & F2 & _ & _ & CR).
        unfold stands_on in SO, SO1. rewrite SO1 in SO. inversion SO. subst p. clear SO.
        destruct (wf_agents _ _ _ _ W1 a1 I1) as (_ & _ & LC & _). rewrite LC, L, Nat.eqb_refl in E.
        set (a2 := set_consumed a1 (map (fun '(x, y) => x + y) (combine (at_consumed a1) c))) in *.
        exists a, a2, s. split; [split; assumption|]. split; [exact MV|]. split; [unfold walked; cbn; auto|].
        inversion E. subst e' r. split.
        { unfold replaced in *. cbn [tick with_agent with_mdp e_agents]. rewrite RP. now apply (put_put _ a). }
        split. { cbn [tick with_agent with_mdp e_mdp]. rewrite EM, SB. reflexivity. }
        right. split; [now rewrite H2|]. split; [cbn; now rewrite SN|]. exists ridx. split; [rewrite <- N3, <- NF; exact F2|].
        intros f Hf. cbv zeta. rewrite <- NF in Hf. destruct (CR f Hf) as (C1 & C2 & C3 & C4). cbn [tick with_agent with_mdp e_mdp].
        assert (NC : nth f (at_consumed a2) 0 = nth f (at_consumed a) 0 + nth f c 0).
        { unfold a2. cbn [at_consumed set_consumed]. rewrite nth_add by congruence. now rewrite H3. }
        split; [intros t Ht Nt; rewrite C1 by exact Nt; now apply FE|].
        rewrite FE in C2, C3, C4 by exact Hs. split.
        -- intros [X Y]. destruct (C3 X Y) as [Z1 Z2]. split; [exact Z1|]. rewrite NC, Z2. lia.
        -- intros N. destruct (in_dec Nat.eq_dec f ridx) as [X|X].
           ++ destruct (Rlt_le_dec 0 (moved_feat e a s f s)) as [Y|Y]; [elim N; auto|]. destruct (C4 X Y) as [Z1 Z2]. split; [exact Z1|]. rewrite NC, Z2. lia.
           ++ destruct (C2 X) as [Z1 Z2]. split; [exact Z1|]. rewrite NC, Z2. lia.
      * destruct (consume_result _ _ _ _ _ _ _ W1 I1 CE) as (g & EM & SH & _ & X & _). destruct (X x eq_refl) as (-> & z' & Hz & Rz).
        exists a, a1, s. split; [split; assumption|]. split; [exact MV|]. split; [exact WK|]. inversion E. subst e' r. cbn [with_mdp e_agents e_mdp e_n_steps].
        split; [exact RP|]. split; [rewrite EM, SB; reflexivity|]. left. split; [reflexivity|]. split; [|exact SN].
        intros C. specialize (C a Ha z'). rewrite <- N3 in C. specialize (C Hz). rewrite NF in Rz. lia.
Qed.

(** Fitting and probabilistic stepping touch only fit and policy. *)
Definition refitted (e e' : env R) : Prop :=
  e_mdp e' = e_mdp e /\ e_names e' = e_names e /\
  map (fun a => (ident a, at_pos a, at_hist a, at_consumed a)) (e_agents e') = map (fun a => (ident a, at_pos a, at_hist a, at_consumed a)) (e_agents e).
Lemma refitted_refl : forall e, refitted e e. Proof. repeat split. Qed.
Lemma refitted_with : forall k shape st e a a', wf k shape st e -> In a (e_agents e) -> ident a' = ident a -> at_pos a' = at_pos a ->
  at_hist a' = at_hist a -> at_consumed a' = at_consumed a -> refitted e (with_agent e a').
Proof.
  intros k shape st e a a' W Ha EI EP EH EC. split; [reflexivity|]. split; [reflexivity|]. cbn [with_agent e_agents].
  destruct (ident_name _ _ EI) as (EN & _). apply (map_put _ _ _ a); auto; [apply (wf_names _ _ _ _ W)|]. congruence.
Qed.
Lemma env_fit_refitted : forall pl k shape st e nm n s s', wf k shape st e ->
  refitted e (fst (env_fit pl e nm n s s')) /\ e_n_steps (fst (env_fit pl e nm n s s')) = e_n_steps e.
Proof.
  intros pl k shape st e nm n s s' W. unfold env_fit. destruct (lookup_spec k shape st e nm W) as [(a & EL & Ha & EN)|(EL & _)]; rewrite EL; [|split; [apply refitted_refl|reflexivity]].
  destruct (alg_fit pl e a n s) as [f|x].
  2:{ unfold failed_fit. destruct (_ && _); [|split; [apply refitted_refl|reflexivity]]. cbn [fst]. split; [|reflexivity]. eapply refitted_with; eauto. }
  destruct (get_policy pl (set_fit a (Some f)) s') as [a' r] eqn:GP. destruct (get_policy_spec _ _ _ _ _ GP) as (H1 & H2 & H3 & H4 & H5 & _).
  cbn [fst]. split; [|reflexivity]. eapply refitted_with; eauto.
Qed.
Lemma step_proba_refitted : forall pl k shape st e nm p s, wf k shape st e -> refitted e (fst (env_step_proba pl e nm p s)).
Proof.
  intros pl k shape st e nm p s W. unfold env_step_proba. destruct (lookup_spec k shape st e nm W) as [(a & EL & Ha & EN)|(EL & _)]; rewrite EL; [|apply refitted_refl].
  destruct (agent_step_proba pl (e_mdp e) a p s) as [a' r] eqn:E.
  assert (K : ident a' = ident a /\ at_pos a' = at_pos a /\ at_consumed a' = at_consumed a /\ at_hist a' = at_hist a).
  { unfold agent_step_proba in E. destruct (match p with Some p0 => _ | None => _ end) as [pos|x]; [|inversion E; auto].
    destruct (negb _); [inversion E; auto|]. destruct (at_fit a); [|inversion E; auto].
    destruct (get_policy pl a s) as [a1 [[]|x]] eqn:GP; destruct (get_policy_spec _ _ _ _ _ GP) as (H1 & H2 & H3 & H4 & _).
    - destruct (at_pi_p a1); inversion E; subst; auto.
    - inversion E; subst; auto. }
  destruct K as (K1 & K2 & K3 & K4). destruct r; cbn [fst]; eapply (refitted_with k shape st e a a'); eauto.
Qed.
Lemma refitted_in : forall e e' b, refitted e e' -> In b (e_agents e') ->
  exists a, In a (e_agents e) /\ ident b = ident a /\ at_pos b = at_pos a /\ at_hist b = at_hist a /\ at_consumed b = at_consumed a.
Proof.
  intros e e' b (_ & _ & H) Hb.
  assert (X : In (ident b, at_pos b, at_hist b, at_consumed b) (map (fun a => (ident a, at_pos a, at_hist a, at_consumed a)) (e_agents e))).
  { rewrite <- H. apply (in_map (fun a => (ident a, at_pos a, at_hist a, at_consumed a))). exact Hb. }
  apply in_map_iff in X. destruct X as (a & E & Ha). exists a.
  pose proof (f_equal (fun x => fst (fst (fst x))) E) as E1. pose proof (f_equal (fun x => snd (fst (fst x))) E) as E2.
  pose proof (f_equal (fun x => snd (fst x)) E) as E3. pose proof (f_equal snd E) as E4. cbn [fst snd] in *. auto 10.
Qed.

(** A predicate kept by fitting and stepping is kept by multi-stepping. *)
Lemma kept_by_stepping : forall pl k shape st (P : env R -> Prop),
  (forall e nm n s s', wf k shape st e -> P e -> P (fst (env_fit pl e nm n s s'))) ->
  (forall e nm s, wf k shape st e -> P e -> P (fst (env_step pl e nm s))) ->
  forall e o, wf k shape st e -> P e -> counted_op o -> P (do_op pl e o).
Proof.
  intros pl k shape st P HF HS.
  assert (ML : forall nm rf stop nt nas plan rnd todo i acc e, wf k shape st e -> P e ->
    P (fst (multi_loop pl e nm rf stop nt nas plan rnd i todo acc))).
  { induction todo as [|todo IH]; intros i acc e W Pe; cbn [multi_loop]; [exact Pe|].
    set (s1 := rnd (3 * i)). set (s2 := rnd (3 * i + 1)). set (s3 := rnd (3 * i + 2)).
    assert (RF : P (fst (refit_step pl e nm rf i nt nas plan s1 s2)) /\ wf k shape st (fst (refit_step pl e nm rf i nt nas plan s1 s2))).
    { unfold refit_step. destruct rf; [|auto]. destruct (step_plan i nt nas plan); [|auto]. split; [now apply HF|].
      eapply muts_wf; [exact W|]. eapply env_fit_muts; eauto. }
    destruct (refit_step pl e nm rf i nt nas plan s1 s2) as [e1 [[]|x]]; cbn [fst] in *; [|apply RF].
    destruct RF as [P1 W1]. pose proof (HS e1 nm s3 W1 P1) as P2.
    assert (W2 : wf k shape st (fst (env_step pl e1 nm s3))) by (eapply muts_wf; [exact W1|]; eapply env_step_muts; eauto).
    destruct (env_step pl e1 nm s3) as [e2 [p|x]]; cbn [fst] in *; [|exact P2].
    match goal with |- context [if ?b then _ else _] => destruct b end; cbn [fst]; [exact P2|]. now apply IH. }
  intros e o W Pe Ho. destruct o; cbn [do_op counted_op] in *; try contradiction.
  - now apply HF.
  - now apply HS.
  - unfold step_multi. destruct (lookup e name); [|exact Pe]. destruct (all_n_steps e name) as [nas|]; [|exact Pe]. destruct (negb _); [exact Pe|].
    assert (X : forall r, P (fst (if negb (forallb (fun i => (0 <? i)%Z) match plan with Some p0 => p0 | None => nas end) then (e, Err ValueError)
       else match r with Ok n0 => multi_loop pl e name refit stop n_turns nas match plan with Some p0 => p0 | None => nas end rnd 0 (Z.to_nat n0) [] | Err x => (e, Err x) end))).
    { intros r. destruct (negb _); [exact Pe|]. destruct r; [|exact Pe]. now apply ML. }
    destruct n_steps as [|z|[|z]|]; [apply (X (Ok (at_n_moves a)))|apply (X (Ok z))|exact Pe|apply (X (Ok z))|apply (X (Err UnboundLocalError))].
  - unfold step_multi_interactive. destruct n_moves as [[|row0 rows]|]; try exact Pe.
    destruct (mapM _ _); [|exact Pe]. destruct (_ || _); exact Pe.
Qed.

Lemma kept_by_walking : forall pl k shape st (P : env R -> Prop),
  (forall e nm n s s', wf k shape st e -> P e -> P (fst (env_fit pl e nm n s s'))) ->
  (forall e nm s, wf k shape st e -> P e -> P (fst (env_step pl e nm s))) ->
  (forall e nm p s, wf k shape st e -> P e -> P (fst (env_step_proba pl e nm p s))) ->
  (forall e, wf k shape st e -> P e -> P (fst (env_reset e))) ->
  forall e o, wf k shape st e -> P e -> walk_op o -> P (do_op pl e o).
Proof.
  intros pl k shape st P HF HS HP HR e o W Pe Ho.
  destruct o; cbn [walk_op] in Ho; try contradiction; try (apply (kept_by_stepping pl k shape st P HF HS); [exact W|exact Pe|exact I]).
  - now apply HP.
  - now apply HR.
Qed.
