(** Properties C15-C18 and C62-C65: environments, their construction, consumption, agent rows, reset. *)
From Coq Require Import String List ZArith QArith Reals Bool Lia Lra.
From Verif Require Import PyBase PyProofs GridModel GridSpec MDPModel MDPSpec MDPProofs MDPProofs2 MDPProofs3 MDPProofs4 MDPProps ActionModel EnvModel EnvSpec EnvProofs EnvProofs2 EnvProofs3 EnvProofs4.
Import ListNotations.
Local Close Scope Q_scope.
Local Open Scope nat_scope.

(** ** Examples used below: a 2 x 2 square grid, two agents; the second one eats feature 0 and the first agent. *)
Definition ex_ft {A} `{Num A} : list (list A) := [[n1; n0; n0; n1]; [n0; n1; n0; n0]].
Definition ex_p {A} `{Num A} : spec A := mkSpec "p"%string 2 None 0 [n1; n0; n0; n0] [0%Z].
Definition ex_q {A} `{Num A} : spec A := mkSpec "q"%string 1 None 3 [n1; n0; n1; n0] [2%Z; 0%Z].
(** Plug-ins: every agent plays the given list of actions. *)
Definition ex_pl {A} `{Num A} (acts : list Z) : plugins A :=
  mkPlugins (fun _ e _ _ => null_fit e) (fun _ _ _ => Ok acts) (fun _ q => Ok q) (fun _ => false).

Lemma ex_usable : forall pl, exists m, grid_mdp (A:=R) Square ex_ft None (2, 2) false = Ok m /\ usable pl m /\
  n_ordinary m = 2 /\ m_n_states m = 4.
Proof.
  intros pl. destruct (grid_mdp_ok Square ex_ft None (2, 2) false) as (m & E & G & H1 & H2 & H3 & H4 & H5 & H6).
  - cbn; lia.
  - repeat constructor.
  - reflexivity.
  - apply binary_zeros.
  - exists m. split; [exact E|]. split; [exact (usable_grid pl _ _ _ _ _ _ [] E)|]. unfold n_ordinary. rewrite H4, H5, (gi_ns _ _ _ _ G). auto.
Qed.

(** ** C17: construction *)

(** The constructor accepts exactly the valid entries. *)
Theorem C17_accepts_iff : forall pl m ss, usable pl m ->
  ((exists m' e, make_env m ss = (m', Ok e)) <-> forall s, In s ss -> valid_entry (n_ordinary m) (length ss) (m_n_states m) s).
Proof.
  intros pl m ss U. destruct (usable_clean _ _ U) as (k & shape & st & C). split.
  - intros (m' & e & E). eapply make_env_valid; eauto.
  - intros V. destruct (make_env_ok k shape st m ss C V) as (m0 & _ & _ & _ & _ & _ & _ & _ & _ & _ & E). eauto.
Qed.

Theorem C17_rejects : forall pl m ss s, usable pl m -> In s ss -> ~ valid_entry (n_ordinary m) (length ss) (m_n_states m) s ->
  exists m' x, make_env m ss = (m', Err x) /\ (x = AttributeError \/ x = ValueError \/ x = IndexError).
Proof. intros pl m ss s U Hs NV. destruct (usable_clean _ _ U) as (k & shape & st & C). eapply make_env_err; eauto. Qed.

Lemma agents_from_nth : forall non ss idx i, nth_error (agents_from non idx ss) i = option_map (new_agent non (idx + i)) (nth_error ss i).
Proof.
  induction ss as [|s ss IH]; intros idx [|i]; cbn; try reflexivity; [now rewrite Nat.add_0_r|].
  rewrite IH. destruct (nth_error ss i); [|reflexivity]. cbn. do 2 f_equal. lia.
Qed.
Lemma agents_from_len : forall non ss idx, length (agents_from non idx ss) = length ss.
Proof. induction ss; intros; cbn; auto. Qed.
Lemma agents_from_names : forall non ss idx, map at_name (agents_from non idx ss) = map sp_name ss.
Proof. induction ss; intros; cbn; [reflexivity|]. now rewrite IHss. Qed.

(** On success, with distinct names: agent [i] is entry [i], fresh; its feature row is
    [ordinary + i], marking its position; the ordinary features, transitions and walls are those of
    the MDP that was passed, rows of earlier agents having been dropped. *)
Theorem C17_result : forall pl m ss m' e, usable pl m -> NoDup (map sp_name ss) -> make_env m ss = (m', Ok e) ->
  e_mdp e = m' /\ e_n_steps e = 0 /\ e_n_agents e = length ss /\ e_names e = map sp_name ss /\ length (e_agents e) = length ss /\
  (forall i s, nth_error ss i = Some s -> exists a, nth_error (e_agents e) i = Some a /\ fresh a s i (n_ordinary m + i) /\
     exists p, stands_on m (sp_pos s) p /\ forall t, t < m_n_states m -> feat m' (n_ordinary m + i) t = if t =? p then 1%R else 0%R) /\
  m_n_features m' = n_ordinary m + length ss /\
  (forall f t, f < n_ordinary m -> feat m' f t = feat m f t) /\ m_sas m' = m_sas m /\ m_walls m' = m_walls m.
Proof.
  intros pl m ss m' e U ND E. destruct (usable_clean _ _ U) as (k & shape & st & C). pose proof (make_env_valid _ _ _ _ _ _ _ C E) as V.
  destruct (make_env_ok k shape st m ss C V) as (m0 & C0 & A0 & F0 & N0 & S0 & W0 & NS0 & _ & _ & E'). cbv zeta in E'. rewrite E in E'.
  set (m1 := match ss with [] => m0 | _ => extended m0 (rows_from m0 ss) end) in *.
  rewrite (dict_distinct (m_n_non_agent m0) ss 0 []) in E' by exact ND. cbn [app] in E'. rewrite agents_from_len in E'.
  assert (PI : forall (x y : mdp R) (u v : res (env R)), (x, u) = (y, v) -> x = y /\ u = v) by (intros x y u v X; inversion X; auto).
  apply PI in E'. destruct E' as [-> EE]. assert (OI : forall u v : env R, Ok u = Ok v -> u = v) by congruence. apply OI in EE. subst e. clear OI PI.
  cbn [e_mdp e_n_steps e_n_agents e_names e_agents]. rewrite agents_from_len. do 5 (split; [reflexivity|]).
  pose proof C0 as [G [T _] NF _ _].
  assert (M1 : m_features m1 = m_features m0 ++ rows_from m0 ss) by (unfold m1; destruct ss; [now rewrite app_nil_r|reflexivity]).
  assert (L0 : length (m_features m0) = n_ordinary m) by lia.
  split.
  { intros i s Hn. exists (new_agent (m_n_non_agent m0) i s). rewrite agents_from_nth, Hn. split; [reflexivity|]. split.
    - unfold fresh. cbn. repeat split. lia.
    - assert (Hs : In s ss) by (eapply nth_error_In; eauto). destruct (V s Hs) as (V1 & V2 & V3).
      assert (SO : exists p, stands_on m0 (sp_pos s) p) by (apply stands_on_iff; rewrite NS0; exact V3). destruct SO as (p & SO).
      exists p. split; [unfold stands_on in *; now rewrite <- NS0|]. intros t Ht. unfold feat, get2. rewrite M1, app_nth2 by lia.
      replace (n_ordinary m + i - length (m_features m0)) with i by lia. rewrite (rows_from_nth m0 ss i s p Hn SO).
      apply feat_onehot; [eapply py_index_ok; exact SO|lia]. }
  split. { destruct ss; unfold m1; cbn [m_n_features extended length]; [lia|]. rewrite app_length, rows_from_len. cbn [length]. lia. }
  split. { intros f t Hf. unfold feat, get2. rewrite M1, app_nth1 by lia. rewrite F0, nth_firstn_lt by exact Hf. reflexivity. }
  unfold m1. destruct ss; auto.
Qed.

Example C17_example : forall pl, exists m m' e, usable pl m /\ make_env m [ex_p; ex_q] = (m', Ok e) /\ NoDup (map sp_name [ex_p (A:=R); ex_q]).
Proof.
  intros pl. destruct (ex_usable pl) as (m & _ & U & N & S). destruct (proj2 (C17_accepts_iff pl m [ex_p; ex_q] U)) as (m' & e & E).
  - rewrite N, S. intros s [<-|[<-|[]]]; (split; [reflexivity|]; split; [cbn; intros z Hz; lia|cbn; lia]).
  - exists m, m', e. split; [exact U|]. split; [exact E|]. repeat constructor; cbn; intuition discriminate.
Qed.
Example C17_example_run : exists m m' e, grid_mdp (A:=Q) Square ex_ft None (2, 2) false = Ok m /\ make_env m [ex_p; ex_q] = (m', Ok e) /\
  m_features m' = [[1; 0; 0; 1]; [0; 1; 0; 0]; [1; 0; 0; 0]; [0; 0; 0; 1]]%Q /\
  fst (make_env m' [ex_q]) = fst (make_env m [ex_q]) /\ snd (make_env m [ex_p]) = Err AttributeError.
Proof. do 3 eexists. vmr. Qed.

(** ** C15: conservation of features *)
Definition no_reset (o : op R) : Prop := o <> OReset.

Theorem C15_conserved : forall pl e l f, reachable pl e -> consumes_in_range e -> Forall no_reset l -> f < n_ordinary (e_mdp e) ->
  let e' := run pl e l in
  holding (e_mdp e') f + total_consumed e' f = holding (e_mdp e) f + total_consumed e f.
Proof.
  intros pl e l f H CR NR Hf. destruct (reachable_wf _ _ H) as (k & shape & st & W). clear H. cbv zeta.
  assert (Hf' : f < m_n_non_agent (e_mdp e)) by (unfold n_ordinary in Hf; rewrite (wf_nf _ _ _ _ W) in Hf; lia). clear Hf.
  revert e W CR Hf'. induction NR as [|o l Ho NR IH]; intros e W CR Hf; [reflexivity|]. cbn [run fold_left]. fold (run pl (do_op pl e o) l).
  pose proof (do_op_muts pl k shape st e o W) as M. assert (S : static e (do_op pl e o)) by (eapply muts_static; eauto).
  rewrite IH.
  - eapply muts_conserved; eauto.
    + destruct o; cbn; try tauto; try discriminate. elim Ho. reflexivity.
    + destruct o; cbn; try tauto; discriminate.
  - now apply do_op_wf.
  - eapply static_consumes; eauto.
  - destruct S as (_ & _ & X). unfold mident in X. inversion X. lia.
Qed.

(** In a new environment nothing has been consumed, so the total is what the MDP held. *)
Theorem C15_from_start : forall pl m ss m' e l f, usable pl m -> make_env m ss = (m', Ok e) -> consumes_in_range e -> Forall no_reset l -> f < n_ordinary m ->
  let e' := run pl e l in holding (e_mdp e') f + total_consumed e' f = holding m f.
Proof.
  intros pl m ss m' e l f U E CR NR Hf. cbv zeta. pose proof (reach_new pl m ss m' e U E) as RE. destruct (usable_clean _ _ U) as (k & shape & st & C).
  pose proof (make_env_wf _ _ _ _ _ _ _ C E) as W.
  pose proof (make_env_valid _ _ _ _ _ _ _ C E) as V.
  destruct (make_env_ok k shape st m ss C V) as (m0 & C0 & A0 & F0 & N0 & S0 & W0 & NS0 & _ & _ & E'). cbv zeta in E'. rewrite E in E'.
  set (m1 := match ss with [] => m0 | _ => extended m0 (rows_from m0 ss) end) in *. set (ags := fold_left _ _ _) in *.
  assert (PI : forall (x y : mdp R) (u v : res (env R)), (x, u) = (y, v) -> x = y /\ u = v) by (intros x y u v X; inversion X; auto).
  apply PI in E'. destruct E' as [-> EE]. assert (OI : forall u v : env R, Ok u = Ok v -> u = v) by congruence. apply OI in EE. subst e. clear OI PI.
  pose proof C0 as [G [T _] NF _ _].
  assert (M1 : m_features m1 = m_features m0 ++ rows_from m0 ss) by (unfold m1; destruct ss; [now rewrite app_nil_r|reflexivity]).
  rewrite (C15_conserved pl _ l f RE CR NR).
  - cbn [e_mdp]. assert (HH : holding m1 f = holding m f).
    { apply holding_ext; [unfold m1; destruct ss; exact NS0|]. intros t Ht. unfold feat, get2. rewrite M1, app_nth1 by lia. rewrite F0, nth_firstn_lt by exact Hf. reflexivity. }
    assert (TT : total_consumed (mkEnv m1 (map sp_name ss) ags (length ags) 0) f = 0); [|lia].
    unfold total_consumed. cbn [e_agents].
    destruct (dict_inv (m_n_non_agent m0) ss 0 []) as (_ & _ & _ & D4); [constructor|constructor|intros a []|]. fold ags in D4.
    assert (Z : forall a, In a ags -> nth f (at_consumed a) 0 = 0).
    { intros a Ha. destruct (D4 a Ha) as [[]|Hin]. destruct (agents_from_in _ _ _ _ Hin) as (i & s & Hn & ->). cbn. apply nth_repeat. }
    clear -Z. induction ags as [|a l0 IH]; [reflexivity|]. cbn. rewrite (Z a (or_introl eq_refl)). cbn. apply IH. intros; apply Z; now right.
  - pose proof (wf_clean _ _ _ _ W) as [_ _ NF1 _ _]. cbn [e_mdp] in *. unfold n_ordinary in *.
    destruct ss; unfold m1 in *; cbn [m_n_features m_n_agents extended] in *; [lia|]. rewrite app_length. lia.
Qed.

Example C15_example : forall pl, exists m m' e, usable pl m /\ make_env m [ex_p; ex_q] = (m', Ok e) /\ consumes_in_range e /\ 0 < n_ordinary m.
Proof.
  intros pl. destruct (C17_example pl) as (m & m' & e & U & E & ND). exists m, m', e. split; [exact U|]. split; [exact E|].
  destruct (C17_result pl m _ m' e U ND E) as (EM & _ & _ & _ & L & HI & NF & _).
  destruct (ex_usable pl) as (m2 & G2 & _ & N2 & _).
  assert (V : valid_entry (n_ordinary m) 2 (m_n_states m) ex_p) by (apply (proj1 (C17_accepts_iff pl m [ex_p; ex_q] U)); [eauto|now left]).
  destruct V as (V & _). cbn in V. split; [|lia].
  cbn [length] in L.
  intros a Ha z Hz. apply In_nth_error in Ha. destruct Ha as (i & Hi). assert (i < 2) by (rewrite <- L; apply nth_error_Some; congruence).
  rewrite EM, NF. cbn [length].
  destruct i as [|[|]]; [| |lia].
  - destruct (HI 0 ex_p eq_refl) as (b & Eb & (_ & _ & _ & CO & _) & _). rewrite Hi in Eb. inversion Eb. subst b. rewrite CO in Hz. cbn in Hz. lia.
  - destruct (HI 1 ex_q eq_refl) as (b & Eb & (_ & _ & _ & CO & _) & _). rewrite Hi in Eb. inversion Eb. subst b. rewrite CO in Hz. cbn in Hz. lia.
Qed.
(** In a run: agent q walks 3, 2, 0 and eats feature 0 there, then agent p walks. *)
Example C15_example_run : exists m m' e, grid_mdp (A:=Q) Square ex_ft None (2, 2) false = Ok m /\ make_env m [ex_p; ex_q] = (m', Ok e) /\
  let e' := run (ex_pl [0; 1; 3; 2]%Z) e [OFit "q" None 0 0; OStep "q" 0; OStep "q" 0; OFit "p" None 0 0; OStepMulti "p" (StepsInt 3) None 1 false true (fun _ => 0)] in
  (holding (e_mdp e) 0, total_consumed e 0) = (2, 0) /\ holding (e_mdp e') 0 + total_consumed e' 0 = 2 /\ 0 < total_consumed e' 0.
Proof. do 3 eexists. split; [vm_compute; reflexivity|]. split; [vm_compute; reflexivity|]. split; [vm_compute; reflexivity|]. split; [vm_compute; reflexivity|vm_compute; lia]. Qed.

(** ** C62: consumed features below the range are accepted, and then features vanish unrecorded. *)
Definition ex_bad {A} `{Num A} : spec A := mkSpec "b"%string 1 None 1 [n1; n0; n0] [0; -100]%Z.
Theorem C62_low_consumes_refuted : exists m m' e, grid_mdp (A:=Q) Square ex_ft None (2, 2) false = Ok m /\ make_env m [ex_bad] = (m', Ok e) /\
  ~ consumes_in_range e /\
  let e1 := fst (env_fit (ex_pl [0; 1; 0; 0]%Z) e "b" None 0 0) in
  let '(e2, r) := env_step (ex_pl [0; 1; 0; 0]%Z) e1 "b" 0 in
  r = Err IndexError /\ map at_hist (e_agents e2) = [[1; 3]%Z] /\
  holding (e_mdp e1) 0 = 2 /\ holding (e_mdp e2) 0 = 1 /\ total_consumed e2 0 = 0 /\ e_n_steps e2 = 0.
Proof.
  do 3 eexists. split; [vm_compute; reflexivity|]. split; [vm_compute; reflexivity|]. split.
  - intros H. specialize (H _ (or_introl eq_refl) (-100)%Z (or_intror (or_introl eq_refl))). vm_compute in H. destruct H as [H _]. apply H. reflexivity.
  - vm_compute. repeat split.
Qed.
(** What the constructor does guarantee: no consumed feature is above the range. *)
Theorem C62_upper_bound_partial : forall pl e, reachable pl e -> forall a, In a (e_agents e) -> forall z, In z (at_consumes a) -> (z < Z.of_nat (m_n_features (e_mdp e)))%Z.
Proof. intros pl e H a Ha. destruct (reachable_wf _ _ H) as (k & shape & st & W). apply (wf_agents _ _ _ _ W a Ha). Qed.
(** C233: consumed features are below the number of features. *)
Theorem C233_consumes : forall pl e, reachable pl e -> forall a, In a (e_agents e) -> forall z, In z (at_consumes a) -> (z < Z.of_nat (m_n_features (e_mdp e)))%Z.
Proof. exact (@C62_upper_bound_partial). Qed.

(** ** C16: the row of an agent *)
Theorem C16_marks_only_position : forall pl e a s, reachable pl e -> In a (e_agents e) -> stands_on (e_mdp e) (at_pos a) s ->
  (forall t, t < m_n_states (e_mdp e) -> t <> s -> feat (e_mdp e) (at_feature_idx a) t = 0%R) /\
  (feat (e_mdp e) (at_feature_idx a) s = 0%R \/ feat (e_mdp e) (at_feature_idx a) s = 1%R).
Proof.
  intros pl e a s H Ha Hs. destruct (reachable_marks _ _ H) as [M _]. destruct (reachable_wf _ _ H) as (k & shape & st & W).
  destruct (M a Ha) as (s' & Hs' & H1). assert (s' = s) by (unfold stands_on in *; congruence). subst s'.
  destruct (wf_agents _ _ _ _ W a Ha) as (_ & -> & _). unfold row_index in H1. rewrite Nat.add_comm in H1. exact H1.
Qed.

(** Every agent always stands on a state. *)
Theorem C16_on_a_state : forall pl e a, reachable pl e -> In a (e_agents e) -> exists s, stands_on (e_mdp e) (at_pos a) s /\ s < m_n_states (e_mdp e).
Proof.
  intros pl e a H Ha. destruct (reachable_wf _ _ H) as (k & shape & st & W). destruct (wf_agents _ _ _ _ W a Ha) as (_ & _ & _ & _ & (s & Hs) & _).
  exists s. split; [exact Hs|]. eapply py_index_ok; exact Hs.
Qed.

(** No agent consumes agent features. *)
Definition eats_only_ordinary (e : env R) : Prop := forall a, In a (e_agents e) -> forall z, In z (at_consumes a) ->
  (0 <= z < Z.of_nat (n_ordinary (e_mdp e)))%Z.
(** A position given to [set_agent_position] is not below the range of Python indices. *)
Definition position_ok (e : env R) (o : op R) : Prop :=
  match o with OSetPosition _ p => (- Z.of_nat (m_n_states (e_mdp e)) <= p)%Z | _ => True end.

Theorem C16_one_hot : forall pl m ss m' e l, usable pl m -> make_env m ss = (m', Ok e) -> eats_only_ordinary e -> Forall (position_ok e) l ->
  let e' := run pl e l in forall a, In a (e_agents e') -> exists s, stands_on (e_mdp e') (at_pos a) s /\
    forall t, t < m_n_states (e_mdp e') -> feat (e_mdp e') (at_feature_idx a) t = if t =? s then 1%R else 0%R.
Proof.
  intros pl m ss m' e l U E EO PO. cbv zeta. destruct (usable_clean _ _ U) as (k & shape & st & C). pose proof (usable_fresh_orig _ _ U) as FO.
  pose proof (make_env_wf _ _ _ _ _ _ _ C E) as W. destruct (make_env_marks _ _ _ _ _ _ _ C FO E) as [M O].
  assert (CO : consumes_ordinary e).
  { intros a Ha z f Hz Ez. specialize (EO a Ha z Hz). apply py_index_ok in Ez. unfold n_ordinary in EO. rewrite (wf_nf _ _ _ _ W) in *. lia. }
  assert (CR : consumes_in_range e).
  { intros a Ha z Hz. specialize (EO a Ha z Hz). unfold n_ordinary in EO. lia. }
  clear U E C FO EO.
  assert (K : forall l e, Forall (position_ok e) l -> wf k shape st e -> marks1 e -> orig_marks e -> consumes_ordinary e -> consumes_in_range e ->
    wf k shape st (run pl e l) /\ marks1 (run pl e l)).
  { clear. induction l as [|o l IH]; intros e PO W M O CO CR; [auto|]. inversion PO as [|? ? P0 PO']. subst. cbn [run fold_left]. fold (run pl (do_op pl e o) l).
    pose proof (do_op_muts pl k shape st e o W) as MM. assert (S : static e (do_op pl e o)) by (eapply muts_static; eauto).
    apply IH.
    - eapply Forall_impl; [|exact PO']. intros [] Hp; cbn in *; auto. destruct S as (_ & _ & X). unfold mident in X. inversion X as [[E0 E1 E2 E3 E4 E5 E6 E7]]. now rewrite E2.
    - now apply do_op_wf.
    - assert (D : o = OReset \/ o <> OReset) by (destruct o; auto; right; discriminate). destruct D as [->|D].
      + cbn [do_op]. destruct (env_reset_spec k shape st e W) as (e2 & E2 & _). rewrite E2. eapply reset_marks1; eauto.
      + eapply muts_marks1; eauto.
        * destruct o; cbn; try tauto; try congruence.
        * destruct o; cbn; try tauto; try congruence. cbn in P0. lia.
        * destruct o; cbn; try tauto; congruence.
    - eapply static_orig_marks; eauto.
    - eapply static_ordinary; eauto.
    - eapply static_consumes; eauto. }
  destruct (K l e PO W M O CO CR) as [W' M']. intros a Ha. destruct (M' a Ha) as (s & H1 & H2). exists s. split; [exact H1|].
  destruct (wf_agents _ _ _ _ W' a Ha) as (_ & -> & _). unfold row_index in H2. rewrite Nat.add_comm in H2. exact H2.
Qed.

(** The exception: a position below the range erases the agent's mark, and the agent stays where it was. *)
Theorem C16_bad_position_erases : exists m m' e, grid_mdp (A:=Q) Square ex_ft None (2, 2) false = Ok m /\ make_env m [ex_p; ex_q] = (m', Ok e) /\
  let '(e', r) := set_agent_position e "p" (-5) in r = Err IndexError /\ map at_pos (e_agents e') = map at_pos (e_agents e) /\
  nth 2 (m_features (e_mdp e)) [] = [1; 0; 0; 0]%Q /\ nth 2 (m_features (e_mdp e')) [] = [0; 0; 0; 0]%Q.
Proof. do 3 eexists. split; [vm_compute; reflexivity|]. split; [vm_compute; reflexivity|]. vm_compute. repeat split. Qed.

Example C16_example : exists m m' e, grid_mdp (A:=Q) Square ex_ft None (2, 2) false = Ok m /\ make_env m [ex_p; ex_q] = (m', Ok e) /\
  let e' := run (ex_pl [0; 0; 0; 0]%Z) e [OSetPosition "p" 1; OSetPosition "q" (-2); OFit "q" None 0 0; OStep "q" 0] in
  map at_pos (e_agents e') = [1; 3]%Z /\ skipn 2 (m_features (e_mdp e')) = [[0; 1; 0; 0]; [0; 0; 0; 1]]%Q.
Proof. do 3 eexists. split; [vm_compute; reflexivity|]. split; [vm_compute; reflexivity|]. vm_compute. repeat split. Qed.

(** ** C18: reset *)
Theorem C18_reset : forall pl m ss m' e l, usable pl m -> make_env m ss = (m', Ok e) ->
  exists e', env_reset (run pl e l) = (e', Ok tt) /\ m_features (e_mdp e') = m_features (e_mdp e) /\
    map at_name (e_agents e') = map at_name (e_agents e) /\
    forall a, In a (e_agents e) -> exists b, In b (e_agents e') /\ at_name b = at_name a /\ at_pos b = at_pos a /\
      at_hist b = [at_pos a] /\ at_pi b = None /\ at_pi_p b = None.
Proof.
  intros pl m ss m' e l U E. destruct (usable_clean _ _ U) as (k & shape & st & C). pose proof (usable_fresh_orig _ _ U) as FO.
  pose proof (make_env_wf _ _ _ _ _ _ _ C E) as W. destruct (make_env_orig _ _ _ _ _ _ _ C FO E) as [OR _].
  assert (SP : forall a, In a (e_agents e) -> at_start a = at_pos a).
  { pose proof (make_env_valid _ _ _ _ _ _ _ C E) as V. destruct (make_env_ok k shape st m ss C V) as (m0 & _ & _ & _ & _ & _ & _ & _ & _ & _ & E'). cbv zeta in E'. rewrite E in E'. inversion E' as [[E1 E2]].
    destruct (dict_inv (m_n_non_agent m0) ss 0 []) as (_ & _ & _ & D4); [constructor|constructor|intros a []|].
    cbn [e_agents]. intros a Ha. destruct (D4 a Ha) as [[]|Hin]. destruct (agents_from_in _ _ _ _ Hin) as (i & s & Hn & ->). reflexivity. }
  pose proof (run_wf pl k shape st l e W) as W'. pose proof (run_static pl k shape st l e W) as S.
  destruct (env_reset_spec k shape st _ W') as (e' & E' & M & F & _ & HA). exists e'. split; [exact E'|].
  assert (S2 : static (run pl e l) e') by (eapply muts_static; eauto). assert (S3 : static e e') by (eapply static_trans; eauto).
  destruct S as (_ & _ & X). unfold mident in X. inversion X as [[X0 X1 X2 X3 X4 X5 X6 X7]].
  split; [rewrite F, X4; exact OR|]. split.
  - destruct S3 as (_ & I & _). assert (Y : forall l1 l2 : list (attached R), map ident l1 = map ident l2 -> map at_name l1 = map at_name l2).
    { induction l1 as [|x l1 IH]; intros [|y l2] Z; try discriminate Z; [reflexivity|]. cbn in Z. injection Z as Z1. unfold ident in *. cbn. f_equal; [congruence|]. apply IH. assumption. }
    now apply Y.
  - intros a Ha. destruct (static_in _ _ a (static_sym _ _ S3) Ha) as (b & Hb & EI). destruct (ident_name _ _ EI) as (EN & _ & _ & _ & ES & _).
    exists b. split; [exact Hb|]. destruct (HA b Hb) as (c & _ & ->). cbn in *. rewrite EN, ES, (SP a Ha). auto.
Qed.

(** ** C63: agents with the same name *)
Definition ex_p2 {A} `{Num A} : spec A := mkSpec "p"%string 1 None 2 [n1; n0; n0; n0] [].
Theorem C63_same_name_refuted : exists m m' e, grid_mdp (A:=Q) Square ex_ft None (2, 2) false = Ok m /\ make_env m [ex_p; ex_p2] = (m', Ok e) /\
  map at_pos (e_agents e) = [2%Z] /\ e_n_agents e = 1 /\ m_n_agents m' = 2 /\
  (** the lost agent's mark stays at state 0 *) nth 2 (m_features m') [] = [1; 0; 0; 0]%Q.
Proof. do 3 eexists. vmr. Qed.
(** With distinct names every entry becomes an agent: part of [C17_result]. In general, the agents are
    one per distinct name. *)
Theorem C63_one_agent_per_name_partial : forall pl m ss m' e, usable pl m -> make_env m ss = (m', Ok e) ->
  NoDup (map at_name (e_agents e)) /\ (forall nm, In nm (map at_name (e_agents e)) <-> In nm (map sp_name ss)) /\
  (forall a, In a (e_agents e) -> exists i s, nth_error ss i = Some s /\ fresh a s i (n_ordinary m + i)).
Proof.
  intros pl m ss m' e U E. destruct (usable_clean _ _ U) as (k & shape & st & C). pose proof (make_env_valid _ _ _ _ _ _ _ C E) as V.
  destruct (make_env_ok k shape st m ss C V) as (m0 & C0 & A0 & F0 & N0 & S0 & W0 & NS0 & _ & _ & E'). cbv zeta in E'. rewrite E in E'. inversion E' as [[E1 E2]]. clear E'.
  destruct (dict_inv (m_n_non_agent m0) ss 0 []) as (D1 & D2 & D3 & D4); [constructor|constructor|intros a []|]. cbn [e_agents].
  split; [exact D1|]. split; [intros nm; rewrite D3; cbn; tauto|]. intros a Ha. destruct (D4 a Ha) as [[]|Hin].
  destruct (agents_from_in _ _ _ _ Hin) as (i & s & Hn & ->). exists i, s. split; [exact Hn|]. unfold fresh. cbn. repeat split.
  destruct C0 as [_ [T _] NF _ _]. lia.
Qed.
(** C233: one agent per name, the last given. *)
Theorem C233_names : forall pl m ss m' e, usable pl m -> make_env m ss = (m', Ok e) ->
  NoDup (map at_name (e_agents e)) /\ (forall nm, In nm (map at_name (e_agents e)) <-> In nm (map sp_name ss)) /\
  (forall a, In a (e_agents e) -> exists i s, nth_error ss i = Some s /\ fresh a s i (n_ordinary m + i)).
Proof. exact (@C63_one_agent_per_name_partial). Qed.

(** ** C64: a failed construction damages the MDP *)
Definition ex_off {A} `{Num A} : spec A := mkSpec "p"%string 1 None 4 [n1; n0; n0] [].
Definition ex_one {A} `{Num A} : spec A := mkSpec "p"%string 1 None 0 [n1; n0; n0] [].
Definition ex_two {A} `{Num A} : spec A := mkSpec "p"%string 1 None 0 [n1; n0] [].
Theorem C64_failed_construction_refuted : exists m m1, grid_mdp (A:=Q) Square ex_ft None (2, 2) false = Ok m /\
  make_env m [ex_off] = (m1, Err IndexError) /\
  (exists m2 e, make_env m [ex_one] = (m2, Ok e)) /\ snd (make_env m1 [ex_one]) = Err AttributeError /\
  exists m2 e, make_env m1 [ex_two] = (m2, Ok e) /\ m_features m2 = [[1; 0; 0; 1]; [1; 0; 0; 0]]%Q.
Proof.
  do 2 eexists. split; [vm_compute; reflexivity|]. split; [vm_compute; reflexivity|]. split; [do 2 eexists; vm_compute; reflexivity|].
  split; [vm_compute; reflexivity|]. do 2 eexists. split; vm_compute; reflexivity.
Qed.
(** A construction refused for its first entry's reward or consumed features leaves a new MDP untouched. *)
Theorem C64_refused_first_entry_partial : forall (m : mdp R) s ss, m_n_agents m = 0 ->
  (length (sp_reward s) <> m_n_features m + S (length ss) \/ exists z, In z (sp_consumes s) /\ (Z.of_nat (length (sp_reward s)) <= z)%Z) ->
  exists x, make_env m (s :: ss) = (m, Err x) /\ (x = AttributeError \/ x = ValueError).
Proof.
  intros m s ss A0 H. unfold make_env. rewrite A0. cbn [Nat.ltb Nat.leb attach_all length]. unfold attach_checked.
  destruct (Nat.eqb_spec (length (sp_reward s)) (m_n_features m + S (length ss))) as [L|L]; cbn [negb]; [|eauto].
  destruct H as [H|(z & Hz & H)]; [contradiction|]. replace (existsb _ (sp_consumes s)) with true; [eauto|]. symmetry. apply existsb_exists.
  exists z. split; [exact Hz|]. apply Z.ltb_lt. lia.
Qed.

(** ** C65: after a reset the environment is not like new *)
Theorem C65_reset_keeps_records_refuted : exists m m' e, grid_mdp (A:=Q) Square ex_ft None (2, 2) false = Ok m /\ make_env m [ex_p; ex_q] = (m', Ok e) /\
  let e1 := run (ex_pl [0; 0; 3; 2]%Z) e [OFit "q" None 0 0; OStep "q" 0; OStep "q" 0; OReset] in
  e_mdp e1 = e_mdp e /\ map at_pos (e_agents e1) = map at_pos (e_agents e) /\
  total_consumed e 0 = 0 /\ total_consumed e1 0 = 1 /\ e_n_steps e = 0 /\ e_n_steps e1 = 2 /\
  (** the agent can still step without fitting *) snd (env_step (ex_pl [0; 0; 3; 2]%Z) e "q" 0) = Err AttributeError /\ snd (env_step (ex_pl [0; 0; 3; 2]%Z) e1 "q" 0) = Ok 2%Z.
Proof. do 3 eexists. split; [vm_compute; reflexivity|]. split; [vm_compute; reflexivity|]. vm_compute. repeat split. Qed.
