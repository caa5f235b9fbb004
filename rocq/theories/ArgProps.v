(** C187-C189: arguments of other types. *)
From Coq Require Import String List ZArith QArith Bool Lia Reals Lra.
From Verif Require Import PyBase PyProofs RSum GridModel GridSpec GridProofs MDPModel MDPSpec MDPProofs
  MDPProofs2 MDPProofs3 MDPProps EnvModel EnvSpec EnvProofs EnvProofs2 EnvProofs3 EnvProps VIModel VISpec VIProofs VIProofs2 VIProps VIEnvProps VIFit ArgModel.
Import ListNotations.
Local Close Scope Q_scope.
Local Close Scope R_scope.
Local Open Scope nat_scope.

(** ** C187 *)

(** [r] is passed with a list or array of numbers and an integer position, and [s] is the entry meant. *)
Definition well_typed {A} (r : raw_spec (A:=A)) (s : spec A) : Prop :=
  rs_name r = sp_name s /\ rs_n_moves r = sp_n_moves s /\ rs_fit r = sp_fit s /\ rs_consumes r = sp_consumes s /\
  rs_pos r = Some (sp_pos s) /\ (rs_reward r = RVector (sp_reward s) \/ rs_reward r = RList (sp_reward s)).

(** What is wrong with the types of an entry, and the exception for it. *)
Definition fault {A} (r : raw_spec (A:=A)) (x : exc) : Prop :=
  match rs_reward r with
  | ROther => x = TypeError
  | RShapedArray | RShapedList => x = AttributeError
  | RVector _ | RList _ => rs_pos r = None /\ x = TypeError
  end.

Lemma raw_entry_ok : forall A (r : raw_spec (A:=A)) s, well_typed r s <-> raw_entry r = Ok s.
Proof.
  intros A [nm nmv f p rw c] [nm' nmv' f' p' rw' c']. unfold well_typed, raw_entry. cbn. split.
  - intros (-> & -> & -> & -> & -> & [-> | ->]); reflexivity.
  - destruct rw; cbn; try discriminate; destruct p; cbn; try discriminate; intros E; injection E as -> -> -> -> -> ->; intuition.
Qed.
Lemma raw_entry_fault : forall A (r : raw_spec (A:=A)) x, fault r x <-> raw_entry r = Err x.
Proof.
  intros A [nm nmv f p rw c] x. unfold fault, raw_entry. cbn. destruct rw; cbn; try (split; congruence);
    (destruct p; split; [intros [X _]; discriminate|discriminate|intros [_ ->]; reflexivity|intros E; injection E as <-; auto]).
Qed.

Lemma attach_raw_typed : forall A (NA : Num A) nf nag rs ss, Forall2 well_typed rs ss -> forall m idx acc,
  attach_raw nf nag m idx rs acc = attach_all nf nag m idx ss acc.
Proof.
  intros A NA nf nag rs ss H. induction H as [|r s rs ss Hr H IH]; intros m idx acc; [reflexivity|]. cbn [attach_raw attach_all].
  apply raw_entry_ok in Hr. rewrite Hr. destruct (attach_checked nf nag m idx s) as [m' [a|x]]; [apply IH|reflexivity].
Qed.
Lemma attach_raw_inv : forall A (NA : Num A) nf nag rs m idx acc m' l, attach_raw (A:=A) nf nag m idx rs acc = (m', Ok l) ->
  exists ss, Forall2 well_typed rs ss.
Proof.
  intros A NA nf nag. induction rs as [|r rs IH]; intros m idx acc m' l E; [exists []; constructor|]. cbn [attach_raw] in E.
  destruct (raw_entry r) as [s|x] eqn:Er; [|discriminate]. destruct (attach_checked nf nag m idx s) as [m1 [a|x]]; [|discriminate].
  destruct (IH _ _ _ _ _ E) as (ss & H). exists (s :: ss). constructor; [now apply raw_entry_ok|exact H].
Qed.
Lemma typed_names : forall A (rs : list (raw_spec (A:=A))) ss, Forall2 well_typed rs ss -> map rs_name rs = map sp_name ss /\ length rs = length ss.
Proof. intros A rs ss H. induction H as [|r s rs ss (E & _) H [IH1 IH2]]; [auto|]. cbn. split; congruence. Qed.

(** Lists and arrays are the same to the constructor: with entries of the right types it does what C17 says. *)
Theorem C187_typed : forall A (NA : Num A) (m : mdp A) rs ss, Forall2 well_typed rs ss -> make_env_raw m rs = make_env m ss.
Proof.
  intros A NA m rs ss H. destruct (typed_names _ _ _ H) as [N L]. unfold make_env_raw, make_env.
  destruct (if 0 <? m_n_agents m then _ else _) as [m0|x]; [|reflexivity].
  rewrite (attach_raw_typed A NA _ _ rs ss H), L, N. reflexivity.
Qed.

(** Nothing else is accepted. *)
Theorem C187_only_typed : forall A (NA : Num A) (m : mdp A) rs m' e, make_env_raw m rs = (m', Ok e) ->
  exists ss, Forall2 well_typed rs ss /\ make_env m ss = (m', Ok e).
Proof.
  intros A NA m rs m' e E.
  assert (X : exists ss, Forall2 well_typed rs ss).
  { unfold make_env_raw in E. destruct (if 0 <? m_n_agents m then _ else _) as [m0|x]; [|discriminate].
    destruct (attach_raw _ _ _ _ _ _) as [m1 [l|x]] eqn:EA; [|discriminate]. eapply attach_raw_inv; eauto. }
  destruct X as (ss & H). exists ss. split; [exact H|]. rewrite <- (C187_typed A NA m rs ss H). exact E.
Qed.

(** The first entry of a wrong type, after valid ones, raises the exception that belongs to it. *)
Theorem C187_refused : forall pl m before ss r rest x, usable pl m -> Forall2 well_typed before ss ->
  (forall s, In s ss -> valid_entry (n_ordinary m) (length (before ++ r :: rest)) (m_n_states m) s) -> fault r x ->
  exists m', make_env_raw m (before ++ r :: rest) = (m', Err x).
Proof.
  intros pl m before ss r rest x U H V F. destruct (usable_clean _ _ U) as (k & shape & st & C).
  destruct (cleaned_ok k shape st m C) as (m0 & E0 & C0 & A0 & F0 & N0 & S0 & W0 & NN0 & NS0 & Z0 & Z1).
  unfold make_env_raw. rewrite E0. rewrite <- N0, <- NS0 in V. set (nag := length (before ++ r :: rest)) in *. set (nf := m_n_features m0) in *.
  assert (G : forall bs ts m0 idx acc, Forall2 well_typed bs ts -> clean k shape st m0 -> m_n_agents m0 = idx ->
     (forall s, In s ts -> valid_entry nf nag (m_n_states m0) s) -> exists m', attach_raw nf nag m0 idx (bs ++ r :: rest) acc = (m', Err x)).
  { clear - F. intros bs ts mm idx acc H. revert mm idx acc. induction H as [|b s bs ts Hb H IH]; intros m1 idx acc C0 A0 V.
    - cbn [app attach_raw]. apply raw_entry_fault in F. rewrite F. eauto.
    - cbn [app attach_raw]. apply raw_entry_ok in Hb. rewrite Hb. rewrite (attach_checked_ok k shape st) by (auto; apply V; now left).
      apply IH.
      + apply extended_clean; [exact C0|]. constructor; [apply onehot_len|constructor].
      + cbn. lia.
      + intros y Hy. apply V. now right. }
  destruct (G before ss m0 0 [] H C0 A0 V) as (m' & E). rewrite E. eauto.
Qed.

(** One agent with a list, one without an integer position. *)
Example C187_example : exists m m1 e m2, grid_mdp (A:=Q) Square [[1; 0; 0; 0]%Q] None (2, 2) false = Ok m /\
  make_env_raw m [mkRaw "p"%string 1%Z None (Some 3%Z) (RList [1; 0]%Q) [0%Z]] = (m1, Ok e) /\
  make_env m [mkSpec "p"%string 1%Z None 3%Z [1; 0]%Q [0%Z]] = (m1, Ok e) /\
  make_env_raw m [mkRaw "p"%string 1%Z None (Some 3%Z) (RList [1; 0; 0]%Q) [0%Z]; mkRaw "q"%string 1%Z None None (RVector [1; 0; 0]%Q) []] = (m2, Err TypeError) /\
  m_n_agents m2 = 1.
Proof. do 4 eexists. split; [vm_compute; reflexivity|]. split; [vm_compute; reflexivity|]. split; [vm_compute; reflexivity|]. split; vm_compute; reflexivity. Qed.

(** ** C188: a planner on its own *)

(** What is kept: a fit that raises leaves the result of the last successful one. *)
Theorem C188_kept : forall A (NA : Num A) solve (m : mdp A) state r x s', fit_alone solve m state r = (s', Err x) -> s' = state.
Proof. intros A NA solve m state r x s' E. unfold fit_alone in E. destruct (let* w := _ in _) as [vq|y]; [discriminate|]. injection E as <- _. reflexivity. Qed.
(** After a reset there is no result until a fit succeeds, whatever there was before. *)
Theorem C188_reset : forall A (NA : Num A) solve (m : mdp A) state r x s', fit_alone solve m (reset_alone state) r = (s', Err x) -> s' = None.
Proof. intros A NA solve m state r x s' E. now apply C188_kept in E. Qed.

(** What a successful fit leaves does not depend on what was there before, and has the right shape. *)
Theorem C188_result : forall A (NA : Num A) solve (m : mdp A) state r s', fit_alone solve m state r = (s', Ok tt) ->
  exists w v q, r = RVector w /\ length w = m_n_features m /\ solve m w = Ok (v, q) /\ s' = Some (v, q) /\
    length v = m_n_states m /\ length q = m_n_states m /\ (forall row, In row q -> length row = m_n_actions m) /\
    forall other, fit_alone solve m other r = (s', Ok tt).
Proof.
  intros A NA solve m state r s' E.
  assert (ANY : forall other, fit_alone solve m other r = (s', Ok tt)).
  { intros other. unfold fit_alone in *. destruct (let* w := _ in _) as [vq|y]; [exact E|discriminate]. }
  unfold fit_alone in E. destruct r as [w|w| | |]; cbn [fit_reward bind] in E; try discriminate.
  destruct (Nat.eqb_spec (length w) (m_n_features m)) as [L|L]; cbn [negb] in E; [|discriminate].
  destruct (solve m w) as [[v q]|x] eqn:ES; cbn [bind fst snd] in E; [|discriminate].
  destruct (Nat.eqb_spec (length v) (m_n_states m)) as [LV|LV]; cbn [negb] in E; [|discriminate].
  destruct (Nat.eqb_spec (length q) (m_n_states m)) as [LQ|LQ]; cbn [negb] in E; [|discriminate].
  destruct (forallb _ q) eqn:FB; cbn [negb] in E; [|discriminate]. injection E as <-.
  exists w, v, q. do 6 (split; [auto|]). split; [|exact ANY].
  intros row Hr. rewrite forallb_forall in FB. now apply Nat.eqb_eq, FB.
Qed.

(** Value iteration on a grid accepts every array with one number for each feature, and only these. *)
Theorem C188_value_iteration : forall k feats w0 shape st m0 calls g tol mi state r, grid_mdp (A:=R) k feats w0 shape st = Ok m0 ->
  let m := after_wall_calls m0 calls in (0 < g < 1)%R -> (0 < mi)%Z ->
  ((exists s', fit_alone (vi_fit g tol mi) m state r = (s', Ok tt)) <-> exists w, r = RVector w /\ length w = length feats).
Proof.
  intros k feats w0 shape st m0 calls g tol mi state r E m G MI. destruct (grid_clean _ _ _ _ _ _ calls E) as ([GI [NF _] _ _ _] & _ & EF & _). fold m in NF, EF, GI.
  replace (length feats) with (m_n_features m) by congruence. split.
  - intros (s' & ES). destruct (C188_result _ _ _ _ _ _ _ ES) as (w & v & q & -> & L & _). eauto.
  - intros (w & -> & L).
    destruct (grid_shape _ _ _ _ GI) as (NS & NAC & _). pose proof (grid_is_mdp _ _ _ _ GI) as M.
    assert (LRF : length w = length (m_features m)) by congruence.
    destruct (solve_spec hard_backup lmax (m_sas m) w (m_features m) (Z.to_nat mi - 1) g tol M G LRF (bk_hard _ M) (fun l l' c => lmax_ne _ l l' c (proj1 M))) as (v & q & ES & LV & LQ & _).
    replace (Z.of_nat (S (Z.to_nat mi - 1))) with mi in ES by lia.
    assert (RD : readable (nst shape) (actions_of k st) (mask_q (m_sas m) q)). { rewrite <- NS, <- NAC. apply solution_readable; [exact M|]. unfold solution. eauto 10. }
    destruct RD as [RL RR]. unfold fit_alone. cbn [fit_reward bind]. rewrite L, Nat.eqb_refl. cbn [negb]. unfold vi_fit. rewrite ES. cbn [bind fst snd].
    rewrite map_length, LV, RL, NS, (gi_ns _ _ _ _ GI), Nat.eqb_refl. cbn [negb].
    replace (forallb _ _) with true by (symmetry; apply forallb_forall; intros row Hr; apply Nat.eqb_eq; rewrite (gi_na _ _ _ _ GI); now apply RR).
    cbn [negb]. eauto.
Qed.

(** [Null] too: every value is one. *)
Theorem C188_null : forall A (NA : Num A) (m : mdp A) state w, length w = m_n_features m ->
  fit_alone null_alone m state (RVector w) = (Some (repeat (Fin n1) (m_n_states m), repeat (repeat (Fin n1) (m_n_actions m)) (m_n_states m)), Ok tt).
Proof.
  intros A NA m state w L. unfold fit_alone. cbn [fit_reward bind]. rewrite L, Nat.eqb_refl. cbn [negb null_alone bind fst snd].
  rewrite !repeat_length, Nat.eqb_refl. cbn [negb].
  replace (forallb _ _) with true; [reflexivity|]. symmetry. apply forallb_forall. intros row Hr. apply repeat_spec in Hr. subst. rewrite repeat_length. apply Nat.eqb_refl.
Qed.

Example C188_example : exists m s, grid_mdp (A:=Q) Square [[1; 0; 0; 0]%Q] None (2, 2) false = Ok m /\
  fit_alone (vi_fit (1 # 2) (1 # 2) 100)%Q m None (RVector [1%Q]) = (s, Ok tt) /\ s <> None /\
  fit_alone (vi_fit (1 # 2) (1 # 2) 100)%Q m s (RVector [1; 1]%Q) = (s, Err AttributeError).
Proof. do 2 eexists. split; [vm_compute; reflexivity|]. split; [vm_compute; reflexivity|]. split; [discriminate|vm_compute; reflexivity]. Qed.

(** ** C189 *)

(** Whatever the algorithm, the MDP and the numbers: fitting with a list raises TypeError. *)
Theorem C189_list_refuted : forall A (NA : Num A) solve (m : mdp A) state l, fit_alone solve m state (RList l) = (state, Err TypeError).
Proof. reflexivity. Qed.

(** The same numbers in an array are accepted exactly if they are as many as there are features (for an algorithm
    that works for all of these). *)
Theorem C189_array_partial : forall A (NA : Num A) solve (m : mdp A) state l, 
  (length l <> m_n_features m -> fit_alone solve m state (RVector l) = (state, Err AttributeError)) /\
  (length l = m_n_features m -> (exists v q, solve m l = Ok (v, q) /\ length v = m_n_states m /\ length q = m_n_states m /\ forall row, In row q -> length row = m_n_actions m) ->
     exists s', fit_alone solve m state (RVector l) = (s', Ok tt)).
Proof.
  intros A NA solve m state l. split.
  - intros N. unfold fit_alone. cbn [fit_reward bind]. destruct (Nat.eqb_spec (length l) (m_n_features m)) as [L|L]; [contradiction|reflexivity].
  - intros L (v & q & ES & LV & LQ & RR). unfold fit_alone. cbn [fit_reward bind]. rewrite L, Nat.eqb_refl. cbn [negb]. rewrite ES. cbn [bind fst snd].
    rewrite LV, LQ, Nat.eqb_refl. cbn [negb]. replace (forallb _ _) with true by (symmetry; apply forallb_forall; intros row Hr; apply Nat.eqb_eq; now apply RR).
    cbn [negb]. eauto.
Qed.
