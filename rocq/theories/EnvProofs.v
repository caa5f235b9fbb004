From Coq Require Import String List ZArith Reals Bool Lia Lra.
From Verif Require Import PyBase PyProofs GridModel GridSpec MDPModel MDPSpec MDPProofs MDPProofs2 MDPProofs3 MDPProofs4 MDPProps ActionModel EnvModel EnvSpec.
Import ListNotations.
Local Open Scope nat_scope.

(** * The agent dictionary *)
Lemma put_in : forall (l : list (attached R)) a a', In a l -> at_name a' = at_name a ->
  put_agent l a' = map (fun b => if String.eqb (at_name b) (at_name a') then a' else b) l.
Proof.
  intros l a a' H E. unfold put_agent.
  replace (existsb _ l) with true; [reflexivity|]. symmetry. apply existsb_exists. exists a. split; [exact H|].
  rewrite E. apply String.eqb_refl.
Qed.
Lemma in_put : forall (l : list (attached R)) a a', In a l -> at_name a' = at_name a ->
  forall b, In b (put_agent l a') <-> b = a' \/ (In b l /\ at_name b <> at_name a').
Proof.
  intros l a a' H E b. rewrite (put_in l a a' H E). rewrite in_map_iff. split.
  - intros (c & <- & Hc). destruct (String.eqb_spec (at_name c) (at_name a')); auto.
  - intros [->|[Hb N]].
    + exists a. split; [|exact H]. rewrite <- E, String.eqb_refl. reflexivity.
    + exists b. split; [|exact Hb]. destruct (String.eqb_spec (at_name b) (at_name a')); [contradiction|reflexivity].
Qed.
Lemma map_put : forall B (g : attached R -> B) (l : list (attached R)) a a', NoDup (map at_name l) -> In a l -> at_name a' = at_name a ->
  g a' = g a -> map g (put_agent l a') = map g l.
Proof.
  intros B g l a a' ND H E EG. rewrite (put_in l a a' H E), map_map. apply map_ext_in. intros b Hb.
  destruct (String.eqb_spec (at_name b) (at_name a')) as [N|N]; [|reflexivity].
  assert (b = a); [|congruence]. rewrite E in N. clear E EG.
  revert ND H Hb. induction l as [|c l IH]; intros ND H Hb; [destruct H|]. cbn in ND. inversion ND as [|? ? NI ND']. subst.
  destruct H as [->|H], Hb as [->|Hb]; auto.
  - elim NI. rewrite <- N. now apply in_map.
  - elim NI. rewrite N. now apply in_map.
Qed.
Lemma same_name_same : forall (l : list (attached R)) a b, NoDup (map at_name l) -> In a l -> In b l -> at_name a = at_name b -> a = b.
Proof.
  induction l as [|c l IH]; intros a b ND Ha Hb N; [destruct Ha|]. cbn in ND. inversion ND as [|? ? NI ND']. subst.
  destruct Ha as [->|Ha], Hb as [->|Hb]; auto.
  - elim NI. rewrite N. now apply in_map.
  - elim NI. rewrite <- N. now apply in_map.
Qed.
Lemma find_agent_in : forall (l : list (attached R)) nm a, find_agent l nm = Some a -> In a l /\ at_name a = nm.
Proof.
  intros l nm a H. unfold find_agent in H. apply find_some in H. destruct H as [H1 H2]. apply String.eqb_eq in H2. auto.
Qed.
Lemma find_agent_iff : forall (l : list (attached R)) nm a, NoDup (map at_name l) ->
  (find_agent l nm = Some a <-> In a l /\ at_name a = nm).
Proof.
  intros l nm a ND. split; [apply find_agent_in|]. intros [H <-]. unfold find_agent.
  destruct (find _ l) as [b|] eqn:F.
  - apply find_some in F. destruct F as [F1 F2]. apply String.eqb_eq in F2. f_equal. eapply same_name_same; eauto.
  - exfalso. apply (find_none _ _ F) in H. rewrite String.eqb_refl in H. discriminate.
Qed.
Lemma sum_put : forall (g : attached R -> nat) (l : list (attached R)) a a', NoDup (map at_name l) -> In a l -> at_name a' = at_name a ->
  list_sum (map g (put_agent l a')) + g a = list_sum (map g l) + g a'.
Proof.
  intros g l a a' ND H E. rewrite (put_in l a a' H E), map_map. 
  revert ND H. induction l as [|c l IH]; intros ND H; [destruct H|]. cbn in ND. inversion ND as [|? ? NI ND']. subst.
  cbn [map list_sum fold_right]. 
  assert (X : forall l, list_sum l = fold_right plus 0 l) by reflexivity.
  destruct H as [->|H].
  - rewrite <- E, String.eqb_refl. rewrite (map_ext_in _ g l).
    + lia.
    + intros b Hb. destruct (String.eqb_spec (at_name b) (at_name a')); [|reflexivity]. elim NI. rewrite <- E, <- e. now apply in_map.
  - destruct (String.eqb_spec (at_name c) (at_name a')) as [N|N].
    + elim NI. rewrite N, E. now apply in_map.
    + specialize (IH ND' H). rewrite !X in IH. unfold list_sum in *. lia.
Qed.

(** * Grid invariant and features *)
Lemma grid_inv_features : forall k shape st m f, grid_inv k shape st m -> grid_inv k shape st (with_features m f).
Proof. intros k shape st m f []. constructor; assumption. Qed.

Lemma next_state_lt : forall k shape st m s a t, grid_inv k shape st m -> get_next_state m s a = Ok t -> t < m_n_states m.
Proof.
  intros k shape st m s a t I E. unfold get_next_state in E. destruct (a <? 0)%Z; [discriminate|].
  apply bind_ok in E. destruct E as (s' & Es & E). apply bind_ok in E. destruct E as (a' & Ea & E).
  destruct (m_deterministic m); [|discriminate]. inversion E as [E']. clear E.
  apply py_index_ok in Es. apply py_index_ok in Ea. destruct Es as [Hs _], Ea as [Ha _].
  rewrite (gi_ns _ _ _ _ I) in *. rewrite (gi_na _ _ _ _ I) in Ha.
  assert (L : length (nth a' (nth s' (m_sas m) []) []) = nst shape).
  { destruct (inv_shape _ _ _ _ I) as [_ H]. destruct (H s' Hs) as [_ H']. apply H'. exact Ha. }
  destruct (argmax_spec (nth a' (nth s' (m_sas m) []) [])) as [X _].
  - intros Y. rewrite Y in L. cbn in L. pose proof (gi_pos _ _ _ _ I). lia.
  - rewrite L in X. lia.
Qed.

(** * Well-formed environments *)
Definition agent_ok (m : mdp R) (a : attached R) : Prop :=
  at_idx a < m_n_agents m /\ at_feature_idx a = at_idx a + m_n_non_agent m /\
  length (at_consumed a) = m_n_features m /\ length (at_reward a) = m_n_features m /\
  (exists s, stands_on m (at_pos a) s) /\ (exists s, stands_on m (at_start a) s) /\
  (forall z, In z (at_consumes a) -> (z < Z.of_nat (m_n_features m))%Z).

Record wf (k : gkind) (shape : nat * nat) (st : bool) (e : env R) : Prop := {
  wf_grid : grid_inv k shape st (e_mdp e);
  wf_table : table_ok (e_mdp e);
  wf_nf : m_n_features (e_mdp e) = m_n_non_agent (e_mdp e) + m_n_agents (e_mdp e);
  wf_origlen : length (m_orig_features (e_mdp e)) = m_n_features (e_mdp e);
  wf_orig : Forall (fun row => length row = m_n_states (e_mdp e)) (m_orig_features (e_mdp e));
  wf_names : NoDup (map at_name (e_agents e));
  wf_lookup : forall nm, In nm (e_names e) <-> In nm (map at_name (e_agents e));
  wf_idx : NoDup (map at_idx (e_agents e));
  wf_agents : forall a, In a (e_agents e) -> agent_ok (e_mdp e) a
}.

(** What never changes about an agent, and about the MDP. *)
Definition ident (a : attached R) :=
  (at_name a, at_n_moves a, at_reward a, at_consumes a, at_idx a, at_feature_idx a, at_start a).
Definition mident (m : mdp R) :=
  (m_shape m, m_orig_sas m, m_n_states m, m_n_actions m, m_orig_features m, m_n_features m, m_n_non_agent m, m_n_agents m).

Definition row_set (m : mdp R) (idx : nat) (row : list R) : mdp R :=
  with_features m (upd (m_features m) (m_n_non_agent m + idx) row).
Definition onehot (m : mdp R) (s : nat) : list R := upd (zeros1 (m_n_states m)) s 1%R.

Inductive label := LAgent | LMove | LZero | LConsume | LBad | LTick | LWalls | LRestore.

(** The elementary changes an API call makes. *)
Definition mut (l : label) (e e' : env R) : Prop :=
  match l with
  | LAgent => exists a a', In a (e_agents e) /\ ident a' = ident a /\ at_pos a' = at_pos a /\
      at_consumed a' = at_consumed a /\ e' = with_agent e a'
  | LMove => exists a a' s, In a (e_agents e) /\ ident a' = ident a /\ at_consumed a' = at_consumed a /\
      stands_on (e_mdp e) (at_pos a') s /\ e' = with_agent (with_mdp e (row_set (e_mdp e) (at_idx a) (onehot (e_mdp e) s))) a'
  | LZero => exists a, In a (e_agents e) /\ e' = with_mdp e (row_set (e_mdp e) (at_idx a) (zeros1 (m_n_states (e_mdp e))))
  | LConsume => exists a a' m' c, In a (e_agents e) /\
      consume_features (e_mdp e) (at_consumes a) (at_pos a) = (m', Ok c) /\
      ident a' = ident a /\ at_pos a' = at_pos a /\
      at_consumed a' = map (fun '(x, y) => x + y) (combine (at_consumed a) c) /\
      e' = with_agent (with_mdp e m') a'
  | LBad => exists a g, In a (e_agents e) /\
      (exists z, In z (at_consumes a) /\ (z < - Z.of_nat (m_n_features (e_mdp e)))%Z) /\
      shape2 (m_n_features (e_mdp e)) (m_n_states (e_mdp e)) g /\
      (forall f t, get2 0%R g f t = feat (e_mdp e) f t \/ get2 0%R g f t = 0%R) /\
      e' = with_mdp e (with_features (e_mdp e) g)
  | LTick => e' = tick e
  | LWalls => exists w m', set_walls (e_mdp e) w = Ok m' /\ e' = with_mdp e m'
  | LRestore => exists m', reset_mdp (e_mdp e) = Ok m' /\ e' = with_mdp e m'
  end.

Inductive muts (P : label -> Prop) : env R -> env R -> Prop :=
| muts_nil : forall e, muts P e e
| muts_cons : forall l e e1 e2, P l -> mut l e e1 -> muts P e1 e2 -> muts P e e2.
Lemma muts_one : forall (P : label -> Prop) l e e', P l -> mut l e e' -> muts P e e'.
Proof. intros. eapply muts_cons; eauto. constructor. Qed.
Lemma muts_trans : forall P e1 e2 e3, muts P e1 e2 -> muts P e2 e3 -> muts P e1 e3.
Proof. intros P e1 e2 e3 H. induction H; intros H3; [exact H3|]. eapply muts_cons; eauto. Qed.
Lemma muts_weaken : forall (P Q : label -> Prop) e e', (forall l, P l -> Q l) -> muts P e e' -> muts Q e e'.
Proof. intros P Q e e' W H. induction H; [constructor|]. eapply muts_cons; eauto. Qed.

Lemma table_shape : forall m, table_ok m <-> shape2 (m_n_features m) (m_n_states m) (m_features m).
Proof.
  intros m. unfold table_ok. rewrite Forall_shape2. split.
  - intros [-> H]. exact H.
  - intros H. pose proof (shape2_length _ _ _ _ H) as L. split; [auto|]. now rewrite L.
Qed.
Lemma shape2_upd : forall A n k (l : list (list A)) i r, shape2 n k l -> length r = k -> shape2 n k (upd l i r).
Proof.
  intros A n k l i r [L H] Lr. split; [now rewrite upd_length|]. intros j Hj. rewrite nth_upd.
  destruct ((j =? i) && _); auto.
Qed.
Lemma table_row_set : forall m i r, table_ok m -> length r = m_n_states m -> table_ok (row_set m i r).
Proof. intros m i r T L. apply table_shape. apply table_shape in T. now apply shape2_upd. Qed.
Lemma onehot_len : forall m s, length (onehot m s) = m_n_states m.
Proof. intros. unfold onehot, zeros1. now rewrite upd_length, repeat_length. Qed.
Lemma zeros1_len : forall n, length (zeros1 (A:=R) n) = n.
Proof. intros. unfold zeros1. apply repeat_length. Qed.

Lemma agent_ok_ext : forall m m' a a', mident m' = mident m -> ident a' = ident a -> length (at_consumed a') = length (at_consumed a) ->
  (exists s, stands_on m (at_pos a') s) -> agent_ok m a -> agent_ok m' a'.
Proof.
  unfold mident, ident, agent_ok, stands_on. intros m m' a a' EM EA LC P (H1 & H2 & H3 & H4 & H5 & H6 & H7).
  inversion EM. inversion EA. rewrite LC.
  repeat match goal with H : ?x _ = _ |- _ => rewrite H end. auto 10.
Qed.

Lemma consume_loop_ok : forall idx state (m m' : mdp R) c c', consume_loop idx state m c = (m', Ok c') ->
  exists ridx, Forall2 (fun z f => py_index (length (m_features m)) z = Ok f) idx ridx.
Proof.
  induction idx as [|z idx IH]; intros state m m' c c' E; cbn [consume_loop] in E; [exists []; constructor|].
  destruct (py_index (length (m_features m)) z) as [f|] eqn:Ez; [|discriminate].
  destruct (py_index (m_n_states m) state) as [s|] eqn:Es; [|discriminate].
  destruct (nltb n0 (get2 n0 (m_features m) f s)).
  - destruct (py_index (length c) z); [|discriminate]. apply IH in E. destruct E as (r & F). exists (f :: r). constructor; [exact Ez|].
    cbn [m_features with_features] in F. unfold set2 in F. rewrite upd_length in F. exact F.
  - apply IH in E. destruct E as (r & F). exists (f :: r). constructor; assumption.
Qed.

Lemma consume_loop_any : forall F S s p, py_index S s = Ok p -> forall idx (m m' : mdp R) c r,
  m_n_states m = S -> shape2 F S (m_features m) -> length c = F -> consume_loop idx s m c = (m', r) ->
  exists g, m' = with_features m g /\ shape2 F S g /\ (forall f t, get2 0%R g f t = get2 0%R (m_features m) f t \/ get2 0%R g f t = 0%R) /\
    (forall x, r = Err x -> x = IndexError /\ exists z, In z idx /\ py_index F z = Err IndexError).
Proof.
  intros F S s p Es. destruct (py_index_ok _ _ _ Es) as [Hp _].
  induction idx as [|z idx IH]; intros m m' c r NS SH LC E; cbn [consume_loop] in E.
  - inversion E. subst. exists (m_features m'). rewrite with_features_id. split; [reflexivity|]. split; [exact SH|].
    split; [auto|]. discriminate.
  - rewrite (shape2_length _ _ _ _ SH), NS, Es in E. destruct (py_index F z) as [f|x] eqn:Ez.
    + destruct (nltb n0 (get2 n0 (m_features m) f p)) eqn:EP.
      * rewrite LC, Ez in E. destruct (py_index_ok _ _ _ Ez) as [Hf _].
        assert (SH2 : shape2 F S (set2 (m_features m) f p 0%R)) by now apply shape2_set2.
        destruct (IH (with_features m (set2 (m_features m) f p 0%R)) _ _ _ NS SH2 (eq_trans (upd_length _ _ _ _) LC) E) as (g & E1 & S1 & G1 & X1).
        exists g. split; [exact E1|]. split; [exact S1|]. split.
        -- intros f' t. cbn [m_features with_features] in G1. specialize (G1 f' t).
           rewrite (get2_set2 _ _ _ _ _ _ _ _ _ _ SH Hf Hp) in G1. destruct G1 as [G1|]; [|now right].
           destruct ((f' =? f) && (t =? p)); [right; exact G1|now left].
        -- intros x Hx. destruct (X1 x Hx) as (-> & z' & Hz & Ez'). split; [reflexivity|]. exists z'. split; [now right|exact Ez'].
      * destruct (IH _ _ _ _ NS SH LC E) as (g & E1 & S1 & G1 & X1). exists g. split; [exact E1|]. split; [exact S1|].
        split; [exact G1|]. intros x Hx. destruct (X1 x Hx) as (-> & z' & Hz & Ez'). split; [reflexivity|]. exists z'. split; [now right|exact Ez'].
    + inversion E. subst. exists (m_features m'). rewrite with_features_id. split; [reflexivity|]. split; [exact SH|].
      split; [auto|]. intros y Hy. inversion Hy. split; [reflexivity|]. exists z. split; [now left|].
      rewrite Ez. f_equal. eapply py_index_err; eauto.
Qed.

Lemma mident_wf : forall k shape st e e', wf k shape st e -> grid_inv k shape st (e_mdp e') -> table_ok (e_mdp e') ->
  mident (e_mdp e') = mident (e_mdp e) -> e_names e' = e_names e -> map ident (e_agents e') = map ident (e_agents e) ->
  (forall a', In a' (e_agents e') -> exists a, In a (e_agents e) /\ ident a' = ident a /\ length (at_consumed a') = length (at_consumed a)
     /\ exists s, stands_on (e_mdp e) (at_pos a') s) -> wf k shape st e'.
Proof.
  intros k shape st e e' W G T EM EN EI HA. destruct W.
  assert (P : forall B (g : attached R -> B) (h : _ -> B), (forall a, g a = h (ident a)) -> map g (e_agents e') = map g (e_agents e)).
  { intros B g h Hg. rewrite !(map_ext g (fun a => h (ident a))) by exact Hg. rewrite <- !(map_map ident h). now rewrite EI. }
  assert (PN : map at_name (e_agents e') = map at_name (e_agents e)).
  { apply (P _ at_name (fun '(x, _, _, _, _, _, _) => x)). reflexivity. }
  assert (PI : map at_idx (e_agents e') = map at_idx (e_agents e)).
  { apply (P _ at_idx (fun '(_, _, _, _, x, _, _) => x)). reflexivity. }
  pose proof EM as EM'. unfold mident in EM'. inversion EM'.
  constructor; try assumption; try congruence.
  - repeat match goal with H : ?x (e_mdp e') = _ |- _ => rewrite H end. exact wf_orig0.
  - intros nm. rewrite EN, PN. apply wf_lookup0.
  - intros a' Ha'. destruct (HA a' Ha') as (a & Ha & E1 & E2 & E3). eapply agent_ok_ext; eauto.
Qed.

Lemma ident_name : forall a a', ident a' = ident a -> at_name a' = at_name a /\ at_idx a' = at_idx a /\ at_consumes a' = at_consumes a /\
  at_feature_idx a' = at_feature_idx a /\ at_start a' = at_start a /\ at_reward a' = at_reward a /\ at_n_moves a' = at_n_moves a.
Proof. unfold ident. intros a a' E. inversion E. auto 10. Qed.

(** Changing one agent (and the MDP, keeping its identity) preserves well-formedness. *)
Lemma wf_with_agent : forall k shape st e m' a a', wf k shape st e -> grid_inv k shape st m' -> table_ok m' -> mident m' = mident (e_mdp e) ->
  In a (e_agents e) -> ident a' = ident a -> length (at_consumed a') = length (at_consumed a) ->
  (exists s, stands_on (e_mdp e) (at_pos a') s) -> wf k shape st (with_agent (with_mdp e m') a').
Proof.
  intros k shape st e m' a a' W G T EM Ha EI EC EP. destruct (ident_name _ _ EI) as (EN & _).
  apply (mident_wf k shape st e); try assumption; try reflexivity.
  - cbn [with_agent with_mdp e_agents]. apply (map_put _ ident _ a); auto. apply (wf_names _ _ _ _ W).
  - cbn [with_agent with_mdp e_agents]. intros b Hb. apply (in_put _ a a' Ha EN) in Hb. destruct Hb as [->|[Hb _]].
    + exists a. auto.
    + exists b. split; [exact Hb|]. split; [reflexivity|]. split; [reflexivity|]. apply (wf_agents _ _ _ _ W b Hb).
Qed.
Lemma wf_with_mdp : forall k shape st e m', wf k shape st e -> grid_inv k shape st m' -> table_ok m' -> mident m' = mident (e_mdp e) ->
  wf k shape st (with_mdp e m').
Proof.
  intros k shape st e m' W G T EM. apply (mident_wf k shape st e); try assumption; try reflexivity.
  cbn [with_mdp e_agents]. intros b Hb. exists b. split; [exact Hb|]. split; [reflexivity|]. split; [reflexivity|]. apply (wf_agents _ _ _ _ W b Hb).
Qed.
Lemma with_mdp_id : forall e : env R, with_mdp e (e_mdp e) = e.
Proof. intros []; reflexivity. Qed.

Lemma consume_result : forall k shape st e a m' r, wf k shape st e -> In a (e_agents e) ->
  consume_features (e_mdp e) (at_consumes a) (at_pos a) = (m', r) ->
  exists g, m' = with_features (e_mdp e) g /\ shape2 (m_n_features (e_mdp e)) (m_n_states (e_mdp e)) g /\
    (forall f t, get2 0%R g f t = feat (e_mdp e) f t \/ get2 0%R g f t = 0%R) /\
    (forall x, r = Err x -> x = IndexError /\ exists z, In z (at_consumes a) /\ (z < - Z.of_nat (m_n_features (e_mdp e)))%Z) /\
    (forall c, r = Ok c -> length c = m_n_features (e_mdp e)).
Proof.
  intros k shape st e a m' r W Ha E. destruct (wf_agents _ _ _ _ W a Ha) as (_ & _ & _ & _ & (s & Hs) & _ & CR).
  pose proof (wf_table _ _ _ _ W) as T. pose proof T as T'. apply table_shape in T.
  unfold consume_features in E.
  destruct (consume_loop_any _ _ _ _ Hs _ _ _ _ _ eq_refl T (repeat_length 0 _) E) as (g & E1 & S1 & G1 & X1).
  exists g. split; [exact E1|]. split; [exact S1|]. split; [exact G1|]. split.
  - intros x Hx. destruct (X1 x Hx) as (-> & z & Hz & Ez). split; [reflexivity|]. exists z. split; [exact Hz|].
    specialize (CR z Hz). unfold py_index in Ez. destruct (Z.leb_spec 0 z).
    + destruct (Z.ltb_spec z (Z.of_nat (m_n_features (e_mdp e)))); [discriminate|lia].
    + destruct (Z.leb_spec (- Z.of_nat (m_n_features (e_mdp e))) z); [discriminate|lia].
  - intros c ->. destruct (consume_loop_ok _ _ _ _ _ _ E) as (ridx & F2). rewrite (shape2_length _ _ _ _ T) in F2.
    destruct (C13_consume (e_mdp e) (at_consumes a) ridx (at_pos a) s T' F2 Hs) as (m2 & c2 & E2 & _ & _ & L & _).
    unfold consume_features in E2. rewrite E in E2. inversion E2. now subst.
Qed.

Lemma with_features_table : forall (m : mdp R) g, shape2 (m_n_features m) (m_n_states m) g -> table_ok (with_features m g).
Proof. intros m g S. apply table_shape. exact S. Qed.

Lemma length_add : forall (a c : list nat), length c = length a -> length (map (fun '(x, y) => x + y) (combine a c)) = length a.
Proof. intros. rewrite map_length, combine_length. lia. Qed.

Lemma set_walls_mident : forall k shape st m w m', grid_inv k shape st m -> set_walls m w = Ok m' -> mident m' = mident m /\ grid_inv k shape st m' /\ m_features m' = m_features m.
Proof.
  intros k shape st m w m' I E. destruct (set_walls_inv _ _ _ _ _ _ I E) as (_ & _ & I' & _ & H1 & H2 & H3 & H4 & H5 & H6).
  unfold mident. rewrite H1, H3, H4, H5, H6, (gi_shape _ _ _ _ I), (gi_shape _ _ _ _ I'), (gi_ns _ _ _ _ I), (gi_ns _ _ _ _ I'),
    (gi_na _ _ _ _ I), (gi_na _ _ _ _ I'). auto.
Qed.

Lemma reset_mdp_ok : forall k shape st e, wf k shape st e -> exists m', reset_mdp (e_mdp e) = Ok m' /\
  mident m' = mident (e_mdp e) /\ grid_inv k shape st m' /\ table_ok m' /\ m_features m' = m_orig_features (e_mdp e).
Proof.
  intros k shape st e W. unfold reset_mdp. rewrite set_features_ok by apply (wf_orig _ _ _ _ W).
  eexists. split; [reflexivity|]. unfold mident. cbn. rewrite (wf_origlen _ _ _ _ W). split; [reflexivity|]. split.
  - destruct (wf_grid _ _ _ _ W). constructor; assumption.
  - split; [|reflexivity]. split; cbn; [symmetry; apply (wf_origlen _ _ _ _ W)|apply (wf_orig _ _ _ _ W)].
Qed.

Lemma mut_wf : forall k shape st l e e', wf k shape st e -> mut l e e' -> wf k shape st e'.
Proof.
  intros k shape st l e e' W H. pose proof (wf_grid _ _ _ _ W) as G. pose proof (wf_table _ _ _ _ W) as T. destruct l; cbn [mut] in H.
  - destruct H as (a & a' & Ha & EI & EP & EC & ->). rewrite <- (with_mdp_id e) at 1.
    apply (wf_with_agent k shape st e (e_mdp e) a a'); auto; [now rewrite EC|]. rewrite EP. apply (wf_agents _ _ _ _ W a Ha).
  - destruct H as (a & a' & s & Ha & EI & EC & SP & ->). apply (wf_with_agent k shape st e _ a a'); auto.
    + now apply grid_inv_features.
    + apply table_row_set; [exact T|apply onehot_len].
    + now rewrite EC.
    + eauto.
  - destruct H as (a & Ha & ->). apply wf_with_mdp; auto; [now apply grid_inv_features|]. apply table_row_set; [exact T|apply zeros1_len].
  - destruct H as (a & a' & m' & c & Ha & E & EI & EP & EC & ->).
    destruct (consume_result _ _ _ _ _ _ _ W Ha E) as (g & -> & S & _ & _ & L). specialize (L c eq_refl).
    apply (wf_with_agent k shape st e _ a a'); auto.
    + now apply grid_inv_features.
    + now apply with_features_table.
    + rewrite EC. apply length_add. rewrite L. symmetry. apply (wf_agents _ _ _ _ W a Ha).
    + rewrite EP. apply (wf_agents _ _ _ _ W a Ha).
  - destruct H as (a & g & Ha & _ & S & _ & ->). apply wf_with_mdp; auto; [now apply grid_inv_features|]. now apply with_features_table.
  - subst e'. destruct W. constructor; assumption.
  - destruct H as (w & m' & E & ->). destruct (set_walls_mident _ _ _ _ _ _ G E) as (M & G' & F). apply wf_with_mdp; auto.
    apply table_shape. apply table_shape in T. unfold mident in M. inversion M. rewrite F. congruence.
  - destruct H as (m' & E & ->). destruct (reset_mdp_ok _ _ _ _ W) as (m2 & E2 & M & G2 & T2 & _). rewrite E in E2. inversion E2. subst.
    now apply wf_with_mdp.
Qed.
Lemma muts_wf : forall k shape st P e e', wf k shape st e -> muts P e e' -> wf k shape st e'.
Proof. intros k shape st P e e' W H. induction H; [assumption|]. apply IHmuts. eapply mut_wf; eauto. Qed.
