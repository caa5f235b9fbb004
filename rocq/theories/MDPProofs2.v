From Coq Require Import List ZArith Reals Bool Lia Lra.
From Verif Require Import PyBase PyProofs GridModel GridSpec GridProofs GridProofs2 MDPModel MDPSpec MDPProofs.
Import ListNotations.
Local Open Scope nat_scope.

(** * argmax over R *)
Lemma argmax_from_spec : forall (l : list R) bi b i,
  (bi < i) ->
  let r := argmax_from bi b i l in
  ((r = bi /\ forall x, In x l -> (x <= b)%R) \/
   (i <= r < i + length l /\ (b < nth (r - i) l 0)%R /\
    (forall x, In x l -> (x <= nth (r - i) l 0)%R) /\
    (forall j, j < r - i -> (nth j l 0 < nth (r - i) l 0)%R))).
Proof.
  induction l as [|y l IH]; intros bi b i Hi; cbn [argmax_from].
  - left. split; [reflexivity|]. intros x [].
  - cbn [nltb NumR]. destruct (Rltb b y) eqn:E.
    + apply Rltb_true in E. destruct (IH i y (S i)) as [[-> H]|(H1 & H2 & H3 & H4)]; [lia| |].
      * right. rewrite Nat.sub_diag. cbn [nth length]. split; [lia|]. split; [assumption|].
        split; [intros x [<-|Hx]; [lra|auto]|]. intros j Hj. lia.
      * right. set (r := argmax_from i y (S i) l) in *. replace (r - i) with (S (r - S i)) by lia.
        cbn [nth length]. split; [lia|]. split; [lra|]. split.
        -- intros x [<-|Hx]; [lra|auto].
        -- intros [|j] Hj; cbn [nth]; [lra|]. apply H4. lia.
    + apply Rltb_false in E. destruct (IH bi b (S i)) as [[-> H]|(H1 & H2 & H3 & H4)]; [lia| |].
      * left. split; [reflexivity|]. intros x [<-|Hx]; [lra|auto].
      * right. set (r := argmax_from bi b (S i) l) in *. replace (r - i) with (S (r - S i)) by lia.
        cbn [nth length]. split; [lia|]. split; [lra|]. split.
        -- intros x [<-|Hx]; [lra|auto].
        -- intros [|j] Hj; cbn [nth]; [lra|]. apply H4. lia.
Qed.

Lemma argmax_spec : forall (l : list R), l <> [] ->
  argmax l < length l /\ (forall x, In x l -> (x <= nth (argmax l) l 0)%R) /\
  (forall j, j < argmax l -> (nth j l 0 < nth (argmax l) l 0)%R).
Proof.
  intros [|b l] N; [congruence|]. cbn [argmax].
  destruct (argmax_from_spec l 0 b 1) as [[-> H]|(H1 & H2 & H3 & H4)]; [lia| |].
  - cbn [nth length]. split; [lia|]. split; [intros x [<-|Hx]; [lra|auto]|]. intros; lia.
  - set (r := argmax_from 0 b 1 l) in *. replace r with (S (r - 1)) by lia. cbn [nth length].
    split; [lia|]. split.
    + intros x [<-|Hx]; [lra|auto].
    + intros [|j] Hj; cbn [nth]; [assumption|]. apply H4. lia.
Qed.

(** * Sums *)
Lemma fold_Rplus_acc : forall l a, fold_left Rplus l a = (a + fold_left Rplus l 0)%R.
Proof.
  induction l; intros; simpl; [lra|]. rewrite IHl, (IHl (0 + a)%R). lra.
Qed.
Lemma nsum_cons : forall x (l : list R), nsum (x :: l) = (x + nsum l)%R.
Proof. intros. unfold nsum. cbn [fold_left]. cbn [nadd n0 NumR]. rewrite fold_Rplus_acc. lra. Qed.
Lemma nsum_nil : nsum (@nil R) = 0%R.
Proof. reflexivity. Qed.
Lemma nsum_nonneg : forall l : list R, (forall x, In x l -> (0 <= x)%R) -> (0 <= nsum l)%R.
Proof.
  induction l; intros H; [rewrite nsum_nil; lra|]. rewrite nsum_cons.
  assert (0 <= a)%R by (apply H; now left). assert (0 <= nsum l)%R by (apply IHl; intros; apply H; now right). lra.
Qed.
Lemma nsum_pos : forall l : list R, (forall x, In x l -> (0 <= x)%R) ->
  ((0 < nsum l)%R <-> exists x, In x l /\ (0 < x)%R).
Proof.
  induction l; intros H.
  - rewrite nsum_nil. split; [lra|intros (x & [] & _)].
  - rewrite nsum_cons. assert (H0 : (0 <= a)%R) by (apply H; now left).
    assert (H1 : forall x, In x l -> (0 <= x)%R) by (intros; apply H; now right).
    pose proof (nsum_nonneg l H1). specialize (IHl H1). split.
    + intros P. destruct (Rlt_dec 0 a); [exists a; split; [now left|assumption]|].
      assert (0 < nsum l)%R by lra. apply IHl in H3. destruct H3 as (x & Hx & Px). exists x. split; [now right|assumption].
    + intros (x & [<-|Hx] & Px); [lra|]. assert (0 < nsum l)%R by (apply IHl; eauto). lra.
Qed.

(** * Grid MDPs *)
Definition nst (shape : nat * nat) : nat := fst shape * snd shape.

Record grid_inv (k : gkind) (shape : nat * nat) (st : bool) (m : mdp R) : Prop := {
  gi_shape : m_shape m = Some shape;
  gi_pos : 0 < nst shape;
  gi_ns : m_n_states m = nst shape;
  gi_na : m_n_actions m = actions_of k st;
  gi_osh : shape3 (nst shape) (actions_of k st) (nst shape) (m_orig_sas m);
  gi_orig : forall s a t, s < nst shape -> a < actions_of k st -> t < nst shape ->
      get3 0%R (m_orig_sas m) s a t = if edgeb k shape st s a t then 1%R else 0%R;
  gi_sas : m_sas m = mask_out (m_walls m) (mask_in (m_walls m) (m_orig_sas m));
  gi_wlen : length (m_walls m) = nst shape;
  gi_wbin : binary (m_walls m);
  gi_det : m_deterministic m = true;
  gi_adj : m_adjacency m = adjacency_of (m_orig_sas m)
}.

Lemma actions_pos : forall k st, 0 < actions_of k st.
Proof. intros [|] [|]; simpl; lia. Qed.

Lemma existsb_false_forall : forall A (p : A -> bool) l, existsb p l = false <-> forall x, In x l -> p x = false.
Proof.
  intros. split.
  - intros H x Hx. destruct (p x) eqn:E; [|reflexivity]. exfalso.
    assert (existsb p l = true) by (apply existsb_exists; eauto). congruence.
  - intros H. destruct (existsb p l) eqn:E; [|reflexivity]. apply existsb_exists in E.
    destruct E as (x & Hx & P). rewrite H in P by assumption. discriminate.
Qed.

(** the setter accepts 0/1 arrays of the right shape *)
Lemma set_sas_01 : forall (m : mdp R) sas n na, 0 < n -> 0 < na -> shape3 n na n sas ->
  (forall s a t, s < n -> a < na -> t < n -> get3 0%R sas s a t = 0%R \/ get3 0%R sas s a t = 1%R) ->
  set_sas m sas = Ok (mkMDP (m_shape m) sas (m_orig_sas m) true (adjacency_of sas) n na (m_features m)
    (m_orig_features m) (m_n_features m) (m_n_non_agent m) (m_n_agents m) (m_walls m)).
Proof.
  intros m sas n na Hn Hna SH H01. unfold set_sas.
  rewrite (sas_shape_ok_spec sas n na Hn SH). cbn [negb].
  pose proof (entries3_in (A:=R) sas n na 0 0 0 SH Hn Hna Hn) as HI.
  assert (E01 : forall x, In x (entries3 sas) -> x = 0%R \/ x = 1%R).
  { intros x Hx. apply (in_entries3 (A:=R) sas n na x SH) in Hx. destruct Hx as (s & a & t & Hs & Ha & Ht & ->). auto. }
  destruct (entries3 sas) as [|e es] eqn:EE; [destruct HI|].
  assert (B : existsb (fun x : R => nltb x n0 || nltb n1 x) (e :: es) = false).
  { apply existsb_false_forall. intros x Hx. cbn [nltb n0 n1 NumR].
    apply orb_false_iff. rewrite !Rltb_false. destruct (E01 x Hx); subst; lra. }
  rewrite B.
  assert (D : existsb (fun x : R => nltb n0 x && nltb x n1) (e :: es) = false).
  { apply existsb_false_forall. intros x Hx. cbn [nltb n0 n1 NumR].
    apply andb_false_iff. rewrite !Rltb_false. destruct (E01 x Hx); subst; [left|right]; lra. }
  rewrite D. cbn [negb]. destruct SH as [L SH2]. rewrite L. destruct (SH2 0 Hn) as [L0 _]. rewrite L0. reflexivity.
Qed.

Lemma binary_forallb : forall v : list R, forallb (fun x => neqb x n0 || neqb x n1) v = true <-> binary v.
Proof.
  intros. rewrite forallb_forall. unfold binary. rewrite Forall_forall.
  split; intros H x Hx; specialize (H x Hx); cbn [neqb n0 n1 NumR] in *.
  - apply orb_true_iff in H. rewrite !Reqb_true in H. exact H.
  - apply orb_true_iff. rewrite !Reqb_true. exact H.
Qed.

Lemma orig_01 : forall k shape st m, grid_inv k shape st m -> forall s a t, s < nst shape ->
  a < actions_of k st -> t < nst shape -> get3 0%R (m_orig_sas m) s a t = 0%R \/ get3 0%R (m_orig_sas m) s a t = 1%R.
Proof. intros k shape st m I s a t Hs Ha Ht. rewrite (gi_orig _ _ _ _ I) by assumption. destruct (edgeb _ _ _ _ _ _); auto. Qed.

(** assigning walls: succeeds exactly for a 0/1 array of the right length *)
Lemma set_walls_ok : forall k shape st m walls, grid_inv k shape st m ->
  length walls = nst shape -> binary walls ->
  exists m', set_walls m walls = Ok m' /\ grid_inv k shape st m' /\ m_walls m' = walls /\
    m_orig_sas m' = m_orig_sas m /\ m_features m' = m_features m /\ m_orig_features m' = m_orig_features m /\
    m_n_features m' = m_n_features m /\ m_n_agents m' = m_n_agents m /\ m_n_non_agent m' = m_n_non_agent m.
Proof.
  intros k shape st m walls I L B. unfold set_walls. rewrite (gi_shape _ _ _ _ I). destruct shape as [w h].
  change (w * h) with (nst (w, h)). apply Nat.eqb_eq in L as L'. rewrite L'. cbn [negb].
  apply binary_forallb in B as B'. rewrite B'. cbn [negb].
  rewrite (set_sas_01 m (m_orig_sas m) (nst (w, h)) (actions_of k st));
    [|apply (gi_pos _ _ _ _ I)|apply actions_pos|apply (gi_osh _ _ _ _ I)|apply (orig_01 _ _ _ _ I)].
  cbn [bind]. eexists. split; [reflexivity|]. cbn. split; [|repeat split; reflexivity].
  constructor; cbn; try reflexivity; try assumption; try (apply I).
Qed.

Lemma set_walls_err : forall k shape st m walls, grid_inv k shape st m ->
  (length walls <> nst shape -> set_walls m walls = Err AttributeError) /\
  (length walls = nst shape -> ~ binary walls -> set_walls m walls = Err ValueError).
Proof.
  intros k [w h] st m walls I. unfold set_walls. rewrite (gi_shape _ _ _ _ I). change (w * h) with (nst (w, h)).
  split.
  - intros L. apply Nat.eqb_neq in L. rewrite L. reflexivity.
  - intros L B. apply Nat.eqb_eq in L. rewrite L. cbn [negb]. rewrite <- binary_forallb in B.
    destruct (forallb _ walls); [now exfalso; apply B|reflexivity].
Qed.

Lemma set_walls_inv : forall k shape st m walls m', grid_inv k shape st m -> set_walls m walls = Ok m' ->
  length walls = nst shape /\ binary walls /\ grid_inv k shape st m' /\ m_walls m' = walls /\
    m_orig_sas m' = m_orig_sas m /\ m_features m' = m_features m /\ m_orig_features m' = m_orig_features m /\
    m_n_features m' = m_n_features m /\ m_n_agents m' = m_n_agents m /\ m_n_non_agent m' = m_n_non_agent m.
Proof.
  intros k shape st m walls m' I H. destruct (set_walls_err k shape st m walls I) as [E1 E2].
  destruct (Nat.eq_dec (length walls) (nst shape)) as [L|L]; [|rewrite E1 in H by assumption; discriminate].
  destruct (forallb (fun x : R => neqb x n0 || neqb x n1) walls) eqn:F.
  - apply binary_forallb in F. destruct (set_walls_ok k shape st m walls I L F) as (m2 & E & rest).
    rewrite E in H. inversion H. subst. tauto.
  - rewrite E2 in H; [discriminate|assumption|]. rewrite <- binary_forallb. congruence.
Qed.

(** construction *)
Lemma binary_zeros : forall n, binary (zeros1 n).
Proof. intros. unfold binary, zeros1. apply Forall_forall. intros x Hx. apply repeat_spec in Hx. now left. Qed.

Lemma set_features_ok : forall (m : mdp R) f, Forall (fun row => length row = m_n_states m) f ->
  set_features m f = Ok (mkMDP (m_shape m) (m_sas m) (m_orig_sas m) (m_deterministic m) (m_adjacency m)
              (m_n_states m) (m_n_actions m) f f (length f) (m_n_non_agent m) (m_n_agents m) (m_walls m)).
Proof.
  intros m f H. unfold set_features.
  assert (E : forallb (fun row => length row =? m_n_states m) f = true).
  { apply forallb_forall. intros r Hr. rewrite Forall_forall in H. apply Nat.eqb_eq. auto. }
  now rewrite E.
Qed.

Lemma set_features_inv : forall (m : mdp R) f m', set_features m f = Ok m' -> Forall (fun row => length row = m_n_states m) f.
Proof.
  intros m f m' H. unfold set_features in H.
  destruct (forallb (fun row => length row =? m_n_states m) f) eqn:E; [|discriminate].
  rewrite forallb_forall in E. apply Forall_forall. intros r Hr. apply Nat.eqb_eq. auto.
Qed.

Definition walls_arg (shape : nat * nat) (w : option (list R)) : list R :=
  match w with Some w => w | None => zeros1 (nst shape) end.

Lemma grid_mdp_ok : forall k feats walls shape st,
  0 < nst shape -> Forall (fun row => length row = nst shape) feats ->
  length (walls_arg shape walls) = nst shape -> binary (walls_arg shape walls) ->
  exists m, grid_mdp (A:=R) k feats walls shape st = Ok m /\ grid_inv k shape st m /\
    m_walls m = walls_arg shape walls /\ m_features m = feats /\ m_orig_features m = feats /\
    m_n_features m = length feats /\ m_n_agents m = 0 /\ m_n_non_agent m = length feats.
Proof.
  intros k feats walls shape st Hp Hf Hw Hb. unfold grid_mdp.
  destruct (get_sas_spec (A:=R) k shape st) as (sas & E & SH & HS). rewrite E. cbn [bind]. unfold init_mdp.
  fold (nst shape) in SH, HS. cbn [n0 n1 NumR] in HS.
  rewrite (set_sas_01 _ sas (nst shape) (actions_of k st));
    [|assumption|apply actions_pos|assumption|intros; rewrite HS by assumption; destruct (edgeb _ _ _ _ _ _); auto].
  cbn [bind m_shape m_sas m_deterministic m_adjacency m_n_states m_n_actions m_features m_orig_features m_n_features m_n_non_agent m_n_agents m_walls blank_mdp].
  rewrite set_features_ok by assumption.
  cbn [bind m_shape m_sas m_orig_sas m_deterministic m_adjacency m_n_states m_n_actions m_features m_orig_features m_n_features m_n_non_agent m_n_agents m_walls].
  destruct SH as [L SH2]. rewrite L.
  replace (match walls with Some w => w | None => zeros1 (nst shape) end) with (walls_arg shape walls) by reflexivity.
  match goal with |- context[set_walls ?m4 _] => set (m0 := m4) end.
  unfold set_walls. destruct shape as [w h]. cbn [m_shape m0]. subst m0. cbn [m_shape].
  change (w * h) with (nst (w, h)). apply Nat.eqb_eq in Hw as Hw'. rewrite Hw'. cbn [negb].
  apply binary_forallb in Hb as Hb'. rewrite Hb'. cbn [negb m_orig_sas].
  rewrite (set_sas_01 _ sas (nst (w, h)) (actions_of k st));
    [|assumption|apply actions_pos|split; assumption|intros; rewrite HS by assumption; destruct (edgeb _ _ _ _ _ _); auto].
  cbn [bind]. eexists. split; [reflexivity|]. cbn. split; [|repeat split; reflexivity].
  constructor; cbn; try reflexivity; try assumption. split; assumption.
Qed.

Lemma grid_mdp_inv : forall k feats walls shape st m, grid_mdp (A:=R) k feats walls shape st = Ok m ->
  0 < nst shape /\ Forall (fun row => length row = nst shape) feats /\
  length (walls_arg shape walls) = nst shape /\ binary (walls_arg shape walls) /\
  grid_inv k shape st m /\ m_walls m = walls_arg shape walls /\ m_features m = feats /\
  m_orig_features m = feats /\ m_n_features m = length feats /\ m_n_agents m = 0 /\ m_n_non_agent m = length feats.
Proof.
  intros k feats walls shape st m H.
  assert (Hp : 0 < nst shape).
  { destruct (Nat.eq_dec (nst shape) 0) as [Z|]; [|lia]. exfalso. unfold grid_mdp in H.
    destruct (get_sas_spec (A:=R) k shape st) as (sas & E & SH & _). rewrite E in H. cbn [bind] in H.
    fold (nst shape) in SH. rewrite Z in SH. destruct SH as [L _]. destruct sas; [|discriminate].
    unfold init_mdp, set_sas in H. simpl in H. discriminate. }
  destruct (get_sas_spec (A:=R) k shape st) as (sas & E & SH & HS). fold (nst shape) in SH, HS. cbn [n0 n1 NumR] in HS.
  assert (Hf : Forall (fun row => length row = nst shape) feats).
  { unfold grid_mdp in H. rewrite E in H. cbn [bind] in H. unfold init_mdp in H.
    rewrite (set_sas_01 _ sas (nst shape) (actions_of k st)) in H;
    [|assumption|apply actions_pos|assumption|intros; rewrite HS by assumption; destruct (edgeb _ _ _ _ _ _); auto].
    cbn [bind] in H. apply bind_ok in H. destruct H as (m3 & H3 & _).
    apply set_features_inv in H3. exact H3. }
  assert (Hw : length (walls_arg shape walls) = nst shape /\ binary (walls_arg shape walls)).
  { unfold grid_mdp in H. rewrite E in H. cbn [bind] in H. unfold init_mdp in H.
    rewrite (set_sas_01 _ sas (nst shape) (actions_of k st)) in H;
    [|assumption|apply actions_pos|assumption|intros; rewrite HS by assumption; destruct (edgeb _ _ _ _ _ _); auto].
    cbn [bind m_shape m_sas m_deterministic m_adjacency m_n_states m_n_actions m_features m_orig_features m_n_features m_n_non_agent m_n_agents m_walls blank_mdp] in H.
    rewrite set_features_ok in H by assumption.
    cbn [bind m_shape m_sas m_orig_sas m_deterministic m_adjacency m_n_states m_n_actions m_features m_orig_features m_n_features m_n_non_agent m_n_agents m_walls] in H.
    destruct SH as [L SH2]. rewrite L in H.
    replace (match walls with Some w => w | None => zeros1 (nst shape) end) with (walls_arg shape walls) in H by reflexivity.
    unfold set_walls in H. destruct shape as [w h]. cbn [m_shape] in H. change (w * h) with (nst (w, h)) in H.
    destruct (Nat.eqb_spec (length (walls_arg (w, h) walls)) (nst (w, h))) as [L1|]; [|discriminate].
    cbn [negb] in H. destruct (forallb _ (walls_arg (w, h) walls)) eqn:F; [|discriminate].
    split; [assumption|]. now apply binary_forallb. }
  destruct Hw as [Hw Hb]. destruct (grid_mdp_ok k feats walls shape st Hp Hf Hw Hb) as (m2 & E2 & rest).
  rewrite E2 in H. inversion H. subst. tauto.
Qed.

(** the current transition array *)
Lemma inv_get3 : forall k shape st m, grid_inv k shape st m -> forall s a t, s < nst shape ->
  a < actions_of k st -> t < nst shape ->
  get3 0%R (m_sas m) s a t =
    if (walled (m_walls m) s || walled (m_walls m) t) then 0%R
    else if edgeb k shape st s a t then 1%R else 0%R.
Proof.
  intros k shape st m I s a t Hs Ha Ht. rewrite (gi_sas _ _ _ _ I).
  change 0%R with (n0 (A:=R)) at 1. rewrite (mask_spec _ _ (nst shape) (actions_of k st)) by (auto; apply (gi_osh _ _ _ _ I)).
  cbn [n0 NumR]. rewrite (gi_orig _ _ _ _ I) by assumption. reflexivity.
Qed.

Lemma inv_shape : forall k shape st m, grid_inv k shape st m -> shape3 (nst shape) (actions_of k st) (nst shape) (m_sas m).
Proof. intros k shape st m I. rewrite (gi_sas _ _ _ _ I). apply mask_shape. apply (gi_osh _ _ _ _ I). Qed.

Lemma walled_is_wall : forall walls s, walled walls s = true <-> is_wall walls s.
Proof. intros. unfold walled, is_wall. cbn [neqb n0 n1 NumR]. apply Reqb_true. Qed.

Lemma inv_edge : forall k shape st m, grid_inv k shape st m -> forall s a t, s < nst shape ->
  a < actions_of k st -> t < nst shape ->
  (get3 0%R (m_sas m) s a t = 1%R /\ walled_edge k shape st (m_walls m) s a t) \/
  (get3 0%R (m_sas m) s a t = 0%R /\ ~ walled_edge k shape st (m_walls m) s a t).
Proof.
  intros k shape st m I s a t Hs Ha Ht. rewrite (inv_get3 _ _ _ _ I) by assumption. unfold walled_edge.
  rewrite <- !walled_is_wall, <- edgeb_spec.
  destruct (walled (m_walls m) s), (walled (m_walls m) t), (edgeb k shape st s a t); cbn [orb]; intuition congruence.
Qed.

Lemma edge_unique_t : forall k shape st s a t t', grid_edge k shape st s a t -> grid_edge k shape st s a t' ->
  snd shape <> 0 -> t = t'.
Proof.
  intros k shape st s a t t' [[H1 H2]|(H1 & H2 & H3)] [[G1 G2]|(G1 & G2 & G3)] N; try lia.
  eapply cell_of_inj; [|exact N]. congruence.
Qed.

Lemma edge_unique_a : forall k shape st s a a' t, grid_edge k shape st s a t -> grid_edge k shape st s a' t -> a = a'.
Proof.
  intros k shape st s a a' t [[H1 H2]|(H1 & H2 & H3)] [[G1 G2]|(G1 & G2 & G3)]; try lia.
  - apply (move_inj k a a' (cell_of shape s)); congruence.
  - subst. exfalso. eapply move_ne; exact H2.
  - subst. exfalso. eapply move_ne; exact G2.
Qed.

Lemma edge_action : forall k shape st s a t, grid_edge k shape st s a t -> a < actions_of k st.
Proof. intros k shape st s a t [[H1 H2]|(-> & H2 & H3)]; unfold actions_of; [destruct st; lia|lia]. Qed.

Lemma pos_snd : forall shape, 0 < nst shape -> snd shape <> 0.
Proof. intros [w h]. unfold nst. simpl. lia. Qed.

(** * get_next_state *)
Lemma argmax_onehot : forall (l : list R) t, t < length l -> nth t l 0%R = 1%R ->
  (forall j, j < length l -> j <> t -> nth j l 0%R = 0%R) -> argmax l = t.
Proof.
  intros l t Ht H1 H0. destruct (argmax_spec l) as (A1 & A2 & A3); [destruct l; [simpl in Ht; lia|congruence]|].
  destruct (Nat.eq_dec (argmax l) t); [assumption|]. exfalso.
  specialize (A2 (nth t l 0%R) (nth_In _ _ Ht)). rewrite H1, (H0 (argmax l)) in A2 by assumption. lra.
Qed.

Lemma argmax_zeros : forall (l : list R), (forall j, j < length l -> nth j l 0%R = 0%R) -> argmax l = 0.
Proof.
  intros l H. destruct l as [|x l]; [reflexivity|]. destruct (argmax_spec (x :: l)) as (A1 & A2 & A3); [congruence|].
  destruct (argmax (x :: l)) as [|r] eqn:E; [reflexivity|]. exfalso.
  specialize (A3 0 ltac:(lia)). rewrite !H in A3 by (simpl in *; lia). lra.
Qed.

Lemma next_state_edge : forall k shape st m, grid_inv k shape st m -> forall s a t, s < nst shape -> t < nst shape ->
  walled_edge k shape st (m_walls m) s a t -> get_next_state m (Z.of_nat s) (Z.of_nat a) = Ok t.
Proof.
  intros k shape st m I s a t Hs Ht HE. unfold get_next_state.
  pose proof (edge_action _ _ _ _ _ _ (proj1 HE)) as Ha.
  destruct (Z.ltb_spec (Z.of_nat a) 0); [lia|]. rewrite (gi_ns _ _ _ _ I), (gi_na _ _ _ _ I), (gi_det _ _ _ _ I).
  rewrite !py_index_nat by assumption. cbn [bind]. f_equal.
  destruct (inv_shape _ _ _ _ I) as [_ SH]. destruct (SH s Hs) as [_ SH2]. specialize (SH2 a Ha).
  apply argmax_onehot; [rewrite SH2; assumption| |].
  - destruct (inv_edge _ _ _ _ I s a t) as [[E _]|[_ N]]; try assumption. contradiction.
  - intros j Hj N. rewrite SH2 in Hj. destruct (inv_edge _ _ _ _ I s a j) as [[_ W]|[E _]]; try assumption.
    exfalso. apply N. eapply edge_unique_t; [exact (proj1 W)|exact (proj1 HE)|]. apply pos_snd, (gi_pos _ _ _ _ I).
Qed.

Lemma next_state_no_edge : forall k shape st m, grid_inv k shape st m -> forall s a, s < nst shape ->
  a < actions_of k st -> (forall t, t < nst shape -> ~ walled_edge k shape st (m_walls m) s a t) ->
  get_next_state m (Z.of_nat s) (Z.of_nat a) = Ok 0.
Proof.
  intros k shape st m I s a Hs Ha HN. unfold get_next_state.
  destruct (Z.ltb_spec (Z.of_nat a) 0); [lia|]. rewrite (gi_ns _ _ _ _ I), (gi_na _ _ _ _ I), (gi_det _ _ _ _ I).
  rewrite !py_index_nat by assumption. cbn [bind]. f_equal.
  destruct (inv_shape _ _ _ _ I) as [_ SH]. destruct (SH s Hs) as [_ SH2]. specialize (SH2 a Ha).
  apply argmax_zeros. intros j Hj. rewrite SH2 in Hj.
  destruct (inv_edge _ _ _ _ I s a j) as [[_ W]|[E _]]; try assumption. exfalso. eapply HN; [exact Hj|exact W].
Qed.

(** * valid actions, adjacency, trajectory conversion *)
Lemma in_valid_actions : forall k shape st m, grid_inv k shape st m -> forall s, s < nst shape ->
  exists va, state_valid_actions m (Z.of_nat s) = Ok va /\
    forall a, In a va <-> exists t, t < nst shape /\ walled_edge k shape st (m_walls m) s a t.
Proof.
  intros k shape st m I s Hs. unfold state_valid_actions. rewrite (gi_ns _ _ _ _ I), py_index_nat by assumption.
  cbn [bind]. eexists. split; [reflexivity|]. intros a.
  destruct (inv_shape _ _ _ _ I) as [_ SH]. destruct (SH s Hs) as [SH1 SH2].
  rewrite in_concat. split.
  - intros (l & Hl & Ha). apply in_map_iff in Hl. destruct Hl as ([a' row] & <- & Hc).
    apply in_map_iff in Ha. destruct Ha as (t & <- & Ht).
    apply (In_nth _ _ (0, [])) in Hc. destruct Hc as (i & Li & Ei).
    rewrite combine_length, seq_length in Li. assert (Li' : i < length (nth s (m_sas m) [])) by lia.
    rewrite nth_combine_seq in Ei by assumption. inversion Ei. subst a' row.
    apply (in_where _ _ _ _ 0%R) in Ht. destruct Ht as [Lt P]. rewrite SH2 in Lt by lia. exists t. split; [assumption|].
    cbn [neqb n0 NumR] in P. apply negb_true_iff, Reqb_false in P.
    destruct (inv_edge _ _ _ _ I s i t) as [[_ W]|[E _]]; try assumption; [lia|]. exfalso. apply P. exact E.
  - intros (t & Ht & W). pose proof (edge_action _ _ _ _ _ _ (proj1 W)) as Ha.
    exists (map (fun _ => a) (where_ (fun x : R => negb (neqb x n0)) (nth a (nth s (m_sas m) []) []))). split.
    + apply in_map_iff. exists (a, nth a (nth s (m_sas m) []) []). split; [reflexivity|].
      rewrite <- (nth_combine_seq _ (nth s (m_sas m) []) a 0 []) by lia. apply nth_In.
      rewrite combine_length, seq_length. lia.
    + apply in_map_iff. exists t. split; [reflexivity|]. apply (in_where _ _ _ _ 0%R).
      rewrite SH2 by assumption. split; [assumption|]. cbn [neqb n0 NumR]. apply negb_true_iff, Reqb_false.
      destruct (inv_edge _ _ _ _ I s a t) as [[E _]|[_ N]]; try assumption; [|contradiction].
      unfold get3 in E. rewrite E. lra.
Qed.

Lemma sas_col_nth : forall (m : mdp R) s t a n na, shape3 n na n (m_sas m) -> s < n -> a < na ->
  nth a (sas_col m s t) 0%R = get3 0%R (m_sas m) s a t.
Proof.
  intros m s t a n na [_ SH] Hs Ha. unfold sas_col, get3. destruct (SH s Hs) as [L _].
  now rewrite (nth_map_lt _ _ _ _ _ _ []) by lia.
Qed.
Lemma sas_col_length : forall (m : mdp R) s t n na, shape3 n na n (m_sas m) -> s < n -> length (sas_col m s t) = na.
Proof. intros m s t n na [_ SH] Hs. unfold sas_col. rewrite map_length. apply SH. assumption. Qed.

Lemma is_adjacent_spec : forall k shape st m, grid_inv k shape st m -> forall s t, s < nst shape -> t < nst shape ->
  exists b, is_adjacent m (Z.of_nat s) (Z.of_nat t) = Ok b /\
    (b = true <-> exists a, walled_edge k shape st (m_walls m) s a t).
Proof.
  intros k shape st m I s t Hs Ht. unfold is_adjacent. rewrite (gi_ns _ _ _ _ I), !py_index_nat by assumption.
  cbn [bind]. eexists. split; [reflexivity|]. rewrite existsb_exists. pose proof (inv_shape _ _ _ _ I) as SH. split.
  - intros (x & Hx & P). apply (In_nth _ _ 0%R) in Hx. destruct Hx as (a & La & <-).
    rewrite (sas_col_length m s t _ _ SH) in La by assumption.
    rewrite (sas_col_nth m s t a _ _ SH) in P by assumption.
    cbn [nltb n0 NumR] in P. apply Rltb_true in P. exists a.
    destruct (inv_edge _ _ _ _ I s a t) as [[_ W]|[E _]]; try assumption. rewrite E in P. lra.
  - intros (a & W). pose proof (edge_action _ _ _ _ _ _ (proj1 W)) as Ha.
    exists (nth a (sas_col m s t) 0%R). split; [apply nth_In; now rewrite (sas_col_length m s t _ _ SH)|].
    rewrite (sas_col_nth m s t a _ _ SH) by assumption. cbn [nltb n0 NumR]. apply Rltb_true.
    destruct (inv_edge _ _ _ _ I s a t) as [[E _]|[_ N]]; try assumption; [lra|contradiction].
Qed.

Lemma nmax_R : forall x y : R, nmax x y = Rmax x y.
Proof.
  intros. unfold nmax. cbn [nltb NumR]. unfold Rmax. destruct (Rltb x y) eqn:E.
  - apply Rltb_true in E. destruct (Rle_dec x y); lra.
  - apply Rltb_false in E. destruct (Rle_dec x y); lra.
Qed.
Lemma fold_nmax_spec : forall (l : list R) b, let r := fold_left nmax l b in
  (In r l \/ r = b) /\ (b <= r)%R /\ forall x, In x l -> (x <= r)%R.
Proof.
  induction l; intros b; cbn [fold_left].
  - split; [now right|]. split; [lra|intros x []].
  - destruct (IHl (nmax b a)) as (H1 & H2 & H3). rewrite nmax_R in *. cbv zeta in *.
    set (r := fold_left nmax l (Rmax b a)) in *. pose proof (Rmax_l b a). pose proof (Rmax_r b a).
    split.
    + destruct H1 as [H1|H1]; [left; now right|]. rewrite H1. unfold Rmax in *. destruct (Rle_dec b a); [left; now left|now right].
    + split; [lra|]. intros x [<-|Hx]; [lra|auto].
Qed.

Lemma pair_action_edge : forall k shape st m, grid_inv k shape st m -> forall s a t, s < nst shape -> t < nst shape ->
  walled_edge k shape st (m_walls m) s a t ->
  state_pair_to_action m (Z.of_nat s) (Z.of_nat t) true = Ok [a] /\
  state_pair_to_action m (Z.of_nat s) (Z.of_nat t) false = Ok [a] /\
  argmax (sas_col m s t) = a.
Proof.
  intros k shape st m I s a t Hs Ht W. pose proof (edge_action _ _ _ _ _ _ (proj1 W)) as Ha.
  pose proof (inv_shape _ _ _ _ I) as SH. pose proof (sas_col_length m s t _ _ SH Hs) as LC.
  assert (HA : nth a (sas_col m s t) 0%R = 1%R).
  { rewrite (sas_col_nth m s t a _ _ SH) by assumption.
    destruct (inv_edge _ _ _ _ I s a t) as [[E _]|[_ N]]; try assumption; contradiction. }
  assert (HO : forall j, j < actions_of k st -> j <> a -> nth j (sas_col m s t) 0%R = 0%R).
  { intros j Hj N. rewrite (sas_col_nth m s t j _ _ SH) by assumption.
    destruct (inv_edge _ _ _ _ I s j t) as [[_ W2]|[E _]]; try assumption.
    exfalso. apply N. eapply edge_unique_a; [exact (proj1 W2)|exact (proj1 W)]. }
  assert (AM : argmax (sas_col m s t) = a).
  { apply argmax_onehot; [now rewrite LC|assumption|]. intros j Hj. rewrite LC in Hj. now apply HO. }
  assert (MX : exists mx, nmax_list (sas_col m s t) = Ok mx /\ (0 < mx)%R).
  { destruct (sas_col m s t) as [|c l] eqn:E; [simpl in LC; lia|]. simpl. eexists. split; [reflexivity|].
    destruct (fold_nmax_spec l c) as (_ & B & C). destruct a as [|a]; cbn [nth] in HA; [lra|].
    assert (In 1%R l) by (rewrite <- HA; apply nth_In; cbn [length] in LC; lia). specialize (C _ H). lra. }
  destruct MX as (mx & EM & PM). unfold state_pair_to_action.
  rewrite (gi_ns _ _ _ _ I), !py_index_nat by assumption. cbn [bind]. rewrite EM. cbn [bind nltb n0 NumR].
  apply Rltb_true in PM. rewrite PM, AM. split; [reflexivity|]. split; [|reflexivity]. f_equal.
  assert (U : forall j, In j (where_ (fun x : R => Rltb 0 x) (sas_col m s t)) <-> j = a).
  { intros j. rewrite (in_where _ _ _ _ 0%R), LC. split.
    - intros [Lj P]. destruct (Nat.eq_dec j a); [assumption|]. rewrite HO in P by assumption. apply Rltb_true in P. lra.
    - intros ->. split; [assumption|]. rewrite HA. apply Rltb_true. lra. }
  pose proof (where_NoDup _ (fun x : R => Rltb 0 x) (sas_col m s t)) as ND.
  destruct (where_ (fun x : R => Rltb 0 x) (sas_col m s t)) as [|p [|q l]].
  - exfalso. apply (proj2 (U a) eq_refl).
  - f_equal. apply U. now left.
  - exfalso. assert (p = a) by (apply U; now left). assert (q = a) by (apply U; right; now left). subst.
    inversion ND. subst. apply H1. now left.
Qed.

Lemma pair_action_none : forall k shape st m, grid_inv k shape st m -> forall s t b, s < nst shape -> t < nst shape ->
  (forall a, ~ walled_edge k shape st (m_walls m) s a t) ->
  state_pair_to_action m (Z.of_nat s) (Z.of_nat t) b = Err AttributeError.
Proof.
  intros k shape st m I s t b Hs Ht N. pose proof (inv_shape _ _ _ _ I) as SH.
  pose proof (sas_col_length m s t _ _ SH Hs) as LC.
  assert (HO : forall x, In x (sas_col m s t) -> x = 0%R).
  { intros x Hx. apply (In_nth _ _ 0%R) in Hx. destruct Hx as (a & La & <-). rewrite LC in La.
    rewrite (sas_col_nth m s t a _ _ SH) by assumption.
    destruct (inv_edge _ _ _ _ I s a t) as [[_ W]|[E _]]; try assumption. exfalso. eapply N. exact W. }
  unfold state_pair_to_action. rewrite (gi_ns _ _ _ _ I), !py_index_nat by assumption. cbn [bind].
  pose proof (actions_pos k st).
  destruct (sas_col m s t) as [|c l] eqn:E; [simpl in LC; lia|]. cbn [nmax_list bind].
  destruct (fold_nmax_spec l c) as (M & _ & _). set (r := fold_left nmax l c) in *.
  assert (r = 0%R) by (destruct M as [M|M]; [apply HO; now right|rewrite M; apply HO; now left]).
  cbn [nltb n0 NumR]. rewrite H0. assert (F : Rltb 0 0 = false) by (apply Rltb_false; lra). now rewrite F.
Qed.
