(** Counting features along the line of sight: C55 and the two learners that use it (C88, C89). *)
From Coq Require Import List ZArith Reals Bool Lia Lra.
From Verif Require Import PyBase PyProofs RSum GridModel GridSpec GridProofs GridProofs2 MDPModel MDPSpec MDPProofs MDPProofs2 MDPProofs3 EnvProofs3 ActionSpec ActionProofs VISpec VIEnvProps IRLModel.
Import ListNotations.

(** ** Specification *)
(** The cell [n] steps ahead of [c] in direction [a]. *)
Fixpoint ahead (k : gkind) (a n : nat) (c : Z * Z) : Z * Z := match n with O => c | S n => ahead k a n (move_of k a c) end.
(** The states seen from [s] when looking in direction [a]: [s] itself and the states ahead of it, one after the other,
    up to the border or the first wall. (From inside a wall nothing else is seen.) *)
Definition ray (k : gkind) (shape : nat * nat) (walls : list R) (s a : nat) (l : list nat) : Prop :=
  l <> [] /\
  (forall i, i < length l -> nth i l 0 < fst shape * snd shape /\ cell_of shape (nth i l 0) = ahead k a i (cell_of shape s)) /\
  (forall i, 1 <= i < length l -> ~ is_wall walls (nth i l 0)) /\
  (is_wall walls s /\ length l = 1 \/
   ~ is_wall walls s /\ forall t, t < fst shape * snd shape -> cell_of shape t = ahead k a (length l) (cell_of shape s) -> is_wall walls t).

(** ** One look *)
Lemma wall_dec : forall walls s, is_wall walls s \/ ~ is_wall walls s.
Proof. intros. unfold is_wall. destruct (Req_dec (nth s walls 0%R) 1%R); auto. Qed.
Lemma edge_dec : forall k shape st m, grid_inv k shape st m -> forall s a, s < nst shape -> a < actions_of k st ->
  (exists t, t < nst shape /\ walled_edge k shape st (m_walls m) s a t) \/ (forall t, t < nst shape -> ~ walled_edge k shape st (m_walls m) s a t).
Proof.
  intros k shape st m G s a Hs Ha. destruct (Exists_dec (fun t => get3 0%R (m_sas m) s a t = 1%R) (seq 0 (nst shape)) ltac:(intros; apply Req_EM_T)) as [X|X].
  - left. apply Exists_exists in X. destruct X as (t & Ht & Et). apply in_seq in Ht. exists t. split; [lia|]. destruct (inv_edge _ _ _ _ G s a t Hs Ha ltac:(lia)) as [[_ W]|[E _]]; [exact W|lra].
  - right. intros t Ht W. apply X. apply Exists_exists. exists t. split; [apply in_seq; lia|]. destruct (inv_edge _ _ _ _ G s a t Hs Ha Ht) as [[E _]|[_ N]]; [exact E|contradiction].
Qed.
Lemma look_edge : forall k shape st m, grid_inv k shape st m -> forall s a t, s < nst shape -> t < nst shape -> walled_edge k shape st (m_walls m) s a t ->
  let next := nth a (nth s (m_sas m) []) [] in existsb (fun x => nltb n0 x) next = true /\ argmax next = t.
Proof.
  intros k shape st m G s a t Hs Ht W next. pose proof (edge_action _ _ _ _ _ _ (proj1 W)) as Ha. destruct (inv_shape _ _ _ _ G) as [_ SH]. destruct (SH s Hs) as [_ SH2]. specialize (SH2 a Ha). fold next in SH2.
  assert (E1 : nth t next 0%R = 1%R) by (destruct (inv_edge _ _ _ _ G s a t Hs Ha Ht) as [[E _]|[_ N]]; [exact E|contradiction]). split.
  - apply existsb_exists. exists 1%R. split; [rewrite <- E1; apply nth_In; lia|]. cbn. apply Rltb_true. lra.
  - apply argmax_onehot; [lia|exact E1|]. intros j Hj N. rewrite SH2 in Hj. destruct (inv_edge _ _ _ _ G s a j Hs Ha Hj) as [[_ W']|[E _]]; [|exact E]. exfalso. apply N. eapply edge_unique_t; [exact (proj1 W')|exact (proj1 W)|]. apply pos_snd, (gi_pos _ _ _ _ G).
Qed.
Lemma look_none : forall k shape st m, grid_inv k shape st m -> forall s a, s < nst shape -> a < actions_of k st -> (forall t, t < nst shape -> ~ walled_edge k shape st (m_walls m) s a t) ->
  existsb (fun x => nltb n0 x) (nth a (nth s (m_sas m) []) []) = false.
Proof.
  intros k shape st m G s a Hs Ha N. apply existsb_false_forall. intros x Hx. apply (In_nth _ _ 0%R) in Hx. destruct Hx as (t & Ht & <-). destruct (inv_shape _ _ _ _ G) as [_ SH]. rewrite (proj2 (SH s Hs) a Ha) in Ht.
  destruct (inv_edge _ _ _ _ G s a t Hs Ha Ht) as [[_ W]|[E _]]; [elim (N t Ht W)|]. unfold get3 in E. rewrite E. cbn. apply Rltb_false. lra.
Qed.
(** Moving ahead goes steadily along one coordinate. *)
Lemma progress : forall k a shape, a < dirs_of k -> 0 < nst shape -> exists psi : Z * Z -> Z, (forall c, psi (move_of k a c) = psi c - 1)%Z /\ forall s, s < nst shape -> (0 <= psi (cell_of shape s) < Z.of_nat (nst shape))%Z.
Proof.
  intros k a [w h] La P. unfold nst in *. cbn [fst snd] in *.
  assert (B : forall s, s < w * h -> s / h < w /\ s mod h < h). { intros s Hs. split; [apply Nat.div_lt_upper_bound; nia|apply Nat.mod_upper_bound; nia]. }
  assert (W : w <= w * h) by (destruct h; nia). assert (H : h <= w * h) by (destruct w; nia).
  assert (C : exists psi : Z * Z -> Z, (forall c, psi (move_of k a c) = psi c - 1)%Z /\ ((forall c, psi c = fst c) \/ (forall c, psi c = snd c) \/ (forall c, psi c = Z.of_nat w - 1 - fst c)%Z \/ (forall c, psi c = Z.of_nat h - 1 - snd c)%Z)).
  { destruct k; cbn [dirs_of move_of] in *.
    - assert (a = 0 \/ a = 1 \/ a = 2 \/ a = 3) as [-> | [-> | [-> | ->]]] by lia;
      [exists (fun c => Z.of_nat h - 1 - snd c)%Z|exists (fun c => Z.of_nat w - 1 - fst c)%Z|exists (fun c => snd c)|exists (fun c => fst c)]; (split; [intros [x y]; cbn; lia|auto]).
    - assert (a = 0 \/ a = 1 \/ a = 2 \/ a = 3 \/ a = 4 \/ a = 5) as [-> | [-> | [-> | [-> | [-> | ->]]]]] by lia;
      [exists (fun c => Z.of_nat h - 1 - snd c)%Z|exists (fun c => Z.of_nat w - 1 - fst c)%Z|exists (fun c => Z.of_nat w - 1 - fst c)%Z|exists (fun c => snd c)|exists (fun c => fst c)|exists (fun c => fst c)];
      (split; [intros [x y]; cbn; destruct (Z.even x); cbn; lia|auto]). }
  destruct C as (psi & C1 & C2). exists psi. split; [exact C1|]. intros s Hs. destruct (B s Hs) as [B1 B2]. destruct C2 as [C2|[C2|[C2|C2]]]; rewrite C2; unfold cell_of; cbn [fst snd]; lia.
Qed.

(** ** C55 *)
Section Look.
Context (k : gkind) (shape : nat * nat) (st : bool) (m : mdp R) (G : grid_inv k shape st m) (a : nat) (La : a < dirs_of k).
Lemma dir_action : a < actions_of k st. Proof. unfold actions_of. destruct st; lia. Qed.
Lemma dir_edge : forall s t, walled_edge k shape st (m_walls m) s a t <-> move_of k a (cell_of shape s) = cell_of shape t /\ ~ is_wall (m_walls m) s /\ ~ is_wall (m_walls m) t.
Proof. intros s t. unfold walled_edge, grid_edge. split; [intros [[[_ E]|(_ & E & _)] H]; [auto|lia]|intros [E H]; split; [left; auto|exact H]]. Qed.
Lemma eyeline_ends : forall fuel s, s < nst shape -> nst shape <= fuel -> exists l, eyeline fuel m s a = Ok l.
Proof.
  destruct (progress k a shape La (gi_pos _ _ _ _ G)) as (psi & P1 & P2).
  assert (X : forall fuel s, s < nst shape -> (psi (cell_of shape s) < Z.of_nat fuel)%Z -> exists l, eyeline fuel m s a = Ok l).
  { induction fuel as [|fuel IH]; intros s Hs HF; [specialize (P2 s Hs); lia|]. cbn [eyeline]. destruct (edge_dec _ _ _ _ G s a Hs dir_action) as [(t & Ht & W)|N].
    - destruct (look_edge _ _ _ _ G s a t Hs Ht W) as [E1 E2]. cbv zeta in E1, E2. rewrite E1, E2. destruct (IH t Ht) as (l & E); [|rewrite E; cbn [bind]; eauto]. apply dir_edge in W. destruct W as [W _]. rewrite <- W, P1. lia.
    - rewrite (look_none _ _ _ _ G s a Hs dir_action N). eauto. }
  intros fuel s Hs HF. apply X; [exact Hs|]. specialize (P2 s Hs). lia.
Qed.
Lemma eyeline_ray : forall fuel s l, s < nst shape -> eyeline fuel m s a = Ok l -> ray k shape (m_walls m) s a l.
Proof.
  induction fuel as [|fuel IH]; intros s l Hs E; [discriminate|]. cbn [eyeline] in E. destruct (edge_dec _ _ _ _ G s a Hs dir_action) as [(t & Ht & W)|N].
  - destruct (look_edge _ _ _ _ G s a t Hs Ht W) as [E1 E2]. cbv zeta in E1, E2. rewrite E1, E2 in E. destruct (eyeline fuel m t a) as [r|] eqn:Er; [|discriminate]. cbn [bind] in E. assert (l = s :: r) by congruence. subst l. clear E.
    destruct (IH t r Ht Er) as (R1 & R2 & R3 & R4). apply dir_edge in W. destruct W as (W & Ws & Wt). split; [discriminate|]. split; [|split].
    + intros [|i] Hi; [split; [exact Hs|reflexivity]|]. cbn [length nth ahead] in *. rewrite W. apply R2. lia.
    + intros [|i] Hi; [lia|]. cbn [length nth] in *. destruct i as [|i]; [|apply R3; lia]. assert (nth 0 r 0 = t) as ->; [|exact Wt]. destruct (R2 0 ltac:(lia)) as [_ X]. cbn [ahead] in X. eapply cell_of_inj; [exact X|]. apply pos_snd, (gi_pos _ _ _ _ G).
    + right. split; [exact Ws|]. destruct R4 as [[X _]|[_ R4]]; [contradiction|]. cbn [length ahead]. rewrite W. exact R4.
  - rewrite (look_none _ _ _ _ G s a Hs dir_action N) in E. assert (l = [s]) by congruence. subst l. split; [discriminate|]. cbn [length]. split; [|split].
    + intros [|i] Hi; [split; [exact Hs|reflexivity]|lia].
    + lia.
    + destruct (wall_dec (m_walls m) s) as [X|X]; [left; auto|right]. split; [exact X|]. intros t Ht Et. cbn [ahead] in Et. destruct (wall_dec (m_walls m) t) as [Y|Y]; [exact Y|]. elim (N t Ht). apply dir_edge. auto.
Qed.
Lemma ahead_psi : forall (psi : Z * Z -> Z), (forall c, psi (move_of k a c) = psi c - 1)%Z -> forall n c, psi (ahead k a n c) = (psi c - Z.of_nat n)%Z.
Proof. intros psi H. induction n as [|n IH]; intros c; cbn [ahead]; [lia|]. rewrite IH, H. lia. Qed.
Lemma ray_nodup : forall walls s l, ray k shape walls s a l -> NoDup l.
Proof.
  intros walls s l (_ & R2 & _). destruct (progress k a shape La (gi_pos _ _ _ _ G)) as (psi & P1 & _). apply (proj2 (NoDup_nth l 0)). intros i j Hi Hj E.
  destruct (R2 i Hi) as [_ Ei]. destruct (R2 j Hj) as [_ Ej]. rewrite E, Ej in Ei. apply (f_equal psi) in Ei. rewrite !(ahead_psi psi P1) in Ei. lia.
Qed.
Lemma ray_unique : forall walls s l l', ray k shape walls s a l -> ray k shape walls s a l' -> l = l'.
Proof.
  intros walls s.
  assert (X : forall l l', ray k shape walls s a l -> ray k shape walls s a l' -> length l' <= length l).
  { intros l l' (R1 & R2 & R3 & R4) (Q1 & Q2 & Q3 & Q4). destruct (Nat.le_gt_cases (length l') (length l)) as [L|L]; [exact L|exfalso]. assert (0 < length l) by (destruct l; [congruence|cbn; lia]).
    destruct R4 as [[W1 W2]|[W1 W2]]; [destruct Q4 as [[_ Q4]|[Q4 _]]; [lia|contradiction]|]. apply (Q3 (length l)); [lia|]. destruct (Q2 (length l) L) as [B E]. now apply W2. }
  intros l l' R Q. assert (L : length l = length l') by (apply Nat.le_antisymm; eauto). apply (nth_ext l l' 0 0 L). intros i Hi. destruct R as (_ & R2 & _). destruct Q as (_ & Q2 & _).
  destruct (R2 i Hi) as [_ E]. destruct (Q2 i ltac:(lia)) as [_ E']. eapply cell_of_inj; [rewrite E, E'; reflexivity|]. apply pos_snd, (gi_pos _ _ _ _ G).
Qed.
End Look.

Lemma eyeline_count : forall k shape st m s a, grid_inv k shape st m -> table_ok m -> a < dirs_of k -> s < nst shape -> exists l, ray k shape (m_walls m) s a l /\
  forall fuel, nst shape <= fuel -> exists f, get_eyeline_features fuel m (Z.of_nat s) a = Ok f /\ length f = m_n_features m /\ forall i, i < m_n_features m -> nth i f 0%R = sumf (feat m i) l.
Proof.
  intros k shape st m s a G TB La Hs. destruct (eyeline_ends _ _ _ _ G a La (nst shape) s Hs (le_n _)) as (l & E). pose proof (eyeline_ray _ _ _ _ G a La _ _ _ Hs E) as RL. exists l. split; [exact RL|]. intros fuel HF.
  destruct (eyeline_ends _ _ _ _ G a La fuel s Hs HF) as (l' & E'). pose proof (eyeline_ray _ _ _ _ G a La _ _ _ Hs E') as RL'. assert (l' = l) by (eapply (ray_unique k shape st m G a); eauto). subst l'.
  unfold get_eyeline_features. rewrite (gi_ns _ _ _ _ G), py_index_nat by exact Hs. cbn [bind]. rewrite E'. cbn [bind]. eexists. split; [reflexivity|]. rewrite map_length. destruct TB as [T1 T2]. split; [now symmetry|]. intros i Hi.
  rewrite (nth_map_lt _ _ _ _ _ _ []) by lia. rewrite nsum_Rsum. reflexivity.
Qed.

(** Looking in a direction sees exactly the ray, every state of it once, and comes to an end. *)
Theorem C55_ray_partial : forall k feats w0 shape st m0 calls s a, grid_mdp (A:=R) k feats w0 shape st = Ok m0 -> let m := after_wall_calls m0 calls in
  s < fst shape * snd shape -> a < dirs_of k ->
  exists l, ray k shape (m_walls m) s a l /\ NoDup l /\ (forall l', ray k shape (m_walls m) s a l' -> l' = l) /\
    forall fuel, fst shape * snd shape <= fuel -> exists f, get_eyeline_features fuel m (Z.of_nat s) a = Ok f /\ length f = m_n_features m /\ forall i, i < m_n_features m -> nth i f 0%R = sumf (feat m i) l.
Proof.
  intros k feats w0 shape st m0 calls s a H m Hs La. destruct (grid_clean _ _ _ _ _ _ calls H) as [C _]. fold m in C. pose proof (cl_grid _ _ _ _ C) as G.
  destruct (eyeline_count k shape st m s a G (cl_table _ _ _ _ C) La Hs) as (l & RL & E). exists l. split; [exact RL|]. split; [eapply ray_nodup; eauto|]. split; [|exact E]. intros l' RL'. eapply ray_unique; eauto.
Qed.

(** The same, as C172: a property of its own. *)
Theorem C172_ray : forall k feats w0 shape st m0 calls s a, grid_mdp (A:=R) k feats w0 shape st = Ok m0 -> let m := after_wall_calls m0 calls in
  s < fst shape * snd shape -> a < dirs_of k ->
  exists l, ray k shape (m_walls m) s a l /\ NoDup l /\ (forall l', ray k shape (m_walls m) s a l' -> l' = l) /\
    forall fuel, fst shape * snd shape <= fuel -> exists f, get_eyeline_features fuel m (Z.of_nat s) a = Ok f /\ length f = m_n_features m /\ forall i, i < m_n_features m -> nth i f 0%R = sumf (feat m i) l.
Proof. exact (@C55_ray_partial). Qed.
(** Looking at the state itself (the staying action) never comes to an end. *)
Theorem C55_staying_refuted : forall k feats w0 shape m0 calls s, grid_mdp (A:=R) k feats w0 shape true = Ok m0 -> let m := after_wall_calls m0 calls in
  s < fst shape * snd shape -> ~ is_wall (m_walls m) s -> forall fuel, get_eyeline_features fuel m (Z.of_nat s) (dirs_of k) = Err Diverges /\ forall ts norm, trajectory_eyeline fuel m ([Z.of_nat s; Z.of_nat s] :: ts) norm = Err Diverges.
Proof.
  intros k feats w0 shape m0 calls s H m Hs NW. destruct (grid_clean _ _ _ _ _ _ calls H) as [C _]. fold m in C. pose proof (cl_grid _ _ _ _ C) as G.
  assert (W : walled_edge k shape true (m_walls m) s (dirs_of k) s) by (split; [right; auto|auto]). destruct (look_edge _ _ _ _ G s (dirs_of k) s Hs Hs W) as [E1 E2]. cbv zeta in E1, E2.
  assert (X : forall fuel, get_eyeline_features fuel m (Z.of_nat s) (dirs_of k) = Err Diverges).
  { intros fuel. unfold get_eyeline_features. rewrite (gi_ns _ _ _ _ G), py_index_nat by exact Hs. cbn [bind]. assert (Y : eyeline fuel m s (dirs_of k) = Err Diverges); [|now rewrite Y]. induction fuel as [|fuel IH]; [reflexivity|]. cbn [eyeline]. rewrite E1, E2, IH. reflexivity. }
  intros fuel. split; [apply X|]. intros ts norm. unfold trajectory_eyeline. cbn [moves map concat app foldM fst snd].
  assert (PA : pair_action m (Z.of_nat s) (Z.of_nat s) = Ok (dirs_of k)).
  { unfold pair_action. rewrite (gi_ns _ _ _ _ G), py_index_nat by exact Hs. cbn [bind]. destruct (pair_action_edge _ _ _ _ G s _ s Hs Hs W) as (P1 & _ & P3). rewrite P3.
    destruct (existsb (fun x => nltb n0 x) (sas_col m s s)) eqn:EX; [reflexivity|exfalso]. rewrite existsb_false_forall in EX.
    pose proof (inv_shape _ _ _ _ G) as SH. pose proof (sas_col_length m s s _ _ SH Hs) as LC. assert (LA : dirs_of k < actions_of k true) by (cbn; lia).
    assert (X1 : nltb n0 (nth (dirs_of k) (sas_col m s s) 0%R) = false) by (apply EX, nth_In; lia). rewrite (sas_col_nth m s s _ _ _ SH Hs LA) in X1.
    destruct (inv_edge _ _ _ _ G s (dirs_of k) s Hs LA Hs) as [[E _]|[_ N]]; [|contradiction]. rewrite E in X1. cbn in X1. apply Rltb_false in X1. lra. }
  rewrite PA. cbn [bind]. rewrite X. reflexivity.
Qed.
