(** Properties C05-C14, C58, C59: transition arrays, walls, trajectories, features of an MDP. *)
From Coq Require Import List ZArith QArith Reals Bool Lia Lra.
From Verif Require Import PyBase PyProofs GridModel GridSpec GridProofs GridProofs2 MDPModel MDPSpec MDPProofs MDPProofs2 MDPProofs3 MDPProofs4.
Import ListNotations.
Local Close Scope Q_scope.
Local Open Scope nat_scope.

Ltac vmr := repeat match goal with |- _ /\ _ => split; [vm_compute; reflexivity|] end; vm_compute; reflexivity.

(** A 2 x 3 hex grid with a wall on state 4, used in the examples. *)
Definition ex_feats {A} `{Num A} : list (list A) := [[n1; n0; n0; n1; n0; n0]; [n0; n1; n0; n0; n0; n1]].
Definition ex_walls {A} `{Num A} : list A := [n0; n0; n0; n0; n1; n0].
Lemma ex_grid : exists m, grid_mdp (A:=R) Hex ex_feats (Some ex_walls) (2, 3) false = Ok m.
Proof.
  destruct (grid_mdp_ok Hex ex_feats (Some ex_walls) (2, 3) false) as (m & E & _).
  - cbn; lia.
  - repeat constructor.
  - reflexivity.
  - unfold binary. repeat (apply Forall_cons; [first [left; reflexivity|right; reflexivity]|]). apply Forall_nil.
  - eauto.
Qed.

(** ** C05 *)

(** A grid MDP can be built exactly when it has a state, features match the number of states and
    the walls are one 0/1 entry per state. *)
Theorem C05_construction : forall k feats walls shape st,
  (exists m, grid_mdp (A:=R) k feats walls shape st = Ok m) <->
  (0 < fst shape * snd shape /\ Forall (fun row => length row = fst shape * snd shape) feats /\
   match walls with None => True | Some w => length w = fst shape * snd shape /\ binary w end).
Proof.
  intros k feats walls shape st. change (fst shape * snd shape) with (nst shape). split.
  - intros (m & H). apply grid_mdp_inv in H. destruct H as (H1 & H2 & H3 & H4 & _).
    split; [exact H1|]. split; [exact H2|]. destruct walls; [|exact Logic.I]. auto.
  - intros (H1 & H2 & H3). destruct (grid_mdp_ok k feats walls shape st H1 H2) as (m & E & _); [| |eauto].
    + destruct walls; [apply H3|]. unfold walls_arg, zeros1. apply repeat_length.
    + destruct walls; [apply H3|]. apply binary_zeros.
Qed.

(** Without walls the transition array is exactly the geometry of the grid. *)
Theorem C05_transitions : forall k feats shape st m, grid_mdp (A:=R) k feats None shape st = Ok m ->
  let n := fst shape * snd shape in
  shape3 n (actions_of k st) n (m_sas m) /\ m_n_states m = n /\ m_n_actions m = actions_of k st /\
  m_deterministic m = true /\
  (forall s a t, s < n -> a < actions_of k st -> t < n ->
    (get3 0%R (m_sas m) s a t = 0%R \/ get3 0%R (m_sas m) s a t = 1%R) /\
    (get3 0%R (m_sas m) s a t = 1%R <-> grid_edge k shape st s a t)).
Proof.
  intros k feats shape st m H n. apply grid_mdp_inv in H. destruct H as (H1 & H2 & H3 & H4 & I & W & _).
  split; [exact (inv_shape _ _ _ _ I)|]. split; [exact (gi_ns _ _ _ _ I)|]. split; [exact (gi_na _ _ _ _ I)|].
  split; [exact (gi_det _ _ _ _ I)|]. intros s a t Hs Ha Ht.
  destruct (inv_edge _ _ _ _ I s a t Hs Ha Ht) as [[E W']|[E W']]; rewrite E; unfold walled_edge in W'; rewrite W in W'; cbn [walls_arg] in W'.
  - split; [now right|]. split; [intros _; apply W'|reflexivity].
  - split; [now left|]. split; [lra|]. intros G. exfalso. apply W'. split; [exact G|split; apply no_wall_zeros].
Qed.

(** Hence at most one successor per state and action, and exactly one action per ordered pair of
    distinct neighbours. *)
Theorem C05_deterministic : forall k shape st, 0 < snd shape ->
  (forall s a t t', grid_edge k shape st s a t -> grid_edge k shape st s a t' -> t = t') /\
  (forall s a a' t, grid_edge k shape st s a t -> grid_edge k shape st s a' t -> a = a').
Proof.
  intros k shape st Hn. split; intros.
  - eapply edge_unique_t; eauto. lia.
  - eapply edge_unique_a; eauto.
Qed.

Example C05_example : exists m, grid_mdp (A:=Q) Hex ex_feats None (2, 3) true = Ok m /\
  map (where_ (fun x => negb (neqb x n0))) (nth 1 (m_sas m) []) = [[2]; [5]; [4]; [0]; []; []; [1]].
Proof. eexists. split; [vm_compute; reflexivity|vm_compute; reflexivity]. Qed.

(** ** C06 *)

(** Whatever calls were made on the walls before, an accepted assignment leaves exactly the
    transitions of the grid between unwalled states. *)
Theorem C06_walls_block_exactly : forall k feats w0 shape st m0 calls w m,
  grid_mdp (A:=R) k feats w0 shape st = Ok m0 ->
  set_walls (after_wall_calls m0 calls) w = Ok m ->
  let n := fst shape * snd shape in
  m_walls m = w /\ shape3 n (actions_of k st) n (m_sas m) /\
  forall s a t, s < n -> a < actions_of k st -> t < n ->
    get3 0%R (m_sas m) s a t = 1%R /\ grid_edge k shape st s a t /\ ~ is_wall w s /\ ~ is_wall w t \/
    get3 0%R (m_sas m) s a t = 0%R /\ (~ grid_edge k shape st s a t \/ is_wall w s \/ is_wall w t).
Proof.
  intros k feats w0 shape st m0 calls w m H0 H n. apply grid_mdp_inv in H0. destruct H0 as (_ & _ & _ & _ & I0 & _).
  destruct (after_wall_calls_inv calls _ _ _ _ I0) as [I1 O1].
  destruct (set_walls_inv _ _ _ _ _ _ I1 H) as (_ & _ & I & W & _).
  split; [exact W|]. split; [exact (inv_shape _ _ _ _ I)|]. intros s a t Hs Ha Ht.
  rewrite (inv_get3 _ _ _ _ I) by assumption. rewrite W.
  destruct (walled w s) eqn:Es; cbn [orb].
  { apply walled_is_wall in Es. right. auto. }
  destruct (walled w t) eqn:Et.
  { apply walled_is_wall in Et. right. auto. }
  assert (Ns : ~ is_wall w s) by (intros X; apply walled_is_wall in X; congruence).
  assert (Nt : ~ is_wall w t) by (intros X; apply walled_is_wall in X; congruence).
  destruct (edgeb k shape st s a t) eqn:E.
  - left. apply edgeb_spec in E. auto.
  - right. split; [reflexivity|]. left. intros X. apply edgeb_spec in X. congruence.
Qed.

(** Only the last assignment matters: two histories followed by the same assignment give the same
    transitions. *)
Theorem C06_history_independent : forall k feats w0 w1 shape st m0 m1 calls0 calls1 w m m',
  grid_mdp (A:=R) k feats w0 shape st = Ok m0 -> grid_mdp (A:=R) k feats w1 shape st = Ok m1 ->
  set_walls (after_wall_calls m0 calls0) w = Ok m -> set_walls (after_wall_calls m1 calls1) w = Ok m' ->
  m_sas m = m_sas m'.
Proof.
  intros k feats w0 w1 shape st m0 m1 c0 c1 w m m' H0 H1 E0 E1.
  destruct (C06_walls_block_exactly _ _ _ _ _ _ _ _ _ H0 E0) as (_ & S0 & T0).
  destruct (C06_walls_block_exactly _ _ _ _ _ _ _ _ _ H1 E1) as (_ & S1 & T1).
  eapply shape3_ext; eauto. intros s a t Hs Ha Ht.
  destruct (T0 s a t Hs Ha Ht) as [(E & X)|(E & X)], (T1 s a t Hs Ha Ht) as [(E' & X')|(E' & X')]; try congruence; tauto.
Qed.

(** Acceptance: exactly the 0/1 arrays with one entry per state; otherwise an exception and no change. *)
Theorem C06_acceptance : forall k feats w0 shape st m0 calls w,
  grid_mdp (A:=R) k feats w0 shape st = Ok m0 ->
  let m := after_wall_calls m0 calls in
  (length w = fst shape * snd shape /\ binary w -> exists m', set_walls m w = Ok m') /\
  (length w <> fst shape * snd shape -> set_walls m w = Err AttributeError /\ after_wall_call m (AssignWalls w) = m) /\
  (length w = fst shape * snd shape -> ~ binary w -> set_walls m w = Err ValueError /\ after_wall_call m (AssignWalls w) = m).
Proof.
  intros k feats w0 shape st m0 calls w H0 m. apply grid_mdp_inv in H0. destruct H0 as (_ & _ & _ & _ & I0 & _).
  destruct (after_wall_calls_inv calls _ _ _ _ I0) as [I1 O1]. fold m in I1.
  destruct (set_walls_err _ _ _ _ w I1) as [E1 E2]. unfold after_wall_call. cbn [do_wall_call]. repeat split.
  - intros [L B]. destruct (set_walls_ok _ _ _ _ w I1 L B) as (m' & E & _). eauto.
  - apply E1; assumption.
  - now rewrite E1.
  - apply E2; assumption.
  - now rewrite E2.
Qed.

(** Assigning walls touches neither features nor agents. *)
Theorem C06_frame : forall k feats w0 shape st m0 calls w m,
  grid_mdp (A:=R) k feats w0 shape st = Ok m0 -> set_walls (after_wall_calls m0 calls) w = Ok m ->
  m_features m = feats /\ m_n_features m = length feats /\ m_n_agents m = 0.
Proof.
  intros k feats w0 shape st m0 calls w m H0 H. apply grid_mdp_inv in H0.
  destruct H0 as (_ & _ & _ & _ & I0 & _ & F0 & _ & NF0 & NA0 & _).
  assert (K : forall cs m1, grid_inv k shape st m1 -> m_features m1 = feats -> m_n_features m1 = length feats -> m_n_agents m1 = 0 ->
     let m2 := after_wall_calls m1 cs in m_features m2 = feats /\ m_n_features m2 = length feats /\ m_n_agents m2 = 0).
  { assert (KW : forall m1 w1 m2, grid_inv k shape st m1 -> set_walls m1 w1 = Ok m2 ->
       m_features m1 = feats -> m_n_features m1 = length feats -> m_n_agents m1 = 0 ->
       m_features m2 = feats /\ m_n_features m2 = length feats /\ m_n_agents m2 = 0).
    { intros m1 w1 m2 I1 E F1 NF1 NA1. destruct (set_walls_inv _ _ _ _ _ _ I1 E) as (_ & _ & _ & _ & _ & A1 & _ & A2 & A3 & _).
      repeat split; congruence. }
    induction cs as [|c cs IH]; intros m1 I1 F1 NF1 NA1; [cbn; auto|].
    unfold after_wall_calls. cbn [fold_left]. fold (after_wall_calls (after_wall_call m1 c) cs).
    destruct (after_wall_call_inv _ _ _ m1 c I1) as [I2 _].
    assert (X : m_features (after_wall_call m1 c) = feats /\ m_n_features (after_wall_call m1 c) = length feats /\ m_n_agents (after_wall_call m1 c) = 0).
    { unfold after_wall_call. destruct (do_wall_call m1 c) as [m2|] eqn:E; [|auto]. destruct c; cbn [do_wall_call] in E.
      - exact (KW m1 _ m2 I1 E F1 NF1 NA1).
      - unfold add_wall_xy in E. destruct (m_shape m1); [|discriminate]. apply bind_ok in E. destruct E as (nw & _ & E). exact (KW m1 _ m2 I1 E F1 NF1 NA1).
      - unfold reset_walls in E. exact (KW m1 _ m2 I1 E F1 NF1 NA1). }
    destruct X as (X1 & X2 & X3). apply IH; assumption. }
  destruct (K calls m0 I0 F0 NF0 NA0) as (X1 & X2 & X3).
  destruct (after_wall_calls_inv calls _ _ _ _ I0) as [I1 _].
  destruct (set_walls_inv _ _ _ _ _ _ I1 H) as (_ & _ & _ & _ & _ & A1 & _ & A2 & A3 & _). repeat split; congruence.
Qed.

Example C06_example : exists m0 m, grid_mdp (A:=Q) Hex ex_feats (Some ex_walls) (2, 3) false = Ok m0 /\
  set_walls m0 [0; 0; 1; 0; 0; 0]%Q = Ok m /\
  map (where_ (fun x => negb (neqb x n0))) (nth 1 (m_sas m0) []) = [[2]; [5]; []; [0]; []; []] /\
  map (where_ (fun x => negb (neqb x n0))) (nth 1 (m_sas m) []) = [[]; [5]; [4]; [0]; []; []].
Proof. do 2 eexists. vmr. Qed.

(** ** C07 *)

(** Clearing walls always succeeds and gives back the transitions of the same grid built without walls. *)
Theorem C07_clear_restores : forall k feats w0 shape st m0 mfree calls,
  grid_mdp (A:=R) k feats w0 shape st = Ok m0 -> grid_mdp (A:=R) k feats None shape st = Ok mfree ->
  exists m, reset_walls (after_wall_calls m0 calls) = Ok m /\ m_sas m = m_sas mfree /\ forall s, ~ is_wall (m_walls m) s.
Proof.
  intros k feats w0 shape st m0 mf calls H0 Hf. apply grid_mdp_inv in H0. destruct H0 as (_ & _ & _ & _ & I0 & _).
  apply grid_mdp_inv in Hf. destruct Hf as (_ & _ & _ & _ & If & Wf & _). cbn [walls_arg] in Wf.
  destruct (after_wall_calls_inv calls _ _ _ _ I0) as [I1 O1].
  destruct (reset_walls_zero _ _ _ _ I1) as (m & E & I & W & _). exists m. split; [exact E|].
  split; [|intros s; rewrite W; apply no_wall_zeros].
  eapply shape3_ext; [exact (inv_shape _ _ _ _ I)|exact (inv_shape _ _ _ _ If)|]. intros s a t Hs Ha Ht.
  rewrite (inv_get3 _ _ _ _ I), (inv_get3 _ _ _ _ If), W, Wf by assumption. reflexivity.
Qed.

(** Adding a wall by coordinates: exactly the addressed cells are added; if one of them is off the
    grid the call raises and nothing changes. *)
Theorem C07_add_wall : forall k feats w0 shape st m0 calls xs ys,
  grid_mdp (A:=R) k feats w0 shape st = Ok m0 ->
  let m := after_wall_calls m0 calls in
  ((forall x y, addressed xs x -> addressed ys y -> in_grid shape (x, y)) ->
     exists m', add_wall_xy m xs ys = Ok m' /\
       forall s, s < fst shape * snd shape ->
         (is_wall (m_walls m') s <-> is_wall (m_walls m) s \/
            addressed xs (fst (cell_of shape s)) /\ addressed ys (snd (cell_of shape s)))) /\
  ((exists x y, addressed xs x /\ addressed ys y /\ ~ in_grid shape (x, y)) ->
     add_wall_xy m xs ys = Err ValueError /\ after_wall_call m (AddWall xs ys) = m).
Proof.
  intros k feats w0 shape st m0 calls xs ys H0 m. apply grid_mdp_inv in H0. destruct H0 as (_ & _ & _ & _ & I0 & _).
  destruct (after_wall_calls_inv calls _ _ _ _ I0) as [I1 O1]. fold m in I1.
  destruct (add_wall_spec _ _ _ _ xs ys I1) as [A1 A2]. split.
  - intros H. destruct (A1 H) as (m' & E & _ & _ & _ & W). exists m'. split; [exact E|]. exact W.
  - intros H. specialize (A2 H). split; [exact A2|]. unfold after_wall_call. cbn [do_wall_call]. now rewrite A2.
Qed.

(** The docstring says that [y=(2,5)] walls the indices 2-5; the end point is not walled. *)
Theorem C07_documented_range_refuted : exists m, 
  grid_mdp (A:=Q) Square [] None (2, 7) false = Ok m /\
  exists m', add_wall_xy m [1]%Z [2; 5]%Z = Ok m' /\ where_ (fun x => neqb x n1) (m_walls m') = [9; 10; 11].
Proof. eexists. split; [vm_compute; reflexivity|]. eexists. vmr. Qed.

(** ** C08 *)

(** Refuted: after assigning walls the published adjacency still links states that no action connects. *)
Theorem C08_adjacency_refuted : exists m s t,
  grid_mdp (A:=Q) Square [] (Some [1; 0]%Q) (1, 2) false = Ok m /\
  get2 0%Z (m_adjacency m) s t = 1%Z /\ is_adjacent m (Z.of_nat s) (Z.of_nat t) = Ok false.
Proof. eexists. exists 0, 1. vmr. Qed.

(** What holds: the published adjacency is that of the wall-free grid, whatever walls are set; hence
    it agrees with [is_adjacent] between unwalled states. *)
Theorem C08_adjacency_partial : forall k feats w0 shape st m0 calls,
  grid_mdp (A:=R) k feats w0 shape st = Ok m0 ->
  let m := after_wall_calls m0 calls in
  forall s t, s < fst shape * snd shape -> t < fst shape * snd shape ->
    (get2 0%Z (m_adjacency m) s t = 0%Z \/ get2 0%Z (m_adjacency m) s t = 1%Z) /\
    (get2 0%Z (m_adjacency m) s t = 1%Z <-> exists a, grid_edge k shape st s a t) /\
    (~ is_wall (m_walls m) s -> ~ is_wall (m_walls m) t ->
       (get2 0%Z (m_adjacency m) s t = 1%Z <-> is_adjacent m (Z.of_nat s) (Z.of_nat t) = Ok true)) /\
    (is_adjacent m (Z.of_nat s) (Z.of_nat t) = Ok true -> get2 0%Z (m_adjacency m) s t = 1%Z).
Proof.
  intros k feats w0 shape st m0 calls H0 m s t Hs Ht. apply grid_mdp_inv in H0. destruct H0 as (_ & _ & _ & _ & I0 & _).
  destruct (after_wall_calls_inv calls _ _ _ _ I0) as [I O1]. fold m in I.
  destruct (is_adjacent_spec _ _ _ _ I s t Hs Ht) as (b & Eb & Sb).
  destruct (adjacency_orig _ _ _ _ I s t Hs Ht) as [[E (a & G)]|[E G]]; rewrite E, Eb.
  - split; [now right|]. split; [split; [eauto|reflexivity]|]. split; [|reflexivity]. intros Ns Nt. split; [intros _|reflexivity].
    f_equal. apply Sb. exists a. split; auto.
  - split; [now left|]. split; [split; [discriminate|intros (a & X); exfalso; eapply G; eauto]|].
    assert (Nb : b = true -> False) by (intros X; apply Sb in X; destruct X as (a & X & _); eapply G; eauto).
    split; [intros _ _; split; [discriminate|]|]; intros X; inversion X; tauto.
Qed.
(** C231: the published adjacency matrix is that of the grid without walls. *)
Theorem C231_adjacency : forall k feats w0 shape st m0 calls,
  grid_mdp (A:=R) k feats w0 shape st = Ok m0 ->
  let m := after_wall_calls m0 calls in
  forall s t, s < fst shape * snd shape -> t < fst shape * snd shape ->
    (get2 0%Z (m_adjacency m) s t = 0%Z \/ get2 0%Z (m_adjacency m) s t = 1%Z) /\
    (get2 0%Z (m_adjacency m) s t = 1%Z <-> exists a, grid_edge k shape st s a t) /\
    (~ is_wall (m_walls m) s -> ~ is_wall (m_walls m) t ->
       (get2 0%Z (m_adjacency m) s t = 1%Z <-> is_adjacent m (Z.of_nat s) (Z.of_nat t) = Ok true)) /\
    (is_adjacent m (Z.of_nat s) (Z.of_nat t) = Ok true -> get2 0%Z (m_adjacency m) s t = 1%Z).
Proof. exact (@C08_adjacency_partial). Qed.

(** ** C09 *)

(** A transition array is accepted iff it has a (states, actions, states) shape with at least one
    entry and all entries lie in [0,1]. *)
Definition probability_array (sas : list (list (list R))) : Prop :=
  exists n k, 0 < n /\ 0 < k /\ shape3 n k n sas /\
  forall s a t, s < n -> a < k -> t < n -> (0 <= get3 0%R sas s a t <= 1)%R.

Lemma in_entries : forall n k sas x, shape3 n k n sas ->
  (In x (entries3 sas) <-> exists s a t, s < n /\ a < k /\ t < n /\ x = get3 0%R sas s a t).
Proof.
  intros n k sas x [L SH]. unfold entries3. split.
  - intros H. apply in_concat in H. destruct H as (l & Hl & Hx). apply in_map_iff in Hl. destruct Hl as (mat & <- & Hm).
    apply in_concat in Hx. destruct Hx as (row & Hr & Hx).
    apply (In_nth _ _ []) in Hm. destruct Hm as (s & Ls & <-). destruct (SH s) as [L2 SH2]; [lia|].
    apply (In_nth _ _ []) in Hr. destruct Hr as (a & La & <-). specialize (SH2 a ltac:(lia)).
    apply (In_nth _ _ 0%R) in Hx. destruct Hx as (t & Lt & <-). exists s, a, t. repeat split; try lia.
  - intros (s & a & t & Hs & Ha & Ht & ->). destruct (SH s Hs) as [L2 SH2]. apply in_concat.
    exists (concat (nth s sas [])). split; [apply in_map, nth_In; lia|]. apply in_concat.
    exists (nth a (nth s sas []) []). split; [apply nth_In; lia|]. unfold get3. apply nth_In. rewrite SH2; lia.
Qed.

Lemma shape_ok_iff : forall sas : list (list (list R)), sas_shape_ok sas = true <->
  shape3 (length sas) (length (nth 0 sas [])) (length sas) sas.
Proof.
  intros sas. unfold sas_shape_ok. rewrite forallb_forall. split.
  - intros H. split; [reflexivity|]. intros i Hi. specialize (H (nth i sas []) (nth_In _ _ Hi)).
    apply andb_true_iff in H. destruct H as [H1 H2]. apply Nat.eqb_eq in H1. split; [exact H1|].
    intros j Hj. rewrite forallb_forall in H2. apply Nat.eqb_eq. apply H2. apply nth_In. lia.
  - intros [_ SH] mat Hm. apply (In_nth _ _ []) in Hm. destruct Hm as (i & Li & <-). destruct (SH i Li) as [L SH2].
    apply andb_true_iff. split; [now apply Nat.eqb_eq|]. apply forallb_forall. intros row Hr.
    apply (In_nth _ _ []) in Hr. destruct Hr as (j & Lj & <-). apply Nat.eqb_eq. apply SH2. lia.
Qed.

Theorem C09_acceptance : forall (m : mdp R) sas,
  (exists m', set_sas m sas = Ok m') <-> probability_array sas.
Proof.
  intros m sas. unfold set_sas. split.
  - intros (m' & H). destruct (sas_shape_ok sas) eqn:SO; [|discriminate]. apply shape_ok_iff in SO. cbn [negb] in H.
    destruct (entries3 sas) as [|x0 es] eqn:EE; [discriminate|]. rewrite <- EE in H.
    destruct (existsb (fun x => nltb x n0 || nltb n1 x) (entries3 sas)) eqn:EX; [discriminate|].
    assert (I0 : In x0 (entries3 sas)) by (rewrite EE; now left).
    rewrite (in_entries _ _ _ _ SO) in I0. destruct I0 as (s0 & a0 & t0 & B1 & B2 & B3 & _).
    exists (length sas), (length (nth 0 sas [])). split; [lia|]. split; [lia|]. split; [exact SO|].
    intros s a t Hs Ha Ht. rewrite existsb_false_forall in EX.
    specialize (EX (get3 0%R sas s a t)). cbn [nltb n0 n1 NumR] in EX.
    assert (X : In (get3 0%R sas s a t) (entries3 sas)).
    { apply (in_entries _ _ _ _ SO). exists s, a, t. auto. }
    apply EX in X. apply orb_false_iff in X. rewrite !Rltb_false in X. lra.
  - intros (n & k & Hn & Hk & SH & B). destruct SH as [L SH].
    assert (L0 : length (nth 0 sas []) = k) by (apply (SH 0 Hn)).
    assert (SO : sas_shape_ok sas = true).
    { apply shape_ok_iff. rewrite L, L0. split; assumption. }
    rewrite SO. cbn [negb].
    assert (S3 : shape3 n k n sas) by (split; assumption).
    destruct (entries3 sas) as [|x0 es] eqn:EE.
    { exfalso. assert (X : In (get3 0%R sas 0 0 0) (entries3 sas)) by (apply (in_entries _ _ _ _ S3); exists 0, 0, 0; auto).
      rewrite EE in X. destruct X. }
    rewrite <- EE. destruct (existsb (fun x => nltb x n0 || nltb n1 x) (entries3 sas)) eqn:EX; [|eauto]. exfalso.
    apply existsb_exists in EX. destruct EX as (x & Hx & X). rewrite (in_entries _ _ _ _ S3) in Hx.
    destruct Hx as (s & a & t & Hs & Ha & Ht & ->). cbn [nltb n0 n1 NumR] in X. apply orb_true_iff in X.
    rewrite !Rltb_true in X. specialize (B s a t Hs Ha Ht). lra.
Qed.

(** An accepted array is installed as it is, and the MDP counts as deterministic iff all entries are 0 or 1. *)
Theorem C09_effect : forall (m : mdp R) sas m', set_sas m sas = Ok m' ->
  m_sas m' = sas /\ m_n_states m' = length sas /\ m_n_actions m' = length (nth 0 sas []) /\
  m_features m' = m_features m /\ m_walls m' = m_walls m /\
  (m_deterministic m' = true <->
   forall s a t, s < m_n_states m' -> a < m_n_actions m' -> t < m_n_states m' ->
     get3 0%R sas s a t = 0%R \/ get3 0%R sas s a t = 1%R) /\
  (forall s t, s < m_n_states m' -> t < m_n_states m' ->
    (get2 0%Z (m_adjacency m') s t = 1%Z <-> exists a, a < m_n_actions m' /\ (0 < get3 0%R sas s a t)%R)).
Proof.
  intros m sas m' H. destruct (proj1 (C09_acceptance m sas) (ex_intro _ m' H)) as (n & k & Hn & Hk & S3 & B).
  destruct S3 as [L SH]. assert (L0 : length (nth 0 sas []) = k) by (apply (SH 0 Hn)).
  assert (S3 : shape3 n k n sas) by (split; assumption).
  unfold set_sas in H. destruct (sas_shape_ok sas); [|discriminate]. cbn [negb] in H.
  destruct (entries3 sas) as [|x0 es] eqn:EE; [discriminate|]. rewrite <- EE in H.
  destruct (existsb (fun x => nltb x n0 || nltb n1 x) (entries3 sas)); [discriminate|].
  inversion H as [E]. clear H. cbn [m_sas m_n_states m_n_actions m_features m_walls m_deterministic m_adjacency].
  split; [reflexivity|]. split; [reflexivity|]. split; [reflexivity|]. split; [reflexivity|]. split; [reflexivity|].
  rewrite L, L0. split.
  - rewrite negb_true_iff, existsb_false_forall. split.
    + intros X s a t Hs Ha Ht. specialize (X (get3 0%R sas s a t)). cbn [nltb n0 n1 NumR] in X.
      assert (Y : In (get3 0%R sas s a t) (entries3 sas)) by (apply (in_entries _ _ _ _ S3); exists s, a, t; auto).
      apply X in Y. apply andb_false_iff in Y. rewrite !Rltb_false in Y. specialize (B s a t Hs Ha Ht). lra.
    + intros X x Hx. rewrite (in_entries _ _ _ _ S3) in Hx. destruct Hx as (s & a & t & Hs & Ha & Ht & ->).
      cbn [nltb n0 n1 NumR]. apply andb_false_iff. rewrite !Rltb_false. destruct (X s a t Hs Ha Ht) as [-> | ->]; lra.
  - intros s t Hs Ht. unfold adjacency_of, get2. rewrite L.
    rewrite (nth_map_lt _ _ _ _ _ _ 0) by (now rewrite seq_length). rewrite seq_nth0 by assumption.
    rewrite (nth_map_lt _ _ _ _ _ _ 0) by (now rewrite seq_length). rewrite seq_nth0 by assumption.
    unfold sas_sum. destruct (SH s Hs) as [L2 SH2]. cbn [nltb n0 NumR].
    set (col := map (fun row : list R => nth t row 0%R) (nth s sas [])).
    assert (CN : forall x, In x col <-> exists a, a < k /\ x = get3 0%R sas s a t).
    { intros x. unfold col. rewrite in_map_iff. split.
      - intros (row & <- & Hr). apply (In_nth _ _ []) in Hr. destruct Hr as (a & La & <-). exists a. split; [lia|reflexivity].
      - intros (a & La & ->). exists (nth a (nth s sas []) []). split; [reflexivity|]. apply nth_In. lia. }
    assert (P : (0 < nsum col)%R <-> exists x, In x col /\ (0 < x)%R).
    { apply nsum_pos. intros x Hx. apply CN in Hx. destruct Hx as (a & La & ->). specialize (B s a t Hs La Ht). lra. }
    destruct (Rltb 0 (nsum col)) eqn:E'.
    + apply Rltb_true in E'. split; [intros _|reflexivity]. apply P in E'. destruct E' as (x & Hx & Px).
      apply CN in Hx. destruct Hx as (a & La & ->). eauto.
    + split; [discriminate|]. intros (a & La & Pa). exfalso.
      assert (X : (0 < nsum col)%R) by (apply P; exists (get3 0%R sas s a t); split; [apply CN; eauto|assumption]).
      apply Rltb_true in X. congruence.
Qed.

Example C09_example : exists m m', grid_mdp (A:=Q) Square [] None (1, 2) false = Ok m /\
  set_sas m [[[0; 1]; [1 # 2; 1 # 2]]; [[1; 0]; [0; 1]]]%Q = Ok m' /\ m_deterministic m' = false /\
  set_sas m [[[0; 1]; [3 # 2; 1 # 2]]; [[1; 0]; [0; 1]]]%Q = Err AttributeError /\
  set_sas m [[[0; 1]]; [[1; 0]; [0; 1]]]%Q = Err TypeError.
Proof. do 2 eexists. vmr. Qed.

(** ** C59: an assigned transition function *)

(** Refuted: a transition array assigned by the user is lost as soon as walls are assigned, even
    when no state is walled. *)
Theorem C59_assigned_transitions_refuted : exists m m1 m2 sas,
  grid_mdp (A:=Q) Square [] None (1, 2) false = Ok m /\
  set_sas m sas = Ok m1 /\ m_sas m1 = sas /\
  set_walls m1 [0; 0]%Q = Ok m2 /\ m_sas m2 <> sas /\ m_sas m2 = m_sas m.
Proof.
  do 3 eexists. exists [[[0; 1]; [0; 1]; [0; 1]; [0; 1]]; [[1; 0]; [1; 0]; [1; 0]; [1; 0]]]%Q.
  split; [vm_compute; reflexivity|]. split; [vm_compute; reflexivity|]. split; [vm_compute; reflexivity|].
  split; [vm_compute; reflexivity|]. split; [vm_compute; congruence|vm_compute; reflexivity].
Qed.

(** What holds: assigning walls always starts from the array the MDP was constructed with. *)
Theorem C59_walls_reset_transitions_partial : forall (m : mdp R) sas m1 w m2 m2',
  set_sas m sas = Ok m1 -> set_walls m1 w = Ok m2 -> set_walls m w = Ok m2' -> m_sas m2 = m_sas m2'.
Proof.
  intros m sas m1 w m2 m2' H1 H2 H3. unfold set_walls in *.
  assert (E1 : m_shape m1 = m_shape m /\ m_orig_sas m1 = m_orig_sas m).
  { unfold set_sas in H1. destruct (negb (sas_shape_ok sas)); [discriminate|]. destruct (entries3 sas); [discriminate|].
    destruct (existsb _ _) in H1; [discriminate|]. inversion H1. auto. }
  destruct E1 as [E1 E2]. rewrite E1, E2 in H2. destruct (m_shape m) as [[w' h']|]; [|discriminate].
  destruct (negb (length w =? w' * h')); [discriminate|].
  destruct (negb (forallb (fun x => neqb x n0 || neqb x n1) w)); [discriminate|].
  apply bind_ok in H2. destruct H2 as (m3 & E3 & H2). apply bind_ok in H3. destruct H3 as (m3' & E3' & H3).
  inversion H2. inversion H3. cbn [m_sas].
  assert (S : m_sas m3 = m_orig_sas m /\ m_sas m3' = m_orig_sas m).
  { unfold set_sas in E3, E3'. destruct (negb (sas_shape_ok (m_orig_sas m))); [discriminate|].
    destruct (entries3 (m_orig_sas m)) as [|x0 l0]; [discriminate|].
    destruct (existsb (fun x => nltb x n0 || nltb n1 x) (x0 :: l0)); [discriminate|]. inversion E3. inversion E3'. auto. }
  destruct S as [-> ->]. reflexivity.
Qed.

(** ** C58: plain MDPs *)

(** Refuted: the constructor of the base class raises for every argument. *)
Theorem C58_plain_mdp_refuted : forall (feats : list (list R)) sas walls,
  exists e, init_mdp None feats sas walls = Err e.
Proof.
  intros feats sas walls. unfold init_mdp. destruct (set_sas (blank_mdp None) sas) as [m1|e] eqn:E1; [|cbn; eauto].
  cbn [bind]. match goal with |- context [set_features ?a ?b] => destruct (set_features a b) as [m3|e] eqn:E3 end; [|cbn; eauto].
  cbn [bind]. exists AttributeError. unfold set_walls. cbn [m_shape].
  assert (S1 : m_shape m1 = None).
  { unfold set_sas in E1. destruct (negb (sas_shape_ok sas)); [discriminate|]. destruct (entries3 sas); [discriminate|].
    destruct (existsb _ _) in E1; [discriminate|]. inversion E1. reflexivity. }
  assert (S3 : m_shape m3 = None).
  { unfold set_features in E3. destruct (forallb _ feats); [|discriminate]. inversion E3. exact S1. }
  now rewrite S3.
Qed.

(** The same arrays are accepted by the grid classes' constructor, so the failure is not due to them. *)
Example C58_example : exists sas, get_sas (A:=Q) Square (1, 2) false = Ok sas /\
  init_mdp (Some (1, 2)) [[0; 1]]%Q sas None <> init_mdp None [[0; 1]]%Q sas None /\
  is_ok (init_mdp (Some (1, 2)) [[0; 1]]%Q sas None) = true /\
  init_mdp None [[0; 1]]%Q sas None = Err AttributeError.
Proof.
  eexists. split; [vm_compute; reflexivity|]. split; [vm_compute; congruence|]. vmr.
Qed.

(** ** C10 *)

(** Converting a trajectory of successive neighbours to state-action pairs and executing the actions
    reproduces it; every action is valid where it is taken. *)
Theorem C10_roundtrip : forall k feats w0 shape st m0 calls traj,
  grid_mdp (A:=R) k feats w0 shape st = Ok m0 ->
  let m := after_wall_calls m0 calls in
  traj <> [] -> Forall (fun s => s < fst shape * snd shape) traj -> linked m traj ->
  exists sa, trajectory_to_state_action m (map Z.of_nat traj) = Ok sa /\ length sa = length traj - 1 /\
    forall i, i < length sa ->
      fst (nth i sa (0%Z, 0)) = Z.of_nat (nth i traj 0) /\
      get_next_state m (Z.of_nat (nth i traj 0)) (Z.of_nat (snd (nth i sa (0%Z, 0)))) = Ok (nth (S i) traj 0) /\
      exists va, state_valid_actions m (Z.of_nat (nth i traj 0)) = Ok va /\ In (snd (nth i sa (0%Z, 0))) va.
Proof.
  intros k feats w0 shape st m0 calls traj H0 m N F L. apply grid_mdp_inv in H0. destruct H0 as (_ & _ & _ & _ & I0 & _).
  destruct (after_wall_calls_inv calls _ _ _ _ I0) as [I O1]. fold m in I.
  destruct (traj_convert _ _ _ _ I traj F L) as (sa & E & Ls & H). exists sa.
  split; [destruct traj; [congruence|exact E]|]. auto.
Qed.

Theorem C10_reject : forall k feats w0 shape st m0 calls traj,
  grid_mdp (A:=R) k feats w0 shape st = Ok m0 ->
  let m := after_wall_calls m0 calls in
  Forall (fun s => s < fst shape * snd shape) traj ->
  (~ linked m traj -> trajectory_to_state_action m (map Z.of_nat traj) = Err AttributeError) /\
  (traj = [] -> trajectory_to_state_action m (map Z.of_nat traj) = Err ValueError).
Proof.
  intros k feats w0 shape st m0 calls traj H0 m F. apply grid_mdp_inv in H0. destruct H0 as (_ & _ & _ & _ & I0 & _).
  destruct (after_wall_calls_inv calls _ _ _ _ I0) as [I O1]. fold m in I. split; [intros L|intros ->; reflexivity].
  destruct traj as [|s r]; [exfalso; apply L; exact Logic.I|]. exact (traj_reject _ _ _ _ I _ F L).
Qed.

(** Adjacency test, pair-to-action lookup and valid actions agree. *)
Theorem C10_consistency : forall k feats w0 shape st m0 calls s t,
  grid_mdp (A:=R) k feats w0 shape st = Ok m0 ->
  let m := after_wall_calls m0 calls in
  s < fst shape * snd shape -> t < fst shape * snd shape ->
  exists b va, is_adjacent m (Z.of_nat s) (Z.of_nat t) = Ok b /\ state_valid_actions m (Z.of_nat s) = Ok va /\
    (b = true -> exists a, state_pair_to_action m (Z.of_nat s) (Z.of_nat t) true = Ok [a] /\
        state_pair_to_action m (Z.of_nat s) (Z.of_nat t) false = Ok [a] /\
        In a va /\ get_next_state m (Z.of_nat s) (Z.of_nat a) = Ok t) /\
    (b = false -> state_pair_to_action m (Z.of_nat s) (Z.of_nat t) true = Err AttributeError /\
        state_pair_to_action m (Z.of_nat s) (Z.of_nat t) false = Err AttributeError /\
        forall a, In a va -> get_next_state m (Z.of_nat s) (Z.of_nat a) <> Ok t) /\
    NoDup va.
Proof.
  intros k feats w0 shape st m0 calls s t H0 m Hs Ht. apply grid_mdp_inv in H0. destruct H0 as (_ & _ & _ & _ & I0 & _).
  destruct (after_wall_calls_inv calls _ _ _ _ I0) as [I O1]. fold m in I.
  destruct (is_adjacent_spec _ _ _ _ I s t Hs Ht) as (b & Eb & Sb).
  destruct (in_valid_actions _ _ _ _ I s Hs) as (va & Ev & V). exists b, va. split; [exact Eb|]. split; [exact Ev|]. split; [|split].
  - intros ->. destruct (proj1 Sb eq_refl) as (a & W). exists a.
    destruct (pair_action_edge _ _ _ _ I s a t Hs Ht W) as (P1 & P2 & _).
    split; [exact P1|]. split; [exact P2|]. split; [apply V; eauto|]. now apply (next_state_edge _ _ _ _ I).
  - intros ->. assert (N : forall a, ~ walled_edge k shape st (m_walls m) s a t).
    { intros a W. assert (X : false = true) by (apply Sb; eauto). discriminate. }
    split; [now apply (pair_action_none _ _ _ _ I)|]. split; [now apply (pair_action_none _ _ _ _ I)|].
    intros a Ha X. apply V in Ha. destruct Ha as (t' & Ht' & W).
    rewrite (next_state_edge _ _ _ _ I s a t' Hs Ht' W) in X. inversion X. subst. eapply N; eauto.
  - exact (valid_actions_NoDup _ _ _ _ I s va Hs Ev).
Qed.

Example C10_example : exists m, grid_mdp (A:=Q) Hex ex_feats (Some ex_walls) (2, 3) false = Ok m /\
  trajectory_to_state_action m [0; 1; 5; 2]%Z = Ok [(0%Z, 0); (1%Z, 1); (5%Z, 5)] /\
  trajectory_to_state_action m [0; 1; 4]%Z = Err AttributeError /\
  is_adjacent m 0 1 = Ok true /\ is_adjacent m 1 5 = Ok true /\ is_adjacent m 5 2 = Ok true.
Proof. eexists. vmr. Qed.

(** ** C11 *)

(** The distance the library reports between two cells (hex), or the Manhattan distance (square). *)
Definition is_distance (k : gkind) (c c' : Z * Z) (n : nat) : Prop :=
  match k with
  | Hex => exists q, offset_distance (fst c) (snd c) (fst c') (snd c') = Ok q /\ (q == inject_Z (Z.of_nat n))%Q
  | Square => Z.of_nat n = (Z.abs (fst c - fst c') + Z.abs (snd c - snd c'))%Z
  end.

Theorem C11_travel_time : forall k feats shape st m s t,
  grid_mdp (A:=R) k feats None shape st = Ok m -> s < fst shape * snd shape -> t < fst shape * snd shape ->
  exists n, is_distance k (cell_of shape s) (cell_of shape t) n /\
    (exists acts, length acts = n /\ travels m s acts t) /\
    (forall acts, travels m s acts t -> n <= length acts).
Proof.
  intros k feats shape st m s t H Hs Ht. apply grid_mdp_inv in H. destruct H as (_ & _ & _ & _ & I & W & _).
  cbn [walls_arg] in W.
  assert (NW : forall s, ~ is_wall (m_walls m) s) by (intros; rewrite W; apply no_wall_zeros).
  assert (T : forall n, walk (move_of k) (dirs_of k) (in_grid shape) n (cell_of shape s) (cell_of shape t) ->
     (forall j, walk (move_of k) (dirs_of k) (in_grid shape) j (cell_of shape s) (cell_of shape t) -> n <= j) ->
     (exists acts, length acts = n /\ travels m s acts t) /\ (forall acts, travels m s acts t -> n <= length acts)).
  { intros n Wn Ln. split.
    - destruct (walk_travels _ _ _ _ I NW _ _ _ Wn s Hs eq_refl) as (acts & u & L & Eu & Hu & Tu).
      assert (u = t) by (eapply cell_of_inj; [exact Eu|apply pos_snd; unfold nst in *; lia]). subst. eauto.
    - intros acts Ta. destruct (travels_walk _ _ _ _ I acts s t Hs Ta) as (j & Lj & Wj). specialize (Ln j Wj). lia. }
  assert (IS := cell_of_in shape s Hs). assert (IT := cell_of_in shape t Ht).
  destruct k.
  - exists (Z.to_nat (sqd (cell_of shape s) (cell_of shape t))). split.
    + unfold is_distance, sqd. rewrite Z2Nat.id by lia. lia.
    + apply T; cbn [move_of dirs_of].
      * apply square_walk_exists; auto using in_grid_convex. unfold sqd; lia.
      * intros j Wj. apply square_walk_lower in Wj. lia.
  - exists (Z.to_nat (hexd (cell_of shape s) (cell_of shape t))). pose proof (hexd_nonneg (cell_of shape s) (cell_of shape t)). split.
    + unfold is_distance. eexists. split; [apply offset_distance_hexd|]. rewrite half_inject, Z2Nat.id by assumption.
      rewrite <- !surjective_pairing. reflexivity.
    + apply T; cbn [move_of dirs_of].
      * apply hex_walk_exists; auto using in_grid_convex. lia.
      * intros j Wj. apply hex_walk_lower in Wj. lia.
Qed.

Example C11_example : exists m, grid_mdp (A:=R) Hex ex_feats None (2, 3) false = Ok m /\ 0 < 2 * 3 /\ 5 < 2 * 3.
Proof.
  destruct (proj2 (C05_construction Hex ex_feats None (2, 3) false)) as (m & E).
  - cbn. split; [lia|]. split; [repeat constructor|exact Logic.I].
  - exists m. split; [exact E|lia].
Qed.

(** ** C12 *)

(** Starting on an unwalled state, no sequence of valid actions reaches a walled state, and each
    single move ends on an adjacent state. *)
Theorem C12_never_into_walls : forall k feats w0 shape st m0 calls s acts u,
  grid_mdp (A:=R) k feats w0 shape st = Ok m0 ->
  let m := after_wall_calls m0 calls in
  s < fst shape * snd shape -> ~ is_wall (m_walls m) s -> travels m s acts u ->
  u < fst shape * snd shape /\ ~ is_wall (m_walls m) u.
Proof.
  intros k feats w0 shape st m0 calls s acts u H0 m Hs Ns T. apply grid_mdp_inv in H0. destruct H0 as (_ & _ & _ & _ & I0 & _).
  destruct (after_wall_calls_inv calls _ _ _ _ I0) as [I O1]. fold m in I.
  destruct acts as [|a acts]; [inversion T; subst; auto|].
  destruct (travels_unwalled _ _ _ _ I (a :: acts) s u Hs T) as (H1 & H2 & _); [congruence|]. auto.
Qed.

Theorem C12_single_move : forall k feats w0 shape st m0 calls s a va,
  grid_mdp (A:=R) k feats w0 shape st = Ok m0 ->
  let m := after_wall_calls m0 calls in
  s < fst shape * snd shape -> state_valid_actions m (Z.of_nat s) = Ok va -> In a va ->
  exists t, get_next_state m (Z.of_nat s) (Z.of_nat a) = Ok t /\ t < fst shape * snd shape /\
    is_adjacent m (Z.of_nat s) (Z.of_nat t) = Ok true /\ ~ is_wall (m_walls m) s /\ ~ is_wall (m_walls m) t /\
    (t = s \/ exists d, d < dirs_of k /\ move_of k d (cell_of shape s) = cell_of shape t).
Proof.
  intros k feats w0 shape st m0 calls s a va H0 m Hs Ev Ha. apply grid_mdp_inv in H0. destruct H0 as (_ & _ & _ & _ & I0 & _).
  destruct (after_wall_calls_inv calls _ _ _ _ I0) as [I O1]. fold m in I.
  destruct (in_valid_actions _ _ _ _ I s Hs) as (va' & Ev' & V). rewrite Ev in Ev'. inversion Ev'. subst va'.
  apply V in Ha. destruct Ha as (t & Ht & W). exists t. split; [now apply (next_state_edge _ _ _ _ I)|].
  split; [exact Ht|]. destruct (is_adjacent_spec _ _ _ _ I s t Hs Ht) as (b & Eb & Sb).
  split; [rewrite Eb; f_equal; apply Sb; eauto|]. destruct W as (G & W1 & W2). split; [exact W1|]. split; [exact W2|].
  destruct G as [G|(_ & _ & ->)]; [right|left; reflexivity]. exists a. exact G.
Qed.

(** What an action that is not listed as valid does: it sends the agent to state 0. *)
Theorem C12_invalid_action_teleports : forall k feats w0 shape st m0 calls s a va,
  grid_mdp (A:=R) k feats w0 shape st = Ok m0 ->
  let m := after_wall_calls m0 calls in
  s < fst shape * snd shape -> a < actions_of k st ->
  state_valid_actions m (Z.of_nat s) = Ok va -> ~ In a va ->
  get_next_state m (Z.of_nat s) (Z.of_nat a) = Ok 0.
Proof.
  intros k feats w0 shape st m0 calls s a va H0 m Hs La Ev Ha. apply grid_mdp_inv in H0. destruct H0 as (_ & _ & _ & _ & I0 & _).
  destruct (after_wall_calls_inv calls _ _ _ _ I0) as [I O1]. fold m in I.
  destruct (in_valid_actions _ _ _ _ I s Hs) as (va' & Ev' & V). rewrite Ev in Ev'. inversion Ev'. subst va'.
  apply (next_state_no_edge _ _ _ _ I); auto. intros t Ht W. apply Ha, V. eauto.
Qed.

Example C12_example : exists m, grid_mdp (A:=Q) Hex ex_feats (Some ex_walls) (2, 3) false = Ok m /\
  state_valid_actions m 1 = Ok [0; 1; 3] /\ get_next_state m 1 1 = Ok 5 /\ get_next_state m 5 4 = Ok 1 /\ get_next_state m 1 2 = Ok 0.
Proof. eexists. vmr. Qed.

(** ** C60: stochastic transitions *)

(** Refuted: as soon as one transition probability is strictly between 0 and 1, no successor state
    can be drawn, from any state with any action. *)
Theorem C60_stochastic_refuted : exists (m : mdp Q) m' sas, 
  grid_mdp (A:=Q) Square [] None (1, 2) false = Ok m /\ set_sas m sas = Ok m' /\
  (forall s a, exists e, get_next_state m' s a = Err e) /\ get_next_state m' 0 0 = Err AttributeError.
Proof.
  do 2 eexists. exists [[[0; 1]; [1 # 2; 1 # 2]]; [[1; 0]; [0; 1]]]%Q.
  split; [vm_compute; reflexivity|]. split; [vm_compute; reflexivity|]. split; [|vm_compute; reflexivity].
  intros s a. unfold get_next_state. destruct (a <? 0)%Z; [eauto|].
  destruct (py_index _ s); cbn [bind]; [|eauto]. destruct (py_index _ a); cbn [bind]; [|eauto].
  cbn [m_deterministic]. eauto.
Qed.

(** In general: a successor can be drawn iff the MDP is deterministic (and the arguments are in range). *)
Theorem C60_only_deterministic_partial : forall (m : mdp R) s a t, get_next_state m s a = Ok t -> m_deterministic m = true.
Proof.
  intros m s a t. unfold get_next_state. destruct (a <? 0)%Z; [discriminate|]. destruct (py_index _ s); cbn [bind]; [|discriminate].
  destruct (py_index _ a); cbn [bind]; [|discriminate]. destruct (m_deterministic m); [reflexivity|discriminate].
Qed.

(** ** C13 *)

(** Consuming features [idx] (Python indices, [ridx] the rows they denote) in state [p]. *)
Theorem C13_consume : forall (m : mdp R) idx ridx s p, table_ok m ->
  Forall2 (fun z f => py_index (m_n_features m) z = Ok f) idx ridx -> py_index (m_n_states m) s = Ok p ->
  exists m' c, consume_features m idx s = (m', Ok c) /\ same_but_features m m' /\ table_ok m' /\ length c = m_n_features m /\
    forall f, f < m_n_features m ->
      (forall t, t <> p -> feat m' f t = feat m f t) /\
      (~ In f ridx -> feat m' f p = feat m f p /\ nth f c 0 = 0) /\
      (In f ridx -> (0 < feat m f p)%R -> feat m' f p = 0%R /\ nth f c 0 = 1) /\
      (In f ridx -> (feat m f p <= 0)%R -> feat m' f p = feat m f p /\ nth f c 0 = 0).
Proof.
  intros m idx ridx s p [NF T] F2 Es. apply Forall_shape2 in T. rewrite <- NF in T.
  destruct (consume_loop_spec _ _ s p Es idx ridx F2 m (repeat 0 (m_n_features m)) eq_refl T (repeat_length _ _))
    as (g & c & E & SG & LC & G & C).
  exists (with_features m g), c. split; [exact E|]. split; [reflexivity|]. split.
  { split; cbn [m_n_features m_features with_features m_n_states]; [symmetry; apply (shape2_length _ _ _ _ SG)|].
    apply Forall_shape2. rewrite (shape2_length _ _ _ _ SG). exact SG. }
  split; [exact LC|]. intros f Hf. unfold feat. cbn [m_features with_features].
  specialize (C f). rewrite nth_repeat_lt in C by assumption. split.
  { intros t Nt. rewrite G. apply Nat.eqb_neq in Nt. now rewrite Nt. }
  rewrite (G f p), Nat.eqb_refl. cbn [andb]. destruct (existsb (Nat.eqb f) ridx) eqn:X; cbn [andb] in C.
  - apply existsb_In in X. split; [tauto|]. split; intros _ P.
    + rewrite Rmin_left by lra. apply Rltb_true in P. rewrite P in C. auto.
    + rewrite Rmin_right by lra. apply Rltb_false in P. rewrite P in C. auto.
  - assert (N : ~ In f ridx) by (intros Y; apply existsb_In in Y; congruence). split; [auto|]. split; tauto.
Qed.

(** Consuming again reports nothing and changes nothing. *)
Theorem C13_consume_again : forall (m m' : mdp R) idx ridx s p c, table_ok m ->
  Forall2 (fun z f => py_index (m_n_features m) z = Ok f) idx ridx -> py_index (m_n_states m) s = Ok p ->
  consume_features m idx s = (m', Ok c) ->
  consume_features m' idx s = (m', Ok (repeat 0 (m_n_features m))).
Proof.
  intros m m' idx ridx s p c T F2 Es E.
  destruct (C13_consume m idx ridx s p T F2 Es) as (m1 & c1 & E1 & SB & T1 & _ & H). rewrite E in E1. inversion E1. subst m1 c1. clear E1.
  assert (NF : m_n_features m' = m_n_features m) by (rewrite SB; reflexivity).
  assert (NS : m_n_states m' = m_n_states m) by (rewrite SB; reflexivity).
  rewrite <- NF, <- NS in *.
  destruct (C13_consume m' idx ridx s p T1 F2 Es) as (m2 & c2 & E2 & SB2 & T2 & L2 & H2). rewrite E2.
  assert (NP : forall f, f < m_n_features m' -> In f ridx -> (feat m' f p <= 0)%R).
  { intros f Hf Hi. destruct (H f Hf) as (_ & _ & A & B). destruct (Rlt_le_dec 0 (feat m f p)) as [P|P].
    - destruct (A Hi P) as [-> _]. lra.
    - destruct (B Hi P) as [-> _]. exact P. }
  assert (X : forall f, f < m_n_features m' -> feat m2 f p = feat m' f p /\ nth f c2 0 = 0).
  { intros f Hf. destruct (H2 f Hf) as (_ & A & _ & B). destruct (in_dec Nat.eq_dec f ridx) as [Hi|Ni]; auto. }
  f_equal.
  - rewrite SB2. rewrite <- (with_features_id _ m') at 2. f_equal.
    destruct T1 as [N1 T1], T2 as [N2 T2]. apply Forall_shape2 in T1, T2.
    assert (NF2 : m_n_features m2 = m_n_features m') by (rewrite SB2; reflexivity).
    assert (NS2 : m_n_states m2 = m_n_states m') by (rewrite SB2; reflexivity).
    rewrite <- N1 in T1. rewrite <- N2, NF2, NS2 in T2. eapply shape2_ext; [exact T2|exact T1|].
    intros f t Hf Ht. change (feat m2 f t = feat m' f t). destruct (Nat.eq_dec t p) as [->|N]; [apply X; assumption|apply H2; assumption].
  - f_equal. apply (list_eq_nth _ _ _ 0); [rewrite repeat_length; exact L2|]. intros i Hi. rewrite L2 in Hi.
    rewrite nth_repeat_lt by assumption. apply X; assumption.
Qed.

Example C13_example : exists m m', grid_mdp (A:=Q) Hex ex_feats (Some ex_walls) (2, 3) false = Ok m /\
  consume_features m [-1; 0; -1]%Z 5 = (m', Ok [0; 1]) /\ m_features m' = [[1; 0; 0; 1; 0; 0]; [0; 1; 0; 0; 0; 0]]%Q /\
  py_index 2 (-1) = Ok 1 /\ py_index 2 0 = Ok 0.
Proof. do 2 eexists. vmr. Qed.

(** ** C14 *)

Theorem C14_add : forall (m : mdp R) pos p, table_ok m -> py_index (m_n_states m) pos = Ok p ->
  exists m', add_agent_feature m pos = (m', Ok tt) /\ table_ok m' /\
    m_n_features m' = m_n_features m + 1 /\ m_n_agents m' = m_n_agents m + 1 /\
    m_sas m' = m_sas m /\ m_walls m' = m_walls m /\ m_n_states m' = m_n_states m /\
    firstn (m_n_features m) (m_features m') = m_features m /\
    forall t, t < m_n_states m -> feat m' (m_n_features m) t = if t =? p then 1%R else 0%R.
Proof.
  intros m pos p [NF T] E. unfold add_agent_feature. rewrite E. destruct (py_index_ok _ _ _ E) as [Hp _].
  rewrite set_features_ok.
  - eexists. split; [reflexivity|]. unfold table_ok, feat.
    cbn [m_n_features m_features m_n_states m_n_agents m_sas m_walls with_n_agents].
    assert (LU : length (upd (zeros1 (A:=R) (m_n_states m)) p n1) = m_n_states m) by (rewrite upd_length; unfold zeros1; apply repeat_length).
    split; [split; [reflexivity|apply Forall_app; split; [exact T|repeat constructor; exact LU]]|].
    split; [rewrite app_length, NF; reflexivity|]. split; [reflexivity|]. split; [reflexivity|]. split; [reflexivity|].
    split; [reflexivity|]. rewrite NF. split; [rewrite firstn_app, Nat.sub_diag, firstn_O, app_nil_r; apply firstn_all|].
    intros t Ht. unfold get2. rewrite app_nth2, Nat.sub_diag by lia. cbn [nth]. now apply onehot_nth.
  - cbn [m_n_states with_n_agents]. apply Forall_app. split; [exact T|]. repeat constructor.
    rewrite upd_length. unfold zeros1. apply repeat_length.
Qed.

(** Moving agent [i] changes its own row only, to a one-hot row. *)
Theorem C14_move : forall (m : mdp R) i pos p, table_ok m -> i < m_n_agents m -> m_n_agents m <= m_n_features m ->
  py_index (m_n_states m) pos = Ok p ->
  exists m', update_agent_feature m i pos = (m', Ok tt) /\ same_but_features m m' /\ table_ok m' /\
    let r := m_n_features m - m_n_agents m + i in
    (forall f, f <> r -> nth f (m_features m') [] = nth f (m_features m) []) /\
    (forall t, t < m_n_states m -> feat m' r t = if t =? p then 1%R else 0%R).
Proof.
  intros m i pos p [NF T] Hi LA E. unfold update_agent_feature. destruct (py_index_ok _ _ _ E) as [Hp _].
  replace (Z.of_nat (m_n_features m) - Z.of_nat (m_n_agents m) + Z.of_nat i)%Z with (Z.of_nat (m_n_features m - m_n_agents m + i)) by lia.
  rewrite py_index_nat by lia. rewrite E. set (r := m_n_features m - m_n_agents m + i).
  assert (Hr : r < length (m_features m)) by (unfold r; lia).
  apply Forall_shape2 in T. destruct T as [_ T]. specialize (T r Hr) as LR.
  assert (ZR : map (fun _ : R => n0 (A:=R)) (nth r (m_features m) []) = zeros1 (A:=R) (m_n_states m)).
  { rewrite <- LR. unfold zeros1. clear. induction (nth r (m_features m) []); cbn; [reflexivity|]. now f_equal. }
  cbv zeta. rewrite ZR. eexists. split; [reflexivity|]. split; [reflexivity|]. split.
  { split; cbn [m_n_features m_features with_features m_n_states]; rewrite ?upd_length; [exact NF|].
    apply Forall_shape2. split; [reflexivity|]. rewrite upd_length. intros j Hj. rewrite nth_upd.
    destruct ((j =? r) && (r <? length (m_features m))); [|auto]. rewrite upd_length. unfold zeros1. apply repeat_length. }
  cbv zeta. unfold feat, get2. cbn [m_features with_features]. split.
  - intros f N. now apply nth_upd_other.
  - intros t Ht. rewrite nth_upd_same by assumption. now apply onehot_nth.
Qed.

(** Removing the agent rows keeps all other rows as they are now, provided there is an agent. *)
Theorem C14_remove : forall (m : mdp R), table_ok m -> 0 < m_n_agents m -> m_n_agents m <= m_n_features m ->
  exists m', remove_agent_features m = Ok m' /\ table_ok m' /\ m_n_agents m' = 0 /\
    m_features m' = firstn (m_n_features m - m_n_agents m) (m_features m) /\
    m_n_features m' = m_n_features m - m_n_agents m /\ m_sas m' = m_sas m /\ m_walls m' = m_walls m.
Proof.
  intros m [NF T] HA LA. unfold remove_agent_features. destruct (Nat.eqb_spec (m_n_agents m) 0); [lia|].
  rewrite set_features_ok.
  - cbn [bind]. eexists. split; [reflexivity|]. unfold table_ok. cbn [m_n_features m_features m_n_states m_n_agents m_sas m_walls with_n_agents].
    split; [split; [reflexivity|]|].
    + apply Forall_forall. intros r Hr. rewrite Forall_forall in T. apply T. eapply incl_firstn; exact Hr.
    + split; [reflexivity|]. rewrite NF. split; [reflexivity|]. split; [rewrite firstn_length; lia|]. split; reflexivity.
  - apply Forall_forall. intros r Hr. rewrite Forall_forall in T. apply T. eapply incl_firstn; exact Hr.
Qed.

(** Adding agents and removing them again gives back the rows there were, as often as one likes. *)
Theorem C14_add_remove : forall (m m1 : mdp R) ps, table_ok m -> m_n_agents m = 0 -> ps <> [] ->
  fold_left (fun st z => match st with (m', Ok tt) => add_agent_feature m' z | _ => st end) ps (m, Ok tt) = (m1, Ok tt) ->
  exists m2, remove_agent_features m1 = Ok m2 /\ m_features m2 = m_features m /\ m_n_agents m2 = 0.
Proof.
  intros m m1 ps T A0 N E.
  assert (K : forall ps m0 st, fold_left (fun st z => match st with (m', Ok tt) => add_agent_feature m' z | _ => st end) ps st = (m1, Ok tt) ->
     st = (m0, Ok tt) -> table_ok m0 -> m_n_agents m0 <= m_n_features m0 ->
     firstn (m_n_features m0 - m_n_agents m0) (m_features m0) = m_features m ->
     m_n_features m0 - m_n_agents m0 = m_n_features m ->
     table_ok m1 /\ m_n_agents m1 = m_n_agents m0 + length ps /\ m_n_agents m1 <= m_n_features m1 /\
     firstn (m_n_features m1 - m_n_agents m1) (m_features m1) = m_features m).
  { clear. induction ps as [|z ps IH]; intros m0 st E -> T LA FE NE; cbn [fold_left] in E.
    - inversion E. subst m1. cbn. rewrite Nat.add_0_r. auto.
    - destruct (py_index (m_n_states m0) z) as [p|e] eqn:Ep.
      + destruct (C14_add m0 z p T Ep) as (m' & E' & T' & NF' & NA' & _ & _ & _ & FE' & _).
        destruct (IH m' _ E E' T') as (H1 & H2 & H3 & H4); [lia| |lia|].
        * rewrite NF', NA'. replace (m_n_features m0 + 1 - (m_n_agents m0 + 1)) with (m_n_features m0 - m_n_agents m0) by lia.
          rewrite <- FE. rewrite <- FE'. rewrite firstn_firstn. f_equal. lia.
        * split; [exact H1|]. split; [cbn [length]; lia|]. auto.
      + exfalso. unfold add_agent_feature in E. rewrite Ep in E.
        assert (X : forall ps (m0 : mdp R) e, fold_left (fun st z => match st with (m', Ok tt) => add_agent_feature m' z | _ => st end) ps (m0, Err e) = (m0, @Err unit e)).
        { clear. induction ps; intros; [reflexivity|]. cbn [fold_left]. apply IHps. }
        rewrite X in E. inversion E. }
  destruct (K ps m (m, Ok tt) E eq_refl T) as (H1 & H2 & H3 & H4); [lia| |lia|].
  - rewrite A0, Nat.sub_0_r. destruct T as [-> _]. apply firstn_all.
  - assert (0 < length ps) by (destruct ps; [congruence|cbn; lia]).
    destruct (C14_remove m1 H1) as (m2 & E2 & _ & A2 & F2 & _); [lia|exact H3|]. exists m2. rewrite F2. auto.
Qed.

(** Refuted boundary case: with no agent present, removing "the agents' features" removes every feature. *)
Theorem C14_remove_without_agents_refuted : exists m m', grid_mdp (A:=Q) Hex ex_feats None (2, 3) false = Ok m /\
  m_n_agents m = 0 /\ m_n_features m = 2 /\ remove_agent_features m = Ok m' /\ m_n_features m' = 0.
Proof. do 2 eexists. vmr. Qed.

Example C14_example : exists m m1 m2 m3, grid_mdp (A:=Q) Hex ex_feats None (2, 3) false = Ok m /\
  add_agent_feature m 4 = (m1, Ok tt) /\ add_agent_feature m1 (-1) = (m2, Ok tt) /\ update_agent_feature m2 0 2 = (m3, Ok tt) /\
  m_features m3 = [[1; 0; 0; 1; 0; 0]; [0; 1; 0; 0; 0; 1]; [0; 0; 1; 0; 0; 0]; [0; 0; 0; 0; 0; 1]]%Q.
Proof. do 4 eexists. vmr. Qed.

(** Every grid MDP, after any calls on its walls, has a well-formed feature table. *)
Theorem C13_grid_tables : forall k feats w0 shape st m, grid_mdp (A:=R) k feats w0 shape st = Ok m -> table_ok m.
Proof.
  intros k feats w0 shape st m H. apply grid_mdp_inv in H. destruct H as (_ & F & _ & _ & I & _ & E & _ & NF & _).
  split; [congruence|]. rewrite E, (gi_ns _ _ _ _ I). exact F.
Qed.

Print Assumptions C05_construction.
Print Assumptions C05_transitions.
Print Assumptions C05_deterministic.
Print Assumptions C06_walls_block_exactly.
Print Assumptions C06_history_independent.
Print Assumptions C06_acceptance.
Print Assumptions C06_frame.
Print Assumptions C07_clear_restores.
Print Assumptions C07_add_wall.
Print Assumptions C07_documented_range_refuted.
Print Assumptions C08_adjacency_refuted.
Print Assumptions C08_adjacency_partial.
Print Assumptions C09_acceptance.
Print Assumptions C09_effect.
Print Assumptions C10_roundtrip.
Print Assumptions C10_reject.
Print Assumptions C10_consistency.
Print Assumptions C11_travel_time.
Print Assumptions C12_never_into_walls.
Print Assumptions C12_single_move.
Print Assumptions C12_invalid_action_teleports.
Print Assumptions C13_consume.
Print Assumptions C13_consume_again.
Print Assumptions C14_add.
Print Assumptions C14_move.
Print Assumptions C14_remove.
Print Assumptions C14_add_remove.
Print Assumptions C58_plain_mdp_refuted.
Print Assumptions C59_assigned_transitions_refuted.
Print Assumptions C59_walls_reset_transitions_partial.
Print Assumptions C60_stochastic_refuted.
