(** Properties C57 and C97-C100: where grids are drawn. *)
From Coq Require Import String List ZArith Reals Bool Lia Lra Psatz.
From Verif Require Import PyBase PyProofs GridModel GridSpec GridProofs GridProofs2 GridProps MDPModel MDPSpec MDPProofs MDPProofs2 MDPProofs3 MDPProofs4 MDPProps EnvModel EnvSpec EnvProofs EnvProofs3 EnvProps PlotModel PlotProofs.
Import ListNotations.
Local Open Scope nat_scope.

(** Two drawn hexagons share an edge: the hexagons have radius 1, so their centres are [sqrt 3] apart,
    up to the rounding of the constant 0.86602540 in the source. *)
Definition touch (p q : R * R) : Prop := (Rabs (sqd p q - 3) <= / 10000000)%R.
(** They are clearly apart: almost the width of another hexagon lies between them. *)
Definition apart (p q : R * R) : Prop := (89 / 10 <= sqd p q)%R.

Lemma touch_not_apart : forall p q, touch p q -> ~ apart p q.
Proof. unfold touch, apart. intros p q H1 H2. unfold Rabs in H1. destruct (Rcase_abs (sqd p q - 3)) in H1; lra. Qed.

Lemma cell_eq : forall shape s, cell_of shape s = (Z.of_nat (s / snd shape), Z.of_nat (s mod snd shape)).
Proof. reflexivity. Qed.

Lemma layers_total : forall k shape st m, clean k shape st m -> exists gs, features_as_grid m = Ok gs.
Proof.
  intros k shape st m C. unfold features_as_grid. pose proof (cl_grid _ _ _ _ C) as G. rewrite (gi_shape _ _ _ _ G).
  destruct (cl_table _ _ _ _ C) as [_ F]. exists (map (chunks (fst shape) (snd shape)) (m_features m)). apply mapM_total. intros row Hr. rewrite Forall_forall in F. specialize (F row Hr).
  unfold flat_to_grid. rewrite F, (gi_ns _ _ _ _ G). unfold nst. now rewrite Nat.eqb_refl.
Qed.

Lemma draw_all : forall (outer : R) shape, 0 < nst shape -> exists coords, draw_hexagons outer shape [] = Ok coords.
Proof.
  intros outer shape H. unfold nst in H. eexists. apply draw_shown. exists 0, 0. cbn. repeat split; nia.
Qed.

Lemma hex_plot_coords : forall m shape layers coords, m_shape m = Some shape -> hex_plot (A:=R) m = Ok (layers, coords) -> draw_hexagons 1%R shape [] = Ok coords.
Proof.
  intros m shape layers coords SH H. unfold hex_plot in H. rewrite SH in H. apply bind_ok in H. destruct H as (l & _ & H). apply bind_ok in H. destruct H as (c & E & H).
  change (n1 (A:=R)) with 1%R in E. rewrite E. congruence.
Qed.

(** Plotting a hexagonal grid always succeeds. *)
Theorem C57_plots : forall feats w0 shape st m0 calls, grid_mdp (A:=R) Hex feats w0 shape st = Ok m0 -> exists layers coords, hex_plot (after_wall_calls m0 calls) = Ok (layers, coords).
Proof.
  intros feats w0 shape st m0 calls H. destruct (grid_clean _ _ _ _ _ _ calls H) as [C _]. pose proof (cl_grid _ _ _ _ C) as G.
  destruct (layers_total _ _ _ _ C) as [gs E]. destruct (draw_all 1%R shape (gi_pos _ _ _ _ G)) as [coords D].
  unfold hex_plot. rewrite (gi_shape _ _ _ _ G). unfold feature_layers. rewrite E. cbn [bind]. change (n1 (A:=R)) with 1%R. rewrite D. cbn [bind]. eauto.
Qed.

Lemma centres_cases : forall shape s t, s < nst shape -> t < nst shape -> s <> t ->
  let p := hex_centre 1%R (s / snd shape) (s mod snd shape) in let q := hex_centre 1%R (t / snd shape) (t mod snd shape) in
  (touch p q /\ exists d, d < 6 /\ hex_move d (cell_of shape s) = cell_of shape t) \/
  (apart p q /\ forall d, d < 6 -> hex_move d (cell_of shape s) <> cell_of shape t).
Proof.
  intros shape s t Hs Ht NE p q. assert (NC : cell_of shape s <> cell_of shape t).
  { intros E. apply NE. eapply cell_of_inj; [exact E|]. unfold nst in *. nia. }
  destruct (sqd_gap (s / snd shape) (s mod snd shape) (t / snd shape) (t mod snd shape)) as [G1 G2]. rewrite <- !cell_eq in G1, G2. fold p q in G1, G2.
  destruct (gap_cases _ _ NC) as [[E D]|[E D]]; [left|right]; split; auto; [now apply G1|now apply G2].
Qed.

(** ** C57 *)

(** After plotting, the positions of two different states are one hexagon apart exactly if one is a
    neighbour of the other on the hexagonal grid; otherwise they are far apart. If neither state is a
    wall, this is adjacency in the MDP. *)
Theorem C57_touching : forall feats w0 shape st m0 calls layers coords s t,
  grid_mdp (A:=R) Hex feats w0 shape st = Ok m0 -> let m := after_wall_calls m0 calls in
  hex_plot m = Ok (layers, coords) -> s < fst shape * snd shape -> t < fst shape * snd shape -> s <> t ->
  exists p q b, state_to_position Hex shape (Some coords) (Z.of_nat s) = Ok p /\ state_to_position Hex shape (Some coords) (Z.of_nat t) = Ok q /\
    is_adjacent m (Z.of_nat s) (Z.of_nat t) = Ok b /\
    (touch p q \/ apart p q) /\
    (touch p q <-> exists d, d < 6 /\ hex_move d (cell_of shape s) = cell_of shape t) /\
    (~ is_wall (m_walls m) s -> ~ is_wall (m_walls m) t -> (touch p q <-> b = true)).
Proof.
  intros feats w0 shape st m0 calls layers coords s t H m HP Hs Ht NE. destruct (grid_clean _ _ _ _ _ _ calls H) as [C _]. fold m in C. pose proof (cl_grid _ _ _ _ C) as G.
  pose proof (hex_plot_coords _ _ _ _ (gi_shape _ _ _ _ G) HP) as D.
  destruct (is_adjacent_spec _ _ _ _ G s t Hs Ht) as (b & Eb & Hb).
  exists (hex_centre 1%R (s / snd shape) (s mod snd shape)), (hex_centre 1%R (t / snd shape) (t mod snd shape)), b.
  rewrite !(position_hex 1%R shape [] coords) by assumption. cbn [hidden existsb]. do 2 (split; [reflexivity|]). split; [exact Eb|].
  destruct (centres_cases shape s t Hs Ht NE) as [[T E]|[AP E]].
  - split; [now left|]. split; [tauto|]. intros W1 W2. split; [intros _|auto]. apply Hb. destruct E as (d & Hd & E). exists d. split; [|auto]. left. split; [exact Hd|exact E].
  - assert (NT : ~ touch (hex_centre 1%R (s / snd shape) (s mod snd shape)) (hex_centre 1%R (t / snd shape) (t mod snd shape))) by (intros T; exact (touch_not_apart _ _ T AP)).
    split; [now right|]. split; [split; [contradiction|intros (d & Hd & X); elim (E d Hd X)]|]. intros W1 W2. split; [contradiction|]. intros ->. exfalso.
    destruct (proj1 Hb eq_refl) as (a & [[[La X]|(_ & _ & X)] _]); [|congruence]. exact (E a La X).
Qed.

(** The constant 0.86602540 is not exactly half the square root of 3, so the distance is not exact. *)
Theorem C57_exact_refuted : forall shape, 2 <= snd shape -> 1 <= fst shape ->
  exists coords p q, draw_hexagons 1%R shape [] = Ok coords /\ state_to_position Hex shape (Some coords) 0 = Ok p /\ state_to_position Hex shape (Some coords) 1 = Ok q /\ touch p q /\ sqd p q <> 3%R.
Proof.
  intros shape H1 H2. assert (P : 0 < nst shape) by (unfold nst; nia). destruct (draw_all 1%R shape P) as [coords D].
  assert (S0 : 0 < fst shape * snd shape) by nia. assert (S1 : 1 < fst shape * snd shape) by nia.
  pose proof (position_hex 1%R shape [] coords 0 D S0) as E0. pose proof (position_hex 1%R shape [] coords 1 D S1) as E1. cbn [hidden existsb] in E0, E1.
  rewrite Nat.div_0_l, Nat.mod_0_l in E0 by lia. rewrite Nat.div_small, Nat.mod_small in E1 by lia.
  exists coords. do 2 eexists. split; [exact D|]. split; [exact E0|]. split; [exact E1|]. rewrite !centre_eq. unfold touch, sqd, col, hgt, inner. cbn [fst snd Z.of_nat Z.even Z.mul Z.add Pos.of_succ_nat Pos.mul Pos.add Pos.succ]. split; [apply Rabs_le; lra|]. lra.
Qed.

Example C57_example : exists m0 layers coords, grid_mdp (A:=R) Hex [[0; 0; 0; 0; 0; 0]%R] None (2, 3) true = Ok m0 /\
  hex_plot (after_wall_calls m0 [AddWall [0%Z] [1%Z]]) = Ok (layers, coords).
Proof.
  destruct (grid_mdp_ok Hex [[0; 0; 0; 0; 0; 0]%R] None (2, 3) true) as (m & E & _).
  - cbn; lia.
  - repeat constructor.
  - reflexivity.
  - apply binary_zeros.
  - exists m. destruct (C57_plots _ _ _ _ _ [AddWall [0%Z] [1%Z]] E) as (l & c & P). exists l, c. auto.
Qed.

(** ** C97: every direction has one heading *)

(** Heading of direction [d] on a grid with [n] directions: clockwise from straight up. *)
Definition heading (n d : nat) (len : R) : R * R :=
  (len * sin (INR d * (2 * PI / INR n)), len * cos (INR d * (2 * PI / INR n)))%R.
Definition close (eps : R) (v w : R * R) : Prop := (Rabs (fst v - fst w) <= eps /\ Rabs (snd v - snd w) <= eps)%R.

Lemma sqrt3 : (sqrt 3 * sqrt 3 = 3 /\ 1.7320508 <= sqrt 3 <= 1.7320509)%R.
Proof.
  split; [apply sqrt_sqrt; lra|]. split.
  - replace 1.7320508%R with (sqrt (1.7320508 * 1.7320508)) by (apply sqrt_square; lra). apply sqrt_le_1_alt. lra.
  - replace 1.7320509%R with (sqrt (1.7320509 * 1.7320509)) by (apply sqrt_square; lra). apply sqrt_le_1_alt. lra.
Qed.

Lemma hex_headings : forall d, d < 6 -> close (/ 10000000) (3 / 2 * IZR (step_col d), inner * IZR (step_hgt d))%R (heading 6 d (sqrt 3)).
Proof.
  intros d Hd. destruct sqrt3 as [S3 [L U]]. unfold close, heading. cbn [fst snd].
  assert (T : (exists sn cs, sin (INR d * (2 * PI / INR 6)) = sn /\ cos (INR d * (2 * PI / INR 6)) = cs /\ (sqrt 3 * sn = 3 / 2 * IZR (step_col d) /\ Rabs (inner * IZR (step_hgt d) - sqrt 3 * cs) <= / 10000000))%R).
  { replace (INR 6) with 6%R by (cbn; lra).
    destruct d as [|[|[|[|[|[|d]]]]]]; [| | | | | |lia]; cbn [INR step_col step_hgt]; unfold inner.
    - exists 0%R, 1%R. replace (0 * (2 * PI / 6))%R with 0%R by field. rewrite sin_0, cos_0. repeat split; try lra. apply Rabs_le; lra.
    - exists (sqrt 3 / 2)%R, (1 / 2)%R. replace (1 * (2 * PI / 6))%R with (PI / 3)%R by field. rewrite sin_PI3, cos_PI3. repeat split; try lra. apply Rabs_le; lra.
    - exists (sqrt 3 / 2)%R, (-1 / 2)%R. replace ((1 + 1) * (2 * PI / 6))%R with (2 * (PI / 3))%R by field. rewrite sin_2PI3, cos_2PI3. repeat split; try lra. apply Rabs_le; lra.
    - exists 0%R, (-1)%R. replace ((1 + 1 + 1) * (2 * PI / 6))%R with PI by field. rewrite sin_PI, cos_PI. repeat split; try lra. apply Rabs_le; lra.
    - exists (- (sqrt 3 / 2))%R, (- (1 / 2))%R. replace ((1 + 1 + 1 + 1) * (2 * PI / 6))%R with (PI / 3 + PI)%R by field. rewrite neg_sin, neg_cos, sin_PI3, cos_PI3. repeat split; try lra. apply Rabs_le; lra.
    - exists (- (sqrt 3 / 2))%R, (1 / 2)%R. replace ((1 + 1 + 1 + 1 + 1) * (2 * PI / 6))%R with (2 * (PI / 3) + PI)%R by field. rewrite neg_sin, neg_cos, sin_2PI3, cos_2PI3. repeat split; try lra. apply Rabs_le; lra. }
  destruct T as (sn & cs & -> & -> & E1 & E2). split; [|exact E2]. rewrite E1. rewrite Rminus_diag_eq by reflexivity. rewrite Rabs_R0. lra.
Qed.

Lemma square_headings : forall d c, d < 4 -> (IZR (fst (square_move d c)) - IZR (fst c), IZR (snd (square_move d c)) - IZR (snd c))%R = heading 4 d 1.
Proof.
  intros d [x y] Hd. unfold heading. replace (INR 4) with 4%R by (cbn; lra).
  destruct d as [|[|[|[|d]]]]; [| | | |lia]; cbn [square_move fst snd INR]; rewrite ?plus_IZR, ?minus_IZR.
  - replace (0 * (2 * PI / 4))%R with 0%R by field. rewrite sin_0, cos_0. f_equal; ring.
  - replace (1 * (2 * PI / 4))%R with (PI / 2)%R by field. rewrite sin_PI2, cos_PI2. f_equal; ring.
  - replace ((1 + 1) * (2 * PI / 4))%R with PI by field. rewrite sin_PI, cos_PI. f_equal; ring.
  - replace ((1 + 1 + 1) * (2 * PI / 4))%R with (3 * (PI / 2))%R by field. rewrite sin_3PI2, cos_3PI2. f_equal; ring.
Qed.

Lemma valid_edge : forall k shape st m s a t va, grid_inv k shape st m -> s < nst shape -> state_valid_actions m (Z.of_nat s) = Ok va -> In a va ->
  get_next_state m (Z.of_nat s) (Z.of_nat a) = Ok t -> t < nst shape /\ walled_edge k shape st (m_walls m) s a t.
Proof.
  intros k shape st m s a t va G Hs EV IV EN. destruct (in_valid_actions _ _ _ _ G s Hs) as (va' & EV' & IV'). rewrite EV in EV'. inversion EV'. subst va'.
  apply IV' in IV. destruct IV as (t' & Ht' & W). pose proof (next_state_edge _ _ _ _ G s a t' Hs Ht' W) as EN'. rewrite EN in EN'. inversion EN'. subst. auto.
Qed.

(** The arrow drawn for a move in direction [a] has length [sqrt 3] and points [a] sixths of a turn
    clockwise from straight up, wherever the move is made. *)
Theorem C97_hex_headings : forall feats w0 shape st m0 calls layers coords s t a va,
  grid_mdp (A:=R) Hex feats w0 shape st = Ok m0 -> let m := after_wall_calls m0 calls in
  hex_plot m = Ok (layers, coords) -> s < fst shape * snd shape ->
  state_valid_actions m (Z.of_nat s) = Ok va -> In a va -> a < 6 -> get_next_state m (Z.of_nat s) (Z.of_nat a) = Ok t ->
  exists p v, trajectory_arrows Hex shape (Some coords) [Z.of_nat s; Z.of_nat t] = Ok [(p, v)] /\
    state_to_position Hex shape (Some coords) (Z.of_nat s) = Ok p /\ close (/ 10000000) v (heading 6 a (sqrt 3)).
Proof.
  intros feats w0 shape st m0 calls layers coords s t a va H m HP Hs EV IV La EN. destruct (grid_clean _ _ _ _ _ _ calls H) as [C _]. fold m in C. pose proof (cl_grid _ _ _ _ C) as G.
  pose proof (hex_plot_coords _ _ _ _ (gi_shape _ _ _ _ G) HP) as D. destruct (valid_edge _ _ _ _ s a t va G Hs EV IV EN) as [Ht [[[_ E]|(_ & E & _)] _]]; [|cbn in E; lia].
  unfold trajectory_arrows. cbn [mapM]. rewrite !(position_hex 1%R shape [] coords) by assumption. cbn [hidden existsb bind]. rewrite !centre_eq, <- !cell_eq. cbn [arrows nsub NumR].
  do 2 eexists. split; [reflexivity|]. split; [reflexivity|].
  destruct (hex_step a (cell_of shape s) La) as [S1 S2]. change (move_of Hex a) with (hex_move a) in E. rewrite E in S1, S2. rewrite S1, S2.
  pose proof (hex_headings a La) as HH. rewrite !plus_IZR. unfold close in *. cbn [fst snd] in *. split.
  - eapply Rle_trans; [|apply (proj1 HH)]. right. f_equal. ring.
  - eapply Rle_trans; [|apply (proj2 HH)]. right. f_equal. ring.
Qed.

(** On square grids the arrows have length 1 and point exactly [a] quarters of a turn from +y towards +x. *)
Theorem C97_square_headings : forall feats w0 shape st m0 calls coords s t a va,
  grid_mdp (A:=R) Square feats w0 shape st = Ok m0 -> let m := after_wall_calls m0 calls in
  s < fst shape * snd shape -> state_valid_actions m (Z.of_nat s) = Ok va -> In a va -> a < 4 -> get_next_state m (Z.of_nat s) (Z.of_nat a) = Ok t ->
  exists p, trajectory_arrows Square shape coords [Z.of_nat s; Z.of_nat t] = Ok [(p, heading 4 a 1)] /\
    state_to_position Square shape coords (Z.of_nat s) = Ok p.
Proof.
  intros feats w0 shape st m0 calls coords s t a va H m Hs EV IV La EN. destruct (grid_clean _ _ _ _ _ _ calls H) as [C _]. fold m in C. pose proof (cl_grid _ _ _ _ C) as G.
  destruct (valid_edge _ _ _ _ s a t va G Hs EV IV EN) as [Ht [[[_ E]|(_ & E & _)] _]]; [|cbn in E; lia].
  unfold trajectory_arrows. cbn [mapM]. rewrite !position_square by assumption. cbn [bind arrows]. eexists. split; [|reflexivity]. do 3 f_equal. cbn [nsub NumR].
  change (move_of Square a) with (square_move a) in E. rewrite <- E. rewrite <- (square_headings a (cell_of shape s) La). reflexivity.
Qed.

(** Staying is drawn as an arrow of length zero. *)
Theorem C97_staying : forall k shape (coords : coords_attr) s p, state_to_position (A:=R) k shape coords s = Ok p ->
  trajectory_arrows k shape coords [s; s] = Ok [(p, (0, 0)%R)].
Proof. intros k shape coords s [x y] E. unfold trajectory_arrows. cbn [mapM]. rewrite E. cbn [bind arrows nsub NumR]. rewrite !Rminus_diag_eq by reflexivity. reflexivity. Qed.
