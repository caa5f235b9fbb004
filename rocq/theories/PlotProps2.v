(** Properties C98-C101: what is drawn, and colour values. *)
From Coq Require Import String List ZArith Reals Bool Lia Lra Psatz.
From Verif Require Import PyBase PyProofs GridModel GridSpec GridProofs GridProofs2 GridProps MDPModel MDPSpec MDPProofs MDPProofs2 MDPProofs3 MDPProofs4 MDPProps EnvModel EnvSpec EnvProofs EnvProofs2 EnvProofs3 EnvProofs4 EnvProps PlotModel PlotProofs PlotProps.
Import ListNotations.
Local Open Scope nat_scope.

(** ** Scaled centres *)
Lemma centre_scale : forall outer x z, hex_centre (A:=R) outer x z = (outer * fst (hex_centre 1 x z), outer * snd (hex_centre 1 x z))%R.
Proof.
  intros outer x z. unfold hex_centre, inner_radius. cbn [fst snd nmul nadd ndiv nofZ NumR]. f_equal; [field|]. destruct (Nat.odd x); field.
Qed.
Lemma centre_inj : forall outer x z x' z', (0 < outer)%R -> hex_centre outer x z = hex_centre outer x' z' -> x = x' /\ z = z'.
Proof.
  intros outer x z x' z' P E. rewrite !(centre_scale outer), !centre_eq in E. cbn [fst snd] in E.
  assert (E1 : (outer * (3 / 2 * IZR (col (Z.of_nat x, Z.of_nat z))) = outer * (3 / 2 * IZR (col (Z.of_nat x', Z.of_nat z'))))%R) by congruence.
  assert (E2 : (outer * (inner * IZR (hgt (Z.of_nat x, Z.of_nat z))) = outer * (inner * IZR (hgt (Z.of_nat x', Z.of_nat z'))))%R) by congruence.
  apply Rmult_eq_reg_l in E1; [|lra]. apply Rmult_eq_reg_l in E1; [|lra]. apply Rmult_eq_reg_l in E2; [|lra]. apply Rmult_eq_reg_l in E2; [|unfold inner; lra].
  apply eq_IZR in E1, E2. pose proof (col_hgt_inj _ _ E1 E2) as E3. inversion E3. lia.
Qed.
Lemma centre_nonzero : forall outer x z, (0 < outer)%R -> hex_centre outer x z <> (0, 0)%R.
Proof.
  intros outer x z P E. rewrite (centre_scale outer), centre_eq in E. cbn [fst snd] in E.
  assert (E1 : (outer * (3 / 2 * IZR (col (Z.of_nat x, Z.of_nat z))) = outer * 0)%R) by (rewrite Rmult_0_r; congruence).
  assert (E2 : (outer * (inner * IZR (hgt (Z.of_nat x, Z.of_nat z))) = outer * 0)%R) by (rewrite Rmult_0_r; congruence).
  apply Rmult_eq_reg_l in E1; [|lra]. apply Rmult_eq_reg_l in E2; [|lra].
  assert (E3 : IZR (col (Z.of_nat x, Z.of_nat z)) = 0%R) by lra. apply (eq_IZR _ 0) in E3.
  assert (E4 : IZR (hgt (Z.of_nat x, Z.of_nat z)) = 0%R) by (unfold inner in E2; lra). apply (eq_IZR _ 0) in E4.
  unfold col, hgt in *. cbn [fst snd] in *. rewrite E3 in E4. cbn [Z.even] in E4. lia.
Qed.

Lemma grid_value : forall B (d : B) shape values g s, flat_to_grid shape values = Ok g -> s < fst shape * snd shape ->
  nth (s mod snd shape) (nth (s / snd shape) g []) d = nth s values d.
Proof.
  intros B d [w h] values g s E Hs. cbn [fst snd] in *. assert (Hh : h <> 0) by nia.
  destruct (C01_reshape B (w, h) values) as [[_ E']|[_ (g' & E' & _ & H)]]; [congruence|]. rewrite E in E'. assert (g' = g) by congruence. subst g'.
  assert (D : s / h < w) by (apply Nat.div_lt_upper_bound; lia). pose proof (Nat.mod_upper_bound s h Hh) as M.
  destruct (H (Z.of_nat (s / h)) (Z.of_nat (s mod h)) d) as (st & Es & V); [split; cbn; lia|]. rewrite !Nat2Z.id in V. unfold get2 in V. rewrite V. f_equal.
  unfold idx_to_state in Es. cbn [fst snd] in Es. destruct (_ && _); [|discriminate]. assert (st = (Z.of_nat (s / h) * Z.of_nat h + Z.of_nat (s mod h))%Z) by congruence. subst st.
  rewrite <- Nat2Z.inj_mul, <- Nat2Z.inj_add, Nat2Z.id. rewrite (Nat.div_mod s h Hh) at 3. lia.
Qed.
Lemma cell_state : forall w h x z, x < w -> z < h -> (x * h + z) / h = x /\ (x * h + z) mod h = z /\ x * h + z < w * h.
Proof.
  intros w h x z Hx Hz. assert (h <> 0) by lia. rewrite Nat.div_add_l, Nat.div_small by lia. rewrite (Nat.add_comm (x * h)), Nat.mod_add, Nat.mod_small by lia. repeat split; try lia. nia.
Qed.

(** ** C98: state values are drawn where the states are *)

Lemma hidden_iff : forall hide shape s, hidden hide (s / snd shape) (s mod snd shape) = true <-> In (cell_of shape s) hide.
Proof.
  intros hide [w h] s. unfold hidden. rewrite existsb_exists. unfold cell_of. cbn [snd]. split.
  - intros ([a b] & I & E). apply andb_true_iff in E. destruct E as [E1 E2]. apply Z.eqb_eq in E1, E2. subst. exact I.
  - intros I. eexists. split; [exact I|]. cbn. now rewrite !Z.eqb_refl.
Qed.
(** Hexagonal grids: every state that is not hidden is drawn once, at its position, with its value, and nothing else is
    drawn. *)
Theorem C98_hex : forall B (d : B) outer shape hide values drawn coords, (0 < outer)%R -> hex_values d outer shape hide values = Ok (drawn, coords) ->
  (forall s, s < fst shape * snd shape -> ~ In (cell_of shape s) hide ->
    exists p, state_to_position Hex shape (Some coords) (Z.of_nat s) = Ok p /\ forall v, In (p, v) drawn <-> v = nth s values d) /\
  forall p v, In (p, v) drawn -> exists s, s < fst shape * snd shape /\ ~ In (cell_of shape s) hide /\ state_to_position Hex shape (Some coords) (Z.of_nat s) = Ok p.
Proof.
  intros B d outer [w h] hide values drawn coords P H. unfold hex_values in H. apply bind_ok in H. destruct H as (g & EG & H). apply bind_ok in H. destruct H as (c & EC & H).
  assert (c = coords) by congruence. subst c. match type of H with Ok (?X, _) = _ => assert (ED : drawn = X) by congruence end. clear H. cbn [fst snd] in *. split.
  - intros s Hs NH'. assert (NH : hidden hide (s / h) (s mod h) = false). { destruct (hidden hide (s / h) (s mod h)) eqn:X; [|reflexivity]. elim NH'. now apply (hidden_iff hide (w, h)). }
    eexists. split; [rewrite (position_hex outer (w, h) hide coords s EC Hs); cbn [fst snd]; rewrite NH; reflexivity|]. intros v.
    rewrite ED. clear ED. rewrite in_flat_map. assert (Hh : h <> 0) by nia.
    assert (D : s / h < w) by (apply Nat.div_lt_upper_bound; lia). pose proof (Nat.mod_upper_bound s h Hh) as M. pose proof (grid_value B d (w, h) values g s EG Hs) as GV. cbn [snd] in GV. split.
    + intros (x & Hx & Hin). apply in_seq in Hx. apply in_flat_map in Hin. destruct Hin as (z & Hz & Hin). apply in_seq in Hz. destruct (hidden hide x z); [destruct Hin|]. destruct Hin as [E|[]].
      assert (EC1 : hex_centre outer x z = hex_centre outer (s / h) (s mod h)) by congruence. destruct (centre_inj _ _ _ _ _ P EC1) as [-> ->]. congruence.
    + intros ->. exists (s / h). split; [apply in_seq; lia|]. apply in_flat_map. exists (s mod h). split; [apply in_seq; lia|]. rewrite NH. left. now rewrite GV.
  - intros p v I. rewrite ED in I. apply in_flat_map in I. destruct I as (x & Hx & I). apply in_seq in Hx. apply in_flat_map in I. destruct I as (z & Hz & I). apply in_seq in Hz. destruct (hidden hide x z) eqn:NH; [destruct I|]. destruct I as [E|[]].
    destruct (cell_state w h x z) as (C1 & C2 & C3); [lia|lia|]. exists (x * h + z). split; [exact C3|]. split.
    + intros X. apply (hidden_iff hide (w, h)) in X. cbn [snd] in X. rewrite C1, C2 in X. congruence.
    + rewrite (position_hex outer (w, h) hide coords _ EC C3). cbn [fst snd]. rewrite C1, C2, NH. apply (f_equal fst) in E. cbn [fst] in E. now rewrite <- E.
Qed.
Example C98_hex_example : exists drawn coords, hex_values 0%R 1%R (2, 2) [(0, 1)%Z] [4; 5; 6; 7]%R = Ok (drawn, coords) /\ cell_of (2, 2) 2 = (1, 0)%Z /\ ~ In (1, 0)%Z [(0, 1)%Z] /\ length drawn = 3.
Proof. do 2 eexists. split; [reflexivity|]. split; [reflexivity|]. split; [intros [X|[]]; discriminate|reflexivity]. Qed.

(** Square grids: feature layers are drawn where the states are ... *)
Theorem C98_square_layers : forall shape g x y, shape2 (fst shape) (snd shape) g -> x < fst shape -> y < snd shape ->
  image_at (square_layer_image (A:=R) shape g) x y = Some (get2 0%R g x y).
Proof.
  intros [w h] g x y [L SH] Hx Hy. cbn [fst snd] in *. unfold image_at, square_layer_image, transpose. cbn [snd].
  rewrite nth_error_map, (nth_error_nth' _ 0) by (now rewrite seq_length). rewrite seq_nth by exact Hy. cbn [Nat.add option_map].
  rewrite nth_error_map, (nth_error_nth' g []) by lia. reflexivity.
Qed.

(** ... but state values are drawn with the two coordinates exchanged. *)
Theorem C98_square_transposed_partial : forall B (d : B) shape values img s, square_values_image shape values = Ok img -> s < fst shape * snd shape ->
  exists x y, state_to_idx shape (Z.of_nat s) = Ok (Z.of_nat x, Z.of_nat y) /\ image_at img y x = Some (nth s values d).
Proof.
  intros B d [w h] values img s E Hs. cbn [fst snd] in *. assert (Hh : h <> 0) by nia. assert (D : s / h < w) by (apply Nat.div_lt_upper_bound; lia). pose proof (Nat.mod_upper_bound s h Hh) as M.
  exists (s / h), (s mod h). split.
  - unfold state_to_idx. cbn [fst snd]. replace ((0 <=? Z.of_nat s)%Z && (Z.of_nat s <? Z.of_nat (w * h))%Z) with true by (symmetry; apply andb_true_iff; split; [apply Z.leb_le|apply Z.ltb_lt]; lia).
    now rewrite Nat2Z.inj_div, Nat2Z.inj_mod.
  - unfold square_values_image in E. pose proof (grid_value B d (w, h) values img s E Hs) as GV. cbn [snd] in GV. destruct (C01_reshape B (w, h) values) as [[_ E']|[_ (g' & E' & [L SH] & _)]]; [congruence|]. rewrite E in E'. assert (g' = img) by congruence. subst g'. cbn [fst snd] in *.
    unfold image_at. rewrite (nth_error_nth' img []) by lia. rewrite (nth_error_nth' _ d) by (rewrite SH by exact D; exact M). now rewrite GV.
Qed.

(** Whenever the grid has a cell off the diagonal, some state's value is drawn somewhere else (or not
    inside the picture at all). *)
Theorem C98_square_refuted : forall shape, 1 <= fst shape -> 2 <= snd shape ->
  exists (values : list nat) img s x y, square_values_image shape values = Ok img /\ s < fst shape * snd shape /\
    state_to_position (A:=R) Square shape None (Z.of_nat s) = Ok (INR x, INR y) /\ image_at img x y <> Some (nth s values 0).
Proof.
  intros [w h] Hw Hh. cbn [fst snd] in *. exists (seq 0 (w * h)). assert (L : length (seq 0 (w * h)) = w * h) by apply seq_length.
  destruct (C01_reshape nat (w, h) (seq 0 (w * h))) as [[N _]|[_ (g & E & [LG SH] & _)]]; [elim N; exact L|]. cbn [fst snd] in *.
  exists g, 1, 0, 1. split; [exact E|]. split; [nia|]. split.
  - rewrite (position_square (w, h) None 1) by (cbn; nia). unfold cell_of. cbn [fst snd]. rewrite Nat.div_small, Nat.mod_small by lia. now rewrite !INR_IZR_INZ.
  - rewrite seq_nth by nia. unfold image_at. destruct (nth_error g 1) as [row|] eqn:ER; [|discriminate].
    assert (H1 : 1 < w) by (rewrite <- LG; apply nth_error_Some; congruence). apply (nth_error_nth _ _ []) in ER.
    pose proof (grid_value nat 0 (w, h) _ g h E) as GV. cbn [fst snd] in GV. rewrite Nat.div_same, Nat.mod_same, ER in GV by lia. rewrite seq_nth in GV by nia.
    specialize (GV ltac:(nia)). destruct row as [|v row]; [discriminate|]. cbn [nth nth_error] in *. intros X. assert (v = 1) by (inversion X; reflexivity). lia.
Qed.

(** ** C99: every ordinary feature is drawn *)

(** Without agents no feature is drawn at all: [features[:-0]] is empty. *)
Theorem C99_no_agents_refuted : forall k feats w0 shape st m0 calls, grid_mdp (A:=R) k feats w0 shape st = Ok m0 -> feature_layers (after_wall_calls m0 calls) = Ok [].
Proof.
  intros k feats w0 shape st m0 calls H. destruct (grid_clean _ _ _ _ _ _ calls H) as (C & _ & _ & N). destruct (layers_total _ _ _ _ C) as [gs E].
  unfold feature_layers. rewrite E, N. cbn [bind Z.of_nat Z.opp]. unfold slice_bound. cbn [Z.ltb Z.compare]. rewrite Z.min_l by lia. reflexivity.
Qed.

(** In an environment with agents exactly the ordinary features are drawn, with their current values. *)
Theorem C99_with_agents : forall pl e shape, reachable pl e -> e_agents e <> [] -> m_shape (e_mdp e) = Some shape ->
  exists layers, feature_layers (e_mdp e) = Ok layers /\ length layers = n_ordinary (e_mdp e) /\
    forall f s, f < n_ordinary (e_mdp e) -> s < fst shape * snd shape -> get3 0%R layers f (s / snd shape) (s mod snd shape) = feat (e_mdp e) f s.
Proof.
  intros pl e shape RE NA SH. destruct (reachable_wf _ _ RE) as (k & shape' & st & W). pose proof (wf_grid _ _ _ _ W) as G. assert (shape' = shape) by (pose proof (gi_shape _ _ _ _ G); congruence). subst shape'.
  pose proof (wf_clean _ _ _ _ W) as C. destruct (layers_total _ _ _ _ C) as [gs E]. unfold feature_layers. rewrite E. cbn [bind]. eexists. split; [reflexivity|].
  destruct (C01_features_as_grid R (e_mdp e) shape gs SH E) as [LG _]. destruct (wf_table _ _ _ _ W) as [T _]. pose proof (wf_nf _ _ _ _ W) as NF.
  assert (POS : 0 < m_n_agents (e_mdp e)). { destruct (e_agents e) as [|a r] eqn:EA; [congruence|]. destruct (wf_agents _ _ _ _ W a) as (I & _); [rewrite EA; now left|]. lia. }
  assert (SB : slice_bound (length gs) (- Z.of_nat (m_n_agents (e_mdp e))) = n_ordinary (e_mdp e)).
  { unfold slice_bound, n_ordinary. destruct (Z.ltb_spec (- Z.of_nat (m_n_agents (e_mdp e))) 0); [|lia]. rewrite Z.max_r by lia. lia. }
  rewrite SB. split; [rewrite firstn_length; unfold n_ordinary; lia|]. intros f s Hf Hs. unfold get3, get2. rewrite nth_firstn_lt by exact Hf. unfold n_ordinary in Hf.
  unfold features_as_grid in E. rewrite SH in E. unfold feat, get2.
  assert (EF : flat_to_grid shape (nth f (m_features (e_mdp e)) []) = Ok (nth f gs [])).
  { assert (LF : f < length (m_features (e_mdp e))) by lia. clear -E LF. revert gs f E LF. induction (m_features (e_mdp e)) as [|row l IH]; intros gs f E LF; [cbn in LF; lia|]. cbn [mapM] in E. apply bind_ok in E. destruct E as (g & E1 & E). apply bind_ok in E. destruct E as (gs' & E2 & E).
    assert (gs = g :: gs') by congruence. subst gs. destruct f as [|f]; [exact E1|]. cbn [nth]. apply IH; [exact E2|cbn in LF; lia]. }
  apply (grid_value R 0%R shape _ _ s EF Hs).
Qed.

(** ** C100: trajectories and agents are drawn through the positions of their states *)

Lemma arrows_chain : forall (ps : list (R * R)), length (arrows ps) = pred (length ps) /\
  forall i, S i < length ps -> exists v, nth_error (arrows ps) i = Some (nth i ps (0, 0)%R, v) /\
    nth (S i) ps (0, 0)%R = (fst (nth i ps (0, 0)) + fst v, snd (nth i ps (0, 0)) + snd v)%R.
Proof.
  induction ps as [|[x1 y1] [|[x2 y2] r] IH]; try (split; [reflexivity|]; intros i Hi; cbn in Hi; lia).
  destruct IH as [L IH]. change (arrows ((x1, y1) :: (x2, y2) :: r)) with (((x1, y1), (x2 - x1, y2 - y1))%R :: arrows ((x2, y2) :: r)). split; [cbn [length] in *; rewrite L; reflexivity|]. intros [|i] Hi.
  - eexists. split; [reflexivity|]. cbn [nth fst snd]. f_equal; ring.
  - cbn [nth_error]. destruct (IH i) as (v & E1 & E2); [cbn [length] in *; lia|]. exists v. split; [exact E1|exact E2].
Qed.

(** The arrows connect the positions of consecutive states. *)
Theorem C100_path : forall k shape (coords : coords_attr) traj ars, trajectory_arrows (A:=R) k shape coords traj = Ok ars ->
  length ars = pred (length traj) /\
  forall i s t, nth_error traj i = Some s -> nth_error traj (S i) = Some t ->
    exists p v, nth_error ars i = Some (p, v) /\ state_to_position k shape coords s = Ok p /\
      state_to_position k shape coords t = Ok (fst p + fst v, snd p + snd v)%R.
Proof.
  intros k shape coords traj ars H. unfold trajectory_arrows in H. apply bind_ok in H. destruct H as (ps & EP & H). assert (ars = arrows ps) by congruence. subst ars. clear H.
  assert (N : length ps = length traj /\ forall i s, nth_error traj i = Some s -> state_to_position k shape coords s = Ok (nth i ps (0, 0)%R)).
  { revert ps EP. induction traj as [|s0 traj IH]; intros ps EP; cbn [mapM] in EP.
    - assert (ps = []) by congruence. subst ps. split; [reflexivity|]. intros [|i] s Hi; discriminate.
    - apply bind_ok in EP. destruct EP as (p & E1 & EP). apply bind_ok in EP. destruct EP as (ps' & E2 & EP). assert (ps = p :: ps') by congruence. subst ps.
      destruct (IH ps' E2) as [L IH']. split; [cbn; lia|]. intros [|i] s Hi; [cbn in Hi; cbn [nth]; congruence|]. cbn [nth nth_error] in *. now apply IH'. }
  destruct N as [L N]. destruct (arrows_chain ps) as [LA AC]. split; [rewrite LA; f_equal; exact L|]. intros i s t Hs Ht. assert (LI : S i < length ps) by (apply (Nat.lt_le_trans _ (length traj)); [apply nth_error_Some; congruence|apply Nat.eq_le_incl; symmetry; exact L]).
  destruct (AC i LI) as (v & E1 & E2). exists (nth i ps (0, 0)%R), v. split; [exact E1|]. split; [now apply N|]. exact (eq_trans (N _ _ Ht) (f_equal Ok E2)).
Qed.

(** After the grid has been plotted every trajectory of states can be drawn. *)
Theorem C100_after_plot : forall feats w0 shape st m0 calls layers coords traj, grid_mdp (A:=R) Hex feats w0 shape st = Ok m0 ->
  hex_plot (after_wall_calls m0 calls) = Ok (layers, coords) -> Forall (fun s => s < fst shape * snd shape) traj ->
  exists ars, trajectory_arrows Hex shape (Some coords) (map Z.of_nat traj) = Ok ars.
Proof.
  intros feats w0 shape st m0 calls layers coords traj H HP F. destruct (grid_clean _ _ _ _ _ _ calls H) as [C _]. pose proof (cl_grid _ _ _ _ C) as G.
  pose proof (hex_plot_coords _ _ _ _ (gi_shape _ _ _ _ G) HP) as D. unfold trajectory_arrows.
  rewrite (mapM_total _ _ _ (fun s => hex_centre 1%R (Z.to_nat s / snd shape) (Z.to_nat s mod snd shape))); [cbn [bind]; eauto|].
  intros s Hs. apply in_map_iff in Hs. destruct Hs as (n & <- & Hn). rewrite Forall_forall in F. rewrite (position_hex 1%R shape [] coords n D (F n Hn)), Nat2Z.id. reflexivity.
Qed.
Theorem C100_square : forall shape coords traj, Forall (fun s => s < fst shape * snd shape) traj ->
  exists ars, trajectory_arrows (A:=R) Square shape coords (map Z.of_nat traj) = Ok ars.
Proof.
  intros shape coords traj F. unfold trajectory_arrows.
  rewrite (mapM_total _ _ _ (fun s => (IZR (fst (cell_of shape (Z.to_nat s))), IZR (snd (cell_of shape (Z.to_nat s)))))); [cbn [bind]; eauto|].
  intros s Hs. apply in_map_iff in Hs. destruct Hs as (n & <- & Hn). rewrite Forall_forall in F. rewrite (position_square shape coords n (F n Hn)), Nat2Z.id. reflexivity.
Qed.

(** Before anything has been plotted no trajectory can be drawn on a hexagonal grid. *)
Theorem C100_before_plot_refuted : forall shape s traj, s < fst shape * snd shape ->
  trajectory_arrows (A:=R) Hex shape None (Z.of_nat s :: traj) = Err AttributeError /\ sequence_labels (A:=R) Hex shape None (Z.of_nat s :: traj) = Err AttributeError.
Proof.
  intros [w h] s traj Hs. cbn [fst snd] in Hs. assert (E : state_to_position (A:=R) Hex (w, h) None (Z.of_nat s) = Err AttributeError).
  { unfold state_to_position, state_to_idx. cbn [fst snd]. replace ((0 <=? Z.of_nat s)%Z && (Z.of_nat s <? Z.of_nat (w * h))%Z) with true by (symmetry; apply andb_true_iff; split; [apply Z.leb_le|apply Z.ltb_lt]; lia). reflexivity. }
  unfold trajectory_arrows, sequence_labels. cbn [mapM]. rewrite E. split; reflexivity.
Qed.

(** After plotting values with hidden cells, a hidden state is located at the origin, which is not the
    centre of any hexagon. *)
Theorem C100_hidden_refuted : forall B (d : B) outer shape hide values drawn coords, (0 < outer)%R -> hex_values d outer shape hide values = Ok (drawn, coords) ->
  forall s, s < fst shape * snd shape -> In (cell_of shape s) hide ->
    state_to_position Hex shape (Some coords) (Z.of_nat s) = Ok (0, 0)%R /\ forall x z, hex_centre outer x z <> (0, 0)%R.
Proof.
  intros B d outer shape hide values drawn coords P H s Hs HH. apply hidden_iff in HH. unfold hex_values in H. apply bind_ok in H. destruct H as (g & EG & H). apply bind_ok in H. destruct H as (c & EC & H).
  assert (c = coords) by congruence. subst c. rewrite (position_hex outer shape hide coords s EC Hs), HH. split; [reflexivity|]. intros x z. now apply centre_nonzero.
Qed.

(** Markers of agents: in every reachable environment whose agents have non-negative positions. *)
Theorem C100_agents : forall pl e shape k, reachable pl e -> m_shape (e_mdp e) = Some shape -> (forall a, In a (e_agents e) -> (0 <= at_pos a)%Z) ->
  exists layers ms, env_plot k e = Ok (layers, ms) /\ length ms = length (e_agents e) /\
    forall i a s, nth_error (e_agents e) i = Some a -> stands_on (e_mdp e) (at_pos a) s ->
      nth_error ms i = Some (match k with Square => (IZR (fst (cell_of shape s)), IZR (snd (cell_of shape s))) | Hex => hex_centre 1%R (s / snd shape) (s mod snd shape) end).
Proof.
  intros pl e shape k RE SH NN. destruct (reachable_wf _ _ RE) as (k' & shape' & st & W). pose proof (wf_grid _ _ _ _ W) as G. assert (shape' = shape) by (pose proof (gi_shape _ _ _ _ G); congruence). subst shape'.
  pose proof (wf_clean _ _ _ _ W) as C. destruct (layers_total _ _ _ _ C) as [gs E]. destruct (draw_all 1%R shape (gi_pos _ _ _ _ G)) as [coords D].
  set (pos := fun a : attached R => let s := Z.to_nat (at_pos a) in match k with Square => (IZR (fst (cell_of shape s)), IZR (snd (cell_of shape s))) | Hex => hex_centre 1%R (s / snd shape) (s mod snd shape) end).
  assert (ST : forall a, In a (e_agents e) -> at_pos a = Z.of_nat (Z.to_nat (at_pos a)) /\ Z.to_nat (at_pos a) < fst shape * snd shape).
  { intros a Ha. specialize (NN a Ha). split; [lia|]. destruct (C16_on_a_state pl e a RE Ha) as (s & S1 & S2). unfold stands_on in S1. rewrite (gi_ns _ _ _ _ G) in S1, S2. apply py_index_ok in S1. unfold nst in *. lia. }
  assert (AM : forall c, (k = Hex -> c = Some coords) -> agent_markers k shape c e = Ok (map pos (e_agents e))).
  { intros c Hc. unfold agent_markers. apply mapM_total. intros a Ha. destruct (ST a Ha) as [E1 E2]. rewrite E1. unfold pos. cbv zeta. destruct k.
    - rewrite position_square by exact E2. reflexivity.
    - rewrite (Hc eq_refl), (position_hex 1%R shape [] coords _ D E2). reflexivity. }
  assert (EP : exists layers, env_plot k e = Ok (layers, map pos (e_agents e))).
  { unfold env_plot. rewrite SH. destruct k.
    - unfold feature_layers. rewrite E. cbn [bind]. rewrite AM by discriminate. cbn [bind]. eauto.
    - unfold hex_plot. rewrite SH. unfold feature_layers. rewrite E. cbn [bind]. change (n1 (A:=R)) with 1%R. rewrite D. cbn [bind fst snd]. rewrite AM by reflexivity. cbn [bind]. eauto. }
  destruct EP as [layers EP]. exists layers, (map pos (e_agents e)). split; [exact EP|]. split; [apply map_length|]. intros i a s Ha Hs. rewrite nth_error_map, Ha. cbn [option_map]. f_equal. unfold pos. cbv zeta.
  assert (Ia : In a (e_agents e)) by (eapply nth_error_In; eauto). destruct (ST a Ia) as [E1 E2]. unfold stands_on in Hs. rewrite (gi_ns _ _ _ _ G) in Hs. rewrite E1, py_index_nat in Hs by exact E2. assert (s = Z.to_nat (at_pos a)) by congruence. subst s. reflexivity.
Qed.

(** An agent placed by a negative index stands on a state but cannot be drawn: the environment cannot be
    plotted at all. *)
Theorem C100_negative_refuted : forall pl e shape k a, reachable pl e -> m_shape (e_mdp e) = Some shape -> In a (e_agents e) -> (at_pos a < 0)%Z ->
  (exists s, stands_on (e_mdp e) (at_pos a) s) /\ exists x, env_plot k e = Err x.
Proof.
  intros pl e shape k a RE SH Ha NN. split; [destruct (C16_on_a_state pl e a RE Ha) as (s & S1 & _); eauto|].
  assert (SP : forall c, state_to_position (A:=R) k shape c (at_pos a) = Err ValueError).
  { intros c. unfold state_to_position, state_to_idx. destruct (Z.leb_spec 0 (at_pos a)); [lia|]. reflexivity. }
  assert (AM : forall c, exists x, agent_markers k shape c e = Err x).
  { intros c. unfold agent_markers. induction (e_agents e) as [|b l IH]; [destruct Ha|]. cbn [mapM]. destruct (state_to_position k shape c (at_pos b)) eqn:EB; [|cbn; eauto]. cbn [bind].
    destruct Ha as [->|Ha]; [rewrite SP in EB; discriminate|]. destruct (IH Ha) as [x ->]. cbn. eauto. }
  unfold env_plot. rewrite SH. destruct k.
  - destruct (feature_layers (e_mdp e)); cbn [bind]; [|eauto]. destruct (AM None) as [x ->]. cbn. eauto.
  - destruct (hex_plot (e_mdp e)) as [lc|]; cbn [bind]; [|eauto]. destruct (AM (Some (snd lc))) as [x ->]. cbn. eauto.
Qed.
(** Such environments exist, for every grid with at least one state. *)
Theorem C100_negative_exists : forall pl k feats w0 shape st m0, grid_mdp (A:=R) k feats w0 shape st = Ok m0 ->
  exists m' e a, make_env m0 [mkSpec "a"%string 1 None (-1) (repeat 0%R (length feats + 1)) []] = (m', Ok e) /\ reachable pl e /\ m_shape (e_mdp e) = Some shape /\ In a (e_agents e) /\ at_pos a = (-1)%Z.
Proof.
  intros pl k feats w0 shape st m0 H. pose proof (usable_grid pl _ _ _ _ _ _ [] H) as U. change (after_wall_calls m0 []) with m0 in U.
  destruct (grid_clean _ _ _ _ _ _ [] H) as (C & _ & F & N). change (after_wall_calls m0 []) with m0 in *. pose proof (cl_grid _ _ _ _ C) as G. set (ss := [mkSpec "a"%string 1 None (-1) (repeat 0%R (length feats + 1)) []]).
  assert (V : forall s, In s ss -> valid_entry (n_ordinary m0) (length ss) (m_n_states m0) s).
  { intros s [<-|[]]. split; [|split].
    - cbn [sp_reward]. rewrite repeat_length. unfold n_ordinary. destruct (cl_table _ _ _ _ C) as [T _]. rewrite T, F, N. cbn [length ss]. lia.
    - intros z [].
    - cbn [sp_pos]. rewrite (gi_ns _ _ _ _ G). pose proof (gi_pos _ _ _ _ G). lia. }
  destruct (proj2 (C17_accepts_iff pl m0 ss U) V) as (m' & e & E). exists m', e. assert (ND : NoDup (map sp_name ss)) by (repeat constructor; intros []).
  destruct (C17_result pl m0 ss m' e U ND E) as (_ & _ & _ & _ & _ & R6 & _). destruct (R6 0 _ eq_refl) as (a & Ea & FR & _). exists a. split; [exact E|]. pose proof (reach_new pl m0 ss m' e U E) as RE. split; [exact RE|].
  destruct (reachable_wf _ _ RE) as (k' & shape' & st' & W). split; [|split; [eapply nth_error_In; eauto|]].
  - destruct (make_env_ok k shape st m0 ss C V) as (m2 & C0 & _ & _ & _ & _ & _ & _ & _ & _ & E'). rewrite E in E'. inversion E'. cbn [e_mdp extended m_shape]. exact (gi_shape _ _ _ _ (cl_grid _ _ _ _ C0)).
  - destruct FR as (_ & _ & _ & _ & _ & _ & _ & _ & X & _). exact X.
Qed.

(** The numbers of [plot_sequence] count the states from 1. *)
Theorem C100_labels : forall k shape (coords : coords_attr) traj labels, sequence_labels (A:=R) k shape coords traj = Ok labels ->
  length labels = length traj /\ forall i s, nth_error traj i = Some s -> exists p, state_to_position k shape coords s = Ok p /\ nth_error labels i = Some ((fst p - 1 / 4, snd p - 1 / 4)%R, i + 1).
Proof.
  intros k shape coords traj labels H. unfold sequence_labels in H. apply bind_ok in H. destruct H as (ps & EP & H).
  match type of H with Ok ?X = _ => assert (EL : labels = X) by congruence end. subst labels. clear H.
  assert (N : length ps = length traj /\ forall i s, nth_error traj i = Some s -> state_to_position k shape coords s = Ok (nth i ps (0, 0)%R)).
  { revert ps EP. induction traj as [|s0 traj IH]; intros ps EP; cbn [mapM] in EP.
    - assert (ps = []) by congruence. subst ps. split; [reflexivity|]. intros [|i] s Hi; discriminate.
    - apply bind_ok in EP. destruct EP as (p & E1 & EP). apply bind_ok in EP. destruct EP as (ps' & E2 & EP). assert (ps = p :: ps') by congruence. subst ps.
      destruct (IH ps' E2) as [L IH']. split; [cbn; lia|]. intros [|i] s Hi; [cbn in Hi; cbn [nth]; congruence|]. cbn [nth nth_error] in *. now apply IH'. }
  destruct N as [L N]. split; [rewrite map_length, combine_length, seq_length; lia|]. intros i s Hi. assert (LI : i < length ps) by (apply (Nat.lt_le_trans _ (length traj)); [apply nth_error_Some; congruence|apply Nat.eq_le_incl; symmetry; exact L]).
  exists (nth i ps (0, 0)%R). split; [now apply N|]. rewrite nth_error_map.
  rewrite (nth_error_nth' _ (0, (0, 0)%R)) by (rewrite combine_length, seq_length; lia). rewrite combine_nth by apply seq_length. rewrite seq_nth by exact LI. cbn [Nat.add option_map].
  unfold point in *. destruct (nth i ps (0, 0)%R) as [x y]. cbn [fst snd nsub ndiv nofZ n1 NumR]. reflexivity.
Qed.

(** ** C101: values are mapped to colours in order *)

Lemma somes_in : forall (l : list (option R)) x, In x (somes l) <-> In (Some x) l.
Proof.
  induction l as [|[y|] l IH]; intros x; cbn [somes In]; [tauto| |].
  - rewrite IH. split; (intros [E|H]; [left; congruence|now right]).
  - rewrite IH. split; [now right|]. intros [E|H]; [discriminate|exact H].
Qed.
Lemma min_list_spec : forall (l : list R) x, (min_list x l <= x)%R /\ (forall y, In y l -> (min_list x l <= y)%R) /\ (min_list x l = x \/ In (min_list x l) l).
Proof.
  induction l as [|y l IH]; intros x; unfold min_list; cbn [fold_left]; [split; [lra|]; split; [intros y []|now left]|].
  fold (min_list (if nltb y x then y else x) l). destruct (IH (if nltb y x then y else x)) as (H1 & H2 & H3). cbn [nltb NumR] in *. destruct (Rltb y x) eqn:E; [apply Rltb_true in E|apply Rltb_false in E].
  - split; [lra|]. split; [intros z [<-|Hz]; [lra|now apply H2]|]. right. destruct H3 as [->|H3]; [now left|now right].
  - split; [lra|]. split; [intros z [<-|Hz]; [lra|now apply H2]|]. destruct H3 as [->|H3]; [now left|right; now right].
Qed.
Lemma max_list_spec : forall (l : list R) x, (x <= max_list x l)%R /\ (forall y, In y l -> (y <= max_list x l)%R) /\ (max_list x l = x \/ In (max_list x l) l).
Proof.
  induction l as [|y l IH]; intros x; unfold max_list; cbn [fold_left]; [split; [lra|]; split; [intros y []|now left]|].
  fold (max_list (if nltb x y then y else x) l). destruct (IH (if nltb x y then y else x)) as (H1 & H2 & H3). cbn [nltb NumR] in *. destruct (Rltb x y) eqn:E; [apply Rltb_true in E|apply Rltb_false in E].
  - split; [lra|]. split; [intros z [<-|Hz]; [lra|now apply H2]|]. right. destruct H3 as [->|H3]; [now left|now right].
  - split; [lra|]. split; [intros z [<-|Hz]; [lra|now apply H2]|]. destruct H3 as [->|H3]; [now left|right; now right].
Qed.

(** The largest and smallest number in an array, NaN aside. *)
Definition smallest (l : list (option R)) (m : R) : Prop := In (Some m) l /\ forall x, In (Some x) l -> (m <= x)%R.
Definition largest (l : list (option R)) (m : R) : Prop := In (Some m) l /\ forall x, In (Some x) l -> (x <= m)%R.

(** If the numbers are not all equal, each is mapped linearly into [0, 1]: the smallest to 0, the
    largest to 1; NaN stays NaN. *)
Theorem C101_range : forall l lo hi, smallest l lo -> largest l hi -> (lo < hi)%R ->
  normalise l = map (option_map (fun x => (x - lo) / (hi - lo))%R) l /\ (forall x, In (Some x) l -> (0 <= (x - lo) / (hi - lo) <= 1)%R).
Proof.
  intros l lo hi [L1 L2] [H1 H2] LT. split.
  - unfold normalise. destruct (somes l) as [|x r] eqn:E; [apply somes_in in L1; rewrite E in L1; destruct L1|].
    destruct (min_list_spec r x) as (M1 & M2 & M3). set (mn := min_list x r) in *.
    assert (IN : forall y, In (Some y) l <-> (y = x \/ In y r)). { intros y. rewrite <- somes_in, E. cbn. split; (intros [X|X]; [left; congruence|now right]). }
    assert (EL : mn = lo). { apply Rle_antisym; [apply IN in L1; destruct L1 as [->|L1]; [exact M1|now apply M2]|]. apply L2, IN. exact M3. }
    rewrite EL in *. destruct (max_list_spec (map (fun y => (y - lo)%R) r) (x - lo)%R) as (X1 & X2 & X3). change (nsub x lo) with (x - lo)%R. change (fun y : R => nsub y lo) with (fun y : R => (y - lo)%R). set (mx := max_list (x - lo)%R (map (fun y : R => (y - lo)%R) r)) in *.
    assert (EM : mx = (hi - lo)%R).
    { apply Rle_antisym.
      - destruct X3 as [->|X3]; [assert (x <= hi)%R by (apply H2, IN; now left); lra|]. apply in_map_iff in X3. destruct X3 as (y & <- & Hy). assert (y <= hi)%R by (apply H2, IN; now right). lra.
      - apply IN in H1. destruct H1 as [->|H1]; [exact X1|]. apply X2, in_map_iff. exists hi. auto. }
    rewrite EM. cbn [neqb n0 NumR ndiv nsub]. destruct (Reqb (hi - lo) 0) eqn:EQ; [apply Reqb_true in EQ; lra|]. apply map_ext. intros [y|]; reflexivity.
  - intros x Hx. specialize (L2 x Hx). specialize (H2 x Hx). split; [apply Rmult_le_pos; [lra|left; apply Rinv_0_lt_compat; lra]|]. apply (Rmult_le_reg_r (hi - lo)); [lra|]. unfold Rdiv. rewrite Rmult_assoc, Rinv_l by lra. lra.
Qed.

(** If they are all equal, every colour value is NaN. *)
Theorem C101_constant_refuted : forall l c, (forall x, In (Some x) l -> x = c) -> normalise (A:=R) l = map (fun _ => None) l.
Proof.
  intros l c H. unfold normalise. destruct (somes l) as [|x r] eqn:E; [reflexivity|].
  assert (IN : forall y, y = x \/ In y r -> y = c). { intros y Hy. apply H, somes_in. rewrite E. destruct Hy as [->|Hy]; [now left|now right]. }
  destruct (min_list_spec r x) as (_ & _ & M). apply IN in M. rewrite M. assert (x = c) by (apply IN; now left). subst x.
  destruct (max_list_spec (map (fun y => nsub y c) r) (nsub c c)) as (_ & _ & X). assert (EX : max_list (nsub c c) (map (fun y => nsub y c) r) = 0%R).
  { destruct X as [->|X]; [cbn; ring|]. apply in_map_iff in X. destruct X as (y & <- & Hy). rewrite (IN y) by (now right). cbn. ring. }
  rewrite EX. cbn [neqb n0 NumR]. destruct (Reqb 0 0) eqn:EQ; [|apply Reqb_false in EQ; congruence]. apply map_ext. now intros [y|].
Qed.
Example C101_example : smallest [Some 2; None; Some 5; Some 2]%R 2%R /\ largest [Some 2; None; Some 5; Some 2]%R 5%R.
Proof. split; (split; [cbn; tauto|]; intros x Hx; cbn in Hx; destruct Hx as [E|[E|[E|[E|[]]]]]; inversion E; lra). Qed.
