(** Properties C01-C04: coordinates, distance, adjacency, actions. *)
From Coq Require Import List ZArith QArith Bool Lia Sorting.Sorted.
From Verif Require Import PyBase PyProofs GridModel GridSpec GridProofs GridProofs2 MDPModel MDPSpec MDPProofs.
Import ListNotations.
Local Close Scope Q_scope.
Local Open Scope Z_scope.

(** ** C01 *)

(** Converting a state id to coordinates and back is the identity on valid ids; anything else raises. *)
Theorem C01_state_roundtrip : forall shape s,
  (0 <= s < Z.of_nat (fst shape * snd shape) ->
     exists c, state_to_idx shape s = Ok c /\ in_grid shape c /\ c = cell_of shape (Z.to_nat s) /\
               idx_to_state shape c = Ok s) /\
  (~ 0 <= s < Z.of_nat (fst shape * snd shape) -> state_to_idx shape s = Err ValueError).
Proof.
  intros [w h] s. unfold state_to_idx. cbn [fst snd]. split.
  - intros H. destruct (Z.leb_spec 0 s); [|lia]. destruct (Z.ltb_spec s (Z.of_nat (w * h))); [|lia].
    cbn [andb]. eexists. split; [reflexivity|].
    assert (Hh : 0 < Z.of_nat h) by nia.
    assert (E : (s / Z.of_nat h, s mod Z.of_nat h) = cell_of (w, h) (Z.to_nat s)).
    { unfold cell_of. cbn [snd]. rewrite Nat2Z.inj_div, Nat2Z.inj_mod, Z2Nat.id by lia. reflexivity. }
    split; [rewrite E; apply cell_of_in; cbn [fst snd]; lia|]. split; [exact E|].
    pose proof (Z.mod_pos_bound s (Z.of_nat h) Hh). pose proof (Z_div_mod_eq_full s (Z.of_nat h)).
    assert (0 <= s / Z.of_nat h) by (apply Z.div_pos; lia).
    assert (s / Z.of_nat h < Z.of_nat w) by (apply Z.div_lt_upper_bound; lia).
    unfold idx_to_state. cbn [fst snd].
    destruct (Z.leb_spec 0 (s / Z.of_nat h)); [|lia]. destruct (Z.ltb_spec (s / Z.of_nat h) (Z.of_nat w)); [|lia].
    destruct (Z.leb_spec 0 (s mod Z.of_nat h)); [|lia]. destruct (Z.ltb_spec (s mod Z.of_nat h) (Z.of_nat h)); [|lia].
    cbn [andb]. f_equal. lia.
  - intros H. destruct (Z.leb_spec 0 s); [|reflexivity]. destruct (Z.ltb_spec s (Z.of_nat (w * h))); [lia|reflexivity].
Qed.

(** Converting coordinates to a state id and back is the identity on cells of the grid; anything else raises. *)
Theorem C01_idx_roundtrip : forall shape c,
  (in_grid shape c ->
     exists s, idx_to_state shape c = Ok s /\ 0 <= s < Z.of_nat (fst shape * snd shape) /\
               state_to_idx shape s = Ok c) /\
  (~ in_grid shape c -> idx_to_state shape c = Err ValueError).
Proof.
  intros [w h] [x y]. unfold in_grid, idx_to_state. cbn [fst snd]. split.
  - intros [Hx Hy].
    destruct (Z.leb_spec 0 x); [|lia]. destruct (Z.ltb_spec x (Z.of_nat w)); [|lia].
    destruct (Z.leb_spec 0 y); [|lia]. destruct (Z.ltb_spec y (Z.of_nat h)); [|lia].
    cbn [andb]. eexists. split; [reflexivity|]. assert (B : 0 <= x * Z.of_nat h + y < Z.of_nat (w * h)) by nia.
    split; [exact B|]. unfold state_to_idx. cbn [fst snd].
    destruct (Z.leb_spec 0 (x * Z.of_nat h + y)); [|lia]. destruct (Z.ltb_spec (x * Z.of_nat h + y) (Z.of_nat (w * h))); [|lia].
    cbn [andb]. f_equal. rewrite Z.div_add_l by lia. rewrite Z.div_small by lia.
    rewrite (Z.add_comm (x * Z.of_nat h)), Z.mod_add by lia. rewrite Z.mod_small by lia. f_equal; lia.
  - intros H. destruct (Z.leb_spec 0 x); [|reflexivity]. destruct (Z.ltb_spec x (Z.of_nat w)); [|reflexivity].
    destruct (Z.leb_spec 0 y); [|reflexivity]. destruct (Z.ltb_spec y (Z.of_nat h)); [lia|reflexivity].
Qed.

(** The coordinate table built at construction lists, for each id 0..W*H-1, the coordinates that
    [state_to_idx] gives. *)
Theorem C01_coordinate_table : forall A (NA : Num A) shape,
  let ids := fst (grid_coords (zero_grid (A:=A) shape)) in
  let coords := snd (grid_coords (zero_grid (A:=A) shape)) in
  ids = seq 0 (fst shape * snd shape) /\ length coords = (fst shape * snd shape)%nat /\
  forall s, (s < fst shape * snd shape)%nat -> state_to_idx shape (Z.of_nat s) = Ok (nth s coords (0, 0)).
Proof.
  intros A NA shape. cbv zeta. pose proof (coords_length (A:=A) shape) as L. split.
  - unfold grid_coords in *. cbn [fst snd] in *. now rewrite L.
  - split; [exact L|]. intros s Hs. rewrite coords_nth by assumption.
    destruct (C01_state_roundtrip shape (Z.of_nat s)) as [H _]. destruct H as (c & E & _ & Ec & _); [lia|].
    rewrite E, Ec, Nat2Z.id. reflexivity.
Qed.

(** In general (grids with NaN holes) the table lists exactly the non-NaN cells, in row-major order. *)
Definition lex_lt (c t : Z * Z) : Prop := fst c < fst t \/ (fst c = fst t /\ snd c < snd t).

Lemma row_coords_in : forall A (row : list (fval A)) x y u v,
  In (u, v) (row_coords x y row) <->
  u = x /\ y <= v < y + Z.of_nat (length row) /\ isnan (nth (Z.to_nat (v - y)) row NaN) = false.
Proof.
  induction row as [|a row IH]; intros x y u v; cbn [row_coords length].
  - cbn [In]. split; [tauto|lia].
  - assert (K : In (u, v) (row_coords x (y + 1) row) <-> u = x /\ y + 1 <= v < y + Z.of_nat (S (length row)) /\
        isnan (nth (Z.to_nat (v - y)) (a :: row) NaN) = false).
    { rewrite IH. split; intros (H1 & H2 & H3); (split; [exact H1|]); (split; [lia|]).
      - replace (Z.to_nat (v - y)) with (S (Z.to_nat (v - (y + 1)))) by lia. exact H3.
      - replace (Z.to_nat (v - y)) with (S (Z.to_nat (v - (y + 1)))) in H3 by lia. exact H3. }
    destruct (isnan a) eqn:E; cbn [In]; rewrite K.
    + split; [intros (H1 & H2 & H3); repeat split; try tauto; lia|].
      intros (H1 & H2 & H3). split; [exact H1|]. split; [|exact H3].
      destruct (Z.eq_dec v y) as [->|]; [|lia]. rewrite Z.sub_diag in H3. cbn in H3. congruence.
    + split.
      * intros [H|(H1 & H2 & H3)]; [inversion H; subst|repeat split; try tauto; lia].
        rewrite Z.sub_diag. repeat split; try lia. exact E.
      * intros (H1 & H2 & H3). destruct (Z.eq_dec v y) as [->|]; [left; now subst|right].
        repeat split; try tauto; lia.
Qed.

Lemma rows_coords_in : forall A (g : list (list (fval A))) x u v,
  In (u, v) (rows_coords x g) <->
  x <= u < x + Z.of_nat (length g) /\ 0 <= v < Z.of_nat (length (nth (Z.to_nat (u - x)) g [])) /\
  isnan (nth (Z.to_nat v) (nth (Z.to_nat (u - x)) g []) NaN) = false.
Proof.
  induction g as [|row g IH]; intros x u v; cbn [rows_coords length].
  - cbn [In]. split; [tauto|lia].
  - rewrite in_app_iff, row_coords_in, IH. split.
    + intros [(H1 & H2 & H3)|(H1 & H2 & H3)].
      * subst. rewrite Z.sub_diag. cbn [nth Z.to_nat]. rewrite Z.sub_0_r in H3. repeat split; try lia. exact H3.
      * replace (Z.to_nat (u - x)) with (S (Z.to_nat (u - (x + 1)))) by lia. cbn [nth]. repeat split; try lia. exact H3.
    + intros (H1 & H2 & H3). destruct (Z.eq_dec u x) as [->|].
      * left. rewrite Z.sub_diag in *. cbn [nth Z.to_nat] in *. rewrite Z.sub_0_r. repeat split; try lia. exact H3.
      * right. replace (Z.to_nat (u - x)) with (S (Z.to_nat (u - (x + 1)))) in * by lia. cbn [nth] in *.
        repeat split; try lia. exact H3.
Qed.

Lemma row_coords_sorted : forall A (row : list (fval A)) x y,
  StronglySorted lex_lt (row_coords x y row).
Proof.
  induction row; intros; cbn [row_coords]; [constructor|]. destruct (isnan a); [apply IHrow|].
  constructor; [apply IHrow|]. apply Forall_forall. intros [u v] H. apply row_coords_in in H.
  right. cbn. lia.
Qed.

Lemma StronglySorted_app : forall (l1 l2 : list (Z * Z)), StronglySorted lex_lt l1 ->
  StronglySorted lex_lt l2 -> (forall a b, In a l1 -> In b l2 -> lex_lt a b) ->
  StronglySorted lex_lt (l1 ++ l2).
Proof.
  induction l1; intros l2 H1 H2 H; [exact H2|]. inversion H1; subst. simpl. constructor.
  - apply IHl1; auto. intros; apply H; [now right|assumption].
  - apply Forall_app. split; [assumption|]. apply Forall_forall. intros. apply H; [now left|assumption].
Qed.

Theorem C01_coordinates_of_holed_grid : forall A (g : list (list (fval A))),
  let ids := fst (grid_coords g) in let coords := snd (grid_coords g) in
  ids = seq 0 (length coords) /\ StronglySorted lex_lt coords /\
  forall x y, In (x, y) coords <->
    0 <= x < Z.of_nat (length g) /\ 0 <= y < Z.of_nat (length (nth (Z.to_nat x) g [])) /\
    nth (Z.to_nat y) (nth (Z.to_nat x) g []) NaN <> NaN.
Proof.
  intros A g. cbv zeta. split; [reflexivity|]. unfold grid_coords. cbn [snd]. split.
  - generalize 0 as x. induction g; intros x; cbn [rows_coords]; [constructor|].
    apply StronglySorted_app; [apply row_coords_sorted|apply IHg|].
    intros [p q] [u v] H1 H2. apply row_coords_in in H1. apply rows_coords_in in H2. left. cbn. lia.
  - intros x y. rewrite rows_coords_in, Z.sub_0_r.
    assert (E : forall v : fval A, isnan v = false <-> v <> NaN) by (intros [| | |]; simpl; intuition congruence).
    rewrite E. intuition lia.
Qed.

(** Reshaping a per-state vector puts the value of state [idx_to_state (x, y)] at row x, column y. *)
Lemma chunks_nth : forall B k h (l : list B) x y d, length l = (k * h)%nat -> (x < k)%nat -> (y < h)%nat ->
  nth y (nth x (chunks k h l) []) d = nth (x * h + y) l d.
Proof.
  induction k; intros h l x y d L Hx Hy; [lia|]. cbn [chunks]. destruct x; cbn [nth].
  - rewrite <- (firstn_skipn h l) at 2. rewrite app_nth1; [reflexivity|]. rewrite firstn_length. lia.
  - rewrite IHk; [|rewrite skipn_length; lia|lia|assumption].
    rewrite <- (firstn_skipn h l) at 2. rewrite app_nth2; rewrite firstn_length; [f_equal; lia|lia].
Qed.
Lemma chunks_shape : forall B k h (l : list B), length l = (k * h)%nat -> shape2 k h (chunks k h l).
Proof.
  induction k; intros h l L; cbn [chunks].
  - split; [reflexivity|]. intros; lia.
  - destruct (IHk h (skipn h l)) as [L1 H1]; [rewrite skipn_length; lia|]. split; [simpl; lia|].
    intros [|i] Hi; cbn [nth]; [rewrite firstn_length; lia|apply H1; lia].
Qed.

Theorem C01_reshape : forall B shape (values : list B),
  (length values <> fst shape * snd shape)%nat /\ flat_to_grid shape values = Err ValueError \/
  (length values = fst shape * snd shape)%nat /\
  exists g, flat_to_grid shape values = Ok g /\ shape2 (fst shape) (snd shape) g /\
    forall x y d, in_grid shape (x, y) -> exists s, idx_to_state shape (x, y) = Ok s /\
      get2 d g (Z.to_nat x) (Z.to_nat y) = nth (Z.to_nat s) values d.
Proof.
  intros B [w h] values. unfold flat_to_grid. cbn [fst snd].
  destruct (Nat.eqb_spec (length values) (w * h)) as [L|L]; [right|left; auto].
  split; [exact L|]. eexists. split; [reflexivity|]. split; [now apply chunks_shape|].
  intros x y d H. unfold in_grid in H. cbn [fst snd] in H.
  assert (E : idx_to_state (w, h) (x, y) = Ok (x * Z.of_nat h + y)).
  { unfold idx_to_state. cbn [fst snd].
    destruct (Z.leb_spec 0 x); [|lia]. destruct (Z.ltb_spec x (Z.of_nat w)); [|lia].
    destruct (Z.leb_spec 0 y); [|lia]. destruct (Z.ltb_spec y (Z.of_nat h)); [reflexivity|lia]. }
  exists (x * Z.of_nat h + y). split; [exact E|].
  unfold get2. rewrite chunks_nth by lia. f_equal. nia.
Qed.

(** [features_as_grid] reshapes every feature row the same way. *)
Theorem C01_features_as_grid : forall A (m : mdp A) shape gs, m_shape m = Some shape ->
  features_as_grid m = Ok gs ->
  length gs = length (m_features m) /\
  forall f x y d, (f < length (m_features m))%nat -> in_grid shape (x, y) ->
    exists s, idx_to_state shape (x, y) = Ok s /\
      get3 d gs f (Z.to_nat x) (Z.to_nat y) = get2 d (m_features m) f (Z.to_nat s).
Proof.
  intros A m shape gs SH H. unfold features_as_grid in H. rewrite SH in H.
  generalize dependent gs. induction (m_features m) as [|row l IH]; intros gs H; simpl in H.
  - inversion H. split; [reflexivity|]. simpl. intros; lia.
  - apply bind_ok in H. destruct H as (g & E & H). apply bind_ok in H. destruct H as (gs' & E' & H). inversion H. subst.
    destruct (IH gs' E') as [L IH2]. split; [simpl; lia|]. intros [|f] x y d Hf HI.
    + destruct (C01_reshape A shape row) as [[_ E1]|[_ (g' & E1 & _ & H1)]]; rewrite E1 in E; [discriminate|].
      inversion E. subst. destruct (H1 x y d HI) as (s & Es & G). exists s. split; [exact Es|]. exact G.
    + apply (IH2 f x y d); [simpl in Hf; lia|exact HI].
Qed.

Example C01_example : state_to_idx (3, 4)%nat 7 = Ok (1, 3) /\ idx_to_state (3, 4)%nat (1, 3) = Ok 7
  /\ idx_to_state (3, 4)%nat (1, 4) = Err ValueError
  /\ flat_to_grid (2, 3)%nat [10; 11; 12; 13; 14; 15] = Ok [[10; 11; 12]; [13; 14; 15]]
  /\ snd (grid_coords [[Fin 0; NaN]; [NaN; Fin 5]]) = [(0, 0); (1, 1)].
Proof. repeat split; reflexivity. Qed.

(** ** C02 *)

(** The distance is always defined, integral, and is the length of a shortest walk. *)
Theorem C02_shortest_walk : forall x1 y1 x2 y2,
  exists q n, offset_distance x1 y1 x2 y2 = Ok q /\ (q == inject_Z (Z.of_nat n))%Q /\
    walk hex_move 6 everywhere n (x1, y1) (x2, y2) /\
    forall k, walk hex_move 6 everywhere k (x1, y1) (x2, y2) -> (n <= k)%nat.
Proof.
  intros. exists ((2 * hexd (x1, y1) (x2, y2)) # 2)%Q, (Z.to_nat (hexd (x1, y1) (x2, y2))).
  pose proof (hexd_nonneg (x1, y1) (x2, y2)).
  split; [apply offset_distance_hexd|]. split; [rewrite Z2Nat.id by assumption; apply half_inject|]. split.
  - apply hex_walk_exists; [apply everywhere_convex|exact I|exact I|lia].
  - intros k W. apply hex_walk_lower in W. lia.
Qed.

(** Metric laws. *)
Theorem C02_metric : forall x1 y1 x2 y2 x3 y3 d12 d21 d23 d13,
  offset_distance x1 y1 x2 y2 = Ok d12 -> offset_distance x2 y2 x1 y1 = Ok d21 ->
  offset_distance x2 y2 x3 y3 = Ok d23 -> offset_distance x1 y1 x3 y3 = Ok d13 ->
  (0 <= d12)%Q /\ ((d12 == 0)%Q <-> (x1, y1) = (x2, y2)) /\ (d12 == d21)%Q /\ (d13 <= d12 + d23)%Q.
Proof.
  intros x1 y1 x2 y2 x3 y3 d12 d21 d23 d13. rewrite !offset_distance_hexd. intros E1 E2 E3 E4.
  assert (OI : forall a b : Q, Ok a = Ok b -> b = a) by congruence.
  apply OI in E1, E2, E3, E4. subst d12 d21 d23 d13.
  pose proof (hexd_nonneg (x1, y1) (x2, y2)). pose proof (hexd_sym (x1, y1) (x2, y2)).
  pose proof (hexd_tri (x1, y1) (x2, y2) (x3, y3)).
  split; [rewrite half_inject; change 0%Q with (inject_Z 0); rewrite <- Zle_Qle; assumption|]. split; [|split].
  - change 0%Q with (inject_Z 0). rewrite half_eq. split; [apply hexd_zero|intros E; rewrite E; apply hexd_refl].
  - rewrite H0. reflexivity.
  - rewrite !half_inject, <- inject_Z_plus, <- Zle_Qle. exact H1.
Qed.

(** The distance matrix contains these distances. *)
Theorem C02_distance_matrix : forall XA XB, exists D, hex_dist XA XB = Ok D /\
  shape2 (length XA) (length XB) D /\
  forall i j, (i < length XA)%nat -> (j < length XB)%nat ->
   offset_distance (fst (nth i XA (0, 0))) (snd (nth i XA (0, 0))) (fst (nth j XB (0, 0))) (snd (nth j XB (0, 0)))
   = Ok (get2 0%Q D i j).
Proof.
  intros. rewrite hex_dist_total. eexists. split; [reflexivity|]. split.
  - split; [apply map_length|]. intros. rewrite (nth_map_lt _ _ _ _ _ _ (0, 0)) by assumption. apply map_length.
  - intros. rewrite offset_distance_hexd. unfold get2. rewrite (nth_map_lt _ _ _ _ _ _ (0, 0)) by assumption.
    rewrite (nth_map_lt _ _ _ _ _ _ (0, 0)) by assumption.
    destruct (nth i XA (0, 0)), (nth j XB (0, 0)). reflexivity.
Qed.

(** The length check does not do what its message says: second arguments of length 7 are accepted
    (operator precedence of [==] and [&]). *)
Theorem C02_length_check_refuted : exists a b, length b <> 3%nat /\ is_ok (cube_distance a b) = true.
Proof. exists [0; 0; 0], [0; 0; 0; 9; 9; 9; 9]. split; [discriminate|reflexivity]. Qed.

Example C02_example : offset_distance 0 0 3 (-2) = Ok (8 # 2)%Q /\ offset_distance 0 0 (-3) 4 = Ok (10 # 2)%Q.
Proof. split; reflexivity. Qed.

(** ** C03 *)
Theorem C03_hex_adjacency : forall coords, exists T, hex_adjacency coords = Ok T /\
  shape2 (length coords) (length coords) T /\
  forall i j, (i < length coords)%nat -> (j < length coords)%nat ->
    (get2 0 T i j = 0 \/ get2 0 T i j = 1) /\
    (get2 0 T i j = 1 <-> exists d, (d < 6)%nat /\ hex_move d (nth i coords (0, 0)) = nth j coords (0, 0)).
Proof.
  intros. rewrite hex_adjacency_total. eexists. split; [reflexivity|]. split.
  - split; [apply map_length|]. intros. rewrite (nth_map_lt _ _ _ _ _ _ (0, 0)) by assumption. apply map_length.
  - intros. rewrite (adj_entry (fun i j => if hex_adj i j then 1 else 0)) by assumption.
    rewrite <- hex_adj_move. destruct (hex_adj _ _); intuition congruence.
Qed.

Theorem C03_square_adjacency : forall coords, 
  shape2 (length coords) (length coords) (square_adjacency coords) /\
  forall i j, (i < length coords)%nat -> (j < length coords)%nat ->
    (get2 0 (square_adjacency coords) i j = 0 \/ get2 0 (square_adjacency coords) i j = 1) /\
    (get2 0 (square_adjacency coords) i j = 1 <->
     exists d, (d < 4)%nat /\ square_move d (nth i coords (0, 0)) = nth j coords (0, 0)).
Proof.
  intros. rewrite square_adjacency_total. split.
  - split; [apply map_length|]. intros. rewrite (nth_map_lt _ _ _ _ _ _ (0, 0)) by assumption. apply map_length.
  - intros. rewrite (adj_entry (fun i j => if sq_adj i j then 1 else 0)) by assumption.
    rewrite <- sq_adj_move. destruct (sq_adj _ _); intuition congruence.
Qed.

(** Symmetric, no cell adjacent to itself (both kinds). *)
Theorem C03_symmetric_irreflexive : forall k coords T, grid_adjacency k coords = Ok T ->
  forall i j, (i < length coords)%nat -> (j < length coords)%nat ->
    get2 0 T i j = get2 0 T j i /\ get2 0 T i i = 0.
Proof.
  intros k coords T H i j Hi Hj. rewrite grid_adjacency_total in H. inversion H. clear H H1.
  rewrite !(adj_entry (fun i j => if kadj k i j then 1 else 0)) by assumption. split.
  - assert (S : forall c t, kadj k c t = kadj k t c).
    { intros. destruct k; simpl; unfold sq_adj, hex_adj; f_equal; [unfold sqd; lia|apply hexd_sym]. }
    now rewrite S.
  - destruct k; simpl.
    + unfold sq_adj. replace (sqd (nth i coords (0, 0)) (nth i coords (0, 0))) with 0 by (unfold sqd; lia). reflexivity.
    + unfold hex_adj. now rewrite hexd_refl.
Qed.

(** The six (four) neighbours of a cell are different cells. *)
Theorem C03_neighbours_distinct : forall c,
  (forall a b, (a < 6)%nat -> (b < 6)%nat -> hex_move a c = hex_move b c -> a = b) /\
  (forall a b, (a < 4)%nat -> (b < 4)%nat -> square_move a c = square_move b c -> a = b).
Proof. intros c. split; intros a b; [apply hex_move_inj|apply square_move_inj]. Qed.

Example C03_example : hex_adjacency [(0, 0); (1, 0); (1, 1); (2, 0)]
  = Ok [[0; 1; 1; 0]; [1; 0; 1; 1]; [1; 1; 0; 1]; [0; 1; 1; 0]].
Proof. reflexivity. Qed.

(** ** C04 *)
(** Total on adjacent pairs, ValueError otherwise; the action is the direction. *)
Theorem C04_action_is_direction : forall k coords T, grid_adjacency k coords = Ok T ->
  forall i j, (i < length coords)%nat -> (j < length coords)%nat ->
    (forall a, get_action k i j T coords = Ok a <->
       (a < dirs_of k)%nat /\ move_of k a (nth i coords (0, 0)) = nth j coords (0, 0)) /\
    (get2 0 T i j = 1 -> exists a, get_action k i j T coords = Ok a) /\
    (get2 0 T i j = 0 -> get_action k i j T coords = Err ValueError).
Proof.
  intros k coords T H i j Hi Hj. rewrite grid_adjacency_total in H. inversion H as [HT]. clear H.
  pose proof (adj_entry (fun i j => if kadj k i j then 1 else 0) coords i j Hi Hj) as E.
  cbv beta in E. rewrite HT in E |- *.
  assert (S : forall a, _) by (intros a; exact (get_action_spec k i j T coords a Hi Hj E)).
  split; [intros a; apply S|]. rewrite E. split.
  - destruct (kadj k _ _) eqn:KA; [|discriminate]. intros _. apply kadj_move in KA. destruct KA as (d & Hd).
    exists d. now apply S.
  - destruct (kadj k _ _) eqn:KA; [discriminate|]. intros _. now apply (S 0%nat).
Qed.

(** Each hex action is one fixed displacement in cube coordinates, from every cell. *)
Theorem C04_action_is_displacement : forall a, exists dx dy dz, forall x y,
  forall cx cy cz, offset_to_cube x y = [cx; cy; cz] ->
  offset_to_cube (fst (hex_move a (x, y))) (snd (hex_move a (x, y))) = [cx + dx; cy + dy; cz + dz].
Proof.
  intros a.
  assert (D : exists dx dy dz, cube_dir a = [dx; dy; dz]).
  { do 5 (destruct a as [|a]; [do 3 eexists; reflexivity|]). do 3 eexists. destruct a; reflexivity. }
  destruct D as (dx & dy & dz & D). exists dx, dy, dz. intros x y cx cy cz E.
  pose proof (hex_move_cube a x y) as H. cbv zeta in H. rewrite H, E, D. reflexivity.
Qed.

(** The opposite action leads back. *)
Theorem C04_opposite_action : forall c,
  (forall a, (a < 6)%nat -> hex_move ((a + 3) mod 6) (hex_move a c) = c) /\
  (forall a, (a < 4)%nat -> square_move ((a + 2) mod 4) (square_move a c) = c).
Proof. intros c. split; intros a; [apply hex_move_back|apply square_move_back]. Qed.

(** ... so asking for the reverse action gives the opposite one. *)
Theorem C04_reverse_lookup : forall k coords T, grid_adjacency k coords = Ok T ->
  forall i j a, (i < length coords)%nat -> (j < length coords)%nat ->
    get_action k i j T coords = Ok a ->
    get_action k j i T coords = Ok (match k with Square => (a + 2) mod 4 | Hex => (a + 3) mod 6 end)%nat.
Proof.
  intros k coords T H i j a Hi Hj E.
  apply (C04_action_is_direction k coords T H i j Hi Hj) in E. destruct E as [La Ma].
  apply (C04_action_is_direction k coords T H j i Hj Hi). rewrite <- Ma.
  destruct k; cbn [dirs_of move_of] in *; (split; [apply Nat.mod_upper_bound; lia|]); [now apply square_move_back|now apply hex_move_back].
Qed.

Example C04_example : exists T, grid_adjacency Hex [(0, 0); (1, 0); (1, 1); (2, 0)] = Ok T /\
  get_action Hex 0 2 T [(0, 0); (1, 0); (1, 1); (2, 0)] = Ok 1%nat /\
  get_action Hex 2 0 T [(0, 0); (1, 0); (1, 1); (2, 0)] = Ok 4%nat /\
  get_action Hex 0 3 T [(0, 0); (1, 0); (1, 1); (2, 0)] = Err ValueError.
Proof. eexists. split; [reflexivity|]. repeat split; reflexivity. Qed.

Print Assumptions C01_state_roundtrip.
Print Assumptions C01_idx_roundtrip.
Print Assumptions C01_coordinate_table.
Print Assumptions C01_coordinates_of_holed_grid.
Print Assumptions C01_reshape.
Print Assumptions C01_features_as_grid.
Print Assumptions C02_shortest_walk.
Print Assumptions C02_metric.
Print Assumptions C02_distance_matrix.
Print Assumptions C03_hex_adjacency.
Print Assumptions C03_square_adjacency.
Print Assumptions C03_symmetric_irreflexive.
Print Assumptions C04_action_is_direction.
Print Assumptions C04_action_is_displacement.
Print Assumptions C04_opposite_action.
Print Assumptions C04_reverse_lookup.
