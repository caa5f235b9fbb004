From Coq Require Import List ZArith QArith Bool Lia.
From Verif Require Import PyBase PyProofs GridModel GridSpec GridProofs.
Import ListNotations.
Local Open Scope Z_scope.

(** * Walks *)
Lemma hex_walk_lower : forall inside n c t, walk hex_move 6 inside n c t -> hexd c t <= Z.of_nat n.
Proof.
  induction 1.
  - rewrite hexd_refl. lia.
  - pose proof (hexd_tri c (hex_move d c) c'). rewrite hex_move_dist1 in H2. lia.
Qed.

Definition box_convex (inside : Z * Z -> Prop) : Prop :=
  forall c t p, inside c -> inside t -> between (fst c) (fst t) (fst p) ->
    between (snd c) (snd t) (snd p) -> inside p.

Lemma in_grid_convex : forall sh, box_convex (in_grid sh).
Proof. intros sh c t p. unfold in_grid, between. lia. Qed.
Lemma everywhere_convex : box_convex everywhere.
Proof. intros c t p. unfold everywhere. auto. Qed.

Lemma cell_eq_dec : forall c t : Z * Z, {c = t} + {c <> t}.
Proof. intros [x y] [u v]. destruct (Z.eq_dec x u), (Z.eq_dec y v); subst; auto; right; congruence. Qed.

Lemma hex_walk_exists : forall inside, box_convex inside ->
  forall n c t, inside c -> inside t -> hexd c t = Z.of_nat n -> walk hex_move 6 inside n c t.
Proof.
  intros inside CV. induction n; intros c t Ic It H.
  - apply hexd_zero in H. subst. constructor.
  - assert (N : c <> t) by (intros ->; rewrite hexd_refl in H; lia).
    destruct (hex_progress c t N) as (d & L & P & B1 & B2).
    assert (I : inside (hex_move d c)) by (eapply CV; [exact Ic|exact It|exact B1|exact B2]).
    econstructor; [exact L|exact I|]. apply IHn; auto. rewrite P, H. lia.
Qed.

Definition sqd (c t : Z * Z) : Z := Z.abs (fst c - fst t) + Z.abs (snd c - snd t).

Lemma square_move_dist1 : forall d c, sqd c (square_move d c) = 1.
Proof. intros d [x y]. unfold sqd, square_move. do 3 (destruct d as [|d]; [simpl; lia|]). simpl. lia. Qed.

Lemma sqd_one_move : forall c t, sqd c t = 1 -> exists d, (d < 4)%nat /\ square_move d c = t.
Proof.
  intros [x y] [u v]. unfold sqd. cbn [fst snd]. intros H.
  assert (C : (u = x /\ v = y + 1) \/ (u = x + 1 /\ v = y) \/ (u = x /\ v = y - 1) \/ (u = x - 1 /\ v = y)) by lia.
  destruct C as [[-> ->]|[[-> ->]|[[-> ->]|[-> ->]]]];
    [exists 0%nat|exists 1%nat|exists 2%nat|exists 3%nat]; (split; [lia|reflexivity]).
Qed.

Lemma square_walk_lower : forall inside n c t, walk square_move 4 inside n c t -> sqd c t <= Z.of_nat n.
Proof.
  induction 1.
  - unfold sqd. lia.
  - pose proof (square_move_dist1 d c). unfold sqd in *. lia.
Qed.

Lemma square_progress : forall c t, c <> t -> exists d, (d < 4)%nat /\
  sqd (square_move d c) t = sqd c t - 1 /\
  between (fst c) (fst t) (fst (square_move d c)) /\ between (snd c) (snd t) (snd (square_move d c)).
Proof.
  intros [x y] [u v] N. unfold between, sqd, square_move.
  destruct (Z.lt_trichotomy x u) as [L|[E|L]].
  - exists 1%nat. cbn [fst snd]. lia.
  - subst. assert (y <> v) by congruence. destruct (Z_lt_le_dec y v).
    + exists 0%nat. cbn [fst snd]. lia.
    + exists 2%nat. cbn [fst snd]. lia.
  - exists 3%nat. cbn [fst snd]. lia.
Qed.

Lemma square_walk_exists : forall inside, box_convex inside ->
  forall n c t, inside c -> inside t -> sqd c t = Z.of_nat n -> walk square_move 4 inside n c t.
Proof.
  intros inside CV. induction n; intros c t Ic It H.
  - assert (c = t) by (destruct c, t; unfold sqd in H; cbn [fst snd] in H; f_equal; lia). subst. constructor.
  - assert (N : c <> t) by (intros ->; unfold sqd in H; lia).
    destruct (square_progress c t N) as (d & L & P & B1 & B2).
    assert (I : inside (square_move d c)) by (eapply CV; [exact Ic|exact It|exact B1|exact B2]).
    econstructor; [exact L|exact I|]. apply IHn; auto. rewrite P, H. lia.
Qed.

(** * Directions *)
Ltac dirs6 d := destruct d as [|d]; [|destruct d as [|d]; [|destruct d as [|d]; [|destruct d as [|d]; [|destruct d as [|d]; [|destruct d as [|d]; [|lia]]]]]].
Ltac dirs4 d := destruct d as [|d]; [|destruct d as [|d]; [|destruct d as [|d]; [|destruct d as [|d]; [|lia]]]].

Lemma hex_move_inj : forall a b c, (a < 6)%nat -> (b < 6)%nat -> hex_move a c = hex_move b c -> a = b.
Proof.
  intros a b [x y] La Lb. unfold hex_move.
  destruct (Z.even x); dirs6 a; dirs6 b; intros H; try reflexivity; exfalso; inversion H; lia.
Qed.

Lemma square_move_inj : forall a b c, (a < 4)%nat -> (b < 4)%nat -> square_move a c = square_move b c -> a = b.
Proof.
  intros a b [x y] La Lb. unfold square_move.
  dirs4 a; dirs4 b; intros H; try reflexivity; exfalso; inversion H; lia.
Qed.

Lemma hex_move_back : forall a c, (a < 6)%nat -> hex_move ((a + 3) mod 6) (hex_move a c) = c.
Proof.
  intros a [x y] L. unfold hex_move.
  destruct (Z.even x) eqn:E; dirs6 a; cbn [Nat.modulo Nat.add Nat.divmod fst snd Nat.sub];
    rewrite ?Z.even_add, ?Z.even_sub, ?E; cbn -[Z.add Z.sub]; f_equal; lia.
Qed.

Lemma square_move_back : forall a c, (a < 4)%nat -> square_move ((a + 2) mod 4) (square_move a c) = c.
Proof.
  intros a [x y] L. unfold square_move. dirs4 a; cbn -[Z.add Z.sub]; f_equal; lia.
Qed.

(** each direction is a fixed displacement of the cube coordinates *)
Definition cube_dir (a : nat) : list Z :=
  match a with
  | 0%nat => [0; -1; 1] | 1%nat => [1; -1; 0] | 2%nat => [1; 0; -1]
  | 3%nat => [0; 1; -1] | 4%nat => [-1; 1; 0] | _ => [-1; 0; 1]
  end.

Lemma hex_move_cube : forall a x y,
  let c' := hex_move a (x, y) in
  offset_to_cube (fst c') (snd c') =
  map (fun '(p, q) => p + q) (combine (offset_to_cube x y) (cube_dir a)).
Proof.
  intros. subst c'.
  assert (K : offset_to_cube (fst (hex_move a (x, y))) (snd (hex_move a (x, y))) =
     [fst (hex_move a (x, y)); - fst (hex_move a (x, y)) - qz (hex_move a (x, y)); qz (hex_move a (x, y))]).
  { unfold offset_to_cube, qz, sh. now rewrite land1. }
  assert (K0 : offset_to_cube x y = [x; - x - (y - sh x); y - sh x]).
  { unfold offset_to_cube, qz, sh. now rewrite land1. }
  rewrite K, K0. clear K K0. unfold hex_move, qz.
  assert (L3 : forall a b c a' b' c' : Z, a = a' -> b = b' -> c = c' -> [a; b; c] = [a'; b'; c']) by congruence.
  destruct (sh_step x) as [He Ho].
  destruct (Z.even x); [destruct (He eq_refl) as [P M]|destruct (Ho eq_refl) as [P M]];
  do 5 (destruct a as [|a]; [cbn [fst snd combine map cube_dir]; rewrite ?P, ?M; apply L3; lia|]);
  cbn [fst snd combine map cube_dir]; destruct a; rewrite ?P, ?M; apply L3; lia.
Qed.

(** * Adjacency matrices *)
Definition hex_adj (c t : Z * Z) : bool := hexd c t =? 1.
Definition sq_adj (c t : Z * Z) : bool := sqd c t =? 1.

Lemma hex_dist_total : forall XA XB,
  hex_dist XA XB = Ok (map (fun i => map (fun j => (2 * hexd i j) # 2) XB) XA).
Proof.
  intros. unfold hex_dist. apply mapM_total. intros [x1 y1] _.
  apply mapM_total. intros [x2 y2] _. cbn [fst snd]. apply offset_distance_hexd.
Qed.

Lemma hex_adjacency_total : forall coords,
  hex_adjacency coords = Ok (map (fun i => map (fun j => if hex_adj i j then 1 else 0) coords) coords).
Proof.
  intros. unfold hex_adjacency. rewrite hex_dist_total. cbn [bind]. f_equal.
  rewrite map_map. apply map_ext. intros i. rewrite map_map. apply map_ext. intros j.
  unfold hex_adj. destruct (Z.eqb_spec (hexd i j) 1) as [E|E].
  - rewrite E. reflexivity.
  - destruct (Qeq_bool ((2 * hexd i j) # 2) 1) eqn:Q; [|reflexivity].
    exfalso. apply E. apply Qeq_bool_eq in Q. now apply half_eq.
Qed.

Lemma square_adjacency_total : forall coords,
  square_adjacency coords = map (fun i => map (fun j => if sq_adj i j then 1 else 0) coords) coords.
Proof.
  intros. unfold square_adjacency. apply map_ext. intros [x y]. apply map_ext. intros [u v].
  unfold sq_adj, sqd. cbn [fst snd].
  generalize (x - u), (y - v). intros p q.
  destruct (Z.eqb_spec (p * p + q * q) 1) as [E|E];
  destruct (Z.eqb_spec (Z.abs p + Z.abs q) 1) as [F|F]; try reflexivity; exfalso.
  - apply F. clear F. assert (-1 <= p <= 1) by nia. assert (-1 <= q <= 1) by nia.
    assert (p = -1 \/ p = 0 \/ p = 1) as [G|[G|G]] by lia; rewrite G in *;
    assert (q = -1 \/ q = 0 \/ q = 1) as [K|[K|K]] by lia; rewrite K in *; lia.
  - apply E. clear E. assert (-1 <= p <= 1) by lia. assert (-1 <= q <= 1) by lia.
    assert (p = -1 \/ p = 0 \/ p = 1) as [G|[G|G]] by lia; rewrite G in *;
    assert (q = -1 \/ q = 0 \/ q = 1) as [K|[K|K]] by lia; rewrite K in *; lia.
Qed.

Lemma adj_entry : forall (f : Z * Z -> Z * Z -> Z) coords i j, (i < length coords)%nat -> (j < length coords)%nat ->
  get2 0 (map (fun i => map (fun j => f i j) coords) coords) i j = f (nth i coords (0, 0)) (nth j coords (0, 0)).
Proof.
  intros. unfold get2. rewrite (nth_map_lt _ _ _ _ _ _ (0, 0)) by assumption.
  now rewrite (nth_map_lt _ _ _ _ _ _ (0, 0)) by assumption.
Qed.

Lemma hex_adj_move : forall c t, hex_adj c t = true <-> exists d, (d < 6)%nat /\ hex_move d c = t.
Proof.
  intros. unfold hex_adj. rewrite Z.eqb_eq. split; [apply hexd_one_move|].
  intros (d & _ & <-). apply hex_move_dist1.
Qed.
Lemma sq_adj_move : forall c t, sq_adj c t = true <-> exists d, (d < 4)%nat /\ square_move d c = t.
Proof.
  intros. unfold sq_adj. rewrite Z.eqb_eq. split; [apply sqd_one_move|].
  intros (d & _ & <-). apply square_move_dist1.
Qed.

(** * Actions *)
Lemma hex_action_spec : forall i j T coords a, (i < length coords)%nat -> (j < length coords)%nat ->
  get2 0 T i j = (if hex_adj (nth i coords (0, 0)) (nth j coords (0, 0)) then 1 else 0) ->
  (get_action_from_states_hex i j T coords = Ok a <->
   (a < 6)%nat /\ hex_move a (nth i coords (0, 0)) = nth j coords (0, 0)) /\
  (hex_adj (nth i coords (0, 0)) (nth j coords (0, 0)) = false ->
   get_action_from_states_hex i j T coords = Err ValueError).
Proof.
  intros i j T coords a Li Lj HT. unfold get_action_from_states_hex. rewrite HT.
  destruct (hex_adj (nth i coords (0, 0)) (nth j coords (0, 0))) eqn:E; cbn [Z.eqb].
  - split; [|discriminate]. apply hex_adj_move in E. destruct E as (d & Ld & Hd).
    assert (K : (let '(x1, y1) := nth i coords (0, 0) in let '(x2, y2) := nth j coords (0, 0) in
      let dx := x2 - x1 in let dy := y2 - y1 in
      if dx =? 0 then if dy <? 0 then Ok 3%nat else if dy >? 0 then Ok 0%nat else Err UnboundLocalError
      else if negb (x1 mod 2 =? 0) then
        if (dx >? 0) && (dy =? 0) then Ok 1%nat else if (dx <? 0) && (dy =? 0) then Ok 5%nat
        else if (dx >? 0) && (dy <? 0) then Ok 2%nat else if (dx <? 0) && (dy <? 0) then Ok 4%nat
        else Err UnboundLocalError
      else
        if (dx >? 0) && (dy >? 0) then Ok 1%nat else if (dx <? 0) && (dy >? 0) then Ok 5%nat
        else if (dx >? 0) && (dy =? 0) then Ok 2%nat else if (dx <? 0) && (dy =? 0) then Ok 4%nat
        else Err UnboundLocalError) = Ok d).
    { clear HT. destruct (nth i coords (0, 0)) as [x y]. rewrite <- Hd. unfold hex_move.
      rewrite Zmod_even. destruct (Z.even x); dirs6 d; cbv zeta;
      repeat match goal with
      | |- context[x + 1 - x] => replace (x + 1 - x) with 1 by lia
      | |- context[x - 1 - x] => replace (x - 1 - x) with (-1) by lia
      | |- context[y + 1 - y] => replace (y + 1 - y) with 1 by lia
      | |- context[y - 1 - y] => replace (y - 1 - y) with (-1) by lia
      | |- context[x - x] => replace (x - x) with 0 by lia
      | |- context[y - y] => replace (y - y) with 0 by lia
      end; reflexivity. }
    cbv zeta in *. rewrite K. split.
    + intros H. inversion H. subst. auto.
    + intros [La Ha]. f_equal. eapply hex_move_inj; [exact Ld|exact La|]. now rewrite Hd, Ha.
  - split; [|reflexivity]. split; [discriminate|].
    intros [La Ha]. assert (F : hex_adj (nth i coords (0, 0)) (nth j coords (0, 0)) = true)
      by (apply hex_adj_move; eauto). congruence.
Qed.

Lemma square_action_spec : forall i j T coords a, (i < length coords)%nat -> (j < length coords)%nat ->
  get2 0 T i j = (if sq_adj (nth i coords (0, 0)) (nth j coords (0, 0)) then 1 else 0) ->
  (get_action_from_states_square i j T coords = Ok a <->
   (a < 4)%nat /\ square_move a (nth i coords (0, 0)) = nth j coords (0, 0)) /\
  (sq_adj (nth i coords (0, 0)) (nth j coords (0, 0)) = false ->
   get_action_from_states_square i j T coords = Err ValueError).
Proof.
  intros i j T coords a Li Lj HT. unfold get_action_from_states_square. rewrite HT.
  destruct (sq_adj (nth i coords (0, 0)) (nth j coords (0, 0))) eqn:E; cbn [Z.eqb].
  - split; [|discriminate]. apply sq_adj_move in E. destruct E as (d & Ld & Hd).
    assert (K : (let '(x1, y1) := nth i coords (0, 0) in let '(x2, y2) := nth j coords (0, 0) in
      let dx := x2 - x1 in let dy := y2 - y1 in
      if dx =? 0 then if dy <? 0 then Ok 2%nat else if dy >? 0 then Ok 0%nat else Err UnboundLocalError
      else if dx >? 0 then Ok 1%nat else if dx <? 0 then Ok 3%nat else Err UnboundLocalError) = Ok d).
    { clear HT. destruct (nth i coords (0, 0)) as [x y]. rewrite <- Hd. unfold square_move.
      dirs4 d; cbv zeta;
      repeat match goal with
      | |- context[x + 1 - x] => replace (x + 1 - x) with 1 by lia
      | |- context[x - 1 - x] => replace (x - 1 - x) with (-1) by lia
      | |- context[y + 1 - y] => replace (y + 1 - y) with 1 by lia
      | |- context[y - 1 - y] => replace (y - 1 - y) with (-1) by lia
      | |- context[x - x] => replace (x - x) with 0 by lia
      | |- context[y - y] => replace (y - y) with 0 by lia
      end; reflexivity. }
    cbv zeta in *. rewrite K. split.
    + intros H. inversion H. subst. auto.
    + intros [La Ha]. f_equal. eapply square_move_inj; [exact Ld|exact La|]. now rewrite Hd, Ha.
  - split; [|reflexivity]. split; [discriminate|].
    intros [La Ha]. assert (F : sq_adj (nth i coords (0, 0)) (nth j coords (0, 0)) = true)
      by (apply sq_adj_move; eauto). congruence.
Qed.

(** * Coordinates of the cells of a grid *)
Lemma row_coords_repeat : forall A (v : A) h x y,
  row_coords x y (repeat (Fin v) h) = map (fun j => (x, y + Z.of_nat j)) (seq 0 h).
Proof.
  induction h; intros; [reflexivity|]. cbn [repeat row_coords isnan seq map]. f_equal; [f_equal; lia|].
  rewrite IHh, <- seq_shift, map_map. apply map_ext. intros. f_equal. lia.
Qed.

Lemma rows_coords_repeat : forall A (v : A) h w x,
  rows_coords x (repeat (repeat (Fin v) h) w) =
  flat_map (fun i => map (fun j => (x + Z.of_nat i, Z.of_nat j)) (seq 0 h)) (seq 0 w).
Proof.
  induction w; intros; [reflexivity|]. cbn [repeat rows_coords seq flat_map].
  rewrite row_coords_repeat, IHw, <- seq_shift. f_equal.
  - apply map_ext. intros. f_equal; lia.
  - rewrite !flat_map_concat_map, map_map. f_equal. apply map_ext. intros. apply map_ext. intros. f_equal. lia.
Qed.

Lemma flat_grid_nth : forall h w x s d, (s < w * h)%nat ->
  nth s (flat_map (fun i => map (fun j => (x + Z.of_nat i, Z.of_nat j)) (seq 0 h)) (seq 0 w)) d
  = (x + Z.of_nat (s / h), Z.of_nat (s mod h)).
Proof.
  induction w; intros x s d L; [lia|]. cbn [seq flat_map].
  assert (Hh : (h <> 0)%nat) by lia.
  destruct (Nat.lt_ge_cases s h) as [L1|L1].
  - rewrite app_nth1 by (rewrite map_length, seq_length; exact L1).
    rewrite (nth_map_lt _ _ _ _ _ _ 0%nat) by (rewrite seq_length; exact L1).
    rewrite seq_nth0 by exact L1. rewrite Nat.div_small, Nat.mod_small by exact L1. reflexivity.
  - rewrite app_nth2 by (rewrite map_length, seq_length; exact L1).
    rewrite map_length, seq_length. rewrite <- seq_shift, flat_map_concat_map, map_map, <- flat_map_concat_map.
    replace s with ((s - h) + 1 * h)%nat at 2 3 by lia.
    rewrite Nat.div_add, Nat.mod_add by exact Hh.
    rewrite (flat_map_ext _ (fun i => map (fun j => ((x + 1) + Z.of_nat i, Z.of_nat j)) (seq 0 h))).
    + rewrite IHw by lia. f_equal. lia.
    + intros. apply map_ext. intros. f_equal. lia.
Qed.

Lemma flat_grid_length : forall h w x,
  length (flat_map (fun i => map (fun j => (x + Z.of_nat i, Z.of_nat j)) (seq 0 h)) (seq 0 w)) = (w * h)%nat.
Proof.
  intros. induction w in x |- *; [reflexivity|]. cbn [seq flat_map].
  rewrite app_length, map_length, seq_length. rewrite <- seq_shift, flat_map_concat_map, map_map, <- flat_map_concat_map.
  rewrite (flat_map_ext _ (fun i => map (fun j => ((x + 1) + Z.of_nat i, Z.of_nat j)) (seq 0 h))).
  - rewrite IHw. lia.
  - intros. apply map_ext. intros. f_equal. lia.
Qed.

Lemma cell_of_in : forall shape s, (s < fst shape * snd shape)%nat -> in_grid shape (cell_of shape s).
Proof.
  intros [w h] s L. unfold in_grid, cell_of. cbn [fst snd] in *.
  assert (h <> 0)%nat by lia. pose proof (Nat.mod_upper_bound s h H).
  assert (s / h < w)%nat by (apply Nat.div_lt_upper_bound; lia). lia.
Qed.

Lemma cell_of_inj : forall shape s t, cell_of shape s = cell_of shape t -> snd shape <> 0%nat -> s = t.
Proof.
  intros [w h] s t. unfold cell_of. cbn [fst snd]. intros H N. inversion H.
  apply Nat2Z.inj in H1, H2. rewrite (Nat.div_mod s h N), (Nat.div_mod t h N). congruence.
Qed.

Lemma cell_of_surj : forall shape c, in_grid shape c ->
  exists s, (s < fst shape * snd shape)%nat /\ cell_of shape s = c.
Proof.
  intros [w h] [x y]. unfold in_grid, cell_of. cbn [fst snd]. intros [Hx Hy].
  exists (Z.to_nat x * h + Z.to_nat y)%nat. split; [nia|].
  rewrite Nat.div_add_l, (Nat.add_comm (Z.to_nat x * h)), Nat.mod_add by lia.
  rewrite Nat.div_small, Nat.mod_small by lia. f_equal; lia.
Qed.
