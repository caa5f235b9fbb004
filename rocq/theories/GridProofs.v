From Coq Require Import List ZArith QArith Bool Lia.
From Verif Require Import PyBase GridModel GridSpec.
Import ListNotations.
Local Open Scope Z_scope.

(** * Hex distance *)

Lemma land1 : forall x, Z.land x 1 = x mod 2.
Proof. intros. change 1 with (Z.ones 1). rewrite Z.land_ones by lia. reflexivity. Qed.

(** column shift *)
Definition sh (x : Z) : Z := (x + x mod 2) / 2.

Lemma sh_even : forall k, sh (2 * k) = k.
Proof. intros. unfold sh. Z.div_mod_to_equations. lia. Qed.
Lemma sh_odd : forall k, sh (2 * k + 1) = k + 1.
Proof. intros. unfold sh. Z.div_mod_to_equations. lia. Qed.

Lemma sh_exact : forall x, 2 * sh x = x + x mod 2.
Proof. intros. unfold sh. Z.div_mod_to_equations. lia. Qed.

Definition qz (c : Z * Z) : Z := snd c - sh (fst c).
Definition hexd (c t : Z * Z) : Z :=
  let dx := fst c - fst t in let dz := qz c - qz t in
  Z.max (Z.abs dx) (Z.max (Z.abs dz) (Z.abs (dx + dz))).

Lemma offset_distance_hexd : forall x1 y1 x2 y2,
  offset_distance x1 y1 x2 y2 = Ok ((2 * hexd (x1, y1) (x2, y2)) # 2).
Proof.
  intros. unfold offset_distance, cube_distance, offset_to_cube. cbn [length].
  change (Z.of_nat 3) with 3. change (Z.land 3 3) with 3. rewrite Z.eqb_refl. cbn [andb nth].
  rewrite !land1. fold (sh x1) (sh x2).
  unfold hexd, qz. cbn [fst snd]. do 2 f_equal. lia.
Qed.

Lemma half_eq : forall z w : Z, ((2 * z) # 2 == inject_Z w)%Q <-> z = w.
Proof. intros. unfold Qeq, inject_Z. cbn [Qnum Qden]. lia. Qed.

Lemma half_inject : forall z : Z, ((2 * z) # 2 == inject_Z z)%Q.
Proof. intros. apply half_eq. reflexivity. Qed.

Lemma hexd_nonneg : forall c t, 0 <= hexd c t.
Proof. intros. unfold hexd. lia. Qed.

Lemma hexd_sym : forall c t, hexd c t = hexd t c.
Proof. intros. unfold hexd. lia. Qed.

Lemma hexd_refl : forall c, hexd c c = 0.
Proof. intros. unfold hexd. lia. Qed.

Lemma hexd_zero : forall c t, hexd c t = 0 -> c = t.
Proof.
  intros [x y] [u v] H. unfold hexd, qz in H. cbn [fst snd] in H.
  assert (x = u) by lia. subst. f_equal. lia.
Qed.

Lemma hexd_le : forall c t n, 
  (let dx := fst t - fst c in let dz := qz t - qz c in
   - n <= dx <= n /\ - n <= dz <= n /\ - n <= dx + dz <= n) -> hexd c t <= n.
Proof. intros c t n. unfold hexd. cbv zeta. intros. lia. Qed.

Lemma hexd_bounds : forall c t,
  let n := hexd c t in let dx := fst t - fst c in let dz := qz t - qz c in
   (- n <= dx <= n) /\ (- n <= dz <= n) /\ (- n <= dx + dz <= n).
Proof. intros. subst n dx dz. unfold hexd. lia. Qed.

Lemma hexd_tri : forall a b c, hexd a c <= hexd a b + hexd b c.
Proof.
  intros. destruct (hexd_bounds a b) as (A1&A2&A3). destruct (hexd_bounds b c) as (B1&B2&B3).
  apply hexd_le. lia.
Qed.

Lemma parity : forall x, (exists k, x = 2 * k /\ Z.even x = true) \/ (exists k, x = 2 * k + 1 /\ Z.even x = false).
Proof.
  intros. destruct (Z.even x) eqn:E.
  - left. apply Z.even_spec in E. destruct E as [k ->]. eauto.
  - right. assert (O : Z.odd x = true) by (rewrite <- Z.negb_even, E; reflexivity).
    apply Z.odd_spec in O. destruct O as [k ->]. eauto.
Qed.

(** shifts of neighbouring columns *)
Lemma sh_step : forall x,
  (Z.even x = true -> sh (x + 1) = sh x + 1 /\ sh (x - 1) = sh x) /\
  (Z.even x = false -> sh (x + 1) = sh x /\ sh (x - 1) = sh x - 1).
Proof.
  intros x. destruct (parity x) as [[k [-> E]]|[k [-> E]]]; rewrite E; split; intros F; try discriminate.
  - replace (2 * k - 1) with (2 * (k - 1) + 1) by lia. rewrite sh_even, !sh_odd. lia.
  - replace (2 * k + 1 + 1) with (2 * (k + 1)) by lia. replace (2 * k + 1 - 1) with (2 * k) by lia.
    rewrite !sh_odd, !sh_even. lia.
Qed.

Lemma hex_move_dist1 : forall d c, hexd c (hex_move d c) = 1.
Proof.
  intros d [x y]. unfold hex_move. destruct (sh_step x) as [He Ho].
  destruct (Z.even x).
  - destruct (He eq_refl) as [P M].
    do 6 (destruct d as [|d]; [unfold hexd, qz; cbn [fst snd]; rewrite ?P, ?M; lia|]).
    unfold hexd, qz; cbn [fst snd]; rewrite ?P, ?M; lia.
  - destruct (Ho eq_refl) as [P M].
    do 6 (destruct d as [|d]; [unfold hexd, qz; cbn [fst snd]; rewrite ?P, ?M; lia|]).
    unfold hexd, qz; cbn [fst snd]; rewrite ?P, ?M; lia.
Qed.

(** every cell at distance one is a neighbour *)
Lemma hexd_one_move : forall c t, hexd c t = 1 -> exists d, (d < 6)%nat /\ hex_move d c = t.
Proof.
  intros [x y] [u v] H. unfold hexd in H.
  assert (C : u = x \/ u = x + 1 \/ u = x - 1) by (cbn [fst snd] in H; lia).
  destruct (sh_step x) as [He Ho]. unfold hex_move, qz in *. cbn [fst snd] in H.
  destruct (Z.even x).
  - destruct (He eq_refl) as [P M]. destruct C as [->|[->| ->]]; rewrite ?P, ?M in H.
    + assert (V : v = y + 1 \/ v = y - 1) by lia. destruct V as [->| ->].
      * exists 0%nat; split; [lia|reflexivity].
      * exists 3%nat; split; [lia|reflexivity].
    + assert (V : v = y + 1 \/ v = y) by lia. destruct V as [->| ->].
      * exists 1%nat; split; [lia|reflexivity].
      * exists 2%nat; split; [lia|reflexivity].
    + assert (V : v = y + 1 \/ v = y) by lia. destruct V as [->| ->].
      * exists 5%nat; split; [lia|reflexivity].
      * exists 4%nat; split; [lia|reflexivity].
  - destruct (Ho eq_refl) as [P M]. destruct C as [->|[->| ->]]; rewrite ?P, ?M in H.
    + assert (V : v = y + 1 \/ v = y - 1) by lia. destruct V as [->| ->].
      * exists 0%nat; split; [lia|reflexivity].
      * exists 3%nat; split; [lia|reflexivity].
    + assert (V : v = y - 1 \/ v = y) by lia. destruct V as [->| ->].
      * exists 2%nat; split; [lia|reflexivity].
      * exists 1%nat; split; [lia|reflexivity].
    + assert (V : v = y - 1 \/ v = y) by lia. destruct V as [->| ->].
      * exists 4%nat; split; [lia|reflexivity].
      * exists 5%nat; split; [lia|reflexivity].
Qed.

Definition between (a b c : Z) : Prop := Z.min a b <= c <= Z.max a b.

(** a shortest walk can stay inside the bounding box *)
Lemma hex_progress : forall c t, c <> t -> exists d, (d < 6)%nat /\
  hexd (hex_move d c) t = hexd c t - 1 /\
  between (fst c) (fst t) (fst (hex_move d c)) /\ between (snd c) (snd t) (snd (hex_move d c)).
Proof.
  intros c t N.
  assert (K : exists d, (d < 6)%nat /\ hexd (hex_move d c) t <= hexd c t - 1 /\
    between (fst c) (fst t) (fst (hex_move d c)) /\ between (snd c) (snd t) (snd (hex_move d c))).
  2:{ destruct K as (d & L & H & B). exists d. split; [exact L|]. split; [|exact B].
      pose proof (hexd_tri c (hex_move d c) t). rewrite hex_move_dist1 in H0. lia. }
  destruct c as [x y], t as [u v].
  assert (NE : x <> u \/ y <> v).
  { destruct (Z.eq_dec x u) as [->|]; [|now left]. right. intros ->. now apply N. }
  clear N. pose proof (hexd_bounds (x, y) (u, v)) as HB. cbv zeta in HB.
  assert (EX : let n := hexd (x, y) (u, v) in let dx := u - x in let dz := v - sh u - (y - sh x) in
    n = Z.max (Z.abs dx) (Z.max (Z.abs dz) (Z.abs (dx + dz)))).
  { unfold hexd, qz. cbn [fst snd]. lia. }
  cbv zeta in EX. generalize dependent (hexd (x, y) (u, v)). intros n HB EX. 
  destruct (sh_step x) as [He Ho].
  pose proof (sh_exact x) as Ex. pose proof (sh_exact u) as Eu.
  pose proof (Z.mod_pos_bound u 2 ltac:(lia)) as Bu.
  rewrite Zmod_even in Ex. unfold between, qz in *. cbn [fst snd] in *. unfold hex_move.
  Ltac fin k P M := exists k; split; [lia|]; cbn [fst snd]; split; [apply hexd_le; cbv zeta; unfold qz; cbn [fst snd]; rewrite ?P, ?M; lia|lia].
  destruct (Z.even x); [destruct (He eq_refl) as [P M]|destruct (Ho eq_refl) as [P M]]; clear He Ho;
  assert (NE' : x = u -> v - sh u - (y - sh x) = v - y) by (intros ->; lia);
  (destruct (Z.lt_trichotomy x u) as [L|[E|L]]).
  - destruct (Z_le_gt_dec 0 (v - sh u - (y - sh x))); [fin 1%nat P M|].
    destruct (Z_le_gt_dec 0 (u - x + (v - sh u - (y - sh x)))); fin 2%nat P M.
  - subst u. destruct (Z_lt_le_dec y v); [fin 0%nat P M|fin 3%nat P M].
  - destruct (Z_le_gt_dec (v - sh u - (y - sh x)) 0); [fin 4%nat P M|].
    destruct (Z_lt_le_dec (u - x + (v - sh u - (y - sh x))) 0); [fin 4%nat P M|fin 5%nat P M].
  - destruct (Z_le_gt_dec 0 (v - sh u - (y - sh x))); [fin 1%nat P M|].
    destruct (Z_lt_le_dec 0 (u - x + (v - sh u - (y - sh x)))); [fin 1%nat P M|fin 2%nat P M].
  - subst u. destruct (Z_lt_le_dec y v); [fin 0%nat P M|fin 3%nat P M].
  - destruct (Z_le_gt_dec (v - sh u - (y - sh x)) 0); [fin 4%nat P M|fin 5%nat P M].
Qed.
