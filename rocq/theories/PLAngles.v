(** C46, C78, C79: angular distance and the generalisation kernel. *)
From Coq Require Import List ZArith Reals Bool Lia Lra Psatz.
From Verif Require Import PyBase PyProofs PLModel.
Import ListNotations.
Local Open Scope R_scope.

(** Two angles describe the same direction. *)
Definition same_direction (x y : R) : Prop := exists k : Z, x = y + 360 * IZR k.

Lemma pymod_spec : forall x, exists k : Z, pymod x 360 = x - 360 * IZR k /\ 0 <= pymod x 360 < 360.
Proof.
  intros x. exists (Int_part (x / 360)). split; [reflexivity|]. unfold pymod. destruct (base_Int_part (x / 360)) as [H1 H2]. set (k := IZR (Int_part (x / 360))) in *.
  assert (E : x = 360 * (x / 360)) by field. split; [|]; rewrite E at 1; nra.
Qed.
Lemma degdist_repr : forall x y, exists k : Z, degdist x y = Rabs (x - y - 360 * IZR k) /\ -180 <= x - y - 360 * IZR k < 180.
Proof.
  intros x y. destruct (pymod_spec (x - y + 180)) as (k & E & B). exists k. unfold degdist. rewrite E in *. split; [f_equal; lra|lra].
Qed.
Lemma shift_larger : forall w (m : Z), -180 <= w <= 180 -> Rabs w <= Rabs (w + 360 * IZR m).
Proof.
  intros w m B. destruct (Z.eq_dec m 0) as [->|NZ]; [rewrite Rmult_0_r, Rplus_0_r; lra|]. assert (C : IZR m >= 1 \/ IZR m <= -1).
  { destruct (Z_lt_le_dec m 0); [right; apply (IZR_le m (-1)); lia|left; apply Rle_ge, (IZR_le 1 m); lia]. }
  unfold Rabs. destruct (Rcase_abs w), (Rcase_abs (w + 360 * IZR m)), C; lra.
Qed.

(** It is the shortest way around the circle: one of the ways from [y] to [x], and no way is shorter. *)
Theorem C46_shortest : forall x y, (exists k : Z, degdist x y = Rabs (x - y + 360 * IZR k)) /\ forall k : Z, degdist x y <= Rabs (x - y + 360 * IZR k).
Proof.
  intros x y. destruct (degdist_repr x y) as (k & E & B). split.
  - exists (- k)%Z. rewrite E, opp_IZR. f_equal. lra.
  - intros j. rewrite E. replace (x - y + 360 * IZR j) with (x - y - 360 * IZR k + 360 * IZR (j + k)) by (rewrite plus_IZR; lra). apply shift_larger. lra.
Qed.
Theorem C46_range : forall x y, 0 <= degdist x y <= 180.
Proof.
  intros x y. destruct (degdist_repr x y) as (k & E & B). rewrite E. split; [apply Rabs_pos|]. apply Rabs_le. lra.
Qed.
Theorem C46_symmetric : forall x y, degdist x y = degdist y x.
Proof.
  intros x y. apply Rle_antisym; [destruct (C46_shortest y x) as [(k & ->) _]|destruct (C46_shortest x y) as [(k & ->) _]];
    [destruct (C46_shortest x y) as [_ H]|destruct (C46_shortest y x) as [_ H]]; specialize (H (- k)%Z); eapply Rle_trans; try exact H; rewrite opp_IZR.
  - rewrite <- Rabs_Ropp. right. f_equal. lra.
  - rewrite <- Rabs_Ropp. right. f_equal. lra.
Qed.
Theorem C46_periodic : forall x y (k : Z), degdist (x + 360 * IZR k) y = degdist x y.
Proof.
  intros x y j. apply Rle_antisym.
  - destruct (C46_shortest x y) as [(k & ->) _]. destruct (C46_shortest (x + 360 * IZR j) y) as [_ H]. specialize (H (k - j)%Z). rewrite minus_IZR in H. eapply Rle_trans; [exact H|]. right. f_equal. lra.
  - destruct (C46_shortest (x + 360 * IZR j) y) as [(k & ->) _]. destruct (C46_shortest x y) as [_ H]. specialize (H (k + j)%Z). rewrite plus_IZR in H. eapply Rle_trans; [exact H|]. right. f_equal. lra.
Qed.
Theorem C46_zero_iff : forall x y, degdist x y = 0 <-> same_direction x y.
Proof.
  intros x y. split.
  - intros Z. destruct (C46_shortest x y) as [(k & E) _]. rewrite Z in E. exists (- k)%Z. rewrite opp_IZR. destruct (Req_dec (x - y + 360 * IZR k) 0) as [E0|NE]; [lra|]. apply Rabs_pos_lt in NE. lra.
  - intros (k & ->). destruct (C46_shortest (y + 360 * IZR k) y) as [_ H]. specialize (H (- k)%Z). rewrite opp_IZR in H. replace (y + 360 * IZR k - y + 360 * - IZR k) with 0 in H by lra. rewrite Rabs_R0 in H. destruct (C46_range (y + 360 * IZR k) y). lra.
Qed.
Theorem C46_triangle : forall x y z, degdist x z <= degdist x y + degdist y z.
Proof.
  intros x y z. destruct (C46_shortest x y) as [(k & ->) _]. destruct (C46_shortest y z) as [(j & ->) _]. destruct (C46_shortest x z) as [_ H]. specialize (H (k + j)%Z). rewrite plus_IZR in H.
  eapply Rle_trans; [exact H|]. eapply Rle_trans; [|apply Rabs_triang]. right. f_equal. lra.
Qed.

(** The kernel is largest, with value [variance], exactly at equal directions, and falls with the distance. *)
Theorem C46_kernel : forall x y x' y' ls v, 0 < v -> ls <> 0 ->
  0 < deg_sq_exp_kernel x y ls v <= v /\ (deg_sq_exp_kernel x y ls v = v <-> same_direction x y) /\
  (degdist x y < degdist x' y' <-> deg_sq_exp_kernel x' y' ls v < deg_sq_exp_kernel x y ls v).
Proof.
  intros x y x' y' ls v Hv Hl. assert (L2 : 0 < ls ^ 2) by (cbn; nra). unfold deg_sq_exp_kernel.
  assert (P : forall d, 0 < v * exp (- (d ^ 2 / 2 * ls ^ 2))) by (intros d; apply Rmult_lt_0_compat; [exact Hv|apply exp_pos]).
  assert (MO : forall d d', 0 <= d -> 0 <= d' -> (d < d' <-> v * exp (- (d' ^ 2 / 2 * ls ^ 2)) < v * exp (- (d ^ 2 / 2 * ls ^ 2)))).
  { intros d d' H1 H2. split.
    - intros L. apply Rmult_lt_compat_l; [exact Hv|]. apply exp_increasing. assert (d ^ 2 < d' ^ 2) by (cbn; nra). nra.
    - intros L. apply Rnot_le_lt. intros C. apply Rmult_lt_reg_l in L; [|exact Hv]. apply exp_lt_inv in L. assert (d' ^ 2 <= d ^ 2) by (cbn; nra). nra. }
  assert (Z0 : v * exp (- (0 ^ 2 / 2 * ls ^ 2)) = v) by (replace (- (0 ^ 2 / 2 * ls ^ 2)) with 0 by (cbn; field); rewrite exp_0; lra).
  destruct (C46_range x y) as [R1 _]. destruct (C46_range x' y') as [R2 _]. split; [split; [apply P|]|split; [|now apply MO]].
  - destruct (Req_dec (degdist x y) 0) as [->|NZ]; [rewrite Z0; lra|]. rewrite <- Z0 at 2. assert (0 < degdist x y) by (destruct R1; [assumption|congruence]). apply Rlt_le. apply (MO 0 (degdist x y)); lra.
  - rewrite <- C46_zero_iff. split; [|intros ->; exact Z0]. intros E. destruct (Req_dec (degdist x y) 0) as [Z|NZ]; [exact Z|].
    assert (L : v * exp (- (degdist x y ^ 2 / 2 * ls ^ 2)) < v * exp (- (0 ^ 2 / 2 * ls ^ 2))). { assert (0 < degdist x y) by (destruct R1; [assumption|congruence]). apply (MO 0 (degdist x y)); lra. } lra.
Qed.
Example C46_example : degdist 350 10 = 20 /\ degdist 0 180 = 180 /\ degdist 60 300 = 120.
Proof.
  assert (G : forall x y d (k : Z), x - y - 360 * IZR k = d -> -180 <= d <= 180 -> degdist x y = Rabs d).
  { intros x y d k <- B. apply Rle_antisym.
    - destruct (C46_shortest x y) as [_ H]. specialize (H (- k)%Z). rewrite opp_IZR in H. eapply Rle_trans; [exact H|]. right. f_equal. lra.
    - destruct (C46_shortest x y) as [(j & ->) _]. replace (x - y + 360 * IZR j) with (x - y - 360 * IZR k + 360 * IZR (j + k)) by (rewrite plus_IZR; lra). now apply shift_larger. }
  split; [|split].
  - rewrite (G 350 10 (-20) 1%Z) by lra. rewrite Rabs_left; lra.
  - rewrite (G 0 180 (-180) 0%Z) by lra. rewrite Rabs_left; lra.
  - rewrite (G 60 300 120 (-1)%Z) by lra. rewrite Rabs_right; lra.
Qed.

(** ** C78: the length scale *)
(** A larger length scale should generalise more widely; it always generalises less. *)
Theorem C78_length_scale_refuted : forall x y ls ls' v, 0 < v -> 0 <= ls < ls' -> ~ same_direction x y -> deg_sq_exp_kernel x y ls' v < deg_sq_exp_kernel x y ls v.
Proof.
  intros x y ls ls' v Hv Hl ND. unfold deg_sq_exp_kernel. apply Rmult_lt_compat_l; [exact Hv|]. apply exp_increasing.
  assert (D : 0 < degdist x y). { destruct (C46_range x y) as [[H|H] _]; [exact H|]. elim ND. apply C46_zero_iff. now symmetry. }
  assert (0 < degdist x y ^ 2) by (cbn; nra). assert (ls ^ 2 < ls' ^ 2) by (cbn; nra). nra.
Qed.
Example C78_example : ~ same_direction 60 0.
Proof.
  intros (k & E). assert (H : IZR (360 * k) = IZR 60) by (rewrite mult_IZR; lra). apply eq_IZR in H. lia.
Qed.

(** ** C79: generalisation between the actions of a grid *)
(** Number of turns between directions [i] and [a] of [n] arranged in a circle. *)
Definition turns (n i a : nat) : nat := Nat.min ((i + n - a) mod n) ((a + n - i) mod n).
Lemma step_dist : forall n i a, (i < n)%nat -> (a < n)%nat -> degdist (INR i * (360 / INR n)) (INR a * (360 / INR n)) = INR (turns n i a) * (360 / INR n).
Proof.
  intros n i a Hi Ha. assert (P : 0 < INR n) by (apply lt_0_INR; lia). set (u := 360 / INR n). assert (U : u * INR n = 360) by (unfold u; field; lra). assert (Pu : 0 < u) by (apply Rdiv_lt_0_compat; lra).
  (* for a signed number of turns d with |d| <= n/2, congruent to i - a *)
  assert (G : forall (d k : Z), (Z.of_nat i - Z.of_nat a - Z.of_nat n * k = d)%Z -> (- Z.of_nat n <= 2 * d <= Z.of_nat n)%Z -> degdist (INR i * u) (INR a * u) = INR (Z.abs_nat d) * u).
  { intros d k E B. assert (EW : INR i * u - INR a * u - 360 * IZR k = IZR d * u).
    { rewrite <- U, !INR_IZR_INZ, <- E, !minus_IZR, mult_IZR. ring. }
    assert (BW : -180 <= IZR d * u <= 180). { destruct B as [B1 B2]. apply IZR_le in B1, B2. rewrite opp_IZR, mult_IZR in B1. rewrite mult_IZR in B2. rewrite <- INR_IZR_INZ in *. split; nra. }
    assert (EA : degdist (INR i * u) (INR a * u) = Rabs (IZR d * u)).
    { apply Rle_antisym.
      - destruct (C46_shortest (INR i * u) (INR a * u)) as [_ H]. specialize (H (- k)%Z). rewrite opp_IZR in H. eapply Rle_trans; [exact H|]. right. f_equal. lra.
      - destruct (C46_shortest (INR i * u) (INR a * u)) as [(j & ->) _]. replace (INR i * u - INR a * u + 360 * IZR j) with (IZR d * u + 360 * IZR (j + k)) by (rewrite plus_IZR; lra). now apply shift_larger. }
    rewrite EA, Rabs_mult, (Rabs_right u) by lra. f_equal. rewrite INR_IZR_INZ, Zabs2Nat.id_abs, abs_IZR. reflexivity. }
  unfold turns. destruct (Nat.le_gt_cases a i) as [L|L].
  - assert (E1 : ((i + n - a) mod n = i - a)%nat) by (replace (i + n - a)%nat with ((i - a) + 1 * n)%nat by lia; rewrite Nat.mod_add by lia; apply Nat.mod_small; lia).
    destruct (Nat.eq_dec i a) as [->|NE].
    + rewrite E1, Nat.sub_diag, Nat.min_0_l. apply (G 0%Z 0%Z); lia.
    + assert (E2 : ((a + n - i) mod n = a + n - i)%nat) by (apply Nat.mod_small; lia). rewrite E1, E2.
      destruct (Nat.le_gt_cases (i - a) (a + n - i)) as [M|M]; [rewrite Nat.min_l by lia; rewrite (G (Z.of_nat (i - a)) 0%Z) by lia; now rewrite Zabs2Nat.id|].
      rewrite Nat.min_r by lia. rewrite (G (- Z.of_nat (a + n - i))%Z 1%Z) by lia. f_equal. f_equal. lia.
  - assert (E1 : ((i + n - a) mod n = i + n - a)%nat) by (apply Nat.mod_small; lia).
    assert (E2 : ((a + n - i) mod n = a - i)%nat) by (replace (a + n - i)%nat with ((a - i) + 1 * n)%nat by lia; rewrite Nat.mod_add by lia; apply Nat.mod_small; lia). rewrite E1, E2.
    destruct (Nat.le_gt_cases (a - i) (i + n - a)) as [M|M]; [rewrite Nat.min_r by lia; rewrite (G (- Z.of_nat (a - i))%Z 0%Z) by lia; f_equal; f_equal; lia|].
    rewrite Nat.min_l by lia. rewrite (G (Z.of_nat (i + n - a)) (-1)%Z) by lia. now rewrite Zabs2Nat.id.
Qed.
(** Observing action [a] credits [a] with one, and every other action with less the more turns away it is. *)
Theorem C79_generalisation : forall ls n a v, ls <> 0 -> (a < n)%nat -> kernel_reward ls n a = Ok v -> length v = n /\ nth a v 0 = 1 /\
  forall i j, (i < n)%nat -> (j < n)%nat -> ((turns n i a < turns n j a)%nat <-> nth j v 0 < nth i v 0) /\ 0 < nth i v 0 <= 1.
Proof.
  intros ls n a v Hl Ha E. unfold kernel_reward in E. assert (EV : v = map (fun i => deg_sq_exp_kernel (INR i * (360 / INR n)) (INR a * (360 / INR n)) ls 1) (seq 0 n)) by congruence.
  assert (NV : forall i, (i < n)%nat -> nth i v 0 = deg_sq_exp_kernel (INR i * (360 / INR n)) (INR a * (360 / INR n)) ls 1). { intros i Hi. rewrite EV. rewrite (nth_map_lt _ _ _ _ _ _ 0%nat) by (now rewrite seq_length). now rewrite seq_nth. }
  assert (P : 0 < INR n) by (apply lt_0_INR; lia). assert (Pu : 0 < 360 / INR n) by (apply Rdiv_lt_0_compat; lra).
  split; [rewrite EV; now rewrite map_length, seq_length|]. split.
  - rewrite NV by exact Ha. apply (C46_kernel _ _ 0 0 ls 1 Rlt_0_1 Hl). exists 0%Z. lra.
  - intros i j Hi Hj. rewrite !NV by assumption. destruct (C46_kernel (INR i * (360 / INR n)) (INR a * (360 / INR n)) (INR j * (360 / INR n)) (INR a * (360 / INR n)) ls 1 Rlt_0_1 Hl) as (B & _ & M). split; [|exact B].
    rewrite <- M, !step_dist by assumption. split; [intros L; apply Rmult_lt_compat_r; [exact Pu|now apply lt_INR]|intros L; apply Rmult_lt_reg_r in L; [now apply INR_lt|exact Pu]].
Qed.
