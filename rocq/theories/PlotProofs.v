(** Geometry of drawn hexagons. *)
From Coq Require Import List ZArith Reals Bool Lia Lra Psatz Znumtheory.
From Verif Require Import PyBase PyProofs GridModel GridSpec GridProofs GridProps MDPModel MDPSpec EnvModel PlotModel.
Import ListNotations.
Local Open Scope Z_scope.

Definition col (c : Z * Z) : Z := fst c.
(** Height in units of half a hexagon. *)
Definition hgt (c : Z * Z) : Z := 2 * snd c + (if Z.even (fst c) then 1 else 0).
Definition gap (c c' : Z * Z) : Z := 3 * (col c' - col c) ^ 2 + (hgt c' - hgt c) ^ 2.

Lemma even_cases : forall x, (Z.even x = true /\ exists q, x = 2 * q) \/ (Z.even x = false /\ exists q, x = 2 * q + 1).
Proof.
  intros x. destruct (Z.even x) eqn:E; [left|right]; (split; [reflexivity|]).
  - apply Z.even_spec in E. exact E.
  - rewrite <- Z.negb_odd in E. apply negb_false_iff in E. apply Z.odd_spec in E. exact E.
Qed.

Lemma col_hgt_inj : forall c c', col c = col c' -> hgt c = hgt c' -> c = c'.
Proof. intros [x y] [x' y']. unfold col, hgt. cbn [fst snd]. intros -> E. f_equal. destruct (Z.even x'); lia. Qed.

Lemma hgt_parity : forall c, exists q, hgt c + col c = 2 * q + 1.
Proof.
  intros [x y]. unfold hgt, col. cbn [fst snd]. destruct (even_cases x) as [[-> [q ->]]|[-> [q ->]]]; [exists (y + q)|exists (y + q)]; lia.
Qed.

(** Where each direction leads, in these units. *)
Definition step_col (d : nat) : Z := match d with 0%nat | 3%nat => 0 | 1%nat | 2%nat => 1 | _ => -1 end.
Definition step_hgt (d : nat) : Z := match d with 0%nat => 2 | 3%nat => -2 | 1%nat | 5%nat => 1 | 2%nat | 4%nat => -1 | _ => 1 end.
Lemma hex_step : forall d c, (d < 6)%nat -> col (hex_move d c) = col c + step_col d /\ hgt (hex_move d c) = hgt c + step_hgt d.
Proof.
  intros d [x y] Hd. unfold col, hgt, hex_move. cbn [fst snd].
  assert (EP : Z.even (x + 1) = negb (Z.even x)) by (rewrite Z.even_add; now destruct (Z.even x)).
  assert (EM : Z.even (x - 1) = negb (Z.even x)) by (rewrite Z.even_sub; now destruct (Z.even x)).
  destruct (Z.even x) eqn:E; do 6 (destruct d as [|d]; [cbn [fst snd step_col step_hgt]; rewrite ?EP, ?EM, ?E; cbn [negb]; lia|]); lia.
Qed.

Lemma hex_step_inv : forall c c' d, (d < 6)%nat -> col c' = col c + step_col d -> hgt c' = hgt c + step_hgt d -> hex_move d c = c'.
Proof. intros c c' d Hd E1 E2. destruct (hex_step d c Hd) as [H1 H2]. apply col_hgt_inj; congruence. Qed.

Lemma gap_cases : forall c c', c <> c' ->
  (gap c c' = 4 /\ exists d, (d < 6)%nat /\ hex_move d c = c') \/ (12 <= gap c c' /\ forall d, (d < 6)%nat -> hex_move d c <> c').
Proof.
  intros c c' NE. destruct (hgt_parity c) as [q Eq], (hgt_parity c') as [q' Eq'].
  remember (col c' - col c) as X eqn:EX. remember (hgt c' - hgt c) as Y eqn:EY.
  assert (PAR : exists r, X + Y = 2 * r) by (exists (q' - q); lia). destruct PAR as [r PAR].
  assert (D : forall d, (d < 6)%nat -> X = step_col d -> Y = step_hgt d -> gap c c' = 4 /\ exists d, (d < 6)%nat /\ hex_move d c = c').
  { intros d Hd E1 E2. split.
    - unfold gap. rewrite <- EX, <- EY, E1, E2. do 6 (destruct d as [|d]; [reflexivity|]); lia.
    - exists d. split; [exact Hd|]. apply hex_step_inv; [exact Hd|lia|lia]. }
  assert (F : 12 <= gap c c' -> forall d, (d < 6)%nat -> hex_move d c <> c').
  { intros H d Hd E. destruct (hex_step d c Hd) as [E1 E2]. rewrite E in E1, E2. unfold gap in H. rewrite <- EX, <- EY in H.
    assert (X = step_col d) by lia. assert (Y = step_hgt d) by lia. subst X Y. rewrite H0, H1 in H.
    do 6 (destruct d as [|d]; [cbn in H; lia|]); lia. }
  assert (ZZ : ~ (X = 0 /\ Y = 0)) by (intros [E1 E2]; apply NE; apply col_hgt_inj; lia).
  assert (BIG : (2 <= X \/ X <= -2 \/ 3 <= Y \/ Y <= -3) -> 12 <= gap c c').
  { unfold gap. rewrite <- EX, <- EY. intros B.
    assert (C : 4 <= X ^ 2 \/ (9 <= Y ^ 2 /\ (1 <= X ^ 2 \/ (X = 0 /\ 16 <= Y ^ 2)))).
    { destruct B as [B|[B|B]]; [left; nia|left; nia|]. destruct (Z.eq_dec X 0) as [->|NX]; [right; split; [nia|right; split; [reflexivity|]]|right; split; nia].
      assert (4 <= Y \/ Y <= -4) by lia. nia. }
    assert (0 <= Y ^ 2) by nia. assert (0 <= X ^ 2) by nia. destruct C as [C|[C [C'|[C1 C2]]]]; [| |subst X]; nia. }
  assert (CX : X = -1 \/ X = 0 \/ X = 1 \/ (2 <= X \/ X <= -2)) by lia.
  assert (CY : Y = -2 \/ Y = -1 \/ Y = 0 \/ Y = 1 \/ Y = 2 \/ (3 <= Y \/ Y <= -3)) by lia.
  destruct CX as [EX'|[EX'|[EX'|CX]]]; [| | |right; assert (12 <= gap c c') by (apply BIG; tauto); auto];
  (destruct CY as [EY'|[EY'|[EY'|[EY'|[EY'|CY]]]]]; [| | | | |right; assert (12 <= gap c c') by (apply BIG; tauto); auto]); try lia; left.
  - apply (D 4%nat); auto; lia.
  - apply (D 5%nat); auto; lia.
  - apply (D 3%nat); auto; lia.
  - apply (D 0%nat); auto; lia.
  - apply (D 2%nat); auto; lia.
  - apply (D 1%nat); auto; lia.
Qed.

(** ** Real coordinates *)
Local Open Scope R_scope.
Definition sqd (p q : R * R) : R := (fst q - fst p) ^ 2 + (snd q - snd p) ^ 2.
Definition inner : R := 86602540 / 100000000.

Lemma centre_eq : forall x z, hex_centre (A:=R) 1 x z = (3 / 2 * IZR (col (Z.of_nat x, Z.of_nat z)), inner * IZR (hgt (Z.of_nat x, Z.of_nat z))).
Proof.
  intros x z. unfold hex_centre, col, hgt, inner_radius, inner. cbn [fst snd nmul nadd ndiv nofZ NumR].
  assert (P : Nat.odd x = negb (Z.even (Z.of_nat x))).
  { rewrite Z.negb_even. destruct (Nat.odd x) eqn:O.
    - apply Nat.odd_spec in O. destruct O as [q ->]. symmetry. apply Z.odd_spec. exists (Z.of_nat q). lia.
    - rewrite <- Nat.negb_even in O. apply negb_false_iff, Nat.even_spec in O. destruct O as [q ->]. symmetry.
      rewrite <- Z.negb_even. apply negb_false_iff, Z.even_spec. exists (Z.of_nat q). lia. }
  rewrite P. destruct (Z.even (Z.of_nat x)); cbn [negb]; rewrite ?plus_IZR, ?mult_IZR; f_equal; field.
Qed.

Lemma sqd_centres : forall x z x' z',
  let c := (Z.of_nat x, Z.of_nat z) in let c' := (Z.of_nat x', Z.of_nat z') in
  sqd (hex_centre 1 x z) (hex_centre 1 x' z') = 9 / 4 * IZR (col c' - col c) ^ 2 + inner ^ 2 * IZR (hgt c' - hgt c) ^ 2.
Proof. intros. subst c c'. rewrite !centre_eq. unfold sqd. cbn [fst snd]. rewrite !minus_IZR. field. Qed.

Lemma inner_sq : 0.7499999934 <= inner ^ 2 <= 0.7499999935.
Proof. unfold inner. lra. Qed.

Lemma sqd_gap : forall x z x' z',
  let c := (Z.of_nat x, Z.of_nat z) in let c' := (Z.of_nat x', Z.of_nat z') in
  (gap c c' = 4%Z -> Rabs (sqd (hex_centre 1 x z) (hex_centre 1 x' z') - 3) <= / 10000000) /\
  ((12 <= gap c c')%Z -> 89 / 10 <= sqd (hex_centre 1 x z) (hex_centre 1 x' z')).
Proof.
  intros x z x' z' c c'. pose proof (sqd_centres x z x' z') as E. cbv zeta in E. fold c c' in E. rewrite E. unfold gap.
  remember (col c' - col c)%Z as X. remember (hgt c' - hgt c)%Z as Y. clear HeqX HeqY E. pose proof inner_sq as I.
  assert (SX : IZR X ^ 2 = IZR (X ^ 2)) by (replace (X ^ 2)%Z with (X * X)%Z by ring; rewrite mult_IZR; ring).
  assert (SY : IZR Y ^ 2 = IZR (Y ^ 2)) by (replace (Y ^ 2)%Z with (Y * Y)%Z by ring; rewrite mult_IZR; ring).
  rewrite SX, SY. assert (0 <= IZR (X ^ 2)) by (apply IZR_le; nia). assert (P : 0 <= IZR (Y ^ 2)) by (apply IZR_le; nia). split; intros G.
  - assert (G' : 3 * IZR (X ^ 2) + IZR (Y ^ 2) = 4) by (rewrite <- mult_IZR, <- plus_IZR, G; reflexivity).
    apply Rabs_le. assert (0 <= (0.75 - inner ^ 2) * IZR (Y ^ 2) <= 0.0000000066 * 4).
    { split; [apply Rmult_le_pos; lra|]. apply Rmult_le_compat; lra. }
    lra.
  - assert (G' : 12 <= 3 * IZR (X ^ 2) + IZR (Y ^ 2)) by (rewrite <- mult_IZR, <- plus_IZR; apply IZR_le; exact G).
    assert (0.7499 * IZR (Y ^ 2) <= inner ^ 2 * IZR (Y ^ 2)) by (apply Rmult_le_compat_r; lra). lra.
Qed.

(** ** The table of centres *)
Local Open Scope nat_scope.
Lemma draw_shown : forall (outer : R) shape hide, (exists x z, x < fst shape /\ z < snd shape /\ hidden hide x z = false) ->
  draw_hexagons outer shape hide = Ok (map (fun x => map (fun z => if hidden hide x z then (0%R, 0%R) else hex_centre outer x z) (seq 0 (snd shape))) (seq 0 (fst shape))).
Proof.
  intros outer shape hide (x & z & Hx & Hz & H). unfold draw_hexagons.
  assert (E : existsb (fun '(x, z) => negb (hidden hide x z)) (list_prod (seq 0 (fst shape)) (seq 0 (snd shape))) = true).
  { apply existsb_exists. exists (x, z). split; [|now rewrite H]. apply in_prod; apply in_seq; lia. }
  now rewrite E.
Qed.

Lemma position_hex : forall (outer : R) shape hide coords s, draw_hexagons outer shape hide = Ok coords -> s < fst shape * snd shape ->
  state_to_position Hex shape (Some coords) (Z.of_nat s) =
    Ok (if hidden hide (s / snd shape) (s mod snd shape) then (0%R, 0%R) else hex_centre outer (s / snd shape) (s mod snd shape)).
Proof.
  intros outer [w h] hide coords s E Hs. cbn [fst snd] in *. unfold draw_hexagons in E. cbn [fst snd] in E.
  destruct (existsb _ _); [|discriminate]. assert (OI : forall a b : list (list (R * R)), Ok a = Ok b -> b = a) by congruence. apply OI in E. subst coords.
  assert (Hh : h <> 0) by nia. assert (D : s / h < w) by (apply Nat.div_lt_upper_bound; lia). pose proof (Nat.mod_upper_bound s h Hh) as M.
  unfold state_to_position, state_to_idx. cbn [fst snd].
  replace ((0 <=? Z.of_nat s)%Z && (Z.of_nat s <? Z.of_nat (w * h))%Z) with true by (symmetry; apply andb_true_iff; split; [apply Z.leb_le|apply Z.ltb_lt]; lia).
  cbn [bind fst snd]. rewrite <- Nat2Z.inj_div, <- Nat2Z.inj_mod.
  rewrite map_length, seq_length, py_index_nat by exact D. cbn [bind].
  rewrite (nth_map_lt _ _ _ _ _ _ 0) by (now rewrite seq_length). rewrite seq_nth by exact D. cbn [Nat.add].
  rewrite map_length, seq_length, py_index_nat by exact M. cbn [bind].
  rewrite (nth_map_lt _ _ _ _ _ _ 0) by (now rewrite seq_length). rewrite seq_nth by exact M. reflexivity.
Qed.

Lemma position_square : forall shape coords s, s < fst shape * snd shape ->
  state_to_position (A:=R) Square shape coords (Z.of_nat s) = Ok (IZR (fst (cell_of shape s)), IZR (snd (cell_of shape s))).
Proof.
  intros [w h] coords s Hs. cbn [fst snd] in *. unfold state_to_position, state_to_idx. cbn [fst snd].
  replace ((0 <=? Z.of_nat s)%Z && (Z.of_nat s <? Z.of_nat (w * h))%Z) with true by (symmetry; apply andb_true_iff; split; [apply Z.leb_le|apply Z.ltb_lt]; lia).
  cbn [bind fst snd nofZ NumR cell_of]. rewrite Nat2Z.inj_div, Nat2Z.inj_mod. reflexivity.
Qed.
