(** C212: softmax in floating point. *)
From Coq Require Import List ZArith Bool Reals Lia Lra Psatz.
From Verif Require Import PyBase PyProofs ActionModel ActionSpec ActionProofs SoftmaxModel SoftmaxProofs RSum VIProofs RoundModel RoundProofs SoftRoundModel SoftRoundSpec SoftRound.
Import ListNotations.
Local Open Scope R_scope.

Lemma exp_lip : forall a b, exp b - exp a <= (b - a) * exp b.
Proof.
  intros a b. assert (X := exp_ineq1_le (a - b)). assert (Y : exp a = exp (a - b) * exp b) by (rewrite <- exp_plus; f_equal; ring). rewrite Y. assert (Z := exp_pos b).
  assert ((1 + (a - b)) * exp b <= exp (a - b) * exp b) by (apply Rmult_le_compat_r; lra). lra.
Qed.
Lemma exp_le_one : forall x, x <= 0 -> 0 < exp x <= 1.
Proof. intros x H. split; [apply exp_pos|]. rewrite <- exp_0. destruct H as [H| ->]; [left; now apply exp_increasing|right; reflexivity]. Qed.
Lemma neg_exp : forall x, x <= 0 -> - x * exp x <= 1.
Proof.
  intros x H. assert (X := exp_ineq1_le (- x)). assert (Y : exp (- x) * exp x = 1) by (rewrite <- exp_plus, Rplus_opp_l; apply exp_0). assert (Z := exp_pos x).
  rewrite <- Y. apply Rmult_le_compat_r; lra.
Qed.
(** Exponentials of close numbers. *)
Lemma exp_close : forall x y d e, x <= 0 -> y <= 0 -> 0 <= d <= / 2 -> 0 <= e -> Rabs (y - x) <= d * - x + e -> Rabs (exp y - exp x) <= 2 * d * (1 + e) + e.
Proof.
  intros x y d e X Y D E H. apply Rabs_le2_inv in H. assert (0 <= d * e) by (apply Rmult_le_pos; lra). destruct (exp_le_one x X), (exp_le_one y Y). apply Rabs_le. pose proof (neg_exp x X). pose proof (neg_exp y Y). split.
  - assert (L := exp_lip y x). destruct (Rle_lt_dec x y) as [Q|Q].
    + assert (exp x <= exp y) by (destruct Q as [Q| ->]; [left; now apply exp_increasing|right; reflexivity]). lra.
    + assert ((x - y) * exp x <= (d * - x + e) * exp x) by (apply Rmult_le_compat_r; lra). assert (d * (- x * exp x) <= d * 1) by (apply Rmult_le_compat_l; lra). assert (e * exp x <= e * 1) by (apply Rmult_le_compat_l; lra). lra.
  - assert (L := exp_lip x y). assert (B : - x <= 2 * (- y + e)) by nra.
    assert (C : y - x <= 2 * d * (- y + e) + e) by (assert (d * - x <= d * (2 * (- y + e))) by (apply Rmult_le_compat_l; lra); lra).
    assert ((y - x) * exp y <= (2 * d * (- y + e) + e) * exp y) by (apply Rmult_le_compat_r; lra). assert (d * (- y * exp y) <= d * 1) by (apply Rmult_le_compat_l; lra).
    assert (d * e * exp y <= d * e * 1) by (apply Rmult_le_compat_l; lra). assert (e * exp y <= e * 1) by (apply Rmult_le_compat_l; lra). lra.
Qed.

Lemma map_nth_row : forall (f : fval R -> R) row, map (fun i => f (nth i row NaN)) (seq 0 (length row)) = map f row.
Proof. intros f row. transitivity (map f (map (fun i => nth i row NaN) (seq 0 (length row)))); [now rewrite map_map|now rewrite map_nth_seq]. Qed.

Section Softmax.
Variables (rnd ex : R -> R) (u eta ux etax : R).
Hypothesis RD : rounding rnd u eta.
Hypothesis RE : rounded_exp rnd ex ux etax.
Let add (a b : R) : R := rnd (a + b).

Lemma rsum_fin : forall l, rsum rnd (map Fin l) = Fin (fold_left add l 0).
Proof. intros l. unfold rsum. generalize 0. induction l as [|x l IH]; intros a; [reflexivity|]. cbn [map fold_left]. exact (IH (rnd (a + x))). Qed.
Lemma rdiv_fin : forall x y, y <> 0 -> rdiv rnd (Fin x) (Fin y) = Fin (rnd (x / y)).
Proof. intros x y H. unfold rdiv, fdiv. destruct (Reqb y 0) eqn:E; [|reflexivity]. apply Reqb_true in E. contradiction. Qed.
Lemma mapM_fin : forall ws, mapM (fun v => match fin_of v with Some a => Ok a | None => Err ValueError end) (map Fin ws) = Ok ws.
Proof. induction ws as [|w ws IH]; [reflexivity|]. cbn [map mapM fin_of bind]. now rewrite IH. Qed.

(** ** The choice *)
Lemma choice_ok : forall atol ps v, (forall x, In x ps -> 0 <= x /\ rnd x = x) -> Rabs (Rsum ps - 1) <= / 4 -> sum_rel u (length ps) <= / 8 -> sum_abs u eta (length ps) <= / 8 ->
  norm_error u eta (length ps) <= atol -> norm_error u eta (length ps) < 1 -> 0 <= v < 1 ->
  exists a, softmax_choice_r rnd atol (map Fin ps) v = Ok (Z.of_nat a) /\ (a < length ps)%nat /\ 0 < nth a ps 0.
Proof.
  intros atol ps v H P A1 N1 F F1 V. rename P into P1. apply Rabs_le2_inv in P1. destruct (shares rnd u eta RD ps H ltac:(lra)) as (SP & HS & SC & WS & WC). fold add in SP, HS, SC, WS, WC. set (S := fold_left add ps 0) in *.
  set (ws := map (fun y => rnd (y / S)) ps) in *. unfold norm_error in F, F1. set (al := sum_rel u (length ps)) in *. set (nu := sum_abs u eta (length ps)) in *. set (ne := INR (length ps) * eta) in *.
  pose proof (sum_rel_nn rnd u eta RD (length ps)) as A0. fold al in A0. pose proof (sum_abs_nn rnd u eta RD (length ps)) as N0. fold nu in N0. assert (U := u0 rnd u eta RD).
  assert (E1 : forallb (fun v => feqb v (Fin 0)) (map Fin ps) = false).
  { destruct (Rsum_pos_in ps ltac:(lra)) as (x & Hx & X). destruct (forallb _ _) eqn:E; [|reflexivity]. rewrite forallb_forall in E. specialize (E (Fin x) ltac:(now apply in_map)). cbn in E. apply Reqb_true in E. lra. }
  unfold softmax_choice_r. rewrite E1. assert (E2 : map (fun p => rdiv rnd p (rsum rnd (map Fin ps))) (map Fin ps) = map Fin ws).
  { rewrite rsum_fin. fold S. unfold ws. rewrite !map_map. apply map_ext. intros x. apply rdiv_fin. lra. }
  rewrite E2, mapM_fin. cbn [bind]. unfold choice_r. apply Rabs_le2_inv in SC. set (P := Rsum ps) in *. assert (SL : / 2 <= S) by nra.
  assert (IV : 0 < / S <= 2). { split; [now apply Rinv_0_lt_compat|]. rewrite <- (Rinv_involutive 2) by lra. apply Rinv_le_contravar; lra. }
  assert (X : Rabs (P / S - 1) <= 2 * (al * P + nu)).
  { replace (P / S - 1) with ((P - S) * / S) by (field; lra). rewrite Rabs_mult, (Rabs_pos_eq (/ S)) by lra. rewrite Rmult_comm. apply Rmult_le_compat; try lra; [apply Rabs_pos|]. apply Rabs_le. lra. }
  assert (PS : P / S <= 5 / 2) by (unfold Rdiv at 1; nra). apply Rabs_le2_inv in X. apply Rabs_le2_inv in WC. assert (u * (P / S) <= u * (5 / 2)) by (apply Rmult_le_compat_l; lra). assert (al * P <= al * (5 / 4)) by (apply Rmult_le_compat_l; lra).
  assert (WS1 : Rabs (Rsum ws - 1) <= 3 * u + ne + 3 * al + 2 * nu) by (apply Rabs_le; lra).
  replace (Rltb atol (Rabs (Rsum ws - 1))) with false by (symmetry; apply Rltb_false; lra). apply Rabs_le2_inv in WS1. destruct (Rsum_pos_in ws ltac:(lra)) as (w & Hw & W).
  destruct (C211_numpy rnd u eta RD ws v WS) as [L N]; [exists w; split; [exact Hw|exact W]|exact V|]. exists (@choice_p R (NumF rnd) ws v). set (a := choice_p ws v) in *. unfold ws in L, N. rewrite map_length in L.
  split; [reflexivity|]. split; [exact L|]. rewrite (nth_map_lt _ _ _ _ _ _ 0) in N by exact L. destruct (H (nth a ps 0) ltac:(now apply nth_In)) as [[Y|Y] _]; [exact Y|]. rewrite <- Y in N. unfold Rdiv in N. rewrite Rmult_0_l, (rnd0 rnd u eta RD) in N. lra.
Qed.

(** ** The probabilities *)
Section Row.
Variable T : R.
Hypothesis T0 : 0 < T.
Hypothesis US : exponent_rel u <= / 2.
Let tm (m : R) (v : fval R) : R := match v with Fin a => ex (rnd (rnd (a - m) / T)) | _ => 0 end.
Let tau : R := term_error u eta ux etax T.

Lemma abs_nn : 0 <= exponent_abs u eta T.
Proof. unfold exponent_abs. assert (U := u0 rnd u eta RD). assert (H := e0 rnd u eta RD). assert (0 <= eta / T) by (apply Rmult_le_pos; [exact H|left; now apply Rinv_0_lt_compat]). assert (0 <= (1 + u) * (eta / T)) by (apply Rmult_le_pos; lra). lra. Qed.
Lemma rel_nn : 0 <= exponent_rel u.
Proof. unfold exponent_rel. assert (U := u0 rnd u eta RD). assert (0 <= u * u) by (apply Rmult_le_pos; lra). lra. Qed.
Lemma tau_nn : 0 <= tau.
Proof.
  unfold tau, term_error. pose proof abs_nn. pose proof rel_nn. pose proof (re_u _ _ _ _ RE). pose proof (re_eta _ _ _ _ RE). assert (0 <= exponent_rel u * exponent_abs u eta T) by (apply Rmult_le_pos; lra). lra.
Qed.
Lemma term_close : forall a m, a <= m -> Rabs (ex (rnd (rnd (a - m) / T)) - exp ((a - m) / T)) <= tau.
Proof.
  intros a m L. set (d := a - m). assert (D : d <= 0) by (unfold d; lra). assert (U := u0 rnd u eta RD). assert (H := e0 rnd u eta RD). assert (IT : 0 < / T) by now apply Rinv_0_lt_compat.
  assert (RN : forall x, x <= 0 -> rnd x <= 0) by (intros x X; rewrite <- (rnd0 rnd u eta RD); now apply (rd_le _ _ _ RD)).
  set (x := d / T). set (y := rnd (rnd d / T)). assert (NP : forall z, z <= 0 -> z / T <= 0) by (intros z Z; unfold Rdiv; nra). assert (X : x <= 0) by now apply NP. assert (Y : y <= 0) by (apply RN, NP, RN, D).
  assert (C1 : Rabs (rnd d / T - x) <= u * - x + eta / T).
  { replace (rnd d / T - x) with ((rnd d - d) * / T) by (unfold x; field; lra). rewrite Rabs_mult, (Rabs_pos_eq (/ T)) by lra. pose proof (rd_err _ _ _ RD d) as E. rewrite (Rabs_left1 d) in E by exact D.
    replace (u * - x + eta / T) with ((u * - d + eta) * / T) by (unfold x; field; lra). apply Rmult_le_compat_r; lra. }
  assert (Z : rnd d / T <= 0) by (apply NP, RN, D). pose proof (rd_err _ _ _ RD (rnd d / T)) as C2. fold y in C2. rewrite (Rabs_left1 (rnd d / T)) in C2 by exact Z.
  assert (C3 : Rabs (y - x) <= exponent_rel u * - x + exponent_abs u eta T).
  { replace (y - x) with ((y - rnd d / T) + (rnd d / T - x)) by ring. eapply Rle_trans; [apply Rabs_triang|]. assert (B : - (rnd d / T) <= - x + (u * - x + eta / T)) by (apply Rabs_le2_inv in C1; lra).
    assert (u * - (rnd d / T) <= u * (- x + (u * - x + eta / T))) by (apply Rmult_le_compat_l; lra). unfold exponent_rel, exponent_abs. lra. }
  pose proof (exp_close x y _ _ X Y (conj rel_nn US) abs_nn C3) as C4. pose proof (re_err _ _ _ _ RE y Y) as C5. destruct (exp_le_one y Y) as [_ Y1]. pose proof (re_u _ _ _ _ RE).
  replace (ex y - exp x) with ((ex y - exp y) + (exp y - exp x)) by ring. eapply Rle_trans; [apply Rabs_triang|]. assert (ux * exp y <= ux * 1) by (apply Rmult_le_compat_l; lra). unfold tau, term_error. lra.
Qed.

Lemma row_max : forall row, (forall v, In v row -> v <> NaN /\ v <> PInf) -> (exists x, In (Fin x) row) -> exists m, fmax_list row = Ok (Fin m) /\ In (Fin m) row /\ forall a, In (Fin a) row -> a <= m.
Proof.
  intros [|v row] H (x & Hx); [destruct Hx|]. unfold fmax_list. destruct (fold_fmax row v) as (H1 & H2 & H3 & H4); [intros w Hw; apply (H w (or_intror Hw))|apply (H v (or_introl eq_refl))|].
  set (mx := fold_left _ row v) in *. assert (IM : In mx (v :: row)) by (destruct H1 as [->|]; [now left|now right]). assert (UB : forall w, In w (v :: row) -> fle w mx) by (intros w [<-|Hw]; auto).
  assert (X := UB _ Hx). destruct (H mx IM) as [_ NP]. destruct mx as [| | |m]; try congruence; [cbn in X; tauto|]. exists m. split; [reflexivity|]. split; [exact IM|]. intros a Ha. exact (UB _ Ha).
Qed.

Theorem C212_probabilities : forall row, (forall v, In v row -> v <> NaN /\ v <> PInf) -> (exists x, In (Fin x) row) -> exists ps,
  softmax_r rnd ex row T = map Fin ps /\ length ps = length row /\
  (forall a, (a < length row)%nat -> 0 <= nth a ps 0 <= 1 /\ rnd (nth a ps 0) = nth a ps 0 /\ (nth a row NaN = NInf -> nth a ps 0 = 0) /\
     Rabs (nth a ps 0 - gibbs_weight T (nth a row NaN) / Rsum (map (gibbs_weight T) row)) <= prob_error u eta ux etax T (length row)).
Proof.
  intros row H FX. destruct (row_max row H FX) as (m & EM & IM & UB). unfold softmax_r. assert (E0 : forallb isninf row = false) by (apply all_ninf_false; destruct FX as (x & Hx); exists (Fin x); split; [exact Hx|discriminate]).
  rewrite E0, EM. set (ts := map (tm m) row). assert (E1 : map (fun v => rexp ex (rdiv_t rnd (rsub rnd v (Fin m)) T)) row = map Fin ts).
  { unfold ts. rewrite map_map. apply map_ext_in. intros v Hv. destruct (H v Hv). destruct v; try congruence; reflexivity. }
  rewrite E1, rsum_fin. set (S := fold_left add ts 0). assert (U := u0 rnd u eta RD). assert (IT : 0 < / T) by now apply Rinv_0_lt_compat.
  assert (TF : forall x, In x ts -> 0 <= x /\ rnd x = x).
  { intros x Hx. apply in_map_iff in Hx. destruct Hx as (v & <- & _). destruct v; cbn [tm]; try (split; [lra|apply (rnd0 rnd u eta RD)]). split; [apply (re_nn _ _ _ _ RE)|apply (re_float _ _ _ _ RE)]. }
  assert (HS : forall x, In x ts -> x <= S) by (intros x Hx; apply (fold_has rnd u eta RD); auto; [apply (rnd0 rnd u eta RD)|lra]).
  assert (S1 : 1 <= S). { apply HS. apply in_map_iff. exists (Fin m). split; [|exact IM]. cbn [tm]. rewrite Rminus_diag_eq by reflexivity. rewrite (rnd0 rnd u eta RD). unfold Rdiv. rewrite Rmult_0_l, (rnd0 rnd u eta RD). apply (re_zero _ _ _ _ RE). }
  set (gw := fun v : fval R => match v with Fin a => exp ((a - m) / T) | _ => 0 end). set (E := Rsum (map gw row)). pose proof tau_nn as TN.
  assert (TC : forall v, In v row -> Rabs (tm m v - gw v) <= tau). { intros v Hv. destruct v as [| | |a]; cbn [tm gw]; try (rewrite Rminus_0_r, Rabs_R0; exact TN). apply term_close. now apply UB. }
  assert (G1 : forall v, In v row -> 0 <= gw v <= 1).
  { intros v Hv. destruct v as [| | |a]; cbn [gw]; try lra. destruct (exp_le_one ((a - m) / T)); [|lra]. specialize (UB a Hv). unfold Rdiv. nra. }
  assert (GE : forall v, In v row -> gw v <= E).
  { intros v Hv. unfold E. clear - G1 Hv. induction row as [|w row IH]; [destruct Hv|]. cbn [map]. rewrite Rsum_cons. destruct Hv as [->|Hv].
    - assert (0 <= Rsum (map gw row)); [|lra]. apply Rsum_nonneg. intros x Hx. apply in_map_iff in Hx. destruct Hx as (z & <- & Hz). apply G1. now right.
    - pose proof (proj1 (G1 w ltac:(now left))). specialize (IH ltac:(intros; apply G1; now right) Hv). lra. }
  assert (E1' : 1 <= E). { replace 1 with (gw (Fin m)); [now apply GE|]. cbn [gw]. rewrite Rminus_diag_eq by reflexivity. unfold Rdiv. rewrite Rmult_0_l. apply exp_0. }
  assert (SE : Rabs (S - E) <= total_error u eta ux etax T (length row)).
  { pose proof (sum_close rnd u eta RD ts TF) as X. fold add in X. fold S in X. replace (length ts) with (length row) in X by (symmetry; apply map_length). pose proof (Rsum_map_close _ (tm m) gw row tau TC) as Y. fold E in Y. fold ts in X, Y. unfold total_error. fold tau.
    assert (Z : Rsum ts <= INR (length row) * (1 + tau)).
    { assert (B : forall l, (forall v, In v l -> tm m v <= 1 + tau) -> Rsum (map (tm m) l) <= INR (length l) * (1 + tau)).
      { induction l as [|w l IHl]; intros B; [cbn; lra|]. cbn [map length]. rewrite Rsum_cons, S_INR. pose proof (B w ltac:(now left)). specialize (IHl ltac:(intros; apply B; now right)). lra. }
      apply B. intros v Hv. specialize (TC v Hv). specialize (G1 v Hv). apply Rabs_le2_inv in TC. lra. }
    replace (S - E) with ((S - Rsum ts) + (Rsum ts - E)) by ring. eapply Rle_trans; [apply Rabs_triang|]. pose proof (sum_rel_nn rnd u eta RD (length row)).
    assert (sum_rel u (length row) * Rsum ts <= sum_rel u (length row) * (INR (length row) * (1 + tau))) by (apply Rmult_le_compat_l; lra). lra. }
  assert (ED : map (fun x => rdiv rnd x (Fin S)) (map Fin ts) = map Fin (map (fun v => rnd (tm m v / S)) row)) by (unfold ts; rewrite !map_map; apply map_ext; intros v; apply rdiv_fin; lra).
  rewrite ED. exists (map (fun v => rnd (tm m v / S)) row). split; [reflexivity|]. split; [apply map_length|]. intros a Ha. rewrite (nth_map_lt _ _ _ _ _ _ NaN) by exact Ha. set (v := nth a row NaN). assert (Hv : In v row) by now apply nth_In.
  destruct (TF (tm m v) ltac:(now apply in_map)) as [T1 _]. pose proof (HS (tm m v) ltac:(now apply in_map)) as T2. assert (IS : 0 < / S <= 1). { split; [apply Rinv_0_lt_compat; lra|]. rewrite <- Rinv_1. apply Rinv_le_contravar; lra. }
  assert (Q : 0 <= tm m v / S <= 1). { split; [apply Rmult_le_pos; lra|]. replace 1 with (S / S) by (field; lra). apply Rmult_le_compat_r; lra. }
  assert (R1 : rnd 1 = 1) by (rewrite <- (re_zero _ _ _ _ RE); apply (re_float _ _ _ _ RE)).
  repeat split.
  - apply (rnd_nn rnd u eta RD). apply Q.
  - rewrite <- R1. apply (rd_le _ _ _ RD). apply Q.
  - apply (rd_idem _ _ _ RD).
  - intros EV. rewrite EV. cbn [tm]. unfold Rdiv. rewrite Rmult_0_l. apply (rnd0 rnd u eta RD).
  - assert (GW : gibbs_weight T v / Rsum (map (gibbs_weight T) row) = gw v / E).
    { assert (K : forall w, In w row -> gw w = exp (- (m / T)) * gibbs_weight T w). { intros w _. destruct w; cbn [gw gibbs_weight]; try ring. rewrite <- exp_plus. f_equal. field. lra. }
      unfold E. rewrite (map_ext_in _ _ _ K), <- (map_map (gibbs_weight T)), Rsum_scal, K by exact Hv. assert (XP := exp_pos (- (m / T))). assert (EE : E = exp (- (m / T)) * Rsum (map (gibbs_weight T) row)) by (unfold E; rewrite (map_ext_in _ _ _ K), <- (map_map (gibbs_weight T)), Rsum_scal; reflexivity).
      field. split; nra. }
    rewrite GW. pose proof (rd_err _ _ _ RD (tm m v / S)) as RR. rewrite (Rabs_pos_eq _ (proj1 Q)) in RR. assert (u * (tm m v / S) <= u * 1) by (apply Rmult_le_compat_l; lra).
    assert (B : Rabs (tm m v / S - gw v / E) <= tau + total_error u eta ux etax T (length row)).
    { replace (tm m v / S - gw v / E) with ((tm m v - gw v) * / S + (gw v * / E) * ((E - S) * / S)) by (field; split; lra). specialize (G1 v Hv). specialize (GE v Hv). specialize (TC v Hv). rewrite Rabs_minus_sym in SE.
      assert (IE : 0 < / E) by (apply Rinv_0_lt_compat; lra). assert (GQ : 0 <= gw v * / E <= 1) by (split; [apply Rmult_le_pos; lra|replace 1 with (E * / E) by (field; lra); apply Rmult_le_compat_r; lra]).
      eapply Rle_trans; [apply Rabs_triang|]. rewrite !Rabs_mult, (Rabs_pos_eq (/ S)), (Rabs_pos_eq (gw v)), (Rabs_pos_eq (/ E)) by lra. apply Rplus_le_compat.
      - rewrite <- (Rmult_1_r tau). apply Rmult_le_compat; try lra. apply Rabs_pos.
      - rewrite <- (Rmult_1_l (total_error _ _ _ _ _ _)). apply Rmult_le_compat; try lra; [apply Rmult_le_pos; [apply Rabs_pos|lra]|]. rewrite <- (Rmult_1_r (total_error _ _ _ _ _ _)). apply Rmult_le_compat; try lra. apply Rabs_pos. }
    replace (rnd (tm m v / S) - gw v / E) with ((rnd (tm m v / S) - tm m v / S) + (tm m v / S - gw v / E)) by ring. eapply Rle_trans; [apply Rabs_triang|]. unfold prob_error. fold tau. lra.
Qed.

Theorem C212_choice : forall atol row v, (forall x, In x row -> x <> NaN /\ x <> PInf) -> row <> [] ->
  let n := length row in INR n * prob_error u eta ux etax T n <= / 4 -> sum_rel u n <= / 8 -> sum_abs u eta n <= / 8 -> norm_error u eta n <= atol -> norm_error u eta n < 1 -> 0 <= v < 1 ->
  exists a, softmax_choice_r rnd atol (softmax_r rnd ex row T) v = Ok (Z.of_nat a) /\ (a < n)%nat /\ ((exists x, In (Fin x) row) -> exists x, nth a row NaN = Fin x).
Proof.
  intros atol row v H NE n PE SR SA NR N1 V. assert (L0 : (0 < n)%nat) by (unfold n; destruct row; [congruence|cbn; lia]). assert (LN : 1 <= INR n) by (apply (le_INR 1); lia). destruct (forallb isninf row) eqn:E0.
  - unfold softmax_r. rewrite E0. fold n. set (c := rnd (1 / INR n)). assert (EC : map (fun _ => Fin c) row = map Fin (map (fun _ => c) row)) by now rewrite map_map. rewrite EC. assert (IN : 0 < / INR n <= 1). { split; [apply Rinv_0_lt_compat; lra|]. rewrite <- Rinv_1. apply Rinv_le_contravar; lra. }
    assert (LM : length (map (fun _ : fval R => c) row) = n) by apply map_length. destruct (choice_ok atol (map (fun _ => c) row) v) as (a & EA & LA & _); rewrite ?LM; auto.
    + intros x Hx. apply in_map_iff in Hx. destruct Hx as (w & <- & _). split; [apply (rnd_nn rnd u eta RD); unfold Rdiv; lra|apply (rd_idem _ _ _ RD)].
    + assert (X : forall c, Rsum (map (fun _ : fval R => c) row) = INR n * c). { unfold n. clear. intros c. induction row as [|w row IH]; [cbn; unfold Rsum; cbn; lra|]. cbn [map length]. rewrite Rsum_cons, IH, S_INR. ring. }
      rewrite X. replace (INR n * c - 1) with (INR n * (c - 1 / INR n)) by (field; lra). rewrite Rabs_mult, (Rabs_pos_eq (INR n)) by lra. eapply Rle_trans; [|exact PE]. apply Rmult_le_compat_l; [lra|].
      pose proof (rd_err _ _ _ RD (1 / INR n)) as RR. fold c in RR. rewrite (Rabs_pos_eq (1 / INR n)) in RR by (unfold Rdiv; lra). assert (U := u0 rnd u eta RD). assert (u * (1 / INR n) <= u * 1) by (apply Rmult_le_compat_l; unfold Rdiv; lra).
      pose proof tau_nn as TN. pose proof (sum_rel_nn rnd u eta RD n). pose proof (sum_abs_nn rnd u eta RD n). assert (0 <= INR n * tau) by (apply Rmult_le_pos; lra). assert (0 <= sum_rel u n * (INR n * (1 + tau))) by (repeat apply Rmult_le_pos; lra).
      unfold prob_error, total_error. fold tau. lra.
    + exists a. split; [exact EA|]. rewrite LM in LA. split; [exact LA|]. intros (x & Hx). rewrite forallb_forall in E0. specialize (E0 _ Hx). discriminate.
  - assert (FX : exists x, In (Fin x) row). { apply all_ninf_false in E0. destruct E0 as (w & Hw & NW). destruct (H w Hw). destruct w; try congruence. eauto. }
    destruct (C212_probabilities row H FX) as (ps & EP & LP & PP). rewrite EP. fold n in LP, PP. assert (GT : 0 < Rsum (map (gibbs_weight T) row)) by (apply gibbs_total_pos; [exact H|destruct FX as (x & Hx); exists (Fin x); split; [exact Hx|discriminate]]).
    destruct (choice_ok atol ps v) as (a & EA & LA & PA); rewrite ?LP; auto.
    + intros x Hx. apply (In_nth _ _ 0) in Hx. destruct Hx as (i & Hi & <-). rewrite LP in Hi. destruct (PP i Hi) as ((? & _) & ? & _). auto.
    + rewrite <- (map_nth_seq _ 0 ps) at 1. rewrite LP. eapply Rle_trans; [|exact PE].
      assert (G : Rsum (map (fun i => gibbs_weight T (nth i row NaN) / Rsum (map (gibbs_weight T) row)) (seq 0 n)) = 1).
      { transitivity (Rsum (map (fun v => gibbs_weight T v / Rsum (map (gibbs_weight T) row)) row)); [f_equal; apply (map_nth_row (fun v => gibbs_weight T v / Rsum (map (gibbs_weight T) row)))|]. 
        rewrite (map_ext _ (fun v => / Rsum (map (gibbs_weight T) row) * gibbs_weight T v)) by (intros; unfold Rdiv; ring). rewrite <- (map_map (gibbs_weight T) (fun x => / Rsum (map (gibbs_weight T) row) * x)), Rsum_scal. field. lra. }
      rewrite <- G. eapply Rle_trans; [apply Rsum_map_close|rewrite seq_length; right; reflexivity]. intros i Hi. apply in_seq in Hi. apply PP. lia.
    + exists a. split; [exact EA|]. rewrite LP in LA. split; [exact LA|]. intros _. destruct (PP a LA) as (_ & _ & Z & _). destruct (H (nth a row NaN) ltac:(now apply nth_In)). destruct (nth a row NaN) as [| | |x]; try congruence; [rewrite Z in PA by reflexivity; lra|eauto].
Qed.
End Row.
End Softmax.
