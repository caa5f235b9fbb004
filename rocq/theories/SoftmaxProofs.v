From Coq Require Import List ZArith Reals Bool Lia Lra.
From Verif Require Import PyBase PyProofs ActionModel ActionSpec ActionProofs SoftmaxModel.
Import ListNotations.
Local Open Scope nat_scope.

(** * Inverse-CDF sampling *)
Lemma cumsum_from_length : forall (l : list R) c, length (cumsum_from c l) = length l.
Proof. induction l; intros; cbn; auto. Qed.
Lemma Rsum_cons : forall x l, Rsum (x :: l) = (x + Rsum l)%R.
Proof. reflexivity. Qed.
Lemma cumsum_from_nth : forall (l : list R) c i, i < length l ->
  nth i (cumsum_from c l) 0%R = (c + Rsum (firstn (S i) l))%R.
Proof.
  induction l as [|x l IH]; intros c i H; [cbn in H; lia|]. cbn [cumsum_from]. destruct i as [|i].
  - cbn [nth firstn]. rewrite Rsum_cons. unfold Rsum; cbn [fold_right]. cbn [nadd NumR]. lra.
  - cbn [nth]. cbn in H. rewrite IH by lia. cbn [nadd NumR]. change (firstn (S (S i)) (x :: l)) with (x :: firstn (S i) l).
    rewrite Rsum_cons. lra.
Qed.
Lemma cumsum_last : forall l : list R, l <> [] -> last (cumsum l) 0%R = Rsum l.
Proof.
  intros l N. assert (L : 0 < length l) by (destruct l; [congruence|cbn; lia]).
  assert (E : last (cumsum l) 0%R = nth (length (cumsum l) - 1) (cumsum l) 0%R).
  { generalize (cumsum l). clear. induction l as [|x l IH]; [reflexivity|]. destruct l as [|y l]; [reflexivity|].
    change (last (x :: y :: l) 0%R) with (last (y :: l) 0%R). rewrite IH. cbn [length]. 
    replace (S (S (length l)) - 1) with (S (S (length l) - 1)) by lia. reflexivity. }
  rewrite E. unfold cumsum. rewrite cumsum_from_length, cumsum_from_nth by lia.
  replace (S (length l - 1)) with (length l) by lia. rewrite firstn_all. cbn [n0 NumR]. lra.
Qed.
Lemma search_spec : forall (l : list R) u k, searchsorted_right l u = k ->
  k <= length l /\ (k < length l -> (u < nth k l 0)%R) /\ forall j, j < k -> (nth j l 0 <= u)%R.
Proof.
  induction l as [|x l IH]; intros u k <-; cbn [searchsorted_right].
  - cbn. repeat split; intros; lia.
  - change (nltb u x) with (Rltb u x). destruct (Rltb u x) eqn:E.
    + apply Rltb_true in E. cbn. repeat split; intros; try lia; try lra.
    + apply Rltb_false in E. destruct (IH u _ eq_refl) as (H1 & H2 & H3). cbn [length]. split; [lia|]. split.
      * intros H. cbn [nth]. apply H2. lia.
      * intros [|j] Hj; cbn [nth]; [exact E|]. apply H3. lia.
Qed.
Lemma search_unique : forall (l : list R) (u : R) (F : nat -> R), (forall i, i < length l -> nth i l 0%R = F (S i)) ->
  (forall i j, i <= j -> (F i <= F j)%R) -> (F 0%nat <= u < F (length l))%R ->
  forall i, searchsorted_right l u = i <-> i < length l /\ (F i <= u < F (S i))%R.
Proof.
  intros l u F HF M HU.
  assert (K : forall i, searchsorted_right l u = i -> i < length l /\ (F i <= u < F (S i))%R).
  { intros i E. destruct (search_spec l u i E) as (H1 & H2 & H3).
    assert (Li : i < length l).
    { destruct (Nat.eq_dec i (length l)) as [->|]; [|lia]. exfalso. destruct (length l) as [|n] eqn:EL; [lra|].
      specialize (H3 n ltac:(lia)). rewrite HF in H3 by lia. lra. }
    split; [exact Li|]. split; [|rewrite <- HF by exact Li; auto].
    destruct i as [|i]; [apply HU|]. specialize (H3 i ltac:(lia)). rewrite HF in H3 by lia. exact H3. }
  intros i. split; [apply K|]. intros [L H]. destruct (K _ eq_refl) as [L' H'].
  set (k := searchsorted_right l u) in *. destruct (lt_eq_lt_dec k i) as [[D|D]|D]; [|exact D|].
  - assert (F (S k) <= F i)%R by (apply M; lia). lra.
  - assert (F (S i) <= F k)%R by (apply M; lia). lra.
Qed.

Lemma Rsum_firstn_mono : forall (l : list R), (forall x, In x l -> (0 <= x)%R) ->
  forall i j, i <= j -> (Rsum (firstn i l) <= Rsum (firstn j l))%R.
Proof.
  induction l as [|x l IH]; intros H i j L; [rewrite !firstn_nil; lra|].
  assert (Hx : (0 <= x)%R) by (apply H; now left).
  assert (Hl : forall y, In y l -> (0 <= y)%R) by (intros; apply H; now right).
  destruct i as [|i], j as [|j]; try lia; cbn [firstn]; rewrite ?Rsum_cons.
  - lra.
  - change (Rsum []) with 0%R. assert (0 <= Rsum (firstn j l))%R; [|lra].
    apply Rsum_nonneg. intros y Hy. apply Hl. clear -Hy. revert l Hy. induction j; intros [|z l] Hy; cbn in *; try tauto. destruct Hy; auto.
  - assert (Rsum (firstn i l) <= Rsum (firstn j l))%R; [|lra]. apply IH; [exact Hl|lia].
Qed.
Lemma Rsum_firstn_S : forall (l : list R) i, i < length l -> Rsum (firstn (S i) l) = (Rsum (firstn i l) + nth i l 0)%R.
Proof.
  induction l as [|x l IH]; intros i H; [cbn in H; lia|]. destruct i as [|i].
  - cbn [firstn nth]. rewrite Rsum_cons. change (Rsum []) with 0%R. lra.
  - cbn [nth]. change (firstn (S (S i)) (x :: l)) with (x :: firstn (S i) l). change (firstn (S i) (x :: l)) with (x :: firstn i l).
    rewrite !Rsum_cons, IH by (cbn in H; lia). lra.
Qed.


Section Choice.
Variables (ps : list R) (u : R).
Hypothesis (NN : forall x, In x ps -> (0 <= x)%R) (Pos : (0 < Rsum ps)%R) (HU : (0 <= u < 1)%R).
Let ne : ps <> []. Proof. intros ->. unfold Rsum in Pos; cbn in Pos. lra. Qed.

Lemma cum_share_mono : forall i j, i <= j -> (cum_share ps i <= cum_share ps j)%R.
Proof.
  intros i j L. unfold cum_share. apply Rmult_le_compat_r; [apply Rlt_le, Rinv_0_lt_compat; exact Pos|].
  now apply Rsum_firstn_mono.
Qed.
Lemma cum_share_ends : (cum_share ps 0%nat <= u < cum_share ps (length ps))%R.
Proof.
  unfold cum_share. rewrite firstn_all. cbn [firstn]. change (Rsum []) with 0%R.
  replace (Rsum ps / Rsum ps)%R with 1%R by (field; lra). replace (0 / Rsum ps)%R with 0%R by (field; lra). lra.
Qed.
Lemma choice_p_iff : forall i, choice_p ps u = i <-> i < length ps /\ (cum_share ps i <= u < cum_share ps (S i))%R.
Proof.
  intros i. unfold choice_p.
  assert (L : length (cdf ps) = length ps) by (unfold cdf, cumsum; now rewrite map_length, cumsum_from_length).
  rewrite <- L. apply search_unique.
  - intros j Hj. rewrite L in Hj. unfold cdf. change n0 with 0%R at 1. rewrite cumsum_last by exact ne.
    rewrite (nth_map_lt _ _ _ _ _ _ 0%R) by (unfold cumsum; now rewrite cumsum_from_length).
    unfold cumsum. rewrite cumsum_from_nth by exact Hj. unfold cum_share. cbn [ndiv n0 NumR]. f_equal. lra.
  - apply cum_share_mono.
  - rewrite L. apply cum_share_ends.
Qed.
Lemma rand_choice_nb_iff : forall i, rand_choice_nb ps u = i <-> i < length ps /\ (cum_share ps i <= u < cum_share ps (S i))%R.
Proof.
  intros i. unfold rand_choice_nb. rewrite nsum_Rsum. set (l := map _ ps).
  assert (L : length (cumsum l) = length ps) by (unfold cumsum, l; now rewrite cumsum_from_length, map_length).
  rewrite <- L. apply search_unique.
  - intros j Hj. rewrite L in Hj. unfold cumsum. rewrite cumsum_from_nth by (unfold l; now rewrite map_length).
    unfold l. rewrite firstn_map. unfold cum_share. cbn [ndiv n0 NumR].
    rewrite (map_ext _ (fun x => (/ Rsum ps) * x)%R) by (intros; unfold Rdiv; ring). rewrite Rsum_scal. unfold Rdiv. ring.
  - apply cum_share_mono.
  - rewrite L. apply cum_share_ends.
Qed.
Lemma cum_share_len : forall i, i < length ps -> (cum_share ps (S i) - cum_share ps i = nth i ps 0 / Rsum ps)%R.
Proof. intros i L. unfold cum_share. rewrite Rsum_firstn_S by exact L. field. lra. Qed.
Lemma choice_pos : forall i, i < length ps -> (cum_share ps i <= u < cum_share ps (S i))%R -> (0 < nth i ps 0)%R.
Proof.
  intros i L H. assert (E := cum_share_len i L). assert (D : (0 < nth i ps 0 / Rsum ps)%R) by lra.
  replace (nth i ps 0)%R with (nth i ps 0 / Rsum ps * Rsum ps)%R by (field; lra). now apply Rmult_lt_0_compat.
Qed.
End Choice.

(** * Softmax rows *)

Lemma fsum_fin : forall l, fsum (map Fin l) = Fin (Rsum l).
Proof.
  intros l. unfold fsum. assert (K : forall l b, fold_left fadd (map Fin l) (Fin b) = Fin (b + Rsum l)%R).
  { clear. induction l as [|x l IH]; intros b; cbn [map fold_left]; [f_equal; unfold Rsum; cbn; lra|].
    cbn [fadd]. rewrite IH, Rsum_cons. f_equal. lra. }
  rewrite K. f_equal. lra.
Qed.

Lemma all_ninf_false : forall row : list (fval R), forallb isninf row = false <-> exists v, In v row /\ v <> NInf.
Proof.
  intros row. split.
  - intros H. induction row as [|v row IH]; [discriminate|]. cbn [forallb] in H. destruct (isninf v) eqn:E.
    + destruct IH as (w & Hw & N); [exact H|]. exists w. split; [now right|exact N].
    + exists v. split; [now left|]. intros ->. discriminate.
  - intros (v & Hv & N). destruct (forallb isninf row) eqn:E; [|reflexivity]. rewrite forallb_forall in E.
    specialize (E v Hv). destruct v; try discriminate. congruence.
Qed.

Lemma gibbs_total_pos : forall T row, (forall v, In v row -> v <> NaN /\ v <> PInf) -> (exists v, In v row /\ v <> NInf) ->
  (0 < Rsum (map (gibbs_weight T) row))%R.
Proof.
  intros T row H (v & Hv & N). destruct (in_split _ _ Hv) as (l1 & l2 & ->).
  rewrite map_app, Rsum_app. cbn [map]. rewrite Rsum_cons.
  assert (P : forall l, (0 <= Rsum (map (gibbs_weight T) l))%R).
  { intros l. apply Rsum_nonneg. intros x Hx. apply in_map_iff in Hx. destruct Hx as (w & <- & _).
    destruct w; cbn; try lra. apply Rlt_le, exp_pos. }
  assert (0 < gibbs_weight T v)%R. { destruct (H v Hv). destruct v; try congruence. cbn. apply exp_pos. }
  specialize (P l1) as P1. specialize (P l2) as P2. lra.
Qed.

Lemma softmax_gibbs : forall row T, (0 < T)%R -> (forall v, In v row -> v <> NaN /\ v <> PInf) ->
  (exists v, In v row /\ v <> NInf) ->
  softmax row T = map (fun v => Fin (gibbs_weight T v / Rsum (map (gibbs_weight T) row))%R) row.
Proof.
  intros row T HT H X. unfold softmax. rewrite (proj2 (all_ninf_false row) X).
  destruct row as [|x row]; [destruct X as (v & [] & _)|]. unfold fmax_list.
  destruct (fold_fmax row x) as (H1 & H2 & H3 & H4); [intros v Hv; apply (H v (or_intror Hv))|apply (H x (or_introl eq_refl))|].
  set (mx := fold_left _ row x) in *. set (R0 := x :: row) in *.
  assert (Im : In mx R0) by (destruct H1 as [->|]; [now left|now right]).
  assert (UB : forall v, In v R0 -> fle v mx) by (intros v [<-|Hv]; auto).
  assert (M : exists m, mx = Fin m).
  { destruct X as (v & Hv & N). specialize (UB v Hv). destruct (H v Hv) as [N1 N2]. destruct (H mx Im) as [N3 N4].
    destruct mx; try congruence; [|eauto]. destruct v; cbn in UB; try congruence; tauto. }
  destruct M as (m & ->).
  set (w := fun v => (exp (- (m / T)) * gibbs_weight T v)%R).
  assert (EX : map (fun v => fexp (fdiv_t (fsub v (Fin m)) T)) R0 = map Fin (map w R0)).
  { rewrite map_map. apply map_ext_in. intros v Hv. destruct (H v Hv). destruct v as [| | |a]; try congruence; cbn; unfold w; cbn.
    - f_equal. ring.
    - rewrite <- exp_plus. f_equal. f_equal. field. lra. }
  rewrite EX, fsum_fin. rewrite !map_map. apply map_ext_in. intros v Hv.
  assert (SW : Rsum (map w R0) = (exp (- (m / T)) * Rsum (map (gibbs_weight T) R0))%R).
  { unfold w. rewrite <- Rsum_scal, map_map. reflexivity. }
  assert (GP := gibbs_total_pos T R0 H X). assert (EP := exp_pos (- (m / T))).
  assert (P : (0 < Rsum (map w R0))%R) by (rewrite SW; now apply Rmult_lt_0_compat).
  cbn [fdiv]. destruct (Reqb (Rsum (map w R0)) 0) eqn:E; [apply Reqb_true in E; lra|].
  f_equal. rewrite SW. unfold w. field. lra.
Qed.

Lemma softmax_all_ninf : forall row T, (forall v, In v row -> v = NInf) ->
  softmax row T = map (fun _ => Fin (1 / INR (length row))%R) row.
Proof.
  intros row T H. unfold softmax. destruct (forallb isninf row) eqn:E; [reflexivity|].
  apply all_ninf_false in E. destruct E as (v & Hv & N). elim N. auto.
Qed.

Lemma Rsum_div : forall A (f : A -> R) c l, Rsum (map (fun v => f v / c)%R l) = (Rsum (map f l) / c)%R.
Proof.
  intros. rewrite (map_ext _ (fun v => / c * f v)%R) by (intros; unfold Rdiv; ring).
  rewrite <- (map_map f (fun x => / c * x)%R), Rsum_scal. unfold Rdiv. ring.
Qed.
Lemma Rsum_const : forall A c (l : list A), Rsum (map (fun _ => c) l) = (INR (length l) * c)%R.
Proof. induction l; [unfold Rsum; cbn; lra|]. cbn [map]. rewrite Rsum_cons, IHl. cbn [length]. rewrite S_INR. lra. Qed.

Lemma softmax_pinf : forall row T, In PInf row -> (forall v, In v row -> v <> NaN) ->
  softmax row T = map (fun _ => NaN) row.
Proof.
  intros row T I H. unfold softmax. rewrite (proj2 (all_ninf_false row)) by (exists PInf; split; [exact I|discriminate]).
  destruct row as [|x row]; [destruct I|]. unfold fmax_list.
  destruct (fold_fmax row x) as (H1 & H2 & H3 & H4); [intros v Hv; apply (H v (or_intror Hv))|apply (H x (or_introl eq_refl))|].
  set (mx := fold_left _ row x) in *. set (R0 := x :: row) in *.
  assert (UB : fle PInf mx) by (destruct I as [<-|Hv]; auto).
  destruct mx; cbn in UB; try tauto; try congruence.
  assert (S : fsum (map (fun v => fexp (fdiv_t (fsub v PInf) T)) R0) = NaN).
  { apply in_split in I. destruct I as (l1 & l2 & ->). unfold fsum. rewrite map_app, fold_left_app. cbn [map fold_left].
    set (b := fold_left _ _ (Fin 0%R)). assert (E : fadd b (fexp (fdiv_t (fsub PInf PInf) T)) = NaN) by (cbn; destruct b; reflexivity).
    rewrite E. clear. induction l2 as [|y l IH]; [reflexivity|]. cbn [map fold_left]. exact IH. }
  rewrite S, map_map. apply map_ext. intros v. destruct (fexp _); reflexivity.
Qed.
