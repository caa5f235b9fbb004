(** C210-C212: random choices in floating point. *)
From Coq Require Import List ZArith Bool Reals Lia Lra Psatz.
From Verif Require Import PyBase PyProofs ActionModel ActionSpec ActionProofs SoftmaxModel SoftmaxProofs RSum VIProofs RoundModel RoundProofs SoftRoundModel SoftRoundSpec.
Import ListNotations.
Local Open Scope R_scope.

Section Choice.
Variables (rnd : R -> R) (u eta : R).
Hypothesis RD : rounding rnd u eta.
Let flo (x : R) : Prop := rnd x = x.
Let add (a b : R) : R := rnd (a + b).

Lemma rnd_nn : forall x, 0 <= x -> 0 <= rnd x.
Proof. intros x H. rewrite <- (rnd0 rnd u eta RD). now apply (rd_le _ _ _ RD). Qed.
Lemma add_ge : forall a b, flo a -> 0 <= b -> a <= add a b.
Proof. intros a b F H. unfold add. rewrite <- (F : rnd a = a) at 1. apply (rd_le _ _ _ RD). lra. Qed.
Lemma add_ge2 : forall a b, flo b -> 0 <= a -> b <= add a b.
Proof. intros a b F H. unfold add. rewrite <- (F : rnd b = b) at 1. apply (rd_le _ _ _ RD). lra. Qed.
Lemma fold_ge : forall l a, flo a -> (forall x, In x l -> 0 <= x) -> a <= fold_left add l a /\ flo (fold_left add l a).
Proof.
  induction l as [|x l IH]; intros a F H; [split; [apply Rle_refl|exact F]|]. cbn [fold_left].
  destruct (IH (add a x)) as [H1 H2]; [apply (rd_idem _ _ _ RD)|intros; apply H; now right|]. split; [|exact H2]. eapply Rle_trans; [|exact H1]. apply add_ge; [exact F|apply H; now left].
Qed.
Lemma fold_has : forall l a, flo a -> 0 <= a -> (forall x, In x l -> 0 <= x /\ flo x) -> forall x, In x l -> x <= fold_left add l a.
Proof.
  induction l as [|y l IH]; intros a F A H x Hx; [destruct Hx|]. cbn [fold_left]. assert (Y := H y ltac:(now left)). assert (P : 0 <= add a y) by (apply rnd_nn; lra).
  destruct Hx as [->|Hx].
  - eapply Rle_trans; [|apply fold_ge; [apply (rd_idem _ _ _ RD)|intros; apply H; now right]]. apply add_ge2; [apply Y|exact A].
  - apply IH; auto; [apply (rd_idem _ _ _ RD)|intros; apply H; now right].
Qed.

(** ** Cumulative sums *)
Lemma cums_length : forall l c, length (@cumsum_from R (NumF rnd) c l) = length l.
Proof. induction l; intros; cbn; auto. Qed.
Lemma cums_nth : forall l c i, (i < length l)%nat -> nth i (@cumsum_from R (NumF rnd) c l) 0 = fold_left add (firstn (S i) l) c.
Proof.
  induction l as [|x l IH]; intros c i H; [cbn in H; lia|]. cbn [cumsum_from]. destruct i as [|i]; [reflexivity|]. cbn [nth firstn fold_left]. cbn in H. rewrite IH by lia. reflexivity.
Qed.
Lemma last_nth : forall (l : list R) d, last l d = nth (length l - 1) l d.
Proof.
  induction l as [|x l IH]; intros d; [reflexivity|]. destruct l as [|y l]; [reflexivity|]. change (last (x :: y :: l) d) with (last (y :: l) d). rewrite IH. cbn [length].
  replace (S (S (length l)) - 1)%nat with (S (S (length l) - 1)) by lia. reflexivity.
Qed.
Lemma cums_last : forall l, l <> [] -> last (@cumsum R (NumF rnd) l) 0 = fold_left add l 0.
Proof.
  intros l N. rewrite last_nth. unfold cumsum. rewrite cums_length. assert (0 < length l)%nat by (destruct l; [congruence|cbn; lia]). change (@n0 R (NumF rnd)) with 0. rewrite cums_nth by lia.
  replace (S (length l - 1)) with (length l) by lia. now rewrite firstn_all.
Qed.
Lemma search_F : forall l v, @searchsorted_right R (NumF rnd) l v = @searchsorted_right R NumR l v.
Proof. induction l; intros; cbn; [reflexivity|]. now rewrite IHl. Qed.
Lemma firstn_S_nth : forall (l : list R) i, (i < length l)%nat -> firstn (S i) l = firstn i l ++ [nth i l 0].
Proof. induction l as [|x l IH]; intros [|i] H; cbn in H |- *; try lia; [reflexivity|]. f_equal. apply IH. lia. Qed.
Lemma firstn_in : forall (l : list R) i x, In x (firstn i l) -> In x l.
Proof. induction l as [|y l IH]; intros [|i] x H; cbn in *; try tauto. destruct H as [H|H]; [now left|right; eapply IH; eauto]. Qed.

(** An index found by searching the cumulative sums, if it is one, is one with a positive weight. [f] is what is done to the sums. *)
Lemma search_pos : forall ws v (f : R -> R), (forall x, In x ws -> 0 <= x /\ flo x) -> f 0 = 0 -> 0 <= v -> let i := @searchsorted_right R (NumF rnd) (map f (@cumsum R (NumF rnd) ws)) v in
  (i < length ws)%nat -> 0 < nth i ws 0.
Proof.
  intros ws v f H F0 V i Hi. unfold i in *. rewrite search_F in *. set (k := searchsorted_right _ v) in *. destruct (search_spec _ _ k eq_refl) as (_ & H2 & H3). rewrite map_length in H2. unfold cumsum in H2, H3. change (@n0 R (NumF rnd)) with 0 in *. rewrite cums_length in H2. specialize (H2 Hi).
  assert (NT : forall j, (j < length ws)%nat -> nth j (map f (@cumsum_from R (NumF rnd) 0 ws)) 0 = f (fold_left add (firstn (S j) ws) 0)).
  { intros j Hj. rewrite (nth_map_lt _ _ _ _ _ _ 0) by (now rewrite cums_length). now rewrite cums_nth by exact Hj. }
  rewrite NT in H2 by exact Hi. destruct (H (nth k ws 0)) as [P FL]; [now apply nth_In|]. destruct P as [P|P]; [exact P|exfalso].
  rewrite firstn_S_nth, fold_left_app in H2 by exact Hi. cbn [fold_left] in H2. rewrite <- P in H2. unfold add at 1 in H2. rewrite Rplus_0_r in H2.
  assert (X : flo (fold_left add (firstn k ws) 0)) by (apply fold_ge; [apply (rnd0 rnd u eta RD)|intros x Hx; apply H; eapply firstn_in; eauto]). rewrite (X : rnd _ = _) in H2.
  destruct k as [|k]; [cbn in H2; lra|]. assert (Y := H3 k ltac:(lia)). rewrite NT in Y by lia. lra.
Qed.

(** ** numpy's [choice] *)
Theorem C211_numpy : forall ws v, (forall x, In x ws -> 0 <= x /\ rnd x = x) -> (exists x, In x ws /\ 0 < x) -> 0 <= v < 1 ->
  (@choice_p R (NumF rnd) ws v < length ws)%nat /\ 0 < nth (@choice_p R (NumF rnd) ws v) ws 0.
Proof.
  intros ws v H (x & Hx & X) V. assert (N : ws <> []) by (intros ->; destruct Hx). set (S := fold_left add ws 0).
  assert (SP : 0 < S). { eapply Rlt_le_trans; [exact X|]. apply fold_has; auto; [apply (rnd0 rnd u eta RD)|lra]. }
  assert (L : (@choice_p R (NumF rnd) ws v < length ws)%nat).
  { unfold choice_p, cdf. change (@n0 R (NumF rnd)) with 0. rewrite cums_last by exact N. fold S. rewrite search_F. set (l := map _ _). assert (LL : length l = length ws) by (unfold l, cumsum; now rewrite map_length, cums_length).
    destruct (search_spec l v _ eq_refl) as (H1 & _ & H3). destruct (Nat.eq_dec (searchsorted_right l v) (length l)) as [E|]; [exfalso|lia].
    assert (0 < length ws)%nat by (destruct ws; [congruence|cbn; lia]). assert (Y := H3 (length ws - 1)%nat ltac:(lia)). unfold l in Y. rewrite (nth_map_lt _ _ _ _ _ _ 0) in Y by (unfold cumsum; rewrite cums_length; lia).
    assert (E2 := cums_last ws N). rewrite last_nth in E2. unfold cumsum in E2, Y. rewrite cums_length in E2. change (@n0 R (NumF rnd)) with 0 in *. rewrite E2 in Y. fold S in Y. cbn [ndiv NumF] in Y.
    unfold Rdiv in Y. rewrite Rinv_r, (rd_one _ _ _ RD) in Y by lra. lra. }
  split; [exact L|]. unfold choice_p, cdf in L |- *. apply search_pos; auto; [|lra]. cbn [ndiv NumF]. unfold Rdiv. rewrite Rmult_0_l. apply (rnd0 rnd u eta RD).
Qed.

(** ** Sums *)
Lemma sum_close : forall xs, (forall x, In x xs -> 0 <= x /\ flo x) -> Rabs (fold_left add xs 0 - Rsum xs) <= sum_rel u (length xs) * Rsum xs + sum_abs u eta (length xs).
Proof.
  intros xs H. assert (E : map rnd xs = xs) by (rewrite <- (map_id xs) at 2; apply map_ext_in; intros x Hx; apply H; exact Hx).
  assert (A : map Rabs xs = xs) by (rewrite <- (map_id xs) at 2; apply map_ext_in; intros x Hx; apply Rabs_pos_eq; apply H; exact Hx).
  pose proof (sum_error rnd u eta RD xs 0 0 0 0) as X. rewrite E, A in X. specialize (X ltac:(rewrite Rminus_0_r, Rabs_R0; lra) ltac:(rewrite Rabs_R0; lra) 0%nat ltac:(cbn; lra)).
  rewrite !Rplus_0_l in X. exact X.
Qed.
Lemma sum_rel_nn : forall n, 0 <= sum_rel u n.
Proof. intros n. unfold sum_rel. assert (U := u0 rnd u eta RD). assert (1 <= (1 + u) ^ S n) by (apply pow_R1_Rle; lra). lra. Qed.
Lemma sum_abs_nn : forall n, 0 <= sum_abs u eta n.
Proof. intros n. unfold sum_abs. assert (U := u0 rnd u eta RD). assert (H := e0 rnd u eta RD). pose proof (pos_INR n). apply Rmult_le_pos; [|apply pow_le; lra]. apply Rmult_le_pos; [lra|exact H]. Qed.
Lemma Rsum_pos_in : forall l, 0 < Rsum l -> exists x, In x l /\ 0 < x.
Proof.
  induction l as [|x l IH]; intros H; [unfold Rsum in H; cbn in H; lra|]. rewrite Rsum_cons in H. destruct (Rlt_le_dec 0 x) as [X|X]; [exists x; split; [now left|exact X]|].
  destruct IH as (y & Hy & Y); [lra|]. exists y. split; [now right|exact Y].
Qed.
Lemma Rsum_map_close : forall A (f g : A -> R) l c, (forall x, In x l -> Rabs (f x - g x) <= c) -> Rabs (Rsum (map f l) - Rsum (map g l)) <= INR (length l) * c.
Proof.
  intros A f g l c H. induction l as [|x l IH]; [cbn; rewrite Rminus_0_r, Rabs_R0; lra|]. cbn [map length]. rewrite !Rsum_cons, S_INR.
  replace (f x + Rsum (map f l) - (g x + Rsum (map g l))) with ((f x - g x) + (Rsum (map f l) - Rsum (map g l))) by ring. eapply Rle_trans; [apply Rabs_triang|].
  pose proof (H x ltac:(now left)). specialize (IH ltac:(intros; apply H; now right)). lra.
Qed.
(** Weights divided by their rounded sum. *)
Lemma shares : forall ps, (forall x, In x ps -> 0 <= x /\ flo x) -> 0 < Rsum ps -> let S := fold_left add ps 0 in
  0 < S /\ (forall x, In x ps -> x <= S) /\ Rabs (S - Rsum ps) <= sum_rel u (length ps) * Rsum ps + sum_abs u eta (length ps) /\
  (forall x, In x (map (fun y => rnd (y / S)) ps) -> 0 <= x /\ flo x) /\
  Rabs (Rsum (map (fun y => rnd (y / S)) ps) - Rsum ps / S) <= u * (Rsum ps / S) + INR (length ps) * eta.
Proof.
  intros ps H P S. destruct (Rsum_pos_in ps P) as (x & Hx & X). assert (HS : forall y, In y ps -> y <= S) by (intros y Hy; apply fold_has; auto; [apply (rnd0 rnd u eta RD)|lra]).
  assert (SP : 0 < S) by (specialize (HS x Hx); lra). split; [exact SP|]. split; [exact HS|]. split; [now apply sum_close|]. assert (IV : 0 < / S) by now apply Rinv_0_lt_compat. split.
  - intros y Hy. apply in_map_iff in Hy. destruct Hy as (z & <- & Hz). split; [apply rnd_nn; apply Rmult_le_pos; [apply H; exact Hz|lra]|apply (rd_idem _ _ _ RD)].
  - clear x Hx X P HS. clearbody S. induction ps as [|y ps IH]; [cbn; unfold Rdiv; rewrite Rmult_0_l, Rminus_0_r, Rabs_R0; lra|]. cbn [map length]. rewrite !Rsum_cons, S_INR.
    pose proof (rd_err _ _ _ RD (y / S)) as E. assert (Y : 0 <= y / S) by (apply Rmult_le_pos; [apply H; now left|lra]). rewrite (Rabs_pos_eq _ Y) in E. specialize (IH ltac:(intros; apply H; now right)).
    replace (rnd (y / S) + Rsum (map (fun y0 => rnd (y0 / S)) ps) - (y + Rsum ps) / S) with ((rnd (y / S) - y / S) + (Rsum (map (fun y0 => rnd (y0 / S)) ps) - Rsum ps / S)) by (field; lra).
    eapply Rle_trans; [apply Rabs_triang|]. replace (u * ((y + Rsum ps) / S)) with (u * (y / S) + u * (Rsum ps / S)) by (field; lra). lra.
Qed.

(** ** numba's choice *)
Theorem C211_numba : forall ps v, (forall x, In x ps -> 0 <= x /\ rnd x = x) -> / 2 <= Rsum ps -> 0 <= v ->
  ((@rand_choice_nb R (NumF rnd) ps v < length ps)%nat -> 0 < nth (@rand_choice_nb R (NumF rnd) ps v) ps 0) /\
  (sum_rel u (length ps) <= 1 -> v < 1 - last_error u eta (length ps) -> (@rand_choice_nb R (NumF rnd) ps v < length ps)%nat).
Proof.
  intros ps v H P V. destruct (shares ps H ltac:(lra)) as (SP & HS & SC & WS & WC). set (S := fold_left add ps 0) in *. set (q := map (fun y => rnd (y / S)) ps) in *.
  assert (EQ : @rand_choice_nb R (NumF rnd) ps v = @searchsorted_right R (NumF rnd) (@cumsum R (NumF rnd) q) v) by reflexivity. rewrite EQ.
  assert (LQ : length q = length ps) by apply map_length. split.
  - intros L. assert (X := search_pos q v (fun x => x) WS eq_refl V). rewrite map_id in X. cbv zeta in X. rewrite LQ in X. specialize (X L). set (i := searchsorted_right _ v) in *.
    unfold q in X. rewrite (nth_map_lt _ _ _ _ _ _ 0) in X by exact L. destruct (H (nth i ps 0) ltac:(now apply nth_In)) as [[Y|Y] _]; [exact Y|]. rewrite <- Y in X. unfold Rdiv in X. rewrite Rmult_0_l, (rnd0 rnd u eta RD) in X. lra.
  - intros R1 VL. rewrite search_F. set (l := cumsum q). assert (LL : length l = length q) by apply cums_length. destruct (search_spec l v _ eq_refl) as (H1 & _ & H3).
    destruct (Nat.eq_dec (searchsorted_right l v) (length l)) as [E|]; [exfalso|lia]. assert (N : ps <> []) by (intros ->; unfold Rsum in P; cbn in P; lra). assert (N' : q <> []) by (unfold q; destruct ps; cbn; congruence).
    assert (0 < length ps)%nat by (destruct ps; [congruence|cbn; lia]). assert (Y := H3 (length q - 1)%nat ltac:(lia)). assert (E2 := cums_last q N'). fold l in E2. rewrite last_nth, LL in E2. rewrite E2 in Y.
    pose proof (sum_close q WS) as QC. rewrite LQ in QC. set (al := sum_rel u (length ps)) in *. set (nu := sum_abs u eta (length ps)) in *. pose proof (sum_rel_nn (length ps)) as A0. fold al in A0. pose proof (sum_abs_nn (length ps)) as N0. fold nu in N0.
    unfold last_error in VL. fold al nu in VL. set (ne := INR (length ps) * eta) in *. assert (NE : 0 <= ne) by (apply Rmult_le_pos; [apply pos_INR|apply (e0 rnd u eta RD)]). assert (U := u0 rnd u eta RD).
    assert (QN : 0 <= Rsum q) by (apply Rsum_nonneg; intros x Hx; apply WS; exact Hx).
    set (x := Rsum ps / S) in *. apply Rabs_le2_inv in QC. apply Rabs_le2_inv in WC. apply Rabs_le2_inv in SC.
    assert (XL : 1 - al - 2 * nu <= x).
    { assert (SB : S <= (1 + al + 2 * nu) * Rsum ps) by nra. unfold x. apply (Rmult_le_reg_r S); [exact SP|]. replace (Rsum ps / S * S) with (Rsum ps) by (field; lra).
      destruct (Rle_lt_dec (1 - al - 2 * nu) 0) as [Z|Z]; [nra|]. apply (Rle_trans _ ((1 - al - 2 * nu) * ((1 + al + 2 * nu) * Rsum ps))); [apply Rmult_le_compat_l; lra|].
      assert (0 <= (al + 2 * nu) * (al + 2 * nu)) by nra. nra. }
    destruct (Rle_lt_dec (1 - u - ne - al - 2 * nu) 0) as [Z|Z]; [lra|].
    assert (QL : 1 - u - ne - al - 2 * nu <= Rsum q) by nra.
    assert (QL2 : (1 - al) * (1 - u - ne - al - 2 * nu) <= (1 - al) * Rsum q) by (apply Rmult_le_compat_l; lra). nra.
Qed.
End Choice.

(** ** A draw that picks no action

    The probabilities are numpy's softmax of the action values 0 and 3, and the draw is the largest one below 1. *)
Theorem C210_out_of_range_refuted : let p := [fl 6834788632646726 (-57); fl 8580024965200573 (-53)] in let draw := fl (2 ^ 53 - 1) (-53) in
  Forall (fun x => SpecFloat.SFltb (fl 0 0) x = true /\ SpecFloat.SFltb x (fl 1 0) = true) (draw :: p) /\ @nsum _ NumFl p = fl (2 ^ 52 + 1) (-52) /\
  @rand_choice_nb _ NumFl p draw = length p /\ @choice_p _ NumFl p draw = 1%nat.
Proof. cbv zeta. split; [|vm_compute; auto]. repeat constructor. Qed.
