(** How softmax selection depends on its temperature: C156. *)
From Coq Require Import List ZArith Reals Bool Lia Lra QArith Permutation.
From Verif Require Import PyBase PyProofs ActionModel ActionSpec ActionProofs SoftmaxModel SoftmaxProofs RSum ActionProps.
Import ListNotations.
Local Close Scope Q_scope.
Local Open Scope R_scope.

(** ** Specification *)
(** A row of values that softmax handles: none is plus infinity, some are finite. *)
Definition choosable (row : list (fval R)) : Prop := ~ In PInf row /\ exists x, In (Fin x) row.
(** [p] and [g] are rows of probabilities that differ by at most [e] in each action. *)
Definition within (e : R) (p g : list (fval R)) : Prop :=
  exists ps gs, p = map Fin ps /\ g = map Fin gs /\ length ps = length gs /\ forall a, (a < length ps)%nat -> Rabs (nth a ps 0 - nth a gs 0) <= e.
(** Equal probabilities for all actions with finite values, none for the others. *)
Definition is_finite (v : fval R) : bool := match v with Fin _ => true | _ => false end.
Definition even_choice (row : list (fval R)) : list (fval R) := map (fun v => Fin (if is_finite v then / INR (length (filter is_finite row)) else 0)) row.

(** ** Weights relative to the best value *)
Definition rel (mx T : R) (v : fval R) : R := match v with Fin x => exp ((x - mx) / T) | _ => 0 end.
Definition rank (mx : R) (v : fval R) : bool := match v with Fin x => Reqb x mx | _ => false end.
Lemma rel_gibbs : forall mx T v, gibbs_weight T v = exp (mx / T) * rel mx T v.
Proof. intros mx T [| | |x]; cbn [gibbs_weight rel]; try ring. rewrite <- exp_plus. f_equal. unfold Rdiv. ring. Qed.
Lemma rel_share : forall mx T row v, 0 < sumf (rel mx T) row -> gibbs_weight T v / Rsum (map (gibbs_weight T) row) = rel mx T v / sumf (rel mx T) row.
Proof.
  intros mx T row v P. assert (E : Rsum (map (gibbs_weight T) row) = exp (mx / T) * sumf (rel mx T) row).
  { rewrite <- sumf_scal. apply sumf_ext. intros w _. apply rel_gibbs. }
  rewrite E, (rel_gibbs mx). field. split; [lra|]. apply Rgt_not_eq, exp_pos.
Qed.
Lemma exp_neg : forall x, x <= 0 -> exp x <= 1.
Proof. intros x H. destruct H as [H|H]; [|subst; rewrite exp_0; lra]. left. rewrite <- exp_0. now apply exp_increasing. Qed.
Lemma exp_le : forall x y, x <= y -> exp x <= exp y.
Proof. intros x y [H|H]; [left; now apply exp_increasing|subst; lra]. Qed.
Lemma inv_T : forall T, 0 < T -> 0 < / T. Proof. intros. now apply Rinv_0_lt_compat. Qed.
Lemma rel_1 : forall mx T, rel mx T (Fin mx) = 1.
Proof. intros. cbn [rel]. unfold Rdiv. rewrite Rminus_diag_eq, Rmult_0_l, exp_0; reflexivity. Qed.
Lemma rel_nonneg : forall mx T v, 0 <= rel mx T v.
Proof. intros mx T [| | |x]; cbn [rel]; try lra. left. apply exp_pos. Qed.
Definition top (row : list (fval R)) (mx : R) : Prop := In (Fin mx) row /\ forall x, In (Fin x) row -> x <= mx.
Lemma rel_le1 : forall row mx T v, 0 < T -> top row mx -> In v row -> rel mx T v <= 1.
Proof. intros row mx T [| | |x] HT [_ M] I; cbn [rel]; try lra. apply exp_neg. specialize (M x I). pose proof (inv_T T HT). unfold Rdiv. nra. Qed.
Lemma sum_member : forall X (f : X -> R) l x, In x l -> (forall y, 0 <= f y) -> f x <= sumf f l.
Proof.
  intros X f l x I N. induction l as [|y l IH]; [destruct I|]. rewrite sumf_cons. assert (0 <= sumf f l) by (apply sumf_nonneg; auto). destruct I as [->|I]; [lra|]. specialize (IH I). specialize (N y). lra.
Qed.
Lemma total_ge1 : forall row mx T, top row mx -> 1 <= sumf (rel mx T) row.
Proof. intros row mx T [I _]. rewrite <- (rel_1 mx T). apply sum_member; [exact I|apply rel_nonneg]. Qed.
Lemma count_sum : forall X (f : X -> bool) l, INR (length (filter f l)) = sumf (fun x => if f x then 1 else 0) l.
Proof. intros X f l. induction l as [|x l IH]; [reflexivity|]. rewrite sumf_cons. cbn [filter]. destruct (f x); [cbn [length]; rewrite S_INR, IH; ring|rewrite IH; ring]. Qed.
Lemma sum_below : forall X (f : X -> R) c l, (forall x, In x l -> f x <= c) -> sumf f l <= INR (length l) * c.
Proof.
  intros X f c l H. induction l as [|x l IH]; [cbn; lra|]. rewrite sumf_cons. cbn [length]. rewrite S_INR. specialize (IH (fun y Hy => H y (or_intror Hy))). specialize (H x (or_introl eq_refl)). lra.
Qed.
Lemma top_exists : forall row, (exists x, In (Fin x) row) -> exists mx, top row mx.
Proof.
  induction row as [|v row IH]; intros (x & I); [destruct I|]. destruct (existsb is_finite row) eqn:EB.
  - apply existsb_exists in EB. destruct EB as (w & Hw & Ew). destruct w as [| | |y]; try discriminate. destruct (IH (ex_intro _ y Hw)) as (mx & M1 & M2). destruct v as [| | |z].
    1,2,3: exists mx; split; [now right|]; intros u [U|U]; [discriminate|auto].
    destruct (Rle_dec z mx) as [L|L]; [exists mx|exists z]; split; try (now left); try (now right); intros u [U|U].
    + injection U as <-. exact L. + auto. + injection U as <-. lra. + specialize (M2 u U). lra.
  - assert (NF : forall y, ~ In (Fin y) row) by (intros y Hy; assert (T : existsb is_finite row = true) by (apply existsb_exists; exists (Fin y); auto); congruence).
    destruct I as [->|I]; [|now elim (NF x)]. exists x. split; [now left|]. intros u [U|U]; [injection U as <-; lra|now elim (NF u)].
Qed.
(** The best value of a row and its best actions. *)
Lemma best_top : forall row mx a, choosable row -> top row mx -> (best_action row a <-> (a < length row)%nat /\ nth a row NaN = Fin mx).
Proof.
  intros row mx a [NP _] [I M]. destruct (In_nth row (Fin mx) NaN I) as (b & Hb & Eb). split.
  - intros [Ha B]. split; [exact Ha|]. specialize (B b Hb). rewrite Eb in B. destruct (nth a row NaN) as [| | |y] eqn:Ea; cbn [fle] in B; try contradiction.
    + elim NP. rewrite <- Ea. now apply nth_In. + f_equal. apply Rle_antisym; [|exact B]. apply M. rewrite <- Ea. now apply nth_In.
  - intros [Ha Ea]. split; [exact Ha|]. intros c Hc. rewrite Ea. destruct (nth c row NaN) as [| | |y] eqn:Ec; cbn [fle]; try exact Logic.I.
    + apply NP. rewrite <- Ec. now apply nth_In. + apply M. rewrite <- Ec. now apply nth_In.
Qed.
Lemma best_count : forall row mx best, choosable row -> top row mx -> NoDup best -> (forall a, In a best <-> best_action row a) -> INR (length best) = sumf (fun v => if rank mx v then 1 else 0) row.
Proof.
  intros row mx best C T ND B. rewrite <- (map_nth_seq _ NaN row) at 1. rewrite sumf_map, <- count_sum. f_equal. apply Permutation_length, NoDup_Permutation; [exact ND|apply NoDup_filter, seq_NoDup|].
  intros a. rewrite B, filter_In, in_seq, (best_top row mx) by assumption. split; intros [H1 H2].
  - split; [lia|]. rewrite H2. cbn [rank]. now apply Reqb_true.
  - split; [lia|]. destruct (nth a row NaN) as [| | |x]; cbn [rank] in H2; try discriminate. apply Reqb_true in H2. now subst.
Qed.
Lemma softmax_rows : forall T q p s mx, 0 < T -> get_pi_p (softmax_get_pi_p T) q = Ok p -> (s < length q)%nat -> choosable (nth s q []) -> top (nth s q []) mx ->
  exists ps, nth s p [] = map Fin ps /\ length ps = length (nth s q []) /\ forall a, (a < length ps)%nat -> nth a ps 0 = rel mx T (nth a (nth s q []) NaN) / sumf (rel mx T) (nth s q []).
Proof.
  intros T q p s mx HT E Hs [NP EX] TP. destruct (C27_gibbs T q p HT E s Hs NP EX) as (ps & E1 & E2 & _ & E3 & _). exists ps. split; [exact E1|]. split; [exact E2|]. intros a Ha. rewrite E3 by exact Ha. apply rel_share. pose proof (total_ge1 _ mx T TP). lra.
Qed.

(** ** C156: low temperatures *)
(** If every action that is not best is worse by at least [D], softmax differs from greedy selection by at most exp(-D/T) for each
    action of the state. *)
Theorem C156_cold_bound : forall T D q p g s, 0 < T -> (forall row, In row q -> row <> []) -> get_pi_p (softmax_get_pi_p T) q = Ok p -> get_pi_p max_get_pi_p q = Ok g -> (s < length q)%nat -> choosable (nth s q []) ->
  (forall a b x y, best_action (nth s q []) a -> nth a (nth s q []) NaN = Fin x -> (b < length (nth s q []))%nat -> nth b (nth s q []) NaN = Fin y -> y = x \/ y <= x - D) ->
  within (INR (length (nth s q [])) * exp (- D / T)) (nth s p []) (nth s g []).
Proof.
  intros T D q p g s HT NE EP EG Hs C GAP. destruct (top_exists _ (proj2 C)) as (mx & TP). destruct (softmax_rows _ _ _ _ mx HT EP Hs C TP) as (ps & P1 & P2 & P3). set (row := nth s q []) in *.
  assert (SK : some_known row) by (destruct C as [_ (x & I)]; exists (Fin x); split; [exact I|discriminate]).
  destruct (C25_probabilities q NE (ex_intro _ row (conj (nth_In q [] Hs) SK))) as (g' & EG' & _ & HG). assert (g' = g) as -> by congruence. clear EG'.
  destruct (HG s Hs SK) as (best & gs & G1 & G2 & _ & G4 & G5 & G6 & G7); [intros [X _]; exact (proj1 C X)|]. clear HG. fold row in G2, G6.
  exists ps, gs. split; [exact P1|]. split; [exact G1|]. split; [congruence|]. intros a Ha. rewrite P3, G7 by congruence. rewrite P2 in Ha.
  assert (GAP' : forall y, In (Fin y) row -> y = mx \/ y <= mx - D).
  { intros y Hy. destruct (In_nth row (Fin y) NaN Hy) as (b & Hb & Eb). destruct (In_nth row (Fin mx) NaN (proj1 TP)) as (c & Hc & Ec). apply (GAP c b mx y); auto. apply (best_top row mx); auto. }
  pose proof (inv_T T HT) as IT. set (Z := sumf (rel mx T) row) in *. set (e := exp (- D / T)) in *. assert (E0 : 0 < e) by apply exp_pos. assert (Z1 : 1 <= Z) by (apply total_ge1; exact TP).
  assert (RB : forall v, In v row -> rel mx T v <= (if rank mx v then 1 else 0) + e /\ (if rank mx v then 1 else 0) <= rel mx T v /\ (rank mx v = false -> rel mx T v <= e)).
  { intros v Hv. destruct v as [| | |y]; cbn [rel rank]; try (repeat split; lra). destruct (Reqb y mx) eqn:EY.
    - apply Reqb_true in EY. subst y. unfold Rdiv. rewrite Rminus_diag_eq, Rmult_0_l, exp_0 by reflexivity. repeat split; try discriminate; lra.
    - apply Reqb_false in EY. destruct (GAP' y Hv) as [X|X]; [contradiction|]. assert (exp ((y - mx) / T) <= e) by (apply exp_le; unfold Rdiv; nra). pose proof (exp_pos ((y - mx) / T)). repeat split; lra. }
  assert (KZ : INR (length best) <= Z <= INR (length best) + INR (length row) * e).
  { rewrite (best_count row mx best) by assumption. unfold Z. split; [apply sumf_le; intros v Hv; now apply RB|]. replace (INR (length row) * e) with (sumf (fun _ : fval R => e) row).
    - rewrite <- sumf_add. apply sumf_le. intros v Hv. now apply RB.
    - clear. induction row as [|v row IH]; [cbn; ring|]. rewrite sumf_cons, IH. cbn [length]. rewrite S_INR. ring. }
  assert (N1 : 1 <= INR (length row)) by (apply (le_INR 1); lia). assert (K1 : 1 <= INR (length best)) by (apply (le_INR 1); destruct best; [congruence|cbn; lia]).
  assert (IV : In (nth a row NaN) row) by now apply nth_In. destruct (in_dec Nat.eq_dec a best) as [B|B].
  - apply G6, (best_top row mx) in B; [|exact C|exact TP]. destruct B as [_ B]. rewrite B, rel_1. set (k := INR (length best)) in *. assert (k * / k = 1) by (field; lra). assert (Z * / Z = 1) by (field; lra).
    assert (X : 1 / Z - 1 / k = - ((Z - k) / (Z * k))) by (field; lra). rewrite X, Rabs_Ropp, Rabs_right.
    + assert (ZK : 1 <= Z * k) by (clear - Z1 K1; nra). apply Rle_trans with (Z - k); [|lra]. apply (Rmult_le_reg_r (Z * k)); [lra|]. unfold Rdiv. rewrite Rmult_assoc, Rinv_l by lra. clear - ZK KZ. nra.
    + apply Rle_ge. apply Rmult_le_pos; [lra|]. left. apply Rinv_0_lt_compat. clear - Z1 K1. nra.
  - assert (RK : rank mx (nth a row NaN) = false).
    { destruct (rank mx (nth a row NaN)) eqn:ER; [|reflexivity]. elim B. apply G6, (best_top row mx); auto. split; [exact Ha|]. destruct (nth a row NaN) as [| | |y]; try discriminate. cbn [rank] in ER. apply Reqb_true in ER. now subst. }
    destruct (RB _ IV) as (_ & _ & LE). specialize (LE RK). pose proof (rel_nonneg mx T (nth a row NaN)) as NN. rewrite Rminus_0_r, Rabs_right by (apply Rle_ge, Rmult_le_pos; [exact NN|left; apply Rinv_0_lt_compat; lra]).
    apply Rle_trans with (rel mx T (nth a row NaN)); [|nra]. apply (Rmult_le_reg_r Z); [lra|]. unfold Rdiv. rewrite Rmult_assoc, Rinv_l by lra. nra.
Qed.
(** As the temperature goes to zero, softmax becomes greedy selection, in all states at once. *)
Lemma gap_exists : forall row mx, top row mx -> exists D, 0 < D /\ forall y, In (Fin y) row -> y = mx \/ y <= mx - D.
Proof.
  intros row mx [_ M]. assert (G : forall l, (forall y, In (Fin y) l -> y <= mx) -> exists D, 0 < D /\ forall y, In (Fin y) l -> y = mx \/ y <= mx - D).
  { induction l as [|v l IH]; intros H; [exists 1; split; [lra|intros y []]|]. destruct (IH (fun y Hy => H y (or_intror Hy))) as (D & D0 & DD). destruct v as [| | |z].
    1,2,3: exists D; split; [exact D0|]; intros y [Y|Y]; [discriminate|auto].
    destruct (Req_dec z mx) as [E|E]; [exists D; split; [exact D0|]; intros y [Y|Y]; [left; injection Y as <-; exact E|auto]|]. assert (z <= mx) by (apply H; now left).
    exists (Rmin D (mx - z)). split; [apply Rmin_glb_lt; lra|]. pose proof (Rmin_l D (mx - z)). pose proof (Rmin_r D (mx - z)). intros y [Y|Y]; [injection Y as <-; right; lra|]. destruct (DD y Y) as [X|X]; [now left|right; lra]. }
  now apply G.
Qed.
Lemma threshold : forall n (P : nat -> R -> Prop), (forall i, (i < n)%nat -> exists T0, 0 < T0 /\ forall T, 0 < T <= T0 -> P i T) -> exists T0, 0 < T0 /\ forall T i, 0 < T <= T0 -> (i < n)%nat -> P i T.
Proof.
  induction n as [|n IH]; intros P H; [exists 1; split; [lra|]; intros; lia|]. destruct (IH P (fun i Hi => H i (Nat.lt_lt_succ_r _ _ Hi))) as (T1 & A1 & B1). destruct (H n (Nat.lt_succ_diag_r n)) as (T2 & A2 & B2).
  exists (Rmin T1 T2). split; [now apply Rmin_glb_lt|]. pose proof (Rmin_l T1 T2). pose proof (Rmin_r T1 T2). intros T i HT Hi. destruct (Nat.eq_dec i n) as [->|NE]; [apply B2; lra|apply B1; [lra|lia]].
Qed.
Lemma within_le : forall e e' p g, e <= e' -> within e p g -> within e' p g.
Proof. intros e e' p g L (ps & gs & A & B & C & D). exists ps, gs. repeat (split; [assumption|]). intros a Ha. specialize (D a Ha). lra. Qed.
Theorem C156_cold : forall q g eps, 0 < eps -> (forall row, In row q -> row <> []) -> get_pi_p max_get_pi_p q = Ok g ->
  exists T0, 0 < T0 /\ forall T p s, 0 < T <= T0 -> get_pi_p (softmax_get_pi_p T) q = Ok p -> (s < length q)%nat -> choosable (nth s q []) -> within eps (nth s p []) (nth s g []).
Proof.
  intros q g eps HE NE EG. destruct (threshold (length q) (fun s T => forall p, get_pi_p (softmax_get_pi_p T) q = Ok p -> choosable (nth s q []) -> within eps (nth s p []) (nth s g []))) as (T0 & A & B); [|exists T0; split; [exact A|]; intros T p s HT EP Hs C; now apply (B T s)].
  intros s Hs. destruct (existsb is_finite (nth s q [])) eqn:EB.
  2:{ exists 1. split; [lra|]. intros T _ p _ [_ (x & I)]. assert (X : existsb is_finite (nth s q []) = true) by (apply existsb_exists; exists (Fin x); auto). congruence. }
  apply existsb_exists in EB. destruct EB as (w & Hw & Ew). destruct w as [| | |x]; try discriminate. destruct (top_exists _ (ex_intro _ x Hw)) as (mx & TP). destruct (gap_exists _ _ TP) as (D & D0 & DD). set (row := nth s q []) in *. set (n := INR (length row)).
  assert (N0 : 0 <= n) by apply pos_INR. exists (D * eps / (n + 1)). split; [apply Rdiv_lt_0_compat; nra|]. intros T [HT HL] p EP C. apply (within_le (n * exp (- D / T))).
  - assert (X : (n + 1) <= eps * (D / T)).
    { apply (Rmult_le_reg_r T); [exact HT|]. replace (eps * (D / T) * T) with (D * eps) by (field; lra). apply (Rmult_le_compat_r (n + 1)) in HL; [|lra]. replace (D * eps / (n + 1) * (n + 1)) with (D * eps) in HL by (field; lra). lra. }
    set (u := D / T) in *. assert (U0 : 0 < u) by (apply Rdiv_lt_0_compat; lra). replace (- D / T) with (- u) by (unfold u; field; lra). rewrite exp_Ropp. pose proof (exp_ineq1 u ltac:(lra)) as XU.
    apply (Rmult_le_reg_r (exp u)); [apply exp_pos|]. rewrite Rmult_assoc, Rinv_l by (apply Rgt_not_eq, exp_pos). nra.
  - unfold n, row. apply (C156_cold_bound T D q); auto. fold row. intros a b y z BA Ea Hb Eb. apply (best_top row mx) in BA; [|exact C|exact TP]. destruct BA as [_ BA]. assert (y = mx) as -> by congruence. apply DD. rewrite <- Eb. now apply nth_In.
Qed.

(** ** C156: high temperatures *)
(** If no two finite values differ by more than [D], softmax differs from an even choice by at most exp(D/T) - 1. *)
Theorem C156_hot_bound : forall T D q p s, 0 < T -> get_pi_p (softmax_get_pi_p T) q = Ok p -> (s < length q)%nat -> choosable (nth s q []) ->
  (forall x y, In (Fin x) (nth s q []) -> In (Fin y) (nth s q []) -> x - y <= D) -> within (exp (D / T) - 1) (nth s p []) (even_choice (nth s q [])).
Proof.
  intros T D q p s HT EP Hs C SP. destruct (top_exists _ (proj2 C)) as (mx & TP). destruct (softmax_rows _ _ _ _ mx HT EP Hs C TP) as (ps & P1 & P2 & P3). set (row := nth s q []) in *.
  exists ps, (map (fun v => if is_finite v then / INR (length (filter is_finite row)) else 0) row). split; [exact P1|]. split; [unfold even_choice; now rewrite map_map|]. split; [now rewrite map_length|]. intros a Ha. rewrite P3 by exact Ha. rewrite P2 in Ha. rewrite (nth_map_lt _ _ _ _ _ _ NaN) by exact Ha.
  pose proof (inv_T T HT) as IT. set (Z := sumf (rel mx T) row) in *. set (e := exp (D / T)). set (k := INR (length (filter is_finite row))). assert (D0 : 0 <= D) by (specialize (SP mx mx (proj1 TP) (proj1 TP)); lra). assert (E1 : 1 <= e) by (rewrite <- exp_0; apply exp_le; unfold Rdiv; nra).
  assert (Z1 : 1 <= Z) by (apply total_ge1; exact TP). assert (K1 : 1 <= k).
  { apply (le_INR 1). assert (I : In (Fin mx) (filter is_finite row)) by (apply filter_In; split; [apply TP|reflexivity]). destruct (filter is_finite row); [destruct I|cbn; lia]. }
  assert (RB : forall v, In v row -> rel mx T v <= (if is_finite v then 1 else 0) /\ (if is_finite v then 1 else 0) <= e * rel mx T v).
  { intros v Hv. pose proof (rel_le1 row mx T v HT TP Hv). destruct v as [| | |y]; cbn [is_finite] in *; cbn [rel] in *; try (split; lra). split; [lra|]. unfold e. rewrite <- exp_plus. rewrite <- exp_0. apply exp_le. specialize (SP mx y (proj1 TP) Hv). unfold Rdiv. nra. }
  assert (KZ : Z <= k /\ k <= e * Z).
  { unfold k. rewrite count_sum. unfold Z. split; [apply sumf_le; intros v Hv; now apply RB|]. rewrite <- sumf_scal. apply sumf_le. intros v Hv. now apply RB. }
  assert (IV : In (nth a row NaN) row) by now apply nth_In. destruct (RB _ IV) as [R1 R2]. destruct (is_finite (nth a row NaN)) eqn:EF.
  - set (w := rel mx T (nth a row NaN)) in *. assert (W0 : 0 <= w) by apply rel_nonneg. assert (IZ : 0 < / Z) by (apply Rinv_0_lt_compat; lra). assert (IK : 0 < / k) by (apply Rinv_0_lt_compat; lra). assert (EZ : Z * / Z = 1) by (field; lra). assert (EK : k * / k = 1) by (field; lra).
    assert (X1 : w / Z <= e * / k). { unfold Rdiv. apply (Rmult_le_reg_r (Z * k)); [nra|]. replace (w * / Z * (Z * k)) with (w * k) by (field; lra). replace (e * / k * (Z * k)) with (e * Z) by (field; lra). nra. }
    assert (X2 : / k <= e * (w / Z)). { unfold Rdiv. apply (Rmult_le_reg_r (Z * k)); [nra|]. replace (e * (w * / Z) * (Z * k)) with (e * w * k) by (field; lra). replace (/ k * (Z * k)) with Z by (field; lra). nra. }
    assert (X3 : / k <= 1) by (rewrite <- Rinv_1; apply Rinv_le_contravar; lra). assert (X4 : w / Z <= 1) by (apply (Rmult_le_reg_r Z); [lra|]; unfold Rdiv; rewrite Rmult_assoc, Rinv_l by lra; lra). assert (X5 : 0 <= w / Z) by (apply Rmult_le_pos; lra).
    apply Rabs_le. split; nra.
  - assert (rel mx T (nth a row NaN) = 0) as -> by (pose proof (rel_nonneg mx T (nth a row NaN)); lra). unfold Rdiv. rewrite Rmult_0_l, Rminus_0_r, Rabs_R0. lra.
Qed.
Lemma spread_exists : forall row : list (fval R), exists D, 0 <= D /\ forall x y, In (Fin x) row -> In (Fin y) row -> x - y <= D.
Proof.
  intros row. assert (B : exists M, 0 <= M /\ forall x, In (Fin x) row -> Rabs x <= M).
  { induction row as [|v row (M & M0 & IH)]; [exists 0; split; [lra|intros x []]|]. destruct v as [| | |z]; try (exists M; split; [exact M0|]; intros x [X|X]; [discriminate|auto]).
    exists (Rmax M (Rabs z)). pose proof (Rmax_l M (Rabs z)). pose proof (Rmax_r M (Rabs z)). split; [lra|]. intros x [X|X]; [injection X as <-; lra|]. specialize (IH x X). lra. }
  destruct B as (M & M0 & B). exists (2 * M). split; [lra|]. intros x y Hx Hy. apply B in Hx, Hy. pose proof (Rle_abs x). pose proof (Rle_abs (- y)). rewrite Rabs_Ropp in H0. lra.
Qed.
(** As the temperature grows, softmax becomes an even choice among the actions with finite values. *)
Theorem C156_hot : forall q eps, 0 < eps -> exists T0, 0 < T0 /\ forall T p s, T0 <= T -> get_pi_p (softmax_get_pi_p T) q = Ok p -> (s < length q)%nat -> choosable (nth s q []) -> within eps (nth s p []) (even_choice (nth s q [])).
Proof.
  intros q eps HE. assert (SB : exists D, 0 <= D /\ forall row, In row q -> forall x y, In (Fin x) row -> In (Fin y) row -> x - y <= D).
  { induction q as [|row q (D & D0 & IH)]; [exists 0; split; [lra|intros row []]|]. destruct (spread_exists row) as (D' & D0' & H'). exists (Rmax D D'). pose proof (Rmax_l D D'). pose proof (Rmax_r D D'). split; [lra|]. intros r [->|Hr] x y Hx Hy; [specialize (H' x y Hx Hy); lra|specialize (IH r Hr x y Hx Hy); lra]. }
  destruct SB as (D & D0 & SB). assert (L : 0 < ln (1 + eps)) by (rewrite <- ln_1; apply ln_increasing; lra). exists (D / ln (1 + eps) + 1). assert (0 <= D / ln (1 + eps)) by (apply Rmult_le_pos; [exact D0|left; now apply Rinv_0_lt_compat]). split; [lra|].
  intros T p s HT EP Hs C. assert (T0 : 0 < T) by lra. apply (within_le (exp (D / T) - 1)); [|apply (C156_hot_bound T D q); auto; apply SB; now apply nth_In].
  assert (exp (D / T) <= 1 + eps); [|lra]. rewrite <- (exp_ln (1 + eps)) by lra. apply exp_le. apply (Rmult_le_reg_r T); [exact T0|]. replace (D / T * T) with D by (field; lra). apply (Rmult_le_compat_r (ln (1 + eps))) in HT; [|lra]. replace ((D / ln (1 + eps) + 1) * ln (1 + eps)) with (D + ln (1 + eps)) in HT by (field; lra). lra.
Qed.

(** ** C156: between *)
(** A higher temperature never makes a best action more probable. *)
Theorem C156_warmer : forall T T' q p p' s a, 0 < T <= T' -> get_pi_p (softmax_get_pi_p T) q = Ok p -> get_pi_p (softmax_get_pi_p T') q = Ok p' -> (s < length q)%nat -> choosable (nth s q []) -> best_action (nth s q []) a ->
  exists x x', nth a (nth s p []) NaN = Fin x /\ nth a (nth s p' []) NaN = Fin x' /\ x' <= x.
Proof.
  intros T T' q p p' s a [HT HL] EP EP' Hs C B. destruct (top_exists _ (proj2 C)) as (mx & TP). destruct (softmax_rows _ _ _ _ mx HT EP Hs C TP) as (ps & P1 & P2 & P3). destruct (softmax_rows T' _ _ _ mx ltac:(lra) EP' Hs C TP) as (ps' & P1' & P2' & P3'). set (row := nth s q []) in *.
  apply (best_top row mx) in B; [|exact C|exact TP]. destruct B as [Ha Ea]. exists (nth a ps 0), (nth a ps' 0). rewrite P1, P1'. split; [now rewrite (nth_map_lt _ _ _ _ _ _ 0) by lia|]. split; [now rewrite (nth_map_lt _ _ _ _ _ _ 0) by lia|]. rewrite P3, P3' by lia. rewrite Ea, !rel_1. unfold Rdiv. rewrite !Rmult_1_l.
  apply Rinv_le_contravar; [pose proof (total_ge1 row mx T TP); lra|]. apply sumf_le. intros v Hv. destruct v as [| | |y]; cbn [rel]; try lra. apply exp_le. pose proof (proj2 TP y Hv). assert (/ T' <= / T) by (apply Rinv_le_contravar; lra). unfold Rdiv. nra.
Qed.

(** ** A concrete case *)
(** A state with two best actions, a worse one and an impossible one: greedy selection gives a half each, an even choice a third
    each; softmax is defined at every temperature. *)
Example C156_example : let q := [[Fin 2; Fin 1; NInf; Fin 2]] in choosable (nth 0 q []) /\ (forall row, In row q -> row <> []) /\ (forall T, exists p, get_pi_p (softmax_get_pi_p T) q = Ok p) /\
  even_choice (nth 0 q []) = [Fin (/ INR 3); Fin (/ INR 3); Fin 0; Fin (/ INR 3)] /\ (exists g, get_pi_p max_get_pi_p q = Ok g) /\ best_action (nth 0 q []) 0 /\ ~ best_action (nth 0 q []) 1.
Proof.
  cbv zeta. cbn [nth]. split; [split; [intros [X|[X|[X|[X|[]]]]]; discriminate|exists 2; now left]|]. split; [intros row [<-|[]]; discriminate|]. split; [|split; [reflexivity|split; [|split]]].
  - intros T. unfold get_pi_p, softmax_get_pi_p. rewrite (proj2 (check_q_ok _)); [cbn [bind]; eexists; reflexivity|]. eexists. split; [now left|]. exists (Fin 2). split; [now left|discriminate].
  - destruct (C25_probabilities [[Fin 2; Fin 1; NInf; Fin 2]]) as (g & E & _); [intros row [<-|[]]; discriminate| |eauto]. eexists. split; [now left|]. exists (Fin 2). split; [now left|discriminate].
  - split; [cbn; lia|]. intros b Hb. cbn [length] in Hb. do 4 (destruct b as [|b]; [cbn; lra || exact I|]). lia.
  - intros [_ B]. specialize (B 0%nat ltac:(cbn; lia)). cbn in B. lra.
Qed.
