(** Contraction, fixed points, convergence. *)
From Coq Require Import List ZArith Reals Bool Lia Lra.
From Verif Require Import PyBase PyProofs ActionSpec ActionProofs SoftmaxProofs RSum VISpec.
Import ListNotations.
Local Open Scope R_scope.

Lemma sumf_abs : forall A (f : A -> R) l, Rabs (sumf f l) <= sumf (fun x => Rabs (f x)) l.
Proof.
  induction l as [|x l IH]; [rewrite !sumf_nil, Rabs_R0; lra|]. rewrite !sumf_cons. eapply Rle_trans; [apply Rabs_triang|]. lra.
Qed.
Lemma sumf_sub : forall A (f g : A -> R) l, sumf (fun x => f x - g x) l = sumf f l - sumf g l.
Proof. induction l as [|x l IH]; [rewrite !sumf_nil; lra|]. rewrite !sumf_cons, IH. lra. Qed.
Lemma sumf_member : forall A (f : A -> R) l x, (forall y, In y l -> 0 <= f y) -> In x l -> f x <= sumf f l.
Proof.
  induction l as [|y l IH]; intros x H I; [destruct I|]. rewrite sumf_cons. assert (0 <= f y) by (apply H; now left).
  assert (0 <= sumf f l) by (apply sumf_nonneg; intros; apply H; now right). destruct I as [->|I]; [lra|]. specialize (IH x ltac:(intros; apply H; now right) I). lra.
Qed.

Section Contraction.
Variables (n nA : nat) (p : nat -> nat -> nat -> R) (r : nat -> R) (g : R) (bk : list R -> R).
Hypothesis bk_ne : forall l l' c, length l = nA -> length l' = nA ->
  (forall i, (i < nA)%nat -> Rabs (nth i l 0 - nth i l' 0) <= c) -> Rabs (bk l - bk l') <= c.
Hypothesis p_nn : forall s a t, (s < n)%nat -> (a < nA)%nat -> (t < n)%nat -> 0 <= p s a t.
Hypothesis p_sum : forall s a, (s < n)%nat -> (a < nA)%nat -> sumf (p s a) (seq 0 n) <= 1.
Hypothesis g_rng : 0 <= g < 1.

Definition qv (V : nat -> R) (s a : nat) : R := sumf (fun t => p s a t * (r t + g * V t)) (seq 0 n).
Definition T (V : nat -> R) (s : nat) : R := bk (map (qv V s) (seq 0 nA)).
Definition fixed (V : nat -> R) : Prop := forall s, (s < n)%nat -> V s = T V s.

Lemma near_nonneg : forall c U V, (0 < n)%nat -> near n c U V -> 0 <= c.
Proof. intros c U V H N. eapply Rle_trans; [apply Rabs_pos|apply (N 0%nat H)]. Qed.

Lemma qv_contr : forall c U V s a, (s < n)%nat -> (a < nA)%nat -> near n c U V -> Rabs (qv U s a - qv V s a) <= g * c.
Proof.
  intros c U V s a Hs Ha N. assert (C : 0 <= c) by (eapply near_nonneg; [|exact N]; lia).
  unfold qv. rewrite <- sumf_sub. eapply Rle_trans; [apply sumf_abs|].
  apply Rle_trans with (sumf (fun t => (g * c) * p s a t) (seq 0 n)).
  - apply sumf_le. intros t Ht. apply in_seq in Ht. specialize (N t ltac:(lia)). specialize (p_nn s a t Hs Ha ltac:(lia)).
    replace (p s a t * (r t + g * U t) - p s a t * (r t + g * V t)) with (p s a t * (g * (U t - V t))) by ring.
    rewrite !Rabs_mult. rewrite (Rabs_pos_eq _ p_nn), (Rabs_pos_eq g) by lra.
    assert (p s a t * (g * Rabs (U t - V t)) <= p s a t * (g * c)) by (apply Rmult_le_compat_l; [exact p_nn|]; apply Rmult_le_compat_l; lra). lra.
  - rewrite sumf_scal. specialize (p_sum s a Hs Ha). assert (0 <= g * c) by (apply Rmult_le_pos; lra).
    apply Rle_trans with (g * c * 1); [apply Rmult_le_compat_l; assumption|lra].
Qed.
Lemma T_contr : forall c U V s, (s < n)%nat -> near n c U V -> Rabs (T U s - T V s) <= g * c.
Proof.
  intros c U V s Hs N. unfold T. apply bk_ne; try (now rewrite map_length, seq_length).
  intros i Hi. rewrite !(nth_map_lt _ _ _ _ _ _ 0%nat) by (rewrite seq_length; exact Hi). rewrite seq_nth by exact Hi. now apply qv_contr.
Qed.

Lemma pow_small : forall c eps, 0 < eps -> exists k, g ^ k * c < eps.
Proof.
  intros c eps He. destruct (Rle_dec c 0) as [C|C].
  - exists 0%nat. cbn. lra.
  - destruct (pow_lt_1_zero g) with (y := eps / c) as (N & HN); [rewrite Rabs_pos_eq; lra|apply Rdiv_lt_0_compat; lra|].
    exists N. specialize (HN N (Nat.le_refl _)). rewrite Rabs_pos_eq in HN by (apply pow_le; lra).
    apply Rmult_lt_compat_r with (r := c) in HN; [|lra]. replace (eps / c * c) with eps in HN by (field; lra). exact HN.
Qed.
Lemma bounded : forall U V, exists c, 0 <= c /\ near n c U V.
Proof.
  intros U V. exists (sumf (fun s => Rabs (U s - V s)) (seq 0 n)). split.
  - apply sumf_nonneg. intros. apply Rabs_pos.
  - intros s Hs. apply (sumf_member _ (fun s => Rabs (U s - V s))); [intros; apply Rabs_pos|apply in_seq; lia].
Qed.
Lemma near_weaken : forall c c' U V, c <= c' -> near n c U V -> near n c' U V.
Proof. intros c c' U V H N s Hs. specialize (N s Hs). lra. Qed.
Lemma near_sym : forall c U V, near n c U V -> near n c V U.
Proof. intros c U V N s Hs. rewrite Rabs_minus_sym. now apply N. Qed.
Lemma near_trans : forall c d U V W, near n c U V -> near n d V W -> near n (c + d) U W.
Proof.
  intros c d U V W N M s Hs. replace (U s - W s) with ((U s - V s) + (V s - W s)) by ring.
  eapply Rle_trans; [apply Rabs_triang|]. specialize (N s Hs). specialize (M s Hs). lra.
Qed.
Lemma all_small : forall x c, (forall k, Rabs x <= g ^ k * c) -> x = 0.
Proof.
  intros x c H. destruct (Req_dec x 0) as [E|E]; [exact E|]. exfalso. apply Rabs_pos_lt in E.
  destruct (pow_small c _ E) as (k & Hk). specialize (H k). lra.
Qed.

Lemma fixed_unique : forall U V, fixed U -> fixed V -> forall s, (s < n)%nat -> U s = V s.
Proof.
  intros U V FU FV. destruct (bounded U V) as (c & C0 & HB).
  assert (K : forall k, near n (g ^ k * c) U V).
  { induction k as [|k IH]; [cbn; eapply near_weaken; [|exact HB]; lra|]. intros s Hs. rewrite (FU s Hs), (FV s Hs).
    cbn [pow]. rewrite Rmult_assoc. now apply T_contr. }
  intros s Hs. apply Rminus_diag_uniq. apply (all_small _ c). intros k. now apply K.
Qed.

(** The iterates from zero. *)
Fixpoint iter (k : nat) : nat -> R := match k with O => fun _ => 0 | S k' => T (iter k') end.
Lemma iter_cauchy : exists B, 0 <= B /\ forall k m, near n (g ^ k * B) (iter (k + m)) (iter k).
Proof.
  destruct (bounded (iter 1) (iter 0)) as (c & C0 & HB).
  assert (K1 : forall k, near n (g ^ k * c) (iter (S k)) (iter k)).
  { induction k as [|k IH]; [cbn [pow]; eapply near_weaken; [|exact HB]; lra|]. intros s Hs. cbn [pow]. rewrite Rmult_assoc. now apply (T_contr _ (iter (S k)) (iter k)). }
  exists (c / (1 - g)). assert (0 < 1 - g) by lra. split; [apply Rmult_le_pos; [lra|]; left; apply Rinv_0_lt_compat; lra|].
  assert (K2 : forall m k, near n (g ^ k * c * ((1 - g ^ m) / (1 - g))) (iter (k + m)) (iter k)).
  { induction m as [|m IH]; intros k.
    - rewrite Nat.add_0_r. intros s Hs. rewrite Rminus_diag_eq, Rabs_R0 by reflexivity. cbn [pow]. right. field. lra.
    - rewrite Nat.add_succ_r, <- Nat.add_succ_l. eapply near_weaken; [|eapply near_trans; [apply (IH (S k))|apply K1]]. right. cbn [pow]. field. lra. }
  intros k m. eapply near_weaken; [|apply K2]. assert (0 <= g ^ k) by (apply pow_le; lra). assert (0 <= g ^ m) by (apply pow_le; lra).
  rewrite Rmult_assoc. apply Rmult_le_compat_l; [assumption|]. unfold Rdiv. apply Rmult_le_compat_l; [exact C0|].
  assert (0 < / (1 - g)) by (apply Rinv_0_lt_compat; lra). rewrite <- (Rmult_1_l (/ (1 - g))) at 2. apply Rmult_le_compat_r; lra.
Qed.
Lemma iter_cv : forall s, (s < n)%nat -> {l : R | Un_cv (fun k => iter k s) l}.
Proof.
  intros s Hs. apply R_complete. destruct iter_cauchy as (B & B0 & H). intros eps He.
  destruct (pow_small B (eps / 2)) as (N & HN); [lra|]. exists N. intros k m Hk Hm. unfold R_dist.
  replace (iter k s - iter m s) with ((iter k s - iter N s) + (iter N s - iter m s)) by ring.
  eapply Rle_lt_trans; [apply Rabs_triang|].
  pose proof (H N (k - N)%nat s Hs) as H1. replace (N + (k - N))%nat with k in H1 by lia.
  pose proof (H N (m - N)%nat s Hs) as H2. replace (N + (m - N))%nat with m in H2 by lia.
  rewrite (Rabs_minus_sym (iter N s)). lra.
Qed.
Definition limit (s : nat) : R := match lt_dec s n with left H => proj1_sig (iter_cv s H) | right _ => 0 end.
Lemma limit_near : exists B, 0 <= B /\ forall k, near n (g ^ k * B) (iter k) limit.
Proof.
  destruct iter_cauchy as (B & B0 & H). exists B. split; [exact B0|]. intros k s Hs. unfold limit.
  destruct (lt_dec s n) as [L|]; [|contradiction]. destruct (iter_cv s L) as (l & Hl). cbn [proj1_sig].
  apply Rnot_lt_le. intros X. destruct (Hl (Rabs (iter k s - l) - g ^ k * B)) as (N & HN); [lra|].
  specialize (HN (k + N)%nat ltac:(lia)). unfold R_dist in HN. specialize (H k N s Hs).
  assert (Rabs (iter k s - l) <= Rabs (iter k s - iter (k + N) s) + Rabs (iter (k + N) s - l)).
  { eapply Rle_trans; [|apply Rabs_triang]. right. f_equal. ring. }
  rewrite (Rabs_minus_sym (iter k s) (iter (k + N) s)) in H0. lra.
Qed.
Lemma fixed_limit : fixed limit.
Proof.
  destruct limit_near as (B & B0 & H). intros s Hs. apply Rminus_diag_uniq. apply (all_small _ (2 * B)). intros k.
  replace (limit s - T limit s) with ((limit s - iter (S k) s) + (iter (S k) s - T limit s)) by ring.
  eapply Rle_trans; [apply Rabs_triang|]. pose proof (H (S k) s Hs) as H1. rewrite Rabs_minus_sym in H1.
  pose proof (T_contr _ _ _ s Hs (H k)) as H2. change (T (iter k) s) with (iter (S k) s) in H2. cbn [pow] in H1.
  assert (0 <= g ^ k * B) by (apply Rmult_le_pos; [apply pow_le|]; lra).
  assert (g * (g ^ k * B) <= 1 * (g ^ k * B)) by (apply Rmult_le_compat_r; lra). lra.
Qed.
End Contraction.

(** ** The two backups do not expand distances *)
Lemma fold_nmax_spec : forall l x, let m := fold_left nmax l x in (m = x \/ In m l) /\ x <= m /\ forall y, In y l -> y <= m.
Proof.
  induction l as [|y l IH]; intros x; cbn [fold_left]; [cbn; split; [now left|split; [lra|intros ? []]]|].
  destruct (IH (nmax x y)) as (H1 & H2 & H3). cbv zeta in *. set (m := fold_left nmax l (nmax x y)) in *.
  unfold nmax in *. destruct (nltb x y) eqn:E; cbn [nltb NumR] in E.
  - apply Rltb_true in E. split; [destruct H1 as [->|H1]; right; [now left|now right]|]. split; [lra|]. intros z [<-|Hz]; [lra|auto].
  - apply Rltb_false in E. split; [destruct H1 as [->|H1]; [now left|right; now right]|]. split; [lra|]. intros z [<-|Hz]; [lra|auto].
Qed.
Definition lmax (l : list R) : R := match l with [] => 0 | x :: r => fold_left nmax r x end.
Lemma lmax_spec : forall l, l <> [] -> In (lmax l) l /\ forall y, In y l -> y <= lmax l.
Proof.
  intros [|x l] H; [congruence|]. cbn [lmax]. destruct (fold_nmax_spec l x) as (H1 & H2 & H3). split.
  - destruct H1 as [->|H1]; [now left|now right].
  - intros y [<-|Hy]; auto.
Qed.
Lemma lmax_le : forall l l' c, length l = length l' -> l <> [] -> (forall i, (i < length l)%nat -> nth i l 0 <= nth i l' 0 + c) -> lmax l <= lmax l' + c.
Proof.
  intros l l' c L N H. destruct (lmax_spec l N) as [I _]. assert (N' : l' <> []) by (destruct l; [congruence|]; destruct l'; [discriminate|congruence]).
  destruct (lmax_spec l' N') as [_ U]. apply (In_nth _ _ 0) in I. destruct I as (i & Hi & <-). specialize (H i Hi).
  specialize (U (nth i l' 0) ltac:(apply nth_In; lia)). lra.
Qed.
Lemma Rabs_le2 : forall x y c, x <= y + c -> y <= x + c -> Rabs (x - y) <= c.
Proof. intros. apply Rabs_le. lra. Qed.
Lemma Rabs_le2_inv : forall x y c, Rabs (x - y) <= c -> x <= y + c /\ y <= x + c.
Proof. intros x y c H. apply Rabs_def2b in H || idtac. unfold Rabs in H. destruct (Rcase_abs (x - y)); lra. Qed.
Lemma lmax_ne : forall nA l l' c, (0 < nA)%nat -> length l = nA -> length l' = nA ->
  (forall i, (i < nA)%nat -> Rabs (nth i l 0 - nth i l' 0) <= c) -> Rabs (lmax l - lmax l') <= c.
Proof.
  intros nA l l' c P L L' H. apply Rabs_le2; apply lmax_le; try lia; try (intros E; subst; cbn in *; lia);
    intros i Hi; destruct (Rabs_le2_inv _ _ _ (H i ltac:(lia))); lra.
Qed.
Lemma lse_le : forall eps l l' c, 0 < eps -> 0 <= c -> length l = length l' -> (forall i, (i < length l)%nat -> nth i l 0 <= nth i l' 0 + c) ->
  log_sum_exp eps l <= log_sum_exp eps l' + c.
Proof.
  intros eps l l' c E C L H. unfold log_sum_exp.
  assert (S : Rsum (map exp l) <= exp c * Rsum (map exp l')).
  { revert l' L H. induction l as [|x l IH]; intros [|y l'] L H; try discriminate; [cbn; lra|]. cbn [map]. rewrite !Rsum_cons.
    specialize (IH l' ltac:(cbn in L; lia) ltac:(intros i Hi; apply (H (S i)); cbn; lia)). pose proof (H 0%nat ltac:(cbn; lia)) as H0. cbn [nth] in H0.
    assert (exp x <= exp c * exp y). { rewrite <- exp_plus. destruct (Req_dec x (c + y)) as [->|N]; [lra|]. left. apply exp_increasing. lra. } lra. }
  assert (P : forall l, 0 <= Rsum (map exp l)). { induction l0; cbn [map]; [cbn; lra|]. rewrite Rsum_cons. pose proof (exp_pos a). lra. }
  pose proof (P l). pose proof (P l'). assert (1 <= exp c). { rewrite <- exp_0. destruct (Req_dec 0 c) as [<-|N]; [lra|]. left. apply exp_increasing. lra. }
  rewrite <- (ln_exp c). rewrite <- ln_mult; [|lra|apply exp_pos].
  assert (Q : Rsum (map exp l) + eps <= (Rsum (map exp l') + eps) * exp c).
  { assert (eps * 1 <= eps * exp c) by (apply Rmult_le_compat_l; lra). lra. }
  destruct (Req_dec (Rsum (map exp l) + eps) ((Rsum (map exp l') + eps) * exp c)) as [->|N]; [lra|]. left. apply ln_increasing; lra.
Qed.
Lemma lse_ne : forall eps nA l l' c, 0 < eps -> (0 < nA)%nat -> length l = nA -> length l' = nA ->
  (forall i, (i < nA)%nat -> Rabs (nth i l 0 - nth i l' 0) <= c) -> Rabs (log_sum_exp eps l - log_sum_exp eps l') <= c.
Proof.
  intros eps nA l l' c E P L L' H. assert (0 <= c) by (eapply Rle_trans; [apply Rabs_pos|apply (H 0%nat P)]).
  apply Rabs_le2; apply lse_le; auto; try lia; intros i Hi; destruct (Rabs_le2_inv _ _ _ (H i ltac:(lia))); lra.
Qed.
