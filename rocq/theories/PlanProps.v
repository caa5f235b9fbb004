(** Planning schedule: property C23. *)
From Coq Require Import List ZArith Bool Lia.
From Verif Require Import PyBase PyProofs MDPModel EnvModel.
Import ListNotations.
Local Open Scope Z_scope.

Lemma zsum_cons : forall a b, zsum (a :: b) = a + zsum b.
Proof. reflexivity. Qed.
Lemma zsum_app : forall a b, zsum (a ++ b) = zsum a + zsum b.
Proof. induction a; intros; cbn [app]; [reflexivity|]. rewrite !zsum_cons, IHa. lia. Qed.

Lemma skipn_skipn' : forall B a b (l : list B), skipn a (skipn b l) = skipn (a + b) l.
Proof.
  intros B a b. revert a. induction b; intros a l; [now rewrite Nat.add_0_r|].
  destruct l; [now rewrite !skipn_nil|]. rewrite Nat.add_succ_r. cbn [skipn]. apply IHb.
Qed.
Lemma nth_chunks : forall B k h (l : list B) t, (t < k)%nat -> nth t (chunks k h l) [] = firstn h (skipn (t * h) l).
Proof.
  induction k; intros h l t H; [lia|]. cbn [chunks]. destruct t; [reflexivity|]. cbn [nth]. rewrite IHk by lia.
  rewrite skipn_skipn'. f_equal. f_equal. lia.
Qed.
Lemma chunks_len : forall B k h (l : list B), length (chunks k h l) = k.
Proof. induction k; intros; cbn; auto. Qed.
Lemma zsum_chunks : forall k h l, length l = (k * h)%nat -> zsum (map zsum (chunks k h l)) = zsum l.
Proof.
  induction k; intros h l L; cbn [chunks map].
  - destruct l; [reflexivity|cbn in L; lia].
  - rewrite zsum_cons, IHk by (rewrite skipn_length; lia). rewrite <- zsum_app. now rewrite firstn_skipn.
Qed.
Lemma firstn_skipn_seq : forall h s N, (s + h <= N)%nat -> firstn h (skipn s (seq 0 N)) = seq s h.
Proof.
  intros h s N H. replace N with (s + (h + (N - s - h)))%nat by lia. rewrite !seq_app. cbn [Nat.add].
  rewrite skipn_app, seq_length, Nat.sub_diag, skipn_all2 by (rewrite seq_length; lia). cbn [app skipn].
  rewrite firstn_app, seq_length, Nat.sub_diag, firstn_O, app_nil_r. rewrite firstn_all2 by (rewrite seq_length; lia). reflexivity.
Qed.
Lemma zsum_range : forall a b h s,
  zsum (map (fun i => if (a <=? i)%nat && (i <? b)%nat then 1 else 0) (seq s h)) =
  Z.max 0 (Z.min (Z.of_nat (s + h)) (Z.of_nat b) - Z.max (Z.of_nat s) (Z.of_nat a)).
Proof.
  intros a b. induction h as [|h IH]; intros s.
  - cbn. lia.
  - cbn [seq map]. rewrite zsum_cons, IH. destruct (Nat.leb_spec a s), (Nat.ltb_spec s b); cbn [andb]; lia.
Qed.

(** Number of moves of turn [t] among the [total] moves laid out from move [cur] on. *)
Definition overlap (cur total m t : Z) : Z :=
  Z.max 0 (Z.min ((t + 1) * m) (cur + total) - Z.max (t * m) cur).

Theorem C23_schedule : forall cur turns m total, 0 <= cur < m -> 1 <= turns -> 0 <= total ->
  exists plan, get_n_moves_plan cur turns m total = Ok plan /\ length plan = Z.to_nat turns /\
    (forall t, 0 <= t < turns -> nth (Z.to_nat t) plan 0 = overlap cur total m t /\ 0 <= nth (Z.to_nat t) plan 0 <= m) /\
    zsum plan = Z.min total (turns * m - cur).
Proof.
  intros cur turns m total HC HT HP. unfold get_n_moves_plan.
  destruct (Z.leb_spec m cur); [lia|]. destruct (Z.ltb_spec (turns * m) 0); [nia|].
  destruct (Z.eqb_spec turns 0); [lia|]. destruct (Z.ltb_spec turns 0); [lia|].
  set (N := Z.to_nat (turns * m)). assert (EN : N = (Z.to_nat turns * Z.to_nat m)%nat) by (unfold N; nia).
  assert (ENZ : Z.of_nat N = turns * m) by (unfold N; nia).
  assert (SA : slice_bound N cur = Z.to_nat cur).
  { unfold slice_bound. destruct (Z.ltb_spec cur 0); [lia|]. f_equal. nia. }
  assert (SB : slice_bound N (cur + total) = Z.to_nat (Z.min (cur + total) (turns * m))).
  { unfold slice_bound. destruct (Z.ltb_spec (cur + total) 0); [lia|]. now rewrite ENZ. }
  set (arr := plan_array N cur (cur + total)).
  assert (LA : length arr = (Z.to_nat turns * Z.to_nat m)%nat) by (unfold arr, plan_array; now rewrite map_length, seq_length).
  assert (SUM : zsum (map zsum (chunks (Z.to_nat turns) (Z.to_nat m) arr)) = Z.min total (turns * m - cur)).
  { rewrite zsum_chunks by exact LA. unfold arr, plan_array. rewrite SA, SB, zsum_range. nia. }
  rewrite SUM. destruct (Z.leb_spec (Z.min total (turns * m - cur)) total); [|lia].
  eexists. split; [reflexivity|]. split; [now rewrite map_length, chunks_len|]. split; [|exact SUM].
  intros t Ht.
  assert (EQ : nth (Z.to_nat t) (map zsum (chunks (Z.to_nat turns) (Z.to_nat m) arr)) 0 = overlap cur total m t).
  { rewrite (nth_map_lt _ _ _ _ _ _ []) by (rewrite chunks_len; lia). rewrite nth_chunks by lia.
    unfold arr, plan_array. rewrite skipn_map, firstn_map, firstn_skipn_seq by nia. rewrite SA, SB, zsum_range.
    unfold overlap. rewrite Nat2Z.inj_add, Nat2Z.inj_mul, !Z2Nat.id by lia. nia. }
  rewrite EQ. split; [reflexivity|]. unfold overlap. nia.
Qed.

(** Everything outside that domain raises, except a negative current move. *)
Theorem C23_rejected : forall cur turns m total,
  (m <= cur -> get_n_moves_plan cur turns m total = Err ValueError) /\
  (turns <= 0 -> exists e, get_n_moves_plan cur turns m total = Err e) /\
  (total < 0 -> exists e, get_n_moves_plan cur turns m total = Err e).
Proof.
  intros cur turns m total. unfold get_n_moves_plan. split; [|split].
  - intros H. destruct (Z.leb_spec m cur); [reflexivity|lia].
  - intros H. destruct (m <=? cur); [eauto|]. destruct (turns * m <? 0); [eauto|]. destruct (Z.eqb_spec turns 0); [eauto|].
    destruct (Z.ltb_spec turns 0); [eauto|lia].
  - intros H. destruct (m <=? cur); [eauto|]. destruct (Z.ltb_spec (turns * m) 0); [eauto|]. destruct (Z.eqb_spec turns 0); [eauto|].
    destruct (Z.ltb_spec turns 0); [eauto|]. cbv zeta.
    match goal with |- context [zsum ?p <=? total] => assert (Q : 0 <= zsum p); [|destruct (Z.leb_spec (zsum p) total); [lia|eauto]] end.
    assert (NN : forall l, (forall x, In x l -> 0 <= x) -> 0 <= zsum l).
    { induction l as [|x l IH]; intros Hl; [cbn; lia|]. rewrite zsum_cons. assert (0 <= x) by (apply Hl; now left).
      assert (0 <= zsum l) by (apply IH; intros; apply Hl; now right). lia. }
    apply NN. intros x Hx. apply in_map_iff in Hx. destruct Hx as (c & <- & Hc). apply NN. intros y Hy.
    assert (Sub : forall k h (l : list Z) c, In c (chunks k h l) -> forall y, In y c -> In y l).
    { clear. induction k; intros h l c Hc y Hy; [destruct Hc|]. cbn [chunks] in Hc. rewrite <- (firstn_skipn h l). apply in_or_app.
      destruct Hc as [<-|Hc]; [now left|right]. eapply IHk; eauto. }
    specialize (Sub _ _ _ _ Hc y Hy). unfold plan_array in Sub. apply in_map_iff in Sub. destruct Sub as (i & <- & _).
    destruct (_ && _); lia.
Qed.

(** The documentation's examples. *)
Example ex_plan : get_n_moves_plan 0 3 4 6 = Ok [4; 2; 0] /\ get_n_moves_plan 1 3 4 6 = Ok [3; 3; 0] /\ get_n_moves_plan 3 2 4 9 = Ok [1; 4].
Proof. repeat split; reflexivity. Qed.

Print Assumptions C23_schedule.
Print Assumptions C23_rejected.
