(** Proofs about search iterations: progress through the schedule, legal walks. *)
From Coq Require Import List ZArith Reals Bool Lia Lra.
From Verif Require Import PyBase PyProofs MDPModel ActionModel EnvModel PlanProps VIModel MCTSModel MCTSSpec MCTSProofs.
Import ListNotations.
Local Open Scope Z_scope.

Definition sumz (f : nat -> Z) (n : nat) : Z := zsum (map f (seq 0 n)).
Lemma sumz_S : forall f n, sumz f (S n) = sumz f n + f n.
Proof. intros f n. unfold sumz. rewrite seq_S, map_app, zsum_app. cbn [map]. rewrite zsum_cons. cbn. lia. Qed.
Lemma sumz_ext : forall f g n, (forall i, (i < n)%nat -> f i = g i) -> sumz f n = sumz g n.
Proof. induction n as [|n IH]; intros H; [reflexivity|]. rewrite !sumz_S, IH, H; auto. Qed.
Lemma sumz_change : forall f g n a, (a < n)%nat -> (forall i, (i < n)%nat -> i <> a -> f i = g i) -> sumz f n = sumz g n + (f a - g a).
Proof.
  induction n as [|n IH]; intros a La H; [lia|]. rewrite !sumz_S. destruct (Nat.eq_dec a n) as [->|E].
  - rewrite (sumz_ext f g n); [lia|]. intros i Hi. apply H; lia.
  - rewrite (IH a), (H n) by (intros; try apply H; lia). lia.
Qed.
Lemma sumz_le : forall f g n, (forall i, (i < n)%nat -> f i <= g i) -> sumz f n <= sumz g n.
Proof. induction n as [|n IH]; intros H; [reflexivity|]. rewrite !sumz_S. specialize (IH ltac:(auto)). specialize (H n). lia. Qed.
Lemma zsum_map_nth : forall (m : list (list Z)), zsum (map zsum m) = sumz (fun j => zsum (nth j m [])) (length m).
Proof.
  intros m. unfold sumz. f_equal. apply (nth_ext _ _ 0 0); [now rewrite !map_length, seq_length|]. intros i Hi. rewrite map_length in Hi.
  rewrite (nth_map_lt _ _ _ _ i 0 []) by assumption. rewrite (nth_map_lt _ _ _ _ i 0 0%nat) by (now rewrite seq_length). now rewrite seq_nth.
Qed.
Lemma zsum_nonneg : forall l, (forall k, In k l -> 0 <= k) -> 0 <= zsum l.
Proof. induction l as [|x l IH]; intros H; [cbn; lia|]. rewrite zsum_cons. pose proof (H x (or_introl eq_refl)). assert (0 <= zsum l) by (apply IH; intros; apply H; now right). lia. Qed.
Lemma firstn_split : forall (l : list Z) t, zsum l = zsum (firstn t l) + zsum (skipn t l).
Proof. intros l t. rewrite <- zsum_app, firstn_skipn. reflexivity. Qed.
Lemma zsum_firstn_S : forall (l : list Z) t, (t < length l)%nat -> zsum (firstn (S t) l) = zsum (firstn t l) + nth t l 0.
Proof.
  induction l as [|x l IH]; intros t Ht; [cbn in Ht; lia|]. destruct t as [|t]; [cbn; lia|]. change (zsum (firstn (S (S t)) (x :: l))) with (x + zsum (firstn (S t) l)). change (zsum (firstn (S t) (x :: l))) with (x + zsum (firstn t l)). cbn [length] in Ht. rewrite IH by lia. cbn [nth]. lia.
Qed.

Section Sched.
Variables (n T : nat) (m : list (list Z)).
Hypotheses (Hn : (0 < n)%nat) (Lm : length m = n) (LT : forall row, In row m -> length row = T)
  (NN : forall row k, In row m -> In k row -> 0 <= k).

Definition quota (j t : nat) : Z := nth t (nth j m []) 0.
Definition prog (tu : nat -> nat) (j : nat) : Z := zsum (firstn (tu j) (nth j m [])).
Record sched (t : nat) (total vis : Z) (mv : nat -> Z) (tu : nat -> nat) (a : nat) : Prop := {
  sc_a : (a < n)%nat;
  sc_t : (t <= T)%nat;
  sc_at : (0 < a)%nat -> (t < T)%nat;
  sc_tu : forall j, (j < n)%nat -> tu j = if (j <? a)%nat then S t else t;
  sc_mv : forall j, (j < n)%nat -> j <> a -> mv j = 0;
  sc_ma : mv a = 0 \/ (t < T)%nat /\ 0 <= mv a < quota a t;
  sc_total : total = sumz (prog tu) n + mv a;
  sc_vis : vis = prog tu 0 + mv 0%nat }.

Lemma row_in : forall j, (j < n)%nat -> In (nth j m []) m.
Proof using Hn Lm LT NN. intros j Hj. apply nth_In. lia. Qed.
Lemma row_len : forall j, (j < n)%nat -> length (nth j m []) = T.
Proof using Hn Lm LT NN. intros j Hj. now apply LT, row_in. Qed.
Lemma quota_pos : forall j t, (j < n)%nat -> (t < T)%nat -> 0 <= quota j t.
Proof using Hn Lm LT NN. intros j t Hj Ht. apply (NN (nth j m [])); [now apply row_in|]. apply nth_In. now rewrite row_len. Qed.
Lemma prog_le : forall tu j, (j < n)%nat -> prog tu j <= planned m j.
Proof using Hn Lm LT NN.
  intros tu j Hj. unfold prog, planned. rewrite (firstn_split (nth j m []) (tu j)). assert (0 <= zsum (skipn (tu j) (nth j m []))); [|lia].
  apply zsum_nonneg. intros k Hk. apply (NN (nth j m [])); [now apply row_in|]. rewrite <- (firstn_skipn (tu j)). apply in_or_app. now right.
Qed.
Lemma prog_full : forall tu j, (j < n)%nat -> tu j = T -> prog tu j = planned m j.
Proof using Hn Lm LT NN. intros tu j Hj E. unfold prog, planned. rewrite E, <- (row_len j Hj). now rewrite firstn_all. Qed.
Lemma prog_S : forall tu tu' j t, (j < n)%nat -> (t < T)%nat -> tu j = t -> tu' j = S t -> prog tu' j = prog tu j + quota j t.
Proof using Hn Lm LT NN. intros tu tu' j t Hj Ht E E'. unfold prog. rewrite E, E'. apply zsum_firstn_S. now rewrite row_len. Qed.

(** Where the iteration stands when the schedule is used up. *)
Lemma sched_open : forall t total vis mv tu a, sched t total vis mv tu a -> total < zsum (map zsum m) -> (t < T)%nat.
Proof using Hn Lm LT NN.
  intros t total vis mv tu a S L. destruct (Nat.eq_dec t T) as [->|E]; [|pose proof (sc_t _ _ _ _ _ _ S); lia]. exfalso.
  assert (a = 0%nat). { destruct a; [reflexivity|]. pose proof (sc_at _ _ _ _ _ _ S). lia. } subst a.
  assert (E0 : mv 0%nat = 0) by (destruct (sc_ma _ _ _ _ _ _ S) as [|[]]; [assumption|lia]).
  rewrite (sc_total _ _ _ _ _ _ S), E0, zsum_map_nth, Lm in L. rewrite (sumz_ext (prog tu) (fun j => zsum (nth j m [])) n) in L; [lia|].
  intros i Hi. apply prog_full; [assumption|]. rewrite (sc_tu _ _ _ _ _ _ S i Hi). cbn. reflexivity.
Qed.
Lemma sched_move : forall t total vis mv tu a mv', sched t total vis mv tu a -> (t < T)%nat -> mv a + 1 < quota a t ->
  (forall j, (j < n)%nat -> mv' j = if (j =? a)%nat then mv a + 1 else mv j) ->
  sched t (total + 1) (vis + (if (a =? 0)%nat then 1 else 0)) mv' tu a.
Proof using Hn Lm LT NN.
  intros t total vis mv tu a mv' S Ht Q E. pose proof (sc_a _ _ _ _ _ _ S) as La. constructor; try apply S.
  - intros j Hj Nj. rewrite E by assumption. destruct (Nat.eqb_spec j a); [contradiction|]. now apply S.
  - right. split; [exact Ht|]. rewrite E, Nat.eqb_refl by assumption. destruct (sc_ma _ _ _ _ _ _ S) as [|[]]; lia.
  - rewrite E, Nat.eqb_refl by assumption. rewrite (sc_total _ _ _ _ _ _ S). lia.
  - rewrite E, (sc_vis _ _ _ _ _ _ S) by assumption. destruct (Nat.eqb_spec 0 a), (Nat.eqb_spec a 0); subst; lia.
Qed.
Lemma sched_turn : forall t total vis mv tu a mv' tu' d, sched t total vis mv tu a -> (t < T)%nat -> mv a + d = quota a t ->
  (forall j, (j < n)%nat -> mv' j = if (j =? a)%nat then 0 else mv j) ->
  (forall j, (j < n)%nat -> tu' j = if (j =? a)%nat then S (tu a) else tu j) ->
  exists t', sched t' (total + d) (vis + (if (a =? 0)%nat then d else 0)) mv' tu' (if (a <? n - 1)%nat then S a else 0%nat).
Proof using Hn Lm LT NN.
  intros t total vis mv tu a mv' tu' d S Ht Q E1 E2. pose proof (sc_a _ _ _ _ _ _ S) as La.
  pose proof (sc_tu _ _ _ _ _ _ S a La) as Ta. rewrite Nat.ltb_irrefl in Ta.
  assert (T' : tu' a = Datatypes.S t) by (rewrite E2, Nat.eqb_refl by assumption; lia).
  assert (M0 : forall j, (j < n)%nat -> mv' j = 0).
  { intros j Hj. rewrite E1 by assumption. destruct (Nat.eqb_spec j a); [reflexivity|]. now apply S. }
  assert (TOT : total + d = sumz (prog tu') n).
  { rewrite (sumz_change (prog tu') (prog tu) n a La).
    - rewrite (prog_S tu tu' a t La Ht Ta T'), (sc_total _ _ _ _ _ _ S). lia.
    - intros i Hi Ni. unfold prog. rewrite E2 by assumption. destruct (Nat.eqb_spec i a); [contradiction|reflexivity]. }
  assert (VIS : vis + (if (a =? 0)%nat then d else 0) = prog tu' 0).
  { rewrite (sc_vis _ _ _ _ _ _ S). destruct (Nat.eqb_spec a 0) as [->|Na].
    - rewrite (prog_S tu tu' 0%nat t Hn Ht Ta T'). lia.
    - rewrite (sc_mv _ _ _ _ _ _ S 0%nat Hn ltac:(lia)). unfold prog. rewrite E2 by assumption. destruct (Nat.eqb_spec 0 a); [lia|lia]. }
  destruct (Nat.ltb_spec a (n - 1)) as [L|L].
  - exists t. constructor; try lia.
    + intros j Hj. rewrite E2 by assumption. pose proof (sc_tu _ _ _ _ _ _ S j Hj) as Tj. destruct (Nat.eqb_spec j a) as [->|Nj].
      * destruct (Nat.ltb_spec a (Datatypes.S a)); lia.
      * destruct (Nat.ltb_spec j a), (Nat.ltb_spec j (Datatypes.S a)); lia.
    + intros j Hj _. now apply M0.
    + left. apply M0. lia.
    + rewrite M0 by lia. lia.
    + rewrite M0 by lia. lia.
  - exists (Datatypes.S t). assert (a = n - 1)%nat by lia. constructor; try lia.
    + intros j Hj. rewrite E2 by assumption. pose proof (sc_tu _ _ _ _ _ _ S j Hj) as Tj. cbn. destruct (Nat.eqb_spec j a) as [->|Nj]; [lia|]. destruct (Nat.ltb_spec j a); lia.
    + intros j Hj _. now apply M0.
    + left. now apply M0.
    + rewrite M0 by lia. lia.
    + rewrite M0 by lia. lia.
Qed.
Lemma sched_vis_le : forall t total vis mv tu a, sched t total vis mv tu a -> vis <= planned m 0.
Proof using Hn Lm LT NN.
  intros t total vis mv tu a S. rewrite (sc_vis _ _ _ _ _ _ S). destruct (Nat.eq_dec a 0) as [->|Na].
  - destruct (sc_ma _ _ _ _ _ _ S) as [E|[Ht Q]]; [rewrite E; pose proof (prog_le tu 0 Hn); lia|].
    pose proof (sc_tu _ _ _ _ _ _ S 0%nat Hn) as T0. cbn in T0.
    pose proof (prog_S tu (fun _ => Datatypes.S t) 0%nat t Hn Ht T0 eq_refl). pose proof (prog_le (fun _ => Datatypes.S t) 0 Hn). lia.
  - rewrite (sc_mv _ _ _ _ _ _ S 0%nat Hn ltac:(lia)). pose proof (prog_le tu 0 Hn). lia.
Qed.
Lemma sched_end : forall t total vis mv tu a, sched t total vis mv tu a -> zsum (map zsum m) <= total -> vis = planned m 0.
Proof using Hn Lm LT NN.
  intros t total vis mv tu a S L. pose proof (sched_vis_le _ _ _ _ _ _ S) as U. apply Z.le_antisymm; [exact U|].
  rewrite (sc_total _ _ _ _ _ _ S), zsum_map_nth, Lm in L. rewrite (sc_vis _ _ _ _ _ _ S) in *.
  pose proof (sc_a _ _ _ _ _ _ S) as La.
  set (f := fun j => prog tu j + (if (j =? a)%nat then mv a else 0)).
  assert (F : sumz f n = sumz (prog tu) n + mv a).
  { rewrite (sumz_change f (prog tu) n a La); unfold f; [rewrite Nat.eqb_refl; lia|]. intros i Hi Ni. destruct (Nat.eqb_spec i a); [contradiction|lia]. }
  assert (FL : forall j, (j < n)%nat -> f j <= planned m j).
  { intros j Hj. unfold f. destruct (Nat.eqb_spec j a) as [->|Nj]; [|pose proof (prog_le tu j Hj); lia].
    destruct (sc_ma _ _ _ _ _ _ S) as [E|[Ht Q]]; [rewrite E; pose proof (prog_le tu a Hj); lia|].
    pose proof (sc_tu _ _ _ _ _ _ S a Hj) as Ta. rewrite Nat.ltb_irrefl in Ta.
    pose proof (prog_S tu (fun _ => Datatypes.S t) a t Hj Ht Ta eq_refl). pose proof (prog_le (fun _ => Datatypes.S t) a Hj). lia. }
  assert (F0 : f 0%nat = prog tu 0 + mv 0%nat). { unfold f. destruct (Nat.eqb_spec 0 a) as [<-|Na]; [reflexivity|]. rewrite (sc_mv _ _ _ _ _ _ S 0%nat Hn ltac:(lia)). reflexivity. }
  rewrite <- F0. change (planned m 0 <= f 0%nat).
  set (g := fun j => if (j =? 0)%nat then f 0%nat else planned m j).
  assert (sumz f n <= sumz g n). { apply sumz_le. intros i Hi. unfold g. destruct (Nat.eqb_spec i 0) as [->|]; [lia|now apply FL]. }
  assert (sumz g n = sumz (fun j => zsum (nth j m [])) n + (f 0%nat - planned m 0)).
  { rewrite (sumz_change g (fun j => zsum (nth j m [])) n 0%nat Hn); [unfold g; cbn [Nat.eqb]; reflexivity|]. intros i Hi Ni. unfold g. destruct (Nat.eqb_spec i 0); [contradiction|reflexivity]. }
  lia.
Qed.
Lemma sched_bound : forall t total vis mv tu a, sched t total vis mv tu a -> total <= zsum (map zsum m).
Proof using Hn Lm LT NN.
  intros t total vis mv tu a S. rewrite (sc_total _ _ _ _ _ _ S), zsum_map_nth, Lm. pose proof (sc_a _ _ _ _ _ _ S) as La.
  set (f := fun j => prog tu j + (if (j =? a)%nat then mv a else 0)).
  assert (F : sumz f n = sumz (prog tu) n + mv a).
  { rewrite (sumz_change f (prog tu) n a La); unfold f; [rewrite Nat.eqb_refl; lia|]. intros i Hi Ni. destruct (Nat.eqb_spec i a); [contradiction|lia]. }
  rewrite <- F. apply sumz_le. intros j Hj. change (zsum (nth j m [])) with (planned m j). unfold f. destruct (Nat.eqb_spec j a) as [->|Nj]; [|pose proof (prog_le tu j Hj); lia].
  destruct (sc_ma _ _ _ _ _ _ S) as [E|[Ht Q]]; [rewrite E; pose proof (prog_le tu a Hj); lia|].
  pose proof (sc_tu _ _ _ _ _ _ S a Hj) as Ta. rewrite Nat.ltb_irrefl in Ta.
  pose proof (prog_S tu (fun _ => Datatypes.S t) a t Hj Ht Ta eq_refl). pose proof (prog_le (fun _ => Datatypes.S t) a Hj). lia.
Qed.
End Sched.

Lemma it_next_fields : forall {A} `{Num A} (c : search A) k (st : it_state A), it_total (it_next c k st) = it_total st /\ it_visited (it_next c k st) = it_visited st /\ it_nodes (it_next c k st) = it_nodes st /\
  it_reward (it_next c k st) = it_reward st /\ it_features (it_next c k st) = it_features st /\ it_active (it_next c k st) = it_active st /\ it_consumed (it_next c k st) = it_consumed st /\
  it_cache (it_next c k st) = it_cache st /\ it_expand (it_next c k st) = it_expand st /\ it_others (it_next c k st) = it_others st.
Proof. intros A NA c k st. unfold it_next. destruct (_ && _); cbn; auto 15. Qed.
Lemma sum_nat_dec : forall f g k a, (a < k)%nat -> (forall i, (i < k)%nat -> i <> a -> f i = g i) -> (S (f a) = g a)%nat ->
  S (list_sum (map f (seq 0 k))) = list_sum (map g (seq 0 k)).
Proof.
  induction k as [|k IH]; intros a La H E; [lia|]. rewrite !seq_S, !map_app, !list_sum_app. cbn. destruct (Nat.eq_dec a k) as [->|D].
  - rewrite (map_ext_in f g (seq 0 k)); [lia|]. intros i Hi. apply in_seq in Hi. apply H; lia.
  - rewrite (H k) by lia. rewrite <- (IH a) by (intros; try apply H; lia). lia.
Qed.

(** * The loop in interactive mode *)
Section Interactive.
Context {A : Type} {NA : Num A}.
Variables (score : scorer A) (c : search A) (V N : list A) (rnd : nat -> nat) (T : nat).
Let n := length (s_start c).
Let m := s_n_moves c.
Hypotheses (Hn : (0 < n)%nat) (Lm : length m = n) (LT : forall row, In row m -> length row = T)
  (NN : forall row k, In row m -> In k row -> 0 <= k) (INT : s_interactive c = true).

Definition follows (st : it_state A) : Prop :=
  length (it_nodes st) = n /\ length (it_moves st) = n /\ length (it_turns st) = n /\
  exists t, sched n T m t (it_total st) (Z.of_nat (length (it_visited st))) (fun j => nth j (it_moves st) 0) (fun j => nth j (it_turns st) 0%nat) (it_actor st).
Lemma follows_start : forall k, follows (it_start c k).
Proof using Hn Lm.
  intros k. unfold follows, it_start. cbn [it_nodes it_moves it_turns it_total it_visited it_actor]. rewrite !repeat_length. repeat (split; [reflexivity|]). exists 0%nat.
  constructor; try lia.
  - intros j Hj. cbn. now rewrite nth_repeat.
  - intros j Hj _. now rewrite nth_repeat.
  - left. now rewrite nth_repeat.
  - rewrite nth_repeat. rewrite (sumz_ext _ (fun _ => 0)); [|intros i Hi; unfold prog; now rewrite nth_repeat].
    clear. induction (length (s_start c)) as [|k IH]; [reflexivity|]. unfold n in *. rewrite sumz_S. lia.
  - rewrite nth_repeat. unfold prog. now rewrite nth_repeat.
Qed.
Definition room (st : it_state A) : nat := list_sum (map (fun j => T - nth j (it_turns st) 0)%nat (seq 0 n)).
Definition left_over (st : it_state A) : nat := (Z.to_nat (n_steps c - it_total st) + room st)%nat.
Lemma follows_body : forall st st', follows st -> it_total st < n_steps c -> it_body score c V N rnd st = Ok (inl st') -> follows st' /\ (left_over st' < left_over st)%nat.
Proof using Hn Lm LT NN INT.
  intros st st' (L1 & L2 & L3 & t & S) LT0 B. pose proof (sc_a _ _ _ _ _ _ _ _ _ S) as La.
  pose proof (sched_open n T m Hn Lm LT NN _ _ _ _ _ _ S LT0) as Ht.
  apply it_body_inv in B. destruct B as (row & k & E1 & E2 & B).
  assert (TA : nth (it_actor st) (it_turns st) 0%nat = t) by (rewrite (sc_tu _ _ _ _ _ _ _ _ _ S _ La); now rewrite Nat.ltb_irrefl).
  assert (Q : quota m (it_actor st) t = k). { unfold quota, m. rewrite (nth_error_nth _ _ [] E1), <- TA. now apply nth_error_nth. }
  destruct B as [(K & [(s1 & M & R)|(s1 & M & R)])|(K & R)]; [|discriminate|].
  - assert (II : forall (x y : it_state A), @inl _ (it_state A) x = inl y -> x = y) by (intros ? ? X; now inversion X). apply II in R. subst st'.
    apply it_move_ok in M. destruct M as (ft & added & active & acts & _ & _ & _ & T1 & A1 & U1 & _ & M1 & WH & _).
    assert (VN : Z.of_nat (length (it_visited s1)) = Z.of_nat (length (it_visited st)) + (if (it_actor st =? 0)%nat then 1 else 0) /\ length (it_nodes s1) = n).
    { destruct WH as [(Z0 & x & _ & _ & -> & -> & _)|[(Z0 & _ & _ & x & _ & _ & _ & -> & -> & _)|(Z0 & _ & _ & _ & -> & -> & _)]].
      - rewrite Z0, app_length, upd_length. cbn. split; [lia|exact L1].
      - rewrite upd_length. destruct (Nat.eqb_spec (it_actor st) 0); [contradiction|]. split; [lia|exact L1].
      - destruct (Nat.eqb_spec (it_actor st) 0); [contradiction|]. split; [lia|exact L1]. }
    destruct VN as [VN LN]. clear WH.
    assert (LM : length (it_moves s1) = n) by (rewrite M1, upd_length; exact L2).
    destruct (it_next_fields c k s1) as (F1 & F2 & F3 & _).
    unfold it_next. rewrite INT, A1. cbn [andb]. destruct (Z.eqb_spec (nth (it_actor st) (it_moves s1) 0) k) as [EK|NK].
    + assert (EK' : nth (it_actor st) (it_moves st) 0 + 1 = quota m (it_actor st) t). { rewrite Q, <- EK, M1. rewrite nth_upd_same by lia. reflexivity. }
      assert (X1 : forall j, (j < n)%nat -> nth j (upd (it_moves s1) (it_actor st) 0) 0 = if (j =? it_actor st)%nat then 0 else nth j (it_moves st) 0).
      { intros j Hj. destruct (Nat.eqb_spec j (it_actor st)) as [->|Nj]; [apply nth_upd_same; lia|]. rewrite nth_upd_other by assumption. rewrite M1. now rewrite nth_upd_other. }
      assert (X2 : forall j, (j < n)%nat -> nth j (upd (it_turns s1) (it_actor st) (Datatypes.S (nth (it_actor st) (it_turns s1) 0%nat))) 0%nat = if (j =? it_actor st)%nat then Datatypes.S (nth (it_actor st) (it_turns st) 0%nat) else nth j (it_turns st) 0%nat).
      { intros j Hj. rewrite U1. destruct (Nat.eqb_spec j (it_actor st)) as [->|Nj]; [apply nth_upd_same; lia|]. now rewrite nth_upd_other. }
      destruct (sched_turn n T m Hn Lm LT NN t _ _ _ _ _ (fun j => nth j (upd (it_moves s1) (it_actor st) 0) 0) (fun j => nth j (upd (it_turns s1) (it_actor st) (Datatypes.S (nth (it_actor st) (it_turns s1) 0%nat))) 0%nat) 1 S Ht EK' X1 X2) as [t' S'].
      split.
      * unfold follows. cbn [it_nodes it_moves it_turns it_total it_visited it_actor]. rewrite !upd_length. split; [exact LN|]. split; [exact LM|]. split; [rewrite U1; exact L3|]. exists t'.
        rewrite T1, VN, LM. exact S'.
      * unfold left_over. cbn [it_total]. assert (Datatypes.S (room (mkIt (it_total s1) (it_expand s1) (it_reward s1) (it_visited s1) (it_nodes s1) (if (it_actor st <? length (it_moves s1) - 1)%nat then Datatypes.S (it_actor st) else 0%nat) (it_features s1) (upd (it_moves s1) (it_actor st) 0) (upd (it_turns s1) (it_actor st) (Datatypes.S (nth (it_actor st) (it_turns s1) 0%nat))) (it_active s1) (it_consumed s1) (it_cache s1) (it_others s1))) = room st).
        { unfold room. cbn [it_turns]. apply (sum_nat_dec _ _ n (it_actor st) La).
          - intros i Hi Ni. rewrite X2 by assumption. destruct (Nat.eqb_spec i (it_actor st)); [contradiction|reflexivity].
          - rewrite X2, Nat.eqb_refl, TA by assumption. lia. }
        lia.
    + assert (EK' : nth (it_actor st) (it_moves st) 0 + 1 < quota m (it_actor st) t).
      { rewrite Q. rewrite M1, nth_upd_same in NK by lia. destruct (sc_ma _ _ _ _ _ _ _ _ _ S) as [E|[_ E]]; rewrite ?Q in E; lia. }
      split.
      * unfold follows. rewrite U1, A1, T1, VN. split; [exact LN|]. split; [exact LM|]. split; [exact L3|]. exists t. eapply sched_move; eauto.
        intros j Hj. rewrite M1. destruct (Nat.eqb_spec j (it_actor st)) as [->|Nj]; [apply nth_upd_same; lia|now rewrite nth_upd_other].
      * unfold left_over, room. rewrite U1, T1. lia.
  - assert (II : forall (x y : it_state A), @inl _ (it_state A) x = inl y -> x = y) by (intros ? ? X; now inversion X). apply II in R. subst st'.
    pose proof (quota_pos n T m Hn Lm LT NN _ _ La Ht) as QP. assert (K0 : k = 0) by lia. rewrite K0 in *. clear k K0.
    assert (E0 : nth (it_actor st) (it_moves st) 0 = 0) by (destruct (sc_ma _ _ _ _ _ _ _ _ _ S) as [E|[_ E]]; lia).
    unfold it_next. rewrite INT, E0. cbn [andb Z.eqb].
    assert (X1 : forall j, (j < n)%nat -> nth j (upd (it_moves st) (it_actor st) 0) 0 = if (j =? it_actor st)%nat then 0 else nth j (it_moves st) 0).
    { intros j Hj. destruct (Nat.eqb_spec j (it_actor st)) as [->|Nj]; [apply nth_upd_same; lia|]. now rewrite nth_upd_other by assumption. }
    assert (X2 : forall j, (j < n)%nat -> nth j (upd (it_turns st) (it_actor st) (Datatypes.S (nth (it_actor st) (it_turns st) 0%nat))) 0%nat = if (j =? it_actor st)%nat then Datatypes.S (nth (it_actor st) (it_turns st) 0%nat) else nth j (it_turns st) 0%nat).
    { intros j Hj. destruct (Nat.eqb_spec j (it_actor st)) as [->|Nj]; [apply nth_upd_same; lia|]. now rewrite nth_upd_other. }
    assert (EK' : nth (it_actor st) (it_moves st) 0 + 0 = quota m (it_actor st) t) by lia.
    destruct (sched_turn n T m Hn Lm LT NN t _ _ _ _ _ (fun j => nth j (upd (it_moves st) (it_actor st) 0) 0) (fun j => nth j (upd (it_turns st) (it_actor st) (Datatypes.S (nth (it_actor st) (it_turns st) 0%nat))) 0%nat) 0 S Ht EK' X1 X2) as [t' S'].
    split.
    + unfold follows. cbn [it_nodes it_moves it_turns it_total it_visited it_actor]. rewrite !upd_length. split; [exact L1|]. split; [exact L2|]. split; [exact L3|]. exists t'.
      rewrite L2. rewrite Z.add_0_r in S'. replace (Z.of_nat (length (it_visited st))) with (Z.of_nat (length (it_visited st)) + (if (it_actor st =? 0)%nat then 0 else 0)) by (destruct (_ =? _)%nat; lia). exact S'.
    + unfold left_over. cbn [it_total]. match goal with |- (_ + room ?s' < _)%nat => assert (Datatypes.S (room s') = room st) end; [|lia].
      unfold room. cbn [it_turns]. apply (sum_nat_dec _ _ n (it_actor st) La).
      * intros i Hi Ni. rewrite X2 by assumption. destruct (Nat.eqb_spec i (it_actor st)); [contradiction|reflexivity].
      * rewrite X2, Nat.eqb_refl, TA by assumption. lia.
Qed.
Lemma room_start : forall k, room (it_start c k) = (n * T)%nat.
Proof using Hn Lm.
  intros k. unfold room, it_start. cbn [it_turns]. fold n. rewrite (map_ext_in _ (fun _ => T)).
  - generalize n at 1 2. intros q. generalize 0%nat. induction q as [|q IH]; intros i; [reflexivity|]. cbn. rewrite IH. lia.
  - intros j _. rewrite nth_repeat. lia.
Qed.
Definition enough : nat := S (Z.to_nat (n_steps c) + n * T).
Lemma interactive_terminates : terminates (s_policy c) -> forall k fuel, (enough <= fuel)%nat -> it_loop score c V N rnd fuel (it_start c k) <> Err Diverges.
Proof using Hn Lm LT NN INT.
  intros TP k fuel L. apply (it_loop_fuel score c V N rnd follows left_over).
  - intros st st' F L0 B. now apply follows_body.
  - intros st _. now apply it_body_nodiv.
  - apply follows_start.
  - unfold left_over. rewrite room_start. unfold enough in L. cbn [it_start it_total]. rewrite Z.sub_0_r. lia.
Qed.
Lemma interactive_length : forall k fuel st b, it_loop score c V N rnd fuel (it_start c k) = Ok (st, b) ->
  Z.of_nat (length (it_visited st)) <= planned m 0 /\ (b = false -> Z.of_nat (length (it_visited st)) = planned m 0).
Proof using Hn Lm LT NN INT.
  intros k fuel st b H. revert H. apply (it_loop_inv score c V N rnd follows (fun st b => Z.of_nat (length (it_visited st)) <= planned m 0 /\ (b = false -> Z.of_nat (length (it_visited st)) = planned m 0))); [| | |apply follows_start].
  - intros s s' F L B. exact (proj1 (follows_body s s' F L B)).
  - intros s s' (L1 & L2 & L3 & t & S) L B. split; [|discriminate]. apply it_body_inv in B. destruct B as (row & q & E1 & E2 & [(K & [(s1 & M & R)|(s1 & M & R)])|(K & R)]); try discriminate.
    inversion R. subst s1. apply it_move_caught in M. destruct M as (ft & ad & ac & _ & _ & ->). cbn [it_visited]. eapply sched_vis_le; eauto.
  - intros s (L1 & L2 & L3 & t & S) L. split; [eapply sched_vis_le; eauto|]. intros _. eapply sched_end; eauto.
Qed.
End Interactive.
