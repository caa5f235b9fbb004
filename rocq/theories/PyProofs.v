(** Lemmas about the shared vocabulary. *)
From Coq Require Import List ZArith QArith Reals Bool Lia Lra.
From Verif Require Import PyBase.
Import ListNotations.

(** ** Results *)
Lemma bind_ok : forall A B (m : res A) (k : A -> res B) b,
  bind m k = Ok b -> exists a, m = Ok a /\ k a = Ok b.
Proof. intros. destruct m; simpl in *; [eauto|discriminate]. Qed.

Lemma mapM_total : forall A B (f : A -> res B) (g : A -> B) l,
  (forall x, In x l -> f x = Ok (g x)) -> mapM f l = Ok (map g l).
Proof.
  induction l; intros H; [reflexivity|]. simpl. rewrite H by (now left). simpl.
  rewrite IHl by (intros; apply H; now right). reflexivity.
Qed.

Lemma foldM_app : forall A B (f : B -> A -> res B) l1 l2 b,
  foldM f (l1 ++ l2) b = bind (foldM f l1 b) (foldM f l2).
Proof.
  induction l1; intros; [reflexivity|]. simpl. destruct (f b a); simpl; [apply IHl1|reflexivity].
Qed.

Lemma foldM_total : forall A B (f : B -> A -> res B) (g : B -> A -> B) l b,
  (forall b x, In x l -> f b x = Ok (g b x)) -> foldM f l b = Ok (fold_left g l b).
Proof.
  induction l; intros b H; [reflexivity|]. simpl. rewrite H by (now left). simpl.
  apply IHl. intros; apply H; now right.
Qed.

(** ** Arrays *)
Lemma upd_length : forall A (l : list A) i x, length (upd l i x) = length l.
Proof. induction l; destruct i; simpl; intros; auto. Qed.

Lemma nth_upd : forall A (l : list A) i j x d,
  nth j (upd l i x) d = if (Nat.eqb j i && Nat.ltb i (length l))%bool then x else nth j l d.
Proof.
  induction l; intros i j x d.
  - simpl. rewrite andb_false_r. reflexivity.
  - destruct i, j; cbn [upd nth length Nat.eqb]; [reflexivity|reflexivity|reflexivity|].
    rewrite IHl. replace (Nat.ltb (S i) (S (length l))) with (Nat.ltb i (length l)); [reflexivity|].
    destruct (Nat.ltb_spec i (length l)), (Nat.ltb_spec (S i) (S (length l))); lia || reflexivity.
Qed.

Lemma nth_upd_same : forall A (l : list A) i x d, (i < length l)%nat -> nth i (upd l i x) d = x.
Proof.
  intros. rewrite nth_upd, Nat.eqb_refl. replace (Nat.ltb i (length l)) with true; [reflexivity|].
  symmetry. now apply Nat.ltb_lt.
Qed.

Lemma nth_upd_other : forall A (l : list A) i j x d, j <> i -> nth j (upd l i x) d = nth j l d.
Proof. intros. rewrite nth_upd. apply Nat.eqb_neq in H. now rewrite H. Qed.

Lemma upd_out : forall A (l : list A) i x, (length l <= i)%nat -> upd l i x = l.
Proof. induction l; destruct i; simpl; intros; auto; [lia|]. f_equal. apply IHl. lia. Qed.

Lemma upd_nth_same : forall A (l : list A) i d, (i < length l)%nat -> upd l i (nth i l d) = l.
Proof. induction l; destruct i; simpl; intros; auto; try lia. f_equal. apply IHl. lia. Qed.

Lemma nth_repeat_lt : forall A (x d : A) n i, (i < n)%nat -> nth i (repeat x n) d = x.
Proof. induction n; intros i L; [lia|]. destruct i; [reflexivity|]. simpl. apply IHn. lia. Qed.

Lemma list_eq_nth : forall A (l1 l2 : list A) d, length l1 = length l2 ->
  (forall i, (i < length l1)%nat -> nth i l1 d = nth i l2 d) -> l1 = l2.
Proof.
  induction l1; destruct l2; simpl; intros d L H; try discriminate; auto.
  f_equal; [apply (H 0%nat); lia|]. apply (IHl1 l2 d); [lia|]. intros. apply (H (S i)). lia.
Qed.

Lemma nth_map_lt : forall A B (f : A -> B) l i d d', (i < length l)%nat -> nth i (map f l) d = f (nth i l d').
Proof. induction l; intros i d d' L; simpl in *; [lia|]. destruct i; [reflexivity|]. apply IHl. lia. Qed.

Lemma seq_nth0 : forall n i d, (i < n)%nat -> nth i (seq 0 n) d = i.
Proof. intros. rewrite seq_nth by assumption. reflexivity. Qed.

Lemma nth_combine_seq : forall A (l : list A) i d1 d2, (i < length l)%nat ->
  nth i (combine (seq 0 (length l)) l) (d1, d2) = (i, nth i l d2).
Proof.
  intros. rewrite combine_nth by (now rewrite seq_length). rewrite seq_nth0 by assumption. reflexivity.
Qed.

Lemma map_combine_seq_nth : forall A B (f : nat * A -> B) (l : list A) i d d', (i < length l)%nat ->
  nth i (map f (combine (seq 0 (length l)) l)) d = f (i, nth i l d').
Proof.
  intros. rewrite (nth_map_lt _ _ f _ _ d (0%nat, d')).
  - now rewrite nth_combine_seq.
  - rewrite combine_length, seq_length. lia.
Qed.

Lemma py_index_ok : forall n i k, py_index n i = Ok k ->
  (k < n)%nat /\ (i = Z.of_nat k \/ i = (Z.of_nat k - Z.of_nat n)%Z).
Proof.
  unfold py_index. intros n i k H.
  destruct (Z.leb_spec 0 i); [destruct (Z.ltb_spec i (Z.of_nat n))|destruct (Z.leb_spec (- Z.of_nat n) i)];
    inversion H; subst; lia.
Qed.

Lemma py_index_nonneg : forall n i, (0 <= i < Z.of_nat n)%Z -> py_index n i = Ok (Z.to_nat i).
Proof.
  unfold py_index. intros. destruct (Z.leb_spec 0 i); [|lia]. destruct (Z.ltb_spec i (Z.of_nat n)); [reflexivity|lia].
Qed.

Lemma py_index_nat : forall n i, (i < n)%nat -> py_index n (Z.of_nat i) = Ok i.
Proof. intros. rewrite py_index_nonneg by lia. now rewrite Nat2Z.id. Qed.

Lemma py_index_err : forall n i e, py_index n i = Err e -> e = IndexError.
Proof.
  unfold py_index. intros n i e H.
  destruct (Z.leb_spec 0 i); [destruct (Z.ltb_spec i (Z.of_nat n))|destruct (Z.leb_spec (- Z.of_nat n) i)];
    now inversion H.
Qed.

(** ** where *)
Lemma in_where_from : forall A (p : A -> bool) l i k d,
  In k (where_from p i l) <-> (i <= k < i + length l)%nat /\ p (nth (k - i) l d) = true.
Proof.
  induction l; intros i k d; simpl.
  - split; [tauto|lia].
  - destruct (p a) eqn:E; simpl; rewrite ?(IHl (S i) k d).
    + split.
      * intros [->|[H1 H2]]; [rewrite Nat.sub_diag; split; [lia|assumption]|].
        replace (k - i)%nat with (S (k - S i)) by lia. split; [lia|assumption].
      * intros [H1 H2]. destruct (Nat.eq_dec i k); [now left|right].
        replace (k - i)%nat with (S (k - S i)) in H2 by lia. split; [lia|assumption].
    + split.
      * intros [H1 H2]. replace (k - i)%nat with (S (k - S i)) by lia. split; [lia|assumption].
      * intros [H1 H2]. destruct (Nat.eq_dec i k) as [->|]; [rewrite Nat.sub_diag in H2; congruence|].
        replace (k - i)%nat with (S (k - S i)) in H2 by lia. split; [lia|assumption].
Qed.

Lemma in_where : forall A (p : A -> bool) l k d,
  In k (where_ p l) <-> (k < length l)%nat /\ p (nth k l d) = true.
Proof.
  intros. unfold where_. rewrite (in_where_from _ p l 0 k d). rewrite Nat.sub_0_r.
  split; intros [H1 H2]; (split; [lia|assumption]).
Qed.

Lemma where_from_sorted : forall A (p : A -> bool) l i k, In k (where_from p i l) -> (i <= k)%nat.
Proof.
  induction l; simpl; intros i k H; [tauto|]. destruct (p a); [destruct H as [->|H]; [lia|]|];
  apply IHl in H; lia.
Qed.

Lemma where_NoDup_from : forall A (p : A -> bool) l i, NoDup (where_from p i l).
Proof.
  induction l; simpl; intros; [constructor|]. destruct (p a); [|apply IHl].
  constructor; [|apply IHl]. intros H. apply where_from_sorted in H. lia.
Qed.
Lemma where_NoDup : forall A (p : A -> bool) l, NoDup (where_ p l).
Proof. intros. apply where_NoDup_from. Qed.

(** ** Comparisons over R *)
Lemma Rltb_true : forall x y, Rltb x y = true <-> (x < y)%R.
Proof. intros. unfold Rltb. destruct (Rlt_dec x y); split; intros; auto; discriminate || contradiction. Qed.
Lemma Rltb_false : forall x y, Rltb x y = false <-> (y <= x)%R.
Proof. intros. unfold Rltb. destruct (Rlt_dec x y); split; intros; auto; try discriminate; lra. Qed.
Lemma Reqb_true : forall x y, Reqb x y = true <-> x = y.
Proof. intros. unfold Reqb. destruct (Req_EM_T x y); split; intros; auto; discriminate || contradiction. Qed.
Lemma Reqb_false : forall x y, Reqb x y = false <-> x <> y.
Proof. intros. unfold Reqb. destruct (Req_EM_T x y); split; intros; auto; try discriminate; contradiction. Qed.

(** ** Shapes of nested arrays *)
Definition shape2 {A} (n m : nat) (l : list (list A)) : Prop :=
  length l = n /\ forall i, (i < n)%nat -> length (nth i l []) = m.
Definition shape3 {A} (n m k : nat) (l : list (list (list A))) : Prop :=
  length l = n /\ forall i, (i < n)%nat -> shape2 m k (nth i l []).

Lemma shape2_repeat : forall A (x : A) n m, shape2 n m (repeat (repeat x m) n).
Proof.
  intros. split; [apply repeat_length|]. intros. rewrite nth_repeat_lt by assumption. apply repeat_length.
Qed.
Lemma shape3_repeat : forall A (x : A) n m k, shape3 n m k (repeat (repeat (repeat x k) m) n).
Proof.
  intros. split; [apply repeat_length|]. intros. rewrite nth_repeat_lt by assumption. apply shape2_repeat.
Qed.

Lemma shape2_set2 : forall A n m (l : list (list A)) i j x, shape2 n m l -> shape2 n m (set2 l i j x).
Proof.
  intros A n m l i j x [L H]. unfold set2. split; [now rewrite upd_length|].
  intros q Hq. rewrite nth_upd. destruct (Nat.eqb_spec q i) as [->|]; simpl; [|auto].
  destruct (Nat.ltb_spec i (length l)); [|auto]. rewrite upd_length. auto.
Qed.

Lemma shape3_set3 : forall A n m k (l : list (list (list A))) i j q x,
  shape3 n m k l -> shape3 n m k (set3 l i j q x).
Proof.
  intros A n m k l i j q x [L H]. unfold set3. split; [now rewrite upd_length|].
  intros p Hp. rewrite nth_upd. destruct (Nat.eqb_spec p i) as [->|]; simpl; [|auto].
  destruct (Nat.ltb_spec i (length l)); [|auto]. apply shape2_set2. auto.
Qed.

Lemma get2_set2 : forall A (d x : A) n m l i j i' j', shape2 n m l -> (i < n)%nat -> (j < m)%nat ->
  get2 d (set2 l i j x) i' j' = if (Nat.eqb i' i && Nat.eqb j' j)%bool then x else get2 d l i' j'.
Proof.
  intros A d x n m l i j i' j' [L H] Hi Hj. unfold get2, set2. rewrite nth_upd, L.
  apply Nat.ltb_lt in Hi as Hi'. rewrite Hi', andb_true_r.
  destruct (Nat.eqb_spec i' i) as [->|]; [|reflexivity]. rewrite nth_upd, H by assumption.
  apply Nat.ltb_lt in Hj. now rewrite Hj, andb_true_r.
Qed.

Lemma get3_set3 : forall A (d x : A) n m k l i j q i' j' q', shape3 n m k l ->
  (i < n)%nat -> (j < m)%nat -> (q < k)%nat ->
  get3 d (set3 l i j q x) i' j' q' =
  if (Nat.eqb i' i && Nat.eqb j' j && Nat.eqb q' q)%bool then x else get3 d l i' j' q'.
Proof.
  intros A d x n m k l i j q i' j' q' [L H] Hi Hj Hq. unfold get3, set3. rewrite nth_upd, L.
  apply Nat.ltb_lt in Hi as Hi'. rewrite Hi', andb_true_r.
  destruct (Nat.eqb_spec i' i) as [->|]; [|reflexivity]. simpl.
  apply (get2_set2 A d x m k (nth i l []) j q j' q'); auto.
Qed.

Lemma get3_repeat : forall A (x : A) n m k i j q,
  get3 x (repeat (repeat (repeat x k) m) n) i j q = x.
Proof.
  intros. unfold get3.
  destruct (Nat.lt_ge_cases i n); [rewrite nth_repeat_lt by assumption|
    rewrite (nth_overflow (repeat _ n)) by (rewrite repeat_length; assumption); destruct j, q; reflexivity].
  destruct (Nat.lt_ge_cases j m); [rewrite nth_repeat_lt by assumption|
    rewrite (nth_overflow (repeat _ m)) by (rewrite repeat_length; assumption); destruct q; reflexivity].
  destruct (Nat.lt_ge_cases q k); [now rewrite nth_repeat_lt by assumption|].
  apply nth_overflow. now rewrite repeat_length.
Qed.

(** loop over [range(n)] whose body never raises when the invariant holds *)
Lemma foldM_seq_inv : forall B (f : B -> nat -> res B) (P : nat -> B -> Prop) n b0,
  P 0%nat b0 ->
  (forall i b, (i < n)%nat -> P i b -> exists b', f b i = Ok b' /\ P (S i) b') ->
  exists b, foldM f (seq 0 n) b0 = Ok b /\ P n b.
Proof.
  intros B f P n b0 H0 HS.
  assert (K : forall m k b, (k + m <= n)%nat -> P k b ->
     exists b', foldM f (seq k m) b = Ok b' /\ P (k + m)%nat b').
  { induction m; intros k b L Hb; simpl.
    - exists b. rewrite Nat.add_0_r. auto.
    - destruct (HS k b) as (b1 & E1 & P1); [lia|assumption|]. rewrite E1. simpl.
      destruct (IHm (S k) b1) as (b2 & E2 & P2); [lia|assumption|].
      exists b2. split; [assumption|]. now rewrite Nat.add_succ_r. }
  apply (K n 0%nat b0); auto.
Qed.

Lemma foldM_inv : forall A B (f : B -> A -> res B) (P : B -> Prop) l b b',
  P b -> (forall b x b', In x l -> P b -> f b x = Ok b' -> P b') -> foldM f l b = Ok b' -> P b'.
Proof.
  induction l; simpl; intros b b' Hb HS H; [inversion H; now subst|].
  apply bind_ok in H. destruct H as (b1 & E & H). eapply IHl; [|intros; eapply HS; eauto|exact H].
  eapply HS; [left; reflexivity|exact Hb|exact E].
Qed.
