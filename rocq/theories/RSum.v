(** Finite sums of reals. *)
From Coq Require Import List Reals Bool Lia Lra.
From Verif Require Import PyBase ActionSpec ActionProofs SoftmaxProofs.
Import ListNotations.
Local Open Scope nat_scope.

Definition sumf {A} (f : A -> R) (l : list A) : R := Rsum (map f l).
Lemma sumf_nil : forall A (f : A -> R), sumf f [] = 0%R. Proof. reflexivity. Qed.
Lemma sumf_cons : forall A (f : A -> R) x l, sumf f (x :: l) = (f x + sumf f l)%R. Proof. reflexivity. Qed.
Lemma sumf_app : forall A (f : A -> R) l1 l2, sumf f (l1 ++ l2) = (sumf f l1 + sumf f l2)%R.
Proof. intros. unfold sumf. now rewrite map_app, Rsum_app. Qed.
Lemma sumf_ext : forall A (f g : A -> R) l, (forall x, In x l -> f x = g x) -> sumf f l = sumf g l.
Proof. intros A f g l H. unfold sumf. f_equal. now apply map_ext_in. Qed.
Lemma sumf_add : forall A (f g : A -> R) l, sumf (fun x => f x + g x)%R l = (sumf f l + sumf g l)%R.
Proof. induction l as [|x l IH]; [rewrite !sumf_nil; lra|]. rewrite !sumf_cons, IH. lra. Qed.
Lemma sumf_scal : forall A c (f : A -> R) l, sumf (fun x => c * f x)%R l = (c * sumf f l)%R.
Proof. induction l as [|x l IH]; [rewrite !sumf_nil; lra|]. rewrite !sumf_cons, IH. lra. Qed.
Lemma sumf_0 : forall A (f : A -> R) l, (forall x, In x l -> f x = 0%R) -> sumf f l = 0%R.
Proof. induction l as [|x l IH]; intros H; [reflexivity|]. rewrite sumf_cons, IH by (intros; apply H; now right). rewrite H by now left. lra. Qed.
Lemma sumf_swap : forall A B (f : A -> B -> R) la lb,
  sumf (fun a => sumf (f a) lb) la = sumf (fun b => sumf (fun a => f a b) la) lb.
Proof.
  induction la as [|a la IH]; intros lb; [rewrite sumf_nil; symmetry; apply sumf_0; reflexivity|].
  rewrite sumf_cons, IH, <- sumf_add. apply sumf_ext. intros b _. now rewrite sumf_cons.
Qed.
Lemma sumf_nonneg : forall A (f : A -> R) l, (forall x, In x l -> (0 <= f x)%R) -> (0 <= sumf f l)%R.
Proof. induction l as [|x l IH]; intros H; [rewrite sumf_nil; lra|]. rewrite sumf_cons. assert (0 <= f x)%R by (apply H; now left). assert (0 <= sumf f l)%R by (apply IH; intros; apply H; now right). lra. Qed.
Lemma sumf_le : forall A (f g : A -> R) l, (forall x, In x l -> (f x <= g x)%R) -> (sumf f l <= sumf g l)%R.
Proof. induction l as [|x l IH]; intros H; [rewrite !sumf_nil; lra|]. rewrite !sumf_cons. assert (f x <= g x)%R by (apply H; now left). assert (sumf f l <= sumf g l)%R by (apply IH; intros; apply H; now right). lra. Qed.
(** One term. *)
Lemma sumf_single : forall A (f : A -> R) x l, NoDup l -> In x l -> (forall y, In y l -> y <> x -> f y = 0%R) -> sumf f l = f x.
Proof.
  induction l as [|y l IH]; intros ND H Z; [destruct H|]. inversion ND as [|? ? NI ND']. subst. rewrite sumf_cons. destruct H as [->|H].
  - rewrite sumf_0; [lra|]. intros z Hz. apply Z; [now right|]. intros ->. contradiction.
  - rewrite IH; auto; [|intros z Hz N; apply Z; [now right|exact N]]. rewrite Z; [lra|now left|]. intros ->. contradiction.
Qed.
Lemma sumf_indicator : forall n t (c : R), t < n -> sumf (fun x => if x =? t then c else 0%R) (seq 0 n) = c.
Proof.
  intros n t c H. rewrite (sumf_single _ _ t).
  - now rewrite Nat.eqb_refl.
  - apply seq_NoDup.
  - apply in_seq. lia.
  - intros y _ N. destruct (Nat.eqb_spec y t); [contradiction|reflexivity].
Qed.
Lemma sumf_concat : forall A B (f : B -> R) (g : A -> list B) l, sumf f (concat (map g l)) = sumf (fun a => sumf f (g a)) l.
Proof. induction l as [|x l IH]; [reflexivity|]. cbn [map concat]. rewrite sumf_app, sumf_cons, IH. reflexivity. Qed.
Lemma sumf_map : forall A B (f : B -> R) (g : A -> B) l, sumf f (map g l) = sumf (fun a => f (g a)) l.
Proof. intros. unfold sumf. now rewrite map_map. Qed.
Lemma map_nth_seq : forall A (d : A) (l : list A), map (fun i => nth i l d) (seq 0 (length l)) = l.
Proof.
  induction l as [|x l IH]; [reflexivity|]. cbn [length seq map nth]. f_equal. rewrite <- seq_shift, map_map. exact IH.
Qed.
Lemma Rsum_nth : forall l : list R, Rsum l = sumf (fun i => nth i l 0%R) (seq 0 (length l)).
Proof. intros l. unfold sumf. now rewrite map_nth_seq. Qed.
