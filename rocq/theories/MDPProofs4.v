From Coq Require Import List ZArith Reals Bool Lia Lra.
From Verif Require Import PyBase PyProofs GridModel GridSpec MDPModel MDPSpec MDPProofs2.
Import ListNotations.
Local Open Scope nat_scope.

Lemma Forall_shape2 : forall A (l : list (list A)) n, Forall (fun row => length row = n) l <-> shape2 (length l) n l.
Proof.
  intros. split.
  - intros H. split; [reflexivity|]. intros i Hi. rewrite Forall_forall in H. apply H. now apply nth_In.
  - intros [_ H]. apply Forall_forall. intros r Hr. apply (In_nth _ _ []) in Hr. destruct Hr as (i & Li & <-). auto.
Qed.

Lemma shape2_length : forall A n k (l : list (list A)), shape2 n k l -> length l = n.
Proof. intros A n k l [H _]; exact H. Qed.

Lemma with_features_twice : forall A (m : mdp A) f g, with_features (with_features m f) g = with_features m g.
Proof. reflexivity. Qed.
Lemma with_features_id : forall A (m : mdp A), with_features m (m_features m) = m.
Proof. intros A []; reflexivity. Qed.

Lemma consume_loop_spec : forall F S s p, py_index S s = Ok p -> forall idx ridx,
  Forall2 (fun z f => py_index F z = Ok f) idx ridx -> forall (m : mdp R) consumed,
  m_n_states m = S -> shape2 F S (m_features m) -> length consumed = F ->
  exists g c, consume_loop idx s m consumed = (with_features m g, Ok c) /\ shape2 F S g /\ length c = F /\
    (forall f t, get2 0%R g f t = if (t =? p) && existsb (Nat.eqb f) ridx then Rmin 0 (get2 0%R (m_features m) f t)
                                  else get2 0%R (m_features m) f t) /\
    (forall f, nth f c 0 = nth f consumed 0 + if existsb (Nat.eqb f) ridx && Rltb 0 (get2 0%R (m_features m) f p) then 1 else 0).
Proof.
  intros F S s p Es. destruct (py_index_ok _ _ _ Es) as [Hp _].
  induction 1 as [|z f idx ridx Hz F2 IH]; intros m consumed NS SH LC.
  - exists (m_features m), consumed. cbn [consume_loop existsb]. rewrite with_features_id.
    split; [reflexivity|]. split; [exact SH|]. split; [exact LC|]. split.
    + intros. rewrite andb_false_r. reflexivity.
    + intros. cbn [andb]. lia.
  - cbn [consume_loop]. rewrite (shape2_length _ _ _ _ SH), NS, Hz, Es, LC, Hz.
    destruct (py_index_ok _ _ _ Hz) as [Hf _]. cbn [nltb n0 NumR].
    destruct (Rltb 0 (get2 0%R (m_features m) f p)) eqn:E.
    + destruct (IH (with_features m (set2 (m_features m) f p 0%R)) (upd consumed f (nth f consumed 0 + 1))) as (g & c & E1 & S1 & L1 & G1 & C1).
      * exact NS.
      * cbn [m_features with_features]. now apply shape2_set2.
      * now rewrite upd_length.
      * exists g, c. split; [exact E1|]. split; [exact S1|]. split; [exact L1|]. apply Rltb_true in E. split.
        -- intros f' t. rewrite G1. cbn [m_features with_features existsb].
           rewrite !(get2_set2 _ _ _ _ _ _ _ _ _ _ SH Hf Hp).
           destruct (Nat.eqb_spec t p) as [->|Nt]; cbn [andb]; [|now rewrite andb_false_r].
           destruct (Nat.eqb_spec f' f) as [->|Nf]; cbn [andb orb].
           ++ destruct (existsb (Nat.eqb f) ridx); rewrite ?Rmin_left by lra; [reflexivity|]. reflexivity.
           ++ reflexivity.
        -- intros f'. rewrite C1. cbn [m_features with_features existsb].
           rewrite !(get2_set2 _ _ _ _ _ _ _ _ _ _ SH Hf Hp). rewrite Nat.eqb_refl, andb_true_r.
           destruct (Nat.eqb_spec f' f) as [->|Nf]; cbn [andb orb].
           ++ rewrite nth_upd_same by lia. rewrite (proj2 (Rltb_false 0 0)) by lra. rewrite andb_false_r.
              rewrite (proj2 (Rltb_true _ _) E). lia.
           ++ rewrite nth_upd_other by assumption. reflexivity.
    + destruct (IH m consumed NS SH LC) as (g & c & E1 & S1 & L1 & G1 & C1).
      exists g, c. split; [exact E1|]. split; [exact S1|]. split; [exact L1|].
      pose proof E as E'. apply Rltb_false in E'. split.
      * intros f' t. rewrite G1. cbn [existsb].
        destruct (Nat.eqb_spec f' f) as [->|Nf]; cbn [orb]; [|reflexivity].
        destruct (Nat.eqb_spec t p) as [->|Nt]; cbn [andb]; [|reflexivity].
        rewrite Rmin_right by assumption. now destruct (existsb (Nat.eqb f) ridx).
      * intros f'. rewrite C1. cbn [existsb]. destruct (Nat.eqb_spec f' f) as [->|Nf]; cbn [orb]; [|reflexivity].
        rewrite E, andb_false_r. reflexivity.
Qed.

Lemma existsb_In : forall f l, existsb (Nat.eqb f) l = true <-> In f l.
Proof.
  intros. rewrite existsb_exists. split.
  - intros (x & Hx & E). apply Nat.eqb_eq in E. now subst.
  - intros H. exists f. split; [exact H|apply Nat.eqb_refl].
Qed.

Lemma shape2_ext : forall n k (l1 l2 : list (list R)), shape2 n k l1 -> shape2 n k l2 ->
  (forall i j, i < n -> j < k -> get2 0%R l1 i j = get2 0%R l2 i j) -> l1 = l2.
Proof.
  intros n k l1 l2 [L1 H1] [L2 H2] E. apply (list_eq_nth _ _ _ []); [congruence|]. intros i Hi. rewrite L1 in Hi.
  apply (list_eq_nth _ _ _ 0%R); [rewrite H1, H2 by assumption; reflexivity|]. intros q Hq. rewrite H1 in Hq by assumption.
  now apply E.
Qed.

Lemma onehot_nth : forall S p t, p < S -> t < S -> nth t (upd (zeros1 (A:=R) S) p 1%R) 0%R = if t =? p then 1%R else 0%R.
Proof.
  intros S p t Hp Ht. rewrite nth_upd. unfold zeros1. rewrite repeat_length.
  destruct (Nat.ltb_spec p S); [|lia]. rewrite andb_true_r. destruct (t =? p); [reflexivity|]. now rewrite nth_repeat_lt.
Qed.

Lemma incl_firstn : forall A n (l : list A) x, In x (firstn n l) -> In x l.
Proof.
  induction n; intros [|y l] x H; cbn in *; try tauto. destruct H; [now left|right; auto].
Qed.
