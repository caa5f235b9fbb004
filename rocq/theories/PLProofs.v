(** The learner's loop. *)
From Coq Require Import List ZArith Reals Bool Lia Lra.
From Verif Require Import PyBase PyProofs RSum MDPModel PLModel PLSpec.
Import ListNotations.
Local Open Scope R_scope.

(** ** Weighted averages *)
Lemma prodf_cons : forall A (f : A -> R) x l, prodf f (x :: l) = f x * prodf f l. Proof. reflexivity. Qed.
Lemma prodf_app : forall A (f : A -> R) l l', prodf f (l ++ l') = prodf f l * prodf f l'.
Proof. induction l as [|x l IH]; intros l'; [change (prodf f l' = 1 * prodf f l'); ring|]. cbn [app]. rewrite !prodf_cons, IH. ring. Qed.
Lemma prodf_ext : forall A (f g : A -> R) l, (forall x, In x l -> f x = g x) -> prodf f l = prodf g l.
Proof. induction l as [|x l IH]; intros H; [reflexivity|]. rewrite !prodf_cons, IH by (intros; apply H; now right). rewrite H by now left. reflexivity. Qed.
Lemma prodf_const : forall A c (l : list A), prodf (fun _ => c) l = c ^ (length l).
Proof. induction l as [|x l IH]; [reflexivity|]. rewrite prodf_cons, IH. reflexivity. Qed.

Lemma wa_0 : forall rate obs x, weighted_average 0 rate obs x = x.
Proof. intros. unfold weighted_average. change (seq 0 0) with (@nil nat). rewrite sumf_nil. unfold prodf. cbn [fold_right]. lra. Qed.
(** One step at the end. *)
Lemma wa_snoc : forall n rate obs x, weighted_average (S n) rate obs x = (fun y => y + rate n * (obs n - y)) (weighted_average n rate obs x).
Proof.
  intros n rate obs x. unfold weighted_average. rewrite !seq_S, sumf_app, prodf_app. cbn [Nat.add prodf fold_right]. rewrite sumf_cons, sumf_nil, Nat.sub_diag. cbn [seq prodf fold_right].
  replace (sumf (fun i => rate i * prodf (fun j => 1 - rate j) (seq (S i) (S n - S i)) * obs i) (seq 0 n)) with ((1 - rate n) * sumf (fun i => rate i * prodf (fun j => 1 - rate j) (seq (S i) (n - S i)) * obs i) (seq 0 n)); [lra|].
  rewrite <- sumf_scal. apply sumf_ext. intros i Hi. apply in_seq in Hi. replace (S n - S i)%nat with (S (n - S i)) by lia. rewrite seq_S, prodf_app. cbn [prodf fold_right]. replace (S i + (n - S i))%nat with n by lia. lra.
Qed.
Lemma wa_ext : forall n rate rate' obs obs' x, (forall i, (i < n)%nat -> rate i = rate' i /\ obs i = obs' i) -> weighted_average n rate obs x = weighted_average n rate' obs' x.
Proof.
  induction n as [|n IH]; intros rate rate' obs obs' x H; [reflexivity|]. rewrite !wa_snoc. rewrite (IH rate rate' obs obs') by (intros; apply H; lia). destruct (H n ltac:(lia)) as [-> ->]. reflexivity.
Qed.
Lemma wa_cons : forall n rate obs x, weighted_average (S n) rate obs x = weighted_average n (fun i => rate (S i)) (fun i => obs (S i)) (x + rate 0%nat * (obs 0%nat - x)).
Proof.
  induction n as [|n IH]; intros rate obs x; [rewrite wa_snoc, !wa_0; reflexivity|].
  rewrite wa_snoc, IH. rewrite (wa_snoc n (fun i => rate (S i))). reflexivity.
Qed.
Lemma wa_app : forall k n rate obs x, weighted_average (k + n) rate obs x = weighted_average n (fun i => rate (k + i)%nat) (fun i => obs (k + i)%nat) (weighted_average k rate obs x).
Proof.
  induction k as [|k IH]; intros n rate obs x; [cbn [Nat.add]; now rewrite wa_0|]. cbn [Nat.add]. rewrite wa_cons, IH, wa_cons. reflexivity.
Qed.

Section Learn.
Variables (c : td_config R) (nA : nat).
Hypothesis LR : forall a v, c_reward c nA a = Ok v -> length v = nA.
(** Credit for action [b] when [a] is observed. *)
Definition credit (a b : nat) : R := match c_reward c nA a with Ok v => nth b v 0 | Err _ => 0 end.
Definition factor (n : nat) : R := match c_factor c n with Ok f => f | Err _ => 0 end.
(** Rate used for the [i]-th observation from now on. *)
Fixpoint later_rate (adj : R) (n i : nat) : R :=
  match i with O => adj * factor n | S i' => later_rate (adj * factor n) (S n) i' end.
Definition rate_at (l : learner R) (i : nat) : R := if c_decaying c then later_rate (l_adj l) (l_n l) i else c_lr c.

(** [l'] arises from [l] by observing [acts]. *)
Definition learned (acts : list nat) (l l' : learner R) : Prop :=
  exists q q', l_Q l = QArr q /\ length q = nA /\ l_Q l' = QArr q' /\ length q' = nA /\
    (forall b, (b < nA)%nat -> nth b q' 0 = weighted_average (length acts) (rate_at l) (fun i => credit (nth i acts 0%nat) b) (nth b q 0)) /\
    l_shared l' = l_shared l /\ l_orig l' = (if l_shared l then match acts with [] => l_orig l | _ => l_Q l' end else l_orig l) /\
    l_n l' = (length acts + l_n l)%nat /\ (forall i, rate_at l' i = rate_at l (length acts + i)) /\ Forall (fun a => exists v, c_reward c nA a = Ok v) acts.

Lemma learned_nil : forall l q, l_Q l = QArr q -> length q = nA -> learned [] l l.
Proof.
  intros l q E L. exists q, q. split; [exact E|]. split; [exact L|]. split; [exact E|]. split; [exact L|]. split; [|split; [reflexivity|split; [now destruct (l_shared l)|split; [reflexivity|split; [reflexivity|constructor]]]]].
  intros b Hb. cbn [length]. now rewrite wa_0.
Qed.
Lemma observe_ok : forall a l l', observe c nA a l = (l', Ok tt) -> (exists q, l_Q l = QArr q /\ length q = nA) -> learned [a] l l'.
Proof.
  intros a l l' E (q & EQ & LQ). unfold observe in E. destruct (c_reward c nA a) as [v|] eqn:EV; [|discriminate]. rewrite EQ in E. rewrite (LR _ _ EV), LQ, Nat.eqb_refl in E. cbn [negb] in E.
  set (rate := if c_decaying c then l_adj l * factor (l_n l) else c_lr c) in *.
  assert (ER : (if c_decaying c then (let* f := c_factor c (l_n l) in Ok (nmul (l_adj l) f)) else Ok (c_lr c)) = Ok rate).
  { revert E. unfold rate, factor. destruct (c_decaying c); [|reflexivity]. destruct (c_factor c (l_n l)); [reflexivity|discriminate]. }
  rewrite ER in E.
  assert (El : l' = mkLearner (QArr (move_towards rate v q)) (if l_shared l then QArr (move_towards rate v q) else l_orig l) (l_shared l) (if c_decaying c then rate else l_adj l) (S (l_n l)) (l_done l)) by congruence. subst l'.
  assert (LM : length (move_towards rate v q) = nA) by (unfold move_towards; rewrite map_length, combine_length, (LR _ _ EV), LQ; lia).
  assert (R0 : rate = rate_at l 0) by (unfold rate, rate_at; destruct (c_decaying c); reflexivity).
  exists q, (move_towards rate v q). split; [exact EQ|]. split; [exact LQ|]. split; [reflexivity|]. split; [exact LM|]. split; [|split; [reflexivity|split; [reflexivity|split; [reflexivity|split; [|constructor; [eauto|constructor]]]]]].
  - intros b Hb. cbn [length]. rewrite wa_cons, wa_0. cbn [nth]. unfold credit. rewrite EV, <- R0. unfold move_towards.
    rewrite (nth_map_lt _ _ _ _ _ _ (0, 0)) by (rewrite combine_length, (LR _ _ EV), LQ; lia). rewrite combine_nth by (rewrite (LR _ _ EV), LQ; reflexivity). cbn [nadd nmul nsub NumR]. lra.
  - intros i. unfold rate_at. cbn [l_adj l_n length Nat.add]. unfold rate. destruct (c_decaying c); reflexivity.
Qed.
Lemma learned_app : forall a1 a2 l l1 l2, learned a1 l l1 -> learned a2 l1 l2 -> learned (a1 ++ a2) l l2.
Proof.
  intros a1 a2 l l1 l2 (q & q1 & E1 & L1 & E2 & L2 & H1 & S1 & O1 & N1 & R1 & F1) (q1' & q2 & E3 & L3 & E4 & L4 & H2 & S2 & O2 & N2 & R2 & F2). assert (q1' = q1) by congruence. subst q1'.
  exists q, q2. split; [exact E1|]. split; [exact L1|]. split; [exact E4|]. split; [exact L4|]. split; [|split; [congruence|split; [|split; [|split; [|apply Forall_app; auto]]]]].
  - intros b Hb. rewrite H2, H1 by exact Hb. rewrite app_length, wa_app. 
    rewrite (wa_ext (length a2) (fun i => rate_at l (length a1 + i)) (rate_at l1) (fun i => credit (nth (length a1 + i) (a1 ++ a2) 0%nat) b) (fun i => credit (nth i a2 0%nat) b)).
    + f_equal. apply wa_ext. intros i Hi. split; [reflexivity|]. now rewrite app_nth1.
    + intros i Hi. split; [symmetry; apply R1|]. rewrite app_nth2 by lia. repeat f_equal. lia.
  - rewrite O2, S1, O1. destruct (l_shared l) eqn:SH; [|reflexivity]. destruct a2 as [|x a2]; [|now destruct a1]. rewrite app_nil_r. destruct a1; [reflexivity|].
    rewrite E4, E2. f_equal. assert (X : forall b, nth b q1 0 = nth b q2 0); [|apply (nth_ext _ _ 0 0); [congruence|intros; apply X]].
    intros b. destruct (Nat.lt_ge_cases b nA) as [Hb|Hb]; [|rewrite !nth_overflow by lia; reflexivity]. rewrite H2 by exact Hb. cbn [length]. now rewrite wa_0.
  - rewrite app_length. lia.
  - intros i. rewrite R2, R1, app_length. f_equal. lia.
Qed.
Lemma observe_all_ok : forall mdps acts i l l', (forall m, In m mdps -> m_n_actions m = nA) -> observe_all c mdps i acts l = (l', Ok tt) -> (exists q, l_Q l = QArr q /\ length q = nA) ->
  learned acts l l' /\ (acts = [] \/ i + length acts <= length mdps)%nat.
Proof.
  intros mdps. induction acts as [|a acts IH]; intros i l l' N E (q & EQ & LQ); cbn [observe_all] in E.
  - assert (l' = l) by congruence. subst. split; [eapply learned_nil; eauto|now left].
  - destruct (nth_error mdps i) as [m|] eqn:EM; [|discriminate]. assert (Hi : (i < length mdps)%nat) by (apply nth_error_Some; congruence). apply nth_error_In in EM. rewrite (N m EM) in E.
    destruct (observe c nA a l) as [l1 [[]|e]] eqn:EO; [|discriminate]. pose proof (observe_ok _ _ _ EO (ex_intro _ q (conj EQ LQ))) as LE. pose proof LE as (q0 & q1 & _ & _ & E4 & L4 & _).
    destruct (IH (S i) l1 l' N E (ex_intro _ q1 (conj E4 L4))) as [LE2 B]. split; [exact (learned_app [a] acts l l1 l' LE LE2)|]. right. cbn [length]. destruct B as [->|B]; cbn in *; lia.
Qed.
Lemma trajectories_ok : forall mdps ts n l l', (forall m, In m mdps -> m_n_actions m = nA) -> (n + length ts <= length mdps)%nat -> observe_trajectories c mdps n ts l = (l', Ok tt) -> (exists q, l_Q l = QArr q /\ length q = nA) ->
  exists acts, observed (firstn (length ts) (skipn n mdps)) ts acts /\ learned acts l l'.
Proof.
  intros mdps. induction ts as [|t ts IH]; intros n l l' N Hn E (q & EQ & LQ).
  - cbn in E. assert (l' = l) by congruence. subst. exists []. split; [constructor|eapply learned_nil; eauto].
  - cbn [length] in *. destruct (nth_error mdps n) as [m|] eqn:EM; [|apply nth_error_None in EM; lia].
    assert (SK : skipn n mdps = m :: skipn (S n) mdps). { clear -EM. revert mdps EM. induction n as [|n IH]; intros [|x mdps] E; try discriminate; cbn in *; [congruence|]. now apply IH. }
    rewrite SK. cbn [firstn].
    assert (X : exists a l1, taken m t a /\ learned a l l1 /\ observe_trajectories c mdps (S n) ts l1 = (l', Ok tt)).
    { destruct t as [|s t]; cbn [observe_trajectories] in E; [exists [], l; split; [reflexivity|split; [eapply learned_nil; eauto|exact E]]|].
      rewrite EM in E. destruct (trajectory_to_state_action m (s :: t)) as [sa|] eqn:ET; [|discriminate]. destruct (observe_all c mdps 0 (map snd sa) l) as [l1 [[]|e]] eqn:EO; [|discriminate].
      exists (map snd sa), l1. split; [exists sa; auto|]. split; [|exact E]. eapply observe_all_ok; eauto. }
    destruct X as (a & l1 & T & LE & E'). pose proof LE as (q0 & q1 & _ & _ & E4 & L4 & _). destruct (IH (S n) l1 l' N ltac:(lia) E' (ex_intro _ q1 (conj E4 L4))) as (acts & O & LE2).
    exists (a ++ acts). split; [now constructor|eapply learned_app; eauto].
Qed.
End Learn.
