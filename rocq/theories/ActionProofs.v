From Coq Require Import List ZArith Reals Bool Lia Lra.
From Verif Require Import PyBase PyProofs ActionModel ActionSpec.
Import ListNotations.
Local Open Scope nat_scope.

Lemma fold_fmax : forall (l : list (fval R)) b, (forall v, In v l -> v <> NaN) -> b <> NaN ->
  let r := fold_left (fun b y => if fltb b y then y else b) l b in
  (r = b \/ In r l) /\ r <> NaN /\ fle b r /\ forall v, In v l -> fle v r.
Proof.
  induction l as [|y l IH]; intros b H Hb; cbn [fold_left].
  - split; [now left|]. split; [assumption|]. split; [destruct b; cbn; auto; lra|intros v []].
  - assert (Hy : y <> NaN) by (apply H; now left).
    destruct (IH (if fltb b y then y else b)) as (H1 & H2 & H3 & H4); [intros; apply H; now right|now destruct (fltb b y)|].
    set (r := fold_left _ l _) in *.
    assert (T : forall u v w, fle u v -> fle v w -> fle u w).
    { intros [| | |u] [| | |v] [| | |w]; cbn; auto; try tauto. lra. }
    assert (L : fle b (if fltb b y then y else b) /\ fle y (if fltb b y then y else b)).
    { destruct b as [| | |b], y as [| | |y]; cbn; try (split; auto; lra); try congruence.
      destruct (Rltb b y) eqn:E; cbn; [apply Rltb_true in E|apply Rltb_false in E]; split; lra. }
    split; [|split; [exact H2|split]].
    + destruct H1 as [->|H1]; [|right; now right]. destruct (fltb b y); [right; now left|now left].
    + eapply T; [apply L|exact H3].
    + intros v [<-|Hv]; [|auto]. eapply T; [apply L|exact H3].
Qed.

Lemma feqb_iff : forall x y : fval R, x <> NaN -> (feqb x y = true <-> x = y).
Proof.
  intros [| | |a] [| | |b] N; cbn; split; intros H; try discriminate; try congruence.
  - apply Reqb_true in H. congruence.
  - inversion H. now apply Reqb_true.
Qed.

Lemma fle_antisym : forall x y : fval R, x <> NaN -> y <> NaN -> fle x y -> fle y x -> x = y.
Proof. intros [| | |a] [| | |b] Nx Ny H1 H2; cbn in *; try tauto; try congruence. f_equal. lra. Qed.
Lemma fle_refl : forall x, fle x x.
Proof. intros [| | |a]; cbn; auto. lra. Qed.

(** maximal positions of a NaN-free row *)
Lemma max_actions_spec : forall row : list (fval R), row <> [] -> (forall v, In v row -> v <> NaN) ->
  exists l, max_actions row = Ok l /\ NoDup l /\ l <> [] /\ forall a, In a l <-> best_action row a.
Proof.
  intros [|x row] N H; [congruence|]. unfold max_actions, fmax_list. cbn [bind].
  destruct (fold_fmax row x) as (H1 & H2 & H3 & H4); [intros; apply H; now right|apply H; now left|].
  set (mx := fold_left _ row x) in *. eexists. split; [reflexivity|]. split; [apply where_NoDup|].
  assert (Im : In mx (x :: row)) by (destruct H1 as [->|]; [now left|now right]).
  assert (UB : forall v, In v (x :: row) -> fle v mx) by (intros v [<-|Hv]; auto).
  assert (W : forall a, In a (where_ (feqb mx) (x :: row)) <-> best_action (x :: row) a).
  { intros a. rewrite (in_where _ _ _ _ NaN). unfold best_action. split.
    - intros [L E]. apply feqb_iff in E; [|assumption]. split; [exact L|]. intros b Lb. rewrite <- E. apply UB. now apply nth_In.
    - intros [L B]. split; [exact L|]. apply feqb_iff; [assumption|].
      apply fle_antisym; [assumption|apply H; now apply nth_In| |apply UB; now apply nth_In].
      apply (In_nth _ _ NaN) in Im. destruct Im as (b & Lb & <-). auto. }
  split; [|exact W]. intros E. apply (In_nth _ _ NaN) in Im. destruct Im as (b & Lb & Eb).
  assert (X : In b (where_ (feqb mx) (x :: row))).
  { apply (in_where _ _ _ _ NaN). split; [exact Lb|]. apply feqb_iff; congruence. }
  rewrite E in X. destruct X.
Qed.

Lemma clean_best : forall (row : list (fval R)) a, best_action (map nan_to_ninf row) a <-> best_action row a.
Proof.
  intros row a. unfold best_action. rewrite map_length.
  assert (E : forall b c, b < length row -> c < length row ->
    (fle (nth b (map nan_to_ninf row) NaN) (nth c (map nan_to_ninf row) NaN) <-> fle (nth b row NaN) (nth c row NaN))).
  { intros b c Lb Lc. rewrite !(nth_map_lt _ _ _ _ _ _ NaN) by assumption.
    destruct (nth b row NaN), (nth c row NaN); cbn; tauto. }
  split; intros [L B]; (split; [exact L|]); intros b Lb; specialize (B b Lb); apply E; assumption.
Qed.
Lemma clean_no_nan : forall (row : list (fval R)) v, In v (map nan_to_ninf row) -> v <> NaN.
Proof. intros row v H. apply in_map_iff in H. destruct H as (u & <- & _). destruct u; cbn; congruence. Qed.

Lemma clean_max : forall row : list (fval R), row <> [] ->
  exists l, max_actions (map nan_to_ninf row) = Ok l /\ NoDup l /\ l <> [] /\ forall a, In a l <-> best_action row a.
Proof.
  intros row N. destruct (max_actions_spec (map nan_to_ninf row)) as (l & E & ND & NE & H).
  - destruct row; [congruence|cbn; congruence].
  - apply clean_no_nan.
  - exists l. split; [exact E|]. split; [exact ND|]. split; [exact NE|]. intros a. rewrite H. apply clean_best.
Qed.

Lemma max_get_pi_from_spec : forall draws (q : list (list (fval R))) s0, (forall row, In row q -> row <> []) ->
  exists pi, max_get_pi_from s0 draws (clean q) = Ok pi /\ length pi = length q /\
    forall s, s < length q -> exists l a, max_actions (map nan_to_ninf (nth s q [])) = Ok l /\
      a = nth (draws (s0 + s) mod length l) l 0 /\ nth s pi 0%Z = Z.of_nat a.
Proof.
  induction q as [|row q IH]; intros s0 H.
  - exists []. split; [reflexivity|]. split; [reflexivity|]. cbn; intros; lia.
  - cbn [clean map max_get_pi_from]. destruct (clean_max row) as (l & E & ND & NE & _); [apply H; now left|].
    unfold random_max. rewrite E. cbn [bind]. fold (clean q). destruct (IH (S s0)) as (pi & E' & L & P); [intros; apply H; now right|].
    rewrite E'. cbn [bind]. eexists. split; [reflexivity|]. split; [cbn; lia|]. intros [|s] Hs.
    + cbn [nth]. exists l. eexists. split; [exact E|]. rewrite Nat.add_0_r. auto.
    + cbn [nth]. cbn in Hs. destruct (P s) as (l' & a' & P1 & P2 & P3); [lia|]. exists l', a'.
      replace (s0 + S s) with (S s0 + s) by lia. auto.
Qed.

Lemma mod_nth_In : forall (l : list nat) r, l <> [] -> In (nth (r mod length l) l 0) l.
Proof. intros l r N. apply nth_In. apply Nat.mod_upper_bound. destruct l; [congruence|cbn; lia]. Qed.

Lemma nth_map_combine : forall A B C (f : A * B -> C) la lb i da db dc, i < length la -> length lb = length la ->
  nth i (map f (combine la lb)) dc = f (nth i la da, nth i lb db).
Proof.
  intros. rewrite (nth_map_lt _ _ f _ _ dc (da, db)) by (rewrite combine_length; lia).
  rewrite combine_nth by congruence. reflexivity.
Qed.

Lemma check_q_ok : forall q : list (list (fval R)), check_q_values q = Ok tt <-> exists row, In row q /\ some_known row.
Proof.
  intros q. unfold check_q_values. destruct (forallb (forallb isnan) q) eqn:E.
  - split; [discriminate|]. intros (row & Hr & v & Hv & N). exfalso. rewrite forallb_forall in E.
    specialize (E row Hr). rewrite forallb_forall in E. specialize (E v Hv). destruct v; cbn in E; congruence.
  - split; [intros _|reflexivity].
    assert (X : existsb (fun row => negb (forallb isnan row)) q = true).
    { clear -E. induction q as [|r q IH]; [discriminate|]. cbn [forallb existsb] in *. destruct (forallb isnan r); cbn in *; auto. }
    apply existsb_exists in X. destruct X as (row & Hr & X). exists row. split; [exact Hr|].
    apply negb_true_iff in X. assert (Y : existsb (fun v => negb (isnan v)) row = true).
    { clear -X. induction row as [|r q IH]; [discriminate|]. cbn [forallb existsb] in *. destruct (isnan r); cbn in *; auto. }
    apply existsb_exists in Y. destruct Y as (v & Hv & Y). exists v. split; [exact Hv|]. intros ->. discriminate.
Qed.
Lemma check_q_err : forall q : list (list (fval R)), (forall row, In row q -> ~ some_known row) -> check_q_values q = Err ValueError.
Proof.
  intros q H. destruct (check_q_values q) as [[]|e] eqn:E.
  - apply check_q_ok in E. destruct E as (row & Hr & K). exfalso. eapply H; eauto.
  - unfold check_q_values in E. destruct (forallb _ q); congruence.
Qed.

Lemma nan_state_iff : forall row : list (fval R), nan_state row = true <-> (~ some_known row \/ ~ unmixed row).
Proof.
  intros row. unfold nan_state, unmixed. rewrite orb_true_iff, andb_true_iff, forallb_forall, !existsb_exists. split.
  - intros [H|[(u & Hu & U) (v & Hv & V)]].
    + left. intros (v & Hv & N). specialize (H v Hv). destruct v; cbn in H; congruence.
    + right. destruct u; try discriminate. destruct v; try discriminate. tauto.
  - intros [H|H].
    + left. intros v Hv. destruct v; [reflexivity| | |]; exfalso; apply H; eexists; (split; [exact Hv|congruence]).
    + assert (D : forall P : fval R -> bool, {existsb P row = true} + {existsb P row = false}) by (intros; destruct (existsb P row); auto).
      destruct (D ispinf) as [P|P]; [destruct (D isninf) as [Q|Q]|].
      * right. rewrite !existsb_exists in *. auto.
      * exfalso. apply H. intros [_ X]. assert (Y : existsb isninf row = true) by (apply existsb_exists; exists NInf; auto). congruence.
      * exfalso. apply H. intros [X _]. assert (Y : existsb ispinf row = true) by (apply existsb_exists; exists PInf; auto). congruence.
Qed.
Lemma nan_state_false : forall row : list (fval R), nan_state row = false <-> some_known row /\ unmixed row.
Proof.
  intros row. destruct (nan_state row) eqn:E; split; intros H; try discriminate.
  - apply nan_state_iff in E. tauto.
  - split.
    + destruct (existsb (fun v => negb (isnan v)) row) eqn:X.
      * apply existsb_exists in X. destruct X as (v & Hv & X). exists v. split; [exact Hv|]. intros ->. discriminate.
      * exfalso. assert (Y : nan_state row = true); [|congruence]. apply nan_state_iff. left. intros (v & Hv & N).
        assert (Z : existsb (fun v => negb (isnan v)) row = true); [|congruence]. apply existsb_exists. exists v. split; [exact Hv|].
        destruct v; try reflexivity. congruence.
    + intros X. assert (Y : nan_state row = true); [|congruence]. apply nan_state_iff. right. intros N. apply N. exact X.
  - reflexivity.
Qed.

Lemma Rsum_app : forall l1 l2, Rsum (l1 ++ l2) = (Rsum l1 + Rsum l2)%R.
Proof. induction l1; intros; cbn [app map]; unfold Rsum in *; cbn [fold_right]; [lra|]. rewrite IHl1. lra. Qed.
Lemma Rsum_scal : forall c l, Rsum (map (fun x => c * x)%R l) = (c * Rsum l)%R.
Proof. induction l; cbn [map]; unfold Rsum in *; cbn [fold_right]; [lra|]. rewrite IHl. lra. Qed.
Lemma Rsum_nonneg : forall l, (forall x, In x l -> (0 <= x)%R) -> (0 <= Rsum l)%R.
Proof.
  induction l; intros H; unfold Rsum in *; cbn [fold_right]; [lra|]. assert (0 <= a)%R by (apply H; now left).
  assert (K := IHl (fun x Hx => H x (or_intror Hx))). lra.
Qed.
Lemma nsum_Rsum : forall l : list R, nsum l = Rsum l.
Proof.
  intros l. unfold nsum. assert (K : forall l b, fold_left nadd l b = (b + Rsum l)%R).
  { clear. induction l as [|x l IH]; intros b; cbn [fold_left].
    - unfold Rsum; cbn [fold_right]; lra.
    - rewrite IH. change (Rsum (x :: l)) with (x + Rsum l)%R. cbn [nadd NumR]. lra. }
  rewrite K. cbn [n0 NumR]. lra.
Qed.

(** mass of an indicator over positions *)
Lemma Rsum_ind_seq : forall c l n i0, NoDup l -> (forall a, In a l -> i0 <= a < i0 + n) ->
  Rsum (map (fun a => if existsb (Nat.eqb a) l then c else 0%R) (seq i0 n)) = (INR (length l) * c)%R.
Proof.
  intros c l n. revert l. induction n as [|n IH]; intros l i0 ND H.
  - destruct l as [|a l]; [cbn; lra|]. specialize (H a (or_introl eq_refl)). lia.
  - cbn [seq map]. match goal with |- Rsum (?x :: ?t) = _ => change (Rsum (x :: t)) with (x + Rsum t)%R end.
    destruct (existsb (Nat.eqb i0) l) eqn:E.
    + apply existsb_exists in E. destruct E as (x & Hx & Ex). apply Nat.eqb_eq in Ex. subst x.
      destruct (in_split _ _ Hx) as (l1 & l2 & ->).
      assert (ND2 : NoDup (l1 ++ l2)) by (eapply NoDup_remove_1; exact ND).
      assert (NI : ~ In i0 (l1 ++ l2)) by (eapply NoDup_remove_2; exact ND).
      assert (EQ : map (fun a => if existsb (Nat.eqb a) (l1 ++ i0 :: l2) then c else 0%R) (seq (S i0) n) =
                   map (fun a => if existsb (Nat.eqb a) (l1 ++ l2) then c else 0%R) (seq (S i0) n)).
      { apply map_ext_in. intros a Ha. apply in_seq in Ha. rewrite !existsb_app. cbn [existsb].
        destruct (Nat.eqb_spec a i0); [lia|]. reflexivity. }
      rewrite EQ, IH; [| exact ND2|].
      * rewrite !app_length. cbn [length]. rewrite Nat.add_succ_r, S_INR. lra.
      * intros a Ha. assert (In a (l1 ++ i0 :: l2)) by (apply in_app_or in Ha; apply in_or_app; cbn; tauto).
        specialize (H a H0). assert (a <> i0) by (intros ->; contradiction). lia.
    + rewrite IH; [lra|exact ND|].
      intros a Ha. specialize (H a Ha). assert (a <> i0); [|lia]. intros ->.
      assert (X : existsb (Nat.eqb i0) l = true) by (apply existsb_exists; exists i0; split; [exact Ha|apply Nat.eqb_refl]). congruence.
Qed.
