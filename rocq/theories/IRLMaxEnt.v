(** Maximum-entropy inference: learning rates, resets, ignored features, convergence and aliasing. *)
From Coq Require Import List ZArith Reals Bool Lia Lra.
From Verif Require Import PyBase PyProofs ActionModel ActionSpec RSum ActionProofs MDPModel VIModel VISpec VIProofs VIProofs2 VIProps PLSpec PLProofs PLProps2 IRLModel IRLVisit IRLPolicy IRLMatch IRLExpect.
Import ListNotations.
Local Open Scope R_scope.

(** ** The iterations of one fit *)
(** Fraction of the error used in iteration [j] (from 0) of a fit that starts with the rate [r], and the rate left
    behind by [n] iterations. *)
Definition step_rate (c : maxent_cfg R) (r : R) (j : nat) : R := if x_decaying c then r * prodf (x_power c) (seq 0 (S j)) * x_power c j else r.
Definition rate_after (c : maxent_cfg R) (r : R) (n : nat) : R := if x_decaying c then r * prodf (x_power c) (seq 0 n) else r.
(** Expected counts with the ignored features zeroed. *)
Definition expected (c : maxent_cfg R) (m : mdp R) (ts : list (list Z)) (ig : ignore_arg) (theta : list R) : res (list R) := let* d := x_inner c m ts theta in zero_ignored ig d.
(** [th 0], ..., [th n] are the successive weights: each moves by the rate times the difference between observed and
    expected counts; [stop] tells whether the last difference was small enough to stop. *)
Definition iterates (c : maxent_cfg R) (m : mdp R) (ts : list (list Z)) (ig : ignore_arg) (F : list R) (r : R) (n : nat) (th : nat -> list R) : Prop :=
  forall j, (j < n)%nat -> exists d, expected c m ts ig (th j) = Ok d /\ th (S j) = map (fun p => fst p + step_rate c r j * snd p) (combine (th j) (map (fun p => fst p - snd p) (combine F d))).
Definition small (c : maxent_cfg R) (m : mdp R) (ts : list (list Z)) (ig : ignore_arg) (F theta : list R) : Prop :=
  exists d, expected c m ts ig theta = Ok d /\ sumf (fun p => Rabs (fst p - snd p)) (combine F d) / INR (length (combine F d)) < x_tol c.

Lemma nabs_Rabs : forall x : R, nabs x = Rabs x.
Proof. intros x. unfold nabs. cbn [nltb nsub n0 NumR]. unfold Rltb. destruct (Rlt_dec x 0) as [L|L]; [rewrite Rabs_left by exact L; ring|rewrite Rabs_right by lra; reflexivity]. Qed.
Lemma rate_step : forall c r i, (if x_decaying c then nmul (rate_after c r i) (x_power c i) else rate_after c r i) = rate_after c r (S i).
Proof. intros c r i. unfold rate_after. destruct (x_decaying c); [|reflexivity]. rewrite seq_S, prodf_app. cbn [nmul NumR Nat.add]. rewrite prodf_cons. change (prodf (x_power c) []) with 1. ring. Qed.
Lemma rate_used : forall c r i, (if x_decaying c then nmul (rate_after c r (S i)) (x_power c i) else rate_after c r i) = step_rate c r i.
Proof. intros c r i. unfold rate_after, step_rate. destruct (x_decaying c); reflexivity. Qed.

Lemma loop_spec : forall c m ts ig F r k i theta last theta' rate' res, maxent_loop c m ts ig F k i theta (rate_after c r i) last = (theta', rate', res) ->
  exists n th, (n <= k)%nat /\ rate' = rate_after c r (i + n) /\ th 0%nat = theta /\ th n = theta' /\
    (forall j, (j < n)%nat -> exists d, expected c m ts ig (th j) = Ok d /\ th (S j) = map (fun p => fst p + step_rate c r (i + j) * snd p) (combine (th j) (map (fun p => fst p - snd p) (combine F d)))) /\
    (forall j, (S j < n)%nat -> ~ small c m ts ig F (th j)) /\
    match res with
    | Err _ => (n < k)%nat
    | Ok l => (n = k \/ (0 < n)%nat /\ small c m ts ig F (th (pred n))) /\
       match n with O => l = last | S n' => exists d, expected c m ts ig (th n') = Ok d /\ l = Some (map (fun p => fst p - snd p) (combine F d)) end
    end.
Proof.
  intros c m ts ig F r. induction k as [|k IH]; intros i theta last theta' rate' res E; cbn [maxent_loop] in E.
  - assert (theta = theta') by congruence. assert (rate' = rate_after c r i) by congruence. assert (res = Ok last) by congruence. subst. exists 0%nat, (fun _ => theta'). rewrite Nat.add_0_r. split; [lia|]. split; [reflexivity|]. split; [reflexivity|]. split; [reflexivity|]. split; [intros; lia|]. split; [intros; lia|]. split; [now left|reflexivity].
  - fold (expected c m ts ig theta) in E. destruct (expected c m ts ig theta) as [d|e] eqn:ED.
    2:{ assert (theta = theta') by congruence. assert (rate' = rate_after c r i) by congruence. assert (res = Err e) by congruence. subst. exists 0%nat, (fun _ => theta'). rewrite Nat.add_0_r. split; [lia|]. split; [reflexivity|]. split; [reflexivity|]. split; [reflexivity|]. split; [intros; lia|]. split; [intros; lia|]. lia. }
    cbv zeta in E. rewrite rate_step, rate_used in E.
    set (error := map (fun '(x, y) => nsub x y) (combine F d)) in E. assert (EE : error = map (fun p => fst p - snd p) (combine F d)) by (apply map_ext; intros [x y]; reflexivity).
    set (th1 := map (fun '(x, e) => nadd x (nmul (step_rate c r i) e)) (combine theta error)) in E.
    assert (E1 : th1 = map (fun p => fst p + step_rate c r i * snd p) (combine theta (map (fun p => fst p - snd p) (combine F d)))) by (rewrite <- EE; apply map_ext; intros [x y]; reflexivity).
    assert (SM : nltb (nmean (map nabs error)) (x_tol c) = true <-> small c m ts ig F theta).
    { unfold small. assert (X : nmean (map nabs error) = sumf (fun p => Rabs (fst p - snd p)) (combine F d) / INR (length (combine F d))).
      { unfold nmean. rewrite nsum_Rsum, nofn_INR, !map_length. rewrite EE, map_length, map_map. cbn [ndiv NumR]. f_equal. unfold sumf. f_equal. apply map_ext. intros p. apply nabs_Rabs. }
      rewrite X. cbn [nltb NumR]. unfold Rltb. destruct (Rlt_dec _ _) as [L|L]; (split; [intros X'|intros (d' & Ed & L')]); [eauto|reflexivity|discriminate|]. assert (d' = d) by congruence. subst d'. contradiction. }
    destruct (nltb (nmean (map nabs error)) (x_tol c)) eqn:EL.
    + assert (th1 = theta') by congruence. assert (rate' = rate_after c r (S i)) by congruence. assert (res = Ok (Some error)) by congruence. subst theta' rate' res. exists 1%nat, (fun j => match j with O => theta | _ => th1 end).
      split; [lia|]. split; [f_equal; lia|]. split; [reflexivity|]. split; [reflexivity|]. split; [|split; [intros; lia|]].
      * intros j Hj. assert (j = 0%nat) by lia. subst j. exists d. rewrite Nat.add_0_r. split; [exact ED|exact E1].
      * split; [right; split; [lia|now apply SM]|]. exists d. split; [exact ED|]. now rewrite EE.
    + apply IH in E. destruct E as (n & th & H1 & H2 & H3 & H4 & H5 & H6 & H7). exists (S n), (fun j => match j with O => theta | S j' => th j' end).
      split; [lia|]. split; [rewrite H2; f_equal; lia|]. split; [reflexivity|]. split; [exact H4|]. split; [|split].
      * intros [|j] Hj; [exists d; rewrite Nat.add_0_r, H3; split; [exact ED|exact E1]|]. destruct (H5 j ltac:(lia)) as (d' & Ed & Et). exists d'. split; [exact Ed|]. rewrite Et. replace (S i + j)%nat with (i + S j)%nat by lia. reflexivity.
      * intros [|j] Hj; [intros X; apply SM in X; congruence|]. apply H6. lia.
      * destruct res as [l|e]; [|lia]. destruct H7 as [H7 H8]. split.
        { destruct H7 as [->|[P S]]; [now left|right]. split; [lia|]. cbn [pred]. destruct n as [|n]; [lia|]. exact S. }
        { destruct n as [|n]; [|exact H8]. exists d. split; [exact ED|]. rewrite H8, EE. reflexivity. }
Qed.

(** A fit that succeeds: what it did. [start] are the initial weights after zeroing the ignored ones. *)
Lemma fit_spec : forall c m ts ig x h x' h' a w, fit_maxent c m ts ig x h = (x', h', Ok (a, w)) ->
  exists F F0 start n th, observed_features m ts = Ok F0 /\ zero_ignored ig F0 = Ok F /\
    (x_theta x = TArr a /\ zero_ignored ig (nth a h []) = Ok start /\ h' = upd h a (th n) \/
     x_theta x = TNone /\ a = length h /\ zero_ignored ig (zeros1 (m_n_features m)) = Ok start /\ h' = h ++ [th n]) /\
    x_theta x' = TArr a /\ x_orig x' = x_orig x /\ x_rate x' = rate_after c (x_rate x) n /\
    (0 < n <= x_iter c)%nat /\ th 0%nat = start /\ iterates c m ts ig F (x_rate x) n th /\ (n = x_iter c \/ small c m ts ig F (th (pred n))) /\ (forall j, (S j < n)%nat -> ~ small c m ts ig F (th j)) /\
    exists d, expected c m ts ig (th (pred n)) = Ok d /\ (w = false <-> sumf (fun p => fst p - snd p) (combine F d) / INR (length (combine F d)) < x_tol c).
Proof.
  intros c m ts ig x h x' h' a w E. unfold fit_maxent in E. destruct ts as [|t ts]; [congruence|]. destruct t as [|z t]; [congruence|]. set (tss := (z :: t) :: ts) in *.
  destruct (visited_states (m_n_states m) tss) as [v|e] eqn:EV; cbn [bind] in E; [|congruence]. destruct (zero_ignored ig (feature_counts (m_features m) v)) as [F|e] eqn:EF; [|congruence].
  exists F, (feature_counts (m_features m) v).
  assert (G : forall th0 h1 (aa : nat), (match zero_ignored ig (nth aa h1 []) with Err e => (mkMx (TArr aa) (x_orig x) (x_rate x), h1, Err e)
      | Ok theta => let '(theta', rate', r) := maxent_loop c m tss ig F (x_iter c) 0 theta (x_rate x) None in (mkMx (TArr aa) (x_orig x) rate', upd h1 aa theta', match r with Err e => Err e | Ok None => Err UnboundLocalError | Ok (Some error) => Ok (aa, negb (nltb (nmean error) (x_tol c))) end) end) = (x', h', Ok (a, w)) -> nth aa h1 [] = th0 ->
     exists start n th, aa = a /\ zero_ignored ig th0 = Ok start /\ h' = upd h1 aa (th n) /\ x_theta x' = TArr a /\ x_orig x' = x_orig x /\ x_rate x' = rate_after c (x_rate x) n /\
    (0 < n <= x_iter c)%nat /\ th 0%nat = start /\ iterates c m tss ig F (x_rate x) n th /\ (n = x_iter c \/ small c m tss ig F (th (pred n))) /\ (forall j, (S j < n)%nat -> ~ small c m tss ig F (th j)) /\
    exists d, expected c m tss ig (th (pred n)) = Ok d /\ (w = false <-> sumf (fun p => fst p - snd p) (combine F d) / INR (length (combine F d)) < x_tol c)).
  { clear E. intros th0 h1 aa E E0. rewrite E0 in E. destruct (zero_ignored ig th0) as [start|e]; [|congruence]. destruct (maxent_loop c m tss ig F (x_iter c) 0 start (x_rate x) None) as [[theta' rate'] r] eqn:EL.
    replace (x_rate x) with (rate_after c (x_rate x) 0) in EL at 1 by (unfold rate_after; destruct (x_decaying c); [change (prodf (x_power c) (seq 0 0)) with 1; ring|reflexivity]).
    apply loop_spec in EL. destruct EL as (n & th & H1 & H2 & H3 & H4 & H5 & H6 & H7).
    destruct r as [[error|]|e]; try congruence. assert (aa = a) by congruence. assert (negb (nltb (nmean error) (x_tol c)) = w) by congruence. assert (upd h1 aa theta' = h') by congruence. assert (mkMx (TArr aa) (x_orig x) rate' = x') by congruence. subst x' h'. subst w aa.
    destruct H7 as [H7 H8]. destruct n as [|n]; [discriminate|]. exists start, (S n), th. split; [reflexivity|]. split; [reflexivity|]. split; [now rewrite H4|]. split; [reflexivity|]. split; [reflexivity|]. split; [exact H2|]. split; [lia|]. split; [exact H3|]. split; [exact H5|]. split; [destruct H7 as [->|[_ S]]; auto|]. split; [exact H6|].
    destruct H8 as (d & Ed & El). exists d. split; [exact Ed|]. injection El as ->. unfold nmean. rewrite nsum_Rsum, nofn_INR, map_length. cbn [nltb ndiv NumR]. fold (sumf (fun p : R * R => fst p - snd p) (combine F d)). unfold Rltb. destruct (Rlt_dec _ _); cbn [negb]; split; intros; try congruence; tauto. }
  unfold observed_features. rewrite EV. cbn [bind].
  destruct (x_theta x) as [| |aa] eqn:ET.
  - assert (N : nth (length h) (h ++ [zeros1 (m_n_features m)]) [] = zeros1 (m_n_features m)) by (rewrite app_nth2, Nat.sub_diag by lia; reflexivity).
    destruct (G _ _ _ E N) as (start & n & th & <- & H1 & H2 & H3). exists start, n, th. split; [reflexivity|]. split; [exact EF|]. split; [|exact H3]. right. split; [reflexivity|]. split; [reflexivity|]. split; [exact H1|]. rewrite H2. clear. induction h as [|b h IH]; [reflexivity|]. cbn [length app upd]. f_equal. apply IH.
  - congruence.
  - destruct (G _ _ _ E eq_refl) as (start & n & th & -> & H1 & H2 & H3). exists start, n, th. split; [reflexivity|]. split; [exact EF|]. split; [|exact H3]. left. split; [reflexivity|]. split; [exact H1|exact H2].
Qed.
