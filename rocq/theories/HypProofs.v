(** Hypothesis testing: what one observation says (C91), lemmas about runs. *)
From Coq Require Import List ZArith Reals Bool Lia Lra Psatz.
From Verif Require Import PyBase PyProofs ActionModel ActionSpec RSum ActionProofs MDPModel MDPProofs MDPProofs2 VIModel VISpec VIProofs VIProofs2 VIProps MCTSModel MCTSProofs IRLModel IRLFit HypModel.
Import ListNotations.
Local Open Scope R_scope.

(** ** Standard scores *)
Lemma numbers_some : forall xs, numbers (map Some xs) = xs.
Proof. unfold numbers. induction xs as [|x xs IH]; [reflexivity|]. cbn. now rewrite IH. Qed.
Lemma rmean_sum : forall l, rmean l = Rsum l / INR (length l). Proof. reflexivity. Qed.
Lemma rmean_shift : forall l c, l <> [] -> rmean (map (fun x => x - c) l) = rmean l - c.
Proof.
  intros l c NE. unfold rmean. rewrite map_length. assert (P : 0 < INR (length l)) by (apply lt_0_INR; destruct l; [congruence|cbn; lia]).
  assert (E : fold_right Rplus 0 (map (fun x => x - c) l) = fold_right Rplus 0 l - INR (length l) * c).
  { clear. induction l as [|x l IH]; [cbn; ring|]. cbn [map fold_right length]. rewrite S_INR, IH. ring. }
  rewrite E. field. lra.
Qed.
Lemma rmean_scale : forall l c, rmean (map (fun x => x * c) l) = rmean l * c.
Proof.
  intros l c. unfold rmean. rewrite map_length. assert (E : fold_right Rplus 0 (map (fun x => x * c) l) = fold_right Rplus 0 l * c).
  { induction l as [|x l IH]; [cbn; ring|]. cbn [map fold_right]. rewrite IH. ring. }
  rewrite E. unfold Rdiv. ring.
Qed.
Definition rvar (l : list R) : R := rmean (map (fun x => (x - rmean l) * (x - rmean l)) l).
Lemma rvar_nonneg : forall l, 0 <= rvar l.
Proof.
  intros l. unfold rvar. rewrite rmean_sum. destruct (Nat.eq_dec (length l) 0) as [E|E]; [rewrite map_length, E; apply length_zero_iff_nil in E; subst; cbn; unfold Rdiv; rewrite Rmult_0_l; lra|].
  apply Rmult_le_pos; [|left; apply Rinv_0_lt_compat, lt_0_INR; rewrite map_length; lia]. change (Rsum (map (fun x => (x - rmean l) * (x - rmean l)) l)) with (sumf (fun x => (x - rmean l) * (x - rmean l)) l). apply sumf_nonneg. intros x _. apply Rle_0_sqr.
Qed.
Lemma rstd_zero : forall l, rstd l = 0 <-> rvar l = 0.
Proof. intros l. unfold rstd. fold (rvar l). split; intros H; [apply sqrt_eq_0; [apply rvar_nonneg|exact H]|now rewrite H, sqrt_0]. Qed.
(** No deviation means that all entries are equal. *)
Lemma rvar_equal : forall l, l <> [] -> (rvar l = 0 <-> forall x y, In x l -> In y l -> x = y).
Proof.
  intros l NE. assert (P : 0 < INR (length l)) by (apply lt_0_INR; destruct l; [congruence|cbn; lia]). split.
  - intros H x y Hx Hy. assert (X : forall z, In z l -> z = rmean l); [|rewrite (X x Hx); symmetry; now apply X]. unfold rvar in H. rewrite rmean_sum, map_length in H.
    assert (S : sumf (fun x => (x - rmean l) * (x - rmean l)) l = 0). { change (sumf (fun x => (x - rmean l) * (x - rmean l)) l / INR (length l) = 0) in H. unfold Rdiv in H. apply Rmult_integral in H. destruct H as [H|H]; [exact H|]. apply Rinv_neq_0_compat in H; [destruct H|lra]. }
    intros z Hz. apply in_split in Hz. destruct Hz as (l1 & l2 & E). revert S. generalize (rmean l). intros mu S. rewrite E, sumf_app, sumf_cons in S.
    pose proof (sumf_nonneg _ (fun x => (x - mu) * (x - mu)) l1 (fun x _ => Rle_0_sqr (x - mu))). pose proof (sumf_nonneg _ (fun x => (x - mu) * (x - mu)) l2 (fun x _ => Rle_0_sqr (x - mu))). assert (Q : (z - mu) * (z - mu) = 0) by (pose proof (Rle_0_sqr (z - mu)) as Y; unfold Rsqr in Y; lra). apply Rmult_integral in Q. lra.
  - intros H. destruct l as [|x l]; [congruence|]. assert (EM : rmean (x :: l) = x).
    { assert (ES : sumf (fun y => y) (x :: l) = INR (length (x :: l)) * x).
      { rewrite (sumf_ext _ (fun y => y) (fun _ => x)) by (intros y Hy; apply H; [exact Hy|now left]). clear. induction (x :: l) as [|y t IH]; [cbn; ring|]. rewrite sumf_cons, IH. cbn [length]. rewrite S_INR. ring. }
      rewrite rmean_sum. unfold sumf in ES. rewrite map_id in ES. rewrite ES. field. lra. }
    unfold rvar. rewrite EM, rmean_sum. change (sumf (fun y => (y - x) * (y - x)) (x :: l) / INR (length (map (fun y => (y - x) * (y - x)) (x :: l))) = 0). rewrite sumf_0; [unfold Rdiv; ring|]. intros y Hy. rewrite (H y x Hy ltac:(now left)). ring.
Qed.
(** Standard scores: mean zero, mean square one, same order. *)
Definition score (l : list R) (x : R) : R := (x - rmean l) / rstd l.
Lemma score_spec : forall l, l <> [] -> rstd l <> 0 -> rmean (map (score l) l) = 0 /\ rmean (map (fun x => score l x * score l x) l) = 1 /\ (forall x y, score l x < score l y <-> x < y) /\ forall x, 0 < score l x <-> rmean l < x.
Proof.
  intros l NE NZ. assert (PS : 0 < rstd l) by (pose proof (sqrt_pos (rvar l)) as X; fold (rvar l) in *; unfold rstd in *; fold (rvar l) in *; lra). pose proof (Rinv_0_lt_compat _ PS) as PI. unfold score. split; [|split; [|split]].
  - unfold Rdiv. rewrite <- (map_map (fun x => x - rmean l) (fun x => x * / rstd l)), rmean_scale, rmean_shift by exact NE. ring.
  - rewrite (map_ext _ (fun x => (x - rmean l) * (x - rmean l) * (/ rstd l * / rstd l))) by (intros; unfold Rdiv; ring). rewrite <- (map_map (fun x => (x - rmean l) * (x - rmean l)) (fun x => x * (/ rstd l * / rstd l))), rmean_scale. fold (rvar l).
    assert (Q : rstd l * rstd l = rvar l) by (apply sqrt_sqrt, rvar_nonneg). rewrite <- Q. field. lra.
  - intros x y. unfold Rdiv. split; intros H; [apply Rmult_lt_reg_r in H; lra|apply Rmult_lt_compat_r; lra].
  - intros x. unfold Rdiv. split; intros H; [|apply Rmult_lt_0_compat; lra]. destruct (Rlt_dec (rmean l) x) as [L|L]; [exact L|exfalso]. assert ((x - rmean l) * / rstd l <= 0); [|lra]. revert PI L. generalize (/ rstd l). intros r Hr Hx. nra.
Qed.
Lemma zscore_spec : forall xs, zscore (map Fin xs) = map (fun x => if Req_EM_T (rstd xs) 0 then None else Some (score xs x)) xs.
Proof. intros xs. unfold zscore, score. assert (E : map number_of (map Fin xs) = map Some xs) by (rewrite map_map; reflexivity). rewrite E. cbv zeta. rewrite numbers_some, map_map. reflexivity. Qed.

Lemma assign_all : forall B (g : nat -> B) acts (row : list B) a d, In a acts -> (a < length row)%nat -> nth a (fold_left (fun r p => upd r (fst p) (snd p)) (combine acts (map g acts)) row) d = g a.
Proof.
  intros B g. induction acts as [|b acts IH]; intros row a d Ia La; [destruct Ia|]. cbn [map combine fold_left fst snd].
  destruct (in_dec Nat.eq_dec a acts) as [J|J]; [apply IH; [exact J|now rewrite upd_length]|]. destruct Ia as [->|Ia]; [|contradiction].
  assert (X : forall l (r : list B), ~ In a l -> nth a (fold_left (fun r p => upd r (fst p) (snd p)) (combine l (map g l)) r) d = nth a r d).
  { clear. induction l as [|c l IH]; intros r N; [reflexivity|]. cbn [map combine fold_left fst snd]. rewrite IH by (intros X; apply N; now right). apply nth_upd_other. intros ->. apply N. now left. }
  rewrite X by exact J. now apply nth_upd_same.
Qed.
(** The weight given by one hypothesis. *)
Lemma weight_spec : forall q s acts a (x : nat -> R), (forall b, In b acts -> nth b (nth s q []) NaN = Fin (x b) /\ (b < length (nth s q []))%nat) -> In a acts ->
  hyp_weight ZScore (Some q) s acts a = if Req_EM_T (rstd (map x acts)) 0 then None else Some (score (map x acts) (x a)).
Proof.
  intros q s acts a x H Ia. cbn [hyp_weight]. assert (E : map (fun b => nth b (nth s q []) NaN) acts = map Fin (map x acts)) by (rewrite map_map; apply map_ext_in; intros b Hb; apply H; exact Hb).
  rewrite E, zscore_spec, map_map. rewrite (assign_all _ (fun b => if Req_EM_T (rstd (map x acts)) 0 then None else Some (score (map x acts) (x b)))); [reflexivity|exact Ia|]. rewrite map_length. now apply H.
Qed.
