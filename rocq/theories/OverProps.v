(** C208, C209: overflow in soft value iteration. *)
From Coq Require Import List ZArith Bool Reals Lia Lra Psatz.
From Verif Require Import PyBase PyProofs ActionSpec ActionProofs SoftmaxProofs RSum VISpec VIModel VIProofs VIProofs2 VIProps OverModel.
Import ListNotations.
Local Open Scope R_scope.

Lemma no_inf : forall V, existsb isinf (map (@Fin R) V) = false.
Proof. induction V; cbn; auto. Qed.
Lemma finite_fin : forall V, map finite_part (map (@Fin R) V) = V.
Proof. intros V. rewrite map_map. cbn. apply map_id. Qed.
Lemma upd_map_fin : forall V s x, upd (map (@Fin R) V) s (Fin x) = map Fin (upd V s x).
Proof. induction V as [|v V IH]; intros [|s] x; cbn; auto. now rewrite IH. Qed.
Lemma upd_inf : forall V s, (s < length V)%nat -> existsb isinf (upd (map (@Fin R) V) s PInf) = true.
Proof. induction V as [|v V IH]; intros [|s] H; cbn in *; try lia; auto. apply IH. lia. Qed.
Lemma zeros_fin : forall m, repeat (@Fin R 0) m = map Fin (zeros1 m).
Proof. induction m; [reflexivity|]. unfold zeros1 in *. cbn in *. now rewrite IHm. Qed.
Lemma nsum_exp_ge : forall l x, In x l -> exp x <= nsum (map exp l).
Proof.
  intros l x H. rewrite nsum_Rsum. induction l as [|y l IH]; [destruct H|]. cbn [map]. rewrite Rsum_cons.
  assert (P : 0 <= Rsum (map exp l)) by (apply Rsum_nonneg; intros z Hz; apply in_map_iff in Hz; destruct Hz as (w & <- & _); left; apply exp_pos).
  destruct H as [->|H]; [lra|]. specialize (IH H). pose proof (exp_pos y). lra.
Qed.
Lemma nsum_exp_le : forall l c, (forall x, In x l -> x <= c) -> nsum (map exp l) <= INR (length l) * exp c.
Proof.
  intros l c H. rewrite nsum_Rsum. induction l as [|y l IH]; [cbn; lra|]. cbn [map length]. rewrite Rsum_cons, S_INR.
  assert (exp y <= exp c) by (destruct (H y ltac:(now left)) as [L| ->]; [left; now apply exp_increasing|right; reflexivity]). specialize (IH ltac:(intros; apply H; now right)). lra.
Qed.
Lemma eps_small : soft_eps <= 1.
Proof. unfold soft_eps. apply (Rle_trans _ (/ 1)); [|lra]. apply Rinv_le_contravar; [lra|]. apply pow_R1_Rle. lra. Qed.

Section Overflow.
Variables (top : R) (sas : list (list (list R))) (reward : list R) (g : R).
Let n := n_states sas.
Let nA := n_actions sas.
Hypothesis MD : is_mdp sas.
Hypothesis G : 0 < g < 1.
Hypothesis LR : length reward = n.
Let r : nat -> R := fn reward.

Lemma sav_at : forall s V, (s < n)%nat -> length V = n -> state_action_values s nA sas reward g V = map (action_value sas r g (fn V) s) (seq 0 nA).
Proof. intros s V Hs L. unfold n, nA, r in *. exact (sav sas g reward MD LR s V Hs L). Qed.

(** ** While the values stay small *)
Variable w : R.
Hypothesis W0 : 0 <= w.
Hypothesis RW : forall t, (t < n)%nat -> Rabs (r t) <= w.
Let M := (w + ln (INR nA + 1)) / (1 - g).
Hypothesis SM : exp M < top.

Lemma ln_nn : 0 <= ln (INR nA + 1).
Proof. rewrite <- ln_1. destruct (pos_INR nA) as [H|H]; [left; apply ln_increasing; lra|rewrite <- H, Rplus_0_l; lra]. Qed.
Lemma M_eq : w + g * M + ln (INR nA + 1) = M.
Proof. unfold M. field. lra. Qed.
Lemma M_nn : 0 <= M.
Proof. unfold M. apply Rmult_le_pos; [pose proof ln_nn; lra|left; apply Rinv_0_lt_compat; lra]. Qed.
Lemma av_bound : forall s a V, (s < n)%nat -> (a < nA)%nat -> near n M (fun _ => 0) V -> Rabs (action_value sas r g V s a) <= w + g * M.
Proof.
  intros s a V Hs Ha B. pose proof M_nn as MN. unfold action_value. destruct (row_facts sas MD s a Hs Ha) as (_ & P & PS).
  eapply Rle_trans; [apply sumf_abs|]. apply (Rle_trans _ (sumf (fun t => (w + g * M) * prob sas s a t) (seq 0 (n_states sas)))).
  - apply sumf_le. intros t Ht. apply in_seq in Ht. rewrite Rabs_mult, (Rabs_pos_eq _ (P t)), Rmult_comm. apply Rmult_le_compat_r; [apply P|].
    eapply Rle_trans; [apply Rabs_triang|]. apply Rplus_le_compat; [apply RW; fold n in Ht; lia|]. rewrite Rabs_mult, (Rabs_pos_eq g) by lra. apply Rmult_le_compat_l; [lra|].
    assert (X : (t < n)%nat) by (fold n in Ht; lia). specialize (B t X). cbn beta in B. rewrite Rminus_0_l, Rabs_Ropp in B. exact B.
  - rewrite sumf_scal. rewrite <- (Rmult_1_r (w + g * M)) at 2. apply Rmult_le_compat_l; [|exact PS]. assert (0 <= g * M) by (apply Rmult_le_pos; lra). lra.
Qed.
Lemma backup_same : forall l, length l = nA -> (forall x, In x l -> Rabs x <= w + g * M) -> exists x, soft_backup l = Ok x /\ soft_backup_top top l = Fin x /\ Rabs x <= M.
Proof.
  intros l L B. pose proof M_nn as MN. pose proof M_eq as ME. pose proof ln_nn as LN. pose proof eps_small as ES. pose proof soft_eps_pos as EP.
  assert (GM : 0 <= g * M) by (apply Rmult_le_pos; lra).
  assert (U : nsum (map exp l) + soft_eps <= exp M).
  { rewrite <- ME, exp_plus, exp_ln by (pose proof (pos_INR nA); lra).
    assert (X := nsum_exp_le l (w + g * M) (fun x Hx => Rle_trans _ _ _ (Rle_abs x) (B x Hx))). rewrite L in X.
    assert (1 <= exp (w + g * M)) by (pose proof (exp_ineq1_le (w + g * M)); lra). lra. }
  assert (LO : exp (- (w + g * M)) <= nsum (map exp l)).
  { destruct l as [|y l0]; [exfalso; cbn in L; destruct MD as [P _]; unfold nA in L; lia|].
    apply (Rle_trans _ (exp y)); [|apply nsum_exp_ge; now left]. assert (H := B y ltac:(now left)). pose proof (Rle_abs (- y)) as H0; rewrite Rabs_Ropp in H0. destruct (Rle_lt_or_eq_dec (- (w + g * M)) y) as [H1|H1]; [lra|left; now apply exp_increasing|rewrite H1; right; reflexivity]. }
  assert (P := exp_pos (- (w + g * M))).
  exists (ln (nsum (map exp l) + soft_eps)). split; [reflexivity|]. split.
  - unfold soft_backup_top. replace (Rltb (nsum (map exp l) + soft_eps) top) with true; [reflexivity|]. symmetry. apply Rltb_true. lra.
  - apply Rabs_le. split.
    + apply (Rle_trans _ (ln (exp (- (w + g * M))))); [rewrite ln_exp; lra|]. left. apply ln_increasing; lra.
    + rewrite <- (ln_exp M). destruct U as [U|U]; [left; apply ln_increasing; lra|rewrite U; right; reflexivity].
Qed.
Lemma fold_same : forall l V d q, (forall s, In s l -> (s < n)%nat) -> length V = n -> near n M (fun _ => 0) (fn V) ->
  exists V' d' q', foldM (sweep_state soft_backup reward g sas) l (V, d, q) = Ok (V', d', q') /\ foldM (sweep_state_top top reward g sas) l (map Fin V, Fin d, q) = Ok (map Fin V', Fin d', q') /\
    length V' = n /\ near n M (fun _ => 0) (fn V').
Proof.
  induction l as [|s l IH]; intros V d q Hl LV B; [cbn; eauto 10|]. assert (Hs := Hl s ltac:(now left)).
  set (av := state_action_values s (length (nth 0 sas [])) sas reward g V).
  assert (AV : av = map (action_value sas r g (fn V) s) (seq 0 nA)) by exact (sav_at s V Hs LV).
  destruct (backup_same av) as (x & E1 & E2 & XB).
  { rewrite AV, map_length. apply seq_length. }
  { rewrite AV. intros y Hy. apply in_map_iff in Hy. destruct Hy as (a & <- & Ha). apply in_seq in Ha. apply av_bound; [exact Hs|lia|exact B]. }
  cbn [foldM]. unfold sweep_state, sweep_state_top at 1. rewrite no_inf, finite_fin. fold av. rewrite E1, E2. cbn [bind delta_top]. rewrite upd_map_fin. apply IH.
  - intros t Ht. apply Hl. now right.
  - now rewrite upd_length.
  - intros t Ht. unfold fn. destruct (Nat.eq_dec t s) as [->|N]; [rewrite nth_upd_same by lia|rewrite nth_upd_other by auto; exact (B t Ht)]. now rewrite Rminus_0_l, Rabs_Ropp.
Qed.
Lemma loop_same : forall k V q tol, length V = n -> near n M (fun _ => 0) (fn V) ->
  exists V' q', vi_loop soft_backup k V q reward g sas tol = Ok (V', q') /\ vi_loop_top top k (map Fin V) q reward g sas tol = Ok (map Fin V', q').
Proof.
  induction k as [|k IH]; intros V q tol LV B; [cbn; eauto|]. cbn [vi_loop vi_loop_top]. unfold state_value_iterator, sweep_top.
  destruct (fold_same (seq 0 (length sas)) V 0 (zeros2 (length sas) (length (nth 0 sas [])))) as (V' & d & q' & E1 & E2 & L & B'); auto.
  { intros s Hs. apply in_seq in Hs. unfold n, n_states. lia. }
  change (@n0 R NumR) with 0. rewrite E1, E2. cbn [bind]. change (@nltb R NumR d tol) with (Rltb d tol). destruct (Rltb d tol); eauto.
Qed.
End Overflow.

(** ** Where it works *)
Theorem C209_same : forall top sas rf features k g tol w, is_mdp sas -> 0 < g < 1 -> 0 <= w -> length rf = length features ->
  (forall t, (t < n_states sas)%nat -> Rabs (reward_of rf features t) <= w) -> exp ((w + ln (INR (n_actions sas) + 1)) / (1 - g)) < top -> (0 < k)%Z ->
  exists v q, solve_value_iteration soft_backup rf features k g sas tol = Ok (v, q) /\ solve_top top rf features k g sas tol = Ok (map Fin v, q).
Proof.
  intros top sas rf features k g tol w MD G W0 L RW SM K. set (rew := state_rewards (length sas) rf features).
  assert (LR : length rew = n_states sas) by (unfold rew, state_rewards; rewrite map_length; apply seq_length).
  assert (RB : forall t, (t < n_states sas)%nat -> Rabs (fn rew t) <= w) by (intros t Ht; unfold fn, rew; rewrite state_rewards_nth by auto; auto).
  destruct (solve_spec soft_backup (log_sum_exp soft_eps) sas rf features (Z.to_nat k - 1) g tol MD G L (fun l _ => bk_soft l) (fun l l' c => lse_ne soft_eps (n_actions sas) l l' c soft_eps_pos (proj1 MD))) as (v & q & E & _).
  replace (Z.of_nat (S (Z.to_nat k - 1))) with k in E by lia. exists v, (mask_q sas q). split; [exact E|]. unfold solve_value_iteration in E. unfold solve_top.
  change (@nltb R NumR g n1) with (Rltb g 1) in E. change (@nltb R NumR n0 g) with (Rltb 0 g) in E. destruct (negb (Rltb g 1 && Rltb 0 g)); [discriminate|]. rewrite L, Nat.eqb_refl in *. cbn [negb] in *.
  assert (LZ : length (@zeros1 R NumR (length sas)) = n_states sas) by apply repeat_length.
  destruct (loop_same top sas rew g MD G LR w W0 RB SM (Z.to_nat k) (zeros1 (length sas)) None tol LZ) as (V' & q' & E1 & E2).
  { intros t Ht. unfold fn, zeros1. change (@n0 R NumR) with 0. rewrite nth_repeat, Rminus_0_l, Rabs_Ropp, Rabs_R0. apply M_nn; auto. }
  fold rew in E |- *. rewrite E1 in E. cbn [bind] in E. rewrite zeros_fin.
  rewrite E2. cbn [bind]. destruct q' as [q'|]; [|discriminate]. injection E as <- E. now rewrite E.
Qed.

(** ** Where it fails *)
Section Fails.
Variables (top : R) (sas : list (list (list R))) (reward : list R) (g : R).
Let n := n_states sas.
Let nA := n_actions sas.
Hypothesis MD : is_mdp sas.
Hypothesis G : 0 < g < 1.
Hypothesis LR : length reward = n.
Let r : nat -> R := fn reward.
Hypothesis RN : forall t, (t < n)%nat -> 0 <= r t.
Variables (s0 a0 : nat).
Hypothesis HS : (s0 < n)%nat.
Hypothesis HA : (a0 < nA)%nat.
Hypothesis BIG : top <= exp (sumf (fun t => prob sas s0 a0 t * r t) (seq 0 n)).

Lemma av_ge : forall s a V, (s < n)%nat -> (a < nA)%nat -> (forall t, (t < n)%nat -> 0 <= V t) ->
  0 <= action_value sas r g V s a /\ sumf (fun t => prob sas s a t * r t) (seq 0 n) <= action_value sas r g V s a.
Proof.
  intros s a V Hs Ha VN. unfold action_value. fold n. destruct (row_facts sas MD s a Hs Ha) as (_ & P & _).
  assert (X : forall t, In t (seq 0 n) -> 0 <= prob sas s a t * r t <= prob sas s a t * (r t + g * V t)).
  { intros t Ht. apply in_seq in Ht. assert (0 <= r t) by (apply RN; lia). assert (0 <= g * V t) by (apply Rmult_le_pos; [lra|apply VN; lia]).
    split; [apply Rmult_le_pos; [apply P|assumption]|apply Rmult_le_compat_l; [apply P|lra]]. }
  split; [apply sumf_nonneg|apply sumf_le]; intros t Ht; destruct (X t Ht); lra.
Qed.
Definition broken (acc : res (list (fval R) * fval R * list (list R))) : Prop :=
  acc = Err ValueError \/ exists v q, acc = Ok (v, PInf, q) /\ existsb isinf v = true.
Lemma stays_broken : forall l v q, existsb isinf v = true -> broken (foldM (sweep_state_top top reward g sas) l (v, PInf, q)).
Proof. intros [|s l] v q H; [right; cbn; eauto|left]. cbn [foldM]. unfold sweep_state_top at 1. now rewrite H. Qed.
Lemma breaks : forall l V d q, (forall s, In s l -> (s < n)%nat) -> length V = n -> (forall t, (t < n)%nat -> 0 <= fn V t) -> In s0 l ->
  broken (foldM (sweep_state_top top reward g sas) l (map Fin V, Fin d, q)).
Proof.
  induction l as [|s l IH]; intros V d q Hl LV VN Hin; [destruct Hin|]. assert (Hs := Hl s ltac:(now left)). cbn [foldM]. unfold sweep_state_top at 1. rewrite no_inf, finite_fin.
  set (av := state_action_values s (length (nth 0 sas [])) sas reward g V). assert (AV : av = map (action_value sas r g (fn V) s) (seq 0 nA)) by exact (sav sas g reward MD LR s V Hs LV).
  cbn [bind]. unfold soft_backup_top. destruct (Rltb (nsum (map exp av) + soft_eps) top) eqn:E.
  - apply Rltb_true in E. destruct (Nat.eq_dec s s0) as [->|N].
    + exfalso. assert (X : In (action_value sas r g (fn V) s0 a0) av) by (rewrite AV; apply in_map_iff; exists a0; split; [reflexivity|apply in_seq; lia]).
      apply nsum_exp_ge in X. destruct (av_ge s0 a0 (fn V) HS HA VN) as [_ Y]. pose proof soft_eps_pos.
      assert (Z : exp (sumf (fun t => prob sas s0 a0 t * r t) (seq 0 n)) <= exp (action_value sas r g (fn V) s0 a0)) by (destruct Y as [Y|Y]; [left; now apply exp_increasing|rewrite Y; right; reflexivity]). lra.
    + cbn [delta_top]. rewrite upd_map_fin. apply IH; [intros t Ht; apply Hl; now right|now rewrite upd_length| |destruct Hin; [contradiction|assumption]].
      intros t Ht. unfold fn. destruct (Nat.eq_dec t s) as [->|Nt]; [rewrite nth_upd_same by lia|rewrite nth_upd_other by auto; exact (VN t Ht)].
      rewrite <- ln_1. assert (1 <= nsum (map exp av)).
      { rewrite <- exp_0. assert (P0 : (0 < nA)%nat) by (destruct MD; assumption). assert (X : In (action_value sas r g (fn V) s 0) av) by (rewrite AV; apply in_map_iff; exists 0%nat; split; [reflexivity|apply in_seq; lia]).
        apply nsum_exp_ge in X. destruct (av_ge s 0 (fn V) Hs P0 VN) as [Y _]. assert (exp 0 <= exp (action_value sas r g (fn V) s 0)) by (destruct Y as [Y|Y]; [left; now apply exp_increasing|rewrite <- Y; right; reflexivity]). lra. }
      pose proof soft_eps_pos. left. apply ln_increasing; lra.
  - cbn [delta_top]. apply stays_broken. apply upd_inf. lia.
Qed.
Lemma loop_breaks : forall k q tol, vi_loop_top top (S (S k)) (repeat (Fin 0) (length sas)) q reward g sas tol = Err ValueError.
Proof.
  intros k q tol. cbn [vi_loop_top]. unfold sweep_top at 1. rewrite zeros_fin. set (z := zeros1 (length sas)).
  destruct (breaks (seq 0 (length sas)) z 0 (zeros2 (length sas) (length (nth 0 sas [])))) as [E|(v & q' & E & I)].
  - intros s Hs. apply in_seq in Hs. unfold n, n_states. lia.
  - apply repeat_length.
  - intros t _. unfold fn, z, zeros1. change (@n0 R NumR) with 0. rewrite nth_repeat. lra.
  - apply in_seq. unfold n, n_states in HS. lia.
  - rewrite E. reflexivity.
  - rewrite E. cbn [bind]. unfold sweep_top. destruct (length sas) as [|m] eqn:LS; [unfold n, n_states in HS; lia|]. cbn [seq foldM]. unfold sweep_state_top at 1. rewrite I. reflexivity.
Qed.
End Fails.

(** If no state is punished and some move leads to states that pay so much that the exponential of it is not a floating-point number, soft value
    iteration raises. (In exact arithmetic it returns: C209_same's first equation holds for all weights, C32.) *)
Theorem C208_overflow_refuted : forall top sas rf features k g tol s a, is_mdp sas -> 0 < g < 1 -> length rf = length features ->
  (forall t, (t < n_states sas)%nat -> 0 <= reward_of rf features t) -> (s < n_states sas)%nat -> (a < n_actions sas)%nat ->
  top <= exp (sumf (fun t => prob sas s a t * reward_of rf features t) (seq 0 (n_states sas))) -> (2 <= k)%Z ->
  solve_top top rf features k g sas tol = Err ValueError.
Proof.
  intros top sas rf features k g tol s a MD G L RN Hs Ha BIG K. set (rew := state_rewards (length sas) rf features).
  assert (LR : length rew = n_states sas) by (unfold rew, state_rewards; rewrite map_length; apply seq_length).
  assert (RB : forall t, (t < n_states sas)%nat -> fn rew t = reward_of rf features t) by (intros t Ht; unfold fn, rew; now rewrite state_rewards_nth by auto).
  unfold solve_top. replace (Rltb g 1) with true by (symmetry; apply Rltb_true; lra). replace (Rltb 0 g) with true by (symmetry; apply Rltb_true; lra). rewrite L, Nat.eqb_refl. cbn [andb negb]. fold rew.
  replace (Z.to_nat k) with (S (S (Z.to_nat k - 2))) by lia. rewrite (loop_breaks top sas rew g MD G LR) with (s0 := s) (a0 := a); auto.
  - intros t Ht. rewrite RB by exact Ht. auto.
  - rewrite (sumf_ext _ _ (fun t => prob sas s a t * reward_of rf features t)); [exact BIG|]. intros t Ht. apply in_seq in Ht. rewrite RB by lia. reflexivity.
Qed.
