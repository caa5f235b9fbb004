(** C242: value iteration in floating point does not overflow. Whatever becomes of results beyond the largest number, the outcome is the same. *)
From Coq Require Import String List ZArith QArith Reals Bool Lia Lra Psatz.
From Verif Require Import PyBase PyProofs GridModel MDPModel MDPSpec MDPProofs2 ActionSpec ActionProofs SoftmaxProofs RSum EnvModel EnvSpec EnvProofs EnvProofs3 VISpec VIModel VIProofs VIProofs2 VIProps VIEnvProps RoundModel RoundSpec RoundProofs RoundProps RoundExample.
From Flocq Require Raux.
Import ListNotations.
Local Close Scope Q_scope. Local Open Scope R_scope.

(** Arithmetic with the results of [ro] up to the size [M], and any results whatsoever beyond. *)
Definition agrees (ro ro' : R -> R) (M : R) : Prop := forall x, Rabs x <= M -> ro' x = ro x.

Lemma fold_agree : forall (f f' : R -> R -> R) xs acc, (forall pre b post, xs = pre ++ b :: post -> f' (fold_left f pre acc) b = f (fold_left f pre acc) b) -> fold_left f' xs acc = fold_left f xs acc.
Proof.
  intros f f' xs. induction xs as [|x xs IH]; intros acc H; [reflexivity|]. cbn [fold_left]. pose proof (H [] x xs eq_refl) as E. cbn [fold_left] in E. rewrite E. apply IH.
  intros pre b post ->. exact (H (x :: pre) b post eq_refl).
Qed.

Section Over.
Variables (ro ro' : R -> R) (u eta M : R).
Hypothesis RD : rounding ro u eta.
Hypothesis AG : agrees ro ro' M.

Lemma dot_same : forall B row tg acc, 2 * B <= M -> length row = length tg -> (forall x, In x row -> x = 0 \/ x = 1) -> Rsum row <= 1 ->
  (forall x, In x tg -> ro x = x /\ Rabs x <= B) -> ro acc = acc -> Rabs acc <= B -> (acc = 0 \/ forall x, In x row -> x = 0) ->
  fold_left (fun a b => ro' (a + b)) (map (fun '(x, y) => ro' (x * y)) (combine row tg)) acc = fold_left (fun a b => ro (a + b)) (map (fun '(x, y) => ro (x * y)) (combine row tg)) acc.
Proof using RD AG.
  intros B row. induction row as [|p row IH]; intros [|y tg] acc MB L H01 S1 HT FA BA C; try discriminate; [reflexivity|]. cbn [combine map fold_left].
  assert (B0 : 0 <= B) by (eapply Rle_trans; [apply Rabs_pos|exact BA]). assert (H01' : forall x, In x row -> x = 0 \/ x = 1) by (intros; apply H01; now right).
  destruct (HT y (or_introl eq_refl)) as [FY BY]. rewrite Rsum_cons in S1. pose proof (rnd0 ro u eta RD) as Z. cbn [length] in L.
  destruct (H01 p (or_introl eq_refl)) as [-> | ->].
  - rewrite Rmult_0_l. rewrite (AG 0) by (rewrite Rabs_R0; lra). rewrite Z, Rplus_0_r. rewrite (AG acc) by lra. rewrite FA. apply IH; auto; [lra|intros; apply HT; now right|]. destruct C as [C|C]; [now left|right; intros x Hx; apply C; now right].
  - assert (acc = 0) as -> by (destruct C as [C|C]; [exact C|specialize (C 1 (or_introl eq_refl)); lra]). rewrite Rmult_1_l. rewrite (AG y) by lra. rewrite FY, Rplus_0_l. rewrite (AG y) by lra. rewrite FY.
    assert (N : forall x, In x row -> x = 0).
    { intros x Hx. destruct (H01' x Hx) as [E|E]; [exact E|exfalso]. subst x. assert (K : forall l : list R, (forall x, In x l -> x = 0 \/ x = 1) -> In 1 l -> 1 <= Rsum l).
      { induction l as [|z l IHl]; intros HZ I; [destruct I|]. rewrite Rsum_cons. assert (0 <= Rsum l) by (apply Rsum_nonneg; intros v Hv; destruct (HZ v (or_intror Hv)); lra). destruct I as [->|I]; [lra|]. specialize (IHl (fun v Hv => HZ v (or_intror Hv)) I). destruct (HZ z (or_introl eq_refl)); lra. }
      specialize (K row H01' Hx). lra. }
    apply IH; auto; [|intros; apply HT; now right]. assert (Rsum row = 0); [|lra]. clear - N. induction row as [|x row IH]; [reflexivity|]. rewrite Rsum_cons, (N x (or_introl eq_refl)), IH by (intros; apply N; now right). lra.
Qed.
Lemma nsum_same : forall row acc, 1 <= M -> (forall x, In x row -> x = 0 \/ x = 1) -> (acc = 0 \/ acc = 1) -> acc + Rsum row <= 1 ->
  fold_left (fun a b => ro' (a + b)) row acc = fold_left (fun a b => ro (a + b)) row acc.
Proof using RD AG.
  induction row as [|x row IH]; intros acc M1 H A S; [reflexivity|]. cbn [fold_left]. rewrite Rsum_cons in S. pose proof (rnd0 ro u eta RD) as Z. pose proof (rd_one _ _ _ RD) as O.
  assert (N : 0 <= Rsum row) by (apply Rsum_nonneg; intros v Hv; destruct (H v (or_intror Hv)); lra). assert (X : acc + x = 0 \/ acc + x = 1) by (destruct A, (H x (or_introl eq_refl)); lra).
  assert (E : ro (acc + x) = acc + x) by (destruct X as [-> | ->]; assumption). rewrite AG by (destruct X as [-> | ->]; [rewrite Rabs_R0|rewrite Rabs_R1]; lra). rewrite E. apply IH; [exact M1|intros; apply H; now right|exact X|lra].
Qed.
Lemma mask_same : forall sas q, 1 <= M -> is_mdp sas -> sure sas -> @mask_q R (NumF ro') sas q = @mask_q R (NumF ro) sas q.
Proof using RD AG.
  intros sas q M1 [_ MM] SU. unfold mask_q. apply map_ext_in. intros [mat row] I. apply in_combine_l in I. apply map_ext_in. intros [tr x] I2. apply in_combine_l in I2.
  cbn [neqb n0 NumF]. destruct (MM mat I) as [_ M2]. destruct (M2 tr I2) as (_ & _ & S1). unfold nsum. cbn [nadd n0 NumF]. rewrite nsum_same; [reflexivity|exact M1|intros y Hy; exact (SU _ _ _ I I2 Hy)|now left|lra].
Qed.
Lemma rewards_same : forall n rf features w, 0 <= w -> (w + reward_error u eta (length rf) w) + ((1 + u) * w + eta) <= M -> (forall t, (t < n)%nat -> weight_of rf features t <= w) -> length rf = length features ->
  @state_rewards R (NumF ro') n rf features = @state_rewards R (NumF ro) n rf features.
Proof using RD AG.
  intros n rf features w W MB HW L. unfold state_rewards. apply map_ext_in. intros t Ht. apply in_seq in Ht. specialize (HW t ltac:(lia)). assert (U := u0 _ _ _ RD). assert (H0 := e0 _ _ _ RD).
  set (xs := map (fun '(w, row) => w * nth t row 0) (combine rf features)).
  assert (LX : length xs = length rf) by (unfold xs; rewrite map_length, combine_length; lia).
  assert (NX : forall i, (i < length rf)%nat -> nth i xs 0 = nth i rf 0 * nth t (nth i features []) 0).
  { intros i Hi. unfold xs. rewrite (nth_map_lt _ _ _ _ _ _ (0, [])) by (rewrite combine_length; lia). now rewrite combine_nth by exact L. }
  assert (E2 : weight_of rf features t = Rsum (map Rabs xs)).
  { unfold weight_of. rewrite Rsum_nth, map_length, LX. apply sumf_ext. intros i Hi. apply in_seq in Hi. rewrite (nth_map_lt _ _ _ _ _ _ 0) by lia. f_equal. symmetry. apply NX. lia. }
  assert (E3 : forall r0, map (fun '(w, row) => @nmul R (NumF r0) w (nth t row (@n0 R (NumF r0)))) (combine rf features) = map r0 xs) by (intros r0; unfold xs; rewrite map_map; apply map_ext; now intros [? ?]).
  rewrite !E3. rewrite E2 in HW. rewrite <- LX in MB. clearbody xs. clear - RD AG U H0 W MB HW.
  assert (RE0 : 0 <= reward_error u eta (length xs) w) by (apply (reward_error0 _ _ _ RD); exact W).
  assert (EL : forall x, In x xs -> Rabs x <= w).
  { intros x Hx. eapply Rle_trans; [|exact HW]. clear - Hx. induction xs as [|y l IH]; [destruct Hx|]. cbn [map]. rewrite Rsum_cons. assert (0 <= Rsum (map Rabs l)) by (apply Rsum_nonneg; intros v Hv; apply in_map_iff in Hv; destruct Hv as (z & <- & _); apply Rabs_pos). pose proof (Rabs_pos y). destruct Hx as [->|Hx]; [lra|specialize (IH Hx); lra]. }
  assert (UW : 0 <= u * w) by (now apply Rmult_le_pos).
  assert (E : map ro' xs = map ro xs) by (apply map_ext_in; intros x Hx; apply AG; specialize (EL x Hx); lra).
  rewrite E. unfold nsum. cbn [nadd n0 NumF]. apply fold_agree. intros pre b post EQ. apply AG.
  symmetry in EQ. assert (EQ' := EQ). apply (f_equal (@length R)) in EQ'. rewrite app_length, map_length in EQ'. cbn [length] in EQ'.
  assert (EP : pre = map ro (firstn (length pre) xs)).
  { apply (f_equal (firstn (length pre))) in EQ. rewrite firstn_app, Nat.sub_diag, firstn_O, app_nil_r, firstn_all, firstn_map in EQ. exact EQ. }
  assert (EB : Rabs b <= (1 + u) * w + eta).
  { assert (IB : In b (map ro xs)) by (rewrite <- EQ; apply in_or_app; right; now left). apply in_map_iff in IB. destruct IB as (x & <- & Hx). eapply Rle_trans; [apply (rnd_size ro u eta RD)|]. specialize (EL x Hx). assert ((1 + u) * Rabs x <= (1 + u) * w) by (apply Rmult_le_compat_l; lra). lra. }
  set (ys := firstn (length pre) xs) in *. assert (LY : length ys = length pre) by (unfold ys; rewrite firstn_length; lia).
  assert (SY : Rsum (map Rabs ys) <= w).
  { eapply Rle_trans; [|exact HW]. assert (ES : Rsum (map Rabs xs) = Rsum (map Rabs ys) + Rsum (map Rabs (skipn (length pre) xs))) by (unfold ys; now rewrite <- Rsum_app, <- map_app, firstn_skipn). rewrite ES. assert (0 <= Rsum (map Rabs (skipn (length pre) xs))) by (apply Rsum_nonneg; intros v Hv; apply in_map_iff in Hv; destruct Hv as (z & <- & _); apply Rabs_pos). lra. }
  pose proof (sum_error ro u eta RD ys 0 0 0 0) as SE. rewrite Rminus_0_r, Rabs_R0 in SE. specialize (SE (Rle_refl _) (Rle_refl _) 0%nat). cbn [INR plus] in SE. rewrite !Rplus_0_l in SE. specialize (SE ltac:(cbn [pow]; lra)). rewrite <- EP in SE.
  set (F := fold_left (fun a b => ro (a + b)) pre 0) in *. 
  assert (SR : Rabs (Rsum ys) <= w). { eapply Rle_trans; [|exact SY]. clear. induction ys as [|y l IH]; [unfold Rsum; cbn; rewrite Rabs_R0; lra|]. cbn [map]. rewrite !Rsum_cons. eapply Rle_trans; [apply Rabs_triang|]. lra. }
  assert (S0 : 0 <= Rsum (map Rabs ys)) by (apply Rsum_nonneg; intros v Hv; apply in_map_iff in Hv; destruct Hv as (z & <- & _); apply Rabs_pos).
  assert (RE : ((1 + u) ^ S (length ys) - 1) * Rsum (map Rabs ys) + 2 * INR (length ys) * eta * (1 + u) ^ length ys <= reward_error u eta (length xs) w).
  { unfold reward_error. assert (P1 : 1 <= (1 + u) ^ S (length ys)) by (apply pow_R1_Rle; lra). assert (P2 : (1 + u) ^ S (length ys) <= (1 + u) ^ S (length xs)) by (apply Rle_pow; [lra|lia]). assert (P3 : (1 + u) ^ length ys <= (1 + u) ^ length xs) by (apply Rle_pow; [lra|lia]). assert (P4 : 0 <= (1 + u) ^ length ys) by (apply pow_le; lra).
    assert (P5 : INR (length ys) <= INR (length xs)) by (apply le_INR; lia). pose proof (pos_INR (length ys)) as P6.
    apply Rplus_le_compat; [apply Rmult_le_compat; lra|]. apply Rmult_le_compat; [apply Rmult_le_pos; lra|exact P4|apply Rmult_le_compat_r; lra|exact P3]. }
  assert (Rabs F <= w + reward_error u eta (length xs) w). { replace F with ((F - Rsum ys) + Rsum ys) by ring. eapply Rle_trans; [apply Rabs_triang|]. lra. }
  eapply Rle_trans; [apply Rabs_triang|]. lra.
Qed.

Section Sweeps.
Variables (sas : list (list (list R))) (g : R) (reward : list R) (rho B : R).
Hypothesis MD : is_mdp sas.
Hypothesis SU : sure sas.
Hypothesis g_rng : 0 < g < 1.
Hypothesis Lr : length reward = n_states sas.
Hypothesis r_small : forall t, (t < n_states sas)%nat -> Rabs (nth t reward 0) <= rho.
Hypothesis room : (rho + g * B * (1 + u) + eta) * (1 + u) + eta <= B.
Hypothesis B0 : 0 <= B.
Hypothesis big : 2 * B * (1 + u) + eta <= M.
Lemma B2 : 2 * B <= M.
Proof using RD B0 big. assert (U := u0 _ _ _ RD). assert (H0 := e0 _ _ _ RD). assert (0 <= B * u) by (now apply Rmult_le_pos). lra. Qed.

Lemma target_same : forall V t, small sas B V -> (t < n_states sas)%nat -> ro' (nth t reward 0 + ro' (g * nth t V 0)) = ro (nth t reward 0 + ro (g * nth t V 0)).
Proof using RD AG g_rng r_small room B0 big.
  intros V t SV Ht. assert (U := u0 _ _ _ RD). assert (H0 := e0 _ _ _ RD). specialize (SV t Ht). pose proof (r_small t Ht) as RS. pose proof B2 as BB.
  set (v := nth t V 0) in *. set (w := nth t reward 0) in *. assert (GV : Rabs (g * v) <= g * B) by (rewrite Rabs_mult, (Rabs_pos_eq g) by lra; apply Rmult_le_compat_l; lra).
  assert (GB : g * B <= B). { assert (g * B <= 1 * B) by (apply Rmult_le_compat_r; lra). lra. }
  rewrite (AG (g * v)) by lra. pose proof (rnd_size ro u eta RD (g * v)) as H2. set (x := ro (g * v)) in *.
  assert (XB : Rabs x <= g * B * (1 + u) + eta) by (assert ((1 + u) * Rabs (g * v) <= (1 + u) * (g * B)) by (apply Rmult_le_compat_l; lra); lra).
  assert (WX : Rabs (w + x) <= rho + g * B * (1 + u) + eta) by (eapply Rle_trans; [apply Rabs_triang|]; lra).
  apply AG. assert (0 <= (rho + g * B * (1 + u) + eta) * u) by (apply Rmult_le_pos; [|exact U]; eapply Rle_trans; [apply Rabs_pos|exact WX]). lra.
Qed.
Lemma sav_same : forall s V, (s < n_states sas)%nat -> length V = n_states sas -> small sas B V ->
  @state_action_values R (NumF ro') s (n_actions sas) sas reward g V = @state_action_values R (NumF ro) s (n_actions sas) sas reward g V.
Proof using RD AG MD SU g_rng Lr r_small room B0 big.
  intros s V Hs L SV. unfold state_action_values.
  assert (LC : length (combine reward V) = n_states sas) by (rewrite combine_length; lia).
  assert (ET : map (fun '(r, v) => @nadd R (NumF ro') r (@nmul R (NumF ro') g v)) (combine reward V) = map (fun '(r, v) => @nadd R (NumF ro) r (@nmul R (NumF ro) g v)) (combine reward V)).
  { apply map_ext_in. intros [r v] I. apply (In_nth _ _ (0, 0)) in I. destruct I as (t & Ht & E). rewrite LC in Ht. rewrite combine_nth in E by lia. inversion E. subst r v. cbn [nadd nmul NumF]. now apply target_same. }
  rewrite ET. apply map_ext_in. intros a Ha. apply in_seq in Ha. destruct (row_facts sas MD s a Hs ltac:(lia)) as (L1 & _ & _).
  assert (IM : In (nth s sas []) sas) by (now apply nth_In). destruct MD as [_ MM]. destruct (MM _ IM) as [LM M2]. assert (IR : In (nth a (nth s sas []) []) (nth s sas [])) by (apply nth_In; rewrite LM; lia).
  destruct (M2 _ IR) as (_ & _ & S1). set (tg := map (fun '(r, v) => @nadd R (NumF ro) r (@nmul R (NumF ro) g v)) (combine reward V)).
  unfold dot, nsum. cbn [nadd nmul n0 NumF]. apply dot_same with B.
  - apply B2.
  - rewrite L1. unfold tg. now rewrite map_length, LC.
  - intros x Hx. exact (SU _ _ _ IM IR Hx).
  - exact S1.
  - intros x Hx. unfold tg in Hx. apply in_map_iff in Hx. destruct Hx as ([r v] & <- & I). apply (In_nth _ _ (0, 0)) in I. destruct I as (t & Ht & E). rewrite LC in Ht. rewrite combine_nth in E by lia. inversion E. subst r v. cbn [nadd nmul NumF]. split; [apply (rd_idem _ _ _ RD)|].
    apply (target_ok ro u eta RD sas g reward (fun t => nth t reward 0) rho 0 B g_rng) with (t := t); auto; try lra. intros t' _. rewrite Rminus_diag_eq, Rabs_R0 by reflexivity. lra.
  - apply (rnd0 _ _ _ RD).
  - rewrite Rabs_R0. exact B0.
  - now left.
Qed.
Lemma fav_small : forall V s a, small sas B V -> (s < n_states sas)%nat -> (a < n_actions sas)%nat -> Rabs (fav ro sas g reward V s a) <= B.
Proof using RD MD g_rng Lr r_small room B0.
  intros V s a SV Hs Ha. apply (fav_ok ro u eta RD sas g reward (fun t => nth t reward 0) rho 0 B MD g_rng); auto; try lra. intros t' _. rewrite Rminus_diag_eq, Rabs_R0 by reflexivity. lra.
Qed.
Lemma sweep_same : forall l acc, (forall s, In s l -> (s < n_states sas)%nat) -> (let '(W, d, q) := acc in length W = n_states sas /\ small sas B W) ->
  foldM (@sweep_state R (NumF ro') (@hard_backup R (NumF ro')) reward g sas) l acc = foldM (@sweep_state R (NumF ro) (@hard_backup R (NumF ro)) reward g sas) l acc /\
  forall W d q, foldM (@sweep_state R (NumF ro) (@hard_backup R (NumF ro)) reward g sas) l acc = Ok (W, d, q) -> length W = n_states sas /\ small sas B W.
Proof using RD AG MD SU g_rng Lr r_small room B0 big.
  induction l as [|s l IH]; intros [[W d] q] HL [LW SW]; [split; [reflexivity|]; intros W' d' q' E; inversion E; now subst|]. cbn [foldM]. assert (Hs : (s < n_states sas)%nat) by (apply HL; now left).
  set (av := map (fav ro sas g reward W s) (seq 0 (n_actions sas))). assert (Lav : length av = n_actions sas) by (unfold av; now rewrite map_length, seq_length).
  assert (EA : @state_action_values R (NumF ro) s (n_actions sas) sas reward g W = av) by (apply (sav_F ro u eta RD sas g reward MD SU Lr); assumption).
  assert (BO : @hard_backup R (NumF ro) av = Ok (lmax av)) by exact (bk_hard sas MD av Lav).
  assert (NE : av <> []) by (intros X; rewrite X in Lav; cbn in Lav; pose proof (proj1 MD); lia).
  assert (AB : Rabs (lmax av) <= B).
  { destruct (lmax_spec av NE) as [I _]. unfold av in I at 2. apply in_map_iff in I. destruct I as (a & E & Ha). rewrite <- E. apply in_seq in Ha. apply fav_small; [exact SW|exact Hs|lia]. }
  assert (E1 : @sweep_state R (NumF ro) (@hard_backup R (NumF ro)) reward g sas (W, d, q) s = Ok (upd W s (lmax av), @delta_update R (NumF ro) d (nth s W 0) (lmax av), upd q s av)).
  { unfold sweep_state. fold (n_actions sas). rewrite EA, BO. reflexivity. }
  assert (E2 : @sweep_state R (NumF ro') (@hard_backup R (NumF ro')) reward g sas (W, d, q) s = Ok (upd W s (lmax av), @delta_update R (NumF ro) d (nth s W 0) (lmax av), upd q s av)).
  { unfold sweep_state. fold (n_actions sas). rewrite (sav_same s W Hs LW SW), EA. change (@hard_backup R (NumF ro') av) with (@hard_backup R (NumF ro) av). rewrite BO. cbn [bind n0 NumF]. f_equal. f_equal. f_equal.
    unfold delta_update. change (@nmax R (NumF ro')) with (@nmax R (NumF ro)). f_equal. unfold nabs. cbn [nsub nltb n0 NumF]. assert (U := u0 _ _ _ RD). assert (H0 := e0 _ _ _ RD). pose proof (SW s Hs) as SS. pose proof B2.
    assert (X : Rabs (nth s W 0 - lmax av) <= 2 * B) by (eapply Rle_trans; [apply (Rabs_triang (nth s W 0) (- lmax av))|]; rewrite Rabs_Ropp; lra).
    rewrite (AG (nth s W 0 - lmax av)) by lra. destruct (Rltb _ 0); [|reflexivity]. apply AG. unfold Rminus at 1. rewrite Rplus_0_l, Rabs_Ropp. eapply Rle_trans; [apply (rnd_size ro u eta RD)|]. assert ((1 + u) * Rabs (nth s W 0 - lmax av) <= (1 + u) * (2 * B)) by (apply Rmult_le_compat_l; lra). lra. }
  rewrite E1, E2. cbn [bind]. apply IH; [intros; apply HL; now right|]. split; [now rewrite upd_length|]. intros t Ht. rewrite nth_upd. destruct (t =? s)%nat; [|now apply SW]. destruct (_ <? _)%nat; [exact AB|now apply SW].
Qed.
Lemma loop_same : forall k V q0 tol, length V = n_states sas -> small sas B V ->
  @vi_loop R (NumF ro') (@hard_backup R (NumF ro')) k V q0 reward g sas tol = @vi_loop R (NumF ro) (@hard_backup R (NumF ro)) k V q0 reward g sas tol.
Proof using RD AG MD SU g_rng Lr r_small room B0 big.
  induction k as [|k IH]; intros V q0 tol LV SV; [reflexivity|]. cbn [vi_loop]. unfold state_value_iterator.
  destruct (sweep_same (seq 0 (length sas)) (V, 0, @zeros2 R (NumF ro) (length sas) (length (nth 0 sas [])))) as [E K]; [intros s Hs; apply in_seq in Hs; unfold n_states; lia|now split|].
  change (@n0 R (NumF ro')) with 0. change (@n0 R (NumF ro)) with 0. change (@zeros2 R (NumF ro')) with (@zeros2 R (NumF ro)). rewrite E. clear E. match type of K with (forall _ _ _, ?f = _ -> _) => destruct f as [[[W d] q]|x] eqn:F; [|reflexivity] end. cbn [bind]. destruct (K _ _ _ eq_refl) as [LW SW].
  change (@nltb R (NumF ro')) with (@nltb R (NumF ro)). destruct (nltb d tol); [reflexivity|]. now apply IH.
Qed.
End Sweeps.
End Over.

(** C242. Value iteration with arithmetic that agrees with [ro] up to a size [M] gives the same result as with [ro], however many sweeps it makes, if [M] is a little more than twice the largest value. *)
Theorem C242_same : forall ro ro' u eta M sas rf features g tol w max_iter, rounding ro u eta -> agrees ro ro' M -> is_mdp sas -> sure sas -> 0 < g -> g * (1 + u) ^ 2 < 1 -> 0 <= w ->
  (forall t, (t < n_states sas)%nat -> weight_of rf features t <= w) -> 1 <= M -> 2 * largest_value u eta (length rf) w g * (1 + u) + eta <= M ->
  @solve_value_iteration R (NumF ro') (@hard_backup R (NumF ro')) rf features max_iter g sas tol = @solve_value_iteration R (NumF ro) (@hard_backup R (NumF ro)) rf features max_iter g sas tol.
Proof.
  intros ro ro' u eta M sas rf features g tol w iters RD AG MD SU G GU W HW M1 MB. assert (U := u0 _ _ _ RD). assert (H0 := e0 _ _ _ RD).
  assert (G1 : g < 1). { assert (1 <= (1 + u) ^ 2) by (apply pow_R1_Rle; lra). assert (g * 1 <= g * (1 + u) ^ 2) by (apply Rmult_le_compat_l; lra). lra. }
  unfold solve_value_iteration. change (@nltb R (NumF ro')) with (@nltb R (NumF ro)). change (@n1 R (NumF ro')) with (@n1 R (NumF ro)). change (@n0 R (NumF ro')) with (@n0 R (NumF ro)).
  destruct (negb (nltb g n1 && nltb n0 g)); [reflexivity|]. destruct (Nat.eqb_spec (length rf) (length features)) as [L|]; [|reflexivity]. cbn [negb].
  pose proof (room_ok _ _ _ RD (length rf) w g W G GU) as RM. cbv zeta in RM. destruct RM as [B0 RM]. set (B := largest_value u eta (length rf) w g) in *. set (eps := reward_error u eta (length rf) w) in *. clearbody B.
  pose proof (reward_error0 _ _ _ RD (length rf) w W) as E0. fold eps in E0. assert (UB : 0 <= B * u) by (now apply Rmult_le_pos). assert (GB : 0 <= g * B * (1 + u)) by (repeat apply Rmult_le_pos; lra).
  assert (WB : (w + eps) * (1 + u) + eta <= B). { assert (0 <= (g * B * (1 + u) + eta) * (1 + u)) by (apply Rmult_le_pos; lra). lra. } assert (UE : 0 <= (w + eps) * u) by (apply Rmult_le_pos; lra). assert (UE2 : 0 <= eps * (1 + u)) by (apply Rmult_le_pos; lra).
  rewrite (rewards_same ro ro' u eta M RD AG (length sas) rf features w W) by (auto; fold eps; lra). change (@zeros1 R (NumF ro')) with (@zeros1 R (NumF ro)).
  rewrite (loop_same ro ro' u eta M RD AG sas g (@state_rewards R (NumF ro) (length sas) rf features) (w + eps) B MD SU ltac:(lra)).
  - destruct (vi_loop _ _ _ _ _ _ _ _) as [[v [q|]]|x]; cbn [bind]; [|reflexivity|reflexivity]. now rewrite (mask_same ro ro' u eta M RD AG).
  - unfold state_rewards. now rewrite map_length, seq_length.
  - intros t Ht. pose proof (rewards_F _ _ _ RD (length sas) rf features t L Ht) as NR. specialize (HW t Ht). pose proof (weight_bounds rf features t) as WR.
    assert (RE : reward_error u eta (length rf) (weight_of rf features t) <= eps). { unfold eps, reward_error. assert (1 <= (1 + u) ^ S (length rf)) by (apply pow_R1_Rle; lra). apply Rplus_le_compat_r. apply Rmult_le_compat_l; lra. }
    set (x := nth t _ 0) in *. replace x with ((x - reward_of rf features t) + reward_of rf features t) by ring. eapply Rle_trans; [apply Rabs_triang|]. lra.
  - exact RM.
  - exact B0.
  - exact MB.
  - unfold zeros1. apply repeat_length.
  - intros t Ht. unfold zeros1. cbn [n0 NumF]. rewrite nth_repeat, Rabs_R0. exact B0.
Qed.

(** The sizes for float64: with no more than 1000 features, whose weights sum to at most 1e300 at each state, no result of value iteration with the default discount is larger than 2^1023. *)
Lemma sizes64 : forall nf, (nf <= 1000)%nat -> g64 * (1 + u64) ^ 2 < 1 /\ 2 * largest_value u64 eta64 nf (10 ^ 300) g64 * (1 + u64) + eta64 <= 2 ^ 1023.
Proof.
  intros nf L. destruct (default_numbers nf L) as (GB & _ & GU & _). pose proof C206_float64 as RD. pose proof u64_small as US. pose proof eta64_small as ES.
  assert (BIG : 100 * 10 ^ 300 <= 2 ^ 1023). { rewrite !pow_IZR, <- mult_IZR. apply IZR_le. vm_compute. discriminate. } assert (BW : 1 <= 10 ^ 300) by (apply pow_R1_Rle; lra).
  set (M := 2 ^ 1023) in *. set (w := 10 ^ 300) in *. set (u := u64) in *. set (eta := eta64) in *. set (g := g64) in *. clearbody M w u eta g. apply Raux.Rabs_le_inv in GB. split; [exact GU|].
  assert (GU2 : g * (1 + u) ^ 2 <= 91 / 100) by (cbn [pow]; nra).
  assert (P : forall n, (n <= 1001)%nat -> 1 <= (1 + u) ^ n <= 1 + 25 / 10 ^ 14).
  { intros n Hn. split; [apply pow_R1_Rle; lra|]. assert (IN : 0 <= INR n <= 1001). { split; [apply pos_INR|]. replace 1001 with (INR 1001) by (rewrite INR_IZR_INZ; reflexivity). now apply le_INR. }
    assert (X : INR n * u <= 1001 * (12 / 10 ^ 17)) by (apply Rmult_le_compat; lra). assert (Y := pow_bound u n ltac:(lra) ltac:(lra)). lra. }
  assert (IN : 0 <= INR nf <= 1000). { split; [apply pos_INR|]. replace 1000 with (INR 1000) by (rewrite INR_IZR_INZ; reflexivity). now apply le_INR. }
  pose proof (P (S nf) ltac:(lia)) as P1. pose proof (P nf ltac:(lia)) as P2.
  assert (RE : 0 <= reward_error u eta nf w <= w / 10).
  { split; [apply (reward_error0 _ _ _ RD); lra|]. unfold reward_error. assert (Z0 : 0 <= 2 * INR nf * eta) by (apply Rmult_le_pos; lra). assert (Z1 : 2 * INR nf * eta <= 2000 * / 10 ^ 30) by (apply Rmult_le_compat; lra).
    set (z := 2 * INR nf * eta) in *. set (p1 := (1 + u) ^ S nf) in *. set (p2 := (1 + u) ^ nf) in *. assert (z * p2 <= 2000 * / 10 ^ 30 * 2) by (apply Rmult_le_compat; lra). assert ((p1 - 1) * w <= / 100 * w) by (apply Rmult_le_compat_r; lra). lra. }
  assert (BB : largest_value u eta nf w g <= 20 * w).
  { unfold largest_value. apply (Rmult_le_reg_r (1 - g * (1 + u) ^ 2)); [lra|]. unfold Rdiv. rewrite Rmult_assoc, Rinv_l, Rmult_1_r by lra.
    set (gu := g * (1 + u) ^ 2) in *. set (re := reward_error u eta nf w) in *. assert ((w + re) * (1 + u) <= (w + w / 10) * (1 + 1 / 10 ^ 5)) by (apply Rmult_le_compat; lra). assert (eta * (2 + u) <= / 100 * 3) by (apply Rmult_le_compat; lra).
    assert (20 * w * (9 / 100) <= 20 * w * (1 - gu)) by (apply Rmult_le_compat_l; lra). lra. }
  set (B := largest_value u eta nf w g) in *. assert (2 * B * (1 + u) <= 40 * w * (1 + 1 / 10)). { apply Rle_trans with (40 * w * (1 + u)); [apply Rmult_le_compat_r; lra|apply Rmult_le_compat_l; lra]. } lra.
Qed.

(** C242 for float64. With any arithmetic that agrees with float64 up to 2^1023, a bit less than the largest number of float64, value iteration gives what it would give without a largest number. *)
Theorem C242_float64 : forall ro' sas rf features tol max_iter, agrees float64 ro' (2 ^ 1023) -> is_mdp sas -> sure sas -> (length rf <= 1000)%nat ->
  (forall t, (t < n_states sas)%nat -> weight_of rf features t <= 10 ^ 300) ->
  @solve_value_iteration R (NumF ro') (@hard_backup R (NumF ro')) rf features max_iter g64 sas tol = @solve_value_iteration R (NumF float64) (@hard_backup R (NumF float64)) rf features max_iter g64 sas tol.
Proof.
  intros ro' sas rf features tol k AG MD SU L HW. destruct (sizes64 _ L) as [GU MB]. destruct (default_numbers _ L) as (GB & _). apply Raux.Rabs_le_inv in GB.
  apply (C242_same float64 ro' u64 eta64 (2 ^ 1023) sas rf features g64 tol (10 ^ 300) k C206_float64); auto; [lra|apply pow_le; lra|apply pow_R1_Rle; lra].
Qed.
(** So the errors proved for float64 (C206) are those of arithmetic that overflows. *)
Theorem C242_defaults : forall ro' sas rf features Vs, agrees float64 ro' (2 ^ 1023) -> is_mdp sas -> sure sas -> length rf = length features -> (length rf <= 1000)%nat ->
  (forall t, (t < n_states sas)%nat -> weight_of rf features t <= 1000) -> optimal sas (reward_of rf features) g64 Vs ->
  exists v q, @solve_value_iteration R (NumF ro') (@hard_backup R (NumF ro')) rf features 500 g64 sas tol64 = Ok (v, q) /\ forall s, (s < n_states sas)%nat -> Rabs (nth s v 0 - Vs s) <= / 10 ^ 7.
Proof.
  intros ro' sas rf features Vs AG MD SU L LL HW O. destruct (C206_defaults sas rf features Vs MD SU L LL HW O) as (v & q & E & H & _). exists v, q. split; [|exact H]. rewrite <- E. apply C242_float64; auto.
  intros t Ht. eapply Rle_trans; [now apply HW|]. apply Rle_trans with (10 ^ 3); [lra|]. apply Rle_pow; [lra|lia].
Qed.
(** What an agent that plans with value iteration finds is the same too, on any grid. *)
Theorem C242_fit : forall pl ro' m rf tol max_iter, usable pl m -> agrees float64 ro' (2 ^ 1023) -> (length rf <= 1000)%nat -> (forall t, (t < n_states (m_sas m))%nat -> weight_of rf (m_features m) t <= 10 ^ 300) ->
  @vi_fit R (NumF ro') g64 tol max_iter m rf = @vi_fit R (NumF float64) g64 tol max_iter m rf.
Proof.
  intros pl ro' m rf tol k US AG L HW. destruct (C206_grids pl m US) as [MD SU]. unfold vi_fit. now rewrite (C242_float64 ro' (m_sas m) rf (m_features m) tol k AG MD SU L HW).
Qed.

(** An arithmetic with a largest number: what is beyond it becomes 0, a result as wrong as any. *)
Definition capped (x : R) : R := if Rltb (2 ^ 1023) (Rabs x) then 0 else float64 x.
Lemma capped_agrees : agrees float64 capped (2 ^ 1023).
Proof. intros x H. unfold capped. destruct (Rltb (2 ^ 1023) (Rabs x)) eqn:E; [|reflexivity]. apply Rltb_true in E. exfalso. apply (Rlt_not_le _ _ E H). Qed.
(** Two states and an action that leads from each to the other; rewards 1e300 and -1e300. *)
Example C242_example : agrees float64 capped (2 ^ 1023) /\ (exists x, capped x <> float64 x) /\ is_mdp [[[0; 1]]; [[1; 0]]] /\ sure [[[0; 1]]; [[1; 0]]] /\
  (forall t, (t < 2)%nat -> weight_of [10 ^ 300] [[1; -1]] t <= 10 ^ 300).
Proof.
  assert (P : 0 < 2 ^ 1024) by (apply pow_lt; lra).
  split; [exact capped_agrees|]. split.
  - exists (2 ^ 1024). assert (A : capped (2 ^ 1024) = 0). { unfold capped. rewrite (proj2 (Rltb_true _ _)); [reflexivity|]. rewrite Rabs_pos_eq by lra. apply Rlt_pow; [lra|lia]. } rewrite A. clear A.
    pose proof (rd_le _ _ _ C206_float64 1 (2 ^ 1024) ltac:(apply pow_R1_Rle; lra)) as MO. rewrite (rd_one _ _ _ C206_float64) in MO. lra.
  - split; [|split].
    + split; [cbn; lia|]. cbn. intros mat [<-|[<-|[]]]; (split; [reflexivity|]; intros row [<-|[]]; split; [reflexivity|]; split; [intros x [<-|[<-|[]]]; lra|unfold Rsum; cbn; lra]).
    + unfold sure. intros mat row x I1 I2 I3. cbn in I1. destruct I1 as [<-|[<-|[]]]; destruct I2 as [<-|[]]; destruct I3 as [<-|[<-|[]]]; auto.
    + set (w := 10 ^ 300). assert (0 < w) by (apply pow_lt; lra). clearbody w. intros t Ht. unfold weight_of. cbn in Ht. destruct t as [|[|t]]; [| |lia]; cbn.
      * rewrite Rmult_1_r, Rabs_pos_eq by lra. lra.
      * replace (w * -1) with (- w) by ring. rewrite Rabs_Ropp, Rabs_pos_eq by lra. lra.
Qed.
