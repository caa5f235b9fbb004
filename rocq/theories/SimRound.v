(** Value iteration over two kinds of numbers: as long as nothing gets too large, each result over one is that over the other. For C243. *)
From Coq Require Import String List ZArith Reals Bool Lia Lra Psatz.
From Verif Require Import PyBase PyProofs GridModel MDPModel MDPSpec MDPProofs2 ActionSpec ActionProofs SoftmaxProofs RSum EnvModel EnvSpec EnvProofs EnvProofs3 VISpec VIModel VIProofs VIProofs2 VIProps RoundModel RoundSpec RoundProofs RoundProps.
Import ListNotations.
Local Open Scope R_scope.

(** The numbers of [B] compute what rounding with [ro] computes, up to the size [M]; [sim b x] says that the number [b] stands for the real number [x]. *)
Record computes {B} (NB : Num B) (sim : B -> R -> Prop) (ro : R -> R) (M : R) : Prop := {
  c_zero : sim n0 0;
  c_one : sim n1 1;
  c_add : forall b x c y, sim b x -> sim c y -> Rabs (x + y) <= M -> sim (nadd b c) (ro (x + y));
  c_sub : forall b x c y, sim b x -> sim c y -> Rabs (x - y) <= M -> sim (nsub b c) (ro (x - y));
  c_mul : forall b x c y, sim b x -> sim c y -> Rabs (x * y) <= M -> sim (nmul b c) (ro (x * y));
  c_ltb : forall b x c y, sim b x -> sim c y -> nltb b c = Rltb x y;
  c_eqb : forall b x c y, sim b x -> sim c y -> neqb b c = Reqb x y }.

(** Action values: impossible actions have minus infinity in both. *)
Definition fsim {B} (sim : B -> R -> Prop) (b : fval B) (x : fval R) : Prop :=
  match b, x with Fin b', Fin x' => sim b' x' | NInf, NInf => True | PInf, PInf => True | NaN, NaN => True | _, _ => False end.
(** Both raise the same error, or both give values and action values that stand for each other. *)
Definition same_result {B} (sim : B -> R -> Prop) (r' : res (list B * list (list (fval B)))) (r : res (list R * list (list (fval R)))) : Prop :=
  match r', r with
  | Ok (v', q'), Ok (v, q) => Forall2 sim v' v /\ Forall2 (Forall2 (fsim sim)) q' q
  | Err x, Err y => x = y
  | _, _ => False
  end.

Lemma F2_length : forall {X Y} (P : X -> Y -> Prop) l l', Forall2 P l l' -> length l = length l'.
Proof. induction 1; cbn; congruence. Qed.
Lemma F2_nth : forall {X Y} (P : X -> Y -> Prop) l l' d d', Forall2 P l l' -> P d d' -> forall i, P (nth i l d) (nth i l' d').
Proof. induction 1; intros D [|i]; cbn; auto. Qed.
Lemma F2_upd : forall {X Y} (P : X -> Y -> Prop) l l', Forall2 P l l' -> forall i x y, P x y -> Forall2 P (upd l i x) (upd l' i y).
Proof. induction 1; intros [|i] u v D; cbn; constructor; auto. Qed.
Lemma F2_map_same : forall {X Y Z} (P : Y -> Z -> Prop) (f : X -> Y) (g : X -> Z) l, (forall x, In x l -> P (f x) (g x)) -> Forall2 P (map f l) (map g l).
Proof. induction l as [|x l IH]; intros H; cbn; constructor; [apply H; now left|apply IH; intros; apply H; now right]. Qed.
Lemma F2_combine_map : forall {X X' Y Y' Z Z'} (P : X -> X' -> Prop) (Q : Y -> Y' -> Prop) (S : Z -> Z' -> Prop) (f : X * Y -> Z) (g : X' * Y' -> Z') l l', Forall2 P l l' ->
  forall k k', Forall2 Q k k' -> (forall x x' y y', P x x' -> Q y y' -> In (x', y') (combine l' k') -> S (f (x, y)) (g (x', y'))) -> Forall2 S (map f (combine l k)) (map g (combine l' k')).
Proof.
  intros X X' Y Y' Z Z' P Q S f g l l' H. induction H as [|x x' l l' HP HL IH]; intros k k' K F; [constructor|]. destruct K as [|y y' k k' HQ K]; [constructor|]. cbn. constructor; [apply F; [exact HP|exact HQ|now left]|]. apply IH; [exact K|]. intros. apply F; auto. now right.
Qed.
Lemma F2_repeat : forall {X Y} (P : X -> Y -> Prop) x y n, P x y -> Forall2 P (repeat x n) (repeat y n).
Proof. induction n; cbn; constructor; auto. Qed.

Section Sim.
Context {B : Type} (NB : Num B) (sim : B -> R -> Prop) (ro : R -> R) (u eta M : R).
Hypothesis RD : rounding ro u eta.
Hypothesis CP : computes NB sim ro M.

Lemma dotS : forall Bd row tg acc row' tg' acc', 2 * Bd <= M -> Forall2 sim row' row -> Forall2 sim tg' tg -> sim acc' acc -> (forall x, In x row -> x = 0 \/ x = 1) -> Rsum row <= 1 ->
  (forall x, In x tg -> ro x = x /\ Rabs x <= Bd) -> ro acc = acc -> Rabs acc <= Bd -> (acc = 0 \/ forall x, In x row -> x = 0) ->
  sim (fold_left nadd (map (fun '(x, y) => nmul x y) (combine row' tg')) acc') (fold_left (fun a b => ro (a + b)) (map (fun '(x, y) => ro (x * y)) (combine row tg)) acc).
Proof using RD CP.
  intros Bd row tg acc row' tg' acc' MB HR. revert tg acc tg' acc'. induction HR as [|p' p row' row HP HR IH]; intros tg acc tg' acc' HT HA H01 S1 TB FA BA C; [exact HA|]. destruct HT as [|y' y tg' tg HY HT]; [exact HA|]. cbn [combine map fold_left].
  assert (B0 : 0 <= Bd) by (eapply Rle_trans; [apply Rabs_pos|exact BA]). assert (H01' : forall x, In x row -> x = 0 \/ x = 1) by (intros; apply H01; now right).
  destruct (TB y (or_introl eq_refl)) as [FY BY]. rewrite Rsum_cons in S1. pose proof (rnd0 ro u eta RD) as Z.
  assert (SP : sim (nmul p' y') (ro (p * y))). { apply (c_mul _ _ _ _ CP); auto. rewrite Rabs_mult. destruct (H01 p (or_introl eq_refl)) as [-> | ->]; [rewrite Rabs_R0|rewrite Rabs_R1]; lra. }
  assert (SA : sim (nadd acc' (nmul p' y')) (ro (acc + ro (p * y)))). { apply (c_add _ _ _ _ CP); auto. eapply Rle_trans; [apply Rabs_triang|]. destruct (H01 p (or_introl eq_refl)) as [-> | ->]; [rewrite Rmult_0_l, Z, Rabs_R0; lra|rewrite Rmult_1_l, FY; lra]. }
  assert (E : (ro (acc + ro (p * y)) = acc /\ (acc = 0 \/ forall x, In x row -> x = 0)) \/ (ro (acc + ro (p * y)) = y /\ p = 1)).
  { destruct (H01 p (or_introl eq_refl)) as [-> | ->]; [left; rewrite Rmult_0_l, Z, Rplus_0_r, FA; split; [reflexivity|]; destruct C as [C|C]; [now left|right; intros x Hx; apply C; now right]|right].
    assert (acc = 0) as -> by (destruct C as [C|C]; [exact C|specialize (C 1 (or_introl eq_refl)); lra]). split; [|reflexivity]. now rewrite Rmult_1_l, FY, Rplus_0_l, FY. }
  destruct E as [[E C']|[E ->]]; rewrite E in *.
  - apply IH; auto; [|intros; apply TB; now right]. destruct (H01 p (or_introl eq_refl)); lra.
  - assert (N : forall x, In x row -> x = 0).
    { intros x Hx. destruct (H01' x Hx) as [E1|E1]; [exact E1|exfalso]. subst x. assert (K : forall l : list R, (forall x, In x l -> x = 0 \/ x = 1) -> In 1 l -> 1 <= Rsum l).
      { induction l as [|z l IHl]; intros HZ I; [destruct I|]. rewrite Rsum_cons. assert (0 <= Rsum l) by (apply Rsum_nonneg; intros v Hv; destruct (HZ v (or_intror Hv)); lra). destruct I as [->|I]; [lra|]. specialize (IHl (fun v Hv => HZ v (or_intror Hv)) I). destruct (HZ z (or_introl eq_refl)); lra. }
      specialize (K row H01' Hx). lra. }
    apply IH; auto; [|intros; apply TB; now right]. assert (Rsum row = 0); [|lra]. clear - N. induction row as [|x row IH]; [reflexivity|]. rewrite Rsum_cons, (N x (or_introl eq_refl)), IH by (intros; apply N; now right). lra.
Qed.
Lemma nsumS : forall row' row acc' acc, Forall2 sim row' row -> sim acc' acc -> 1 <= M -> (forall x, In x row -> x = 0 \/ x = 1) -> (acc = 0 \/ acc = 1) -> acc + Rsum row <= 1 ->
  sim (fold_left nadd row' acc') (fold_left (fun a b => ro (a + b)) row acc).
Proof using RD CP.
  intros row' row acc' acc HR. revert acc' acc. induction HR as [|x' x row' row HX HR IH]; intros acc' acc SA M1 H A S; [exact SA|]. cbn [fold_left]. rewrite Rsum_cons in S. pose proof (rnd0 ro u eta RD) as Z. pose proof (rd_one _ _ _ RD) as O.
  assert (N : 0 <= Rsum row) by (apply Rsum_nonneg; intros v Hv; destruct (H v (or_intror Hv)); lra). assert (X : acc + x = 0 \/ acc + x = 1) by (destruct A, (H x (or_introl eq_refl)); lra).
  assert (E : ro (acc + x) = acc + x) by (destruct X as [-> | ->]; assumption). apply IH; [|exact M1|intros; apply H; now right|rewrite E; exact X|rewrite E; lra].
  apply (c_add _ _ _ _ CP); auto. destruct X as [-> | ->]; [rewrite Rabs_R0|rewrite Rabs_R1]; lra.
Qed.
Lemma maskS : forall sas' sas q' q, 1 <= M -> is_mdp sas -> sure sas -> Forall2 (Forall2 (Forall2 sim)) sas' sas -> Forall2 (Forall2 sim) q' q -> Forall2 (Forall2 (fsim sim)) (@mask_q B NB sas' q') (@mask_q R (NumF ro) sas q).
Proof using RD CP.
  intros sas' sas q' q M1 [_ MM] SU HS HQ. unfold mask_q. apply (F2_combine_map (Forall2 (Forall2 sim)) (Forall2 sim)); auto. intros mat' mat row' row HM HR I. apply in_combine_l in I.
  apply (F2_combine_map (Forall2 sim) sim); auto. intros tr' tr x' x HT HX I2. apply in_combine_l in I2. destruct (MM mat I) as [_ M2]. destruct (M2 tr I2) as (_ & _ & S1).
  assert (E : sim (nsum tr') (@nsum R (NumF ro) tr)). { unfold nsum. cbn [nadd n0 NumF]. apply nsumS; auto; [apply (c_zero _ _ _ _ CP)|intros y Hy; exact (SU _ _ _ I I2 Hy)|lra]. }
  cbn [neqb n0 NumF]. rewrite (c_eqb _ _ _ _ CP _ _ _ _ E (c_zero _ _ _ _ CP)). destruct (Reqb _ 0); cbn; auto.
Qed.
Lemma foldS : forall xs' xs acc' acc, Forall2 sim xs' xs -> sim acc' acc -> (forall pre b post, xs = pre ++ b :: post -> Rabs (fold_left (fun a b => ro (a + b)) pre acc + b) <= M) ->
  sim (fold_left nadd xs' acc') (fold_left (fun a b => ro (a + b)) xs acc).
Proof using CP.
  intros xs' xs acc' acc HX. revert acc' acc. induction HX as [|x' x xs' xs H HX IH]; intros acc' acc SA P; [exact SA|]. cbn [fold_left]. apply IH; [apply (c_add _ _ _ _ CP); auto; exact (P [] x xs eq_refl)|]. intros pre b post ->. exact (P (x :: pre) b post eq_refl).
Qed.
(** The partial sums of the rewards stay small. *)
Lemma prefix_small : forall xs w pre b post, 0 <= w -> Rsum (map Rabs xs) <= w -> map ro xs = pre ++ b :: post ->
  Rabs (fold_left (fun a b => ro (a + b)) pre 0 + b) <= (w + reward_error u eta (length xs) w) + ((1 + u) * w + eta).
Proof using RD.
  intros xs w pre b post W HW EQ. assert (U := u0 _ _ _ RD). assert (H0 := e0 _ _ _ RD).
  assert (EL : forall x, In x xs -> Rabs x <= w).
  { intros x Hx. eapply Rle_trans; [|exact HW]. clear - Hx. induction xs as [|y l IH]; [destruct Hx|]. cbn [map]. rewrite Rsum_cons. assert (0 <= Rsum (map Rabs l)) by (apply Rsum_nonneg; intros v Hv; apply in_map_iff in Hv; destruct Hv as (z & <- & _); apply Rabs_pos). pose proof (Rabs_pos y). destruct Hx as [->|Hx]; [lra|specialize (IH Hx); lra]. }
  assert (EQ' := EQ). apply (f_equal (@length R)) in EQ'. rewrite app_length, map_length in EQ'. cbn [length] in EQ'.
  assert (EP : pre = map ro (firstn (length pre) xs)).
  { apply (f_equal (firstn (length pre))) in EQ. rewrite firstn_app, Nat.sub_diag, firstn_O, app_nil_r, firstn_all, firstn_map in EQ. now symmetry. }
  assert (EB : Rabs b <= (1 + u) * w + eta).
  { assert (IB : In b (map ro xs)) by (rewrite EQ; apply in_or_app; right; now left). apply in_map_iff in IB. destruct IB as (x & <- & Hx). eapply Rle_trans; [apply (rnd_size ro u eta RD)|]. specialize (EL x Hx). assert ((1 + u) * Rabs x <= (1 + u) * w) by (apply Rmult_le_compat_l; lra). lra. }
  set (ys := firstn (length pre) xs) in *. assert (LY : length ys = length pre) by (unfold ys; rewrite firstn_length; lia).
  assert (SY : Rsum (map Rabs ys) <= w).
  { eapply Rle_trans; [|exact HW]. assert (ES : Rsum (map Rabs xs) = Rsum (map Rabs ys) + Rsum (map Rabs (skipn (length pre) xs))) by (unfold ys; now rewrite <- Rsum_app, <- map_app, firstn_skipn). rewrite ES. assert (0 <= Rsum (map Rabs (skipn (length pre) xs))) by (apply Rsum_nonneg; intros v Hv; apply in_map_iff in Hv; destruct Hv as (z & <- & _); apply Rabs_pos). lra. }
  pose proof (sum_error ro u eta RD ys 0 0 0 0) as SE. rewrite Rminus_0_r, Rabs_R0 in SE. specialize (SE (Rle_refl _) (Rle_refl _) 0%nat). cbn [INR plus] in SE. rewrite !Rplus_0_l in SE. specialize (SE ltac:(cbn [pow]; lra)). rewrite <- EP in SE.
  set (F := fold_left (fun a b => ro (a + b)) pre 0) in *.
  assert (SR : Rabs (Rsum ys) <= w). { eapply Rle_trans; [|exact SY]. clear. induction ys as [|y l IH]; [unfold Rsum; cbn; rewrite Rabs_R0; lra|]. cbn [map]. rewrite !Rsum_cons. eapply Rle_trans; [apply Rabs_triang|]. lra. }
  assert (S0 : 0 <= Rsum (map Rabs ys)) by (apply Rsum_nonneg; intros v Hv; apply in_map_iff in Hv; destruct Hv as (z & <- & _); apply Rabs_pos).
  assert (RE : ((1 + u) ^ S (length ys) - 1) * Rsum (map Rabs ys) + 2 * INR (length ys) * eta * (1 + u) ^ length ys <= reward_error u eta (length xs) w).
  { unfold reward_error. assert (P1 : 1 <= (1 + u) ^ S (length ys)) by (apply pow_R1_Rle; lra). assert (P2 : (1 + u) ^ S (length ys) <= (1 + u) ^ S (length xs)) by (apply Rle_pow; [lra|lia]). assert (P3 : (1 + u) ^ length ys <= (1 + u) ^ length xs) by (apply Rle_pow; [lra|lia]). assert (P4 : 0 <= (1 + u) ^ length ys) by (apply pow_le; lra).
    assert (P5 : INR (length ys) <= INR (length xs)) by (apply le_INR; lia). pose proof (pos_INR (length ys)) as P6.
    apply Rplus_le_compat; [apply Rmult_le_compat; lra|]. apply Rmult_le_compat; [apply Rmult_le_pos; lra|exact P4|apply Rmult_le_compat_r; lra|exact P3]. }
  assert (Rabs F <= w + reward_error u eta (length xs) w). { replace F with ((F - Rsum ys) + Rsum ys) by ring. eapply Rle_trans; [apply Rabs_triang|]. lra. }
  eapply Rle_trans; [apply Rabs_triang|]. lra.
Qed.
Lemma rewardsS : forall n rf' rf features' features w, Forall2 sim rf' rf -> Forall2 (Forall2 sim) features' features -> 0 <= w -> (w + reward_error u eta (length rf) w) + ((1 + u) * w + eta) <= M ->
  (forall t, (t < n)%nat -> weight_of rf features t <= w) -> length rf = length features -> Forall2 sim (@state_rewards B NB n rf' features') (@state_rewards R (NumF ro) n rf features).
Proof using RD CP.
  intros n rf' rf features' features w HRF HF W MB HW L. unfold state_rewards. apply F2_map_same. intros t Ht. apply in_seq in Ht. specialize (HW t ltac:(lia)). assert (U := u0 _ _ _ RD). assert (H0 := e0 _ _ _ RD).
  set (xs := map (fun '(w, row) => w * nth t row 0) (combine rf features)).
  assert (LX : length xs = length rf) by (unfold xs; rewrite map_length, combine_length; lia).
  assert (NX : forall i, (i < length rf)%nat -> nth i xs 0 = nth i rf 0 * nth t (nth i features []) 0).
  { intros i Hi. unfold xs. rewrite (nth_map_lt _ _ _ _ _ _ (0, [])) by (rewrite combine_length; lia). now rewrite combine_nth by exact L. }
  assert (E2 : weight_of rf features t = Rsum (map Rabs xs)).
  { unfold weight_of. rewrite Rsum_nth, map_length, LX. apply sumf_ext. intros i Hi. apply in_seq in Hi. rewrite (nth_map_lt _ _ _ _ _ _ 0) by lia. f_equal. symmetry. apply NX. lia. }
  rewrite E2 in HW. assert (RE0 : 0 <= reward_error u eta (length rf) w) by (apply (reward_error0 _ _ _ RD); exact W). assert (UW : 0 <= u * w) by (now apply Rmult_le_pos).
  assert (EL : forall x, In x xs -> Rabs x <= w).
  { clear - HW. intros x Hx. eapply Rle_trans; [|exact HW]. clear - Hx. induction xs as [|y l IH]; [destruct Hx|]. cbn [map]. rewrite Rsum_cons. assert (0 <= Rsum (map Rabs l)) by (apply Rsum_nonneg; intros v Hv; apply in_map_iff in Hv; destruct Hv as (z & <- & _); apply Rabs_pos). pose proof (Rabs_pos y). destruct Hx as [->|Hx]; [lra|specialize (IH Hx); lra]. }
  assert (E3 : map (fun '(w, row) => @nmul R (NumF ro) w (nth t row (@n0 R (NumF ro)))) (combine rf features) = map ro xs) by (unfold xs; rewrite map_map; apply map_ext; now intros [? ?]).
  unfold nsum at 2. rewrite E3. unfold nsum. cbn [nadd n0 NumF]. apply foldS; [|apply (c_zero _ _ _ _ CP)|].
  - rewrite <- E3. apply (F2_combine_map sim (Forall2 sim)); auto. intros x' x row' row HX HR I. cbn [nmul n0 NumF]. apply (c_mul _ _ _ _ CP); auto; [apply F2_nth; [exact HR|apply (c_zero _ _ _ _ CP)]|].
    assert (Rabs (x * nth t row 0) <= w); [|lra]. apply EL. unfold xs. apply in_map_iff. exists (x, row). auto.
  - intros pre b post EQ. rewrite <- LX in MB. eapply Rle_trans; [apply (prefix_small xs w pre b post W HW EQ)|exact MB].
Qed.
Lemma maxS : forall b x c y, sim b x -> sim c y -> sim (@nmax B NB b c) (@nmax R (NumF ro) x y).
Proof using CP. intros b x c y H1 H2. unfold nmax. rewrite (c_ltb _ _ _ _ CP _ _ _ _ H1 H2). cbn [nltb NumF]. destruct (Rltb x y); assumption. Qed.
Lemma backupS : forall l' l x, Forall2 sim l' l -> @hard_backup R (NumF ro) l = Ok x -> exists x', @hard_backup B NB l' = Ok x' /\ sim x' x.
Proof using CP.
  intros l' l x H E. destruct H as [|y' y l' l HY H]; [discriminate|]. cbn in *. inversion E as [E1]. eexists. split; [reflexivity|]. clear E E1. revert y' y HY. induction H as [|z' z l' l HZ H IH]; intros y' y HY; [exact HY|]. cbn. apply IH. now apply maxS.
Qed.

Section Sweeps.
Variables (sas' : list (list (list B))) (g' : B) (reward' : list B) (sas : list (list (list R))) (g : R) (reward : list R) (rho Bd : R).
Hypothesis SS : Forall2 (Forall2 (Forall2 sim)) sas' sas.
Hypothesis SG : sim g' g.
Hypothesis SR : Forall2 sim reward' reward.
Hypothesis MD : is_mdp sas.
Hypothesis SU : sure sas.
Hypothesis g_rng : 0 < g < 1.
Hypothesis Lr : length reward = n_states sas.
Hypothesis r_small : forall t, (t < n_states sas)%nat -> Rabs (nth t reward 0) <= rho.
Hypothesis room : (rho + g * Bd * (1 + u) + eta) * (1 + u) + eta <= Bd.
Hypothesis B0 : 0 <= Bd.
Hypothesis big : 2 * Bd * (1 + u) + eta <= M.
Lemma B2S : 2 * Bd <= M.
Proof using RD B0 big. assert (U := u0 _ _ _ RD). assert (H0 := e0 _ _ _ RD). assert (0 <= Bd * u) by (now apply Rmult_le_pos). lra. Qed.

Lemma targetS : forall V t r' v', small sas Bd V -> (t < n_states sas)%nat -> sim r' (nth t reward 0) -> sim v' (nth t V 0) -> sim (nadd r' (nmul g' v')) (ro (nth t reward 0 + ro (g * nth t V 0))).
Proof using RD CP SG g_rng r_small room B0 big.
  intros V t r' v' SV Ht SR' SV'. assert (U := u0 _ _ _ RD). assert (H0 := e0 _ _ _ RD). specialize (SV t Ht). pose proof (r_small t Ht) as RS. pose proof B2S as BB.
  set (v := nth t V 0) in *. set (w := nth t reward 0) in *. assert (GV : Rabs (g * v) <= g * Bd) by (rewrite Rabs_mult, (Rabs_pos_eq g) by lra; apply Rmult_le_compat_l; lra).
  assert (GB : g * Bd <= Bd). { assert (g * Bd <= 1 * Bd) by (apply Rmult_le_compat_r; lra). lra. }
  assert (SM : sim (nmul g' v') (ro (g * v))) by (apply (c_mul _ _ _ _ CP); auto; lra). pose proof (rnd_size ro u eta RD (g * v)) as H2. set (x := ro (g * v)) in *.
  assert (XB : Rabs x <= g * Bd * (1 + u) + eta) by (assert ((1 + u) * Rabs (g * v) <= (1 + u) * (g * Bd)) by (apply Rmult_le_compat_l; lra); lra).
  assert (WX : Rabs (w + x) <= rho + g * Bd * (1 + u) + eta) by (eapply Rle_trans; [apply Rabs_triang|]; lra).
  apply (c_add _ _ _ _ CP); auto. assert (0 <= (rho + g * Bd * (1 + u) + eta) * u) by (apply Rmult_le_pos; [|exact U]; eapply Rle_trans; [apply Rabs_pos|exact WX]). lra.
Qed.
Lemma savS : forall s V' V, (s < n_states sas)%nat -> Forall2 sim V' V -> length V = n_states sas -> small sas Bd V ->
  Forall2 sim (@state_action_values B NB s (n_actions sas) sas' reward' g' V') (@state_action_values R (NumF ro) s (n_actions sas) sas reward g V).
Proof using RD CP SS SG SR MD SU g_rng Lr r_small room B0 big.
  intros s V' V Hs HV L SV. unfold state_action_values.
  assert (LC : length (combine reward V) = n_states sas) by (rewrite combine_length; lia).
  assert (ET : Forall2 sim (map (fun '(r, v) => nadd r (nmul g' v)) (combine reward' V')) (map (fun '(r, v) => @nadd R (NumF ro) r (@nmul R (NumF ro) g v)) (combine reward V))).
  { apply (F2_combine_map sim sim); auto. intros r' r v' v HR HV' I. apply (In_nth _ _ (0, 0)) in I. destruct I as (t & Ht & E). rewrite LC in Ht. rewrite combine_nth in E by lia. inversion E. subst r v. cbn [nadd nmul NumF]. now apply targetS. }
  apply F2_map_same. intros a Ha. apply in_seq in Ha.
  assert (IM : In (nth s sas []) sas) by (now apply nth_In). destruct MD as [_ MM]. destruct (MM _ IM) as [LM M2]. assert (IR : In (nth a (nth s sas []) []) (nth s sas [])) by (apply nth_In; rewrite LM; lia).
  destruct (M2 _ IR) as (_ & _ & S1). unfold dot, nsum. cbn [nadd nmul n0 NumF]. apply dotS with Bd; auto.
  - apply B2S.
  - apply F2_nth; [|constructor]. apply (F2_nth (Forall2 (Forall2 sim))); [exact SS|constructor].
  - apply (c_zero _ _ _ _ CP).
  - intros x Hx. exact (SU _ _ _ IM IR Hx).
  - intros x Hx. apply in_map_iff in Hx. destruct Hx as ([r v] & <- & I). apply (In_nth _ _ (0, 0)) in I. destruct I as (t & Ht & E). rewrite LC in Ht. rewrite combine_nth in E by lia. inversion E. subst r v. cbn [nadd nmul NumF]. split; [apply (rd_idem _ _ _ RD)|].
    apply (target_ok ro u eta RD sas g reward (fun t => nth t reward 0) rho 0 Bd g_rng) with (t := t); auto; try lra. intros t' _. rewrite Rminus_diag_eq, Rabs_R0 by reflexivity. lra.
  - apply (rnd0 _ _ _ RD).
  - rewrite Rabs_R0. exact B0.
Qed.
Lemma fav_smallS : forall V s a, small sas Bd V -> (s < n_states sas)%nat -> (a < n_actions sas)%nat -> Rabs (fav ro sas g reward V s a) <= Bd.
Proof using RD MD g_rng Lr r_small room B0.
  intros V s a SV Hs Ha. apply (fav_ok ro u eta RD sas g reward (fun t => nth t reward 0) rho 0 Bd MD g_rng); auto; try lra. intros t' _. rewrite Rminus_diag_eq, Rabs_R0 by reflexivity. lra.
Qed.
Definition triple (acc' : list B * B * list (list B)) (acc : list R * R * list (list R)) : Prop :=
  let '(W', d', q') := acc' in let '(W, d, q) := acc in Forall2 sim W' W /\ sim d' d /\ Forall2 (Forall2 sim) q' q /\ length W = n_states sas /\ small sas Bd W.
Lemma sweepS : forall l acc' acc, (forall s, In s l -> (s < n_states sas)%nat) -> triple acc' acc ->
  exists r' r, foldM (@sweep_state B NB (@hard_backup B NB) reward' g' sas') l acc' = Ok r' /\ foldM (@sweep_state R (NumF ro) (@hard_backup R (NumF ro)) reward g sas) l acc = Ok r /\ triple r' r.
Proof using RD CP SS SG SR MD SU g_rng Lr r_small room B0 big.
  induction l as [|s l IH]; intros [[W' d'] q'] [[W d] q] HL T; [now exists (W', d', q'), (W, d, q)|]. pose proof T as (HW & Hd & Hq & LW & SW). cbn [foldM]. assert (Hs : (s < n_states sas)%nat) by (apply HL; now left).
  set (av := map (fav ro sas g reward W s) (seq 0 (n_actions sas))). assert (Lav : length av = n_actions sas) by (unfold av; now rewrite map_length, seq_length).
  assert (EA : @state_action_values R (NumF ro) s (n_actions sas) sas reward g W = av) by (apply (sav_F ro u eta RD sas g reward MD SU Lr); assumption).
  pose proof (savS s W' W Hs HW LW SW) as SAV. rewrite EA in SAV. set (av' := @state_action_values B NB s (n_actions sas) sas' reward' g' W') in *.
  assert (BO : @hard_backup R (NumF ro) av = Ok (lmax av)) by exact (bk_hard sas MD av Lav). destruct (backupS _ _ _ SAV BO) as (x' & BO' & SX).
  assert (NE : av <> []) by (intros X; rewrite X in Lav; cbn in Lav; pose proof (proj1 MD); lia).
  assert (AB : Rabs (lmax av) <= Bd).
  { destruct (lmax_spec av NE) as [I _]. unfold av in I at 2. apply in_map_iff in I. destruct I as (a & E & Ha). rewrite <- E. apply in_seq in Ha. apply fav_smallS; [exact SW|exact Hs|lia]. }
  assert (E1 : @sweep_state R (NumF ro) (@hard_backup R (NumF ro)) reward g sas (W, d, q) s = Ok (upd W s (lmax av), @delta_update R (NumF ro) d (nth s W 0) (lmax av), upd q s av)).
  { unfold sweep_state. fold (n_actions sas). rewrite EA, BO. reflexivity. }
  assert (NA : length (nth 0 sas' []) = n_actions sas) by (apply (F2_length (Forall2 sim)), F2_nth; [exact SS|constructor]).
  assert (E2 : @sweep_state B NB (@hard_backup B NB) reward' g' sas' (W', d', q') s = Ok (upd W' s x', @delta_update B NB d' (nth s W' n0) x', upd q' s av')).
  { unfold sweep_state. rewrite NA. fold av'. rewrite BO'. reflexivity. }
  rewrite E1, E2. cbn [bind]. apply IH; [intros; apply HL; now right|]. split; [now apply F2_upd|]. split; [|split; [now apply F2_upd|split; [now rewrite upd_length|]]].
  - unfold delta_update. apply maxS; [exact Hd|]. pose proof (SW s Hs) as SS1. pose proof B2S. assert (SO : sim (nth s W' n0) (nth s W 0)) by (apply F2_nth; [exact HW|apply (c_zero _ _ _ _ CP)]). assert (U := u0 _ _ _ RD). assert (H0 := e0 _ _ _ RD).
    assert (X : Rabs (nth s W 0 - lmax av) <= 2 * Bd) by (eapply Rle_trans; [apply (Rabs_triang (nth s W 0) (- lmax av))|]; rewrite Rabs_Ropp; lra).
    assert (SD : sim (nsub (nth s W' n0) x') (ro (nth s W 0 - lmax av))) by (apply (c_sub _ _ _ _ CP); auto; lra).
    unfold nabs. rewrite (c_ltb _ _ _ _ CP _ _ _ _ SD (c_zero _ _ _ _ CP)). cbn [nsub nltb n0 NumF]. destruct (Rltb _ 0); [|exact SD]. apply (c_sub _ _ _ _ CP); [apply (c_zero _ _ _ _ CP)|exact SD|]. unfold Rminus at 1. rewrite Rplus_0_l, Rabs_Ropp. eapply Rle_trans; [apply (rnd_size ro u eta RD)|]. assert ((1 + u) * Rabs (nth s W 0 - lmax av) <= (1 + u) * (2 * Bd)) by (apply Rmult_le_compat_l; lra). lra.
  - intros t Ht. rewrite nth_upd. destruct (t =? s)%nat; [|now apply SW]. destruct (_ <? _)%nat; [exact AB|now apply SW].
Qed.
Definition oq (q' : option (list (list B))) (q : option (list (list R))) : Prop := match q', q with Some a, Some b => Forall2 (Forall2 sim) a b | None, None => True | _, _ => False end.
Lemma loopS : forall k V' V q0' q0 tol' tol, sim tol' tol -> Forall2 sim V' V -> oq q0' q0 -> length V = n_states sas -> small sas Bd V ->
  exists v' q' v q, @vi_loop B NB (@hard_backup B NB) k V' q0' reward' g' sas' tol' = Ok (v', q') /\ @vi_loop R (NumF ro) (@hard_backup R (NumF ro)) k V q0 reward g sas tol = Ok (v, q) /\ Forall2 sim v' v /\ oq q' q.
Proof using RD CP SS SG SR MD SU g_rng Lr r_small room B0 big.
  induction k as [|k IH]; intros V' V q0' q0 tol' tol ST HV HQ LV SV; [exists V', q0', V, q0; auto|]. cbn [vi_loop]. unfold state_value_iterator.
  assert (NA : length (nth 0 sas' []) = length (nth 0 sas [])) by (apply (F2_length (Forall2 sim)), F2_nth; [exact SS|constructor]). pose proof (F2_length _ _ _ SS) as LS.
  destruct (sweepS (seq 0 (length sas')) (V', n0, @zeros2 B NB (length sas') (length (nth 0 sas' []))) (V, 0, @zeros2 R (NumF ro) (length sas) (length (nth 0 sas [])))) as (r' & r & E' & E & T).
  { intros s Hs. apply in_seq in Hs. unfold n_states. lia. }
  { split; [exact HV|]. split; [apply (c_zero _ _ _ _ CP)|]. split; [|split; [exact LV|exact SV]]. rewrite LS, NA. unfold zeros2. apply F2_repeat, F2_repeat. apply (c_zero _ _ _ _ CP). }
  rewrite LS in E. rewrite E'. change (@n0 R (NumF ro)) with 0. rewrite E. destruct r' as [[W' d'] q'], r as [[W d] q]. destruct T as (HW & Hd & Hq & LW & SW). cbn [bind]. rewrite (c_ltb _ _ _ _ CP _ _ _ _ Hd ST). cbn [nltb NumF]. destruct (Rltb d tol); [exists W', (Some q'), W, (Some q); auto|]. now apply IH.
Qed.
End Sweeps.

Theorem solveS : forall sas' rf' features' g' tol' sas rf features g tol w max_iter, Forall2 (Forall2 (Forall2 sim)) sas' sas -> Forall2 sim rf' rf -> Forall2 (Forall2 sim) features' features -> sim g' g -> sim tol' tol ->
  is_mdp sas -> sure sas -> 0 < g -> g * (1 + u) ^ 2 < 1 -> 0 <= w -> (forall t, (t < n_states sas)%nat -> weight_of rf features t <= w) -> 1 <= M -> 2 * largest_value u eta (length rf) w g * (1 + u) + eta <= M ->
  same_result sim (@solve_value_iteration B NB (@hard_backup B NB) rf' features' max_iter g' sas' tol') (@solve_value_iteration R (NumF ro) (@hard_backup R (NumF ro)) rf features max_iter g sas tol).
Proof using RD CP.
  intros sas' rf' features' g' tol' sas rf features g tol w iters HS HRF HF HG HT MD SU G GU W HW M1 MB. assert (U := u0 _ _ _ RD). assert (H0 := e0 _ _ _ RD).
  assert (G1 : g < 1). { assert (1 <= (1 + u) ^ 2) by (apply pow_R1_Rle; lra). assert (g * 1 <= g * (1 + u) ^ 2) by (apply Rmult_le_compat_l; lra). lra. }
  unfold solve_value_iteration. rewrite (c_ltb _ _ _ _ CP _ _ _ _ HG (c_one _ _ _ _ CP)), (c_ltb _ _ _ _ CP _ _ _ _ (c_zero _ _ _ _ CP) HG). cbn [nltb n0 n1 NumF].
  destruct (negb (Rltb g 1 && Rltb 0 g)); [reflexivity|]. pose proof (F2_length _ _ _ HRF) as L1. pose proof (F2_length _ _ _ HF) as L2. pose proof (F2_length _ _ _ HS) as L3. rewrite L1, L2. destruct (Nat.eqb_spec (length rf) (length features)) as [L|]; [|reflexivity]. cbn [negb].
  pose proof (room_ok _ _ _ RD (length rf) w g W G GU) as RM. cbv zeta in RM. destruct RM as [B0 RM]. set (Bd := largest_value u eta (length rf) w g) in *. set (eps := reward_error u eta (length rf) w) in *. clearbody Bd.
  pose proof (reward_error0 _ _ _ RD (length rf) w W) as E0. fold eps in E0. assert (UB : 0 <= Bd * u) by (now apply Rmult_le_pos). assert (GB : 0 <= g * Bd * (1 + u)) by (repeat apply Rmult_le_pos; lra).
  assert (WB : (w + eps) * (1 + u) + eta <= Bd). { assert (0 <= (g * Bd * (1 + u) + eta) * (1 + u)) by (apply Rmult_le_pos; lra). lra. } assert (UE : 0 <= (w + eps) * u) by (apply Rmult_le_pos; lra). assert (UE2 : 0 <= eps * (1 + u)) by (apply Rmult_le_pos; lra).
  rewrite L3. assert (SR : Forall2 sim (@state_rewards B NB (length sas) rf' features') (@state_rewards R (NumF ro) (length sas) rf features)) by (apply (rewardsS (length sas) rf' rf features' features w); auto; fold eps; lra).
  destruct (loopS sas' g' (@state_rewards B NB (length sas) rf' features') sas g (@state_rewards R (NumF ro) (length sas) rf features) (w + eps) Bd HS HG SR MD SU ltac:(lra)) with (k := Z.to_nat iters) (V' := @zeros1 B NB (length sas)) (V := @zeros1 R (NumF ro) (length sas)) (q0' := @None (list (list B))) (q0 := @None (list (list R))) (tol' := tol') (tol := tol) as (v' & q' & v & q & EV' & EV & HV & HQ).
  - unfold state_rewards. now rewrite map_length, seq_length.
  - intros t Ht. pose proof (rewards_F _ _ _ RD (length sas) rf features t L Ht) as NR. specialize (HW t Ht). pose proof (weight_bounds rf features t) as WR.
    assert (RE : reward_error u eta (length rf) (weight_of rf features t) <= eps). { unfold eps, reward_error. assert (1 <= (1 + u) ^ S (length rf)) by (apply pow_R1_Rle; lra). apply Rplus_le_compat_r. apply Rmult_le_compat_l; lra. }
    set (x := nth t _ 0) in *. replace x with ((x - reward_of rf features t) + reward_of rf features t) by ring. eapply Rle_trans; [apply Rabs_triang|]. lra.
  - exact RM.
  - exact B0.
  - exact MB.
  - exact HT.
  - unfold zeros1. apply F2_repeat. apply (c_zero _ _ _ _ CP).
  - exact I.
  - unfold zeros1. apply repeat_length.
  - intros t Ht. unfold zeros1. cbn [n0 NumF]. rewrite nth_repeat, Rabs_R0. exact B0.
  - rewrite EV', EV. cbn [bind]. destruct q' as [q'|], q as [q|]; cbn in HQ; try contradiction; [|reflexivity]. split; [exact HV|]. now apply maskS.
Qed.
End Sim.
