(** C243: value iteration with the numbers of IEEE 754 double precision, bit by bit. *)
From Coq Require Import String List ZArith Reals Bool Lia Lra.
From Flocq Require Import Core BinarySingleNaN.
From Verif Require Import PyBase PyProofs GridModel MDPModel MDPSpec ActionSpec ActionProofs RSum EnvModel EnvSpec VISpec VIModel VIProps RoundModel RoundSpec RoundProofs RoundProps RoundExample OverRound IEEEModel SimRound SimMDP.
Import ListNotations.
Local Open Scope R_scope.

(** The real number a float64 stands for; infinities and NaN stand for none, and are given 0. *)
Definition val (b : b64) : R := B2R b.
Definition finite (b : b64) : Prop := is_finite b = true.
Definition fval_of (b : fval b64) : fval R := match b with Fin x => Fin (val x) | NInf => NInf | PInf => PInf | NaN => NaN end.
Definition finite_if_known (b : fval b64) : Prop := match b with Fin x => finite x | _ => True end.

(** [b] is finite and stands for [x]. *)
Definition stands (b : b64) (x : R) : Prop := finite b /\ val b = x.

Lemma round_fits : forall x, Rabs x <= 2 ^ 1023 -> Rlt_bool (Rabs (float64 x)) (bpow radix2 1024) = true.
Proof.
  intros x H. apply Rlt_bool_true. assert (E : bpow radix2 1023 = 2 ^ 1023) by (rewrite bpow_powerRZ; change 1023%Z with (Z.of_nat 1023); symmetry; apply pow_powerRZ).
  apply Rle_lt_trans with (bpow radix2 1023); [|apply bpow_lt; reflexivity]. unfold float64. apply abs_round_le_generic; [typeclasses eauto|typeclasses eauto| |rewrite E; exact H]. apply generic_format_bpow. cbv. discriminate.
Qed.
Lemma fexp_64 : SpecFloat.fexp 53 1024 = FLT_exp (-1074) 53.
Proof. reflexivity. Qed.
(** The operations of IEEE 754 are those of rounded real numbers, as long as the results are not larger than 2^1023. *)
Theorem ieee_computes : computes NumB stands float64 (2 ^ 1023).
Proof.
  split; cbn [nadd nsub nmul nltb neqb n0 n1 NumB].
  - split; reflexivity.
  - split; [apply is_finite_Bone|apply Bone_correct].
  - intros b x c y [FB <-] [FC <-] H. pose proof (Bplus_correct 53 1024 _ _ mode_NE b c FB FC) as K. change (round radix2 (SpecFloat.fexp 53 1024) (round_mode mode_NE) (B2R b + B2R c)) with (float64 (B2R b + B2R c)) in K. rewrite round_fits in K by exact H. destruct K as (K1 & K2 & _). split; [exact K2|exact K1].
  - intros b x c y [FB <-] [FC <-] H. pose proof (Bminus_correct 53 1024 _ _ mode_NE b c FB FC) as K. change (round radix2 (SpecFloat.fexp 53 1024) (round_mode mode_NE) (B2R b - B2R c)) with (float64 (B2R b - B2R c)) in K. rewrite round_fits in K by exact H. destruct K as (K1 & K2 & _). split; [exact K2|exact K1].
  - intros b x c y [FB <-] [FC <-] H. pose proof (Bmult_correct 53 1024 _ _ mode_NE b c) as K. change (round radix2 (SpecFloat.fexp 53 1024) (round_mode mode_NE) (B2R b * B2R c)) with (float64 (B2R b * B2R c)) in K. rewrite round_fits in K by exact H. destruct K as (K1 & K2 & _). split; [|exact K1]. unfold finite. rewrite K2. unfold finite in *. now rewrite FB, FC.
  - intros b x c y [FB <-] [FC <-]. rewrite (Bltb_correct _ _ _ _ FB FC). unfold Rltb, val. destruct (Rlt_dec (B2R b) (B2R c)) as [L|L]; [now apply Rlt_bool_true|apply Rlt_bool_false; lra].
  - intros b x c y [FB <-] [FC <-]. rewrite (Beqb_correct _ _ _ _ FB FC). unfold Reqb, val. destruct (Req_EM_T (B2R b) (B2R c)) as [L|L]; [now apply Req_bool_true|now apply Req_bool_false].
Qed.

Lemma stands_map : forall l, Forall finite l -> Forall2 stands l (map val l).
Proof. induction 1; cbn; constructor; [split; auto|assumption]. Qed.
Lemma stands_map2 : forall l, Forall (Forall finite) l -> Forall2 (Forall2 stands) l (map (map val) l).
Proof. induction 1; cbn; constructor; [now apply stands_map|assumption]. Qed.
Lemma stands_map3 : forall l, Forall (Forall (Forall finite)) l -> Forall2 (Forall2 (Forall2 stands)) l (map (map (map val)) l).
Proof. induction 1; cbn; constructor; [now apply stands_map2|assumption]. Qed.
Lemma map_stands : forall l l', Forall2 stands l l' -> Forall finite l /\ l' = map val l.
Proof. induction 1 as [|b x l l' [F <-] _ [IH ->]]; [split; [constructor|reflexivity]|]. split; [now constructor|reflexivity]. Qed.
Lemma map_stands2 : forall l l', Forall2 (Forall2 stands) l l' -> Forall (Forall finite) l /\ l' = map (map val) l.
Proof. induction 1 as [|b x l l' H _ [IH ->]]; [split; [constructor|reflexivity]|]. destruct (map_stands _ _ H) as [F ->]. split; [now constructor|reflexivity]. Qed.
Lemma map_stands3 : forall l l', Forall2 (Forall2 (Forall2 stands)) l l' -> Forall (Forall (Forall finite)) l /\ l' = map (map (map val)) l.
Proof. induction 1 as [|b x l l' H _ [IH ->]]; [split; [constructor|reflexivity]|]. destruct (map_stands2 _ _ H) as [F ->]. split; [now constructor|reflexivity]. Qed.
Lemma map_fstands : forall l l', Forall2 (fsim stands) l l' -> Forall finite_if_known l /\ l' = map fval_of l.
Proof. induction 1 as [|b x l l' F _ [IH ->]]; [split; [constructor|reflexivity]|]. destruct b, x; cbn in F; try contradiction; (split; [constructor; [|exact IH]; cbn; try exact I; apply F|cbn; f_equal]). f_equal. symmetry. apply F. Qed.
Lemma map_fstands2 : forall l l', Forall2 (Forall2 (fsim stands)) l l' -> Forall (Forall finite_if_known) l /\ l' = map (map fval_of) l.
Proof. induction 1 as [|b x l l' H _ [IH ->]]; [split; [constructor|reflexivity]|]. destruct (map_fstands _ _ H) as [F ->]. split; [now constructor|reflexivity]. Qed.

(** The numbers given to the solver. *)
Record inputs (rf : list b64) (features : list (list b64)) (g : b64) (sas : list (list (list b64))) (tol : b64) : Prop := {
  in_rf : Forall finite rf;
  in_features : Forall (Forall finite) features;
  in_g : finite g;
  in_sas : Forall (Forall (Forall finite)) sas;
  in_tol : finite tol }.

(** C243. With finite numbers, certain transitions and weights that leave room below 2^1023, value iteration in double precision raises the error it would raise with rounded real numbers, or
    all the values and action values it gives are finite (or minus infinity for impossible actions) and are those of rounded real numbers. *)
Theorem C243_same : forall rf features g sas tol max_iter w, inputs rf features g sas tol -> is_mdp (map (map (map val)) sas) -> sure (map (map (map val)) sas) ->
  0 < val g -> val g * (1 + u64) ^ 2 < 1 -> 0 <= w -> (forall t, (t < length sas)%nat -> weight_of (map val rf) (map (map val) features) t <= w) ->
  2 * largest_value u64 eta64 (length rf) w (val g) * (1 + u64) + eta64 <= 2 ^ 1023 ->
  let exact := @solve_value_iteration R (NumF float64) (@hard_backup R (NumF float64)) (map val rf) (map (map val) features) max_iter (val g) (map (map (map val)) sas) (val tol) in
  match @solve_value_iteration b64 NumB (@hard_backup b64 NumB) rf features max_iter g sas tol with
  | Ok (v, q) => Forall finite v /\ Forall (Forall finite_if_known) q /\ exact = Ok (map val v, map (map fval_of) q)
  | Err x => exact = Err x
  end.
Proof.
  intros rf features g sas tol k w [I1 I2 I3 I4 I5] MD SU G GU W HW MB. cbv zeta.
  assert (K := solveS NumB stands float64 u64 eta64 (2 ^ 1023) C206_float64 ieee_computes sas rf features g tol (map (map (map val)) sas) (map val rf) (map (map val) features) (val g) (val tol) w k
    (stands_map3 _ I4) (stands_map _ I1) (stands_map2 _ I2) (conj I3 eq_refl) (conj I5 eq_refl) MD SU G GU W).
  unfold n_states in K. rewrite !map_length in K. specialize (K HW ltac:(apply pow_R1_Rle; lra) MB). unfold same_result in K.
  destruct (solve_value_iteration _ rf features k g sas tol) as [[v q]|x]; destruct (solve_value_iteration _ (map val rf) _ _ _ _ _) as [[v' q']|y]; try contradiction; [|now rewrite K].
  destruct K as [KV KQ]. destruct (map_stands _ _ KV) as [FV ->]. destruct (map_fstands2 _ _ KQ) as [FQ ->]. auto.
Qed.
(** With the default discount, up to 1000 features and weights of up to 1e300. *)
Theorem C243_large : forall rf features g sas tol max_iter, inputs rf features g sas tol -> val g = g64 -> is_mdp (map (map (map val)) sas) -> sure (map (map (map val)) sas) ->
  (length rf <= 1000)%nat -> (forall t, (t < length sas)%nat -> weight_of (map val rf) (map (map val) features) t <= 10 ^ 300) ->
  let exact := @solve_value_iteration R (NumF float64) (@hard_backup R (NumF float64)) (map val rf) (map (map val) features) max_iter g64 (map (map (map val)) sas) (val tol) in
  match @solve_value_iteration b64 NumB (@hard_backup b64 NumB) rf features max_iter g sas tol with
  | Ok (v, q) => Forall finite v /\ Forall (Forall finite_if_known) q /\ exact = Ok (map val v, map (map fval_of) q)
  | Err x => exact = Err x
  end.
Proof.
  intros rf features g sas tol k I E MD SU L HW. destruct (sizes64 _ L) as [GU MB]. destruct (default_numbers _ L) as (GB & _). apply Rabs_le_inv in GB. rewrite <- E. apply C243_same with (10 ^ 300); auto; rewrite ?E; auto; [lra|apply pow_le; lra].
Qed.
(** With the default settings all values found are finite and within 1e-7 of the exact solution. *)
Definition accurate64 (sas : list (list (list R))) (rewards : nat -> R) (Vs : nat -> R) (v : list b64) (q : list (list (fval b64))) : Prop :=
  length v = n_states sas /\ Forall finite v /\ (forall s, (s < n_states sas)%nat -> Rabs (val (nth s v (B754_zero false)) - Vs s) <= / 10 ^ 7) /\
  (forall s a, (s < n_states sas)%nat -> (a < n_actions sas)%nat ->
    (~ possible sas s a -> nth a (nth s q []) NaN = NInf) /\
    (possible sas s a -> exists b, nth a (nth s q []) NaN = Fin b /\ finite b /\ Rabs (val b - action_value sas rewards g64 Vs s a) <= / 10 ^ 7)).
Theorem C243_defaults : forall rf features g sas tol Vs, inputs rf features g sas tol -> val g = g64 -> val tol = tol64 -> let msas := map (map (map val)) sas in is_mdp msas -> sure msas ->
  length rf = length features -> (length rf <= 1000)%nat -> (forall t, (t < length sas)%nat -> weight_of (map val rf) (map (map val) features) t <= 1000) ->
  optimal msas (reward_of (map val rf) (map (map val) features)) g64 Vs ->
  exists v q, @solve_value_iteration b64 NumB (@hard_backup b64 NumB) rf features 500 g sas tol = Ok (v, q) /\ accurate64 msas (reward_of (map val rf) (map (map val) features)) Vs v q.
Proof.
  intros rf features g sas tol Vs I EG ET msas MD SU LF L HW O. assert (NS : n_states msas = length sas) by (unfold n_states, msas; now rewrite map_length).
  destruct (C206_defaults msas (map val rf) (map (map val) features) Vs MD SU) as (v0 & q0 & E & H1 & H2); [now rewrite !map_length|now rewrite map_length|now rewrite NS|exact O|].
  destruct (default_numbers (length rf) L) as (GB & RT & GU & _). apply Rabs_le_inv in GB.
  assert (N : near (n_states msas) (1000 / (1 - g64)) (fun _ => 0) Vs) by (apply (C206_solution_bounded msas (map val rf) (map (map val) features)); auto; [lra|now rewrite NS]).
  destruct (C206_solver _ _ _ C206_float64 msas (map val rf) (map (map val) features) 499 g64 tol64 1000 Vs (1000 / (1 - g64))) as (v1 & q1 & E1 & LV & _); auto; try lra; [now rewrite !map_length|now rewrite NS|apply Rmult_le_pos; [lra|left; apply Rinv_0_lt_compat; lra]|].
  change (Z.of_nat 500) with 500%Z in E1. rewrite E in E1. inversion E1. subst v1 q1. clear E1.
  assert (K := C243_large rf features g sas tol 500 I EG MD SU L). cbv zeta in K. rewrite ET in K. fold msas in K. rewrite E in K.
  destruct (@solve_value_iteration b64 NumB (@hard_backup b64 NumB) rf features 500 g sas tol) as [[v q]|x]; [|exfalso]; specialize (K ltac:(intros t Ht; eapply Rle_trans; [now apply HW|]; apply Rle_trans with (10 ^ 3); [lra|]; apply Rle_pow; [lra|lia])); [|discriminate].
  destruct K as (FV & FQ & EQ). inversion EQ. subst v0 q0. exists v, q. split; [reflexivity|]. rewrite map_length in LV. split; [exact LV|]. split; [exact FV|]. split.
  - intros s Hs. specialize (H1 s Hs). change 0 with (val (B754_zero false)) in H1. now rewrite map_nth in H1.
  - intros s a Hs Ha. destruct (H2 s a Hs Ha) as [Q1 Q2]. assert (NQ : nth a (nth s (map (map fval_of) q) []) NaN = fval_of (nth a (nth s q []) NaN)).
    { change (@nil (fval R)) with (map fval_of []). change (@NaN R) with (fval_of NaN). now rewrite map_nth, map_nth. }
    rewrite NQ in *. assert (FK : finite_if_known (nth a (nth s q []) NaN)). { assert (Forall finite_if_known (nth s q [])). { destruct (nth_in_or_default s q []) as [J| ->]; [|constructor]. rewrite Forall_forall in FQ. now apply FQ. } destruct (nth_in_or_default a (nth s q []) NaN) as [J| ->]; [|exact Logic.I]. rewrite Forall_forall in H. now apply H. }
    split.
    + intros P. specialize (Q1 P). destruct (nth a (nth s q []) NaN); try discriminate. reflexivity.
    + intros P. destruct (Q2 P) as (x & EX & B). destruct (nth a (nth s q []) NaN) as [| | |b]; try discriminate. cbn in EX. inversion EX. subst x. exists b. auto.
Qed.

(** Grids made with float64 numbers are the grids made with the real numbers these stand for. *)
Theorem C243_grids : forall k feats walls shape st, Forall (Forall finite) feats -> match walls with Some w => Forall finite w | None => True end ->
  rsim (msim stands) (@grid_mdp b64 NumB k feats walls shape st) (@grid_mdp R NumR k (map (map val) feats) (option_map (map val) walls) shape st).
Proof. intros k feats walls shape st F W. apply (grid_mdpS NumB stands float64 (2 ^ 1023) ieee_computes); [now apply stands_map2|]. destruct walls; cbn; [now apply stands_map|exact I]. Qed.
(** And so they stay when walls are set, added or removed. *)
Theorem C243_walls : forall m' m, msim stands m' m ->
  (forall w, Forall finite w -> rsim (msim stands) (@set_walls b64 NumB m' w) (@set_walls R NumR m (map val w))) /\
  (forall x y, rsim (msim stands) (@add_wall_xy b64 NumB m' x y) (@add_wall_xy R NumR m x y)) /\
  rsim (msim stands) (@reset_walls b64 NumB m') (@reset_walls R NumR m).
Proof.
  intros m' m H. split; [|split].
  - intros w F. apply (set_wallsS NumB stands float64 (2 ^ 1023) ieee_computes); [exact H|now apply stands_map].
  - intros x y. apply (add_wallS NumB stands float64 (2 ^ 1023) ieee_computes). exact H.
  - apply (reset_wallsS NumB stands float64 (2 ^ 1023) ieee_computes); [apply pow_le; lra|apply (rnd0 _ _ _ C206_float64)|exact H].
Qed.
(** What an agent that plans in double precision finds on such a grid, with the default settings. *)
Theorem C243_fit : forall pl m' m rf g tol Vs, usable pl m -> msim stands m' m -> Forall finite rf -> stands g g64 -> stands tol tol64 -> length rf = length (m_features m) -> (length rf <= 1000)%nat ->
  (forall t, (t < n_states (m_sas m))%nat -> weight_of (map val rf) (m_features m) t <= 1000) -> optimal (m_sas m) (reward_of (map val rf) (m_features m)) g64 Vs ->
  exists v q, @vi_fit b64 NumB g tol 500 m' rf = Ok (map Fin v, q) /\ accurate64 (m_sas m) (reward_of (map val rf) (m_features m)) Vs v q.
Proof.
  intros pl m' m rf g tol Vs US MS FR [FG EG] [FT ET] LF L HW O. destruct (C206_grids pl m US) as [MD SU]. destruct (map_stands3 _ _ (ms_sas _ _ _ MS)) as [F3 E3]. destruct (map_stands2 _ _ (ms_f _ _ _ MS)) as [F2 E2].
  rewrite E3 in *. rewrite E2 in *. rewrite map_length in LF. assert (NS : n_states (map (map (map val)) (m_sas m')) = length (m_sas m')) by (unfold n_states; now rewrite map_length). rewrite NS in HW.
  destruct (C243_defaults rf (m_features m') g (m_sas m') tol Vs) as (v & q & E & A); auto; [split; assumption|]. exists v, q. split; [|exact A]. unfold vi_fit. now rewrite E.
Qed.

(** The default settings as float64: 9/10 and 1e-8, computed by IEEE 754's division. *)
Definition nine_tenths : b64 := @ndiv b64 NumB (@nofZ b64 NumB 9) (@nofZ b64 NumB 10).
Definition tolerance : b64 := @ndiv b64 NumB (@n1 b64 NumB) (@nofZ b64 NumB (10 ^ 8)).
Lemma whole : forall z, (Z.abs z < 2 ^ 53)%Z -> stands (@nofZ b64 NumB z) (IZR z).
Proof.
  intros z Hz. cbn [nofZ NumB]. pose proof (binary_normalize_correct 53 1024 _ _ mode_NE z 0 false) as K. cbv zeta in K. assert (FE : F2R (Float radix2 z 0) = IZR z) by (unfold F2R; cbn; ring). rewrite FE in K.
  assert (ER : round radix2 (SpecFloat.fexp 53 1024) (round_mode mode_NE) (IZR z) = IZR z).
  { apply round_generic; [apply valid_rnd_N|]. rewrite <- FE. apply generic_format_FLT. exists (Float radix2 z 0); [reflexivity|cbn; lia|cbn; lia]. }
  rewrite ER in K. rewrite Rlt_bool_true in K.
  - destruct K as (K1 & K2 & _). split; [exact K2|exact K1].
  - rewrite <- abs_IZR. apply Rle_lt_trans with (IZR (2 ^ 53)); [apply IZR_le; lia|]. change (IZR (2 ^ 53)) with (bpow radix2 53). apply bpow_lt. reflexivity.
Qed.
Lemma quotient : forall b x c y, stands b x -> stands c y -> y <> 0 -> Rabs (x / y) <= 2 ^ 1023 -> stands (@ndiv b64 NumB b c) (float64 (x / y)).
Proof.
  intros b x c y [FB <-] [FC <-] NZ H. cbn [ndiv NumB]. pose proof (Bdiv_correct 53 1024 _ _ mode_NE b c NZ) as K. change (round radix2 (SpecFloat.fexp 53 1024) (round_mode mode_NE) (B2R b / B2R c)) with (float64 (B2R b / B2R c)) in K. rewrite round_fits in K by exact H. destruct K as (K1 & K2 & _). split; [|exact K1]. unfold finite in *. now rewrite K2.
Qed.
Theorem C243_settings : stands nine_tenths g64 /\ stands tolerance tol64.
Proof.
  assert (P : 1 <= 2 ^ 1023) by (apply pow_R1_Rle; lra). split.
  - apply (quotient _ 9 _ 10); [apply (whole 9); lia|apply (whole 10); lia|lra|]. rewrite Rabs_pos_eq by lra. lra.
  - unfold tol64. replace (/ 10 ^ 8) with (1 / 100000000) by lra. apply (quotient _ 1 _ 100000000); [apply (c_one _ _ _ _ ieee_computes)|apply (whole 100000000); lia|lra|]. rewrite Rabs_pos_eq by lra. lra.
Qed.
