(** Properties C142 and C143: multiplying the rewards. *)
From Coq Require Import String List ZArith QArith Reals Bool Lia Lra.
From Verif Require Import PyBase PyProofs GridModel GridSpec MDPModel MDPProps ActionModel ActionSpec ActionProofs SoftmaxModel RSum EnvModel ActionProps EnvProps StepProps QueryModel VIModel VISpec VIProofs VIProofs2 VIProps VIEnvProps.
Import ListNotations.
Local Close Scope Q_scope.
Local Open Scope R_scope.

(** Numbers, and the infinities and NaN that mark impossible actions, times [c]. *)
Definition scaled (c : R) : list R -> list R := map (Rmult c).
Definition scaled_q (c : R) : list (list (fval R)) -> list (list (fval R)) :=
  map (map (fun x => match x with Fin a => Fin (c * a) | y => y end)).
(** The same outcome, with values and Q values times [c]. *)
Definition scaled_outcome (c : R) (x y : res (list R * list (list (fval R)))) : Prop :=
  match x, y with
  | Ok (v, q), Ok (v', q') => v' = scaled c v /\ q' = scaled_q c q
  | Err ex, Err ex' => ex' = ex
  | _, _ => False
  end.

Lemma map_repeat_ : forall {X Y} (f : X -> Y) x n, map f (repeat x n) = repeat (f x) n.
Proof. intros X Y f x n. induction n as [|n IH]; [reflexivity|]. cbn. now rewrite IH. Qed.
Section Scale.
Variable c : R.
Hypothesis c_pos : 0 < c.
Notation sc := (scaled c).

Lemma sc_nth : forall l t, nth t (sc l) 0 = c * nth t l 0.
Proof using. intros l t. unfold scaled. rewrite <- (Rmult_0_r c) at 1. now rewrite map_nth. Qed.
Lemma nsum_sc : forall l, nsum (sc l) = c * nsum l.
Proof using. intros l. rewrite !nsum_Rsum. unfold scaled. induction l as [|x l IH]; cbn [map Rsum fold_right]; [unfold Rsum; cbn; lra|]. unfold Rsum in *. cbn in *. rewrite IH. lra. Qed.
Lemma dot_sc : forall u v, dot u (sc v) = c * dot u v.
Proof using.
  intros u v. unfold dot. rewrite <- nsum_sc. f_equal. unfold scaled. revert v. induction u as [|x u IH]; intros [|y v]; try reflexivity. cbn. f_equal; [lra|apply IH].
Qed.
Lemma sav_sc : forall s nA sas reward g values, state_action_values s nA sas (sc reward) g (sc values) = sc (state_action_values s nA sas reward g values).
Proof using.
  intros s nA sas reward g values. unfold state_action_values, scaled. rewrite map_map. apply map_ext. intros a. rewrite <- dot_sc. f_equal. unfold scaled. rewrite map_map.
  revert values. induction reward as [|x l IH]; intros [|y v]; try reflexivity. cbn. f_equal; [lra|apply IH].
Qed.
Lemma nltb_sc : forall x y, nltb (c * x) (c * y) = nltb x y.
Proof using c_pos. intros x y. cbn [nltb NumR]. unfold Rltb. destruct (Rlt_dec (c * x) (c * y)), (Rlt_dec x y); try reflexivity; exfalso; nra. Qed.
Lemma neqb_sc : forall x y, neqb (c * x) (c * y) = neqb x y.
Proof using c_pos. intros x y. cbn [neqb NumR]. unfold Reqb. destruct (Req_EM_T (c * x) (c * y)), (Req_EM_T x y); try reflexivity; exfalso; nra. Qed.
Lemma nmax_sc : forall x y, nmax (c * x) (c * y) = c * nmax x y.
Proof using c_pos. intros x y. unfold nmax. rewrite nltb_sc. now destruct (nltb x y). Qed.
Lemma nabs_sc : forall x, nabs (c * x) = c * nabs x.
Proof using c_pos. intros x. unfold nabs. replace n0 with (c * 0) at 1 by (cbn; lra). rewrite nltb_sc. change (@n0 R NumR) with 0. destruct (nltb x 0); cbn; lra. Qed.
Lemma hard_sc : forall l, hard_backup (sc l) = match hard_backup l with Ok x => Ok (c * x) | Err ex => Err ex end.
Proof using c_pos.
  intros [|x l]; [reflexivity|]. unfold scaled. cbn [hard_backup map]. f_equal. revert x. induction l as [|y l IH]; intros x; [reflexivity|]. cbn [map fold_left].
  rewrite <- IH. f_equal. apply nmax_sc.
Qed.
Lemma upd_sc : forall l s x, upd (sc l) s (c * x) = sc (upd l s x).
Proof using. unfold scaled. induction l as [|y l IH]; intros [|s] x; try reflexivity. cbn. f_equal. apply IH. Qed.
Lemma upd_map : forall (q : list (list R)) s row, upd (map sc q) s (sc row) = map sc (upd q s row).
Proof using. induction q as [|y l IH]; intros [|s] x; try reflexivity. cbn. f_equal. apply IH. Qed.

Definition sc3 (x : list R * R * list (list R)) := let '(v, d, q) := x in (sc v, c * d, map sc q).
Lemma sweep_sc : forall reward g sas acc s, sweep_state hard_backup (sc reward) g sas (sc3 acc) s =
  match sweep_state hard_backup reward g sas acc s with Ok x => Ok (sc3 x) | Err ex => Err ex end.
Proof using c_pos.
  intros reward g sas [[v d] q] s. unfold sweep_state, sc3. rewrite sav_sc, hard_sc. destruct (hard_backup _) as [x|ex]; cbn [bind]; [|reflexivity].
  rewrite upd_sc, upd_map. change (@n0 R NumR) with 0. rewrite sc_nth. unfold delta_update. do 3 f_equal. rewrite <- nmax_sc, <- nabs_sc. cbn [nsub NumR]. f_equal. f_equal. lra.
Qed.
Lemma iterator_sc : forall v reward g sas d, state_value_iterator hard_backup (sc v) (c * d) (sc reward) g sas =
  match state_value_iterator hard_backup v d reward g sas with Ok x => Ok (sc3 x) | Err ex => Err ex end.
Proof using c_pos.
  intros v reward g sas d. unfold state_value_iterator.
  replace (sc v, c * d, zeros2 (A:=R) (length sas) (length (nth 0 sas []))) with (sc3 (v, d, zeros2 (A:=R) (length sas) (length (nth 0 sas [])))).
  2:{ unfold sc3. f_equal. unfold zeros2. rewrite map_repeat_. unfold scaled. rewrite map_repeat_. f_equal. f_equal. cbn. lra. }
  generalize (v, d, zeros2 (A:=R) (length sas) (length (nth 0 sas []))). generalize (seq 0 (length sas)). induction l as [|s l IH]; intros acc; [reflexivity|]. cbn [foldM].
  rewrite sweep_sc. destruct (sweep_state _ _ _ _ acc s); cbn [bind]; [apply IH|reflexivity].
Qed.
Lemma loop_sc : forall k v q reward g sas tol, vi_loop hard_backup k (sc v) (option_map (map sc) q) (sc reward) g sas (c * tol) =
  match vi_loop hard_backup k v q reward g sas tol with Ok (v', q') => Ok (sc v', option_map (map sc) q') | Err ex => Err ex end.
Proof using c_pos.
  induction k as [|k IH]; intros v q reward g sas tol; [reflexivity|]. cbn [vi_loop]. change (@n0 R NumR) with 0. replace 0 with (c * 0) at 1 by lra. rewrite iterator_sc.
  destruct (state_value_iterator hard_backup v 0 reward g sas) as [[[v' d] q']|ex]; cbn [bind sc3]; [|reflexivity]. rewrite nltb_sc. destruct (nltb d tol); [reflexivity|]. apply (IH v' (Some q')).
Qed.
Lemma mask_sc : forall sas q, mask_q sas (map sc q) = scaled_q c (mask_q sas q).
Proof using.
  unfold mask_q, scaled_q. induction sas as [|mat sas IH]; intros [|row q]; try reflexivity. cbn [map combine]. f_equal; [|apply IH].
  unfold scaled. revert row. induction mat as [|tr mat IHm]; intros [|x row]; try reflexivity. cbn [map combine]. f_equal; [|apply IHm]. now destruct (neqb (nsum tr) n0).
Qed.
Lemma rewards_sc : forall n rf ft, state_rewards n (sc rf) ft = sc (state_rewards n rf ft).
Proof using.
  intros n rf ft. unfold state_rewards. unfold scaled at 2. rewrite map_map. apply map_ext. intros s. rewrite <- nsum_sc. f_equal. unfold scaled. rewrite map_map.
  revert ft. induction rf as [|w rf IH]; intros [|row ft]; try reflexivity. cbn. f_equal; [lra|apply IH].
Qed.

(** Multiplying rewards and tolerance by [c] multiplies values and Q values by [c], whatever the number of sweeps. *)
Theorem C142_scaling : forall rf ft k g sas tol,
  scaled_outcome c (solve_value_iteration hard_backup rf ft k g sas tol) (solve_value_iteration hard_backup (scaled c rf) ft k g sas (c * tol)).
Proof using c_pos.
  intros rf ft k g sas tol. unfold solve_value_iteration. destruct (negb (nltb g n1 && nltb n0 g)); [reflexivity|]. unfold scaled at 1. rewrite map_length. destruct (negb _); [reflexivity|].
  cbv zeta. rewrite rewards_sc. pose proof (loop_sc (Z.to_nat k) (zeros1 (length sas)) None (state_rewards (length sas) rf ft) g sas tol) as L. cbn [option_map] in L.
  replace (sc (zeros1 (length sas))) with (@zeros1 R NumR (length sas)) in L by (unfold zeros1, scaled; rewrite map_repeat_; f_equal; cbn; lra). rewrite L.
  destruct (vi_loop hard_backup _ _ _ _ _ _ tol) as [[v [q|]]|ex]; cbn [bind option_map]; [|reflexivity|reflexivity]. split; [reflexivity|apply mask_sc].
Qed.

(** The choice of actions is the same. *)
Let sf (x : fval R) : fval R := match x with Fin a => Fin (c * a) | y => y end.
Lemma feqb_sf : forall x y, feqb (sf x) (sf y) = feqb x y.
Proof using c_pos. intros [| | |x] [| | |y]; try reflexivity. apply neqb_sc. Qed.
Lemma fltb_sf : forall x y, fltb (sf x) (sf y) = fltb x y.
Proof using c_pos. intros [| | |x] [| | |y]; try reflexivity. apply nltb_sc. Qed.
Lemma max_sf : forall l, max_actions (map sf l) = max_actions l.
Proof using c_pos.
  intros l. unfold max_actions. assert (F : fmax_list (map sf l) = match fmax_list l with Ok x => Ok (sf x) | Err ex => Err ex end).
  { destruct l as [|x l]; [reflexivity|]. cbn [map fmax_list]. f_equal. revert x. induction l as [|y l IH]; intros x; [reflexivity|]. cbn [map fold_left]. rewrite fltb_sf, <- IH. now destruct (fltb x y). }
  rewrite F. destruct (fmax_list l) as [mx|ex]; [|reflexivity]. cbn [bind]. f_equal. unfold where_. clear F. generalize 0%nat. induction l as [|y l IH]; intros i; [reflexivity|]. cbn. rewrite feqb_sf, IH. reflexivity.
Qed.
Lemma clean_sf : forall q, ActionModel.clean (scaled_q c q) = scaled_q c (ActionModel.clean q).
Proof using. intros q. unfold ActionModel.clean, scaled_q. rewrite !map_map. apply map_ext. intros row. rewrite !map_map. apply map_ext. now intros [| | |x]. Qed.
Lemma check_sf : forall q, check_q_values (scaled_q c q) = check_q_values q.
Proof using.
  intros q. unfold check_q_values, scaled_q. replace (forallb (forallb isnan) (map _ q)) with (forallb (forallb isnan) q); [reflexivity|].
  induction q as [|row q IH]; [reflexivity|]. cbn [map forallb]. f_equal; [|exact IH]. clear IH. induction row as [|x row IH]; [reflexivity|]. cbn [map forallb]. rewrite IH. now destruct x.
Qed.
Lemma nan_sf : forall row, nan_state (map sf row) = nan_state row.
Proof using.
  intros row. unfold nan_state. assert (H : forallb isnan (map sf row) = forallb isnan row /\ existsb ispinf (map sf row) = existsb ispinf row /\ existsb isninf (map sf row) = existsb isninf row).
  { induction row as [|x row (H1 & H2 & H3)]; [auto|]. cbn [map forallb existsb]. rewrite H1, H2, H3. now destruct x. }
  destruct H as (-> & -> & ->). reflexivity.
Qed.
Lemma get_pi_sf : forall sel sel' q, sel' (scaled_q c (ActionModel.clean q)) = sel (ActionModel.clean q) -> get_pi sel' (scaled_q c q) = get_pi sel q.
Proof using.
  intros sel sel' q H. unfold get_pi. rewrite check_sf. destruct (check_q_values q); [|reflexivity]. cbn [bind]. rewrite clean_sf, H. destruct (sel (ActionModel.clean q)) as [pi|]; [|reflexivity]. cbn [bind].
  replace (length (scaled_q c q)) with (length q) by (unfold scaled_q; now rewrite map_length). destruct (negb _); [reflexivity|]. f_equal. clear H. unfold scaled_q. revert pi.
  induction q as [|row q IH]; intros [|p pi]; try reflexivity. cbn [map combine]. f_equal; [|apply IH]. change (map (fun x => match x with Fin a => Fin (c * a) | y => y end) row) with (map sf row). now rewrite nan_sf.
Qed.
Lemma get_pi_p_sf : forall sel sel' q, sel' (scaled_q c (ActionModel.clean q)) = sel (ActionModel.clean q) -> get_pi_p sel' (scaled_q c q) = get_pi_p sel q.
Proof using.
  intros sel sel' q H. unfold get_pi_p. rewrite check_sf. destruct (check_q_values q); [|reflexivity]. cbn [bind]. rewrite clean_sf, H. destruct (sel (ActionModel.clean q)) as [pi|]; [|reflexivity]. cbn [bind].
  replace (length (scaled_q c q)) with (length q) by (unfold scaled_q; now rewrite map_length). destruct (negb _); [reflexivity|]. cbv zeta. clear H.
  assert (E : map (fun '(row, prow) => if nan_state row then map (fun _ => NaN) prow else prow) (combine (scaled_q c q) pi) = map (fun '(row, prow) => if nan_state row then map (fun _ => NaN) prow else prow) (combine q pi)).
  { unfold scaled_q. revert pi. induction q as [|row q IH]; intros [|p pi]; try reflexivity. cbn [map combine]. f_equal; [|apply IH]. change (map (fun x => match x with Fin a => Fin (c * a) | y => y end) row) with (map sf row). now rewrite nan_sf. }
  rewrite E. set (p' := map _ (combine q pi)). clearbody p'. clear E pi.
  replace (forallb (fun '(row, prow) => (length row =? length prow)%nat) (combine (scaled_q c q) p')) with (forallb (fun '(row, prow) => (length row =? length prow)%nat) (combine q p')); [reflexivity|].
  unfold scaled_q. revert p'. induction q as [|row q IH]; intros [|p pi]; try reflexivity. cbn [map combine forallb]. rewrite map_length. f_equal. apply IH.
Qed.
Lemma softmax_sf : forall temp row, 0 < temp -> softmax (map sf row) (c * temp) = softmax row temp.
Proof using c_pos.
  intros temp row T. unfold softmax. assert (H : forallb isninf (map sf row) = forallb isninf row). { induction row as [|x row IH]; [reflexivity|]. cbn [map forallb]. rewrite IH. now destruct x. }
  rewrite H. destruct (forallb isninf row); [rewrite map_map, map_length; reflexivity|].
  assert (F : fmax_list (map sf row) = match fmax_list row with Ok x => Ok (sf x) | Err ex => Err ex end).
  { destruct row as [|x l]; [reflexivity|]. cbn [map fmax_list]. f_equal. clear H. revert x. induction l as [|y l IH]; intros x; [reflexivity|]. cbn [map fold_left]. rewrite fltb_sf, <- IH. now destruct (fltb x y). }
  rewrite F. destruct (fmax_list row) as [mx|]; [|reflexivity]. cbv zeta.
  assert (E : map (fun v => fexp (fdiv_t (fsub v (sf mx)) (c * temp))) (map sf row) = map (fun v => fexp (fdiv_t (fsub v mx) temp)) row).
  { rewrite map_map. apply map_ext. intros x. f_equal. destruct x, mx; cbn [sf fsub fdiv_t]; try reflexivity. f_equal. field. lra. }
  now rewrite E.
Qed.
(** Multiplied Q values give the same choices: for the greedy selector, and for softmax if the temperature is multiplied too. *)
Theorem C142_choices : forall q,
  (forall draws, get_pi (max_get_pi draws) (scaled_q c q) = get_pi (max_get_pi draws) q) /\
  get_pi_p max_get_pi_p (scaled_q c q) = get_pi_p max_get_pi_p q /\
  (forall temp us, 0 < temp -> get_pi (softmax_get_pi (c * temp) us) (scaled_q c q) = get_pi (softmax_get_pi temp us) q) /\
  (forall temp, 0 < temp -> get_pi_p (softmax_get_pi_p (c * temp)) (scaled_q c q) = get_pi_p (softmax_get_pi_p temp) q).
Proof using c_pos.
  intros q. repeat split.
  - intros draws. apply get_pi_sf. unfold max_get_pi, scaled_q. generalize 0%nat. induction (ActionModel.clean q) as [|row r IH]; intros s; [reflexivity|]. cbn [map max_get_pi_from]. unfold random_max.
    change (map (fun x => match x with Fin a => Fin (c * a) | y => y end) row) with (map sf row). rewrite max_sf, IH. reflexivity.
  - apply get_pi_p_sf. unfold max_get_pi_p, scaled_q. induction (ActionModel.clean q) as [|row r IH]; [reflexivity|]. cbn [map mapM]. rewrite IH. f_equal. unfold max_pi_p_row.
    change (map (fun x => match x with Fin a => Fin (c * a) | y => y end) row) with (map sf row). rewrite max_sf, map_length. reflexivity.
  - intros temp us T. apply get_pi_sf. unfold softmax_get_pi, softmax_get_pi_p. cbn [bind]. f_equal. unfold scaled_q. rewrite map_map. apply map_ext. intros row. now apply softmax_sf.
  - intros temp T. apply get_pi_p_sf. unfold softmax_get_pi_p. f_equal. unfold scaled_q. rewrite map_map. apply map_ext. intros row. now apply softmax_sf.
Qed.
End Scale.

(** ** C143: multiplying the rewards alone *)

(** It is the same as dividing the tolerance: planning is finer for large rewards. *)
Theorem C143_finer_partial : forall c rf ft k g sas tol, 0 < c ->
  scaled_outcome c (solve_value_iteration hard_backup rf ft k g sas (tol / c)) (solve_value_iteration hard_backup (scaled c rf) ft k g sas tol).
Proof.
  intros c rf ft k g sas tol C. replace tol with (c * (tol / c)) at 2 by (field; lra). now apply C142_scaling.
Qed.
(** C218: multiplying the rewards is dividing the tolerance. *)
Theorem C218_finer : forall c rf ft k g sas tol, 0 < c ->
  scaled_outcome c (solve_value_iteration hard_backup rf ft k g sas (tol / c)) (solve_value_iteration hard_backup (scaled c rf) ft k g sas tol).
Proof. exact (@C143_finer_partial). Qed.
(** So it can change the plan. In a corridor with a reward at its east end, default settings: with a reward of 1e-9 the agent's policy two moves away from
    it is undecided; with twenty times that reward the agent walks towards it. *)
Theorem C143_multiplied_refuted : let pl := (vi_greedy (9 # 10) (1 # 100000000) 500)%Q in exists m m1 e1 f1 m2 e2 f2 p1 p2,
  grid_mdp (A:=Q) Square [[0; 0; 0; 1]%Q] None (4, 1)%nat false = Ok m /\
  make_env m [mkSpec "p"%string 1%Z None 1%Z [1 # 1000000000; 0]%Q []] = (m1, Ok e1) /\ env_fit pl e1 "p" None 0%nat 0%nat = (f1, Ok tt) /\
  make_env m [mkSpec "p"%string 1%Z None 1%Z [20 * (1 # 1000000000); 0]%Q []] = (m2, Ok e2) /\ env_fit pl e2 "p" None 0%nat 0%nat = (f2, Ok tt) /\
  get_agent_pi_p f1 "p" = Ok (Some p1) /\ get_agent_pi_p f2 "p" = Ok (Some p2) /\
  nth 1 p1 [] = [Fin 0; Fin (1 # 2); Fin 0; Fin (1 # 2)]%Q /\ nth 1 p2 [] = [Fin 0; Fin 1; Fin 0; Fin 0]%Q.
Proof. cbv zeta. do 9 eexists. vmr. Qed.
(** An instance of C142: in a corridor with rewards at both ends, rewards and tolerance doubled, the same number of sweeps gives twice the Q values. *)
Example C142_example : exists m m1 e1 f1 m2 e2 f2,
  grid_mdp (A:=Q) Square [[1; 0; 0]; [0; 0; 1]]%Q None (3, 1)%nat false = Ok m /\
  make_env m [mkSpec "p"%string 1%Z None 0%Z [1; 3; 0]%Q []] = (m1, Ok e1) /\ env_fit (vi_greedy (1 # 2) (1 # 10) 3)%Q e1 "p" None 0%nat 0%nat = (f1, Ok tt) /\
  make_env m [mkSpec "p"%string 1%Z None 0%Z [2; 6; 0]%Q []] = (m2, Ok e2) /\ env_fit (vi_greedy (1 # 2) (2 # 10) 3)%Q e2 "p" None 0%nat 0%nat = (f2, Ok tt) /\
  get_agent_q_values f1 "p" = Ok (Some [[NInf; Fin (15 # 8); NInf; NInf]; [NInf; Fin (63 # 16); NInf; Fin (31 # 16)]; [NInf; NInf; NInf; Fin (63 # 32)]]%Q) /\ 
  get_agent_q_values f2 "p" = Ok (Some [[NInf; Fin (15 # 4); NInf; NInf]; [NInf; Fin (63 # 8); NInf; Fin (31 # 8)]; [NInf; NInf; NInf; Fin (63 # 16)]]%Q).
Proof. do 7 eexists. vmr. Qed.
