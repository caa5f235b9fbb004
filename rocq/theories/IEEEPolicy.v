(** C246: policy learning with the numbers of IEEE 754 double precision, bit by bit. *)
From Coq Require Import String List ZArith Reals Bool Lia Lra.
From Flocq Require Import Core BinarySingleNaN.
From Verif Require Import PyBase PyProofs GridModel MDPModel MDPSpec ActionModel ActionProofs RSum ActionSpec EnvModel EnvSpec PLModel PLSpec PLProofs PLProps PLProps2 RoundModel RoundSpec RoundProofs RoundProps RoundExample PLRoundModel PLRound PLRoundExample SoftRoundExample SoftRoundModel SoftRoundSpec SoftRound2 PLRound2 IEEEModel SimRound SimMDP SimEnv IEEE IEEEEnv.
Import ListNotations.
Local Open Scope R_scope.

#[local] Existing Instance NumB.

(** policy_learning.py 46-71 [TDGeneralPolicyLearner(learning_rate, decay, Q, kernel=False)]: [decay] is whether the decay is positive, and [factor n] is what [np.power(n, -decay)] gives. *)
Definition td_learner64 (lr : b64) (decay : bool) (factor : nat -> res b64) (Q : option (list b64)) : res (td_config b64 * learner b64) :=
  if negb (nltb n0 lr) then Err AssertionError else
  let c := mkTD lr decay factor (@onehot_reward b64 NumB) in Ok (c, new_learner c Q).
(** policy_learning.py 73-82 and 128-152: a sequence of calls; exceptions of [fit] are caught. *)
Inductive learner_call64 := Fit64 (arg : mdp_arg b64) (ts : list (list Z)) | Reset64.
(** policy_learning.py 73-82 and 128-152: one call. *)
Definition after_call64 (c : td_config b64) (l : learner b64) (k : learner_call64) : learner b64 :=
  match k with Fit64 arg ts => fst (@fit_learner b64 NumB c arg ts l) | Reset64 => reset_learner c l end.

(** Neither infinite nor NaN, and from zero to one. *)
Definition unit64 (b : b64) : Prop := finite b /\ 0 <= val b <= 1.
(** [b] is such a number, and stands for [x]. *)
Definition ustands (b : b64) (x : R) : Prop := stands b x /\ unit_float float64 x.

Lemma val_exact : forall b, float64 (val b) = val b.
Proof. intros b. unfold float64, val. apply round_generic; [typeclasses eauto|]. apply (generic_format_B2R 53 1024 b). Qed.
Lemma unit_ustands : forall b, unit64 b -> ustands b (val b).
Proof. intros b [F V]. split; [split; [exact F|reflexivity]|]. split; [exact V|apply val_exact]. Qed.
Lemma ustands_unit : forall b x, ustands b x -> unit64 b.
Proof. intros b x [[F <-] [V _]]. split; assumption. Qed.
Lemma ustands_zero : ustands n0 0.
Proof. split; [apply (c_zero _ _ _ _ ieee_computes)|]. split; [lra|apply (rnd0 _ _ _ C206_float64)]. Qed.
Lemma ustands_one : ustands n1 1.
Proof. split; [apply (c_one _ _ _ _ ieee_computes)|]. split; [lra|apply (rd_one _ _ _ C206_float64)]. Qed.
Lemma big : 2 <= 2 ^ 1023.
Proof. replace 2 with (2 ^ 1) at 1 by lra. apply Rle_pow; [lra|lia]. Qed.
Lemma product_unit : forall x y, 0 <= x <= 1 -> 0 <= y <= 1 -> 0 <= x * y <= 1.
Proof. intros x y X Y. split; [apply Rmult_le_pos; lra|]. rewrite <- (Rmult_1_r 1). apply Rmult_le_compat; lra. Qed.
Lemma ustands_mul : forall b x c y, ustands b x -> ustands c y -> ustands (nmul b c) (float64 (x * y)).
Proof.
  intros b x c y [B [X _]] [C [Y _]]. pose proof big. pose proof (product_unit x y X Y). split; [apply (c_mul _ _ _ _ ieee_computes); [exact B|exact C|]|apply (unit_rnd _ _ _ C206_float64); assumption].
  rewrite Rabs_pos_eq; lra.
Qed.
Lemma ustands_update : forall r r' t t' x x', ustands r r' -> ustands t t' -> ustands x x' -> ustands (nadd x (nmul r (nsub t x))) (update float64 r' t' x').
Proof.
  intros r r' t t' x x' [RS RU] [TS TU] [XS XU]. pose proof big as G. destruct C214_float64 as [TOP _]. pose proof C206_float64 as RD.
  destruct RU as [RU RF], TU as [TU TF], XU as [XU XF].
  assert (D : stands (nsub t x) (float64 (t' - x'))) by (apply (c_sub _ _ _ _ ieee_computes); [exact TS|exact XS|]; apply Rabs_le; lra).
  assert (DB : -1 <= float64 (t' - x') <= 1) by (apply (small_rnd _ _ _ RD); lra).
  assert (PB : -1 <= r' * float64 (t' - x') <= 1) by (split; nra).
  assert (P : stands (nmul r (nsub t x)) (float64 (r' * float64 (t' - x')))) by (apply (c_mul _ _ _ _ ieee_computes); [exact RS|exact D|]; apply Rabs_le; lra).
  pose proof (small_rnd _ _ _ RD _ PB) as QB. split.
  - apply (c_add _ _ _ _ ieee_computes); [exact XS|exact P|]. apply Rabs_le; lra.
  - apply (update_unit _ _ _ RD TOP); split; assumption.
Qed.

(** ** The range *)
Definition unit_q (q : qval b64) : Prop := match q with QArr q => Forall unit64 q | _ => True end.
Definition unit_learner (l : learner b64) : Prop := unit_q (l_Q l) /\ unit_q (l_orig l) /\ unit64 (l_adj l).
Lemma zeros_unit : forall n, Forall unit64 (zeros1 n).
Proof. intros n. unfold zeros1. apply Forall_forall. intros x H. apply repeat_spec in H. subst x. apply (ustands_unit _ _ ustands_zero). Qed.
Lemma upd_unit : forall l i, Forall unit64 l -> Forall unit64 (upd l i n1).
Proof. induction l as [|x l IH]; intros i H; [destruct i; exact H|]. apply Forall_cons_iff in H. destruct H as [H1 H2]. destruct i; constructor; auto. apply (ustands_unit _ _ ustands_one). Qed.
Lemma move_unit : forall rate reward q, unit64 rate -> Forall unit64 reward -> Forall unit64 q -> Forall unit64 (move_towards rate reward q).
Proof.
  intros rate reward q R W Q. unfold move_towards. apply Forall_map, Forall_forall. intros [r x] I. pose proof (in_combine_l _ _ _ _ I) as I1. pose proof (in_combine_r _ _ _ _ I) as I2. rewrite Forall_forall in W, Q.
  eapply ustands_unit. apply ustands_update; apply unit_ustands; [exact R|apply W, I1|apply Q, I2].
Qed.
Section Range.
Variable c : td_config b64.
Hypothesis CL : unit64 (c_lr c).
Hypothesis CF : c_decaying c = true -> forall n f, c_factor c n = Ok f -> unit64 f.
Hypothesis CR : forall n a v, c_reward c n a = Ok v -> Forall unit64 v.
Lemma observe_unit : forall n a l, unit_learner l -> unit_learner (fst (@observe b64 NumB c n a l)).
Proof using All.
  intros n a l U. pose proof U as (Q & O & J). unfold observe. destruct (c_reward c n a) as [v|] eqn:RW; [|exact U]. destruct (l_Q l) as [| |q] eqn:LQ; [exact U|exact U|]. cbn [unit_q] in Q.
  destruct (negb _); [exact U|]. specialize (CR _ _ _ RW).
  destruct (c_decaying c) eqn:D.
  - destruct (c_factor c (l_n l)) as [f|] eqn:F; [|exact U]. cbn [bind]. assert (UR : unit64 (nmul (l_adj l) f)) by (eapply ustands_unit; apply ustands_mul; apply unit_ustands; [exact J|exact (CF eq_refl _ _ F)]).
    pose proof (move_unit _ _ _ UR CR Q) as MU. split; [exact MU|]. split; [|exact UR]. cbn [l_orig fst]. destruct (l_shared l); [exact MU|exact O].
  - pose proof (move_unit _ _ _ CL CR Q) as MU. split; [exact MU|]. split; [|exact J]. cbn [l_orig fst]. destruct (l_shared l); [exact MU|exact O].
Qed.
Lemma observe_all_unit : forall mdps acts i l, unit_learner l -> unit_learner (fst (@observe_all b64 NumB c mdps i acts l)).
Proof using All.
  intros mdps acts. induction acts as [|a r IH]; intros i l U; [exact U|]. cbn [observe_all]. destruct (nth_error mdps i) as [m|]; [|exact U]. pose proof (observe_unit (m_n_actions m) a l U) as K. destruct (observe c (m_n_actions m) a l) as [l' [y|y]]; [apply IH, K|exact K].
Qed.
Lemma observe_trajectories_unit : forall mdps ts n l, unit_learner l -> unit_learner (fst (@observe_trajectories b64 NumB c mdps n ts l)).
Proof using All.
  intros mdps ts. induction ts as [|t r IH]; intros n l U; [exact U|]. destruct t as [|s t]; cbn [observe_trajectories]; [apply IH, U|]. destruct (nth_error mdps n) as [m|]; [|exact U]. destruct (trajectory_to_state_action m (s :: t)) as [sa|]; [|exact U].
  pose proof (observe_all_unit mdps (map snd sa) 0 l U) as K. destruct (observe_all c mdps 0 (map snd sa) l) as [l' [y|y]]; [apply IH, K|exact K].
Qed.
Lemma fit_td_unit : forall mdps ts l, unit_learner l -> unit_learner (fst (@fit_td b64 NumB c mdps ts l)).
Proof using All.
  intros mdps ts l (Q & O & J). unfold fit_td. destruct (l_Q l) as [| |q] eqn:LQ.
  - destruct mdps as [|m ms]; [split; [cbn [fst]; now rewrite LQ|split; assumption]|]. apply observe_trajectories_unit. split; [apply zeros_unit|split; assumption].
  - apply observe_trajectories_unit. split; [exact Q|split; assumption].
  - apply observe_trajectories_unit. split; [exact Q|split; assumption].
Qed.
Lemma call_unit : forall k l, unit_learner l -> unit_learner (after_call64 c l k).
Proof using All.
  intros [arg ts|] l U.
  - assert (K : forall ms, unit_learner (fst (let '(l', r) := @fit_td b64 NumB c ms ts l in (match r with Ok _ => mkLearner (l_Q l') (l_orig l') (l_shared l') (l_adj l') (l_n l') true | Err _ => l' end, r)))).
    { intros ms. pose proof (fit_td_unit ms ts l U) as K. destruct (fit_td c ms ts l) as [l' [y|y]]; exact K. }
    cbn [after_call64]. unfold fit_learner. destruct arg as [m|ms]; [apply K|]. destruct (negb _); [exact U|apply K].
  - destruct U as (Q & O & J). split; [exact O|]. split; [exact O|exact CL].
Qed.
End Range.

Lemma onehot_unit : forall n a v, @onehot_reward b64 NumB n a = Ok v -> Forall unit64 v.
Proof. intros n a v H. unfold onehot_reward in H. destruct (a <? n)%nat; [|discriminate]. assert (V : v = upd (zeros1 n) a n1) by congruence. rewrite V. apply upd_unit, zeros_unit. Qed.

(** The learned action values never overflow, become NaN or leave the range from zero to one: after any calls of [fit] and [reset], successful or not, whatever the MDPs and the trajectories. *)
Theorem C246_range : forall lr decay factor Q c l0 ks q, finite lr -> val lr <= 1 -> (decay = true -> forall n f, factor n = Ok f -> unit64 f) -> (forall q0, Q = Some q0 -> Forall unit64 q0) ->
  td_learner64 lr decay factor Q = Ok (c, l0) -> learner_q_values (fold_left (after_call64 c) ks l0) = QArr q -> Forall (fun b => finite b /\ 0 <= val b <= 1) q.
Proof.
  intros lr decay factor Q c l0 ks q FL LL FF QU E LQ. unfold td_learner64 in E. destruct (nltb n0 lr) eqn:P; [|discriminate]. cbn [negb] in E.
  rewrite (c_ltb _ _ _ _ ieee_computes _ _ _ _ (c_zero _ _ _ _ ieee_computes) (conj FL eq_refl : stands lr (val lr))) in P. unfold Rltb in P. destruct (Rlt_dec 0 (val lr)) as [P'|]; [|discriminate].
  assert (UL : unit64 lr) by (split; [exact FL|lra]).
  assert (EC : c = mkTD lr decay factor (@onehot_reward b64 NumB)) by congruence. assert (EL : l0 = new_learner c Q) by congruence.
  assert (U0 : unit_learner l0). { rewrite EL. split; [|split; [|rewrite EC; exact UL]]; unfold new_learner; cbn [l_Q l_orig]; (destruct Q as [q0|]; [exact (QU _ eq_refl)|exact Logic.I]). }
  assert (K : forall ks l, unit_learner l -> unit_learner (fold_left (after_call64 c) ks l)).
  { clear - EC UL FF. induction ks as [|k ks IH]; intros l U; [exact U|]. cbn [fold_left]. apply IH, call_unit; [rewrite EC; exact UL|rewrite EC; exact FF|rewrite EC; exact onehot_unit|exact U]. }
  destruct (K ks l0 U0) as (UQ & _). unfold learner_q_values in LQ. rewrite LQ in UQ. exact UQ.
Qed.

(** ** The values *)
Definition qsim (q' : qval b64) (q : qval R) : Prop := match q', q with QNone, QNone => True | QObj, QObj => True | QArr a, QArr b => Forall2 ustands a b | _, _ => False end.
Record lsim (l' : learner b64) (l : learner R) : Prop := { ls_q : qsim (l_Q l') (l_Q l); ls_o : qsim (l_orig l') (l_orig l); ls_s : l_shared l' = l_shared l; ls_a : ustands (l_adj l') (l_adj l); ls_n : l_n l' = l_n l; ls_1 : (1 <= l_n l)%nat; ls_d : l_done l' = l_done l }.
Definition osim (r' : learner b64 * res unit) (r : learner R * res unit) : Prop := lsim (fst r') (fst r) /\ snd r' = snd r.
(** The transition probabilities are finite. *)
Definition sas_finite (m : mdp b64) : Prop := Forall (Forall (Forall finite)) (m_sas m).

Lemma nth_map_dd : forall {X Y} (f : X -> Y) l i d d', f d = d' -> nth i (map f l) d' = f (nth i l d).
Proof. intros X Y f l. induction l as [|x l IH]; intros [|i] d d' E; cbn; auto. Qed.
Lemma colS : forall m i j, sas_finite m -> Forall2 stands (@sas_col b64 NumB m i j) (@sas_col R (NumF float64) (mdp_val m) i j).
Proof.
  intros m i j F. unfold sas_col. cbn [m_sas mdp_val]. pose proof (stands_map3 _ F) as S. pose proof (F2_nth (Forall2 (Forall2 stands)) _ _ [] [] S (Forall2_nil _) i) as N.
  induction N as [|x y l l' XY _ IH]; cbn [map]; constructor; [|exact IH]. apply F2_nth; [exact XY|apply (c_zero _ _ _ _ ieee_computes)].
Qed.
Lemma maxS : forall l' l, Forall2 stands l' l -> rsim stands (@nmax_list b64 NumB l') (@nmax_list R (NumF float64) l).
Proof.
  intros l' l H. destruct H as [|x y l' l XY H]; [reflexivity|]. unfold nmax_list, rsim. revert x y XY. induction H as [|a b l' l AB _ IH]; intros x y XY; [exact XY|]. cbn [fold_left]. apply IH. unfold nmax.
  rewrite (c_ltb _ _ _ _ ieee_computes _ _ _ _ XY AB). change (@nltb R (NumF float64) y b) with (Rltb y b). destruct (Rltb y b); assumption.
Qed.
Lemma argmax64 : forall l' l, Forall2 stands l' l -> @argmax b64 NumB l' = @argmax R (NumF float64) l.
Proof. intros l' l H. rewrite argmax_F. exact (argmaxS NumB stands float64 _ ieee_computes l' l H). Qed.
Lemma trajS : forall m t, sas_finite m -> @trajectory_to_state_action b64 NumB m t = @trajectory_to_state_action R (NumF float64) (mdp_val m) t.
Proof.
  intros m t F. assert (P : forall t, @traj_pairs b64 NumB m t = @traj_pairs R (NumF float64) (mdp_val m) t); [|unfold trajectory_to_state_action; destruct t; [reflexivity|apply P]].
  clear t. induction t as [|s t IH]; [reflexivity|]. destruct t as [|s' t]; [reflexivity|]. cbn [traj_pairs] in *. rewrite IH.
  unfold state_pair_to_action. change (m_n_states (mdp_val m)) with (m_n_states m). destruct (py_index (m_n_states m) s) as [i|]; [|reflexivity]. cbn [bind]. destruct (py_index (m_n_states m) s') as [j|]; [|reflexivity]. cbn [bind].
  pose proof (colS m i j F) as C. rewrite (argmax64 _ _ C). pose proof (maxS _ _ C) as X. destruct (@nmax_list b64 NumB (sas_col m i j)) as [a|e], (@nmax_list R (NumF float64) (sas_col (mdp_val m) i j)) as [b|e']; cbn [rsim] in X; try contradiction; cbn [bind]; [|congruence].
  rewrite (c_ltb _ _ _ _ ieee_computes _ _ _ _ (c_zero _ _ _ _ ieee_computes) X). reflexivity.
Qed.

Lemma zerosS : forall n, Forall2 ustands (@zeros1 b64 NumB n) (@zeros1 R (NumF float64) n).
Proof. unfold zeros1. induction n; cbn [repeat]; constructor; [exact ustands_zero|assumption]. Qed.
Lemma moveS : forall r' r, ustands r' r -> forall v' v, Forall2 ustands v' v -> forall q' q, Forall2 ustands q' q -> Forall2 ustands (@move_towards b64 NumB r' v' q') (@move_towards R (NumF float64) r v q).
Proof.
  intros r' r R v' v V. induction V as [|t' t v' v T V IH]; intros q' q Q; [constructor|]. destruct Q as [|x' x q' q X Q]; [constructor|]. unfold move_towards in *. cbn [combine map]. constructor; [exact (ustands_update _ _ _ _ _ _ R T X)|]. exact (IH _ _ Q).
Qed.
Section Values.
Variables (c' : td_config b64) (c : td_config R).
Hypothesis CL : ustands (c_lr c') (c_lr c).
Hypothesis CD : c_decaying c' = c_decaying c.
Hypothesis CF : c_decaying c = true -> forall n, (1 <= n)%nat -> rsim ustands (c_factor c' n) (c_factor c n).
Hypothesis CR : forall n a, rsim (Forall2 ustands) (c_reward c' n a) (c_reward c n a).
Lemma observeS : forall n a l' l, lsim l' l -> osim (@observe b64 NumB c' n a l') (@observe R (NumF float64) c n a l).
Proof using All.
  intros n a l' l L. unfold observe. rewrite CD. specialize (CR n a). destruct (c_reward c' n a) as [v'|e'], (c_reward c n a) as [v|e]; cbn [rsim] in CR; try contradiction; [|split; [exact L|cbn; congruence]].
  pose proof (ls_q _ _ L) as Q. destruct (l_Q l') as [| |q'] eqn:E', (l_Q l) as [| |q] eqn:E; cbn [qsim] in Q; try contradiction; [split; [exact L|reflexivity]|split; [exact L|reflexivity]|].
  rewrite <- (F2_length _ _ _ CR), <- (F2_length _ _ _ Q). destruct (negb _); [split; [exact L|reflexivity]|].
  assert (RT : rsim ustands (if c_decaying c then let* f := c_factor c' (l_n l') in Ok (nmul (l_adj l') f) else Ok (c_lr c')) (if c_decaying c then let* f := c_factor c (l_n l) in Ok (@nmul R (NumF float64) (l_adj l) f) else Ok (c_lr c))).
  { destruct (c_decaying c) eqn:D; [|exact CL]. rewrite (ls_n _ _ L). eapply rsim_bind; [apply (CF eq_refl), (ls_1 _ _ L)|]. intros f' f FF. exact (ustands_mul _ _ _ _ (ls_a _ _ L) FF). }
  destruct (if c_decaying c then let* f := c_factor c' (l_n l') in Ok (nmul (l_adj l') f) else Ok (c_lr c')) as [rt'|e'], (if c_decaying c then let* f := c_factor c (l_n l) in Ok (@nmul R (NumF float64) (l_adj l) f) else Ok (c_lr c)) as [rt|e]; cbn [rsim] in RT; try contradiction; [|split; [exact L|cbn [snd]; congruence]].
  pose proof (moveS _ _ RT _ _ CR _ _ Q) as M.
  split; [|reflexivity]. cbn [fst]. destruct L as [LQ LO LS LA LN L1 LD]. split; cbn [l_Q l_orig l_shared l_adj l_n l_done]; [exact M| |exact LS|destruct (c_decaying c); [exact RT|exact LA]|now rewrite LN|lia|exact LD]. rewrite LS. destruct (l_shared l); [exact M|exact LO].
Qed.
Lemma observe_allS : forall mdps acts i l' l, lsim l' l -> osim (@observe_all b64 NumB c' mdps i acts l') (@observe_all R (NumF float64) c (map mdp_val mdps) i acts l).
Proof using All.
  intros mdps acts. induction acts as [|a r IH]; intros i l' l L; [split; [exact L|reflexivity]|]. cbn [observe_all]. rewrite nth_error_map. destruct (nth_error mdps i) as [m|]; [|split; [exact L|reflexivity]]. cbn [option_map]. change (m_n_actions (mdp_val m)) with (m_n_actions m).
  pose proof (observeS (m_n_actions m) a l' l L) as [K1 K2]. destruct (@observe b64 NumB c' (m_n_actions m) a l') as [k' [y'|y']], (@observe R (NumF float64) c (m_n_actions m) a l) as [k [y|y]]; cbn [fst snd] in K1, K2; try discriminate; [apply IH, K1|split; assumption].
Qed.
Lemma observe_trajectoriesS : forall mdps ts n l' l, Forall sas_finite mdps -> lsim l' l -> osim (@observe_trajectories b64 NumB c' mdps n ts l') (@observe_trajectories R (NumF float64) c (map mdp_val mdps) n ts l).
Proof using All.
  intros mdps ts. induction ts as [|t r IH]; intros n l' l F L; [split; [exact L|reflexivity]|]. destruct t as [|s t]; cbn [observe_trajectories]; [apply IH; assumption|]. rewrite nth_error_map. destruct (nth_error mdps n) as [m|] eqn:N; [|split; [exact L|reflexivity]]. cbn [option_map].
  assert (FM : sas_finite m) by (rewrite Forall_forall in F; apply F; now apply nth_error_In in N). rewrite <- (trajS m (s :: t) FM). destruct (trajectory_to_state_action m (s :: t)) as [sa|]; [|split; [exact L|reflexivity]].
  pose proof (observe_allS mdps (map snd sa) 0 l' l L) as [K1 K2]. destruct (@observe_all b64 NumB c' mdps 0 (map snd sa) l') as [k' [y'|y']], (@observe_all R (NumF float64) c (map mdp_val mdps) 0 (map snd sa) l) as [k [y|y]]; cbn [fst snd] in K1, K2; try discriminate; [apply IH; assumption|split; assumption].
Qed.
Lemma fit_tdS : forall mdps ts l' l, Forall sas_finite mdps -> lsim l' l -> osim (@fit_td b64 NumB c' mdps ts l') (@fit_td R (NumF float64) c (map mdp_val mdps) ts l).
Proof using All.
  intros mdps ts l' l F L. unfold fit_td. pose proof (ls_q _ _ L) as Q. pose proof L as [LQ LO LS LA LN L1 LD]. destruct (l_Q l') as [| |q'], (l_Q l) as [| |q]; cbn [qsim] in Q; try contradiction.
  - destruct mdps as [|m ms]; [split; [exact L|reflexivity]|]. apply observe_trajectoriesS; [exact F|]. split; cbn [l_Q l_orig l_shared l_adj l_n l_done]; auto. cbn [qsim map]. exact (zerosS (m_n_actions m)).
  - apply observe_trajectoriesS; [exact F|]. split; cbn [l_Q l_orig l_shared l_adj l_n l_done]; auto.
  - apply observe_trajectoriesS; [exact F|]. split; cbn [l_Q l_orig l_shared l_adj l_n l_done]; auto.
Qed.
End Values.

Definition arg_mdps (arg : mdp_arg b64) : list (mdp b64) := match arg with OneMDP m => [m] | ManyMDPs ms => ms end.
Definition arg_val (arg : mdp_arg b64) : mdp_arg R := match arg with OneMDP m => OneMDP (mdp_val m) | ManyMDPs ms => ManyMDPs (map mdp_val ms) end.
Lemma map_rep : forall {X Y} (f : X -> Y) x n, map f (repeat x n) = repeat (f x) n.
Proof. induction n; cbn; congruence. Qed.
Lemma fit_learnerS : forall c' c arg ts l' l, ustands (c_lr c') (c_lr c) -> c_decaying c' = c_decaying c -> (c_decaying c = true -> forall n, (1 <= n)%nat -> rsim ustands (c_factor c' n) (c_factor c n)) -> (forall n a, rsim (Forall2 ustands) (c_reward c' n a) (c_reward c n a)) ->
  Forall sas_finite (arg_mdps arg) -> lsim l' l -> osim (@fit_learner b64 NumB c' arg ts l') (fit_learner_r float64 c (arg_val arg) ts l).
Proof.
  intros c' c arg ts l' l CL CD CF CR F L.
  assert (K : forall ms, Forall sas_finite ms -> osim (let '(l', r) := @fit_td b64 NumB c' ms ts l' in (match r with Ok _ => mkLearner (l_Q l') (l_orig l') (l_shared l') (l_adj l') (l_n l') true | Err _ => l' end, r)) (let '(l', r) := @fit_td R (NumF float64) c (map mdp_val ms) ts l in (match r with Ok _ => mkLearner (l_Q l') (l_orig l') (l_shared l') (l_adj l') (l_n l') true | Err _ => l' end, r))).
  { intros ms FM. pose proof (fit_tdS c' c CL CD CF CR ms ts l' l FM L) as [K1 K2]. destruct (@fit_td b64 NumB c' ms ts l') as [k' y'], (@fit_td R (NumF float64) c (map mdp_val ms) ts l) as [k y]. cbn [fst snd] in K1, K2. subst y'. destruct y; split; cbn [fst snd]; [destruct K1; split; cbn [l_Q l_orig l_shared l_adj l_n l_done]; auto|reflexivity|exact K1|reflexivity]. }
  unfold fit_learner_r, fit_learner. destruct arg as [m|ms]; cbn [arg_val arg_mdps] in *.
  - rewrite <- map_rep. apply K. apply Forall_forall. intros x I. apply repeat_spec in I. subst x. inversion F; assumption.
  - rewrite map_length. destruct (negb _); [split; [exact L|reflexivity]|apply K, F].
Qed.

Lemma onehotS : forall n a, rsim (Forall2 ustands) (@onehot_reward b64 NumB n a) (@onehot_reward R (NumF float64) n a).
Proof.
  intros n a. unfold onehot_reward. destruct (a <? n)%nat; [|reflexivity]. cbn [rsim]. apply F2_upd; [apply zerosS|exact ustands_one].
Qed.
Definition three_tenths : b64 := @ndiv b64 NumB (@nofZ b64 NumB 3) (@nofZ b64 NumB 10).
Lemma three_tenths_stands : stands three_tenths lr64.
Proof. assert (P : 1 <= 2 ^ 1023) by (apply pow_R1_Rle; lra). apply (quotient _ 3 _ 10); [apply (whole 3); lia|apply (whole 10); lia|lra|]. rewrite Rabs_pos_eq by lra. lra. Qed.

(** The default learning rate of 0.3, without decay: after fitting any trajectories the learned values are off by at most 2e-15 from the weighted counts of the actions that were observed. *)
Theorem C246_defaults : forall factor c l0 arg ts l' nA, td_learner64 three_tenths false factor None = Ok (c, l0) -> Forall (fun m => m_n_actions m = nA /\ sas_finite m) (arg_mdps arg) -> @fit_learner b64 NumB c arg ts l0 = (l', Ok tt) ->
  exists acts q', observed (mdps_of (arg_val arg) (length ts)) ts acts /\ learner_q_values l' = QArr q' /\ length q' = nA /\ (Forall (fun a => a < nA)%nat acts -> forall b, (b < nA)%nat -> let n := length acts in let x := nth b q' n0 in
    finite x /\ 0 <= val x <= 1 /\ Rabs (val x - sumf (fun i => val three_tenths * (1 - val three_tenths) ^ (n - 1 - i) * (if (nth i acts 0 =? b)%nat then 1 else 0)) (seq 0 n)) <= 2 / 10 ^ 15).
Proof.
  intros factor c l0 arg ts l' nA E FM FT. pose proof three_tenths_stands as [TF TV]. pose proof lr64_bounds as LB. pose proof C206_float64 as RD.
  unfold td_learner64 in E. destruct (nltb n0 three_tenths); [|discriminate]. cbn [negb] in E. assert (EC : c = mkTD three_tenths false factor (@onehot_reward b64 NumB)) by congruence. assert (EL : l0 = new_learner c None) by congruence.
  assert (ER : exists cR lR, td_learner_r float64 exp64 pow64 lr64 (DecayFloat 0) None false (2 / 100) = Ok (cR, lR) /\ c_lr cR = lr64 /\ c_decaying cR = false /\ c_reward cR = @onehot_reward R (NumF float64) /\ lR = new_learner cR None).
  { unfold td_learner_r. cbn [decay_value]. unfold Rltb. destruct (Rlt_dec 0 lr64) as [_|X]; [|exfalso; lra]. cbn [negb]. destruct (Rlt_dec 0 0) as [X|_]; [exfalso; lra|]. eexists _, _. split; [reflexivity|]. auto. }
  destruct ER as (cR & lR & ER & C1 & C2 & C3 & C4).
  assert (US : ustands three_tenths lr64) by (split; [split; assumption|split; [lra|apply (rd_idem _ _ _ RD)]]).
  assert (L0 : lsim l0 lR). { rewrite EL, C4. unfold new_learner. split; cbn [l_Q l_orig l_shared l_adj l_n l_done qsim]; auto. rewrite EC, C1. exact US. }
  assert (FS : Forall sas_finite (arg_mdps arg)) by (eapply Forall_impl; [|exact FM]; intros m [_ X]; exact X).
  pose proof (fit_learnerS c cR arg ts l0 lR) as K. rewrite C1, C2, C3, EC in K. cbn [c_lr c_decaying c_reward] in K. specialize (K US eq_refl ltac:(discriminate) onehotS FS L0). rewrite <- EC, FT in K.
  destruct (fit_learner_r float64 cR (arg_val arg) ts lR) as [lR' y] eqn:FR. destruct K as [K1 K2]. cbn [fst snd] in K1, K2. subst y.
  assert (NA : forall m, In m (mdps_of (arg_val arg) (length ts)) -> m_n_actions m = nA).
  { rewrite Forall_forall in FM. intros m I. destruct arg as [m0|ms]; cbn [arg_val mdps_of arg_mdps] in *; [apply repeat_spec in I; subst m; apply (FM m0); now left|]. apply in_map_iff in I. destruct I as (x & <- & I). apply (FM x I). }
  destruct (C214_defaults cR lR (arg_val arg) ts lR' nA ER NA FR) as (acts & qR & O & EQ & LQ & X). pose proof (ls_q _ _ K1) as Q. unfold learner_q_values in *. rewrite EQ in Q. destruct (l_Q l') as [| |q'] eqn:LQ'; cbn [qsim] in Q; try contradiction.
  exists acts, q'. split; [exact O|]. split; [reflexivity|]. split; [now rewrite (F2_length _ _ _ Q)|]. intros FA b Hb. set (x := nth b q' n0). destruct (X FA b Hb) as [X1 X2].
  pose proof (F2_nth ustands q' qR n0 0 Q ustands_zero b) as [[FX VX] _]. fold x in FX, VX. rewrite <- VX in X1, X2. rewrite <- TV in X2. split; [exact FX|]. split; [exact X1|exact X2].
Qed.

(** Any constant learning rate and any initial values: after fitting any trajectories the learned values are off by at most 5e-16 divided by the learning rate from what they would be with exact numbers. *)
Theorem C246_any_rate : forall lr factor Q c l0 arg ts l' nA, finite lr -> val lr <= 1 -> (forall q, Q = Some q -> Forall unit64 q /\ length q = nA) -> td_learner64 lr false factor Q = Ok (c, l0) -> Forall (fun m => m_n_actions m = nA /\ sas_finite m) (arg_mdps arg) -> @fit_learner b64 NumB c arg ts l0 = (l', Ok tt) ->
  exists acts q', observed (mdps_of (arg_val arg) (length ts)) ts acts /\ learner_q_values l' = QArr q' /\ length q' = nA /\ (Forall (fun a => a < nA)%nat acts -> forall b, (b < nA)%nat -> let n := length acts in let start := match Q with Some q => val (nth b q n0) | None => 0 end in
    finite (nth b q' n0) /\ Rabs (val (nth b q' n0) - ((1 - val lr) ^ n * start + sumf (fun i => val lr * (1 - val lr) ^ (n - 1 - i) * (if (nth i acts 0 =? b)%nat then 1 else 0)) (seq 0 n))) <= 5 / 10 ^ 16 / val lr).
Proof.
  intros lr factor Q c l0 arg ts l' nA FL LL QU E FM FT. pose proof C206_float64 as RD. destruct C214_float64 as [TOP _].
  unfold td_learner64 in E. destruct (nltb n0 lr) eqn:P; [|discriminate]. cbn [negb] in E.
  rewrite (c_ltb _ _ _ _ ieee_computes _ _ _ _ (c_zero _ _ _ _ ieee_computes) (conj FL eq_refl : stands lr (val lr))) in P. unfold Rltb in P. destruct (Rlt_dec 0 (val lr)) as [P'|]; [|discriminate]. clear P.
  assert (EC : c = mkTD lr false factor (@onehot_reward b64 NumB)) by congruence. assert (EL : l0 = new_learner c Q) by congruence.
  set (QR := option_map (map val) Q).
  assert (ER : exists cR lR, td_learner_r float64 exp64 pow64 (val lr) (DecayFloat 0) QR false (2 / 100) = Ok (cR, lR) /\ c_lr cR = val lr /\ c_decaying cR = false /\ c_reward cR = @onehot_reward R (NumF float64) /\ lR = new_learner cR QR).
  { unfold td_learner_r. cbn [decay_value]. unfold Rltb. destruct (Rlt_dec 0 (val lr)) as [_|X]; [|exfalso; lra]. cbn [negb]. destruct (Rlt_dec 0 0) as [X|_]; [exfalso; lra|]. eexists _, _. split; [reflexivity|]. auto. }
  destruct ER as (cR & lR & ER & C1 & C2 & C3 & C4).
  assert (US : ustands lr (val lr)) by (apply unit_ustands; split; [exact FL|lra]).
  assert (QS : forall q, Forall unit64 q -> Forall2 ustands q (map val q)) by (induction 1; cbn [map]; constructor; [now apply unit_ustands|assumption]).
  assert (L0 : lsim l0 lR).
  { rewrite EL, C4. unfold new_learner. split; cbn [l_Q l_orig l_shared l_adj l_n l_done]; [unfold QR; destruct Q as [q|]; cbn [option_map qsim]; [apply QS, (QU _ eq_refl)|exact Logic.I]|unfold QR; destruct Q as [q|]; cbn [option_map qsim]; [apply QS, (QU _ eq_refl)|exact Logic.I]|reflexivity|rewrite EC, C1; exact US|reflexivity|apply le_n|reflexivity]. }
  assert (FS : Forall sas_finite (arg_mdps arg)) by (eapply Forall_impl; [|exact FM]; intros m [_ X]; exact X).
  pose proof (fit_learnerS c cR arg ts l0 lR) as K. rewrite C1, C2, C3, EC in K. cbn [c_lr c_decaying c_reward] in K. specialize (K US eq_refl ltac:(discriminate) onehotS FS L0). rewrite <- EC, FT in K.
  destruct (fit_learner_r float64 cR (arg_val arg) ts lR) as [lR' y] eqn:FR. destruct K as [K1 K2]. cbn [fst snd] in K1, K2. subst y.
  assert (NA : forall m, In m (mdps_of (arg_val arg) (length ts)) -> m_n_actions m = nA).
  { rewrite Forall_forall in FM. intros m I. destruct arg as [m0|ms]; cbn [arg_val mdps_of arg_mdps] in *; [apply repeat_spec in I; subst m; apply (FM m0); now left|]. apply in_map_iff in I. destruct I as (x & <- & I). apply (FM x I). }
  set (q0 := match Q with Some q => map val q | None => repeat 0 nA end).
  assert (ST : starts_from lR nA q0). { rewrite C4. unfold QR, q0. destruct Q as [q|]; cbn [option_map]; [left; split; [reflexivity|rewrite map_length; apply (QU _ eq_refl)]|right; auto]. }
  assert (QF : forall q, QR = Some q -> Forall (unit_float float64) q).
  { unfold QR. destruct Q as [q1|]; cbn [option_map]; [|discriminate]. intros q H. assert (H' : q = map val q1) by congruence. rewrite H'. apply Forall_map. eapply Forall_impl; [|apply (QU _ eq_refl)]. intros b UB. apply (unit_ustands b UB). }
  destruct (C214_constant_rate float64 exp64 pow64 u64 eta64 u64 eta64 (u64 + eta64) RD TOP C212_exp64 exp64_one C214_pow64 (val lr) (DecayFloat 0) QR false (2 / 100) LL (val_exact lr) QF cR lR (arg_val arg) ts lR' nA q0 ER eq_refl NA ltac:(discriminate) ST FR) as (acts & qR & O & EQ & LQ & X).
  pose proof (ls_q _ _ K1) as QQ. unfold learner_q_values in EQ. rewrite EQ in QQ. destruct (l_Q l') as [| |q'] eqn:LQ'; cbn [qsim] in QQ; try contradiction.
  exists acts, q'. split; [exact O|]. split; [exact LQ'|]. split; [now rewrite (F2_length _ _ _ QQ)|]. intros FA b Hb n start. specialize (X FA b Hb). cbv zeta in X. fold n in X.
  pose proof (F2_nth ustands q' qR n0 0 QQ ustands_zero b) as [[FX VX] _]. split; [exact FX|]. rewrite VX.
  assert (S0 : nth b q0 0 = start). { unfold q0, start. destruct Q as [q|]; [apply nth_map_dd; apply (c_zero _ _ _ _ ieee_computes)|]. now rewrite nth_repeat_lt. }
  rewrite S0 in X. unfold shown in X. eapply Rle_trans; [exact X|]. unfold credit_error, step_error. rewrite Rplus_0_l. unfold Rdiv at 1 2. apply Rmult_le_compat_r; [left; now apply Rinv_0_lt_compat|].
  pose proof u64_small. pose proof eta64_small. lra.
Qed.

(** A decaying learning rate, with [np.power] rounded correctly: after [n] observations the learned values are off by at most n * 5e-16 + n^2 * 3e-16 from what they would be with exact numbers. *)
Theorem C246_decaying : forall lr r factor Q c l0 arg ts l' nA, finite lr -> val lr <= 1 -> 0 < r -> (forall n, (1 <= n)%nat -> exists f, factor n = Ok f /\ finite f /\ val f = float64 (Rpower (INR n) (- r))) -> (forall q, Q = Some q -> Forall unit64 q /\ length q = nA) ->
  td_learner64 lr true factor Q = Ok (c, l0) -> Forall (fun m => m_n_actions m = nA /\ sas_finite m) (arg_mdps arg) -> @fit_learner b64 NumB c arg ts l0 = (l', Ok tt) ->
  exists acts q', observed (mdps_of (arg_val arg) (length ts)) ts acts /\ learner_q_values l' = QArr q' /\ length q' = nA /\ (Forall (fun a => a < nA)%nat acts -> forall b, (b < nA)%nat -> let n := length acts in let start := match Q with Some q => val (nth b q n0) | None => 0 end in
    finite (nth b q' n0) /\ Rabs (val (nth b q' n0) - weighted_average n (fun i => actual_rate (val lr) r (S i)) (fun i => if (nth i acts 0 =? b)%nat then 1 else 0) start) <= INR n * (5 / 10 ^ 16) + INR n * INR n * (3 / 10 ^ 16)).
Proof.
  intros lr r factor Q c l0 arg ts l' nA FL LL RP FF QU E FM FT. pose proof C206_float64 as RD. destruct C214_float64 as [TOP _].
  unfold td_learner64 in E. destruct (nltb n0 lr) eqn:P; [|discriminate]. cbn [negb] in E.
  rewrite (c_ltb _ _ _ _ ieee_computes _ _ _ _ (c_zero _ _ _ _ ieee_computes) (conj FL eq_refl : stands lr (val lr))) in P. unfold Rltb in P. destruct (Rlt_dec 0 (val lr)) as [P'|]; [|discriminate]. clear P.
  assert (EC : c = mkTD lr true factor (@onehot_reward b64 NumB)) by congruence. assert (EL : l0 = new_learner c Q) by congruence.
  set (QR := option_map (map val) Q).
  assert (ER : exists cR lR, td_learner_r float64 exp64 pow64 (val lr) (DecayFloat r) QR false (2 / 100) = Ok (cR, lR) /\ c_lr cR = val lr /\ c_decaying cR = true /\ c_reward cR = @onehot_reward R (NumF float64) /\ c_factor cR = decay_factor_r pow64 (DecayFloat r) /\ lR = new_learner cR QR).
  { unfold td_learner_r. cbn [decay_value]. unfold Rltb. destruct (Rlt_dec 0 (val lr)) as [_|X]; [|exfalso; lra]. cbn [negb]. destruct (Rlt_dec r 0) as [X|_]; [exfalso; lra|]. destruct (Rlt_dec 0 r) as [_|X]; [|exfalso; lra]. eexists _, _. split; [reflexivity|]. auto. }
  destruct ER as (cR & lR & ER & C1 & C2 & C3 & C5 & C4).
  assert (US : ustands lr (val lr)) by (apply unit_ustands; split; [exact FL|lra]).
  assert (QS : forall q, Forall unit64 q -> Forall2 ustands q (map val q)) by (induction 1; cbn [map]; constructor; [now apply unit_ustands|assumption]).
  assert (L0 : lsim l0 lR).
  { rewrite EL, C4. unfold new_learner. split; cbn [l_Q l_orig l_shared l_adj l_n l_done]; [unfold QR; destruct Q as [q|]; cbn [option_map qsim]; [apply QS, (QU _ eq_refl)|exact Logic.I]|unfold QR; destruct Q as [q|]; cbn [option_map qsim]; [apply QS, (QU _ eq_refl)|exact Logic.I]|reflexivity|rewrite EC, C1; exact US|reflexivity|apply le_n|reflexivity]. }
  assert (FS : Forall sas_finite (arg_mdps arg)) by (eapply Forall_impl; [|exact FM]; intros m [_ X]; exact X).
  assert (PS : forall n, (1 <= n)%nat -> rsim ustands (factor n) (Ok (pow64 (INR n) (- r)))).
  { intros n N. destruct (FF n N) as (f & -> & Ff & Vf). split; [split; [exact Ff|exact Vf]|]. apply (unit_rnd _ _ _ RD). pose proof (power_unit n r N RP). lra. }
  pose proof (fit_learnerS c cR arg ts l0 lR) as K. rewrite C1, C2, C3, C5, EC in K. cbn [c_lr c_decaying c_reward c_factor decay_factor_r] in K. specialize (K US eq_refl (fun _ => PS) onehotS FS L0). rewrite <- EC, FT in K.
  destruct (fit_learner_r float64 cR (arg_val arg) ts lR) as [lR' y] eqn:FR. destruct K as [K1 K2]. cbn [fst snd] in K1, K2. subst y.
  assert (NA : forall m, In m (mdps_of (arg_val arg) (length ts)) -> m_n_actions m = nA).
  { rewrite Forall_forall in FM. intros m I. destruct arg as [m0|ms]; cbn [arg_val mdps_of arg_mdps] in *; [apply repeat_spec in I; subst m; apply (FM m0); now left|]. apply in_map_iff in I. destruct I as (x & <- & I). apply (FM x I). }
  set (q0 := match Q with Some q => map val q | None => repeat 0 nA end).
  assert (ST : starts_from lR nA q0). { rewrite C4. unfold QR, q0. destruct Q as [q|]; cbn [option_map]; [left; split; [reflexivity|rewrite map_length; apply (QU _ eq_refl)]|right; auto]. }
  assert (QF : forall q, QR = Some q -> Forall (unit_float float64) q).
  { unfold QR. destruct Q as [q1|]; cbn [option_map]; [|discriminate]. intros q H. assert (H' : q = map val q1) by congruence. rewrite H'. apply Forall_map. eapply Forall_impl; [|apply (QU _ eq_refl)]. intros b UB. apply (unit_ustands b UB). }
  destruct (C214_decaying_rate float64 exp64 pow64 u64 eta64 u64 eta64 (u64 + eta64) RD TOP C212_exp64 exp64_one C214_pow64 (val lr) (DecayFloat r) QR false (2 / 100) LL (val_exact lr) QF r cR lR (arg_val arg) ts lR' nA q0 eq_refl RP ER NA ltac:(discriminate) ST FR) as (acts & qR & O & EQ & LQ & X).
  pose proof (ls_q _ _ K1) as QQ. unfold learner_q_values in EQ. rewrite EQ in QQ. destruct (l_Q l') as [| |q'] eqn:LQ'; cbn [qsim] in QQ; try contradiction.
  exists acts, q'. split; [exact O|]. split; [exact LQ'|]. split; [now rewrite (F2_length _ _ _ QQ)|]. intros FA b Hb n start. specialize (X FA b Hb). cbv zeta in X. fold n in X.
  pose proof (F2_nth ustands q' qR n0 0 QQ ustands_zero b) as [[FX VX] _]. split; [exact FX|]. rewrite VX.
  assert (S0 : nth b q0 0 = start). { unfold q0, start. destruct Q as [q|]; [apply nth_map_dd; apply (c_zero _ _ _ _ ieee_computes)|]. now rewrite nth_repeat_lt. }
  rewrite S0 in X. unfold shown in X. eapply Rle_trans; [exact X|]. unfold credit_error, step_error. rewrite Rplus_0_l. pose proof u64_small. pose proof eta64_small. pose proof (pos_INR n) as N0. apply Rplus_le_compat; apply Rmult_le_compat_l; [exact N0|lra|apply Rmult_le_pos; exact N0|lra].
Qed.

(** Two states and two actions, one for each state; the second action is observed, then both. *)
Definition mdp22 : mdp b64 := let z := @n0 b64 NumB in let i := @n1 b64 NumB in
  mkMDP None [[[i; z]; [z; i]]; [[i; z]; [z; i]]] [[[i; z]; [z; i]]; [[i; z]; [z; i]]] true [] 2 2 [[z; i]] [[z; i]] 1 1 0 [z; z].
Example C246_example : exists c l0 l', td_learner64 three_tenths false (fun _ => Err ValueError) None = Ok (c, l0) /\ finite three_tenths /\ val three_tenths <= 1 /\ Forall (fun m => m_n_actions m = 2%nat /\ sas_finite m) (arg_mdps (OneMDP mdp22)) /\
  @fit_learner b64 NumB c (OneMDP mdp22) [[0; 1]; [0; 1; 0]]%Z l0 = (l', Ok tt) /\ observed (mdps_of (arg_val (OneMDP mdp22)) 2) [[0; 1]; [0; 1; 0]]%Z [1; 1; 0]%nat.
Proof.
  pose proof three_tenths_stands as [TF TV]. pose proof lr64_bounds as LB.
  assert (Z0 : finite (@n0 b64 NumB)) by apply (c_zero _ _ _ _ ieee_computes). assert (I1 : finite (@n1 b64 NumB)) by apply (c_one _ _ _ _ ieee_computes).
  assert (FM : Forall (fun m => m_n_actions m = 2%nat /\ sas_finite m) (arg_mdps (OneMDP mdp22))).
  { apply Forall_cons; [|apply Forall_nil]. split; [reflexivity|]. unfold sas_finite. cbn [m_sas mdp22]. repeat (apply Forall_cons || apply Forall_nil); first [exact Z0|exact I1]. }
  assert (P : match td_learner64 three_tenths false (fun _ => Err ValueError) None with Ok (c, l0) => match snd (@fit_learner b64 NumB c (OneMDP mdp22) [[0; 1]; [0; 1; 0]]%Z l0) with Ok _ => true | Err _ => false end | Err _ => false end = true) by (lazy; reflexivity).
  destruct (td_learner64 three_tenths false (fun _ => Err ValueError) None) as [[c l0]|]; [|discriminate]. destruct (@fit_learner b64 NumB c (OneMDP mdp22) [[0; 1]; [0; 1; 0]]%Z l0) as [l' [[]|]] eqn:FT; [|discriminate]. clear P.
  exists c, l0, l'. split; [reflexivity|]. split; [exact TF|]. split; [rewrite TV; lra|]. split; [exact FM|]. split; [exact FT|].
  assert (SF : sas_finite mdp22) by (apply Forall_inv in FM; apply FM).
  assert (TK : forall s t sa, @trajectory_to_state_action b64 NumB mdp22 (s :: t) = Ok sa -> taken (mdp_val mdp22) (s :: t) (map snd sa)). { intros s t sa H. exists sa. split; [|reflexivity]. rewrite <- (traj_F float64), <- (trajS mdp22 (s :: t) SF). exact H. }
  apply (observed_more (mdp_val mdp22) [mdp_val mdp22] [0; 1]%Z [[0; 1; 0]]%Z [1]%nat [1; 0]%nat); [apply (TK 0 [1] [(0, 1%nat)])%Z; lazy; reflexivity|].
  apply (observed_more (mdp_val mdp22) [] [0; 1; 0]%Z [] [1; 0]%nat []); [apply (TK 0 [1; 0] [(0, 1%nat); (1, 0%nat)])%Z; lazy; reflexivity|]. apply observed_none.
Qed.
(** The hypotheses of C246_decaying are met with the decay 0.5, the default. *)
Definition to64 (x : R) : b64 := binary_normalize 53 1024 _ _ mode_NE (Ztrunc (scaled_mantissa radix2 (SpecFloat.fexp 53 1024) (float64 x))) (cexp radix2 (SpecFloat.fexp 53 1024) (float64 x)) false.
Lemma to64_exact : forall x, 0 <= x <= 1 -> finite (to64 x) /\ val (to64 x) = float64 x.
Proof.
  intros x B. unfold to64. pose proof (binary_normalize_correct 53 1024 _ _ mode_NE (Ztrunc (scaled_mantissa radix2 (SpecFloat.fexp 53 1024) (float64 x))) (cexp radix2 (SpecFloat.fexp 53 1024) (float64 x)) false) as K. cbv zeta in K.
  assert (G : generic_format radix2 (SpecFloat.fexp 53 1024) (float64 x)) by (apply generic_format_round; typeclasses eauto).
  rewrite <- G in K. change (round radix2 (SpecFloat.fexp 53 1024) (round_mode mode_NE) (float64 x)) with (float64 (float64 x)) in K. rewrite (rd_idem _ _ _ C206_float64) in K.
  destruct (unit_rnd _ _ _ C206_float64 x B) as [U _]. rewrite Rlt_bool_true in K; [|rewrite Rabs_pos_eq by lra; apply Rle_lt_trans with 1; [lra|]; change 1 with (bpow radix2 0); apply bpow_lt; reflexivity].
  destruct K as (K1 & K2 & _). split; [exact K2|exact K1].
Qed.
Example C246_decaying_example : exists c l0 l', let factor := fun n => Ok (to64 (Rpower (INR n) (- (1 / 2)))) in (forall n, (1 <= n)%nat -> exists f, factor n = Ok f /\ finite f /\ val f = float64 (Rpower (INR n) (- (1 / 2)))) /\ td_learner64 three_tenths true factor None = Ok (c, l0) /\
  @fit_learner b64 NumB c (OneMDP mdp22) [[0; 1]; [0; 1; 0]]%Z l0 = (l', Ok tt).
Proof.
  set (factor := fun n => Ok (to64 (Rpower (INR n) (- (1 / 2)))) : res b64).
  assert (FF : forall n, (1 <= n)%nat -> exists f, factor n = Ok f /\ finite f /\ val f = float64 (Rpower (INR n) (- (1 / 2)))). { intros n N. exists (to64 (Rpower (INR n) (- (1 / 2)))). split; [reflexivity|]. apply to64_exact. pose proof (power_unit n (1 / 2) N ltac:(lra)). lra. }
  assert (OK : forall f : nat -> b64, match td_learner64 three_tenths true (fun n => Ok (f n)) None with Ok (c, l0) => match snd (@fit_learner b64 NumB c (OneMDP mdp22) [[0; 1]; [0; 1; 0]]%Z l0) with Ok _ => true | Err _ => false end | Err _ => false end = true) by (intros f; lazy; reflexivity).
  specialize (OK (fun n => to64 (Rpower (INR n) (- (1 / 2))))). cbv beta in OK. change (fun n => Ok (to64 (Rpower (INR n) (- (1 / 2)))) : res b64) with factor in OK.
  destruct (td_learner64 three_tenths true factor None) as [[c l0]|] eqn:TD; [|discriminate]. destruct (@fit_learner b64 NumB c (OneMDP mdp22) [[0; 1]; [0; 1; 0]]%Z l0) as [l' [[]|]] eqn:FT; [|discriminate].
  exists c, l0, l'. cbv zeta. split; [exact FF|]. split; [exact TD|exact FT].
Qed.
