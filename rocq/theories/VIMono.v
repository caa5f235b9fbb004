(** Property C144: larger rewards and fewer walls never lower the values of a plan. *)
From Coq Require Import String List ZArith QArith Reals Bool Lia Lra.
From Verif Require Import PyBase PyProofs GridModel GridSpec MDPModel MDPSpec MDPProofs2 MDPProofs3 MDPProps ActionModel ActionSpec ActionProofs RSum EnvModel EnvProps StepProps EnvProofs3 QueryModel VIModel VISpec VIProofs VIProofs2 VIProps VIEnvProps.
Import ListNotations.
Local Close Scope Q_scope.
Local Open Scope R_scope.

Lemma upto : forall n g (V V' : nat -> R), 0 <= g < 1 ->
  (forall D, 0 <= D -> (forall t, (t < n)%nat -> V t <= V' t + D) -> forall s, (s < n)%nat -> V s <= V' s + g * D) -> forall s, (s < n)%nat -> V s <= V' s.
Proof.
  intros n g V V' G H s Hs. destruct (bounded n V V') as (c & C0 & N).
  assert (K : forall k t, (t < n)%nat -> V t <= V' t + g ^ k * c).
  { induction k as [|k IH]; intros t Ht.
    - cbn [pow]. specialize (N t Ht). pose proof (Rle_abs (V t - V' t)). lra.
    - cbn [pow]. rewrite Rmult_assoc. apply H; [apply Rmult_le_pos; [apply pow_le|]; lra|exact IH|exact Ht]. }
  apply Rnot_lt_le. intros X. destruct (pow_small g ltac:(lra) c (V s - V' s)) as (k & Hk); [lra|]. specialize (K k s Hs). lra.
Qed.
Lemma av_le : forall sas s a (f h : nat -> R) D, is_mdp sas -> (s < n_states sas)%nat -> (a < n_actions sas)%nat -> 0 <= D -> (forall t, (t < n_states sas)%nat -> f t <= h t + D) ->
  sumf (fun t => prob sas s a t * f t) (seq 0 (n_states sas)) <= sumf (fun t => prob sas s a t * h t) (seq 0 (n_states sas)) + D.
Proof.
  intros sas s a f h D M Hs Ha D0 H. apply Rle_trans with (sumf (fun t => prob sas s a t * h t + D * prob sas s a t) (seq 0 (n_states sas))).
  - apply sumf_le. intros t Ht. apply in_seq in Ht. pose proof (p_nn sas M s a t Hs Ha ltac:(lia)) as PN. specialize (H t ltac:(lia)). nra.
  - rewrite sumf_add, sumf_scal. pose proof (p_sum sas M s a Hs Ha) as PS. assert (D * sumf (prob sas s a) (seq 0 (n_states sas)) <= D * 1) by (now apply Rmult_le_compat_l). lra.
Qed.

(** ** The best values *)

(** Rewards no smaller give best values no smaller. *)
Theorem C144_rewards : forall sas r r' g V V', is_mdp sas -> 0 <= g < 1 -> (forall t, (t < n_states sas)%nat -> r t <= r' t) ->
  optimal sas r g V -> optimal sas r' g V' -> forall s, (s < n_states sas)%nat -> V s <= V' s.
Proof.
  intros sas r r' g V V' M G HR O O'. apply (upto _ g _ _ G). intros D D0 H s Hs. destruct (O s Hs) as [(a & Ha & <-) _]. destruct (O' s Hs) as [_ B]. specialize (B a Ha).
  apply Rle_trans with (action_value sas r' g V' s a + g * D); [|lra]. apply av_le; auto; [apply Rmult_le_pos; lra|]. intros t Ht. specialize (H t Ht). specialize (HR t Ht). nra.
Qed.
Lemma values_nonneg : forall sas r g V, is_mdp sas -> 0 <= g < 1 -> (forall t, (t < n_states sas)%nat -> 0 <= r t) -> optimal sas r g V -> forall s, (s < n_states sas)%nat -> 0 <= V s.
Proof.
  intros sas r g V M G HR O. apply (upto _ g (fun _ => 0) V G). intros D D0 H s Hs. destruct (O s Hs) as [_ B]. specialize (B 0%nat (proj1 M)).
  apply Rle_trans with (action_value sas r g V s 0 + g * D); [|lra].
  replace 0 with (sumf (fun t => prob sas s 0 t * 0) (seq 0 (n_states sas))) at 1 by (apply sumf_0; intros; ring).
  apply av_le; auto; [apply M|apply Rmult_le_pos; lra|]. intros t Ht. specialize (H t Ht). specialize (HR t Ht). nra.
Qed.
(** Where no state is punished, taking possibilities away gives best values no larger. *)
Lemma fewer_moves : forall sas sas' r g V V', is_mdp sas -> is_mdp sas' -> n_states sas' = n_states sas -> n_actions sas' = n_actions sas -> 0 <= g < 1 ->
  (forall s a t, (s < n_states sas)%nat -> (a < n_actions sas)%nat -> (t < n_states sas)%nat -> prob sas' s a t <= prob sas s a t) ->
  (forall t, (t < n_states sas)%nat -> 0 <= r t) -> optimal sas r g V -> optimal sas' r g V' -> forall s, (s < n_states sas)%nat -> V' s <= V s.
Proof.
  intros sas sas' r g V V' M M' EN EA G HP HR O O'. pose proof (values_nonneg sas r g V M G HR O) as V0. apply (upto _ g _ _ G). intros D D0 H s Hs.
  rewrite <- EN in Hs. destruct (O' s Hs) as [(a & Ha & <-) _]. rewrite EN in Hs. rewrite EA in Ha. destruct (O s Hs) as [_ B]. specialize (B a Ha).
  apply Rle_trans with (action_value sas r g V s a + g * D); [|lra]. apply Rle_trans with (action_value sas' r g V s a + g * D).
  - unfold action_value. apply av_le; auto; [lia|lia|apply Rmult_le_pos; lra|]. rewrite EN. intros t Ht. specialize (H t Ht). nra.
  - apply Rplus_le_compat_r. unfold action_value. rewrite EN. apply sumf_le. intros t Ht. apply in_seq in Ht. apply Rmult_le_compat_r; [|apply HP; lia].
    specialize (HR t ltac:(lia)). specialize (V0 t ltac:(lia)). nra.
Qed.

Lemma fitted_near : forall sas rf ft g k tol rho v q, is_mdp sas -> 0 < g < 1 -> (forall t, (t < n_states sas)%nat -> Rabs (reward_of rf ft t) <= rho) ->
  (1 + g) * g ^ k * (rho / (1 - g)) < tol -> solve_value_iteration hard_backup rf ft (Z.of_nat (S k)) g sas tol = Ok (v, q) ->
  exists V, optimal sas (reward_of rf ft) g V /\ near (n_states sas) (g * tol / (1 - g)) (fun s => nth s v 0) V.
Proof.
  intros sas rf ft g k tol rho v q M G HR HK E. destruct (C29_unique_solution sas (reward_of rf ft) g M ltac:(lra)) as (V & O & _). exists V. split; [exact O|].
  destruct (Nat.eq_dec (n_states sas) 0) as [Z|NZ]; [intros s Hs; lia|].
  assert (L : length rf = length ft). { unfold solve_value_iteration in E. destruct (negb (_ && _)); [discriminate|]. destruct (Nat.eqb_spec (length rf) (length ft)); [assumption|discriminate]. }
  assert (R0 : 0 <= rho) by (eapply Rle_trans; [apply Rabs_pos|apply (HR 0%nat); lia]).
  assert (Q0 : 0 <= rho / (1 - g)) by (apply Rmult_le_pos; [exact R0|left; apply Rinv_0_lt_compat; lra]).
  destruct (C29_solver sas rf ft k g tol V (rho / (1 - g)) M G L O (C29_solution_bounded _ _ _ _ _ M (conj (Rlt_le _ _ (proj1 G)) (proj2 G)) O HR) Q0) as (v2 & q2 & E2 & _ & _ & C).
  rewrite E in E2. apply (f_equal (fun x => match x with Ok (y, _) => y | Err _ => [] end)) in E2. subst v2. now apply C.
Qed.
(** The fitted values follow them, up to the tolerance. *)
Theorem C144_fitted : forall sas rf ft rf' ft' g k tol rho v q v' q', is_mdp sas -> 0 < g < 1 ->
  (forall t, (t < n_states sas)%nat -> reward_of rf ft t <= reward_of rf' ft' t /\ Rabs (reward_of rf ft t) <= rho /\ Rabs (reward_of rf' ft' t) <= rho) ->
  (1 + g) * g ^ k * (rho / (1 - g)) < tol ->
  solve_value_iteration hard_backup rf ft (Z.of_nat (S k)) g sas tol = Ok (v, q) ->
  solve_value_iteration hard_backup rf' ft' (Z.of_nat (S k)) g sas tol = Ok (v', q') ->
  forall s, (s < n_states sas)%nat -> nth s v 0 <= nth s v' 0 + 2 * (g * tol / (1 - g)).
Proof.
  intros sas rf ft rf' ft' g k tol rho v q v' q' M G HR HK E E' s Hs.
  destruct (fitted_near sas rf ft g k tol rho v q M G (fun t Ht => proj1 (proj2 (HR t Ht))) HK E) as (V & O & N).
  destruct (fitted_near sas rf' ft' g k tol rho v' q' M G (fun t Ht => proj2 (proj2 (HR t Ht))) HK E') as (V' & O' & N').
  pose proof (C144_rewards sas _ _ g V V' M ltac:(lra) (fun t Ht => proj1 (HR t Ht)) O O' s Hs) as X. specialize (N s Hs). specialize (N' s Hs). cbn beta in N, N'.
  unfold Rabs in N, N'. destruct (Rcase_abs _) in N; destruct (Rcase_abs _) in N'; lra.
Qed.

(** ** C145: walls *)

Lemma wall_probs : forall k shape st m m', grid_inv k shape st m -> grid_inv k shape st m' -> (forall s, (s < nst shape)%nat -> is_wall (m_walls m) s -> is_wall (m_walls m') s) ->
  forall s a t, (s < nst shape)%nat -> (a < actions_of k st)%nat -> (t < nst shape)%nat -> prob (m_sas m') s a t <= prob (m_sas m) s a t.
Proof.
  intros k shape st m m' I I' H s a t Hs Ha Ht. rewrite <- (get3_prob (m_sas m)), <- (get3_prob (m_sas m')).
  destruct (inv_edge _ _ _ _ I s a t Hs Ha Ht) as [[E W]|[E W]]; destruct (inv_edge _ _ _ _ I' s a t Hs Ha Ht) as [[E' W']|[E' W']]; rewrite E, E'; try lra.
  exfalso. apply W. destruct W' as (W1 & W2 & W3). repeat split; [exact W1| |]; intros X; [apply W2|apply W3]; apply H; auto.
Qed.
(** If no state is punished, a grid with more walls has best values no larger, and fitted values no larger up to the tolerance. *)
Theorem C145_walls_partial : forall k feats w0 shape st m0 calls calls' rf g, grid_mdp (A:=R) k feats w0 shape st = Ok m0 ->
  let m := after_wall_calls m0 calls in let m' := after_wall_calls m0 calls' in
  (forall s, (s < nst shape)%nat -> is_wall (m_walls m) s -> is_wall (m_walls m') s) -> 0 < g < 1 ->
  (forall t, (t < nst shape)%nat -> 0 <= reward_of rf (m_features m) t) -> m_features m' = m_features m /\
  (forall V V', optimal (m_sas m) (reward_of rf (m_features m)) g V -> optimal (m_sas m') (reward_of rf (m_features m')) g V' -> forall s, (s < nst shape)%nat -> V' s <= V s) /\
  (forall j tol rho v q v' q', (forall t, (t < nst shape)%nat -> reward_of rf (m_features m) t <= rho) -> (1 + g) * g ^ j * (rho / (1 - g)) < tol ->
     solve_value_iteration hard_backup rf (m_features m) (Z.of_nat (S j)) g (m_sas m) tol = Ok (v, q) ->
     solve_value_iteration hard_backup rf (m_features m') (Z.of_nat (S j)) g (m_sas m') tol = Ok (v', q') ->
     forall s, (s < nst shape)%nat -> nth s v' 0 <= nth s v 0 + 2 * (g * tol / (1 - g))).
Proof.
  intros k feats w0 shape st m0 calls calls' rf g E m m' HW G HR.
  destruct (grid_clean _ _ _ _ _ _ calls E) as (_ & _ & F & _). destruct (grid_clean _ _ _ _ _ _ calls' E) as (_ & _ & F' & _). fold m in F. fold m' in F'.
  destruct (grid_mdp_inv _ _ _ _ _ _ E) as (_ & _ & _ & _ & I0 & _). destruct (after_wall_calls_inv calls _ _ _ _ I0) as [I _]. destruct (after_wall_calls_inv calls' _ _ _ _ I0) as [I' _]. fold m in I. fold m' in I'.
  destruct (grid_shape _ _ _ _ I) as (N & NA & _). destruct (grid_shape _ _ _ _ I') as (N' & NA' & _). pose proof (grid_is_mdp _ _ _ _ I) as M. pose proof (grid_is_mdp _ _ _ _ I') as M'.
  assert (FE : m_features m' = m_features m) by congruence. split; [exact FE|]. rewrite FE.
  assert (BV : forall V V', optimal (m_sas m) (reward_of rf (m_features m)) g V -> optimal (m_sas m') (reward_of rf (m_features m)) g V' -> forall s, (s < nst shape)%nat -> V' s <= V s).
  { intros V V' O O' s Hs. rewrite <- N in Hs. revert s Hs. apply (fewer_moves (m_sas m) (m_sas m') (reward_of rf (m_features m)) g V V' M M'); auto; try congruence; try lra; rewrite N; try rewrite NA; auto.
    apply (wall_probs k shape st m m' I I' HW). }
  split; [exact BV|]. intros j tol rho v q v' q' HB HK E1 E2 s Hs.
  assert (HA : forall t, (t < nst shape)%nat -> Rabs (reward_of rf (m_features m) t) <= rho) by (intros t Ht; rewrite Rabs_pos_eq by (apply HR; exact Ht); now apply HB).
  destruct (fitted_near (m_sas m) rf (m_features m) g j tol rho v q M G ltac:(rewrite N; exact HA) HK E1) as (V & O & X).
  destruct (fitted_near (m_sas m') rf (m_features m) g j tol rho v' q' M' G ltac:(rewrite N'; exact HA) HK E2) as (V' & O' & X').
  pose proof (BV V V' O O' s Hs) as Y. rewrite N in X. rewrite N' in X'. specialize (X s Hs). specialize (X' s Hs). cbn beta in X, X'.
  unfold Rabs in X, X'. destruct (Rcase_abs _) in X; destruct (Rcase_abs _) in X'; lra.
Qed.

(** The same, as C177: a property of its own. *)
Theorem C177_walls : forall k feats w0 shape st m0 calls calls' rf g, grid_mdp (A:=R) k feats w0 shape st = Ok m0 ->
  let m := after_wall_calls m0 calls in let m' := after_wall_calls m0 calls' in
  (forall s, (s < nst shape)%nat -> is_wall (m_walls m) s -> is_wall (m_walls m') s) -> 0 < g < 1 ->
  (forall t, (t < nst shape)%nat -> 0 <= reward_of rf (m_features m) t) -> m_features m' = m_features m /\
  (forall V V', optimal (m_sas m) (reward_of rf (m_features m)) g V -> optimal (m_sas m') (reward_of rf (m_features m')) g V' -> forall s, (s < nst shape)%nat -> V' s <= V s) /\
  (forall j tol rho v q v' q', (forall t, (t < nst shape)%nat -> reward_of rf (m_features m) t <= rho) -> (1 + g) * g ^ j * (rho / (1 - g)) < tol ->
     solve_value_iteration hard_backup rf (m_features m) (Z.of_nat (S j)) g (m_sas m) tol = Ok (v, q) ->
     solve_value_iteration hard_backup rf (m_features m') (Z.of_nat (S j)) g (m_sas m') tol = Ok (v', q') ->
     forall s, (s < nst shape)%nat -> nth s v' 0 <= nth s v 0 + 2 * (g * tol / (1 - g))).
Proof. exact (@C145_walls_partial). Qed.
(** With punished states a wall can raise them: in the middle of a 3 x 3 grid where every state is punished, a wall beside the agent raises the value of
    its state from minus one to zero, as the blocked action counts as having no cost. *)
Theorem C145_walls_refuted : let pl := (vi_greedy (9 # 10) (1 # 100) 100)%Q in exists m m' e e1 e2 e3 a1 v1 q1 a3 v3 q3,
  grid_mdp (A:=Q) Square [[1; 1; 1; 1; 1; 1; 1; 1; 1]%Q] None (3, 3)%nat false = Ok m /\
  make_env m [mkSpec "p"%string 1%Z None 4%Z [- (1); 0]%Q []] = (m', Ok e) /\ env_fit pl e "p" None 0%nat 0%nat = (e1, Ok tt) /\
  run pl e1 [OSetWalls [0; 1; 0; 0; 0; 0; 0; 0; 0]%Q] = e2 /\ env_fit pl e2 "p" None 0%nat 0%nat = (e3, Ok tt) /\
  lookup e1 "p" = Ok a1 /\ at_fit a1 = Some (v1, q1) /\ nth 4 v1 NaN = Fin (- (1))%Q /\
  lookup e3 "p" = Ok a3 /\ at_fit a3 = Some (v3, q3) /\ nth 4 v3 NaN = Fin 0%Q.
Proof. cbv zeta. do 12 eexists. vmr. Qed.

(** The hypotheses are met: eleven sweeps are enough for this discount and tolerance, and in a corridor with a reward at its end, doubling the reward
    raises the fitted values and a wall lowers them. *)
Example C144_sweeps : (1 + 1 / 2) * (1 / 2) ^ 10 * (1 / (1 - 1 / 2)) < 1 / 10.
Proof. lra. Qed.
Example C144_example : let pl := (vi_greedy (1 # 2) (1 # 10) 11)%Q in exists m m1 e1 f1 a1 q1 m2 e2 f2 a2 q2,
  grid_mdp (A:=Q) Square [[0; 0; 1]%Q] None (3, 1)%nat false = Ok m /\
  make_env m [mkSpec "p"%string 1%Z None 0%Z [1 # 2; 0]%Q []] = (m1, Ok e1) /\ env_fit pl e1 "p" None 0%nat 0%nat = (f1, Ok tt) /\
  make_env m [mkSpec "p"%string 1%Z None 0%Z [1; 0]%Q []] = (m2, Ok e2) /\ env_fit pl e2 "p" None 0%nat 0%nat = (f2, Ok tt) /\
  lookup f1 "p" = Ok a1 /\ at_fit a1 = Some ([Fin (5 # 16); Fin (21 # 32); Fin (21 # 64)]%Q, q1) /\
  lookup f2 "p" = Ok a2 /\ at_fit a2 = Some ([Fin (21 # 32); Fin (85 # 64); Fin (85 # 128)]%Q, q2).
Proof. cbv zeta. do 11 eexists. vmr. Qed.
Example C145_example : let pl := (vi_greedy (1 # 2) (1 # 10) 11)%Q in exists m m1 e1 f1 a1 q1 f2 a2 q2,
  grid_mdp (A:=Q) Square [[0; 0; 1]%Q] None (3, 1)%nat false = Ok m /\
  make_env m [mkSpec "p"%string 1%Z None 0%Z [1; 0]%Q []] = (m1, Ok e1) /\ env_fit pl e1 "p" None 0%nat 0%nat = (f1, Ok tt) /\
  env_fit pl (run pl f1 [OSetWalls [0; 1; 0]%Q]) "p" None 0%nat 0%nat = (f2, Ok tt) /\
  lookup f1 "p" = Ok a1 /\ at_fit a1 = Some ([Fin (21 # 32); Fin (85 # 64); Fin (85 # 128)]%Q, q1) /\
  lookup f2 "p" = Ok a2 /\ at_fit a2 = Some ([Fin 0; Fin 0; Fin 0]%Q, q2).
Proof. cbv zeta. do 9 eexists. vmr. Qed.
