(** Property C159: a reward that is the same everywhere changes no preference, if no state is punished. *)
From Coq Require Import String List ZArith QArith Reals Bool Lia Lra Permutation.
From Verif Require Import PyBase PyProofs GridModel GridSpec GridProofs2 MDPModel MDPSpec MDPProofs2 MDPProofs3 MDPProps ActionModel ActionSpec ActionProofs RSum EnvModel EnvProps StepProps EnvProofs3 QueryModel VIModel VISpec VIProofs VIProofs2 VIProps VIEnvProps VIMono VIAnytime JourneyProps.
Import ListNotations.
Local Close Scope Q_scope.
Local Open Scope R_scope.

(** ** Specification *)

(** Every action leads somewhere for certain or is impossible; and from every state that can be entered there is a way on. *)
Definition certain (sas : list (list (list R))) : Prop := forall s a, (s < n_states sas)%nat -> (a < n_actions sas)%nat -> possible sas s a -> sumf (prob sas s a) (seq 0 (n_states sas)) = 1.
Definition can_act (sas : list (list (list R))) (s : nat) : Prop := exists a, (a < n_actions sas)%nat /\ possible sas s a.
Definition goes_on (sas : list (list (list R))) : Prop :=
  forall s a t, (s < n_states sas)%nat -> (a < n_actions sas)%nat -> (t < n_states sas)%nat -> 0 < prob sas s a t -> can_act sas t.

(** ** Proofs *)

Lemma can_act_dec : forall sas s, can_act sas s \/ ~ can_act sas s.
Proof.
  intros sas s. unfold can_act. induction (n_actions sas) as [|n IH]; [right; intros (a & L & _); lia|]. destruct IH as [(a & L & P)|N]; [left; exists a; auto|].
  destruct (possible_dec sas s n) as [P|P]; [left; exists n; auto|]. right. intros (a & L & Q). destruct (Nat.eq_dec a n) as [->|X]; [auto|]. apply N. exists a. split; [lia|exact Q].
Qed.
Lemma impossible_value : forall sas r g V s a, is_mdp sas -> (s < n_states sas)%nat -> (a < n_actions sas)%nat -> ~ possible sas s a -> action_value sas r g V s a = 0.
Proof.
  intros sas r g V s a M Hs Ha NP. unfold action_value. apply sumf_0. intros t Ht. apply in_seq in Ht. pose proof (p_nn sas M s a t Hs Ha ltac:(lia)) as P0.
  destruct (Req_dec (prob sas s a t) 0) as [->|X]; [ring|]. exfalso. apply NP. exists t. split; [lia|lra].
Qed.

Theorem C159_constant : forall sas r r' c g V V', is_mdp sas -> certain sas -> goes_on sas -> 0 <= g < 1 -> 0 <= c ->
  (forall t, (t < n_states sas)%nat -> 0 <= r t /\ r' t = r t + c) -> optimal sas r g V -> optimal sas r' g V' -> forall s, (s < n_states sas)%nat ->
  (can_act sas s -> V' s = V s + c / (1 - g) /\
     forall a, (a < n_actions sas)%nat -> possible sas s a -> action_value sas r' g V' s a = action_value sas r g V s a + c / (1 - g)) /\
  (~ can_act sas s -> V s = 0 /\ V' s = 0).
Proof.
  intros sas r r' c g V V' M CE GO G C0 HR O O'. set (d := c / (1 - g)).
  assert (DE : c + g * d = d) by (unfold d; field; lra). assert (D0 : 0 <= d) by (unfold d; apply Rmult_le_pos; [exact C0|left; apply Rinv_0_lt_compat; lra]).
  pose proof (values_nonneg sas r g V M G (fun t Ht => proj1 (HR t Ht)) O) as V0.
  assert (DEAD : forall r0 W s, optimal sas r0 g W -> (s < n_states sas)%nat -> ~ can_act sas s -> W s = 0).
  { intros r0 W s OW Hs N. destruct (OW s Hs) as [(a & Ha & <-) _]. apply impossible_value; auto. intros P. apply N. exists a. auto. }
  (* values shifted where something can be done *)
  assert (EX : exists U : nat -> R, forall s, (can_act sas s -> U s = V s + d) /\ (~ can_act sas s -> U s = 0)).
  { exists (fun s => if existsb (fun a => if possible_dec sas s a then true else false) (seq 0 (n_actions sas)) then V s + d else 0). intros s.
    destruct (existsb _ _) eqn:X.
    - split; [reflexivity|]. intros N. exfalso. apply N. apply existsb_exists in X. destruct X as (a & Ia & P). apply in_seq in Ia. destruct (possible_dec sas s a); [|discriminate]. exists a. split; [lia|assumption].
    - split; [|reflexivity]. intros (a & La & P). exfalso. assert (Y : true = false); [|discriminate]. rewrite <- X. symmetry. apply existsb_exists. exists a. split; [apply in_seq; lia|]. destruct (possible_dec sas s a); [reflexivity|contradiction]. }
  destruct EX as (U & HU).
  assert (AV : forall s a, (s < n_states sas)%nat -> (a < n_actions sas)%nat -> possible sas s a -> action_value sas r' g U s a = action_value sas r g V s a + d).
  { intros s a Hs Ha P. unfold action_value. transitivity (sumf (fun t => prob sas s a t * (r t + g * V t) + d * prob sas s a t) (seq 0 (n_states sas))).
    - apply sumf_ext. intros t Ht. apply in_seq in Ht. pose proof (p_nn sas M s a t Hs Ha ltac:(lia)) as P0. destruct (Req_dec (prob sas s a t) 0) as [->|X]; [ring|].
      destruct (HU t) as [HU1 _]. rewrite HU1 by (apply (GO s a t); auto; [lia|lra]). rewrite (proj2 (HR t ltac:(lia))). replace (r t + c + g * (V t + d)) with (r t + g * V t + (c + g * d)) by ring. rewrite DE. ring.
    - rewrite sumf_add, sumf_scal. rewrite (CE s a Hs Ha P). ring. }
  assert (OU : optimal sas r' g U).
  { intros s Hs. destruct (can_act_dec sas s) as [CA|NC].
    - rewrite (proj1 (HU s) CA). destruct (O s Hs) as [(b & Hb & EB) B]. split.
      + destruct (possible_dec sas s b) as [P|P]; [exists b; split; [exact Hb|]; rewrite AV by auto; lra|].
        rewrite impossible_value in EB by auto. destruct CA as (a & Ha & PA). exists a. split; [exact Ha|]. rewrite AV by auto. specialize (B a Ha). rewrite <- EB in *.
        assert (0 <= action_value sas r g V s a); [|lra]. unfold action_value. apply sumf_nonneg. intros t Ht. apply in_seq in Ht. pose proof (p_nn sas M s a t Hs Ha ltac:(lia)). specialize (V0 t ltac:(lia)). pose proof (proj1 (HR t ltac:(lia))).
        apply Rmult_le_pos; [lra|]. apply Rplus_le_le_0_compat; [lra|]. apply Rmult_le_pos; lra.
      + intros a Ha. destruct (possible_dec sas s a) as [P|P]; [rewrite AV by auto; specialize (B a Ha); lra|]. rewrite impossible_value by auto. specialize (V0 s Hs). lra.
    - rewrite (proj2 (HU s) NC). assert (Z : forall a, (a < n_actions sas)%nat -> action_value sas r' g U s a = 0) by (intros a Ha; apply impossible_value; auto; intros P; apply NC; exists a; auto).
      split; [exists 0%nat; split; [apply M|apply Z, M]|]. intros a Ha. rewrite Z by exact Ha. lra. }
  destruct (C29_unique_solution sas r' g M G) as (W & OW & UW). assert (EQ : forall s, (s < n_states sas)%nat -> V' s = U s) by (intros s Hs; rewrite (UW V' O' s Hs), (UW U OU s Hs); reflexivity).
  intros s Hs. split; [|intros NC; split; [eapply DEAD; eauto|eapply DEAD; [exact O'|exact Hs|exact NC]]].
  intros CA. split; [rewrite EQ by exact Hs; apply (proj1 (HU s) CA)|]. intros a Ha P. rewrite <- (AV s a Hs Ha P). unfold action_value. apply sumf_ext. intros t Ht. apply in_seq in Ht. rewrite EQ by lia. reflexivity.
Qed.

(** On grids with any walls. *)
Theorem C159_grids : forall k feats w0 shape st m0 calls rf rf' ft' c g, grid_mdp (A:=R) k feats w0 shape st = Ok m0 -> let m := after_wall_calls m0 calls in 0 < g < 1 -> 0 <= c ->
  (forall t, (t < fst shape * snd shape)%nat -> 0 <= reward_of rf (m_features m) t /\ reward_of rf' ft' t = reward_of rf (m_features m) t + c) ->
  (forall V V' s, (s < fst shape * snd shape)%nat -> optimal (m_sas m) (reward_of rf (m_features m)) g V -> optimal (m_sas m) (reward_of rf' ft') g V' ->
     forall a b, (a < actions_of k st)%nat -> (b < actions_of k st)%nat -> possible (m_sas m) s a -> possible (m_sas m) s b ->
     (action_value (m_sas m) (reward_of rf (m_features m)) g V s a <= action_value (m_sas m) (reward_of rf (m_features m)) g V s b <->
      action_value (m_sas m) (reward_of rf' ft') g V' s a <= action_value (m_sas m) (reward_of rf' ft') g V' s b)) /\
  (forall j tol rho v q v' q', (forall t, (t < fst shape * snd shape)%nat -> reward_of rf' ft' t <= rho) -> (1 + g) * g ^ j * (rho / (1 - g)) < tol ->
     solve_value_iteration hard_backup rf (m_features m) (Z.of_nat (S j)) g (m_sas m) tol = Ok (v, q) ->
     solve_value_iteration hard_backup rf' ft' (Z.of_nat (S j)) g (m_sas m) tol = Ok (v', q') ->
     forall s, (s < fst shape * snd shape)%nat -> can_act (m_sas m) s -> Rabs (nth s v' 0 - (nth s v 0 + c / (1 - g))) <= 2 * (g * tol / (1 - g))).
Proof.
  intros k feats w0 shape st m0 calls rf rf' ft' c g E m G C0 HR.
  destruct (grid_mdp_inv _ _ _ _ _ _ E) as (_ & _ & _ & _ & I0 & _). destruct (after_wall_calls_inv calls _ _ _ _ I0) as [I _]. fold m in I.
  destruct (grid_shape _ _ _ _ I) as (N & NA & _). pose proof (grid_is_mdp _ _ _ _ I) as M. change (fst shape * snd shape)%nat with (nst shape) in *.
  assert (PE : forall s a t, (s < nst shape)%nat -> (a < actions_of k st)%nat -> (t < nst shape)%nat -> 0 < prob (m_sas m) s a t -> prob (m_sas m) s a t = 1 /\ walled_edge k shape st (m_walls m) s a t).
  { intros s a t Hs Ha Ht P. rewrite <- (get3_prob (m_sas m)) in *. destruct (inv_edge _ _ _ _ I s a t Hs Ha Ht) as [X|[X _]]; [exact X|lra]. }
  assert (CE : certain (m_sas m)).
  { intros s a Hs Ha (t & Ht & P). rewrite N in *. rewrite NA in Ha. destruct (PE s a t Hs Ha Ht P) as [P1 W]. rewrite (sumf_single _ _ t); [exact P1|apply seq_NoDup|apply in_seq; lia|].
    intros u Hu NE. apply in_seq in Hu. rewrite <- (get3_prob (m_sas m)). destruct (inv_edge _ _ _ _ I s a u Hs Ha ltac:(lia)) as [[_ W']|[X _]]; [|exact X].
    exfalso. apply NE. pose proof (pos_snd _ (gi_pos _ _ _ _ I)) as PS. destruct W as [W _]. destruct W' as [W' _]. apply (proj1 (C05_deterministic k shape st ltac:(lia)) s a); assumption. }
  assert (GO : goes_on (m_sas m)).
  { intros s a t Hs Ha Ht P. rewrite N in *. rewrite NA in Ha. destruct (PE s a t Hs Ha Ht P) as [_ W]. apply back_edge in W. exists (opposite k a). pose proof (edge_action _ _ _ _ _ _ (proj1 W)) as LA. rewrite NA. split; [exact LA|]. exists s. rewrite N. split; [exact Hs|].
    rewrite <- (get3_prob (m_sas m)). destruct (inv_edge _ _ _ _ I t (opposite k a) s Ht LA Hs) as [[X _]|[_ X]]; [rewrite X; lra|contradiction]. }
  assert (K : forall V V', optimal (m_sas m) (reward_of rf (m_features m)) g V -> optimal (m_sas m) (reward_of rf' ft') g V' -> forall s, (s < nst shape)%nat -> can_act (m_sas m) s -> V' s = V s + c / (1 - g) /\
     forall a, (a < actions_of k st)%nat -> possible (m_sas m) s a -> action_value (m_sas m) (reward_of rf' ft') g V' s a = action_value (m_sas m) (reward_of rf (m_features m)) g V s a + c / (1 - g)).
  { intros V V' O O' s Hs CA. rewrite <- NA. eapply (C159_constant (m_sas m)); eauto; [lra|now rewrite N|now rewrite N]. }
  split.
  - intros V V' s Hs O O' a b Ha Hb PA PB. destruct (K V V' O O' s Hs) as [_ X]; [exists a; now rewrite NA|]. rewrite (X a Ha PA), (X b Hb PB). lra.
  - intros j tol rho v q v' q' HB HK E1 E2 s Hs CA.
    assert (B1 : forall t, (t < n_states (m_sas m))%nat -> Rabs (reward_of rf (m_features m) t) <= rho). { intros t Ht. rewrite N in Ht. destruct (HR t Ht) as [H1 H2]. specialize (HB t Ht). rewrite Rabs_pos_eq by exact H1. lra. }
    assert (B2 : forall t, (t < n_states (m_sas m))%nat -> Rabs (reward_of rf' ft' t) <= rho). { intros t Ht. rewrite N in Ht. destruct (HR t Ht) as [H1 H2]. specialize (HB t Ht). rewrite Rabs_pos_eq by lra. lra. }
    destruct (fitted_near (m_sas m) rf (m_features m) g j tol rho v q M G B1 HK E1) as (V & O & X). destruct (fitted_near (m_sas m) rf' ft' g j tol rho v' q' M G B2 HK E2) as (V' & O' & X').
    destruct (K V V' O O' s Hs CA) as [Y _]. rewrite N in *. specialize (X s Hs). specialize (X' s Hs). cbn beta in X, X'. rewrite Y in X'.
    clear - X X'. unfold Rabs in *. repeat destruct (Rcase_abs _) in X; repeat destruct (Rcase_abs _) in X'; destruct (Rcase_abs _); lra.
Qed.

(** A corridor with a reward at its end, one more everywhere, and two less everywhere: the last makes standing still at the end, which is impossible,
    look best, and all values zero. *)
Example C159_example : corridor [0; 0; 1]%Q None 11 (1 # 2) (1 # 10) = Ok [21 # 32; 85 # 64; 85 # 128]%Q /\
  corridor [1; 1; 2]%Q None 11 (1 # 2) (1 # 10) = Ok [85 # 32; 213 # 64; 341 # 128]%Q /\ corridor [-2; -2; -1]%Q None 11 (1 # 2) (1 # 10) = Ok [0; 0; 0]%Q.
Proof. vm_compute. auto. Qed.
