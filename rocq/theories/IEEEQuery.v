(** C249: questions about an MDP whose numbers are IEEE 754 double precision numbers. *)
From Coq Require Import String List ZArith Reals Bool Lia Lra Arith.
From Flocq Require Import Core BinarySingleNaN.
From Verif Require Import PyBase PyProofs GridModel MDPModel MDPSpec EnvModel RoundModel RoundSpec RoundProofs RoundProps RoundExample IEEEModel SimRound SimMDP SimEnv IEEE IEEEEnv IEEEPolicy PLRound.
Import ListNotations.
Local Open Scope R_scope.

#[local] Existing Instance NumB.

Lemma colR : forall m i j, sas_finite m -> Forall2 stands (@sas_col b64 NumB m i j) (@sas_col R NumR (mdp_val m) i j).
Proof. exact colS. Qed.
Lemma maxR : forall l' l, Forall2 stands l' l -> rsim stands (@nmax_list b64 NumB l') (@nmax_list R NumR l).
Proof. exact maxS. Qed.
Lemma positiveS : forall b x, stands b x -> @nltb b64 NumB n0 b = @nltb R NumR n0 x.
Proof. intros b x S. exact (c_ltb _ _ _ _ ieee_computes _ _ _ _ (c_zero _ _ _ _ ieee_computes) S). Qed.
Lemma whereS : forall {X Y} (P : X -> Y -> Prop) (f : X -> bool) (g : Y -> bool) l' l, (forall x y, P x y -> f x = g y) -> Forall2 P l' l -> where_ f l' = where_ g l.
Proof. intros X Y P f g l' l K H. unfold where_. generalize 0%nat. induction H as [|x y l' l XY _ IH]; intros i; [reflexivity|]. cbn. rewrite (K _ _ XY), IH. reflexivity. Qed.

(** Every question gets the answer it gets about the MDP with the real numbers that the numbers stand for; the same errors are raised. *)
Theorem C249_same_answers : forall m, Forall (Forall (Forall finite)) (m_sas m) ->
  (forall t, @trajectory_to_state_action b64 NumB m t = @trajectory_to_state_action R NumR (mdp_val m) t) /\
  (forall s1 s2 mx, @state_pair_to_action b64 NumB m s1 s2 mx = @state_pair_to_action R NumR (mdp_val m) s1 s2 mx) /\
  (forall s1 s2, @is_adjacent b64 NumB m s1 s2 = @is_adjacent R NumR (mdp_val m) s1 s2) /\
  (forall s, @state_valid_actions b64 NumB m s = @state_valid_actions R NumR (mdp_val m) s) /\
  (forall s a, @get_next_state b64 NumB m s a = @get_next_state R NumR (mdp_val m) s a).
Proof.
  intros m F. assert (SF : sas_finite m) by exact F. split; [|split; [|split; [|split]]].
  - intros t. rewrite (trajS m t SF). apply traj_F.
  - intros s1 s2 mx. unfold state_pair_to_action. change (m_n_states (mdp_val m)) with (m_n_states m). destruct (py_index (m_n_states m) s1) as [i|]; [|reflexivity]. cbn [bind]. destruct (py_index (m_n_states m) s2) as [j|]; [|reflexivity]. cbn [bind]. pose proof (colR m i j SF) as C.
    pose proof (maxR _ _ C) as X. destruct (@nmax_list b64 NumB (sas_col m i j)) as [a|e], (@nmax_list R NumR (sas_col (mdp_val m) i j)) as [b|e']; cbn [rsim] in X; try contradiction; cbn [bind]; [|congruence].
    rewrite (positiveS _ _ X). destruct (nltb n0 b); [|reflexivity]. destruct mx; f_equal; [now rewrite (argmaxS NumB stands float64 _ ieee_computes _ _ C)|]. exact (whereS stands _ _ _ _ positiveS C).
  - intros s1 s2. unfold is_adjacent. change (m_n_states (mdp_val m)) with (m_n_states m). destruct (py_index (m_n_states m) s1) as [i|]; [|reflexivity]. cbn [bind]. destruct (py_index (m_n_states m) s2) as [j|]; [|reflexivity]. cbn [bind]. f_equal.
    pose proof (colR m i j SF) as C. induction C as [|x y l l' XY _ IH]; [reflexivity|]. cbn [existsb]. rewrite (positiveS _ _ XY), IH. reflexivity.
  - intros s. unfold state_valid_actions. change (m_n_states (mdp_val m)) with (m_n_states m). destruct (py_index (m_n_states m) s) as [i|]; [|reflexivity]. cbn [bind]. f_equal. cbn [m_sas mdp_val].
    pose proof (F2_nth (Forall2 (Forall2 stands)) _ _ [] [] (stands_map3 _ F) (Forall2_nil _) i) as N. rewrite (F2_length _ _ _ N). f_equal. generalize (seq 0 (length (nth i (map (map (map val)) (m_sas m)) []))). 
    induction N as [|x y l l' XY N IH]; intros sq; [destruct sq; reflexivity|]. destruct sq as [|k sq]; [reflexivity|]. cbn [combine map]. rewrite IH. f_equal. f_equal.
    apply (whereS stands); [|exact XY]. intros b z BZ. f_equal. exact (c_eqb _ _ _ _ ieee_computes _ _ _ _ BZ (c_zero _ _ _ _ ieee_computes)).
  - intros s a. unfold get_next_state. change (m_n_states (mdp_val m)) with (m_n_states m). change (m_n_actions (mdp_val m)) with (m_n_actions m). change (m_deterministic (mdp_val m)) with (m_deterministic m). destruct (a <? 0)%Z; [reflexivity|]. destruct (py_index (m_n_states m) s) as [i|]; [|reflexivity]. cbn [bind]. destruct (py_index (m_n_actions m) a) as [j|]; [|reflexivity]. cbn [bind].
    destruct (m_deterministic m); [|reflexivity]. f_equal. apply (argmaxS NumB stands float64 _ ieee_computes). apply (F2_nth (Forall2 stands)); [|constructor]. apply (F2_nth (Forall2 (Forall2 stands))); [exact (stands_map3 _ F)|constructor].
Qed.
(** An instance with two actions; the answers are not errors. *)
Example C249_example : Forall (Forall (Forall finite)) (m_sas mdp22) /\ @trajectory_to_state_action R NumR (mdp_val mdp22) [0; 1; 0]%Z = Ok [(0, 1%nat); (1, 0%nat)]%Z /\ @is_adjacent R NumR (mdp_val mdp22) 0 1 = Ok true /\ @get_next_state R NumR (mdp_val mdp22) 0 1 = Ok 1%nat.
Proof.
  assert (Z0 : finite (@n0 b64 NumB)) by apply (c_zero _ _ _ _ ieee_computes). assert (I1 : finite (@n1 b64 NumB)) by apply (c_one _ _ _ _ ieee_computes).
  assert (F : Forall (Forall (Forall finite)) (m_sas mdp22)) by (cbn [m_sas mdp22]; repeat (apply Forall_cons || apply Forall_nil); first [exact Z0|exact I1]).
  destruct (C249_same_answers mdp22 F) as (T & _ & A & _ & G). split; [exact F|]. rewrite <- T, <- A, <- G. repeat split; lazy; reflexivity.
Qed.
