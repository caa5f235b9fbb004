(** C248: an agent that searches with IEEE 754 numbers and chooses greedily takes a possible action with the greatest value. *)
From Coq Require Import String List ZArith Reals Bool Lia Lra Psatz.
From Flocq Require Import Core BinarySingleNaN.
From Verif Require Import PyBase PyProofs GridModel MDPModel MDPSpec MDPProofs2 ActionModel ActionProofs RSum ActionSpec EnvModel EnvSpec EnvProofs SoftmaxProofs VISpec VIModel VIProps RoundModel RoundSpec RoundProofs RoundProps RoundExample RoundWalk IEEEModel SimRound SimMDP SimEnv IEEE IEEEEnv MCTSModel MCTSSpec MCTSProofs MCTSProofs2 MCTSProps MCTSWalk MCTSRoundStats IEEESearch IEEEGreedy IEEESearchExample.
Import ListNotations.
Local Open Scope R_scope.

#[local] Existing Instance NumB.

Lemma fill_length : forall (vals : list (nat * b64 * nat)) (row : list (fval b64)), length (fold_left (fun row '(a, x, _) => upd row a (Fin x)) vals row) = length row.
Proof. induction vals as [|[[a x] t] vals IH]; intros row; [reflexivity|]. cbn [fold_left]. now rewrite IH, upd_length. Qed.
(** The action values: one row for every state, one entry for every action; in the agent's state, only possible actions have a value. *)
Lemma fit_rows : forall score cfg e a n rnd fuel v q, m_n_states (e_mdp e) = length (m_sas (e_mdp e)) -> @mcts_fit b64 NumB score cfg e a n rnd fuel = Ok (v, q) ->
  exists i, py_index (length (m_sas (e_mdp e))) (at_pos a) = Ok i /\ length q = length (m_sas (e_mdp e)) /\ (forall row, In row q -> length row = m_n_actions (e_mdp e)) /\
    forall act b, (act < m_n_actions (e_mdp e))%nat -> nth act (nth i q []) NaN = Fin b -> exists t, possible64 (m_sas (e_mdp e)) i act t.
Proof.
  intros score cfg e a n rnd fuel v q NS H. unfold mcts_fit in H. apply bind_ok in H. destruct H as ([[[V N] kk] states] & _ & H). apply bind_ok in H. destruct H as (vals & AV & H). apply bind_ok in H. destruct H as (q' & MQ & H).
  assert (E : q = q') by (now inversion H). clear H. subst q'.
  unfold mcts_action_values in AV. apply bind_ok in AV. destruct AV as (acts & GA & AV). apply actions_any in GA. destruct GA as (i & PI & GA).
  assert (EV : vals = map (fun '(a, t) => (a, ndiv (nth t V n0) (nadd n1 (nth t N n0)), t)) acts) by (now inversion AV). clear AV.
  unfold mcts_q in MQ. rewrite NS, PI in MQ. cbn [bind] in MQ. assert (OI : forall x y : list (list (fval b64)), Ok x = Ok y -> y = x) by (intros ? ? X; now inversion X). apply OI in MQ. clear OI. subst q.
  set (nA := m_n_actions (e_mdp e)) in *. exists i. split; [exact PI|]. split; [rewrite upd_length; apply repeat_length|]. pose proof (py_index_ok _ _ _ PI) as Li.
  split.
  - intros row Hr. apply (In_nth _ _ []) in Hr. destruct Hr as (j & Lj & <-). rewrite upd_length, repeat_length in Lj. destruct (Nat.eq_dec j i) as [->|D].
    + rewrite nth_upd_same by (rewrite repeat_length; exact Lj). rewrite fill_length. apply repeat_length.
    + rewrite nth_upd_other by exact D. rewrite (nth_indep _ [] (repeat NaN nA)) by (rewrite repeat_length; exact Lj). rewrite nth_repeat. apply repeat_length.
  - intros act b La H. rewrite nth_upd_same in H by (rewrite repeat_length; tauto). destruct (row_filled vals (repeat NaN nA) act) as [_ [[D _]|(x & t & I & _)]]; [now rewrite repeat_length| |].
    + rewrite D, nth_repeat in H. discriminate H.
    + rewrite EV in I. apply in_map_iff in I. destruct I as ([a' t'] & E & I). exists t. assert (EA : a' = act) by congruence. assert (ET : t' = t) by congruence. subst a' t'. apply GA in I. apply I.
Qed.

(** Whatever is drawn during the search and the choice, the greedy selector takes, where the agent stands, an action that is possible there, and no possible action has a greater value. *)
Theorem C248_greedy_choice : forall score cfg e a n rnd fuel v q draws i, sized_fit cfg e a n -> m_n_states (e_mdp e) = length (m_sas (e_mdp e)) -> @mcts_fit b64 NumB score cfg e a (Some n) rnd fuel = Ok (v, q) ->
  py_index (length (m_sas (e_mdp e))) (at_pos a) = Ok i -> (Z.of_nat (m_n_actions (e_mdp e)) <= 10 ^ 9)%Z -> (exists act t, (act < m_n_actions (e_mdp e))%nat /\ possible64 (m_sas (e_mdp e)) i act t) ->
  exists pi act t b, @get_pi b64 (@max_get_pi b64 NumB draws) q = Ok pi /\ nth i pi 0%Z = Z.of_nat act /\ (act < m_n_actions (e_mdp e))%nat /\ possible64 (m_sas (e_mdp e)) i act t /\ nth act (nth i q []) NaN = Fin b /\ finite b /\
    forall act' t', (act' < m_n_actions (e_mdp e))%nat -> possible64 (m_sas (e_mdp e)) i act' t' -> exists b', nth act' (nth i q []) NaN = Fin b' /\ finite b' /\ val b' <= val b.
Proof.
  intros score cfg e a n rnd fuel v q draws i SF NS H PI NB (a0 & t0 & La0 & P0). destruct (fit_rows _ _ _ _ _ _ _ _ _ NS H) as (i' & PI' & LQ & LR & LEGAL). rewrite PI in PI'. assert (EI : i' = i) by congruence. subst i'. clear PI'.
  destruct (C245_fit _ _ _ _ _ _ _ _ _ SF NS H) as (_ & FQ & c & i' & states & rewards & _ & PI' & _ & _ & _ & _ & KN). rewrite PI in PI'. assert (EI : i' = i) by congruence. subst i'. clear PI'.
  assert (Li : (i < length q)%nat) by (rewrite LQ; now apply py_index_ok in PI). assert (Lr : length (nth i q []) = m_n_actions (e_mdp e)) by (apply LR, nth_In, Li).
  assert (US : usable q).
  { intros row I. pose proof (LR row I) as L. split; [intros ->; cbn in L; lia|]. split; [|rewrite L; exact NB]. apply Forall_forall. intros x X. destruct (FQ row x I X) as [->|(b & -> & F)]; [exact Logic.I|exact F]. }
  assert (KS : some_known (map fval_of (nth i q []))).
  { destruct (KN a0 t0 La0 P0) as (b & t' & _ & E & _). exists (Fin (val b)). split; [|discriminate]. apply in_map_iff. exists (Fin b). split; [reflexivity|]. rewrite <- E. apply nth_In. lia. }
  assert (UM : unmixed (map fval_of (nth i q []))).
  { intros [I _]. apply in_map_iff in I. destruct I as (x & E & I). destruct (FQ (nth i q []) x (nth_In _ _ Li) I) as [->|(b & -> & _)]; discriminate E. }
  destruct (C247_sampled_is_best draws q US) as (pi & GP & _ & B). { exists (map fval_of (nth i q [])). split; [unfold reads; apply in_map, nth_In, Li|exact KS]. }
  destruct (B i Li KS UM) as (act & EA & [LA BA]). rewrite map_length, Lr in LA, BA.
  assert (NM : forall j, nth j (map fval_of (nth i q [])) NaN = fval_of (nth j (nth i q []) NaN)) by (intros j; exact (map_nth fval_of (nth i q []) NaN j)).
  assert (KB : forall act' t', (act' < m_n_actions (e_mdp e))%nat -> possible64 (m_sas (e_mdp e)) i act' t' -> exists b', nth act' (nth i q []) NaN = Fin b' /\ finite b' /\ fle (Fin (val b')) (fval_of (nth act (nth i q []) NaN))).
  { intros act' t' L' P'. destruct (KN act' t' L' P') as (b' & _ & _ & E' & F' & _). exists b'. split; [exact E'|]. split; [exact F'|]. specialize (BA act' L'). rewrite !NM, E' in BA. exact BA. }
  destruct (KB a0 t0 La0 P0) as (b0 & _ & _ & X0). destruct (FQ (nth i q []) (nth act (nth i q []) NaN) (nth_In _ _ Li)) as [EN|(b & EB & FB)]; [apply nth_In; lia| |].
  - rewrite EN in X0. destruct X0.
  - destruct (LEGAL act b LA EB) as (t & PT). exists pi, act, t, b. split; [exact GP|]. split; [exact EA|]. split; [exact LA|]. split; [exact PT|]. split; [exact EB|]. split; [exact FB|].
    intros act' t' L' P'. destruct (KB act' t' L' P') as (b' & E' & F' & X'). rewrite EB in X'. exists b'. split; [exact E'|]. split; [exact F'|exact X'].
Qed.

(** On a deterministic MDP whose transition probabilities are finite and not negative, the chosen action then takes the agent to a state it can reach. *)
Lemma largest_entry : forall row : list b64, Forall (fun b => finite b /\ 0 <= val b) row -> forall t, neqb (nth t row n0) n0 = false -> neqb (nth (@argmax b64 NumB row) row n0) n0 = false.
Proof.
  intros row F t P. assert (FF : Forall finite row) by (eapply Forall_impl; [|exact F]; intros b [X _]; exact X). pose proof (stands_map row FF) as S. pose proof (c_zero _ _ _ _ ieee_computes) as Z0.
  assert (EQ : forall j, neqb (nth j row n0) n0 = Reqb (nth j (map val row) 0) 0) by (intros j; apply (c_eqb _ _ _ _ ieee_computes); [apply F2_nth; [exact S|exact Z0]|exact Z0]).
  rewrite EQ in P. unfold Reqb in P. destruct (Req_EM_T (nth t (map val row) 0) 0) as [|NZ]; [discriminate|]. clear P.
  assert (Lt : (t < length (map val row))%nat). { destruct (Nat.lt_ge_cases t (length (map val row))) as [L|L]; [exact L|]. rewrite nth_overflow in NZ by exact L. congruence. }
  assert (PT : 0 < nth t (map val row) 0). { assert (I : In (nth t (map val row) 0) (map val row)) by (apply nth_In, Lt). apply in_map_iff in I. destruct I as (b & E & I). rewrite Forall_forall in F. destruct (F b I) as [_ B]. rewrite E in B. lra. }
  rewrite EQ, (argmaxS NumB stands float64 _ ieee_computes row (map val row) S). destruct (argmax_spec (map val row)) as (_ & M & _). { intros E. rewrite E in Lt. cbn in Lt. lia. }
  specialize (M _ (nth_In _ 0 Lt)). unfold Reqb. destruct (Req_EM_T _ 0) as [E|]; [rewrite E in M; lra|reflexivity].
Qed.
Theorem C248_move : forall score cfg e a n rnd fuel v q draws i pi, sized_fit cfg e a n -> m_n_states (e_mdp e) = length (m_sas (e_mdp e)) -> m_deterministic (e_mdp e) = true -> Forall (Forall (Forall (fun b => finite b /\ 0 <= val b))) (m_sas (e_mdp e)) ->
  @mcts_fit b64 NumB score cfg e a (Some n) rnd fuel = Ok (v, q) -> py_index (length (m_sas (e_mdp e))) (at_pos a) = Ok i -> (Z.of_nat (m_n_actions (e_mdp e)) <= 10 ^ 9)%Z ->
  (exists act t, (act < m_n_actions (e_mdp e))%nat /\ possible64 (m_sas (e_mdp e)) i act t) -> @get_pi b64 (@max_get_pi b64 NumB draws) q = Ok pi ->
  exists act t, nth i pi 0%Z = Z.of_nat act /\ @get_next_state b64 NumB (e_mdp e) (at_pos a) (nth i pi 0%Z) = Ok t /\ possible64 (m_sas (e_mdp e)) i act t.
Proof.
  intros score cfg e a n rnd fuel v q draws i pi SF NS DT FN H PI NB EX GP. destruct (C248_greedy_choice _ _ _ _ _ _ _ _ _ draws i SF NS H PI NB EX) as (pi' & act & t & b & GP' & EA & LA & PT & _).
  assert (EP : pi' = pi) by congruence. subst pi'. set (row := nth act (nth i (m_sas (e_mdp e)) []) []). exists act, (@argmax b64 NumB row). split; [exact EA|]. split.
  - unfold get_next_state. rewrite EA, NS, PI, DT. destruct (Z.ltb_spec (Z.of_nat act) 0) as [X|_]; [lia|]. cbn [bind]. rewrite py_index_nat by exact LA. reflexivity.
  - unfold possible64, get3 in *. fold row in PT |- *. apply (largest_entry row) with (t := t); [|exact PT].
    assert (FR : forall {X} (P : X -> Prop) l k d, Forall P l -> P d -> P (nth k l d)). { intros X P l k d FL D. rewrite Forall_forall in FL. destruct (Nat.lt_ge_cases k (length l)) as [L|L]; [apply FL, nth_In, L|now rewrite nth_overflow]. }
    unfold row. apply FR; [|constructor]. apply FR; [exact FN|constructor].
Qed.

(** The two agents of C245's example. *)
Example C248_example : exists score v q, sized_fit cfg2 env2 hero2 [[2]; [1]]%Z /\ m_n_states (e_mdp env2) = length (m_sas (e_mdp env2)) /\ @mcts_fit b64 NumB score cfg2 env2 hero2 (Some [[2]; [1]]%Z) (fun _ _ => 0%nat) 20 = Ok (v, q) /\
  py_index (length (m_sas (e_mdp env2))) (at_pos hero2) = Ok 0%nat /\ (Z.of_nat (m_n_actions (e_mdp env2)) <= 10 ^ 9)%Z /\ m_deterministic (e_mdp env2) = true /\ Forall (Forall (Forall (fun b => finite b /\ 0 <= val b))) (m_sas (e_mdp env2)) /\ exists act t, (act < m_n_actions (e_mdp env2))%nat /\ possible64 (m_sas (e_mdp env2)) 0 act t.
Proof.
  destruct C245_example as (score & v & q & b & S & N & F & _). exists score, v, q. split; [exact S|]. split; [exact N|]. split; [exact F|]. split; [reflexivity|]. split; [vm_compute; congruence|]. split; [reflexivity|]. split.
  { assert (Z0 : finite (@n0 b64 NumB) /\ 0 <= val (@n0 b64 NumB)) by (destruct (c_zero _ _ _ _ ieee_computes) as [FZ VZ]; split; [exact FZ|rewrite VZ; lra]). assert (I1 : finite (@n1 b64 NumB) /\ 0 <= val (@n1 b64 NumB)) by (destruct (c_one _ _ _ _ ieee_computes) as [FZ VZ]; split; [exact FZ|rewrite VZ; lra]).
    cbn [e_mdp env2 m_sas mdp2]. repeat (apply Forall_cons || apply Forall_nil); first [exact Z0|exact I1]. }
  exists 0%nat, 1%nat. split; [cbn; lia|]. lazy. reflexivity.
Qed.
