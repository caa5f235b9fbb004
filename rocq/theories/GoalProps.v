(** C129: an agent with a single goal walks there along a shortest path. *)
From Coq Require Import String List ZArith QArith Reals Bool Lia Lra.
From Verif Require Import PyBase PyProofs GridModel GridSpec GridProofs GridProofs2 MDPModel MDPSpec MDPProofs MDPProofs2 MDPProofs3 MDPProofs4 MDPProps ActionModel ActionSpec SoftmaxModel SoftmaxProofs ActionProofs RSum ActionProps EnvModel PlanProps EnvSpec StepSpec EnvProofs EnvProofs2 EnvProofs3 EnvProofs4 EnvProofs5 EnvProps StepProps VIModel VISpec VIProofs VIProofs2 VIProps VIEnvProps MCTSModel MCTSSpec MCTSRun MCTSTries QuerySpec VIWalkSpec VIWalk GoalSpec.
From Verif Require QueryProofs WorldProofs.
From Verif Require HistProps FitProps.
Import ListNotations.
Local Close Scope Q_scope. Local Open Scope R_scope.

(** * Distances *)
Section Distance.
Context (sas : list (list (list R))) (goal : nat).
Fixpoint path (n i : nat) : Prop := match n with O => i = goal | S n' => exists t, can_go sas i t /\ path n' t end.
Definition least (d i : nat) : Prop := path d i /\ forall n, path n i -> (d <= n)%nat.
Lemma least_next : forall d i t, least (S d) i -> can_go sas i t -> path d t -> least d t.
Proof. intros d i t [_ L] C P. split; [exact P|]. intros n Hn. specialize (L (S n)). cbn [path] in L. assert (S d <= S n)%nat by (apply L; eauto). lia. Qed.

Context (r : nat -> R) (g R0 : R) (Vs : nat -> R) (M : is_mdp sas) (G : 0 < g < 1) (B : R).
Context (det : forall i act, (i < n_states sas)%nat -> (act < n_actions sas)%nat -> (forall u, (u < n_states sas)%nat -> prob sas i act u = 0) \/
  exists t, (t < n_states sas)%nat /\ can_go sas i t /\ forall u, (u < n_states sas)%nat -> prob sas i act u = if (u =? t)%nat then 1 else 0).
Context (go : forall i t, (i < n_states sas)%nat -> can_go sas i t -> (t < n_states sas)%nat /\ exists act, (act < n_actions sas)%nat /\ forall u, (u < n_states sas)%nat -> prob sas i act u = if (u =? t)%nat then 1 else 0).
Context (O : optimal sas r g Vs) (VB : forall t, (t < n_states sas)%nat -> 0 <= Vs t <= B) (R0p : 0 < R0) (Hg : (goal < n_states sas)%nat) (rg : r goal = R0) (r0 : forall t, (t < n_states sas)%nat -> t <> goal -> r t = 0).
Let Wg := R0 + g * Vs goal.
Lemma W_ge : R0 <= Wg. Proof using All. unfold Wg. assert (0 <= g * Vs goal) by (apply Rmult_le_pos; [lra|now apply VB]). lra. Qed.
Lemma av_to : forall i act t, (t < n_states sas)%nat -> (forall u, (u < n_states sas)%nat -> prob sas i act u = if (u =? t)%nat then 1 else 0) ->
  action_value sas r g Vs i act = r t + g * Vs t.
Proof using All.
  intros i act t Ht DT. unfold action_value. rewrite (sumf_single _ _ t); [rewrite DT, Nat.eqb_refl by exact Ht; ring|apply seq_NoDup|apply in_seq; lia|].
  intros u Hu Nu. apply in_seq in Hu. rewrite DT by lia. destruct (Nat.eqb_spec u t); [contradiction|ring].
Qed.
Lemma V_cases : forall i, (i < n_states sas)%nat -> Vs i = 0 \/ exists t, (t < n_states sas)%nat /\ can_go sas i t /\ Vs i = r t + g * Vs t.
Proof using All.
  intros i Hi. destruct (O i Hi) as [(act & Ha & E) _]. destruct (det i act Hi Ha) as [Z|(t & Ht & C & DT)].
  - left. rewrite <- E. unfold action_value. apply sumf_0. intros u Hu. apply in_seq in Hu. rewrite Z by lia. ring.
  - right. exists t. split; [exact Ht|]. split; [exact C|]. rewrite <- E. now apply av_to.
Qed.
Lemma V_step : forall i t, (i < n_states sas)%nat -> can_go sas i t -> r t + g * Vs t <= Vs i.
Proof using All. intros i t Hi C. destruct (go i t Hi C) as (Ht & act & Ha & DT). rewrite <- (av_to i act t Ht DT). now apply (O i Hi). Qed.

(** The goal attracts from every distance ... *)
Lemma V_lower : forall d i, (i < n_states sas)%nat -> path (S d) i -> g ^ d * Wg <= Vs i.
Proof using All.
  induction d as [|d IH]; intros i Hi (t & C & P).
  - cbn [path] in P. subst t. pose proof (V_step i goal Hi C). unfold Wg. rewrite rg in H. cbn [pow]. lra.
  - destruct (go i t Hi C) as (Ht & _). pose proof (V_step i t Hi C). specialize (IH t Ht P). assert (0 <= r t) by (destruct (Nat.eq_dec t goal) as [->|N]; [lra|rewrite r0; auto; lra]).
    assert (g * (g ^ d * Wg) <= g * Vs t) by (apply Rmult_le_compat_l; lra). cbn [pow]. lra.
Qed.
(** ... and no more strongly than its distance allows. *)
Lemma V_upper1 : forall n t, (t < n_states sas)%nat -> t <> goal -> Vs t <= Rmax Wg (g ^ n * B).
Proof using All.
  pose proof W_ge as WG. induction n as [|n IH]; intros t Ht N.
  - cbn [pow]. eapply Rle_trans; [apply (VB t Ht)|]. rewrite Rmult_1_l. apply Rmax_r.
  - destruct (V_cases t Ht) as [->|(u & Hu & C & ->)]; [eapply Rle_trans; [|apply Rmax_l]; lra|]. destruct (Nat.eq_dec u goal) as [->|NU]; [rewrite rg; apply Rmax_l|]. rewrite r0 by assumption.
    specialize (IH u Hu NU). rewrite Rplus_0_l. destruct (Rle_dec (Vs u) Wg) as [L|L].
    + eapply Rle_trans; [|apply Rmax_l]. assert (g * Vs u <= g * Wg) by (apply Rmult_le_compat_l; lra). assert (g * Wg <= 1 * Wg) by (apply Rmult_le_compat_r; lra). lra.
    + eapply Rle_trans; [|apply Rmax_r]. cbn [pow]. rewrite Rmult_assoc. apply Rmult_le_compat_l; [lra|]. unfold Rmax in IH. destruct (Rle_dec Wg (g ^ n * B)); lra.
Qed.
Lemma V_upper0 : forall t, (t < n_states sas)%nat -> t <> goal -> Vs t <= Wg.
Proof using All.
  intros t Ht N. apply Rnot_lt_le. intros L. pose proof W_ge as WG. destruct (pow_small g ltac:(lra) B (Vs t)) as (n & Hn); [lra|].
  pose proof (V_upper1 n t Ht N) as U. unfold Rmax in U. destruct (Rle_dec Wg (g ^ n * B)); lra.
Qed.
Lemma V_upper : forall d t, (t < n_states sas)%nat -> (forall n, (n <= d)%nat -> ~ path n t) -> Vs t <= g ^ d * Wg.
Proof using All.
  pose proof W_ge as WG. induction d as [|d IH]; intros t Ht N.
  - cbn [pow]. rewrite Rmult_1_l. apply V_upper0; [exact Ht|]. exact (N 0%nat (le_n _)).
  - assert (GP : 0 < g ^ d) by (apply pow_lt; lra). destruct (V_cases t Ht) as [->|(u & Hu & C & ->)]; [cbn [pow]; apply Rmult_le_pos; [apply Rmult_le_pos; lra|lra]|].
    assert (NU : u <> goal). { intros ->. apply (N 1%nat); [lia|]. exists goal. cbn [path]. auto. } rewrite r0 by assumption. rewrite Rplus_0_l. cbn [pow]. rewrite Rmult_assoc. apply Rmult_le_compat_l; [lra|].
    apply IH; [exact Hu|]. intros n Hn P. apply (N (S n)); [lia|]. exists u. auto.
Qed.

(** A move that loses little brings the agent one move closer. *)
Lemma closer : forall d i t e, (i < n_states sas)%nat -> least (S d) i -> can_go sas i t -> e < (1 - g) * g ^ d * R0 -> Vs i - e <= r t + g * Vs t -> least d t.
Proof using All.
  intros d i t e Hi L C HE HV. apply (least_next d i t L C). destruct (go i t Hi C) as (Ht & _). pose proof (V_lower d i Hi (proj1 L)) as LO. pose proof W_ge as WG.
  assert (DEC : forall n x, path n x \/ ~ path n x).
  { intros n x. apply Classical_Prop.classic. }
  destruct (DEC d t) as [P|NP]; [exact P|exfalso]. assert (GP : 0 < g ^ d) by (apply pow_lt; lra).
  assert (NO : forall n, (n <= d)%nat -> ~ path n t). { intros n Hn P. destruct L as [_ L]. specialize (L (S n) (ex_intro _ t (conj C P))). assert (n = d) by lia. now subst n. }
  pose proof (V_upper d t Ht NO) as UP. assert (r t = 0). { apply r0; [exact Ht|]. intros ->. apply (NO 0%nat); [lia|]. reflexivity. }
  assert (g * Vs t <= g * (g ^ d * Wg)) by (apply Rmult_le_compat_l; lra). assert ((1 - g) * g ^ d * R0 <= (1 - g) * g ^ d * Wg) by (apply Rmult_le_compat_l; [apply Rmult_le_pos; lra|exact WG]). 
  assert ((1 - g) * g ^ d * Wg = g ^ d * Wg - g * (g ^ d * Wg)) by ring. lra.
Qed.
End Distance.

(** * Grids *)
Lemma grid_prob : forall k shape st m, grid_inv k shape st m -> forall i act t, (i < nst shape)%nat -> (t < nst shape)%nat -> (act < actions_of k st)%nat -> walled_edge k shape st (m_walls m) i act t ->
  forall u, (u < nst shape)%nat -> prob (m_sas m) i act u = if (u =? t)%nat then 1 else 0.
Proof.
  intros k shape st m GI i act t Hi Ht Ha WE u Hu. rewrite <- get3_prob. destruct (inv_edge _ _ _ _ GI i act u Hi Ha Hu) as [[E W]|[E W]]; rewrite E; destruct (Nat.eqb_spec u t) as [D|D]; auto.
  - elim D. assert (snd shape <> 0%nat) by (intros Z; unfold nst in Hi; rewrite Z in Hi; lia). eapply edge_unique_t; [apply W|apply WE|assumption].
  - subst u. contradiction.
Qed.
Lemma grid_det : forall k shape st m, grid_inv k shape st m -> let sas := m_sas m in
  (forall i act, (i < n_states sas)%nat -> (act < n_actions sas)%nat -> (forall u, (u < n_states sas)%nat -> prob sas i act u = 0) \/
    exists t, (t < n_states sas)%nat /\ can_go sas i t /\ forall u, (u < n_states sas)%nat -> prob sas i act u = if (u =? t)%nat then 1 else 0) /\
  (forall i t, (i < n_states sas)%nat -> can_go sas i t -> (t < n_states sas)%nat /\ exists act, (act < n_actions sas)%nat /\ forall u, (u < n_states sas)%nat -> prob sas i act u = if (u =? t)%nat then 1 else 0).
Proof.
  intros k shape st m GI sas. destruct (grid_shape _ _ _ _ GI) as (N & A & _). fold sas in N, A. split.
  - intros i act Hi Ha. rewrite N in *. rewrite A in *.
    destruct (Exists_dec (fun u => get3 0 sas i act u <> 0) (seq 0 (nst shape))) as [X|X]; [intros u; destruct (Req_EM_T (get3 0 sas i act u) 0); [right|left]; tauto| |].
    + apply Exists_exists in X. destruct X as (t & It & Ct). apply in_seq in It. assert (Ht : (t < nst shape)%nat) by lia. right. exists t. split; [exact Ht|]. split; [now exists act|].
      eapply grid_prob; eauto. destruct (inv_edge _ _ _ _ GI i act t Hi Ha Ht) as [[_ W]|[E _]]; [exact W|contradiction].
    + left. intros u Hu. rewrite <- get3_prob. destruct (Req_dec (get3 0 sas i act u) 0) as [E|E]; [exact E|]. elim X. apply Exists_exists. exists u. split; [apply in_seq; lia|exact E].
  - intros i t Hi C. rewrite N in *. rewrite A. apply (go_edge _ _ _ _ GI _ _ Hi) in C. destruct C as (Ht & act & W). split; [exact Ht|]. exists act. assert (Ha : (act < actions_of k st)%nat) by (eapply edge_action; apply W). split; [exact Ha|]. eapply grid_prob; eauto.
Qed.
Lemma path_travels : forall k shape st m goal, grid_inv k shape st m -> forall n i, (i < nst shape)%nat -> (path (m_sas m) goal n i <-> exists acts, travels m i acts goal /\ length acts = n).
Proof.
  intros k shape st m goal GI. induction n as [|n IH]; intros i Hi; cbn [path].
  - split; [intros ->; exists []; split; [constructor|reflexivity]|]. intros ([|] & T & L); [|discriminate]. now inversion T.
  - destruct (in_valid_actions _ _ _ _ GI i Hi) as (va & EV & IV). destruct (only_valid _ _ _ _ GI i va Hi EV) as [OV1 OV2]. split.
    + intros (t & C & P). destruct (OV1 t C) as (act & _ & T). apply (go_edge _ _ _ _ GI _ _ Hi) in C. destruct C as [Ht _]. apply (IH t Ht) in P. destruct P as (acts & TA & L).
      exists (act :: acts). split; [|cbn; congruence]. inversion T as [|? ? ? x ? va1 E1 I1 NX T']. subst. inversion T'. subst. econstructor; eauto.
    + intros ([|act acts] & T & L); [discriminate|]. inversion T as [|? ? ? x ? va1 E1 I1 NX T']. subst. assert (C : can_go (m_sas m) i x) by (apply (OV2 act); econstructor; eauto; constructor). exists x. split; [exact C|].
      apply (go_edge _ _ _ _ GI _ _ Hi) in C. destruct C as [Hx _]. apply (IH x Hx). exists acts. split; [exact T'|]. cbn in L. lia.
Qed.
Lemma fewest_least : forall k shape st m goal d i, grid_inv k shape st m -> (i < nst shape)%nat -> (fewest_moves m i goal d <-> least (m_sas m) goal d i).
Proof.
  intros k shape st m goal d i GI Hi. unfold fewest_moves, least. rewrite (path_travels _ _ _ _ _ GI d i Hi). split; intros [H1 H2]; (split; [exact H1|]).
  - intros n P. apply (path_travels _ _ _ _ _ GI n i Hi) in P. destruct P as (acts & T & <-). now apply H2.
  - intros acts T. apply H2. apply (path_travels _ _ _ _ _ GI _ i Hi). eauto.
Qed.

Lemma chain_closer : forall sas goal (T : nat -> nat -> Prop) (P : nat -> Prop), (forall i t, P i -> T i t -> P t) -> forall d0,
  (forall d i t, (S d <= d0)%nat -> P i -> least sas goal (S d) i -> T i t -> least sas goal d t) ->
  forall ps d i, (d <= d0)%nat -> P i -> least sas goal d i -> chain T i ps -> forall j, (j < d)%nat -> (j < length ps)%nat -> least sas goal (d - 1 - j) (nth j ps 0%nat).
Proof.
  intros sas goal T P KP d0 ST. induction ps as [|t ps IH]; intros d i Hd Pi L H j Hj Hl; [cbn in Hl; lia|]. cbn [chain] in H. destruct H as [H1 H2].
  destruct d as [|d]; [lia|]. pose proof (ST d i t Hd Pi L H1) as Lt. destruct j as [|j]; cbn [nth]; [replace (S d - 1 - 0)%nat with d by lia; exact Lt|].
  replace (S d - 1 - S j)%nat with (d - 1 - j)%nat by lia. apply (IH d t); [lia|eauto|exact Lt|exact H2|lia|cbn in Hl; lia].
Qed.

Lemma shortest_any : forall F pl e nm g err n s s' e1 l a i a' goal R0 d Vs, reachable pl e -> plans_with F pl nm -> 0 < g < 1 ->
  env_fit pl e nm n s s' = (e1, Ok tt) -> agent_named e nm a -> stands_on (e_mdp e) (at_pos a) i -> fewest_moves (e_mdp e) i goal d -> (0 < d)%nat ->
  only_goal (e_mdp e) (reward_of (at_reward a) (m_features (e_mdp e))) goal R0 -> 0 < R0 ->
  let sas := m_sas (e_mdp e) in let r := reward_of (at_reward a) (m_features (e_mdp e)) in optimal sas r g Vs ->
  (forall v q, F (e_mdp e) (at_reward a) = Ok (v, q) -> q_masked sas q /\ accurate sas r g Vs q err) -> 2 * err < (1 - g) * g ^ (d - 1) * R0 ->
  Forall (lets_walk nm) l -> agent_named (run pl e1 l) nm a' ->
  exists ps, at_hist a' = at_hist a ++ map Z.of_nat ps /\ stands_on (e_mdp e) (at_pos a') (last ps i) /\ walk (m_sas (e_mdp e)) i ps /\
    (forall j, (j < d)%nat -> (j < length ps)%nat -> fewest_moves (e_mdp e) (nth j ps 0%nat) goal (d - 1 - j)) /\
    ((d <= length ps)%nat -> nth (d - 1) ps 0%nat = goal).
Proof.
  intros F pl e nm g err n s s' e1 l a i a' goal R0 d Vs RE PG G EF NA SO FM Hd (Hg & RG & RO) R0p sas r O ACC TB FL NA'.
  destruct (reachable_wf _ _ RE) as (kd & shape & st & W). pose proof (wf_grid _ _ _ _ W) as GI. pose proof (gi_ns _ _ _ _ GI) as NS. assert (Hi : (i < m_n_states (e_mdp e))%nat) by (eapply py_index_ok; eauto).
  assert (SV : state_valid_actions (e_mdp e) (Z.of_nat i) <> Ok []). { destruct FM as ((acts & T & L) & _). inversion T as [|? ? ? x ? va1 E1 I1 NX T']; subst; [cbn in Hd; lia|]. rewrite E1. intros X. injection X as ->. destruct I1. }
  fold r in RG, RO.
  assert (RR : forall t, (t < m_n_states (e_mdp e))%nat -> 0 <= r t <= R0). { intros t Ht. destruct (Nat.eq_dec t goal) as [->|N]; [rewrite RG; lra|rewrite RO by assumption; lra]. }
  destruct (walk_chain_any F pl e nm g err n s s' e1 l R0 a i a' Vs RE PG G EF NA SO SV RR O ACC FL NA') as (ps & M & N & VB & _ & LV & H1 & H3 & H2). fold sas in M, N, VB, LV. fold sas r in H2.
  destruct (grid_det _ _ _ _ GI) as [DET GO]. fold sas in DET, GO. rewrite <- N in *.
  exists ps. split; [exact H1|]. assert (W1 : wf kd shape st (run pl e1 l)). { apply run_wf. replace e1 with (fst (env_fit pl e nm n s s')) by now rewrite EF. eapply muts_wf; [exact W|]. eapply env_fit_muts; eauto. }
  split; [eapply stands_same; [|exact H3]; rewrite !(wf_states kd shape st) by assumption; reflexivity|]. split.
  { clear - H2. revert i H2. induction ps as [|t ps IH]; intros i H; cbn [walk chain] in *; [exact I|]. split; [apply H|apply IH, H]. }
  assert (AL : forall j, (j < d)%nat -> (j < length ps)%nat -> least sas goal (d - 1 - j) (nth j ps 0%nat)).
  { match type of H2 with chain ?T _ _ => apply (chain_closer sas goal T (fun i => (i < n_states sas)%nat)) with (d0 := d) (ps := ps) (d := d) (i := i); auto end.
    - intros x y _ (_ & Y & _). exact Y.
    - intros d1 x t Hd1 Hx L (C & Ht & B1 & _).
      apply (closer sas goal r g R0 Vs M G (R0 / (1 - g))) with (i := x) (e := 2 * err); auto.
      assert (GD : g ^ (d - 1) <= g ^ d1). { apply pow_anti; [lra|lia]. } eapply Rlt_le_trans; [exact TB|].
      replace ((1 - g) * g ^ d1 * R0) with ((1 - g) * R0 * g ^ d1) by ring. replace ((1 - g) * g ^ (d - 1) * R0) with ((1 - g) * R0 * g ^ (d - 1)) by ring. apply Rmult_le_compat_l; [|exact GD]. apply Rmult_le_pos; lra.
    - apply (fewest_least _ _ _ _ _ _ _ GI); [lia|exact FM]. }
  assert (BD : forall j, (j < length ps)%nat -> (nth j ps 0 < n_states sas)%nat).
  { clear - H2 Hi. revert i Hi H2. induction ps as [|t ps IH]; intros i Hi H j Hj; [cbn in Hj; lia|]. cbn [chain] in H. destruct H as ((_ & Ht & _) & H). destruct j as [|j]; [exact Ht|]. cbn [nth]. apply (IH t Ht H). cbn in Hj. lia. }
  split.
  - intros j Hj Hl. apply (fewest_least _ _ _ _ _ _ _ GI); [rewrite <- NS; auto|]. now apply AL.
  - intros LE. destruct (AL (d - 1)%nat ltac:(lia) ltac:(lia)) as [P _]. replace (d - 1 - (d - 1))%nat with 0%nat in P by lia. exact P.
Qed.

Lemma exact_accurate : forall pl e nm g tol k a goal R0, reachable pl e -> 0 < g < 1 -> agent_named e nm a ->
  let sas := m_sas (e_mdp e) in let r := reward_of (at_reward a) (m_features (e_mdp e)) in only_goal (e_mdp e) r goal R0 -> 0 < R0 -> (1 + g) * g ^ k * (R0 / (1 - g)) < tol ->
  exists Vs, optimal sas r g Vs /\ forall v q, vi_fit g tol (Z.of_nat (S k)) (e_mdp e) (at_reward a) = Ok (v, q) -> q_masked sas q /\ accurate sas r g Vs q (g * tol / (1 - g)).
Proof.
  intros pl e nm g tol k a goal R0 RE G NA sas r (Hg & RG & RO) R0p TL. destruct (reachable_wf _ _ RE) as (kd & shape & st & W). pose proof (wf_grid _ _ _ _ W) as GI.
  pose proof (grid_is_mdp _ _ _ _ GI) as M. destruct (grid_shape _ _ _ _ GI) as (N & _). pose proof (gi_ns _ _ _ _ GI) as NS. fold sas in M, N.
  destruct (C29_unique_solution sas r g M ltac:(lra)) as (Vs & O & _). exists Vs. split; [exact O|]. intros v q FV. apply vi_fit_solves in FV. destruct FV as (v' & FV).
  eapply (solver_accurate sas (at_reward a) (m_features (e_mdp e)) k g tol Vs (R0 / (1 - g))); eauto; [eapply reward_length; eauto| |].
  - apply (C29_solution_bounded sas r g Vs R0 M ltac:(lra) O). intros t Ht. destruct (Nat.eq_dec t goal) as [->|NE]; [rewrite RG, Rabs_pos_eq; lra|rewrite RO, Rabs_R0; [lra|lia|exact NE]].
  - apply Rmult_le_pos; [lra|left; apply Rinv_0_lt_compat; lra].
Qed.

(** The only reward is [R0] at the goal, [d] moves away. Plan once, with enough iterations and a tolerance that
    is fine enough for this distance, then make any calls that let the agent walk. Then each of its first [d]
    moves brings it one move closer to the goal: it walks there along a shortest path. *)
Theorem C129_shortest_path : forall pl e nm g tol k n s s' e1 l a i a' goal R0 d, reachable pl e -> plans_greedily pl nm g tol (Z.of_nat (S k)) -> 0 < g < 1 ->
  env_fit pl e nm n s s' = (e1, Ok tt) -> agent_named e nm a -> stands_on (e_mdp e) (at_pos a) i -> fewest_moves (e_mdp e) i goal d -> (0 < d)%nat ->
  only_goal (e_mdp e) (reward_of (at_reward a) (m_features (e_mdp e))) goal R0 -> 0 < R0 ->
  (1 + g) * g ^ k * (R0 / (1 - g)) < tol -> 2 * g * tol < (1 - g) ^ 2 * g ^ (d - 1) * R0 ->
  Forall (lets_walk nm) l -> agent_named (run pl e1 l) nm a' ->
  exists ps, at_hist a' = at_hist a ++ map Z.of_nat ps /\ stands_on (e_mdp e) (at_pos a') (last ps i) /\ walk (m_sas (e_mdp e)) i ps /\
    (forall j, (j < d)%nat -> (j < length ps)%nat -> fewest_moves (e_mdp e) (nth j ps 0%nat) goal (d - 1 - j)) /\
    ((d <= length ps)%nat -> nth (d - 1) ps 0%nat = goal).
Proof.
  intros pl e nm g tol k n s s' e1 l a i a' goal R0 d RE PG G EF NA SO FM Hd OG R0p TL TB.
  destruct (exact_accurate pl e nm g tol k a goal R0 RE G NA OG R0p TL) as (Vs & O & ACC).
  apply (shortest_any (vi_fit g tol (Z.of_nat (S k))) pl e nm g (g * tol / (1 - g)) n s s' e1 l a i a' goal R0 d Vs RE PG G EF NA SO FM Hd OG R0p O ACC).
  apply (Rmult_lt_reg_r (1 - g)); [lra|]. replace (2 * (g * tol / (1 - g)) * (1 - g)) with (2 * g * tol) by (field; lra). eapply Rlt_le_trans; [exact TB|]. right. ring.
Qed.

(** So [d] calls of step take it to the goal. *)
Lemma steps_go_on : forall F pl e nm n s s' e1 a i seeds, reachable pl e -> plans_with F pl nm -> (forall v q, F (e_mdp e) (at_reward a) = Ok (v, q) -> q_masked (m_sas (e_mdp e)) q) ->
  env_fit pl e nm n s s' = (e1, Ok tt) -> agent_named e nm a -> stands_on (e_mdp e) (at_pos a) i -> state_valid_actions (e_mdp e) (Z.of_nat i) <> Ok [] -> consumes_in_range e ->
  exists a', agent_named (run pl e1 (map (OStep nm) seeds)) nm a' /\ length (at_hist a') = (length (at_hist a) + length seeds)%nat.
Proof.
  intros F pl e nm n s s' e1 a i seeds RE PG MKD EF NA SO SV CR.
  assert (LW : forall l, Forall (lets_walk nm) (map (OStep (A:=R) nm) l)). { intros l. apply Forall_forall. intros o Ho. apply in_map_iff in Ho. destruct Ho as (x & <- & _). split; exact I. }
  assert (RE1 : reachable pl e1). { replace e1 with (do_op pl e (OFit nm n s s')) by (cbn [do_op]; now rewrite EF). now constructor. }
  destruct (reachable_wf _ _ RE) as (kd & shape & st & W).
  assert (SE : static e e1). { replace e1 with (fst (env_fit pl e nm n s s')) by now rewrite EF. eapply muts_static; [exact W|]. eapply env_fit_muts; eauto. }
  assert (W1 : wf kd shape st e1). { replace e1 with (fst (env_fit pl e nm n s s')) by now rewrite EF. eapply muts_wf; [exact W|]. eapply env_fit_muts; eauto. }
  induction seeds as [|x seeds IH] using rev_ind.
  - cbn [map]. change (run pl e1 []) with e1. destruct (planned_start _ _ _ _ _ _ _ _ _ RE PG EF NA) as (v & q & _ & _ & _ & ST). destruct NA as [Ha Na].
    destruct (static_in _ _ a (static_sym _ _ SE) Ha) as (b & Hb & IB). destruct (ident_name _ _ IB) as (NB & _).
    assert (NAb : agent_named e1 nm b) by (split; [exact Hb|congruence]). exists b. split; [exact NAb|]. destruct (ST b NAb) as (_ & -> & _). cbn. lia.
  - destruct IH as (b & NB & LB). rewrite map_app. cbn [map]. set (l := map (OStep nm) seeds) in *.
    assert (CR1 : consumes_in_range (run pl e1 l)). { eapply static_consumes; [|exact CR]. eapply static_trans; [exact SE|]. eapply run_static; exact W1. }
    destruct (goes_on_any _ _ _ _ _ _ _ _ l _ _ x RE PG MKD EF NA SO SV (LW seeds) CR1) as (e2 & t & ES).
    assert (ER : run pl e1 (l ++ [OStep nm x]) = e2). { unfold run. rewrite fold_left_app. change (do_op pl (run pl e1 l) (OStep nm x) = e2). cbn [do_op]. now rewrite ES. } rewrite ER.
    destruct (C19_step _ _ _ _ _ _ (HistProps.run_reachable _ _ _ RE1) ES) as (c & c' & act & t' & ridx & NC & NC' & _ & _ & _ & _ & _ & _ & HH & _).
    assert (c = b). { pose proof (FitProps.lookup_named _ _ _ _ (HistProps.run_reachable pl l e1 RE1) NB) as Q1. pose proof (FitProps.lookup_named _ _ _ _ (HistProps.run_reachable pl l e1 RE1) NC) as Q2. congruence. } subst c.
    exists c'. split; [exact NC'|]. rewrite HH, !app_length. cbn. lia.
Qed.

Lemma arrives_any : forall F pl e nm g err n s s' e1 a i goal R0 d seeds Vs, reachable pl e -> plans_with F pl nm -> 0 < g < 1 ->
  env_fit pl e nm n s s' = (e1, Ok tt) -> agent_named e nm a -> stands_on (e_mdp e) (at_pos a) i -> fewest_moves (e_mdp e) i goal d -> (0 < d)%nat ->
  only_goal (e_mdp e) (reward_of (at_reward a) (m_features (e_mdp e))) goal R0 -> 0 < R0 ->
  let sas := m_sas (e_mdp e) in let r := reward_of (at_reward a) (m_features (e_mdp e)) in optimal sas r g Vs ->
  (forall v q, F (e_mdp e) (at_reward a) = Ok (v, q) -> q_masked sas q /\ accurate sas r g Vs q err) -> 2 * err < (1 - g) * g ^ (d - 1) * R0 -> consumes_in_range e -> length seeds = d ->
  exists a', agent_named (run pl e1 (map (OStep nm) seeds)) nm a' /\ stands_on (e_mdp e) (at_pos a') goal /\ length (at_hist a') = (length (at_hist a) + d)%nat.
Proof.
  intros F pl e nm g err n s s' e1 a i goal R0 d seeds Vs RE PG G EF NA SO FM Hd OG R0p sas r O ACC TB CR LS.
  assert (SV : state_valid_actions (e_mdp e) (Z.of_nat i) <> Ok []). { destruct FM as ((acts & T & L) & _). inversion T as [|? ? ? x ? va1 E1 I1 NX T']; subst; [cbn in Hd; lia|]. rewrite E1. intros X. injection X as ->. destruct I1. }
  destruct (steps_go_on _ _ _ _ _ _ _ _ _ _ seeds RE PG (fun v q H => proj1 (ACC v q H)) EF NA SO SV CR) as (a' & NA' & LH).
  assert (FL : Forall (lets_walk nm) (map (OStep (A:=R) nm) seeds)). { apply Forall_forall. intros o Ho. apply in_map_iff in Ho. destruct Ho as (x & <- & _). split; exact I. }
  destruct (shortest_any _ _ _ _ _ _ _ _ _ _ _ _ _ _ _ _ _ Vs RE PG G EF NA SO FM Hd OG R0p O ACC TB FL NA') as (ps & HH & SO' & _ & _ & AT).
  exists a'. split; [exact NA'|]. rewrite LH, LS. split; [|reflexivity].
  assert (LP : length ps = d). { rewrite HH, app_length, map_length in LH. lia. }
  rewrite <- (AT ltac:(lia)), <- LP. replace (nth (length ps - 1) ps 0%nat) with (last ps i); [exact SO'|].
  destruct (exists_last (l := ps)) as (qs & x & ->); [intros ->; cbn in LP; lia|]. rewrite last_last, app_length, app_nth2 by (cbn; lia). cbn. now replace (length qs + 1 - 1 - length qs)%nat with 0%nat by lia.
Qed.

Theorem C129_arrives : forall pl e nm g tol k n s s' e1 a i goal R0 d seeds, reachable pl e -> plans_greedily pl nm g tol (Z.of_nat (S k)) -> 0 < g < 1 ->
  env_fit pl e nm n s s' = (e1, Ok tt) -> agent_named e nm a -> stands_on (e_mdp e) (at_pos a) i -> fewest_moves (e_mdp e) i goal d -> (0 < d)%nat ->
  only_goal (e_mdp e) (reward_of (at_reward a) (m_features (e_mdp e))) goal R0 -> 0 < R0 ->
  (1 + g) * g ^ k * (R0 / (1 - g)) < tol -> 2 * g * tol < (1 - g) ^ 2 * g ^ (d - 1) * R0 -> consumes_in_range e -> length seeds = d ->
  exists a', agent_named (run pl e1 (map (OStep nm) seeds)) nm a' /\ stands_on (e_mdp e) (at_pos a') goal /\ length (at_hist a') = (length (at_hist a) + d)%nat.
Proof.
  intros pl e nm g tol k n s s' e1 a i goal R0 d seeds RE PG G EF NA SO FM Hd OG R0p TL TB.
  destruct (exact_accurate pl e nm g tol k a goal R0 RE G NA OG R0p TL) as (Vs & O & ACC).
  apply (arrives_any (vi_fit g tol (Z.of_nat (S k))) pl e nm g (g * tol / (1 - g)) n s s' e1 a i goal R0 d seeds Vs RE PG G EF NA SO FM Hd OG R0p O ACC).
  apply (Rmult_lt_reg_r (1 - g)); [lra|]. replace (2 * (g * tol / (1 - g)) * (1 - g)) with (2 * g * tol) by (field; lra). eapply Rlt_le_trans; [exact TB|]. right. ring.
Qed.

(** With the settings ValueIteration has by default (discount 0.9, tolerance 1e-8, 500 sweeps), distances up to
    100 moves and rewards between 1 and 10^12 meet the two conditions. *)
Corollary C129_defaults : forall pl e nm n s s' e1 a i goal R0 d seeds, reachable pl e -> plans_greedily pl nm (9 / 10) (/ 10 ^ 8) 500 ->
  env_fit pl e nm n s s' = (e1, Ok tt) -> agent_named e nm a -> stands_on (e_mdp e) (at_pos a) i -> fewest_moves (e_mdp e) i goal d -> (0 < d <= 100)%nat ->
  only_goal (e_mdp e) (reward_of (at_reward a) (m_features (e_mdp e))) goal R0 -> 1 <= R0 <= 10 ^ 12 -> consumes_in_range e -> length seeds = d ->
  exists a', agent_named (run pl e1 (map (OStep nm) seeds)) nm a' /\ stands_on (e_mdp e) (at_pos a') goal /\ length (at_hist a') = (length (at_hist a) + d)%nat.
Proof.
  intros pl e nm n s s' e1 a i goal R0 d seeds RE PG EF NA SO FM Hd OG HR CR LS.
  apply (C129_arrives pl e nm (9 / 10) (/ 10 ^ 8) 499 n s s' e1 a i goal R0 d seeds); auto; try lra; try lia.
  - assert (P21 : 1 / 10 < (9 / 10) ^ 21) by (cbn [pow]; lra).
    assert (P : (1 / 10) ^ 5 <= (9 / 10) ^ 105). { replace 105%nat with (21 * 5)%nat by reflexivity. rewrite pow_mult. apply pow_incr. lra. }
    assert (P' : (9 / 10) ^ 105 <= (9 / 10) ^ (d - 1)) by (apply pow_anti; [lra|lia]).
    assert ((1 / 10) ^ 5 * 1 <= (9 / 10) ^ (d - 1) * R0) by (apply Rmult_le_compat; [apply pow_le; lra|lra|lra|lra]). cbn [pow] in *. nra.
Qed.
Local Open Scope nat_scope.
(** Two moves from the goal on a 2x2 grid, with 0.5 as discount: the walk arrives after two steps whatever the seeds. *)
Example C129_example : let pl := (vi_greedy (1 # 2) (1 # 10) 6)%Q in exists m m' e e1, grid_mdp (A:=Q) Square [[0; 0; 0; 1]%Q] None (2, 2) false = Ok m /\
  make_env m [mkSpec "p"%string 1%Z None 0%Z [1; 0]%Q []] = (m', Ok e) /\ env_fit pl e "p" None 0 0 = (e1, Ok tt) /\
  (forall x, In x [[0; 0]; [1; 1]; [0; 1]; [1; 0]] -> exists t, map at_hist (e_agents (run pl e1 (map (OStep "p") x))) = [[0; t; 3]%Z] /\ (t = 1 \/ t = 2)%Z).
Proof.
  do 4 eexists. do 2 (split; [vm_compute; reflexivity|]). split; [vm_compute; reflexivity|].
  intros x [<-|[<-|[<-|[<-|[]]]]]; eexists; (split; [vm_compute; reflexivity|lia]).
Qed.

(** ** C130: rewards below the tolerance

    With the default settings and one reward of 1e-9 at the end of a corridor, planning stops after one sweep, and
    an agent two moves away walks off in the other direction. *)
Theorem C130_rewards_attract_refuted : let pl := (vi_greedy (9 # 10) (1 # 100000000) 500)%Q in exists m m' e e1 e2,
  grid_mdp (A:=Q) Square [[0; 0; 0; 1]%Q] None (4, 1) false = Ok m /\
  make_env m [mkSpec "p"%string 1%Z None 1%Z [1 # 1000000000; 0]%Q []] = (m', Ok e) /\ env_fit pl e "p" None 0 0 = (e1, Ok tt) /\
  state_valid_actions (e_mdp e) 1 = Ok [1; 3] /\ env_step pl e1 "p" 1 = (e2, Ok 0%Z).
Proof. do 5 eexists. vmr. Qed.
