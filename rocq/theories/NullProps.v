(** Property C140: agents without preferences (the Null algorithm). *)
From Coq Require Import String List ZArith QArith Reals Bool Lia Lra.
From Verif Require Import PyBase PyProofs GridModel GridSpec MDPModel MDPSpec MDPProofs MDPProofs2 MDPProofs3 MDPProofs4 MDPProps ActionModel ActionSpec ActionProofs RSum ActionProps EnvModel PlanProps EnvSpec StepSpec EnvProofs EnvProofs2 EnvProofs3 EnvProofs4 EnvProofs5 EnvProps StepProps FitProps QueryModel.
Import ListNotations.
Local Close Scope Q_scope.
Local Open Scope nat_scope.

(** Agent [nm] uses the Null algorithm, and picks one of the best actions by drawing. *)
Definition uses_null (pl : plugins R) (nm : string) : Prop := forall e n s, pl_fit pl nm e n s = null_fit e.
Definition uses_max (pl : plugins R) (nm : string) : Prop :=
  (forall seed, pl_pi pl nm seed = max_get_pi (fun _ => seed)) /\ pl_pi_p pl nm = max_get_pi_p.

(** A table with the same entry everywhere. *)
Definition table {A} (rows cols : nat) (x : A) : list (list A) := repeat (repeat x cols) rows.

Lemma ones_best : forall n a, a < n -> best_action (repeat (Fin 1%R) n) a.
Proof.
  intros n a H. split; [now rewrite repeat_length|]. intros b Hb. rewrite repeat_length in Hb. rewrite !nth_repeat_lt by assumption. cbn. right. exact eq_refl || lra.
Qed.
Lemma table_facts : forall rows cols, 0 < rows -> 0 < cols -> let q := table rows cols (Fin 1%R) in
  (forall row, In row q -> row <> []) /\ (exists row, In row q /\ some_known row) /\ length q = rows /\
  forall s, s < rows -> nth s q [] = repeat (Fin 1%R) cols /\ some_known (nth s q []) /\ unmixed (nth s q []).
Proof.
  intros rows cols R0 C0 q. unfold q, table. assert (SK : some_known (repeat (Fin 1%R) cols)) by (exists (Fin 1%R); split; [destruct cols; [lia|now left]|discriminate]).
  split; [|split; [|split]].
  - intros row H. apply repeat_spec in H. subst row. destruct cols; [lia|discriminate].
  - exists (repeat (Fin 1%R) cols). split; [destruct rows; [lia|now left]|exact SK].
  - apply repeat_length.
  - intros s Hs. rewrite nth_repeat_lt by exact Hs. split; [reflexivity|]. split; [exact SK|]. intros [H _]. apply repeat_spec in H. discriminate.
Qed.
Lemma ones_pi_p : forall rows cols, 0 < rows -> 0 < cols -> get_pi_p max_get_pi_p (table rows cols (Fin 1%R)) = Ok (table rows cols (Fin (1 / INR cols)%R)).
Proof.
  intros rows cols R0 C0. destruct (table_facts rows cols R0 C0) as (H1 & H2 & H3 & H4). destruct (C25_probabilities _ H1 H2) as (p & -> & L & H). f_equal.
  apply nth_ext with (d := []) (d' := []); [unfold table in *; rewrite repeat_length in *; lia|]. intros s Hs. rewrite L, H3 in Hs. destruct (H4 s Hs) as (E & K & U).
  destruct (H s ltac:(lia) K U) as (best & ps & -> & Lp & _ & ND & _ & B & V). rewrite E in *. rewrite repeat_length in Lp. unfold table. rewrite nth_repeat_lt by exact Hs.
  assert (LB : length best = cols).
  { assert (X : incl best (seq 0 cols)) by (intros a Ha; apply B in Ha; destruct Ha as [Ha _]; rewrite repeat_length in Ha; apply in_seq; lia).
    assert (Y : incl (seq 0 cols) best) by (intros a Ha; apply in_seq in Ha; apply B, ones_best; lia).
    apply (NoDup_incl_length ND) in X. apply (NoDup_incl_length (seq_NoDup _ _)) in Y. rewrite seq_length in *. lia. }
  apply nth_ext with (d := NaN) (d' := NaN); [now rewrite map_length, repeat_length|]. intros a Ha. rewrite map_length in Ha. rewrite (nth_map_lt _ _ _ _ _ _ 0%R) by exact Ha. rewrite nth_repeat_lt by lia.
  rewrite V by exact Ha. rewrite LB. destruct (in_dec Nat.eq_dec a best) as [_|N]; [reflexivity|]. elim N. apply B, ones_best. lia.
Qed.

Section Null.
Variables (pl : plugins R) (nm : string).
Hypothesis UN : uses_null pl nm.
Hypothesis UM : uses_max pl nm.

(** Fitting always succeeds. All values are 1, every action has the same probability in every state, walls or not. *)
Theorem C140_fit : forall e a n s s', reachable pl e -> agent_named e nm a -> let m := e_mdp e in
  exists e1 b pi, env_fit pl e nm n s s' = (e1, Ok tt) /\ e_mdp e1 = m /\ agent_named e1 nm b /\
    at_fit b = Some (repeat (Fin 1%R) (m_n_states m), table (m_n_states m) (m_n_actions m) (Fin 1%R)) /\
    get_agent_q_values e1 nm = Ok (Some (table (m_n_states m) (m_n_actions m) (Fin 1%R))) /\
    get_agent_pi_p e1 nm = Ok (Some (table (m_n_states m) (m_n_actions m) (Fin (1 / INR (m_n_actions m))%R))) /\
    get_agent_pi e1 nm = Ok (Some pi) /\ length pi = m_n_states m /\ forall x, In x pi -> (0 <= x < Z.of_nat (m_n_actions m))%Z.
Proof.
  intros e a n s s' RE NA m. pose proof NA as [Ha EN]. destruct (reachable_wf _ _ RE) as (k & shape & st & W). pose proof (wf_grid _ _ _ _ W) as G.
  assert (S0 : 0 < m_n_states m) by (unfold m; rewrite (gi_ns _ _ _ _ G); apply (gi_pos _ _ _ _ G)).
  assert (A0 : 0 < m_n_actions m) by (unfold m; rewrite (gi_na _ _ _ _ G); destruct k, st; cbn; lia).
  set (q := table (m_n_states m) (m_n_actions m) (Fin 1%R)). destruct (table_facts _ _ S0 A0) as (H1 & H2 & H3 & H4). fold q in H1, H2, H3, H4.
  assert (EA : alg_fit pl e a n s = Ok (repeat (Fin 1%R) (m_n_states m), q)).
  { unfold alg_fit. rewrite (reward_fits _ _ _ RE Ha), Nat.eqb_refl, EN, UN. unfold null_fit. cbn [negb bind]. fold m. rewrite repeat_length, Nat.eqb_refl. cbn [negb].
    change (repeat (repeat (Fin n1) (m_n_actions m)) (m_n_states m)) with q. rewrite H3, Nat.eqb_refl. cbn [negb].
    replace (forallb (fun row => length row =? m_n_actions m) q) with true; [reflexivity|]. symmetry. apply forallb_forall. intros row Hr. apply repeat_spec in Hr. subst row. rewrite repeat_length. apply Nat.eqb_refl. }
  destruct UM as [U1 U2]. destruct (C25_sampled_is_best (fun _ => s') q H1 H2) as (pi & EP & LP & BP).
  set (b := set_policy (set_fit a (Some (repeat (Fin 1%R) (m_n_states m), q))) (Some pi) (Some (table (m_n_states m) (m_n_actions m) (Fin (1 / INR (m_n_actions m))%R)))).
  assert (EG : get_policy pl (set_fit a (Some (repeat (Fin 1%R) (m_n_states m), q))) s' = (b, Ok tt)).
  { unfold get_policy. cbn [set_fit at_fit at_name]. rewrite EN, U2, U1. unfold q at 1. rewrite (ones_pi_p _ _ S0 A0). fold q. rewrite EP. reflexivity. }
  assert (EF : env_fit pl e nm n s s' = (with_agent e b, Ok tt)) by (unfold env_fit; rewrite (lookup_named _ _ _ _ RE NA), EA; match goal with |- context [get_policy ?p ?x ?y] => change (get_policy p x y) with (get_policy pl (set_fit a (Some (repeat (Fin 1%R) (m_n_states m), q))) s') end; rewrite EG; reflexivity).
  exists (with_agent e b), b, pi. split; [exact EF|]. split; [reflexivity|].
  assert (NB : agent_named (with_agent e b) nm b).
  { split; [|exact EN]. cbn [with_agent e_agents]. unfold put_agent. destruct (existsb _ _) eqn:X.
    - apply in_map_iff. exists a. split; [|exact Ha]. change (at_name b) with (at_name a). now rewrite String.eqb_refl.
    - apply in_app_iff. right. now left. }
  assert (RE1 : reachable pl (with_agent e b)). { change (with_agent e b) with (fst (with_agent e b, Ok tt)). rewrite <- EF. exact (reach_op pl e (OFit nm n s s') RE). }
  pose proof (lookup_named _ _ _ _ RE1 NB) as L.
  split; [exact NB|]. split; [reflexivity|]. unfold get_agent_q_values, get_agent_pi_p, get_agent_pi. rewrite L. cbn [bind]. do 3 (split; [reflexivity|]). split; [congruence|].
  intros x Hx. apply (In_nth _ _ 0%Z) in Hx. destruct Hx as (i & Hi & <-). rewrite LP in Hi. destruct (H4 i ltac:(lia)) as (E4 & K & UX). destruct (BP i Hi K UX) as (act & -> & BA). rewrite E4 in BA. destruct BA as [BA _]. rewrite repeat_length in BA. lia.
Qed.

(** Wherever a fitted agent stands, each action may be the one it takes, the impossible ones included. *)
Theorem C140_any_action : forall e a v act, reachable pl e -> agent_named e nm a -> let m := e_mdp e in
  at_fit a = Some (v, table (m_n_states m) (m_n_actions m) (Fin 1%R)) -> act < m_n_actions m -> exists seed, picks pl a seed (Z.of_nat act).
Proof.
  intros e a v act RE NA m F HA. pose proof NA as [Ha EN]. destruct (reachable_wf _ _ RE) as (k & shape & st & W). pose proof (wf_grid _ _ _ _ W) as G.
  assert (S0 : 0 < m_n_states m) by (unfold m; rewrite (gi_ns _ _ _ _ G); apply (gi_pos _ _ _ _ G)).
  set (q := table (m_n_states m) (m_n_actions m) (Fin 1%R)) in *. destruct (table_facts (m_n_states m) (m_n_actions m) S0 ltac:(lia)) as (H1 & H2 & H3 & H4). fold q in H1, H2, H3, H4.
  destruct (wf_agents _ _ _ _ W a Ha) as (_ & _ & _ & _ & (i & SO) & _). unfold stands_on in SO. pose proof (proj1 (py_index_ok _ _ _ SO)) as Hi. fold m in SO, Hi. destruct (H4 i Hi) as (E4 & K & UX).
  destruct (clean_max (nth i q [])) as (l & El & _ & NE & B); [apply H1, nth_In; lia|].
  assert (BA : best_action (nth i q []) act) by (rewrite E4; now apply ones_best).
  apply B in BA. apply (In_nth _ _ 0) in BA. destruct BA as (r & Lr & Er).
  exists r. destruct UM as [U1 _].
  assert (X : exists pi, get_pi (max_get_pi (fun _ => r)) q = Ok pi /\ length pi = length q /\ nth i pi 0%Z = Z.of_nat act).
  { unfold get_pi. rewrite (proj2 (check_q_ok q)) by exact H2. cbn [bind]. destruct (max_get_pi_from_spec (fun _ => r) q 0 H1) as (pi & E & L & P). unfold max_get_pi. rewrite E. cbn [bind]. rewrite L, Nat.eqb_refl. cbn [negb].
    eexists. split; [reflexivity|]. split; [rewrite map_length, combine_length; lia|]. rewrite (nth_map_combine _ _ _ _ _ _ _ [] 0%Z 0%Z) by lia. cbn beta iota. rewrite (proj2 (nan_state_false _) (conj K UX)).
    destruct (P i ltac:(lia)) as (l' & a' & El' & -> & ->). rewrite El in El'. injection El' as <-. rewrite Nat.mod_small by exact Lr. now rewrite Er. }
  destruct X as (pi & EP & LP & NP). exists v, q, pi, i. split; [exact F|]. rewrite EN, U1. split; [exact EP|]. rewrite LP, H3. split; [exact SO|]. now rewrite NP.
Qed.
End Null.

(** In a 3 x 1 corridor, with a wall on its left, the agent takes each of the four actions with probability 1/4. *)
Example C140_example : exists m m' e e1, grid_mdp (A:=Q) Square [[0; 1; 0]%Q] (Some [1; 0; 0]%Q) (3, 1) false = Ok m /\ make_env m [mkSpec "q"%string 1%Z None 1%Z [1; 0]%Q []] = (m', Ok e) /\
  env_fit greedy e "q" None 0 0 = (e1, Ok tt) /\ get_agent_q_values e1 "q" = Ok (Some (table 3 4 (Fin 1%Q))) /\ get_agent_pi_p e1 "q" = Ok (Some (table 3 4 (Fin (1 # 4)%Q))) /\
  map (fun s => snd (env_step greedy e1 "q" s)) [0; 1; 2; 3] = map Ok [0; 2; 0; 0]%Z.
Proof. do 4 eexists. vmr. Qed.
