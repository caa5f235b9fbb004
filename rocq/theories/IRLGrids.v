(** Grid worlds meet the conditions of the theorems on inference, with a concrete case. *)
From Coq Require Import List ZArith Reals Bool Lia Lra.
From Verif Require Import PyBase PyProofs ActionSpec RSum ActionProofs GridModel GridSpec GridProofs GridProofs2 MDPModel MDPSpec MDPProofs MDPProofs2 MDPProofs3 EnvProofs3 VIModel VISpec VIProofs VIProps VIEnvProps MCTSModel MCTSSpec MCTSProofs MCTSProofs2 MCTSProofs3 MCTSProps MCTSWalk MCTSRun
  IRLModel IRLVisit IRLPolicy IRLMatch IRLExpect IRLMaxEnt IRLFit IRLProps IRLIgnore IRLEye IRLLook.
Import ListNotations.

(** The transitions of a grid are certain, and every state that can be entered can be left. *)
Lemma grid_continues : forall k shape st m, grid_inv k shape st m -> stochastic (m_sas m) /\ continues (m_sas m).
Proof.
  intros k shape st m G. destruct (grid_shape _ _ _ _ G) as (N & NA & SH). split.
  - intros s a Hs Ha (t0 & Ht0 & P). rewrite N, NA in *.
    rewrite (sumf_single _ _ t0); [|apply seq_NoDup|apply in_seq; lia|].
    + destruct (inv_edge _ _ _ _ G s a t0 Hs Ha Ht0) as [[E _]|[E _]]; [exact E|]. rewrite get3_prob in E. lra.
    + intros t Ht NT. apply in_seq in Ht. destruct (inv_edge _ _ _ _ G s a t Hs Ha ltac:(lia)) as [[_ W]|[E _]]; [|exact E]. exfalso. apply NT.
      destruct (inv_edge _ _ _ _ G s a t0 Hs Ha Ht0) as [[_ W0]|[E _]]; [|rewrite get3_prob in E; lra]. eapply edge_unique_t; [apply W|apply W0|]. apply pos_snd, (gi_pos _ _ _ _ G).
  - intros s a t P. rewrite <- get3_prob in P.
    assert (Hs : s < nst shape). { destruct (Nat.lt_ge_cases s (nst shape)) as [L|L]; [exact L|]. elim P. unfold get3. rewrite (nth_overflow (m_sas m)) by (destruct SH as [-> _]; exact L). destruct a; now destruct t. }
    assert (CG : can_go (m_sas m) s t) by (exists a; exact P). apply (go_edge _ _ _ _ G _ _ Hs) in CG. destruct CG as (Ht & b & (E & W1 & W2)). destruct (edge_back _ _ _ _ _ _ E) as (b' & E').
    assert (LA : b' < actions_of k st) by (eapply edge_action; exact E'). exists b'. rewrite NA. split; [exact LA|]. exists s. split; [rewrite N; exact Hs|]. rewrite <- get3_prob. destruct (inv_edge _ _ _ _ G t b' s Ht LA Hs) as [[-> _]|[_ X]]; [lra|]. elim X. split; auto.
Qed.
(** Trajectories in a grid can be used for inference if they are not empty and start where some action is
    listed as valid. *)
Theorem C87_grids : forall k feats w0 shape st m0 calls ts, grid_mdp (A:=R) k feats w0 shape st = Ok m0 -> let m := after_wall_calls m0 calls in
  ts <> [] -> Forall (fun t => t <> [] /\ Forall (fun s => s < fst shape * snd shape) t /\ exists va, state_valid_actions m (Z.of_nat (hd 0 t)) = Ok va /\ va <> []) ts -> inferable m (map (map Z.of_nat) ts).
Proof.
  intros k feats w0 shape st m0 calls ts H m T0 T. destruct (grid_clean _ _ _ _ _ _ calls H) as (C & _ & EF & _). fold m in C, EF. pose proof (cl_grid _ _ _ _ C) as G. destruct (cl_table _ _ _ _ C) as [TB1 TB2]. destruct (grid_shape _ _ _ _ G) as (N & NA & SH). destruct (grid_continues _ _ _ _ G) as [S1 S2].
  pose proof (gi_ns _ _ _ _ G) as NS. unfold nst in *. split; [eapply grid_is_mdp; exact G|]. split; [exact S1|]. split; [exact S2|]. split; [congruence|]. split; [rewrite NS; apply (gi_pos _ _ _ _ G)|]. split; [exact TB1|]. split; [exact TB2|].
  split; [intros X; apply T0; now destruct ts|]. split; [|split].
  - apply Forall_forall. intros t Ht. apply in_map_iff in Ht. destruct Ht as (u & <- & Hu). rewrite Forall_forall in T. destruct (T u Hu) as (X & _). now destruct u.
  - apply Forall_forall. intros t Ht. apply in_map_iff in Ht. destruct Ht as (u & <- & Hu). rewrite Forall_forall in T. destruct (T u Hu) as (_ & X & _). unfold in_states. apply Forall_forall. intros z Hz. apply in_map_iff in Hz. destruct Hz as (s & <- & Hs). rewrite Forall_forall in X. specialize (X s Hs). rewrite NS. lia.
  - apply Forall_forall. intros t Ht. apply in_map_iff in Ht. destruct Ht as (u & <- & Hu). rewrite Forall_forall in T. destruct (T u Hu) as (U1 & U2 & va & EV & NV). destruct u as [|s u]; [congruence|]. cbn [map hd] in *. rewrite Nat2Z.id. inversion U2. subst.
    destruct (in_valid_actions _ _ _ _ G s ltac:(assumption)) as (va' & EV' & V). assert (va' = va) by congruence. subst va'. destruct va as [|a va]; [congruence|]. destruct (proj1 (V a) (or_introl eq_refl)) as (t & Ht & W). assert (LA : a < actions_of k st) by (eapply edge_action; apply W).
    exists a. rewrite NA. split; [exact LA|]. exists t. split; [rewrite N; exact Ht|]. rewrite <- get3_prob. destruct (inv_edge _ _ _ _ G s a t ltac:(assumption) LA Ht) as [[-> _]|[_ X]]; [lra|contradiction].
Qed.

(** ** A concrete case *)
(** On the grid of [C55_example], with its two features (one in each state) and the walk round the wall: the default
    settings with 50 iterations; the hypotheses of C83 to C87 and of C50, C52 and C53 hold for it. *)
Example inference_example : exists m c, grid_mdp (A:=R) Square eye_feats (Some [0; 0; 0; 0; 1; 0]%R) (2, 3) false = Ok m /\ inferable m [[3; 0; 1; 2; 5]; [2; 1]]%Z /\ one_feature_each m /\
  maxent_ok (3 / 10) 1 50 (1 / 100000000) (9 / 10) 500 true c /\ starts_with m (fst (new_maxent c None [])) [] /\ starts_with m (fst (new_maxent c (Some 0) [[1; 0]%R])) [[1; 0]%R] /\ (0 < x_rate (fst (new_maxent c None [])))%R /\
  ignores (m_n_features m) (IgnoreList [1]%Z) /\ matchable 2 [m; m] [[3; 0; 1; 2; 5]; [2; 1]]%Z /\ (exists x' h' a w, fit_maxent c m [[3; 0; 1; 2; 5]; [2; 1]]%Z (IgnoreList [1]%Z) (fst (new_maxent c None [])) [] = (x', h', Ok (a, w)) /\ zero_on [1]%Z (nth a h' [])).
Proof.
  destruct (grid_mdp_ok Square eye_feats (Some [0; 0; 0; 0; 1; 0]%R) (2, 3) false) as (m & E & G & EW & EF & _ & NF & _); [cbn; lia|repeat constructor|reflexivity|repeat constructor; (now left) || (now right)|].
  assert (NW : forall i, i <> 4 -> ~ is_wall (m_walls m) i). { intros i Hi. rewrite EW. unfold is_wall. cbn [walls_arg]. do 6 (destruct i as [|i]; [cbn; (lra || lia)|]). destruct i; cbn; lra. }
  assert (IN : inferable m [[3; 0; 1; 2; 5]; [2; 1]]%Z).
  { apply (C87_grids Square eye_feats (Some [0; 0; 0; 0; 1; 0]%R) (2, 3) false m [] [[3; 0; 1; 2; 5]; [2; 1]] E); [discriminate|]. change (after_wall_calls m []) with m. cbn [fst snd hd].
    assert (VA : forall s a t, s < 6 -> t < 6 -> s <> 4 -> t <> 4 -> edgeb Square (2, 3) false s a t = true -> exists va, state_valid_actions m (Z.of_nat s) = Ok va /\ va <> []).
    { intros s a t Hs Ht Ns Nt Ed. destruct (in_valid_actions _ _ _ _ G s Hs) as (va & EV & V). exists va. split; [exact EV|]. intros ->. apply (proj2 (V a)). exists t. split; [exact Ht|]. split; [now apply edgeb_spec|]. split; now apply NW. }
    constructor; [|constructor; [|constructor]]; (split; [discriminate|]); (split; [repeat constructor|]); [apply (VA 3 3 0)|apply (VA 2 2 1)]; try lia; reflexivity. }
  assert (OF : one_feature_each m). { intros s Hs. rewrite EF. rewrite (gi_ns _ _ _ _ G) in Hs. cbn in Hs. do 6 (destruct s as [|s]; [unfold eye_feats; rewrite !sumf_cons, sumf_nil; cbn; lra|]). lia. }
  assert (OK : exists c, maxent_ok (3 / 10) 1 50 (1 / 100000000) (9 / 10) 500 true c /\ x_lr c = (3 / 10)%R).
  { unfold maxent_ok, maxent_config. cbn [nltb neqb n0 NumR]. rewrite (proj2 (Rltb_true 0 (3 / 10))) by lra. rewrite (proj2 (Rltb_false 1 0)) by lra. cbn [negb]. eexists. split; [split; [reflexivity|split; [lra|lia]]|reflexivity]. }
  destruct OK as (c & OK & EL). exists m, c. split; [exact E|]. split; [exact IN|]. split; [exact OF|]. split; [exact OK|]. cbn [new_maxent fst starts_with x_theta x_rate length nth]. rewrite NF, EL. change (length (eye_feats (A:=R))) with 2.
  assert (S0 : starts_with m (fst (new_maxent c None [])) []) by exact I. assert (IG : ignores (m_n_features m) (IgnoreList [1]%Z)) by (rewrite NF; cbn; repeat constructor; lia).
  split; [exact I|]. split; [split; [lia|reflexivity]|]. split; [lra|]. split; [cbn; repeat constructor; lia|]. split.
  - split; [reflexivity|]. split; [discriminate|]. rewrite <- EF in NF. change (length (eye_feats (A:=R))) with 2 in *. assert (X : m_n_features m = 2 /\ length (m_features m) = 2) by (rewrite EF in *; split; [exact NF|reflexivity]). split; [repeat constructor; apply X|]. repeat constructor; cbn; rewrite ?(gi_ns _ _ _ _ G); cbn; lia.
  - destruct (fit_total _ _ _ _ _ _ _ _ m _ (IgnoreList [1]%Z) _ [] OK ltac:(lia) IN IG S0) as (x' & h' & a & w & EFIT & _ & _). exists x', h', a, w. split; [rewrite <- EL; exact EFIT|]. eapply C53_ignored_zero; [exact EFIT|exact S0|rewrite EF; now symmetry|rewrite NF; cbn; repeat constructor; lia|].
    intros theta d EI. destruct OK as (EC & _). destruct (config_inv _ _ _ _ _ _ _ _ EC) as (_ & _ & _ & _ & _ & _ & _ & EX). rewrite EX in EI. unfold expected_counts in EI. apply bind_ok in EI. destruct EI as ([vv qq] & _ & EI). apply bind_ok in EI. destruct EI as (p & _ & EI). apply bind_ok in EI. destruct EI as (pi & _ & EI). apply bind_ok in EI. destruct EI as (p0 & _ & EI). assert (ED : d = feature_counts (m_features m) (state_visitation_iterator (m_sas m) 500 pi p0)) by congruence. rewrite ED. unfold feature_counts. rewrite map_length, EF. now symmetry.
Qed.
