(** Property C153: how a tree search simulates the choices of other agents. *)
From Coq Require Import String List ZArith QArith Reals Bool Lia Lra.
From Verif Require Import PyBase PyProofs GridModel GridSpec GridProofs GridProofs2 MDPModel MDPSpec MDPProofs MDPProofs2 MDPProps ActionModel ActionSpec SoftmaxModel SoftmaxProofs ActionProofs RSum ActionProps VIModel VISpec VIProofs VIProofs2 VIProps VIEnvProps MCTSModel MCTSSpec MCTSProofs MCTSProps MCTSRun.
Import ListNotations.
Local Close Scope Q_scope.
Local Open Scope nat_scope.

(** [t] is as probable as any other outcome of [a] in [s]. *)
Definition likeliest (sas : list (list (list R))) (s a t : nat) : Prop :=
  t < n_states sas /\ (0 < prob sas s a t)%R /\ forall x, x < n_states sas -> (prob sas s a x <= prob sas s a t)%R.
(** No possible action has a larger value. *)
Definition best_known (row : list (fval R)) (a : nat) : Prop := exists x, nth a row NaN = Fin x /\ forall b y, nth b row NaN = Fin y -> (y <= x)%R.

Lemma goes_on : forall sas rf ft k g tol v q select states s d a, is_mdp sas -> s < n_states sas -> solve_value_iteration hard_backup rf ft k g sas tol = Ok (v, q) ->
  select (nth s q []) d = Ok a -> a < n_actions sas -> possible sas s a ->
  exists t, opp_next_state (OppSolve select) states (Z.of_nat s) rf ft sas k g tol None d = Ok (t, Some q) /\ likeliest sas s a t.
Proof.
  intros sas rf ft k g tol v q select states s d a M Hs E SE La (u & Hu & PU). unfold opp_next_state. rewrite E. cbn [bind]. rewrite (py_index_nat (length sas) s Hs). cbn [bind]. rewrite SE. cbn [bind].
  unfold prob in PU. set (row := nth a (nth s sas []) []) in *. destruct (proj2 M (nth s sas [])) as [LM MR]; [apply nth_In; exact Hs|]. destruct (MR row) as (LR & _); [apply nth_In; lia|].
  destruct (argmax_spec row) as (AL & AM & _). { intros X. rewrite X in PU. destruct u; cbn in PU; lra. }
  assert (PM : (0 < nth (argmax row) row 0)%R). { eapply Rlt_le_trans; [exact PU|]. apply AM, nth_In. lia. }
  assert (EXB : existsb (fun row0 => nltb n0 (nth (argmax row) row0 n0)) (nth s sas []) = true).
  { apply existsb_exists. exists row. split; [apply nth_In; lia|]. cbn. unfold Rltb. destruct (Rlt_dec 0 (nth (argmax row) row 0%R)) as [|XX]; [reflexivity|exact (False_ind _ (XX PM))]. }
  rewrite EXB. exists (argmax row). split; [reflexivity|]. split; [lia|]. unfold prob. fold row. split; [exact PM|]. intros x Hx. apply AM, nth_In. lia.
Qed.
Lemma row_known : forall sas rf ft k g tol v q s, is_mdp sas -> s < n_states sas -> solve_value_iteration hard_backup rf ft k g sas tol = Ok (v, q) ->
  length (nth s q []) = n_actions sas /\ (forall x, In x (nth s q []) -> x = NInf \/ exists y, x = Fin y) /\ (forall a x, nth a (nth s q []) NaN = Fin x -> a < n_actions sas /\ possible sas s a) /\
  (forall a, a < n_actions sas -> possible sas s a -> exists x, nth a (nth s q []) NaN = Fin x).
Proof.
  intros sas rf ft k g tol v q s M Hs E. destruct (C30_mask _ _ _ _ _ _ _ _ _ M (or_introl eq_refl) E) as (_ & _ & H). destruct (H s Hs) as [LR HA]. split; [exact LR|]. split; [|split].
  - intros x Hx. apply (In_nth _ _ NaN) in Hx. destruct Hx as (b & Lb & <-). destruct (HA b ltac:(lia)) as [H1 H2]. destruct (possible_dec sas s b) as [P|P]; [right; auto|left; now apply H1].
  - intros a x Ex. assert (La : a < n_actions sas). { destruct (Nat.lt_ge_cases a (n_actions sas)); [assumption|]. rewrite nth_overflow in Ex by lia. discriminate. }
    split; [exact La|]. destruct (possible_dec sas s a) as [P|P]; [exact P|]. apply (proj1 (HA a La)) in P. congruence.
  - intros a La P. now apply HA.
Qed.

(** Softmax: an opponent at [s] takes action [a] when the draw falls into an interval as long as the Gibbs probability of
    [a], by the values of its own plan; impossible actions have none. *)
Theorem C153_softmax : forall sas rf ft k g tol v q T u states s d, is_mdp sas -> (0 < T)%R -> (0 <= u d < 1)%R -> s < n_states sas -> (exists b, b < n_actions sas /\ possible sas s b) ->
  solve_value_iteration hard_backup rf ft k g sas tol = Ok (v, q) ->
  let row := nth s q [] in let total := Rsum (map (gibbs_weight T) row) in
  exists a t, opp_next_state (OppSolve (select_softmax T u)) states (Z.of_nat s) rf ft sas k g tol None d = Ok (t, Some q) /\ a < n_actions sas /\ possible sas s a /\ likeliest sas s a t /\
    (Rsum (map (gibbs_weight T) (firstn a row)) <= u d * total < Rsum (map (gibbs_weight T) (firstn a row)) + gibbs_weight T (nth a row NaN))%R.
Proof.
  intros sas rf ft k g tol v q T u states s d M HT HU Hs (b0 & Lb0 & P0) E row total. destruct (row_known _ _ _ _ _ _ _ _ _ M Hs E) as (LR & KN & PO & FI). fold row in LR, KN, PO, FI.
  destruct (FI b0 Lb0 P0) as (x0 & E0). assert (I0 : In (Fin x0) row) by (rewrite <- E0; apply nth_In; lia).
  assert (C1 : forall v, In v row -> v <> NaN /\ v <> PInf) by (intros w Hw; destruct (KN w Hw) as [->|(x & ->)]; split; discriminate).
  assert (C2 : exists v, In v row /\ v <> NInf) by (exists (Fin x0); split; [exact I0|discriminate]).
  pose proof (gibbs_total_pos T row C1 C2) as TP. fold total in TP. set (ws := map (gibbs_weight T) row) in *.
  assert (SM : select_softmax T u row d = Ok (rand_choice_nb (map (fun w => w / total)%R ws) (u d))).
  { unfold select_softmax. rewrite softmax_gibbs by assumption. fold ws. fold total. replace (map (fun v0 => Fin (gibbs_weight T v0 / total)%R) row) with (map Fin (map (fun w => w / total)%R ws)) by (unfold ws; now rewrite !map_map).
    generalize (map (fun w => w / total)%R ws) as ps. intros ps. replace (mapM _ (map Fin ps)) with (Ok ps); [reflexivity|]. induction ps as [|y l IH]; [reflexivity|]. cbn [map mapM fin_of bind]. rewrite <- IH. reflexivity. }
  set (ps := map (fun w => w / total)%R ws) in *.
  assert (S1 : Rsum ps = 1%R). { unfold ps. rewrite Rsum_div, map_id. fold total. field. lra. }
  assert (PN : forall x, In x ps -> (0 <= x)%R).
  { intros x Hx. unfold ps in Hx. apply in_map_iff in Hx. destruct Hx as (w & <- & Hw). unfold ws in Hw. apply in_map_iff in Hw. destruct Hw as (y & <- & _).
    apply Rmult_le_pos; [|apply Rlt_le, Rinv_0_lt_compat, TP]. destruct y; cbn; try lra. apply Rlt_le, exp_pos. }
  set (a := rand_choice_nb ps (u d)) in *. assert (IV := C28_interval ps (u d) PN ltac:(lra) HU a). cbv zeta in IV. destruct IV as (_ & (IV & _) & _). destruct (IV eq_refl) as (La & B).
  destruct (C28_zero_weight_never_drawn ps (u d) PN ltac:(lra) HU) as (_ & _ & _ & PA). fold a in PA.
  assert (La' : a < length row) by (unfold ps, ws in La; now rewrite !map_length in La).
  assert (EW : gibbs_weight T (nth a row NaN) = (nth a ps 0 * total)%R). { unfold ps, ws. rewrite map_map, (nth_map_lt _ _ _ _ _ _ NaN) by exact La'. field. lra. }
  destruct (nth a row NaN) as [| | |x] eqn:EX; try (cbn in EW; nra). destruct (PO a x EX) as [Na Pa].
  destruct (goes_on sas rf ft k g tol v q (select_softmax T u) states s d a M Hs E SM Na Pa) as (t & EO & LK). exists a, t. split; [exact EO|]. split; [exact Na|]. split; [exact Pa|]. split; [exact LK|].
  rewrite S1 in B. assert (FS : forall n, Rsum (firstn n ps) = (Rsum (map (gibbs_weight T) (firstn n row)) / total)%R). { intros n. unfold ps, ws. now rewrite !firstn_map, Rsum_div, map_id. }
  assert (SS : Rsum (firstn (S a) ps) = (Rsum (firstn a ps) + nth a ps 0)%R).
  { clear - La. clearbody ps a. revert a La. induction ps as [|y l IH]; intros [|a] La; cbn in La; try lia; [cbn; lra|]. change (firstn (S (S a)) (y :: l)) with (y :: firstn (S a) l). change (firstn (S a) (y :: l)) with (y :: firstn a l). cbn [nth]. rewrite !Rsum_cons, IH by lia. lra. }
  rewrite SS, FS in B. set (A := Rsum (map (gibbs_weight T) (firstn a row))) in *. rewrite EX, EW. assert (D1 : forall y : R, (y / 1 = y)%R) by (intros; field). rewrite !D1 in B. destruct B as [B1 B2]. assert (EA : (A = A / total * total)%R) by (field; lra). split; [rewrite EA; apply Rmult_le_compat_r; lra|].
  rewrite EA at 1. rewrite <- Rmult_plus_distr_r. apply Rmult_lt_compat_r; lra.
Qed.

(** Greedy: it takes one of the best possible actions, each for one draw in as many as there are. *)
Theorem C153_greedy : forall sas rf ft k g tol v q states s, is_mdp sas -> s < n_states sas -> (exists b, b < n_actions sas /\ possible sas s b) ->
  solve_value_iteration hard_backup rf ft k g sas tol = Ok (v, q) ->
  exists best, NoDup best /\ best <> [] /\ (forall a, In a best <-> best_known (nth s q []) a) /\
  forall d, exists t, opp_next_state (OppSolve select_max) states (Z.of_nat s) rf ft sas k g tol None d = Ok (t, Some q) /\ possible sas s (nth (d mod length best) best 0) /\ likeliest sas s (nth (d mod length best) best 0) t.
Proof.
  intros sas rf ft k g tol v q states s M Hs (b0 & Lb0 & P0) E. destruct (row_known _ _ _ _ _ _ _ _ _ M Hs E) as (LR & KN & PO & FI). set (row := nth s q []) in *.
  destruct (FI b0 Lb0 P0) as (x0 & E0). destruct (max_actions_spec row) as (l & EL & ND & NE & B).
  { intros X. rewrite X in E0. destruct b0; discriminate. } { intros w Hw. destruct (KN w Hw) as [->|(x & ->)]; discriminate. }
  assert (BK : forall a, In a l <-> best_known row a).
  { intros a. rewrite B. split.
    - intros [La LE]. destruct (KN (nth a row NaN)) as [X|(x & X)]; [now apply nth_In| |].
      + specialize (LE b0 ltac:(lia)). rewrite E0, X in LE. cbn in LE. contradiction.
      + exists x. split; [exact X|]. intros b y Eb. assert (Lb : b < length row). { destruct (Nat.lt_ge_cases b (length row)); [assumption|]. rewrite nth_overflow in Eb by lia. discriminate. }
        specialize (LE b Lb). rewrite Eb, X in LE. exact LE.
    - intros (x & X & MX). destruct (PO a x X) as [La _]. split; [lia|]. intros b Lb. rewrite X. destruct (KN (nth b row NaN)) as [Y|(y & Y)]; [now apply nth_In| |]; rewrite Y; cbn; [exact I|]. now apply (MX b). }
  exists l. split; [exact ND|]. split; [exact NE|]. split; [exact BK|]. intros d. set (a := nth (d mod length l) l 0).
  assert (Ia : In a l). { apply nth_In, Nat.mod_upper_bound. destruct l; [congruence|cbn; lia]. }
  apply BK in Ia. destruct Ia as (x & X & _). destruct (PO a x X) as [La Pa]. destruct (goes_on sas rf ft k g tol v q select_max states s d a M Hs E) as (t & EO & LK); auto; [|eauto].
  unfold select_max, random_max. fold row. rewrite EL. reflexivity.
Qed.

(** Random: it goes to any state that can be reached in one move, and to each for some draw. *)
Theorem C153_random : forall sas rf ft k g tol q s acts, get_actions_states sas (Z.of_nat s) = Ok acts -> s < n_states sas ->
  (exists t, can_go sas s t) ->
  (forall d, exists t, opp_next_state OppRandom (map snd acts) (Z.of_nat s) rf ft sas k g tol q d = Ok (t, q) /\ can_go sas s t) /\
  forall t, can_go sas s t -> exists d, opp_next_state OppRandom (map snd acts) (Z.of_nat s) rf ft sas k g tol q d = Ok (t, q).
Proof.
  intros sas rf ft k g tol q s acts G Hs (t0 & T0). destruct (get_actions_states_spec _ _ _ G) as (s' & PS & H). rewrite (py_index_nat (length sas) s Hs) in PS. injection PS as <-.
  assert (IN : forall t, In t (map snd acts) <-> can_go sas s t).
  { intros t. rewrite in_map_iff. split; [intros ([a x] & Ex & I); cbn in Ex; subst x; exists a; now apply H|intros (a & GO); exists (a, t); split; [reflexivity|now apply H]]. }
  unfold opp_next_state. split.
  - intros d. destruct (pick_ok (map snd acts) d) as (x & P & I). { intros X. apply IN in T0. rewrite X in T0. destruct T0. } rewrite P. cbn [bind]. exists x. split; [reflexivity|now apply IN].
  - intros t GO. apply IN in GO. destruct (pick_any _ _ GO) as (d & P). exists d. rewrite P. reflexivity.
Qed.

(** A tie between the two ways to the corner with the reward; the hypotheses are met on this grid. *)
Example C153_example : exists m v q, grid_mdp (A:=Q) Square [[0; 0; 0; 1]%Q] None (2, 2) false = Ok m /\
  solve_value_iteration hard_backup [1]%Q (m_features m) 3 (1 # 2)%Q (m_sas m) (1 # 4)%Q = Ok (v, q) /\
  map (fun d => match opp_next_state (OppSolve select_max) [] 0%Z [1]%Q (m_features m) (m_sas m) 3 (1 # 2)%Q (1 # 4)%Q None d with Ok (t, _) => Some t | Err _ => None end) [0; 1; 2] = [Some 1; Some 2; Some 1].
Proof. do 3 eexists. vmr. Qed.
Example C153_hypotheses : exists m v q, grid_mdp (A:=R) Square [[0; 0; 0; 1]%R] None (2, 2) false = Ok m /\ is_mdp (m_sas m) /\ (exists b, b < n_actions (m_sas m) /\ possible (m_sas m) 0 b) /\
  solve_value_iteration hard_backup [1]%R (m_features m) 3 (1 / 2)%R (m_sas m) (1 / 4)%R = Ok (v, q).
Proof.
  destruct (proj2 (C05_construction Square [[0; 0; 0; 1]%R] None (2, 2) false)) as (m & E); [cbn; split; [lia|split; [repeat constructor|exact I]]|]. destruct (grid_mdp_inv _ _ _ _ _ _ E) as (_ & _ & _ & _ & IV & _ & FT & _).
  pose proof (grid_is_mdp _ _ _ _ IV) as M. destruct (grid_shape _ _ _ _ IV) as (N & NA & _).
  destruct (solve_spec hard_backup lmax (m_sas m) [1]%R (m_features m) 2 (1 / 2)%R (1 / 4)%R M ltac:(lra)) as (v & q & ES & _).
  { rewrite FT. reflexivity. } { exact (bk_hard _ M). } { exact (fun l l' d => lmax_ne (n_actions (m_sas m)) l l' d (proj1 M)). }
  exists m, v, (mask_q (m_sas m) q). split; [exact E|]. split; [exact M|]. split; [|exact ES].
  exists 0. rewrite NA. split; [cbn; lia|]. exists 1. rewrite N. split; [cbn; lia|]. destruct (C05_transitions _ _ _ _ _ E) as (_ & _ & _ & _ & T). destruct (T 0 0 1) as [_ T1]; [cbn; lia..|]. unfold prob. unfold get3 in T1. rewrite (proj2 T1); [lra|]. left. split; [cbn; lia|reflexivity].
Qed.
