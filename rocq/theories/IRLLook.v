(** The learners that count features along the line of sight: C88 and C89. *)
From Coq Require Import List ZArith QArith Reals Bool Lia Lra.
From Verif Require Import PyBase PyProofs RSum GridModel GridSpec GridProofs GridProofs2 MDPModel MDPSpec MDPProofs MDPProofs2 MDPProofs3 EnvProofs3 ActionSpec ActionProofs VISpec VIEnvProps IRLModel IRLEye MDPProps.
Import ListNotations.
Local Close Scope Q_scope.

(** ** Specification *)
(** The moves of a trajectory. *)
Definition steps (t : list nat) : list (nat * nat) := combine t (tl t).
(** A trajectory of adjacent states of the MDP. *)
Definition walkable (m : mdp R) (t : list nat) : Prop := Forall (fun s => s < m_n_states m) t /\ linked m t.
Definition never_stays (t : list nat) : Prop := Forall (fun p => fst p <> snd p) (steps t).
(** What someone sees who moves from [s] to [t]. *)
Definition sees (k : gkind) (shape : nat * nat) (walls : list R) (s t : nat) (l : list nat) : Prop := exists a, a < dirs_of k /\ move_of k a (cell_of shape s) = cell_of shape t /\ ray k shape walls s a l.
(** [g] is [f] divided by its total, or [f] itself if there is nothing to divide. *)
Definition shares (f g : list R) : Prop := length g = length f /\ ((forall i, nth i f 0 = 0) /\ g = f \/ (exists i, nth i f 0 <> 0) /\ forall i, nth i g 0 = nth i f 0 / Rsum f)%R.

(** ** Proofs *)
Lemma moves_steps : forall t, moves (map Z.of_nat t) = map (fun p => (Z.of_nat (fst p), Z.of_nat (snd p))) (steps t).
Proof. induction t as [|s [|s' t] IH]; [reflexivity|reflexivity|]. change (moves (map Z.of_nat (s :: s' :: t))) with ((Z.of_nat s, Z.of_nat s') :: moves (map Z.of_nat (s' :: t))). rewrite IH. reflexivity. Qed.
Lemma linked_steps : forall (m : mdp R) t, Forall (fun s => s < m_n_states m) t -> linked m t -> Forall (fun p => fst p < m_n_states m /\ snd p < m_n_states m /\ is_adjacent m (Z.of_nat (fst p)) (Z.of_nat (snd p)) = Ok true) (steps t).
Proof.
  intros m. induction t as [|s [|s' t] IH]; intros F L; [constructor|constructor|]. inversion F as [|? ? F1 F2]. subst. destruct L as [L1 L2]. inversion F2. subst. constructor; [cbn; auto|]. apply (IH F2 L2).
Qed.
Lemma normalise_shares : forall f : list R, Forall (fun x => 0 <= x)%R f -> shares f (normalise f) /\ (Rsum (normalise f) = 1 \/ forall i, nth i f 0 = 0)%R.
Proof.
  intros f F. assert (N : forall i, (0 <= nth i f 0)%R) by (intros i; destruct (Nat.lt_ge_cases i (length f)) as [L|L]; [rewrite Forall_forall in F; apply F, nth_In, L|rewrite nth_overflow by exact L; lra]).
  unfold normalise, shares. destruct (forallb (fun x => neqb x n0) f) eqn:E.
  - assert (Z : forall i, nth i f 0%R = 0%R). { intros i. destruct (Nat.lt_ge_cases i (length f)) as [L|L]; [|now apply nth_overflow]. rewrite forallb_forall in E. specialize (E _ (nth_In _ 0%R L)). cbn in E. now apply Reqb_true in E. }
    split; [|right; exact Z]. split; [reflexivity|]. left. auto.
  - assert (X : exists i, nth i f 0%R <> 0%R). { rewrite <- Bool.not_true_iff_false, forallb_forall in E. destruct (Exists_dec (fun x => x <> 0%R) f ltac:(intros x; destruct (Req_EM_T x 0); [right; tauto|now left])) as [H|H].
      - apply Exists_exists in H. destruct H as (x & Hx & NX). apply (In_nth _ _ 0%R) in Hx. destruct Hx as (i & _ & <-). eauto.
      - exfalso. apply E. intros x Hx. cbn. apply Reqb_true. destruct (Req_dec x 0); [assumption|]. elim H. apply Exists_exists. eauto. }
    assert (P : (0 < Rsum f)%R). { destruct X as (i & Hi). rewrite Rsum_nth. assert (Li : i < length f) by (destruct (Nat.lt_ge_cases i (length f)) as [L|L]; [exact L|rewrite nth_overflow in Hi by exact L; lra]).
      apply Rlt_le_trans with (sumf (fun j => if (j =? i)%nat then nth i f 0%R else 0%R) (seq 0 (length f))).
      - rewrite sumf_indicator by exact Li. specialize (N i). lra.
      - apply sumf_le. intros j _. destruct (Nat.eqb_spec j i) as [->|_]; [lra|apply N]. }
    rewrite nsum_Rsum. split; [split; [now rewrite map_length|right; split; [exact X|]]|left].
    + intros i. destruct (Nat.lt_ge_cases i (length f)) as [L|L]; [now rewrite (nth_map_lt _ _ _ _ _ _ 0%R) by exact L|]. rewrite !nth_overflow by (try rewrite map_length; exact L). unfold Rdiv. ring.
    + change (Rsum (map (fun x => ndiv x (Rsum f)) f)) with (sumf (fun x => x * / Rsum f)%R f). rewrite (sumf_ext _ _ (fun x => / Rsum f * x)%R) by (intros; ring). rewrite sumf_scal. unfold sumf. rewrite map_id. now apply Rinv_l, Rgt_not_eq.
Qed.
Lemma vadd_length : forall n (u v : list R), length u = n -> length v = n -> length (vadd u v) = n.
Proof. intros n u v Lu Lv. unfold vadd. rewrite map_length, combine_length. lia. Qed.
Lemma vadd_nth : forall n (u v : list R) i, length u = n -> length v = n -> nth i (vadd u v) 0%R = (nth i u 0 + nth i v 0)%R.
Proof.
  intros n u v i Lu Lv. destruct (Nat.lt_ge_cases i n) as [L|L].
  - unfold vadd. rewrite (nth_map_lt _ _ _ _ _ _ (0, 0)%R) by (rewrite combine_length; lia). rewrite combine_nth by lia. reflexivity.
  - rewrite !nth_overflow by (try rewrite (vadd_length n) by assumption; lia). lra.
Qed.
Lemma zeros_nth : forall n i, nth i (zeros1 (A:=R) n) 0%R = 0%R. Proof. intros. unfold zeros1. cbn [n0 NumR]. apply nth_repeat. Qed.
Lemma zeros_length : forall n, length (zeros1 (A:=R) n) = n. Proof. intros. apply repeat_length. Qed.

Section Grid.
Context (k : gkind) (shape : nat * nat) (st : bool) (m : mdp R) (G : grid_inv k shape st m) (TB : table_ok m).
Lemma irl_pair : forall s t, s < nst shape -> t < nst shape -> is_adjacent m (Z.of_nat s) (Z.of_nat t) = Ok true ->
  exists a, grid_edge k shape st s a t /\ pair_action m (Z.of_nat s) (Z.of_nat t) = Ok a.
Proof.
  intros s t Hs Ht AD. destruct (is_adjacent_spec _ _ _ _ G s t Hs Ht) as (b & Eb & Sb). assert (b = true) by congruence. apply Sb in H. destruct H as (a & W). exists a. split; [apply W|].
  unfold pair_action. rewrite (gi_ns _ _ _ _ G), !py_index_nat by assumption. cbn [bind]. destruct (pair_action_edge _ _ _ _ G s a t Hs Ht W) as (_ & _ & ->).
  destruct (existsb (fun x => nltb n0 x) (sas_col m s t)) eqn:EX; [reflexivity|exfalso]. rewrite existsb_false_forall in EX. pose proof (edge_action _ _ _ _ _ _ (proj1 W)) as LA.
  pose proof (inv_shape _ _ _ _ G) as SH. pose proof (sas_col_length m s t _ _ SH Hs) as LC.
  assert (X1 : nltb n0 (nth a (sas_col m s t) 0%R) = false) by (apply EX, nth_In; lia). rewrite (sas_col_nth m s t _ _ _ SH Hs LA) in X1.
  destruct (inv_edge _ _ _ _ G s a t Hs LA Ht) as [[E _]|[_ N]]; [|contradiction]. rewrite E in X1. cbn in X1. apply Rltb_false in X1. lra.
Qed.
(** All rays at once. *)
Lemma seen_exists : exists seen : nat -> nat -> list nat, forall s a, s < nst shape -> a < dirs_of k -> ray k shape (m_walls m) s a (seen s a) /\
  forall fuel, nst shape <= fuel -> exists f, get_eyeline_features fuel m (Z.of_nat s) a = Ok f /\ length f = m_n_features m /\ forall i, i < m_n_features m -> nth i f 0%R = sumf (feat m i) (seen s a).
Proof.
  exists (fun s a => match eyeline (nst shape) m s a with Ok l => l | Err _ => [] end). intros s a Hs La. destruct (eyeline_ends _ _ _ _ G a La (nst shape) s Hs (le_n _)) as (l & E). rewrite E.
  pose proof (eyeline_ray _ _ _ _ G a La _ _ _ Hs E) as RL. split; [exact RL|]. destruct (eyeline_count k shape st m s a G TB La Hs) as (l' & RL' & H). assert (l' = l) by (eapply (ray_unique k shape st m G a); eauto). now subst l'.
Qed.
Lemma walk_pairs : forall ts, Forall (walkable m) ts -> Forall (fun p => fst p < nst shape /\ snd p < nst shape /\ is_adjacent m (Z.of_nat (fst p)) (Z.of_nat (snd p)) = Ok true) (concat (map steps ts)).
Proof.
  intros ts F. rewrite <- (gi_ns _ _ _ _ G). induction F as [|t ts [W1 W2] F IH]; [constructor|]. cbn [map concat]. apply Forall_app. split; [now apply linked_steps|exact IH].
Qed.
Lemma moves_all : forall ts, concat (map moves (map (map Z.of_nat) ts)) = map (fun p => (Z.of_nat (fst p), Z.of_nat (snd p))) (concat (map steps ts)).
Proof. induction ts as [|t ts IH]; [reflexivity|]. cbn [map concat]. rewrite IH, moves_steps, map_app. reflexivity. Qed.
Lemma count_moves : forall fuel ps, nst shape <= fuel -> Forall (fun p => fst p < nst shape /\ snd p < nst shape /\ is_adjacent m (Z.of_nat (fst p)) (Z.of_nat (snd p)) = Ok true) ps -> Forall (fun p => fst p <> snd p) ps ->
  exists rays, Forall2 (fun p l => sees k shape (m_walls m) (fst p) (snd p) l) ps rays /\ forall v, length v = m_n_features m -> exists f,
    foldM (fun v p => let* a := pair_action m (fst p) (snd p) in let* f := get_eyeline_features fuel m (fst p) a in Ok (vadd v f)) (map (fun p => (Z.of_nat (fst p), Z.of_nat (snd p))) ps) v = Ok f /\
    length f = m_n_features m /\ forall i, i < m_n_features m -> nth i f 0%R = (nth i v 0 + sumf (fun l => sumf (feat m i) l) rays)%R.
Proof.
  intros fuel ps HF F. induction F as [|[s t] ps (Hs & Ht & AD) F IH]; intros NS.
  - exists []. split; [constructor|]. intros v Lv. exists v. split; [reflexivity|]. split; [exact Lv|]. intros i Hi. rewrite sumf_nil. lra.
  - inversion NS as [|? ? N1 N2]. subst. cbn [fst snd] in *. destruct (IH N2) as (rays & H1 & H2). destruct (irl_pair s t Hs Ht AD) as (a & ED & PA). destruct ED as [[La E]|(_ & _ & E)]; [|congruence].
    destruct (eyeline_count k shape st m s a G TB La Hs) as (l & RL & H). destruct (H fuel HF) as (f0 & E0 & L0 & V0).
    exists (l :: rays). split; [constructor; [exists a; auto|exact H1]|]. intros v Lv. cbn [map foldM fst snd]. rewrite PA. cbn [bind]. rewrite E0. cbn [bind].
    destruct (H2 (vadd v f0) (vadd_length _ _ _ Lv L0)) as (f & E1 & L1 & V1). exists f. split; [exact E1|]. split; [exact L1|]. intros i Hi. rewrite V1, (vadd_nth _ _ _ _ Lv L0), V0, sumf_cons by exact Hi. lra.
Qed.
(** The inner loop of the difference. *)
Lemma look_around : forall fuel (seen : nat -> nat -> list nat), nst shape <= fuel -> (forall s a, s < nst shape -> a < dirs_of k -> exists f, get_eyeline_features fuel m (Z.of_nat s) a = Ok f /\ length f = m_n_features m /\ forall i, i < m_n_features m -> nth i f 0%R = sumf (feat m i) (seen s a)) ->
  forall s d acts c u, s < nst shape -> Forall (fun a => a < dirs_of k) acts -> length c = m_n_features m -> length u = m_n_features m -> exists c' u',
    foldM (fun '(c, u) a => let* f := get_eyeline_features fuel m (Z.of_nat s) a in Ok (if (a =? d)%nat then (vadd c f, u) else (c, vadd u f))) acts (c, u) = Ok (c', u') /\ length c' = m_n_features m /\ length u' = m_n_features m /\
    forall i, i < m_n_features m -> (nth i c' 0 = nth i c 0 + sumf (fun a => if (a =? d)%nat then sumf (feat m i) (seen s a) else 0) acts)%R /\ (nth i u' 0 = nth i u 0 + sumf (fun a => if (a =? d)%nat then 0 else sumf (feat m i) (seen s a)) acts)%R.
Proof.
  intros fuel seen HF SE s d. induction acts as [|a acts IH]; intros c u Hs FA Lc Lu.
  - exists c, u. split; [reflexivity|]. split; [exact Lc|]. split; [exact Lu|]. intros i Hi. rewrite !sumf_nil. lra.
  - inversion FA as [|? ? A1 A2]. subst. destruct (SE s a Hs A1) as (f & E & L & V). cbn [foldM]. rewrite E. cbn [bind]. destruct (Nat.eqb_spec a d) as [X|X].
    + destruct (IH (vadd c f) u Hs A2 (vadd_length _ _ _ Lc L) Lu) as (c' & u' & E' & L1 & L2 & V'). exists c', u'. split; [exact E'|]. split; [exact L1|]. split; [exact L2|]. intros i Hi. destruct (V' i Hi) as [V1 V2]. rewrite !sumf_cons, V1, V2, (vadd_nth _ _ _ _ Lc L), (V i Hi).
      rewrite (proj2 (Nat.eqb_eq a d) X). split; ring.
    + destruct (IH c (vadd u f) Hs A2 Lc (vadd_length _ _ _ Lu L)) as (c' & u' & E' & L1 & L2 & V'). exists c', u'. split; [exact E'|]. split; [exact L1|]. split; [exact L2|]. intros i Hi. destruct (V' i Hi) as [V1 V2]. rewrite !sumf_cons, V1, V2, (vadd_nth _ _ _ _ Lu L), (V i Hi).
      rewrite (proj2 (Nat.eqb_neq a d) X). split; ring.
Qed.
Lemma look_around_all : forall fuel (seen : nat -> nat -> list nat) acts, nst shape <= fuel -> (forall s a, s < nst shape -> a < dirs_of k -> exists f, get_eyeline_features fuel m (Z.of_nat s) a = Ok f /\ length f = m_n_features m /\ forall i, i < m_n_features m -> nth i f 0%R = sumf (feat m i) (seen s a)) ->
  Forall (fun a => a < dirs_of k) acts -> forall ps, Forall (fun p => fst p < nst shape /\ snd p < nst shape /\ is_adjacent m (Z.of_nat (fst p)) (Z.of_nat (snd p)) = Ok true) ps ->
  exists ds, Forall2 (fun p d => grid_edge k shape st (fst p) d (snd p)) ps ds /\ forall c u, length c = m_n_features m -> length u = m_n_features m -> exists c' u',
    foldM (fun acc p => let* ca := pair_action m (fst p) (snd p) in
       foldM (fun '(c, u) a => let* f := get_eyeline_features fuel m (fst p) a in Ok (if (a =? ca)%nat then (vadd c f, u) else (c, vadd u f))) acts acc) (map (fun p => (Z.of_nat (fst p), Z.of_nat (snd p))) ps) (c, u) = Ok (c', u') /\ length c' = m_n_features m /\ length u' = m_n_features m /\
    forall i, i < m_n_features m -> (nth i c' 0 = nth i c 0 + sumf (fun '((s, _), d) => sumf (fun a => if (a =? d)%nat then sumf (feat m i) (seen s a) else 0) acts) (combine ps ds))%R /\
      (nth i u' 0 = nth i u 0 + sumf (fun '((s, _), d) => sumf (fun a => if (a =? d)%nat then 0 else sumf (feat m i) (seen s a)) acts) (combine ps ds))%R.
Proof.
  intros fuel seen acts HF SE FA ps F. induction F as [|[s t] ps (Hs & Ht & AD) F IH].
  - exists []. split; [constructor|]. intros c u Lc Lu. exists c, u. split; [reflexivity|]. split; [exact Lc|]. split; [exact Lu|]. intros i Hi. cbn [combine]. rewrite !sumf_nil. lra.
  - destruct IH as (ds & H1 & H2). cbn [fst snd] in *. destruct (irl_pair s t Hs Ht AD) as (d & ED & PA). exists (d :: ds). split; [constructor; [exact ED|exact H1]|]. intros c u Lc Lu. cbn [map foldM fst snd]. rewrite PA. cbn [bind].
    destruct (look_around fuel seen HF SE s d acts c u Hs FA Lc Lu) as (c1 & u1 & E1 & L1 & L2 & V1). rewrite E1. cbn [bind]. destruct (H2 c1 u1 L1 L2) as (c' & u' & E' & L1' & L2' & V'). exists c', u'. split; [exact E'|]. split; [exact L1'|]. split; [exact L2'|].
    intros i Hi. destruct (V1 i Hi) as [A B]. destruct (V' i Hi) as [A' B']. cbn [combine]. rewrite !sumf_cons, A', B', A, B. split; ring.
Qed.
End Grid.

(** ** C88: line-of-sight counts of trajectories *)
(** The counts are the features of the rays seen, move by move; with normalisation they are shares. *)
Theorem C88_counts : forall k feats w0 shape st m0 calls ts fuel, grid_mdp (A:=R) k feats w0 shape st = Ok m0 -> let m := after_wall_calls m0 calls in
  Forall (fun t => walkable m t /\ never_stays t) ts -> fst shape * snd shape <= fuel ->
  exists rays f, Forall2 (fun p l => sees k shape (m_walls m) (fst p) (snd p) l) (concat (map steps ts)) rays /\
    trajectory_eyeline fuel m (map (map Z.of_nat) ts) false = Ok f /\ length f = m_n_features m /\ (forall i, i < m_n_features m -> nth i f 0%R = sumf (fun l => sumf (feat m i) l) rays) /\
    (Forall (Forall (fun x => 0 <= x)%R) feats -> exists g, trajectory_eyeline fuel m (map (map Z.of_nat) ts) true = Ok g /\ shares f g /\ (Rsum g = 1 \/ forall i, nth i f 0 = 0)%R).
Proof.
  intros k feats w0 shape st m0 calls ts fuel H m F HF. destruct (grid_clean _ _ _ _ _ _ calls H) as (C & _ & EF & _). fold m in C, EF. pose proof (cl_grid _ _ _ _ C) as G. pose proof (cl_table _ _ _ _ C) as TB.
  assert (F1 : Forall (walkable m) ts) by (eapply Forall_impl; [|exact F]; intros t [X _]; exact X).
  assert (F2 : Forall (fun p => fst p <> snd p) (concat (map steps ts))). { clear - F. induction F as [|t ts [_ N] F IH]; [constructor|]. cbn [map concat]. apply Forall_app. split; [exact N|exact IH]. }
  destruct (count_moves _ _ _ _ G TB fuel _ HF (walk_pairs _ _ _ _ G ts F1) F2) as (rays & R1 & R2). destruct (R2 _ (zeros_length _)) as (f & E & L & V).
  assert (V' : forall i, i < m_n_features m -> nth i f 0%R = sumf (fun l => sumf (feat m i) l) rays) by (intros i Hi; rewrite V, zeros_nth by exact Hi; lra).
  exists rays, f. split; [exact R1|]. unfold trajectory_eyeline. rewrite moves_all, E. cbn [bind]. split; [reflexivity|]. split; [exact L|]. split; [exact V'|]. intros NN. exists (normalise f). split; [reflexivity|]. apply normalise_shares.
  apply Forall_forall. intros x Hx. apply (In_nth _ _ 0%R) in Hx. destruct Hx as (i & Hi & <-). rewrite V' by lia. apply sumf_nonneg. intros l _. apply sumf_nonneg. intros s _. unfold feat, get2. rewrite EF.
  destruct (Nat.lt_ge_cases i (length feats)) as [L1|L1]; [|rewrite (nth_overflow feats) by exact L1; destruct s; cbn; lra]. rewrite Forall_forall in NN. specialize (NN _ (nth_In _ [] L1)).
  destruct (Nat.lt_ge_cases s (length (nth i feats []))) as [L2|L2]; [rewrite Forall_forall in NN; apply NN, nth_In, L2|rewrite nth_overflow by exact L2; lra].
Qed.
(** The learner adds the counts of the trajectories, each in its own MDP; fitting with [reset] starts from zero. *)
Theorem C88_learner : forall (count : mdp R -> list (list Z) -> res (list R)) nF m0 mdps ts gs (reset : bool) theta, length ts = length (m0 :: mdps) -> m_n_features m0 = nF ->
  Forall2 (fun p g => count (fst p) [snd p] = Ok g /\ length g = nF) (combine (m0 :: mdps) ts) gs -> (forall th, theta = Some th -> length th = nF) ->
  exists th, fit_simple count (m0 :: mdps) ts reset theta = Ok th /\ length th = nF /\
    forall i, nth i th 0%R = ((match theta, reset with Some th, false => nth i th 0 | _, _ => 0 end) + sumf (fun g => nth i g 0) gs)%R.
Proof.
  intros count nF m0 mdps ts gs reset theta L EN F LT. unfold fit_simple.
  set (start := match theta, reset with Some th, false => Ok th | _, _ => Ok (zeros1 (m_n_features m0)) end).
  assert (ES : exists s0, start = Ok s0 /\ length s0 = nF /\ forall i, nth i s0 0%R = match theta, reset with Some th, false => nth i th 0%R | _, _ => 0%R end).
  { unfold start. destruct theta as [th|]; [destruct reset|]; eexists; (split; [reflexivity|]); (split; [try (rewrite zeros_length; exact EN); now apply LT|]); intros i; try apply zeros_nth; reflexivity. }
  destruct ES as (s0 & ES & L0 & V0). replace (match theta, reset with Some th, false => Ok th | _, _ => match m0 :: mdps with [] => Err IndexError | m1 :: _ => Ok (zeros1 (m_n_features m1)) end end) with start by (unfold start; reflexivity). rewrite ES. cbn [bind].
  assert (X : forall ms ts pre gs s0, length ts = length ms -> length s0 = nF -> Forall2 (fun p g => count (fst p) [snd p] = Ok g /\ length g = nF) (combine ms ts) gs ->
    exists th, foldM (fun th '(n, m) => match nth_error (pre ++ ts) n with None => Err IndexError | Some t => let* f := count m [t] in if (length f =? length th)%nat then Ok (vadd th f) else Err ValueError end) (combine (seq (length pre) (length ms)) ms) s0 = Ok th /\ length th = nF /\ forall i, nth i th 0%R = (nth i s0 0 + sumf (fun g => nth i g 0) gs)%R).
  { clear. induction ms as [|m ms IH]; intros [|t ts] pre gs s0 L L0 F; try discriminate.
    - inversion_clear F. exists s0. split; [reflexivity|]. split; [exact L0|]. intros i. rewrite sumf_nil. lra.
    - cbn [combine] in F. inversion_clear F as [|? g ? gs' [E1 E2] F']. cbn [length seq combine foldM]. rewrite nth_error_app2, Nat.sub_diag by lia. cbn [nth_error]. cbn [fst snd] in E1. rewrite E1. cbn [bind]. rewrite E2, L0, Nat.eqb_refl. cbn [bind].
      destruct (IH ts (pre ++ [t]) gs' (vadd s0 g)) as (th & E & Lth & V); [cbn in L; lia|apply vadd_length; assumption|exact F'|]. rewrite app_length, Nat.add_1_r, <- app_assoc in E. cbn [app] in E. exists th. split; [exact E|]. split; [exact Lth|]. intros i. rewrite V, (vadd_nth nF), sumf_cons by assumption. lra. }
  destruct (X (m0 :: mdps) ts [] gs s0 L L0 F) as (th & E & Lth & V). exists th. split; [exact E|]. split; [exact Lth|]. intros i. rewrite V, V0. destruct theta; [destruct reset|]; lra.
Qed.

(** ** C89: chosen against unchosen directions *)
(** What is compared: the look in the chosen direction counts for it and each other look against it, over the first
    [n - 1] of the [n] actions. *)
Theorem C89_actual : forall k feats w0 shape st m0 calls ts fuel, grid_mdp (A:=R) k feats w0 shape st = Ok m0 -> let m := after_wall_calls m0 calls in
  Forall (walkable m) ts -> fst shape * snd shape <= fuel ->
  exists ds seen c u, Forall2 (fun p d => grid_edge k shape st (fst p) d (snd p)) (concat (map steps ts)) ds /\ (forall s a, s < fst shape * snd shape -> a < dirs_of k -> ray k shape (m_walls m) s a (seen s a)) /\
    length c = m_n_features m /\ length u = m_n_features m /\
    (forall i, i < m_n_features m ->
       nth i c 0%R = sumf (fun '((s, _), d) => sumf (fun a => if (a =? d)%nat then sumf (feat m i) (seen s a) else 0%R) (seq 0 (actions_of k st - 1))) (combine (concat (map steps ts)) ds) /\
       nth i u 0%R = sumf (fun '((s, _), d) => sumf (fun a => if (a =? d)%nat then 0%R else sumf (feat m i) (seen s a)) (seq 0 (actions_of k st - 1))) (combine (concat (map steps ts)) ds)) /\
    trajectory_eyeline_diff fuel m (map (map Z.of_nat) ts) false = Ok (map (fun '(x, y) => x - y)%R (combine c u)) /\
    trajectory_eyeline_diff fuel m (map (map Z.of_nat) ts) true = Ok (map (fun '(x, y) => x - y)%R (combine (normalise c) (normalise u))).
Proof.
  intros k feats w0 shape st m0 calls ts fuel H m F HF. destruct (grid_clean _ _ _ _ _ _ calls H) as (C & _ & EF & _). fold m in C, EF. pose proof (cl_grid _ _ _ _ C) as G. pose proof (cl_table _ _ _ _ C) as TB.
  destruct (seen_exists _ _ _ _ G TB) as (seen & SE).
  destruct (look_around_all _ _ _ _ G fuel seen (seq 0 (actions_of k st - 1)) HF) with (ps := concat (map steps ts)) as (ds & D1 & D2).
  { intros s a Hs Ha. destruct (SE s a Hs Ha) as [_ X]. exact (X fuel HF). }
  { apply Forall_forall. intros a Ha. apply in_seq in Ha. unfold actions_of in Ha. destruct st; lia. }
  { apply (walk_pairs _ _ _ _ G ts F). }
  destruct (D2 _ _ (zeros_length _) (zeros_length _)) as (c & u & E & L1 & L2 & V). exists ds, seen, c, u. split; [exact D1|]. split; [intros s a Hs Ha; apply (SE s a Hs Ha)|]. split; [exact L1|]. split; [exact L2|]. split.
  - intros i Hi. destruct (V i Hi) as [V1 V2]. rewrite V1, V2, zeros_nth. split; ring.
  - unfold trajectory_eyeline_diff. rewrite moves_all, (gi_na _ _ _ _ G), E. split; reflexivity.
Qed.
(** The documented comparison for one move: what is seen in the chosen direction minus what is seen in all others. *)
Definition contrast (k : gkind) (m : mdp R) (seen : nat -> nat -> list nat) (i s d : nat) : R :=
  (sumf (feat m i) (seen s d) - sumf (fun a => sumf (feat m i) (seen s a)) (filter (fun a => negb (a =? d)) (seq 0 (dirs_of k))))%R.
Lemma chosen_sum : forall (X : nat -> R) d n, d < n -> sumf (fun a => if (a =? d)%nat then X a else 0%R) (seq 0 n) = X d.
Proof.
  intros X d n L. rewrite (sumf_ext _ _ (fun a => if (a =? d)%nat then X d else 0%R)) by (intros a _; destruct (Nat.eqb_spec a d) as [->|_]; reflexivity). now apply sumf_indicator.
Qed.
Lemma unchosen_sum : forall (X : nat -> R) d l, sumf (fun a => if (a =? d)%nat then 0%R else X a) l = sumf X (filter (fun a => negb (a =? d)) l).
Proof. intros X d. induction l as [|a l IH]; [reflexivity|]. rewrite sumf_cons, IH. cbn [filter]. destruct (a =? d); cbn [negb]; [lra|now rewrite sumf_cons]. Qed.
Lemma sumf_minus : forall A (f g : A -> R) l, (sumf (fun x => f x - g x) l = sumf f l - sumf g l)%R.
Proof. intros A f g. induction l as [|a l IH]; [rewrite !sumf_nil; lra|]. rewrite !sumf_cons, IH. lra. Qed.

(** With staying allowed the comparison is complete. *)
Theorem C89_with_staying_partial : forall k feats w0 shape m0 calls ts fuel, grid_mdp (A:=R) k feats w0 shape true = Ok m0 -> let m := after_wall_calls m0 calls in
  Forall (fun t => walkable m t /\ never_stays t) ts -> fst shape * snd shape <= fuel ->
  exists ds seen f, Forall2 (fun p d => d < dirs_of k /\ move_of k d (cell_of shape (fst p)) = cell_of shape (snd p)) (concat (map steps ts)) ds /\
    (forall s a, s < fst shape * snd shape -> a < dirs_of k -> ray k shape (m_walls m) s a (seen s a)) /\
    trajectory_eyeline_diff fuel m (map (map Z.of_nat) ts) false = Ok f /\ length f = m_n_features m /\
    forall i, i < m_n_features m -> nth i f 0%R = sumf (fun '((s, _), d) => contrast k m seen i s d) (combine (concat (map steps ts)) ds).
Proof.
  intros k feats w0 shape m0 calls ts fuel H m F HF.
  assert (F1 : Forall (walkable m) ts) by (eapply Forall_impl; [|exact F]; intros t [X _]; exact X).
  assert (F2 : Forall (fun p => fst p <> snd p) (concat (map steps ts))). { clear - F. induction F as [|t ts [_ N] F IH]; [constructor|]. cbn [map concat]. apply Forall_app. split; [exact N|exact IH]. }
  destruct (C89_actual _ _ _ _ _ _ calls ts fuel H F1 HF) as (ds & seen & c & u & D & SE & L1 & L2 & V & E & _). fold m in SE, L1, L2, V, E.
  assert (D' : Forall2 (fun p d => d < dirs_of k /\ move_of k d (cell_of shape (fst p)) = cell_of shape (snd p)) (concat (map steps ts)) ds).
  { clear - D F2. induction D as [|p d ps ds E D IH]; [constructor|]. inversion F2. subst. constructor; [|now apply IH]. destruct E as [E|(_ & _ & E)]; [exact E|congruence]. }
  exists ds, seen, (map (fun '(x, y) => x - y)%R (combine c u)). split; [exact D'|]. split; [exact SE|]. split; [exact E|]. rewrite map_length, combine_length. split; [lia|]. intros i Hi.
  rewrite (nth_map_lt _ _ _ _ _ _ (0, 0)%R) by (rewrite combine_length; lia). rewrite combine_nth by lia. destruct (V i Hi) as [-> ->]. rewrite <- sumf_minus. cbn [actions_of]. replace (dirs_of k + 1 - 1) with (dirs_of k) by lia.
  clear - D'. induction D' as [|[s t] d ps ds [D _] D' IH]; [reflexivity|]. cbn [combine]. rewrite !sumf_cons, IH. f_equal. unfold contrast. now rewrite chosen_sum, unchosen_sum.
Qed.
(** C219: on grids with staying the difference is with the mean of the other directions. *)
Theorem C219_contrast : forall k feats w0 shape m0 calls ts fuel, grid_mdp (A:=R) k feats w0 shape true = Ok m0 -> let m := after_wall_calls m0 calls in
  Forall (fun t => walkable m t /\ never_stays t) ts -> fst shape * snd shape <= fuel ->
  exists ds seen f, Forall2 (fun p d => d < dirs_of k /\ move_of k d (cell_of shape (fst p)) = cell_of shape (snd p)) (concat (map steps ts)) ds /\
    (forall s a, s < fst shape * snd shape -> a < dirs_of k -> ray k shape (m_walls m) s a (seen s a)) /\
    trajectory_eyeline_diff fuel m (map (map Z.of_nat) ts) false = Ok f /\ length f = m_n_features m /\
    forall i, i < m_n_features m -> nth i f 0%R = sumf (fun '((s, _), d) => contrast k m seen i s d) (combine (concat (map steps ts)) ds).
Proof. exact (@C89_with_staying_partial). Qed.
(** Without staying the last direction is left out: a move in this direction counts against everything seen elsewhere and
    for nothing seen ahead. *)
Theorem C89_last_direction_refuted : forall k feats w0 shape m0 calls s t i fuel, grid_mdp (A:=R) k feats w0 shape false = Ok m0 -> let m := after_wall_calls m0 calls in
  s < fst shape * snd shape -> t < fst shape * snd shape -> is_adjacent m (Z.of_nat s) (Z.of_nat t) = Ok true -> move_of k (dirs_of k - 1) (cell_of shape s) = cell_of shape t ->
  Forall (Forall (fun x => 0 <= x)%R) feats -> i < length feats -> (0 < feat m i t)%R -> fst shape * snd shape <= fuel ->
  exists f seen, trajectory_eyeline_diff fuel m [[Z.of_nat s; Z.of_nat t]] false = Ok f /\ (forall s a, s < fst shape * snd shape -> a < dirs_of k -> ray k shape (m_walls m) s a (seen s a)) /\
    (nth i f 0 <= 0 /\ nth i f 0 < contrast k m seen i s (dirs_of k - 1))%R.
Proof.
  intros k feats w0 shape m0 calls s t i fuel H m Hs Ht AD MV NN Hi FT HF. destruct (grid_clean _ _ _ _ _ _ calls H) as (C & _ & EF & _). fold m in C, EF. pose proof (cl_grid _ _ _ _ C) as G.
  assert (W : walkable m [s; t]). { split; [|split; [exact AD|exact I]]. pose proof (gi_ns _ _ _ _ G) as N. unfold nst in N. repeat constructor; lia. }
  destruct (C89_actual _ _ _ _ _ _ calls [[s; t]] fuel H (Forall_cons _ W (Forall_nil _)) HF) as (ds & seen & c & u & D & SE & L1 & L2 & V & E & _). fold m in SE, L1, L2, V, E.
  change (concat (map steps [[s; t]])) with [(s, t)] in *. destruct ds as [|d [|? ?]]; [exfalso; inversion D| |exfalso; inversion D as [|? ? ? ? _ D']; inversion D']. assert (ED : grid_edge k shape false s d t) by (inversion D; assumption).
  assert (DP : 0 < dirs_of k) by (destruct k; cbn; lia). assert (d = dirs_of k - 1) by (eapply edge_unique_a; [exact ED|]; left; split; [lia|exact MV]). subst d.
  assert (NF : m_n_features m = length feats) by (destruct (cl_table _ _ _ _ C) as [TB _]; rewrite TB, EF; reflexivity).
  assert (N : forall t, (0 <= feat m i t)%R). { intros x. unfold feat, get2. rewrite EF. rewrite Forall_forall in NN. specialize (NN _ (nth_In _ [] Hi)). destruct (Nat.lt_ge_cases x (length (nth i feats []))) as [L|L]; [rewrite Forall_forall in NN; apply NN, nth_In, L|rewrite nth_overflow by exact L; lra]. }
  exists (map (fun '(x, y) => x - y)%R (combine c u)), seen. split; [exact E|]. split; [exact SE|]. rewrite (nth_map_lt _ _ _ _ _ _ (0, 0)%R) by (rewrite combine_length; lia). rewrite combine_nth by lia. destruct (V i ltac:(lia)) as [-> ->]. cbn [combine actions_of]. rewrite !sumf_cons, !sumf_nil.
  rewrite (sumf_0 _ (fun a => if (a =? dirs_of k - 1)%nat then sumf (feat m i) (seen s a) else 0%R)) by (intros a Ha; apply in_seq in Ha; destruct (Nat.eqb_spec a (dirs_of k - 1)); [lia|reflexivity]).
  rewrite unchosen_sum. unfold contrast. assert (ES : filter (fun a => negb (a =? dirs_of k - 1)) (seq 0 (dirs_of k)) = filter (fun a => negb (a =? dirs_of k - 1)) (seq 0 (dirs_of k - 1))).
  { assert (SQ : seq 0 (dirs_of k) = seq 0 (dirs_of k - 1) ++ [dirs_of k - 1]) by (destruct k; reflexivity). rewrite SQ, filter_app. cbn [filter]. rewrite Nat.eqb_refl. cbn [negb]. apply app_nil_r. }
  rewrite ES. clear ES. assert (P : (0 <= sumf (fun a => sumf (feat m i) (seen s a)) (filter (fun a => negb (a =? dirs_of k - 1)) (seq 0 (dirs_of k - 1))))%R) by (apply sumf_nonneg; intros a _; apply sumf_nonneg; intros x _; apply N).
  split; [lra|]. assert (Q : (0 < sumf (feat m i) (seen s (dirs_of k - 1)%nat))%R); [|lra].
  assert (IN : In t (seen s (dirs_of k - 1))).
  { destruct (SE s (dirs_of k - 1) Hs ltac:(lia)) as (R1 & R2 & _ & R4). destruct (is_adjacent_spec _ _ _ _ G s t Hs Ht) as (b & Eb & Sb). assert (b = true) by congruence. apply Sb in H0. destruct H0 as (a & _ & WS & WT).
    destruct R4 as [[X _]|[_ R4]]; [contradiction|]. destruct (seen s (dirs_of k - 1)) as [|x [|y l]]; [congruence| |].
    - exfalso. apply WT, R4; [exact Ht|]. cbn [length ahead]. now symmetry.
    - right. left. destruct (R2 1 ltac:(cbn; lia)) as [_ X]. cbn [nth ahead] in X. rewrite MV in X. eapply cell_of_inj; [exact X|]. apply pos_snd, (gi_pos _ _ _ _ G). }
  apply in_split in IN. destruct IN as (l1 & l2 & ->). rewrite sumf_app, sumf_cons. pose proof (sumf_nonneg _ (feat m i) l1 ltac:(intros; apply N)). pose proof (sumf_nonneg _ (feat m i) l2 ltac:(intros; apply N)). lra.
Qed.

(** ** A concrete case *)
(** Looking along a square grid of two rows and three columns with a wall in the middle of the second row, and what the
    two learners make of a move to the last direction. *)
Definition eye_feats {A} `{Num A} : list (list A) := [[n1; n1; n1; n0; n0; n0]; [n0; n0; n0; n1; n1; n1]].
Example C55_example : exists m, grid_mdp (A:=R) Square eye_feats (Some [0; 0; 0; 0; 1; 0]%R) (2, 3) false = Ok m /\ ray Square (2, 3) (m_walls m) 0 0 [0; 1; 2] /\ ray Square (2, 3) (m_walls m) 3 0 [3] /\ walkable m [3; 0; 1; 2; 5] /\ never_stays [3; 0; 1; 2; 5].
Proof.
  destruct (grid_mdp_ok Square eye_feats (Some [0; 0; 0; 0; 1; 0]%R) (2, 3) false) as (m & E & G & EW & _); [cbn; lia|repeat constructor|reflexivity|repeat constructor; (now left) || (now right)|].
  assert (NW : forall i, i <> 4 -> ~ is_wall (m_walls m) i). { intros i Hi. rewrite EW. unfold is_wall. cbn [walls_arg]. do 6 (destruct i as [|i]; [cbn; (lra || lia)|]). destruct i; cbn; lra. }
  assert (WL : is_wall (m_walls m) 4) by (rewrite EW; reflexivity).
  exists m. split; [exact E|]. split; [|split; [|split]].
  - split; [discriminate|]. split; [intros [|[|[|i]]] Hi; cbn in *; (split; [lia|reflexivity])||lia|]. split; [intros [|[|[|i]]] Hi; cbn in *; try lia; apply NW; lia|]. right. split; [apply NW; lia|]. intros t Ht Et. cbn in Et, Ht. do 6 (destruct t as [|t]; [cbn in Et; discriminate|]). lia.
  - split; [discriminate|]. split; [intros [|i] Hi; cbn in *; [split; [lia|reflexivity]|lia]|]. split; [intros [|i] Hi; cbn in *; lia|]. right. split; [apply NW; lia|]. intros t Ht Et. cbn in Et, Ht. do 4 (destruct t as [|t]; [cbn in Et; discriminate|]). destruct t as [|t]; [exact WL|]. destruct t as [|t]; [cbn in Et; discriminate|lia].
  - split; [rewrite (gi_ns _ _ _ _ G); cbn; repeat constructor|].
    assert (AD : forall s t, s < 6 -> t < 6 -> s <> 4 -> t <> 4 -> (exists a, edgeb Square (2, 3) false s a t = true) -> is_adjacent m (Z.of_nat s) (Z.of_nat t) = Ok true).
    { intros s t Hs Ht Ns Nt (a & Ea). destruct (is_adjacent_spec _ _ _ _ G s t Hs Ht) as (b & Eb & Sb). rewrite Eb. f_equal. apply Sb. exists a. split; [now apply edgeb_spec|]. split; now apply NW. }
    repeat split; try exact I; apply AD; try lia; first [exists 0; reflexivity|exists 1; reflexivity|exists 2; reflexivity|exists 3; reflexivity].
  - repeat constructor; cbn; lia.
Qed.
Example C89_example : exists m, grid_mdp (A:=Q) Square eye_feats None (2, 3) false = Ok m /\
  trajectory_eyeline 6 m [[3; 0; 1]]%Z false = Ok [4; 1]%Q /\ trajectory_eyeline_diff 6 m [[3; 0]]%Z false = Ok [0; -5]%Q /\ trajectory_eyeline_diff 6 m [[0; 3]]%Z false = Ok [-3; 1]%Q.
Proof. eexists. vmr. Qed.
