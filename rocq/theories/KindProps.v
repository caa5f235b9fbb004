(** C202: a tree search without an environment. C203, C204: initial weights that are integers or a list. *)
From Coq Require Import List ZArith Reals Bool Lia Lra.
From Verif Require Import PyBase PyProofs ActionModel ActionSpec RSum ActionProofs GridModel GridSpec MDPModel MDPSpec MDPProofs MDPProofs2 MDPProofs3 MDPProps EnvModel EnvSpec EnvProofs EnvProofs2 EnvProofs3 EnvProps SRModel SRProps
  VIModel VISpec VIProofs PLSpec IRLModel IRLVisit IRLExpect IRLFit IRLLook IRLGrids HypModel HypObs HypRun HypProps HypProps3 ArgModel ArgProps KindModel.
Import ListNotations.
Local Close Scope R_scope.
Local Open Scope nat_scope.

(** ** C202 *)
(** No call ever succeeds, whatever was called before, and nothing is ever found. *)
Theorem C202_never_refuted : forall inter calls m (r : reward_arg (A:=R)), let t := fold_left (tree_do inter) calls new_tree in
  t_result t = None /\ exists x, snd (fit_tree inter m t r) = Err x.
Proof.
  intros inter calls m r t. assert (F : forall m (t : tree R) r, t_result t = None -> t_result (fst (fit_tree inter m t r)) = None /\ exists x, snd (fit_tree inter m t r) = Err x).
  { clear. intros m t r H. unfold fit_tree. destruct (fit_reward r) as [w|x]; [|cbn; eauto]. destruct (negb _); [cbn; eauto|]. unfold tree_fit. destruct inter; [cbn; eauto|]. cbn [reset_tree t_sr t_result].
    destruct (t_sr t); [cbn; eauto|]. destruct (get_sa_sr (m_sas m) n99); cbn; eauto. }
  assert (N : t_result t = None). { subst t. clear m r. assert (G : forall t : tree R, t_result t = None -> t_result (fold_left (tree_do inter) calls t) = None); [|now apply G].
    induction calls as [|c calls IH]; intros t H; [exact H|]. cbn [fold_left]. apply IH. destruct c as [m r|]; cbn [tree_do]; [now apply F|reflexivity]. }
  split; [exact N|]. now apply F.
Qed.
(** Which exception is raised on a grid, for a reward function of the right type and length: none of the object's, but the missing
    agent's. *)
Theorem C202_grids : forall pl m (t : tree R) w, usable pl m -> length w = m_n_features m ->
  fit_tree true m t (RVector w) = (t, Err NotImplementedErr) /\ exists sr, fit_tree false m t (RVector w) = (mkTree None (Some sr), Err AttributeError).
Proof.
  intros pl m t w U L. unfold fit_tree. cbn [fit_reward]. rewrite (proj2 (Nat.eqb_eq _ _) L). cbn [negb]. split; [reflexivity|]. unfold tree_fit. cbn [reset_tree t_sr t_result].
  unfold reset_tree; destruct (t_sr t) as [sr|] eqn:ET; [exists sr; reflexivity|]. destruct (usable_clean _ _ U) as (k & shape & st & C). pose proof (cl_grid _ _ _ _ C) as G.
  destruct (C45_never_fails (m_sas m) (nst shape) (actions_of k st) (n99 (A:=R))) as (y & E & _); [exact (inv_shape _ _ _ _ G)|apply (gi_pos _ _ _ _ G)| |].
  - assert (X : n99 (A:=R) = (99 / 100)%R). { unfold n99. unfold nofn. cbn [nofZ NumR ndiv]. reflexivity. } rewrite X. lra.
  - rewrite E. eauto.
Qed.
Example C202_example : forall pl, exists m (w : list R), usable pl m /\ length w = m_n_features m.
Proof. intros pl. destruct (ex_usable pl) as (m & _ & U & _). exists m, (repeat 0%R (m_n_features m)). split; [exact U|apply repeat_length]. Qed.

(** ** C203 *)
Section Maxent.
Context {A : Type} {NA : Num A}.
(** With an array of floats the function does what [fit_maxent] does (a fit of an object whose weights are at address [a]). *)
Theorem C203_floats : forall (c : maxent_cfg A) m ts ig x h a, x_theta x = TArr a -> a < length h ->
  exists x' h' r, fit_maxent c m ts ig x h = (x', h', r) /\ x_theta x' = TArr a /\ x_orig x' = x_orig x /\
    fit_maxent_kind c m ts ig (WFloat (nth a h [])) (x_rate x) = (WFloat (nth a h' []), x_rate x', match r with Ok (_, w) => Ok (nth a h' [], w) | Err e => Err e end).
Proof.
  intros c m ts ig x h a HT Ha. unfold fit_maxent, fit_maxent_kind. destruct x as [th o rate]. cbn [x_theta x_orig x_rate] in *. subst th.
  destruct ts as [|[|z t] ts]; [do 3 eexists; repeat (split; [reflexivity|]); reflexivity|do 3 eexists; repeat (split; [reflexivity|]); reflexivity|].
  destruct (bind _ _) as [F|e]; [|do 3 eexists; repeat (split; [reflexivity|]); reflexivity].
  destruct (zero_ignored ig (nth a h [])) as [th0|e]; [|do 3 eexists; repeat (split; [reflexivity|]); reflexivity].
  destruct (maxent_loop c m ((z :: t) :: ts) ig F (x_iter c) 0 th0 rate None) as [[th' rate'] r]. do 3 eexists. split; [reflexivity|]. cbn [x_theta x_orig x_rate]. rewrite nth_upd_same by exact Ha.
  split; [reflexivity|]. split; [reflexivity|]. destruct r as [[e|]|e]; reflexivity.
Qed.
(** With integers no fit succeeds; where the same floats would do, TypeError is raised, and the ignored weights and the learning rate have
    changed. *)
Theorem C203_maxent_refuted : forall (c : maxent_cfg A) m ts ig l rate, exists x, snd (fit_maxent_kind c m ts ig (WInt l) rate) = Err x /\
  forall w' rate' l' b, fit_maxent_kind c m ts ig (WFloat l) rate = (w', rate', Ok (l', b)) ->
    x = TypeError /\ exists l0, zero_ignored ig l = Ok l0 /\ fit_maxent_kind c m ts ig (WInt l) rate = (WInt l0, if x_decaying c then nmul rate (x_power c 0) else rate, Err TypeError).
Proof.
  intros c m ts ig l rate. unfold fit_maxent_kind. destruct ts as [|[|z t] ts]; [eexists; split; [reflexivity|discriminate]|eexists; split; [reflexivity|discriminate]|].
  destruct (bind _ _) as [F|e]; [|eexists; split; [reflexivity|discriminate]]. destruct (zero_ignored ig l) as [l0|e]; [|eexists; split; [reflexivity|discriminate]].
  destruct (x_iter c) as [|k]; cbn [maxent_loop]; [eexists; split; [reflexivity|discriminate]|]. destruct (bind _ _) as [d|e] eqn:E; [|eexists; split; [reflexivity|discriminate]].
  exists TypeError. split; [reflexivity|]. intros w' rate' l' b _. split; [reflexivity|]. exists l0. split; reflexivity.
Qed.
(** A list is never accepted. *)
Theorem C203_maxent_lists_refuted : forall (c : maxent_cfg A) m ts ig l rate, exists x, fit_maxent_kind c m ts ig (WList l) rate = (WList l, rate, Err x).
Proof. intros c m ts ig l rate. unfold fit_maxent_kind. destruct ts as [|[|z t] ts]; eauto. destruct (bind _ _); eauto. Qed.
End Maxent.
(** Hypothesis testing with integers. *)
Theorem C203_hyptest_refuted : forall c mdps ts ex l, exists x, fit_hyptest_kind c mdps ts ex (WInt l) = (WInt l, WInt l, Err x) /\
  forall w' th' res, fit_hyptest_kind c mdps ts ex (WFloat l) = (w', th', Ok res) -> x = TypeError.
Proof.
  intros c mdps ts ex l. unfold fit_hyptest_kind. destruct ts as [|t0 ts]; [eexists; split; [reflexivity|discriminate]|]. destruct t0 as [|z t0]; [eexists; split; [reflexivity|discriminate]|]. set (tss := (z :: t0) :: ts).
  destruct (negb (length tss =? length mdps)); [eexists; split; [reflexivity|discriminate]|]. destruct (negb (same_shapes mdps)); [eexists; split; [reflexivity|discriminate]|].
  eexists. split; [reflexivity|]. intros w' th' res. destruct (run_all c ex (combine mdps tss) (mkRun l 1 []) []) as [[st ends] r] eqn:E. intros H. apply (f_equal snd) in H. cbn [snd] in H.
  destruct r as [u|e]; [|discriminate]. destruct (Nat.eqb_spec (length (r_log st)) 0) as [|NL]; [discriminate|]. clear H res w' th'.
  unfold object_error. set (l2 := combine mdps tss) in *. clearbody l2. clear - E NL. assert (G : forall (l2 : list (mdp R * list Z)) w n lg ends0 st ends u, run_all c ex l2 (mkRun w n lg) ends0 = (st, ends, Ok u) ->
    match concat (map (fun '(m, t) => map (fun p => (m, p)) (moves t)) l2) with [] => r_log st = lg | (m, (s, t)) :: _ => exists y, single_move c m ex None s t = Ok y end).
  { clear. induction l2 as [|[m t] l2 IH]; intros w n lg ends0 st ends u E; cbn [run_all map concat] in *; [now injection E as <- _ _|]. destruct (moves t) as [|[a b] ps]; cbn [map app run_moves] in *.
    - now apply IH in E.
    - destruct (single_move c m ex None a b) as [y|e]; [eauto|discriminate]. }
  specialize (G _ _ _ _ _ _ _ _ E). destruct (concat _) as [|[m [a b]] rest]; [rewrite G in NL; now elim NL|]. destruct G as (y & ->). reflexivity.
Qed.
(** The exception is that of the floats, or TypeError if the first move could be observed. *)
Theorem C203_hyptest_errors : forall c mdps ts ex l, exists x, fit_hyptest_kind c mdps ts ex (WInt l) = (WInt l, WInt l, Err x) /\
  (snd (fit_hyptest_kind c mdps ts ex (WFloat l)) = Err x \/ x = TypeError /\ exists p rest, all_moves mdps ts = p :: rest /\ exists r, evidence c ex p r).
Proof.
  intros c mdps ts ex l. unfold fit_hyptest_kind. destruct ts as [|t0 ts]; [eexists; split; [reflexivity|now left]|]. destruct t0 as [|z t0]; [eexists; split; [reflexivity|now left]|]. set (tss := (z :: t0) :: ts).
  destruct (negb (length tss =? length mdps)); [eexists; split; [reflexivity|now left]|]. destruct (negb (same_shapes mdps)); [eexists; split; [reflexivity|now left]|].
  eexists. split; [reflexivity|]. unfold object_error. replace (concat (map (fun '(m, t) => map (fun p => (m, p)) (moves t)) (combine mdps tss))) with (all_moves mdps tss) by (unfold all_moves; f_equal; apply map_ext; now intros [m t]).
  pose proof (run_all_walk c ex (combine mdps tss) (mkRun l 1 []) []) as RW. fold (all_moves mdps tss) in RW. destruct (run_all c ex (combine mdps tss) (mkRun l 1 []) []) as [[st ends] r]. cbn [fst snd] in RW.
  destruct (all_moves mdps tss) as [|[m [s t]] rest]; cbn [walk] in RW.
  - injection RW as -> ->. left. reflexivity.
  - destruct (single_move c m ex None s t) as [[rw q]|e] eqn:ES.
    + right. split; [reflexivity|]. exists (m, (s, t)), rest. split; [reflexivity|]. exists rw, q. exact ES.
    + left. cbn [fst snd] in RW. rewrite ES in RW. injection RW as _ ->. reflexivity.
Qed.

(** ** C204 *)
(** With an array of floats the function does what [fit_hyptest] does. *)
Theorem C204_floats : forall c mdps ts ex x h a, ht_theta x = TArr a -> a < length h ->
  exists x' h' r, fit_hyptest c mdps ts ex x h = (x', h', r) /\ ht_theta x' = TArr a /\ ht_orig x' = ht_orig x /\
    fit_hyptest_kind c mdps ts ex (WFloat (nth a h [])) = (WFloat (nth a h' []), WFloat (nth a h' []), match r with Ok (_, log, ends) => Ok (nth a h' [], log, ends) | Err e => Err e end).
Proof.
  intros c mdps ts ex x h a HT Ha. unfold fit_hyptest, fit_hyptest_kind. destruct ts as [|t0 ts]; [exists x, h; eexists; auto|]. destruct t0 as [|z t0]; [exists x, h; eexists; auto|]. set (tss := (z :: t0) :: ts).
  destruct (negb (length tss =? length mdps)); [exists x, h; eexists; auto|]. destruct (negb (same_shapes mdps)); [exists x, h; eexists; auto|]. rewrite HT.
  destruct (run_all c ex (combine mdps tss) (mkRun (nth a h []) 1 []) []) as [[st ends] r]. destruct r as [u|e].
  - destruct (length (r_log st) =? 0).
    + do 3 eexists. split; [reflexivity|]. rewrite nth_upd_same by exact Ha. auto.
    + do 3 eexists. split; [reflexivity|]. rewrite nth_upd_same by exact Ha. auto.
  - do 3 eexists. split; [reflexivity|]. rewrite nth_upd_same by exact Ha. auto.
Qed.
(** A list gives the same result as the array with the same numbers, exceptions included, and is left alone; after a fit the weights are
    in an array of floats. *)
Theorem C204_lists : forall c mdps ts ex l, let f := fit_hyptest_kind c mdps ts ex (WFloat l) in let g := fit_hyptest_kind c mdps ts ex (WList l) in
  snd g = snd f /\ fst (fst g) = WList l /\ (forall r, snd g = Ok r -> snd (fst g) = WFloat (fst (fst r))) /\ (forall e, snd g = Err e -> snd (fst g) = WList l).
Proof.
  intros c mdps ts ex l f g. subst f g. unfold fit_hyptest_kind. destruct ts as [|t0 ts]; [repeat split; discriminate|]. destruct t0 as [|z t0]; [repeat split; discriminate|]. set (tss := (z :: t0) :: ts).
  destruct (negb (length tss =? length mdps)); [repeat split; discriminate|]. destruct (negb (same_shapes mdps)); [repeat split; discriminate|].
  destruct (run_all c ex (combine mdps tss) (mkRun l 1 []) []) as [[st ends] r]. cbn [fst snd]. split; [reflexivity|]. split; [reflexivity|]. destruct r as [u|e]; [|split; [discriminate|auto]].
  destruct (length (r_log st) =? 0); (split; [|try discriminate; auto]); [discriminate|]. intros r H. injection H as <-. reflexivity.
Qed.

(** Weights with which floats succeed. *)
Example C203_example : exists m c w' rate' l' b, grid_mdp (A:=R) Square eye_feats (Some [0; 0; 0; 0; 1; 0]%R) (2, 3) false = Ok m /\ fit_maxent_kind c m [[3; 0; 1; 2; 5]; [2; 1]]%Z (IgnoreList [1]%Z) (WFloat [1; 0]%R) (3 / 10)%R = (w', rate', Ok (l', b)).
Proof.
  destruct inference_example as (m & c & E & I & _ & OK & _ & ST & _ & IG & _). destruct (C87_fit_succeeds_partial _ _ _ _ _ _ _ _ m _ _ _ [[1; 0]%R] OK ltac:(lia) I IG ST) as (x' & h' & a & w & F & _).
  assert (HX : fst (new_maxent c (Some 0) [[1; 0]%R]) = mkMx (TArr 0) (TArr 1) (x_lr c)) by reflexivity. rewrite HX in F. destruct (C203_floats c m [[3; 0; 1; 2; 5]; [2; 1]]%Z (IgnoreList [1]%Z) (mkMx (TArr 0) (TArr 1) (x_lr c)) [[1; 0]%R] 0 eq_refl ltac:(cbn; lia)) as (x2 & h2 & r & F2 & _ & _ & K).
  rewrite F in F2. injection F2 as <- <- <-. assert (LR : x_lr c = (3 / 10)%R). { destruct OK as (EC & _). now destruct (config_inv _ _ _ _ _ _ _ _ EC) as (_ & _ & ? & _). } cbn [x_rate nth] in K. rewrite LR in K. exists m, c. do 4 eexists. split; [exact E|exact K].
Qed.
Example C204_example : exists m c w' th' r, grid_mdp (A:=R) Square eye_feats (Some [0; 0; 0; 0; 1; 0]%R) (2, 3) false = Ok m /\ fit_hyptest_kind c [m; m] [[3; 0; 1; 2; 5]; [2; 1]]%Z [] (WFloat [Some 1; Some 0]%R) = (w', th', Ok r).
Proof.
  destruct hyptest_example as (m & c & E & OK & T & _ & _ & _ & _ & ST & _). destruct (C90_other_normalisation_partial _ _ _ _ _ _ _ _ _ _ _ _ [] (mkHt (TArr 0) (TArr 1)) [[Some 1; Some 0]]%R OK ltac:(discriminate) T ltac:(discriminate)) as (x' & h' & a & log & ends & F).
  destruct (C204_floats c [m; m] [[3; 0; 1; 2; 5]; [2; 1]]%Z [] (mkHt (TArr 0) (TArr 1)) [[Some 1; Some 0]]%R 0 eq_refl ltac:(cbn; lia)) as (x2 & h2 & r & F2 & _ & _ & K). pose proof (eq_trans (eq_sym F2) F) as F3. injection F3 as -> -> ->. exists m, c. do 3 eexists. split; [exact E|exact K].
Qed.
