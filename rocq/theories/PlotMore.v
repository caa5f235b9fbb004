(** C234 to C238: shading of square layers, grid lines, the visible area, plots of an agent's values. *)
From Coq Require Import String List ZArith QArith Bool Lia Reals Lra.
From Verif Require Import PyBase PyProofs RSum GridModel GridSpec GridProofs GridProofs2 MDPModel MDPSpec MDPProofs
  MDPProofs2 MDPProofs3 MDPProps GridProps EnvModel EnvSpec EnvProofs EnvProofs2 EnvProofs3 EnvProps HistProps QuerySpec QueryProofs
  Again VIModel VIEnvProps QueryProps PlotModel PlotProofs PlotProps PlotProps2 ShadeModel ShadeProps PlotMoreModel.
Import ListNotations.
Local Close Scope Q_scope.
Local Open Scope nat_scope.

(** ** C234: square layers *)
Lemma square_shade_layers_from : forall shape colours alphas grids i n, enough n colours -> enough n alphas -> i + length grids <= n ->
  mapM (square_shade (A:=R) shape colours alphas) (combine (seq i (length grids)) grids) =
  Ok (map (fun ig => (entry colours (tab10 (fst ig)) (fst ig), map (map (fun v => (limited v * entry alphas (/ 2) (fst ig))%R)) (square_layer_image shape (snd ig))))
       (combine (seq i (length grids)) grids)).
Proof.
  intros shape colours alphas. induction grids as [|g r IH]; intros i n HC HA L; [reflexivity|].
  cbn [length seq combine mapM]. cbn [length] in L. unfold square_shade at 1.
  rewrite (or_default_ok _ colours (tab10 i) n i HC) by lia. cbn [bind].
  rewrite (or_default_ok _ alphas _ n i HA) by lia. cbn [bind].
  rewrite (IH (S i) n HC HA) by lia. cbn [bind map fst snd]. do 3 f_equal.
  assert (D : (@ndiv R NumR (@n1 R NumR) (nofZ 2)) = (/ 2)%R) by (cbn; unfold Rdiv; lra).
  rewrite D. apply map_ext. intros row. apply map_ext. intros v. rewrite clip01_limited. reflexivity.
Qed.
Lemma image_map : forall B C (f : B -> C) rows x y, image_at (map (map f) rows) x y = option_map f (image_at rows x y).
Proof. intros B C f rows x y. unfold image_at. rewrite nth_error_map. destruct (nth_error rows y) as [row|]; [|reflexivity]. cbn [option_map]. apply nth_error_map. Qed.

(** With enough colours and opacities given (or none) plotting draws one layer per ordinary feature, in its colour, and one layer of walls. At the point
    where a state is (column, row) a layer is as opaque as there is of the feature, up to one, times the opacity of the layer. *)
Theorem C234_opacity : forall pl e shape colours alphas wc, reachable pl e -> e_agents e <> [] -> m_shape (e_mdp e) = Some shape ->
  enough (n_ordinary (e_mdp e)) colours -> enough (n_ordinary (e_mdp e)) alphas ->
  exists fs w, square_shades (e_mdp e) colours alphas wc = Ok (fs, [(wc, w)]) /\ length fs = n_ordinary (e_mdp e) /\
    (forall f, f < n_ordinary (e_mdp e) -> exists image, nth_error fs f = Some (entry colours (tab10 f) f, image) /\
       forall s x y, s < fst shape * snd shape -> state_to_idx shape (Z.of_nat s) = Ok (Z.of_nat x, Z.of_nat y) ->
         image_at image x y = Some (limited (feat (e_mdp e) f s) * entry alphas (/ 2) f)%R) /\
    forall s x y, s < fst shape * snd shape -> state_to_idx shape (Z.of_nat s) = Ok (Z.of_nat x, Z.of_nat y) ->
      (is_wall (m_walls (e_mdp e)) s -> image_at w x y = Some 1%R) /\ (~ is_wall (m_walls (e_mdp e)) s -> image_at w x y = Some 0%R).
Proof.
  intros pl e shape colours alphas wc RE NE SH HC HA.
  destruct (C99_with_agents pl e shape RE NE SH) as (layers & EL & LL & GL).
  destruct (reachable_wf _ _ RE) as (k & shape' & st & W). pose proof (wf_grid _ _ _ _ W) as G.
  assert (shape' = shape) by (pose proof (gi_shape _ _ _ _ G); congruence). subst shape'.
  pose proof (gi_wlen _ _ _ _ G) as WL. pose proof (gi_wbin _ _ _ _ G) as WB.
  destruct (C01_reshape R shape (m_walls (e_mdp e))) as [[X _]|[_ (w & EW & SW' & _)]]; [exfalso; apply X; exact WL|].
  assert (XY : forall s x y, s < fst shape * snd shape -> state_to_idx shape (Z.of_nat s) = Ok (Z.of_nat x, Z.of_nat y) -> x = s / snd shape /\ y = s mod snd shape /\ x < fst shape /\ y < snd shape).
  { intros s x y Hs E. destruct shape as [a b]. cbn [fst snd] in *. assert (Hb : b <> 0) by nia. unfold state_to_idx in E. cbn [fst snd] in E.
    replace ((0 <=? Z.of_nat s)%Z && (Z.of_nat s <? Z.of_nat (a * b))%Z) with true in E by (symmetry; apply andb_true_iff; split; [apply Z.leb_le|apply Z.ltb_lt]; lia).
    injection E as E1 E2. rewrite <- Nat2Z.inj_div in E1. rewrite <- Nat2Z.inj_mod in E2. assert (x = s / b) by lia. assert (y = s mod b) by lia. subst x y.
    pose proof (Nat.mod_upper_bound s b Hb). assert (s / b < a) by (apply Nat.div_lt_upper_bound; lia). auto. }
  assert (LS : forall f, f < n_ordinary (e_mdp e) -> shape2 (fst shape) (snd shape) (nth f layers [])).
  { intros f Hf. unfold feature_layers in EL. apply bind_ok in EL. destruct EL as (gs & EG & EL). injection EL as EL. unfold features_as_grid in EG. rewrite SH in EG.
    assert (IN : In (nth f layers []) gs). { assert (IL : In (nth f layers []) layers) by (apply nth_In; lia). rewrite <- EL in IL at 2. revert IL. generalize (slice_bound (length gs) (- Z.of_nat (m_n_agents (e_mdp e)))). intros n IL. rewrite <- (firstn_skipn n gs). apply in_or_app. now left. }
    clear -IN EG. revert gs EG IN. induction (m_features (e_mdp e)) as [|row r IH]; intros gs EG IN; cbn [mapM] in EG; [injection EG as <-; destruct IN|]. apply bind_ok in EG. destruct EG as (g & E1 & EG). apply bind_ok in EG. destruct EG as (gs' & E2 & EG). injection EG as <-.
    destruct IN as [<-|IN]; [|exact (IH gs' E2 IN)]. destruct (C01_reshape R shape row) as [[_ E']|[_ (g' & E' & S2 & _)]]; [congruence|]. assert (g' = g) by congruence. subst g'. exact S2. }
  unfold square_shades. rewrite SH, EL. cbn [bind]. unfold square_shade_layers.
  rewrite (square_shade_layers_from shape colours alphas layers 0 (n_ordinary (e_mdp e)) HC HA) by lia. cbn [bind]. rewrite EW. cbn [bind].
  pose proof (square_shade_layers_from shape (Some [wc]) (Some [1%R]) [w] 0 1) as SW. cbn [length enough] in SW.
  change (@n1 R NumR) with 1%R. cbn [length]. rewrite SW by lia. cbn [bind seq combine map fst snd entry nth].
  eexists _, _. split; [reflexivity|]. split; [rewrite map_length, combine_length, seq_length; lia|]. split.
  - intros f Hf. exists (map (map (fun v => (limited v * entry alphas (/ 2) f)%R)) (square_layer_image shape (nth f layers []))). split.
    + rewrite nth_error_map. rewrite (nth_error_nth' _ (0, [])) by (rewrite combine_length, seq_length; lia).
      rewrite combine_nth by apply seq_length. rewrite seq_nth by lia. reflexivity.
    + intros s x y Hs E. destruct (XY s x y Hs E) as (-> & -> & X1 & X2). rewrite image_map, (C98_square_layers shape _ _ _ (LS f Hf) X1 X2). cbn [option_map]. do 2 f_equal. f_equal. specialize (GL f s Hf Hs). unfold get3 in GL. unfold get2. rewrite <- GL. reflexivity.
  - intros s x y Hs E. destruct (XY s x y Hs E) as (-> & -> & X1 & X2). rewrite image_map, (C98_square_layers shape w _ _ SW' X1 X2). cbn [option_map].
    pose proof (grid_value R 0%R shape (m_walls (e_mdp e)) w s EW Hs) as GV. unfold get2. rewrite GV.
    assert (BS : nth s (m_walls (e_mdp e)) 0%R = 0%R \/ nth s (m_walls (e_mdp e)) 0%R = 1%R).
    { unfold binary in WB. rewrite Forall_forall in WB. apply WB. apply nth_In. rewrite WL. exact Hs. }
    unfold is_wall. destruct BS as [B|B]; rewrite B in *; (split; intros HW; [|]); try (exfalso; lra); try (exfalso; apply HW; reflexivity); f_equal; unfold limited; unfold Rmin, Rmax; repeat destruct (Rle_dec _ _); lra.
Qed.

(** ** C235, C236: grid lines *)
(** Lines lie exactly at the edges of [n] cells with their centres at 0, 1, ..., n-1. *)
Definition at_edges (lines : list R) (n : nat) : Prop := forall x, In x lines <-> exists j, j <= n /\ x = (INR j - / 2)%R.
Lemma ticks_edges : forall n, at_edges (ticks n) n.
Proof.
  intros n x. unfold ticks. rewrite in_map_iff. cbn [nsub ndiv n1 nofZ NumR]. split.
  - intros (j & <- & H). apply in_seq in H. exists j. split; [lia|]. rewrite INR_IZR_INZ. unfold Rdiv. lra.
  - intros (j & H & ->). exists j. split; [rewrite INR_IZR_INZ; unfold Rdiv; lra|apply in_seq; lia].
Qed.
Lemma edges_eq : forall l n m, at_edges l n -> at_edges l m -> n = m.
Proof.
  assert (H : forall l n m, at_edges l n -> at_edges l m -> n <= m).
  { intros l n m H1 H2. destruct (proj1 (H2 (INR n - / 2)%R) (proj2 (H1 _) (ex_intro _ n (conj (le_n n) eq_refl)))) as (j & Hj & E). assert (INR n = INR j) by lra. apply INR_eq in H. lia. }
  intros l n m H1 H2. pose proof (H l n m H1 H2). pose proof (H l m n H2 H1). lia.
Qed.
(** Every layer of a square grid is an image with as many columns as the grid is wide and as many rows as it is high, and lines are drawn exactly at the
    edges of its cells. *)
Theorem C235_layers : forall shape (g : list (list R)), shape2 (fst shape) (snd shape) g ->
  let image := square_layer_image shape g in
  length image = snd shape /\ (forall row, In row image -> length row = fst shape) /\ at_edges (fst (layer_lines shape)) (fst shape) /\ at_edges (snd (layer_lines shape)) (length image).
Proof.
  intros shape g [L _] image. assert (LI : length image = snd shape) by (unfold image, square_layer_image, transpose; now rewrite map_length, seq_length). rewrite LI.
  split; [reflexivity|]. split; [|split; apply ticks_edges]. intros row Hr. unfold image, square_layer_image, transpose in Hr. apply in_map_iff in Hr. destruct Hr as (j & <- & _). now rewrite map_length.
Qed.
Example C235_example : shape2 2 3 [[1; 2; 3]; [4; 5; 6]]%R /\ at_edges [- / 2; / 2; 3 / 2]%R 2.
Proof.
  split; [split; [reflexivity|]; intros i Hi; destruct i as [|[|i]]; [reflexivity|reflexivity|lia]|]. intros x. split.
  - intros [<-|[<-|[<-|[]]]]; [exists 0|exists 1|exists 2]; (split; [lia|cbn; lra]).
  - intros (j & Hj & ->). destruct j as [|[|[|j]]]; cbn; [left|right; left|right; right; left|exfalso; lia]; lra.
Qed.
(** The image of state values has the shape of the table of values: the lines are right exactly if the grid is as wide as it is high. *)
Theorem C236_values_iff : forall shape (values : list R) image, square_values_image shape values = Ok image -> 0 < fst shape ->
  length image = fst shape /\ (forall row, In row image -> length row = snd shape) /\
  ((at_edges (fst (value_lines shape)) (snd shape) /\ at_edges (snd (value_lines shape)) (fst shape)) <-> fst shape = snd shape).
Proof.
  intros shape values image E P. unfold square_values_image in E. destruct (C01_reshape R shape values) as [[_ E']|[_ (g & E' & [S1 S2] & _)]]; [congruence|]. assert (g = image) by congruence. subst g.
  split; [exact S1|]. split.
  - intros row Hr. apply (In_nth _ _ []) in Hr. destruct Hr as (i & Hi & <-). apply S2. lia.
  - split.
    + intros [H _]. exact (edges_eq _ _ _ (ticks_edges (fst shape)) H).
    + intros EQ. split; [rewrite <- EQ|]; apply ticks_edges.
Qed.
Theorem C236_lines_refuted : forall shape, 0 < fst shape -> fst shape <> snd shape -> exists values image, square_values_image (B:=R) shape values = Ok image /\
  (forall row, In row image -> length row = snd shape) /\ ~ at_edges (fst (value_lines shape)) (snd shape).
Proof.
  intros shape P NE. destruct (C01_reshape R shape (repeat 0%R (fst shape * snd shape))) as [[X _]|[_ (g & E & _ & _)]]; [exfalso; apply X; apply repeat_length|].
  exists (repeat 0%R (fst shape * snd shape)), g. split; [exact E|]. destruct (C236_values_iff shape _ g E P) as (_ & H & _). split; [exact H|]. intros X. apply NE. exact (edges_eq _ _ _ (ticks_edges (fst shape)) X).
Qed.

(** ** C237: the visible area *)
Theorem C237_visible : forall (outer : R) shape hide values drawn coords, (0 < outer)%R -> hex_values 0%R outer shape hide values = Ok (drawn, coords) ->
  exists left right bottom top, hex_limits outer shape hide = Ok ((left, right), (bottom, top)) /\
    forall cx cy v px py, In ((cx, cy), v) drawn -> ((px - cx) * (px - cx) + (py - cy) * (py - cy) <= outer * outer)%R -> (left <= px <= right /\ bottom <= py <= top)%R.
Proof.
  intros outer shape hide values drawn coords P H. unfold hex_values in H. apply bind_ok in H. destruct H as (g & EG & H). apply bind_ok in H. destruct H as (c & EC & H). injection H as ED _.
  set (cs := flat_map (fun x => flat_map (fun z => if hidden hide x z then [] else [hex_centre outer x z]) (seq 0 (snd shape))) (seq 0 (fst shape))).
  assert (IN : forall p, In p cs <-> exists x z, x < fst shape /\ z < snd shape /\ hidden hide x z = false /\ p = hex_centre outer x z).
  { intros p. unfold cs. rewrite in_flat_map. split.
    - intros (x & Hx & I). apply in_flat_map in I. destruct I as (z & Hz & I). apply in_seq in Hx, Hz. destruct (hidden hide x z) eqn:HH; [destruct I|]. destruct I as [<-|[]]. exists x, z. repeat split; auto; lia.
    - intros (x & z & Hx & Hz & HH & ->). exists x. split; [apply in_seq; lia|]. apply in_flat_map. exists z. split; [apply in_seq; lia|]. rewrite HH. now left. }
  assert (NE : cs <> []).
  { unfold draw_hexagons in EC. destruct (existsb _ _) eqn:EX in EC; [|discriminate]. apply existsb_exists in EX. destruct EX as ([x z] & I & NH). apply in_prod_iff in I. rewrite !in_seq in I. apply negb_true_iff in NH.
    intros Z. assert (I' : In (hex_centre outer x z) cs) by (apply IN; exists x, z; repeat split; auto; lia). rewrite Z in I'. destruct I'. }
  assert (LG : forall l y, In y l -> (y <= largest_of (A:=R) l)%R). { intros [|x l] y I; [destruct I|]. cbn. destruct (max_list_spec l x) as (M1 & M2 & _). destruct I as [<-|I]; [exact M1|now apply M2]. }
  exists (0 - outer)%R, (largest_of (map fst cs) + outer)%R, (0 - outer)%R, (largest_of (map snd cs) + outer)%R. split.
  - unfold hex_limits. fold cs. destruct cs; [congruence|reflexivity].
  - intros cx cy v px py I D. rewrite <- ED in I. apply in_flat_map in I. destruct I as (x & Hx & I). apply in_flat_map in I. destruct I as (z & Hz & I). apply in_seq in Hx, Hz. destruct (hidden hide x z) eqn:HH; [destruct I|]. destruct I as [I|[]]. apply (f_equal fst) in I. cbn [fst] in I.
    assert (IC : In (cx, cy) cs) by (apply IN; exists x, z; split; [lia|]; split; [lia|]; split; [exact HH|now symmetry]).
    pose proof (LG _ _ (in_map fst _ _ IC)) as LX. pose proof (LG _ _ (in_map snd _ _ IC)) as LY. cbn [fst snd] in LX, LY.
    assert (C0 : (0 <= cx /\ 0 <= cy)%R).
    { assert (O15 : (0 <= IZR 15 / IZR 10)%R) by lra. assert (IR : (0 <= inner_radius (A:=R) outer)%R) by (unfold inner_radius; cbn [nmul ndiv nofZ NumR]; apply Rmult_le_pos; lra).
      assert (ZX : (0 <= IZR (Z.of_nat x))%R) by (apply IZR_le; lia). assert (ZZ : (0 <= IZR (Z.of_nat z))%R) by (apply IZR_le; lia). unfold hex_centre in I. cbn [nmul nadd ndiv nofZ NumR] in I. injection I as <- <-. split.
      - apply Rmult_le_pos; [apply Rmult_le_pos; lra|exact O15].
      - assert (0 <= IZR (Z.of_nat z) * (inner_radius (A:=R) outer * 2))%R by (apply Rmult_le_pos; lra). destruct (Nat.odd x); [assumption|apply Rplus_le_le_0_compat; [assumption|]; apply Rmult_le_pos; [apply Rmult_le_pos; [exact IR|lra]|lra]]. }
    pose proof (Rle_0_sqr (px - cx)) as S1. pose proof (Rle_0_sqr (py - cy)) as S2. unfold Rsqr in S1, S2.
    assert (A1 : (Rabs (px - cx) <= Rabs outer)%R) by (apply Rsqr_le_abs_0; unfold Rsqr; lra). assert (A2 : (Rabs (py - cy) <= Rabs outer)%R) by (apply Rsqr_le_abs_0; unfold Rsqr; lra).
    rewrite (Rabs_pos_eq outer) in A1, A2 by lra. pose proof (Rle_abs (px - cx)). pose proof (Rle_abs (- (px - cx))). pose proof (Rle_abs (py - cy)). pose proof (Rle_abs (- (py - cy))). pose proof (Rabs_Ropp (px - cx)). pose proof (Rabs_Ropp (py - cy)). lra.
Qed.

(** With too few colours or opacities plotting fails. *)
Lemma square_shade_index_error : forall shape colours alphas ig x, square_shade (A:=R) shape colours alphas ig = Err x -> x = IndexError.
Proof.
  intros shape colours alphas [i g] x E. unfold square_shade, or_default in E.
  destruct colours as [l|]; [destruct (nth_error l i); cbn [bind] in E|cbn [bind] in E]; try congruence; destruct alphas as [l'|]; try (destruct (nth_error l' i)); cbn [bind] in E; congruence.
Qed.
Theorem C234_too_few : forall pl e shape colours alphas wc, reachable pl e -> e_agents e <> [] -> m_shape (e_mdp e) = Some shape ->
  ~ enough (n_ordinary (e_mdp e)) colours \/ ~ enough (n_ordinary (e_mdp e)) alphas ->
  square_shades (e_mdp e) colours alphas wc = Err IndexError.
Proof.
  intros pl e shape colours alphas wc RE NE SH H.
  destruct (C99_with_agents pl e shape RE NE SH) as (layers & EL & LL & _).
  unfold square_shades. rewrite SH, EL. cbn [bind]. unfold square_shade_layers.
  assert (X : exists i, i < length layers /\ forall g, square_shade shape colours alphas (i, g) = Err IndexError).
  { destruct H as [H|H].
    - destruct colours as [l|]; [|exfalso; apply H; exact I]. cbn in H. exists (length l). split; [lia|]. intros g. unfold square_shade, or_default at 1.
      rewrite (proj2 (nth_error_None l (length l))) by lia. reflexivity.
    - destruct alphas as [l|]; [|exfalso; apply H; exact I]. cbn in H. exists (length l). split; [lia|]. intros g.
      destruct (square_shade shape colours (Some l) (length l, g)) as [c|e'] eqn:E; [|f_equal; now apply square_shade_index_error in E].
      unfold square_shade in E. apply bind_ok in E. destruct E as (c' & _ & E). apply bind_ok in E. destruct E as (a & E & _).
      cbn in E. rewrite (proj2 (nth_error_None l (length l))) in E by lia. discriminate. }
  destruct X as (i & Hi & HE).
  rewrite (mapM_fails _ _ _ _ (i, nth i layers []) IndexError); [reflexivity| | |apply HE].
  - intros y e' _ E. now apply square_shade_index_error in E.
  - replace (i, nth i layers []) with (nth i (combine (seq 0 (length layers)) layers) (0, [])).
    + apply nth_In. rewrite combine_length, seq_length. lia.
    + rewrite combine_nth by apply seq_length. rewrite seq_nth by lia. reflexivity.
Qed.
(** A grid of 2 by 2 cells with half, twice, nothing and minus one of a feature, a wall on the third, and an agent. *)
Example C234_example : exists m m' e, grid_mdp (A:=Q) Square [[(1 # 2); 2; 0; -1]%Q] (Some [0; 0; 1; 0]%Q) (2, 2) false = Ok m /\
  make_env m [mkSpec "q"%string 1%Z None 0%Z [1; 0]%Q []] = (m', Ok e) /\
  square_shades (e_mdp e) None (Some [1%Q]) (Given 7) = Ok ([(Tab10 0, [[(1 # 2); 0]; [1; 0]]%Q)], [(Given 7, [[0; 1]; [0; 0]]%Q)]) /\
  square_shades (e_mdp e) (Some []) None (Given 7) = Err IndexError.
Proof. do 3 eexists. split; [vm_compute; reflexivity|]. split; [vm_compute; reflexivity|]. split; vm_compute; reflexivity. Qed.
Example C236_example : square_values_image (2, 3) [1; 2; 3; 4; 5; 6]%R = Ok [[1; 2; 3]; [4; 5; 6]]%R /\ ~ at_edges (fst (value_lines (2, 3))) 3 /\ at_edges (snd (value_lines (2, 3))) 2.
Proof. split; [reflexivity|]. split; [|apply ticks_edges]. intros X. pose proof (edges_eq _ _ _ (ticks_edges 2) X). lia. Qed.
(** Two columns of two hexagons, one of them hidden. *)
Example C237_example : exists drawn coords, hex_values 0%Q 1%Q (2, 2) [(0, 1)%Z] [4; 5; 6; 7]%Q = Ok (drawn, coords) /\ length drawn = 3 /\
  match hex_limits (A:=Q) 1%Q (2, 2) [(0, 1)%Z] with Ok ((l, r), (b, t)) => (l == -1 /\ r == 5 # 2 /\ b == -1 /\ t == 27320508 # 10000000)%Q | Err _ => False end.
Proof. do 2 eexists. split; [vm_compute; reflexivity|]. split; [reflexivity|]. vm_compute. auto. Qed.

(** ** C238: plots of an agent's values *)
Lemma fit_values : forall pl (e : env R) nm n s s' e1, env_fit pl e nm n s s' = (e1, Ok tt) ->
  exists v q, pl_fit pl nm e n s = Ok (v, q) /\ length v = m_n_states (e_mdp e) /\ knows nm (fun a => at_fit a = Some (v, q)) e1.
Proof.
  intros pl e nm n s s' e1 H. unfold env_fit in H. destruct (lookup e nm) as [a|] eqn:L; [|discriminate]. pose proof (WorldProofs.lookup_in _ _ _ L) as [_ N].
  destruct (alg_fit pl e a n s) as [[v q]|x] eqn:AF; [|discriminate]. unfold alg_fit in AF. rewrite N in AF.
  destruct (negb _) in AF; [discriminate|]. apply bind_ok in AF. destruct AF as ([v' q'] & EF & AF).
  destruct (negb (length v' =? _)) eqn:LV in AF; [discriminate|]. destruct (negb _) in AF; [discriminate|]. destruct (negb _) in AF; [discriminate|].
  injection AF as -> ->. apply negb_false_iff, Nat.eqb_eq in LV. exists v, q. split; [exact EF|]. split; [exact LV|].
  match type of H with context [get_policy ?x ?y ?z] => destruct (get_policy x y z) as [a' r] eqn:GP end. destruct (Again.policy_keeps _ _ _ _ _ GP) as (K1 & _ & K2). cbn in K1, K2. apply (f_equal fst) in H. cbn [fst] in H. subst e1.
  unfold lookup in L. destruct (existsb (String.eqb nm) (e_names e)) eqn:X; [|discriminate]. destruct (find_agent (e_agents e) nm) eqn:F; [|discriminate].
  assert (NB : at_name a' = nm) by congruence.
  split; [exact X|]. cbn [with_agent e_agents]. split.
  - pose proof (find_put_same (e_agents e) a') as FP. rewrite NB, F in FP. eexists. apply FP. discriminate.
  - intros b Hb Nb. apply put_in_named in Hb; [|congruence]. now subst b.
Qed.
(** After a fit that succeeded and any calls that neither fit this agent again nor reset the environment, the plot shows the state values of that fit. On a
    hex grid exactly one value is drawn at the position of every state, the value of the state, and nothing elsewhere. On a square grid every value is drawn
    once, that of the state in column [x] and row [y] in column [y] and row [x] (see C98). *)
Theorem C238_fitted : forall pl e nm n s s' e1 ops shape, reachable pl e -> m_shape (e_mdp e) = Some shape ->
  env_fit pl e nm n s s' = (e1, Ok tt) -> Forall (leaves_plan nm) ops ->
  exists values q, pl_fit pl nm e n s = Ok (values, q) /\ length values = fst shape * snd shape /\
    (0 < fst shape * snd shape -> exists drawn coords, env_plot_state_values Hex (run pl e1 ops) nm = Ok (Hexagons drawn coords) /\
      (forall i, i < fst shape * snd shape -> exists p, state_to_position Hex shape (Some coords) (Z.of_nat i) = Ok p /\ forall v, In (p, v) drawn <-> v = nth i values NaN) /\
      forall p v, In (p, v) drawn -> exists i, i < fst shape * snd shape /\ state_to_position Hex shape (Some coords) (Z.of_nat i) = Ok p) /\
    exists image, env_plot_state_values Square (run pl e1 ops) nm = Ok (Image image) /\
      forall i, i < fst shape * snd shape -> exists x y, state_to_idx shape (Z.of_nat i) = Ok (Z.of_nat x, Z.of_nat y) /\ image_at image y x = Some (nth i values NaN).
Proof.
  intros pl e nm n s s' e1 ops shape RE SH EF F. destruct (reachable_wf _ _ RE) as (k & shape' & st & W). pose proof (wf_grid _ _ _ _ W) as G.
  assert (shape' = shape) by (pose proof (gi_shape _ _ _ _ G); congruence). subst shape'.
  assert (W1 : wf k shape st e1). { pose proof (run_wf pl k shape st [OFit nm n s s'] e W) as X. cbn in X. rewrite EF in X. exact X. }
  pose proof (gi_shape _ _ _ _ (wf_grid _ _ _ _ (run_wf pl k shape st ops e1 W1))) as SR.
  destruct (fit_values _ _ _ _ _ _ _ EF) as (v & q & FV & LV & KN).
  rewrite (gi_ns _ _ _ _ G) in LV. assert (L2 : length v = fst shape * snd shape) by exact LV.
  assert (KR : knows nm (fun a => at_fit a = Some (v, q)) (run pl e1 ops)).
  { apply run_keeps; auto.
    - intros a b _ -> _ _ X. exact X.
    - intros a s0 a' r _ X GP. destruct (Again.policy_keeps _ _ _ _ _ GP) as (Y & _). congruence. }
  destruct (knows_lookup _ _ _ KR) as (a & LK & _ & FA). exists v, q. split; [exact FV|]. split; [exact L2|].
  unfold env_plot_state_values. rewrite LK. cbn [bind]. rewrite FA, SR.
  destruct (C01_reshape (fval R) shape v) as [[X _]|[_ (g & EG & _ & _)]]; [elim X; exact L2|]. split.
  - intros P. destruct (hex_values NaN n1 shape [] v) as [[drawn coords]|x] eqn:HV.
    + exists drawn, coords. split; [reflexivity|]. assert (O1 : (0 < 1)%R) by lra. destruct (C98_hex _ NaN 1%R shape [] v drawn coords O1 HV) as [H1 H2]. split.
      * intros i Hi. apply H1; [exact Hi|intros []].
      * intros p u I. destruct (H2 p u I) as (i & Hi & _ & E). eauto.
    + exfalso. unfold hex_values in HV. rewrite EG in HV. cbn [bind] in HV. unfold draw_hexagons in HV. destruct (existsb _ _) eqn:EX in HV; [discriminate|].
      assert (Y : existsb (fun '(x, z) => negb (hidden [] x z)) (list_prod (seq 0 (fst shape)) (seq 0 (snd shape))) = true); [|congruence].
      apply existsb_exists. exists (0, 0). split; [apply in_prod_iff; rewrite !in_seq; nia|reflexivity].
  - unfold square_values_image. rewrite EG. cbn [bind]. exists g. split; [reflexivity|]. intros i Hi. exact (C98_square_transposed_partial _ NaN shape v g i EG Hi).
Qed.
(** Without such an agent plotting raises ValueError; before the agent is fitted AttributeError. *)
Theorem C238_unknown : forall k (e : env R) nm, ~ In nm (e_names e) -> env_plot_state_values k e nm = Err ValueError.
Proof.
  intros k e nm H. unfold env_plot_state_values, lookup. replace (existsb (String.eqb nm) (e_names e)) with false; [reflexivity|].
  symmetry. apply not_true_is_false. intros X. apply existsb_exists in X. destruct X as (y & I & E). apply String.eqb_eq in E. subst y. contradiction.
Qed.
Theorem C238_not_fitted : forall k pl m ss m' e nm ops, usable pl m -> make_env m ss = (m', Ok e) -> In nm (map sp_name ss) ->
  (forall s, In s ss -> sp_name s = nm -> sp_fit s = None) -> Forall (never_fits nm) ops -> env_plot_state_values k (run pl e ops) nm = Err AttributeError.
Proof.
  intros k pl m ss m' e nm ops U E I NF F. destruct (knows_lookup _ _ _ (QueryProps.unfitted_knows pl m ss m' e nm ops U E I NF F)) as (a & L & _ & FA).
  unfold env_plot_state_values. rewrite L. cbn [bind]. rewrite FA. reflexivity.
Qed.
(** Two cells, planning, a step and a wall: the values drawn are those of the plan. *)
Example C238_example : exists m m' e e1, grid_mdp (A:=Q) Square [[0; 1]%Q] None (2, 1) false = Ok m /\
  make_env m [mkSpec "q"%string 1%Z None 0%Z [1; 0]%Q []] = (m', Ok e) /\ env_plot_state_values Square e "q" = Err AttributeError /\ env_plot_state_values Square e "r" = Err ValueError /\
  env_fit (vi_greedy (1 # 2) (1 # 2) 100)%Q e "q" None 0 0 = (e1, Ok tt) /\ Forall (leaves_plan "q") [OStep "q" 0; OSetWalls [0; 1]%Q] /\
  exists v w, env_plot_state_values Square (run (vi_greedy (1 # 2) (1 # 2) 100)%Q e1 [OStep "q" 0; OSetWalls [0; 1]%Q]) "q" = Ok (Image [[v]; [w]]) /\ v <> w.
Proof.
  do 4 eexists. do 5 (split; [vm_compute; reflexivity|]). split; [repeat constructor; discriminate|]. do 2 eexists. split; [vm_compute; reflexivity|discriminate].
Qed.
