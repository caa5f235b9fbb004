(** C185, C186: how the layers of a hexagonal grid are shaded. *)
From Coq Require Import String List ZArith QArith Bool Lia Reals Lra.
From Verif Require Import PyBase PyProofs RSum GridModel GridSpec GridProofs GridProofs2 MDPModel MDPSpec MDPProofs
  MDPProofs2 MDPProofs3 MDPProps GridProps EnvModel EnvSpec EnvProofs EnvProofs2 EnvProofs3 EnvProps PlotModel PlotProofs PlotProps2 ShadeModel.
Import ListNotations.
Local Close Scope Q_scope.
Local Open Scope nat_scope.

(** The given list has an entry for each of [n] layers, or nothing was given. *)
Definition enough {B} (n : nat) (given : option (list B)) : Prop := match given with None => True | Some l => n <= length l end.
(** The entry used for layer [i]. *)
Definition entry {B} (given : option (list B)) (default : B) (i : nat) : B :=
  match given with None => default | Some l => nth i l default end.
(** [v] limited to the range from 0 to 1. *)
Definition limited (v : R) : R := Rmax 0 (Rmin v 1).

Lemma or_default_ok : forall B (given : option (list B)) d n i, enough n given -> i < n -> or_default given d i = Ok (entry given d i).
Proof.
  intros B [l|] d n i E L; [|reflexivity]. cbn in *. rewrite (nth_error_nth' l d) by lia. reflexivity.
Qed.
Lemma clip01_limited : forall v : R, clip01 v = limited v.
Proof.
  intros v. unfold clip01, limited. change (@nltb R NumR) with Rltb. change (@n0 R NumR) with 0%R. change (@n1 R NumR) with 1%R.
  destruct (Rltb v 0) eqn:E.
  - apply Rltb_true in E. rewrite Rmin_left by lra. rewrite Rmax_left by lra. reflexivity.
  - apply Rltb_false in E. destruct (Rltb 1 v) eqn:E2.
    + apply Rltb_true in E2. rewrite Rmin_right by lra. rewrite Rmax_right by lra. reflexivity.
    + apply Rltb_false in E2. rewrite Rmin_left by lra. rewrite Rmax_right by lra. reflexivity.
Qed.

Lemma shade_layers_from : forall colours alphas grids i n, enough n colours -> enough n alphas -> i + length grids <= n ->
  mapM (shade (A:=R) colours alphas) (combine (seq i (length grids)) grids) =
  Ok (map (fun ig => (entry colours (tab10 (fst ig)) (fst ig), map (map (fun v => (limited v * entry alphas (/ 2) (fst ig))%R)) (snd ig)))
       (combine (seq i (length grids)) grids)).
Proof.
  intros colours alphas. induction grids as [|g r IH]; intros i n HC HA L; [reflexivity|].
  cbn [length seq combine mapM]. cbn [length] in L. unfold shade at 1.
  rewrite (or_default_ok _ colours (tab10 i) n i HC) by lia. cbn [bind].
  rewrite (or_default_ok _ alphas _ n i HA) by lia. cbn [bind].
  rewrite (IH (S i) n HC HA) by lia. cbn [bind map fst snd]. do 3 f_equal.
  assert (D : (@ndiv R NumR (@n1 R NumR) (nofZ 2)) = (/ 2)%R) by (cbn; unfold Rdiv; lra).
  rewrite D. apply map_ext. intros row. apply map_ext. intros v. rewrite clip01_limited. reflexivity.
Qed.

Lemma shaded_get : forall a g i j, get2 0%R (map (map (fun v => (limited v * a)%R)) g) i j = (limited (get2 0%R g i j) * a)%R.
Proof.
  intros a g i j. unfold get2.
  assert (Z : (limited 0 * a)%R = 0%R) by (unfold limited; rewrite Rmin_left by lra; rewrite Rmax_left by lra; lra).
  replace (nth i (map (map (fun v => (limited v * a)%R)) g) []) with (map (fun v => (limited v * a)%R) (nth i g []))
    by (rewrite <- (map_nth (map (fun v => (limited v * a)%R))); reflexivity).
  rewrite <- Z at 1. rewrite (map_nth (fun v => (limited v * a)%R)). reflexivity.
Qed.

(** With enough colours and opacities given (or none) plotting draws one layer per ordinary feature, in its
    colour, each cell as opaque as there is of the feature, up to one, times the opacity of the layer; and one
    layer of walls, opaque where there are walls and invisible elsewhere. *)
Theorem C185_opacity : forall pl e shape colours alphas wc, reachable pl e -> e_agents e <> [] -> m_shape (e_mdp e) = Some shape ->
  enough (n_ordinary (e_mdp e)) colours -> enough (n_ordinary (e_mdp e)) alphas ->
  exists fs w, hex_shades (e_mdp e) colours alphas wc = Ok (fs, [(wc, w)]) /\ length fs = n_ordinary (e_mdp e) /\
    (forall f, f < n_ordinary (e_mdp e) -> exists layer, nth_error fs f = Some (entry colours (tab10 f) f, layer) /\
       forall s, s < fst shape * snd shape ->
         get2 0%R layer (s / snd shape) (s mod snd shape) = (limited (feat (e_mdp e) f s) * entry alphas (/ 2) f)%R) /\
    forall s, s < fst shape * snd shape ->
      (is_wall (m_walls (e_mdp e)) s -> get2 0%R w (s / snd shape) (s mod snd shape) = 1%R) /\
      (~ is_wall (m_walls (e_mdp e)) s -> get2 0%R w (s / snd shape) (s mod snd shape) = 0%R).
Proof.
  intros pl e shape colours alphas wc RE NE SH HC HA.
  destruct (C99_with_agents pl e shape RE NE SH) as (layers & EL & LL & GL).
  destruct (reachable_wf _ _ RE) as (k & shape' & st & W). pose proof (wf_grid _ _ _ _ W) as G.
  assert (shape' = shape) by (pose proof (gi_shape _ _ _ _ G); congruence). subst shape'.
  pose proof (gi_wlen _ _ _ _ G) as WL. pose proof (gi_wbin _ _ _ _ G) as WB.
  destruct (C01_reshape R shape (m_walls (e_mdp e))) as [[X _]|[_ (w & EW & _ & GW)]]; [exfalso; apply X; exact WL|].
  unfold hex_shades. rewrite SH, EL. cbn [bind]. unfold shade_layers.
  rewrite (shade_layers_from colours alphas layers 0 (n_ordinary (e_mdp e)) HC HA) by lia. cbn [bind]. rewrite EW. cbn [bind].
  pose proof (shade_layers_from (Some [wc]) (Some [1%R]) [w] 0 1) as SW. cbn [length enough] in SW.
  change (@n1 R NumR) with 1%R. cbn [length]. rewrite SW by lia. cbn [bind seq combine map fst snd entry nth].
  eexists _, _. split; [reflexivity|]. split; [rewrite map_length, combine_length, seq_length; lia|]. split.
  - intros f Hf. exists (map (map (fun v => (limited v * entry alphas (/ 2) f)%R)) (nth f layers [])). split.
    + rewrite nth_error_map. rewrite (nth_error_nth' _ (0, [])) by (rewrite combine_length, seq_length; lia).
      rewrite combine_nth by apply seq_length. rewrite seq_nth by lia. reflexivity.
    + intros s Hs. rewrite shaded_get. specialize (GL f s Hf Hs). unfold get3 in GL. rewrite <- GL. reflexivity.
  - intros s Hs. rewrite shaded_get.
    assert (HI : in_grid shape (Z.of_nat (s / snd shape), Z.of_nat (s mod snd shape)) /\ idx_to_state shape (Z.of_nat (s / snd shape), Z.of_nat (s mod snd shape)) = Ok (Z.of_nat s)).
    { destruct (C01_state_roundtrip shape (Z.of_nat s)) as [H _]. destruct H as (c & _ & Ic & Ec & B); [lia|].
      rewrite Nat2Z.id in Ec. unfold cell_of in Ec. subst c. auto. }
    destruct HI as [HI HB]. destruct (GW _ _ 0%R HI) as (s' & E' & GV). rewrite HB in E'. injection E' as E'. subst s'.
    rewrite !Nat2Z.id in GV. rewrite GV.
    assert (BS : nth s (m_walls (e_mdp e)) 0%R = 0%R \/ nth s (m_walls (e_mdp e)) 0%R = 1%R).
    { unfold binary in WB. rewrite Forall_forall in WB. apply WB. apply nth_In. rewrite WL. exact Hs. }
    unfold is_wall. split; intros HW.
    + destruct BS as [B|B]; rewrite B in *; [exfalso; lra|].
      unfold limited. rewrite Rmin_left by lra. rewrite Rmax_right by lra. lra.
    + destruct BS as [B|B]; rewrite B in *.
      * unfold limited. rewrite Rmin_left by lra. rewrite Rmax_left by lra. lra.
      * exfalso. apply HW. reflexivity.
Qed.

(** For features between nothing and one the opacity is in proportion; beyond one there is no difference. *)
Theorem C185_limited : forall v w : R,
  (0 <= v <= 1 -> limited v = v)%R /\ (1 <= v -> limited v = 1)%R /\ (v <= 0 -> limited v = 0)%R /\ (v <= w -> limited v <= limited w)%R.
Proof.
  intros v w. unfold limited. repeat split; intros H.
  - rewrite Rmin_left by lra. apply Rmax_right. lra.
  - rewrite Rmin_right by lra. apply Rmax_right. lra.
  - rewrite Rmin_left by lra. apply Rmax_left. lra.
  - unfold Rmin, Rmax. repeat destruct (Rle_dec _ _); lra.
Qed.

Lemma mapM_fails : forall B C (f : B -> res C) l x e, (forall y e', In y l -> f y = Err e' -> e' = e) -> In x l -> f x = Err e -> mapM f l = Err e.
Proof.
  induction l as [|y r IH]; intros x e H Hx E; [destruct Hx|]. cbn [mapM].
  destruct (f y) as [c|e'] eqn:Ey.
  - cbn [bind]. destruct Hx as [->|Hx]; [congruence|]. rewrite (IH x e); [reflexivity| |exact Hx|exact E].
    intros z e' Hz. apply H. now right.
  - cbn [bind]. f_equal. apply (H y e'); [now left|exact Ey].
Qed.
Lemma shade_index_error : forall colours alphas y e', shade (A:=R) colours alphas y = Err e' -> e' = IndexError.
Proof.
  intros colours alphas [i g] e' E. unfold shade in E.
  destruct (or_default colours (tab10 i) i) as [c|e1] eqn:E1; cbn [bind] in E.
  - destruct (or_default alphas _ i) as [a|e2] eqn:E2; cbn [bind] in E; [discriminate|]. injection E as <-.
    destruct alphas as [l|]; [|discriminate]. cbn in E2. destruct (nth_error l i); congruence.
  - injection E as <-. destruct colours as [l|]; [|discriminate]. cbn in E1. destruct (nth_error l i); congruence.
Qed.

(** With too few colours or opacities plotting raises IndexError. *)
Theorem C185_too_few : forall pl e shape colours alphas wc, reachable pl e -> e_agents e <> [] -> m_shape (e_mdp e) = Some shape ->
  ~ enough (n_ordinary (e_mdp e)) colours \/ ~ enough (n_ordinary (e_mdp e)) alphas ->
  hex_shades (e_mdp e) colours alphas wc = Err IndexError.
Proof.
  intros pl e shape colours alphas wc RE NE SH H.
  destruct (C99_with_agents pl e shape RE NE SH) as (layers & EL & LL & _).
  unfold hex_shades. rewrite SH, EL. cbn [bind]. unfold shade_layers.
  assert (X : exists i, i < length layers /\ forall g, shade colours alphas (i, g) = Err IndexError).
  { destruct H as [H|H].
    - destruct colours as [l|]; [|exfalso; apply H; exact I]. cbn in H. exists (length l). split; [lia|]. intros g. unfold shade, or_default at 1.
      rewrite (proj2 (nth_error_None l (length l))) by lia. reflexivity.
    - destruct alphas as [l|]; [|exfalso; apply H; exact I]. cbn in H. exists (length l). split; [lia|]. intros g.
      destruct (shade colours (Some l) (length l, g)) as [c|e'] eqn:E; [|f_equal; now apply shade_index_error in E].
      unfold shade in E. apply bind_ok in E. destruct E as (c' & _ & E). apply bind_ok in E. destruct E as (a & E & _).
      cbn in E. rewrite (proj2 (nth_error_None l (length l))) in E by lia. discriminate. }
  destruct X as (i & Hi & HE).
  rewrite (mapM_fails _ _ _ _ (i, nth i layers []) IndexError); [reflexivity| | |apply HE].
  - intros y e' _ E. now apply shade_index_error in E.
  - replace (i, nth i layers []) with (nth i (combine (seq 0 (length layers)) layers) (0, [])).
    + apply nth_In. rewrite combine_length, seq_length. lia.
    + rewrite combine_nth by apply seq_length. rewrite seq_nth by lia. reflexivity.
Qed.

(** ** C186 *)

(** The colour in which feature [f] is drawn. *)
Definition drawn_in (m : mdp R) (colours : option (list colour)) (f : nat) (c : colour) : Prop :=
  forall alphas wc fs ws, hex_shades m colours alphas wc = Ok (fs, ws) -> exists layer, nth_error fs f = Some (c, layer).

Lemma colour_drawn : forall pl e shape f, reachable pl e -> e_agents e <> [] -> m_shape (e_mdp e) = Some shape -> f < n_ordinary (e_mdp e) ->
  drawn_in (e_mdp e) None f (tab10 f).
Proof.
  intros pl e shape f RE NE SH Hf alphas wc fs ws E.
  assert (HA : enough (n_ordinary (e_mdp e)) alphas).
  { destruct alphas as [l|]; [|exact I]. cbn. destruct (le_lt_dec (n_ordinary (e_mdp e)) (length l)) as [L|L]; [exact L|].
    rewrite (C185_too_few pl e shape None (Some l) wc RE NE SH) in E; [discriminate|]. right. cbn. lia. }
  destruct (C185_opacity pl e shape None alphas wc RE NE SH I HA) as (fs' & w & E' & _ & H & _). rewrite E in E'. injection E' as <- _.
  destruct (H f Hf) as (layer & N & _). exists layer. exact N.
Qed.

(** Without given colours, up to ten features are drawn in different colours. *)
Theorem C186_ten_partial : forall pl e shape f g c d, reachable pl e -> e_agents e <> [] -> m_shape (e_mdp e) = Some shape ->
  f < n_ordinary (e_mdp e) -> g < n_ordinary (e_mdp e) -> f < g -> f < 9 -> 
  drawn_in (e_mdp e) None f c -> drawn_in (e_mdp e) None g d -> c <> d.
Proof.
  intros pl e shape f g c d RE NE SH Hf Hg L L9 Hc Hd.
  destruct (C185_opacity pl e shape None None (Given 0) RE NE SH I I) as (fs & w & E & _ & H & _).
  destruct (Hc _ _ _ _ E) as (l1 & N1). destruct (Hd _ _ _ _ E) as (l2 & N2).
  destruct (H f Hf) as (l1' & N1' & _). destruct (H g Hg) as (l2' & N2' & _). cbn [entry] in N1', N2'.
  rewrite N1' in N1. rewrite N2' in N2. injection N1 as <- _. injection N2 as <- _. unfold tab10. intros X. injection X as X. lia.
Qed.

(** From the tenth feature on all have the same colour. *)
Theorem C186_colours_refuted : forall pl e shape f, reachable pl e -> e_agents e <> [] -> m_shape (e_mdp e) = Some shape ->
  9 <= f < n_ordinary (e_mdp e) -> drawn_in (e_mdp e) None f (Tab10 9).
Proof.
  intros pl e shape f RE NE SH [L Hf]. pose proof (colour_drawn pl e shape f RE NE SH Hf) as D. unfold tab10 in D. rewrite Nat.min_r in D by exact L. exact D.
Qed.

(** Given colours are used as they are. *)
Theorem C186_given : forall pl e shape l f alphas wc fs ws, reachable pl e -> e_agents e <> [] -> m_shape (e_mdp e) = Some shape ->
  f < n_ordinary (e_mdp e) -> hex_shades (e_mdp e) (Some l) alphas wc = Ok (fs, ws) ->
  exists c layer, nth_error l f = Some c /\ nth_error fs f = Some (c, layer).
Proof.
  intros pl e shape l f alphas wc fs ws RE NE SH Hf E.
  assert (HC : enough (n_ordinary (e_mdp e)) (Some l)).
  { cbn. destruct (le_lt_dec (n_ordinary (e_mdp e)) (length l)) as [L|L]; [exact L|].
    rewrite (C185_too_few pl e shape (Some l) alphas wc RE NE SH) in E; [discriminate|]. left. cbn. lia. }
  assert (HA : enough (n_ordinary (e_mdp e)) alphas).
  { destruct alphas as [l'|]; [|exact I]. cbn. destruct (le_lt_dec (n_ordinary (e_mdp e)) (length l')) as [L|L]; [exact L|].
    rewrite (C185_too_few pl e shape (Some l) (Some l') wc RE NE SH) in E; [discriminate|]. right. cbn. lia. }
  destruct (C185_opacity pl e shape (Some l) alphas wc RE NE SH HC HA) as (fs' & w & E' & _ & H & _). rewrite E in E'. injection E' as <- _.
  destruct (H f Hf) as (layer & N & _). exists (entry (Some l) (tab10 f) f), layer. split; [|exact N].
  cbn in *. apply nth_error_nth'. lia.
Qed.

(** A grid of 1 by 3 hexagons with half, twice and nothing of a feature, a wall on the last one, and an agent. *)
Example C185_example : exists m m' e, grid_mdp (A:=Q) Hex [[(1 # 2); 2; 0]%Q] (Some [0; 0; 1]%Q) (1, 3) false = Ok m /\
  make_env m [mkSpec "q"%string 1%Z None 0%Z [1; 0]%Q []] = (m', Ok e) /\
  hex_shades (e_mdp e) None None (Given 7) = Ok ([(Tab10 0, [[(1 # 4); (1 # 2); 0]%Q])], [(Given 7, [[0; 0; 1]%Q])]) /\
  hex_shades (e_mdp e) (Some []) None (Given 7) = Err IndexError.
Proof. do 3 eexists. split; [vm_compute; reflexivity|]. split; [vm_compute; reflexivity|]. split; vm_compute; reflexivity. Qed.

(** Eleven features on a hex grid of one cell: the last two have the same colour. *)
Example C186_example : exists m m' e fs ws, grid_mdp (A:=Q) Hex (repeat [1%Q] 11) None (1, 1) true = Ok m /\
  make_env m [mkSpec "q"%string 1%Z None 0%Z (repeat 0%Q 12) []] = (m', Ok e) /\
  hex_shades (e_mdp e) None None (Given 7) = Ok (fs, ws) /\ map fst fs = [Tab10 0; Tab10 1; Tab10 2; Tab10 3; Tab10 4; Tab10 5; Tab10 6; Tab10 7; Tab10 8; Tab10 9; Tab10 9].
Proof. do 5 eexists. split; [vm_compute; reflexivity|]. split; [vm_compute; reflexivity|]. split; vm_compute; reflexivity. Qed.
