(** Grids over two kinds of numbers are the same. For C243. *)
From Coq Require Import String List ZArith Reals Bool Lia Lra.
From Verif Require Import PyBase PyProofs GridModel MDPModel RoundModel SimRound.
Import ListNotations.

(** Both succeed with results that stand for each other, or raise the same error. *)
Definition rsim {X Y} (P : X -> Y -> Prop) (r' : res X) (r : res Y) : Prop :=
  match r', r with Ok a, Ok b => P a b | Err x, Err y => x = y | _, _ => False end.
Lemma rsim_bind : forall {X Y X2 Y2} (P : X -> Y -> Prop) (Q : X2 -> Y2 -> Prop) r' r f' f, rsim P r' r -> (forall a b, P a b -> rsim Q (f' a) (f b)) -> rsim Q (bind r' f') (bind r f).
Proof. intros X Y X2 Y2 P Q [a|x] [b|y] f' f H K; cbn in *; try contradiction; auto. Qed.
Lemma rsim_foldM : forall {X Y Z} (P : X -> Y -> Prop) (f' : X -> Z -> res X) (f : Y -> Z -> res Y), (forall a b z, P a b -> rsim P (f' a z) (f b z)) -> forall l a b, P a b -> rsim P (foldM f' l a) (foldM f l b).
Proof. intros X Y Z P f' f H l. induction l as [|z l IH]; intros a b AB; [exact AB|]. cbn [foldM]. apply (rsim_bind P); auto. Qed.
Lemma F2_app : forall {X Y} (P : X -> Y -> Prop) l l' k k', Forall2 P l l' -> Forall2 P k k' -> Forall2 P (l ++ k) (l' ++ k').
Proof. induction 1; cbn; auto. Qed.
Lemma F2_concat : forall {X Y} (P : X -> Y -> Prop) l l', Forall2 (Forall2 P) l l' -> Forall2 P (concat l) (concat l').
Proof. induction 1; cbn; [constructor|]. now apply F2_app. Qed.
Lemma F2_map2 : forall {X Y X2 Y2} (P : X -> Y -> Prop) (Q : X2 -> Y2 -> Prop) f g l l', (forall x y, P x y -> Q (f x) (g y)) -> Forall2 P l l' -> Forall2 Q (map f l) (map g l').
Proof. induction 2; cbn; constructor; auto. Qed.
Lemma F2_existsb : forall {X Y} (P : X -> Y -> Prop) f g l l', (forall x y, P x y -> f x = g y) -> Forall2 P l l' -> existsb f l = existsb g l'.
Proof. intros X Y P f g l l' K H. induction H as [|x y l l' H _ IH]; cbn; [reflexivity|]. rewrite IH. f_equal. now apply K. Qed.
Lemma F2_forallb : forall {X Y} (P : X -> Y -> Prop) f g l l', (forall x y, P x y -> f x = g y) -> Forall2 P l l' -> forallb f l = forallb g l'.
Proof. intros X Y P f g l l' K H. induction H as [|x y l l' H _ IH]; cbn; [reflexivity|]. rewrite IH. f_equal. now apply K. Qed.

Section Sim.
Context {B : Type} (NB : Num B) (sim : B -> R -> Prop) (ro : R -> R) (M : R).
Hypothesis CP : computes NB sim ro M.
Notation sim1 := (Forall2 sim).
Notation sim2 := (Forall2 (Forall2 sim)).
Notation sim3 := (Forall2 (Forall2 (Forall2 sim))).

(** The same grid, but for the published adjacency matrix. *)
Record msim (m' : mdp B) (m : mdp R) : Prop := {
  ms_shape : m_shape m' = m_shape m;
  ms_sas : sim3 (m_sas m') (m_sas m);
  ms_orig : sim3 (m_orig_sas m') (m_orig_sas m);
  ms_det : m_deterministic m' = m_deterministic m;
  ms_n : m_n_states m' = m_n_states m;
  ms_na : m_n_actions m' = m_n_actions m;
  ms_f : sim2 (m_features m') (m_features m);
  ms_of : sim2 (m_orig_features m') (m_orig_features m);
  ms_nf : m_n_features m' = m_n_features m;
  ms_non : m_n_non_agent m' = m_n_non_agent m;
  ms_ag : m_n_agents m' = m_n_agents m;
  ms_walls : sim1 (m_walls m') (m_walls m) }.

Lemma shape_okS : forall s' s, sim3 s' s -> sas_shape_ok s' = sas_shape_ok s.
Proof using.
  intros s' s H. unfold sas_shape_ok. pose proof (F2_length _ _ _ H) as L. assert (L0 : length (nth 0 s' []) = length (nth 0 s [])) by (apply (F2_length sim1), F2_nth; [exact H|constructor]). rewrite L, L0.
  apply (F2_forallb sim2); [|exact H]. intros x y XY. rewrite (F2_length _ _ _ XY). f_equal. apply (F2_forallb sim1); [|exact XY]. intros a b AB. now rewrite (F2_length _ _ _ AB).
Qed.
Lemma set_sasS : forall m' m s' s, msim m' m -> sim3 s' s -> rsim msim (set_sas m' s') (set_sas m s).
Proof using CP.
  intros m' m s' s MS H. unfold set_sas. rewrite (shape_okS _ _ H). destruct (negb (sas_shape_ok s)); [reflexivity|].
  assert (E : sim1 (entries3 s') (entries3 s)) by (apply F2_concat, (F2_map2 sim2); [apply F2_concat|exact H]). 
  assert (X1 : existsb (fun x => nltb x n0 || nltb n1 x) (entries3 s') = existsb (fun x => nltb x n0 || nltb n1 x) (entries3 s)).
  { apply (F2_existsb sim); [|exact E]. intros x y XY. rewrite (c_ltb _ _ _ _ CP _ _ _ _ XY (c_zero _ _ _ _ CP)), (c_ltb _ _ _ _ CP _ _ _ _ (c_one _ _ _ _ CP) XY). reflexivity. }
  assert (X2 : existsb (fun x => nltb n0 x && nltb x n1) (entries3 s') = existsb (fun x => nltb n0 x && nltb x n1) (entries3 s)).
  { apply (F2_existsb sim); [|exact E]. intros x y XY. rewrite (c_ltb _ _ _ _ CP _ _ _ _ XY (c_one _ _ _ _ CP)), (c_ltb _ _ _ _ CP _ _ _ _ (c_zero _ _ _ _ CP) XY). reflexivity. }
  destruct E as [|x y l l' XY E]; [reflexivity|]. rewrite X1, X2. destruct (existsb (fun x => nltb x n0 || nltb n1 x) (y :: l')); [reflexivity|]. cbn.
  destruct MS. split; cbn; auto; [apply (F2_length _ _ _ H)|]. apply (F2_length sim1), F2_nth; [exact H|constructor].
Qed.
Lemma set_featuresS : forall m' m f' f, msim m' m -> sim2 f' f -> rsim msim (set_features m' f') (set_features m f).
Proof using.
  intros m' m f' f MS H. unfold set_features. rewrite (ms_n _ _ MS). rewrite (F2_forallb sim1 _ (fun row => length row =? m_n_states m) f' f); [|intros x y XY; now rewrite (F2_length _ _ _ XY)|exact H].
  destruct (forallb _ f); [|reflexivity]. destruct MS. split; cbn; auto. apply (F2_length _ _ _ H).
Qed.
Lemma walledS : forall w' w s, sim1 w' w -> walled w' s = walled w s.
Proof using CP. intros w' w s H. unfold walled. apply (c_eqb _ _ _ _ CP); [|apply (c_one _ _ _ _ CP)]. apply F2_nth; [exact H|apply (c_zero _ _ _ _ CP)]. Qed.
Lemma mask_inS : forall w' w s' s, sim1 w' w -> sim3 s' s -> sim3 (mask_in w' s') (mask_in w s).
Proof using CP.
  intros w' w s' s HW H. unfold mask_in. apply (F2_map2 sim2); [|exact H]. intros a b AB. apply (F2_map2 sim1); [|exact AB]. intros x y XY. rewrite (F2_length _ _ _ XY).
  apply (F2_combine_map eq sim); [clear; induction (seq 0 (length y)); constructor; auto|exact XY|]. intros i i' p q <- PQ _. rewrite (walledS _ _ i HW). destruct (walled w i); [apply (c_zero _ _ _ _ CP)|exact PQ].
Qed.
Lemma mask_outS : forall w' w s' s, sim1 w' w -> sim3 s' s -> sim3 (mask_out w' s') (mask_out w s).
Proof using CP.
  intros w' w s' s HW H. unfold mask_out. rewrite (F2_length _ _ _ H). apply (F2_combine_map eq sim2); [clear; induction (seq 0 (length s)); constructor; auto|exact H|]. intros i i' p q <- PQ _. rewrite (walledS _ _ i HW).
  destruct (walled w i); [|exact PQ]. apply (F2_map2 sim1); [|exact PQ]. intros a b AB. apply (F2_map2 sim); [|exact AB]. intros. apply (c_zero _ _ _ _ CP).
Qed.
Lemma set_wallsS : forall m' m w' w, msim m' m -> sim1 w' w -> rsim msim (set_walls m' w') (set_walls m w).
Proof using CP.
  intros m' m w' w MS H. unfold set_walls. rewrite (ms_shape _ _ MS). destruct (m_shape m) as [[a b]|]; [|reflexivity]. rewrite (F2_length _ _ _ H). destruct (negb (length w =? a * b)); [reflexivity|].
  rewrite (F2_forallb sim _ (fun x => neqb x n0 || neqb x n1) w' w); [|intros x y XY; rewrite (c_eqb _ _ _ _ CP _ _ _ _ XY (c_zero _ _ _ _ CP)), (c_eqb _ _ _ _ CP _ _ _ _ XY (c_one _ _ _ _ CP)); reflexivity|exact H].
  destruct (negb (forallb _ w)); [reflexivity|]. apply (rsim_bind msim); [apply set_sasS; [exact MS|apply MS]|]. intros m1' m1 MS1. cbn. destruct MS1. split; cbn; auto. apply mask_outS; [exact H|]. now apply mask_inS.
Qed.
Lemma initS : forall shape f' f s' s w' w, sim2 f' f -> sim3 s' s -> match w', w with Some a, Some b => sim1 a b | None, None => True | _, _ => False end -> rsim msim (init_mdp shape f' s' w') (init_mdp shape f s w).
Proof using CP.
  intros shape f' f s' s w' w HF HS HW. unfold init_mdp. apply (rsim_bind msim); [apply set_sasS; [|exact HS]; split; cbn; auto|]. intros m1' m1 MS1.
  apply (rsim_bind msim); [apply set_featuresS; [|exact HF]; destruct MS1; split; cbn; auto|]. intros m3' m3 MS3. apply set_wallsS; [destruct MS3; split; cbn; auto; apply (F2_length _ _ _ HF)|]. cbn.
  destruct w' as [w'|], w as [w|]; try contradiction; [exact HW|]. rewrite (F2_length _ _ _ (ms_sas _ _ MS3)). apply F2_repeat, (c_zero _ _ _ _ CP).
Qed.
Lemma set3S : forall s' s i j k x y, sim3 s' s -> sim x y -> sim3 (set3 s' i j k x) (set3 s i j k y).
Proof using.
  intros s' s i j k x y H XY. unfold set3, set2. apply F2_upd; [exact H|]. assert (E : sim2 (nth i s' []) (nth i s [])) by (apply (F2_nth sim2); [exact H|constructor]). apply F2_upd; [exact E|]. apply F2_upd; [|exact XY]. apply (F2_nth sim1); [exact E|constructor].
Qed.
Lemma coords_shape : forall {X Y} (x : X) (y : Y) w h i, rows_coords i (repeat (repeat (Fin x) h) w) = rows_coords i (repeat (repeat (Fin y) h) w).
Proof using. intros X Y x y w h. induction w as [|w IH]; intros i; [reflexivity|]. cbn [repeat rows_coords]. rewrite IH. f_equal. clear IH. generalize 0%Z. induction h as [|h IHh]; intros z; [reflexivity|]. cbn. f_equal. apply IHh. Qed.
Lemma get_sasS : forall k shape st, rsim sim3 (@get_sas B NB k shape st) (@get_sas R NumR k shape st).
Proof using CP.
  intros k shape st. unfold get_sas. assert (E : snd (grid_coords (@zero_grid B NB shape)) = snd (grid_coords (@zero_grid R NumR shape))) by (unfold grid_coords; cbn [snd]; apply coords_shape). rewrite E. set (coords := snd (grid_coords (@zero_grid R NumR shape))).
  destruct (grid_adjacency k coords) as [adj|x]; [|reflexivity]. cbn [bind]. apply (rsim_foldM sim3).
  - intros a b i AB. unfold sas_row. apply (rsim_bind sim3).
    + apply (rsim_foldM sim3); [|exact AB]. intros a1 b1 j AB1. unfold sas_pair. destruct (get2 0%Z adj i j =? 1)%Z; [|exact AB1]. destruct (get_action k i j adj coords); [|reflexivity]. cbn. apply set3S; [exact AB1|apply (c_one _ _ _ _ CP)].
    + intros a1 b1 AB1. destruct st; [|exact AB1]. cbn. apply set3S; [exact AB1|apply (c_one _ _ _ _ CP)].
  - unfold zeros3. repeat apply F2_repeat. apply (c_zero _ _ _ _ CP).
Qed.
Theorem grid_mdpS : forall k f' f w' w shape st, sim2 f' f -> match w', w with Some a, Some b => sim1 a b | None, None => True | _, _ => False end -> rsim msim (@grid_mdp B NB k f' w' shape st) (@grid_mdp R NumR k f w shape st).
Proof using CP. intros k f' f w' w shape st HF HW. unfold grid_mdp. apply (rsim_bind sim3); [apply get_sasS|]. intros s' s HS. now apply initS. Qed.
Lemma add_wallS : forall m' m x y, msim m' m -> rsim msim (add_wall_xy m' x y) (add_wall_xy m x y).
Proof using CP.
  intros m' m x y MS. unfold add_wall_xy. rewrite (ms_shape _ _ MS). destruct (m_shape m) as [sh|]; [|reflexivity]. apply (rsim_bind sim1); [|intros a b AB; now apply set_wallsS].
  apply (rsim_foldM sim1); [|apply MS]. intros a b xi AB. apply (rsim_foldM sim1); [|exact AB]. intros a1 b1 yi AB1. destruct (idx_to_state sh (xi, yi)) as [s|]; [|reflexivity]. cbn [bind]. rewrite (F2_length _ _ _ AB1).
  destruct (py_index (length b1) s); [|reflexivity]. cbn. apply F2_upd; [exact AB1|apply (c_one _ _ _ _ CP)].
Qed.
Lemma reset_wallsS : forall m' m, (0 <= M)%R -> ro 0%R = 0%R -> msim m' m -> rsim msim (reset_walls m') (reset_walls m).
Proof using CP.
  intros m' m M0 R0 MS. unfold reset_walls. apply set_wallsS; [exact MS|]. apply (F2_map2 sim); [|apply MS]. intros x y XY. cbn [nmul n0 NumR]. assert (K := c_mul _ _ _ _ CP _ _ _ _ XY (c_zero _ _ _ _ CP)). rewrite Rmult_0_r, Rabs_R0, R0 in K. rewrite Rmult_0_r. auto.
Qed.
End Sim.
