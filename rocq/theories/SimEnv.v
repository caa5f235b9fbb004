(** Environments over two kinds of numbers run alike, if their agents plan alike. For C244. *)
From Coq Require Import String List ZArith Reals Bool Lia Lra.
From Verif Require Import PyBase PyProofs GridModel MDPModel ActionModel EnvModel EnvSpec RoundModel SimRound SimMDP.
Import ListNotations.

(** Both give nothing, or both give something, and these stand for each other. *)
Definition osim {X Y} (P : X -> Y -> Prop) (o' : option X) (o : option Y) : Prop :=
  match o', o with Some a, Some b => P a b | None, None => True | _, _ => False end.
(** The object afterwards and the result of a call. *)
Definition psim {X Y U V} (P : X -> Y -> Prop) (Q : U -> V -> Prop) (r' : X * res U) (r : Y * res V) : Prop := P (fst r') (fst r) /\ rsim Q (snd r') (snd r).

Section Sim.
Context {B : Type} (NB : Num B) (sim simv : B -> R -> Prop) (simw : list B -> list R -> Prop) (ro : R -> R) (M : R).
Hypothesis CP : computes NB sim ro M.
Hypothesis VL : forall b x c y, simv b x -> simv c y -> nltb b c = Rltb x y.
Hypothesis VE : forall b x c y, simv b x -> simv c y -> neqb b c = Reqb x y.
Hypothesis WL : forall l' l, simw l' l -> length l' = length l.
Notation ms := (msim sim).

(** ** Actions *)
Notation q2 := (Forall2 (Forall2 (fsim simv))).
Lemma isnanS : forall x y, fsim simv x y -> isnan x = isnan y.
Proof using. intros [| | |x] [| | |y]; cbn; tauto. Qed.
Lemma cleanS : forall q' q, q2 q' q -> q2 (clean q') (clean q).
Proof using. intros q' q H. unfold clean. eapply F2_map2; [|exact H]. intros r' r HR. eapply F2_map2; [|exact HR]. intros [| | |x] [| | |y]; cbn; tauto. Qed.
Lemma nan_stateS : forall r' r, Forall2 (fsim simv) r' r -> nan_state r' = nan_state r.
Proof using.
  intros r' r H. unfold nan_state. rewrite (F2_forallb _ _ _ _ _ isnanS H), (F2_existsb (fsim simv) ispinf ispinf r' r), (F2_existsb (fsim simv) isninf isninf r' r); auto; intros [| | |x] [| | |y]; cbn; tauto.
Qed.
Lemma checkS : forall q' q, q2 q' q -> check_q_values q' = check_q_values q.
Proof using. intros q' q H. unfold check_q_values. rewrite (F2_forallb (Forall2 (fsim simv)) (forallb isnan) (forallb isnan) q' q); auto. intros x y XY. apply (F2_forallb _ _ _ _ _ isnanS XY). Qed.
Lemma get_piS : forall sel' sel q' q, q2 q' q -> sel' (clean q') = sel (clean q) -> get_pi sel' q' = get_pi sel q.
Proof using.
  intros sel' sel q' q H E. unfold get_pi. rewrite (checkS _ _ H), E. destruct (check_q_values q); [|reflexivity]. cbn. destruct (sel (clean q)) as [pi|]; [|reflexivity]. cbn. rewrite (F2_length _ _ _ H). destruct (negb _); [reflexivity|]. f_equal.
  clear E. revert pi. induction H as [|r' r q' q HR H IH]; intros pi; [reflexivity|]. destruct pi as [|z pi]; [reflexivity|]. cbn. rewrite (nan_stateS _ _ HR). f_equal. apply IH.
Qed.
Definition alike_shape (p' : list (list (fval B))) (p : list (list (fval R))) : Prop := Forall2 (fun r' r => length r' = length r) p' p.
Lemma get_pi_pS : forall sel' sel q' q, q2 q' q -> rsim alike_shape (sel' (clean q')) (sel (clean q)) -> rsim alike_shape (get_pi_p sel' q') (get_pi_p sel q).
Proof using.
  intros sel' sel q' q H E. unfold get_pi_p. rewrite (checkS _ _ H). destruct (check_q_values q); [|reflexivity]. cbn. destruct (sel' (clean q')) as [p'|x], (sel (clean q)) as [p|y]; try contradiction; [|exact E]. cbn in E |- *.
  rewrite (F2_length _ _ _ H), (F2_length _ _ _ E). destruct (negb _); [reflexivity|].
  assert (S : alike_shape (map (fun '(row, prow) => if nan_state row then map (fun _ => NaN) prow else prow) (combine q' p')) (map (fun '(row, prow) => if nan_state row then map (fun _ => NaN) prow else prow) (combine q p))).
  { unfold alike_shape in *. apply (F2_combine_map (Forall2 (fsim simv)) (fun r' r => length r' = length r)); auto. intros w x y z AB CD _. rewrite (nan_stateS _ _ AB). destruct (nan_state x); [now rewrite !map_length|exact CD]. }
  set (P' := map _ (combine q' p')) in *. set (P := map _ (combine q p)) in *.
  replace (forallb (fun '(row, prow) => length row =? length prow) (combine q' P')) with (forallb (fun '(row, prow) => length row =? length prow) (combine q P)); [destruct (forallb _ _); [exact S|reflexivity]|].
  clearbody P P'. clear -H S. revert P P' S. induction H as [|r' r q' q HR H IH]; intros P P' S; [reflexivity|]. destruct S as [|x y P' P AB S]; [reflexivity|]. cbn. rewrite (F2_length _ _ _ HR), AB. f_equal. now apply IH.
Qed.

(** Greedy selection. *)
Lemma fltbS : forall x' x y' y, fsim simv x' x -> fsim simv y' y -> fltb x' y' = fltb x y.
Proof using VL. intros [| | |x'] [| | |x] [| | |y'] [| | |y]; cbn; try tauto. intros; now apply VL. Qed.
Lemma feqbS : forall x' x y' y, fsim simv x' x -> fsim simv y' y -> feqb x' y' = feqb x y.
Proof using VE. intros [| | |x'] [| | |x] [| | |y'] [| | |y]; cbn; try tauto. intros; now apply VE. Qed.
Lemma max_actionsS : forall r' r, Forall2 (fsim simv) r' r -> max_actions r' = max_actions r.
Proof using VL VE.
  intros r' r H. unfold max_actions. assert (K : rsim (fsim simv) (fmax_list r') (fmax_list r)).
  { unfold fmax_list. destruct H as [|x y r' r XY H]; [reflexivity|]. cbn. revert x y XY. induction H as [|a b r' r AB H IH]; intros x y XY; [exact XY|]. cbn. rewrite (fltbS _ _ _ _ XY AB). apply IH. destruct (fltb y b); auto. }
  destruct (fmax_list r') as [x|x], (fmax_list r) as [y|y]; try contradiction; [|cbn in K; now subst]. cbn in K |- *. f_equal. unfold where_. generalize 0.
  induction H as [|a b r' r AB H IH]; intros i; [reflexivity|]. cbn. rewrite (feqbS _ _ _ _ K AB), IH. reflexivity.
Qed.
Lemma max_get_piS : forall draws q' q, q2 q' q -> max_get_pi draws q' = max_get_pi draws q.
Proof using VL VE.
  intros draws q' q H. unfold max_get_pi. generalize 0. induction H as [|r' r q' q HR H IH]; intros i; [reflexivity|]. cbn [max_get_pi_from]. unfold random_max. rewrite (max_actionsS _ _ HR), IH. reflexivity.
Qed.
Lemma max_get_pi_pS : forall q' q, q2 q' q -> rsim alike_shape (@max_get_pi_p B NB q') (@max_get_pi_p R NumR q).
Proof using VL VE.
  intros q' q H. unfold max_get_pi_p. induction H as [|r' r q' q HR H IH]; [constructor|]. cbn [mapM]. apply (rsim_bind (fun r' r => length r' = length r)).
  - unfold max_pi_p_row. rewrite (max_actionsS _ _ HR). destruct (max_actions r); [|reflexivity]. cbn. rewrite !map_length, !seq_length. apply (F2_length _ _ _ HR).
  - intros a b AB. apply (rsim_bind alike_shape); [exact IH|]. intros. now constructor.
Qed.

(** ** The feature table *)
Lemma with_featuresS : forall m' m f' f, ms m' m -> Forall2 (Forall2 sim) f' f -> ms (with_features m' f') (with_features m f).
Proof using. intros m' m f' f [] H. split; cbn; auto. Qed.
Lemma with_n_agentsS : forall m' m k, ms m' m -> ms (with_n_agents m' k) (with_n_agents m k).
Proof using. intros m' m k []. split; cbn; auto. Qed.
Lemma add_featureS : forall m' m p, ms m' m -> psim ms eq (@add_agent_feature B NB m' p) (@add_agent_feature R NumR m p).
Proof using CP.
  intros m' m p MS. unfold add_agent_feature. rewrite (ms_n _ _ _ MS), (ms_ag _ _ _ MS). destruct (py_index (m_n_states m) p) as [i|x]; [|split; [now apply with_n_agentsS|reflexivity]].
  pose proof (with_n_agentsS _ _ (m_n_agents m + 1) MS) as W.
  assert (F : Forall2 (Forall2 sim) (m_features m' ++ [upd (@zeros1 B NB (m_n_states m)) i n1]) (m_features m ++ [upd (@zeros1 R NumR (m_n_states m)) i n1])).
  { apply F2_app; [apply MS|]. constructor; [|constructor]. apply F2_upd; [|apply (c_one _ _ _ _ CP)]. unfold zeros1. apply F2_repeat, (c_zero _ _ _ _ CP). }
  pose proof (set_featuresS sim _ _ _ _ W F) as K. destruct (set_features _ (m_features m' ++ _)) as [a|x], (set_features _ (m_features m ++ _)) as [b|y]; try contradiction; split; auto. reflexivity.
Qed.
Lemma update_featureS : forall m' m k p, ms m' m -> psim ms eq (@update_agent_feature B NB m' k p) (@update_agent_feature R NumR m k p).
Proof using CP.
  intros m' m k p MS. unfold update_agent_feature. rewrite (ms_n _ _ _ MS), (ms_ag _ _ _ MS), (ms_nf _ _ _ MS), (F2_length _ _ _ (ms_f _ _ _ MS)). destruct (py_index (length (m_features m)) _) as [r|x]; [|split; [exact MS|reflexivity]].
  assert (Z : Forall2 sim (map (fun _ => @n0 B NB) (nth r (m_features m') [])) (map (fun _ => @n0 R NumR) (nth r (m_features m) []))).
  { apply (F2_map2 sim); [intros; apply (c_zero _ _ _ _ CP)|]. apply (F2_nth (Forall2 sim)); [apply MS|constructor]. }
  destruct (py_index (m_n_states m) p) as [i|x]; (split; [|reflexivity]); cbn [fst]; apply with_featuresS; auto; apply F2_upd; auto; try apply MS. apply F2_upd; [exact Z|apply (c_one _ _ _ _ CP)].
Qed.
Lemma firstnS : forall {X Y} (P : X -> Y -> Prop) n l' l, Forall2 P l' l -> Forall2 P (firstn n l') (firstn n l).
Proof using. intros X Y P n l' l H. revert n. induction H; intros [|n]; cbn; auto. Qed.
Lemma remove_featuresS : forall m' m, ms m' m -> rsim ms (remove_agent_features m') (remove_agent_features m).
Proof using.
  intros m' m MS. unfold remove_agent_features. rewrite (ms_ag _ _ _ MS), (F2_length _ _ _ (ms_f _ _ _ MS)). apply (rsim_bind ms).
  - apply set_featuresS; [exact MS|]. destruct (m_n_agents m =? 0); [constructor|]. apply firstnS, MS.
  - intros a b AB. now apply with_n_agentsS.
Qed.
Lemma consume_loopS : forall idx st m' m c, ms m' m -> psim ms eq (@consume_loop B NB idx st m' c) (@consume_loop R NumR idx st m c).
Proof using CP.
  induction idx as [|f idx IH]; intros st m' m c MS; cbn [consume_loop]; [split; [exact MS|reflexivity]|]. rewrite (ms_n _ _ _ MS), (F2_length _ _ _ (ms_f _ _ _ MS)).
  destruct (py_index (length (m_features m)) f) as [fi|x]; [|split; [exact MS|reflexivity]]. destruct (py_index (m_n_states m) st) as [si|x]; [|split; [exact MS|reflexivity]].
  assert (N : Forall2 sim (nth fi (m_features m') []) (nth fi (m_features m) [])) by (apply (F2_nth (Forall2 sim)); [apply MS|constructor]).
  assert (G : sim (get2 n0 (m_features m') fi si) (get2 n0 (m_features m) fi si)) by (unfold get2; apply F2_nth; [exact N|apply (c_zero _ _ _ _ CP)]).
  rewrite (c_ltb _ _ _ _ CP _ _ _ _ (c_zero _ _ _ _ CP) G). change (nltb n0 (get2 n0 (m_features m) fi si)) with (Rltb 0 (get2 n0 (m_features m) fi si)). destruct (Rltb 0 _); [|now apply IH].
  assert (W : ms (with_features m' (set2 (m_features m') fi si n0)) (with_features m (set2 (m_features m) fi si n0))). { apply with_featuresS; [exact MS|]. unfold set2. apply F2_upd; [apply MS|]. apply F2_upd; [exact N|apply (c_zero _ _ _ _ CP)]. }
  destruct (py_index (length c) f); [now apply IH|split; [exact W|reflexivity]].
Qed.
Lemma argmaxS : forall l' l, Forall2 sim l' l -> argmax l' = argmax l.
Proof using CP.
  intros l' l H. unfold argmax. destruct H as [|x y l' l XY H]; [reflexivity|]. generalize 0 1. revert x y XY. induction H as [|a b l' l AB H IH]; intros x y XY i j; [reflexivity|]. cbn [argmax_from].
  rewrite (c_ltb _ _ _ _ CP _ _ _ _ XY AB). change (nltb y b) with (Rltb y b). destruct (Rltb y b); now apply IH.
Qed.
Lemma next_stateS : forall m' m s a, ms m' m -> get_next_state m' s a = get_next_state m s a.
Proof using CP.
  intros m' m s a MS. unfold get_next_state. rewrite (ms_n _ _ _ MS), (ms_na _ _ _ MS), (ms_det _ _ _ MS). destruct (a <? 0)%Z; [reflexivity|]. destruct (py_index (m_n_states m) s) as [i|]; [|reflexivity]. cbn. destruct (py_index (m_n_actions m) a) as [j|]; [|reflexivity]. cbn.
  destruct (m_deterministic m); [|reflexivity]. f_equal. apply argmaxS. apply (F2_nth (Forall2 sim)); [|constructor]. apply (F2_nth (Forall2 (Forall2 sim))); [apply MS|constructor].
Qed.

(** ** Agents and environments *)
Definition fitsim (f' : fitted B) (f : fitted R) : Prop := length (fst f') = length (fst f) /\ q2 (snd f') (snd f).
Record asim (a' : attached B) (a : attached R) : Prop := {
  as_name : at_name a' = at_name a;
  as_moves : at_n_moves a' = at_n_moves a;
  as_reward : simw (at_reward a') (at_reward a);
  as_consumes : at_consumes a' = at_consumes a;
  as_consumed : at_consumed a' = at_consumed a;
  as_idx : at_idx a' = at_idx a;
  as_fidx : at_feature_idx a' = at_feature_idx a;
  as_fit : osim fitsim (at_fit a') (at_fit a);
  as_start : at_start a' = at_start a;
  as_pos : at_pos a' = at_pos a;
  as_hist : at_hist a' = at_hist a;
  as_pi : at_pi a' = at_pi a;
  as_pi_p : osim alike_shape (at_pi_p a') (at_pi_p a) }.
Record esim (e' : env B) (e : env R) : Prop := {
  es_mdp : ms (e_mdp e') (e_mdp e);
  es_names : e_names e' = e_names e;
  es_agents : Forall2 asim (e_agents e') (e_agents e);
  es_n : e_n_agents e' = e_n_agents e;
  es_steps : e_n_steps e' = e_n_steps e }.
Record ssim (s' : spec B) (s : spec R) : Prop := {
  ss_name : sp_name s' = sp_name s;
  ss_moves : sp_n_moves s' = sp_n_moves s;
  ss_fit : osim fitsim (sp_fit s') (sp_fit s);
  ss_pos : sp_pos s' = sp_pos s;
  ss_reward : simw (sp_reward s') (sp_reward s);
  ss_consumes : sp_consumes s' = sp_consumes s }.

Lemma findS : forall l' l nm, Forall2 asim l' l -> osim asim (find_agent l' nm) (find_agent l nm).
Proof using. intros l' l nm H. unfold find_agent. induction H as [|a b l' l AB H IH]; cbn; [exact I|]. rewrite (as_name _ _ AB). destruct (String.eqb (at_name b) nm); [exact AB|exact IH]. Qed.
Lemma putS : forall l' l a' a, Forall2 asim l' l -> asim a' a -> Forall2 asim (put_agent l' a') (put_agent l a).
Proof using.
  intros l' l a' a H AA. unfold put_agent. rewrite (F2_existsb asim _ (fun b => String.eqb (at_name b) (at_name a)) l' l); [|intros x y XY; now rewrite (as_name _ _ XY), (as_name _ _ AA)|exact H].
  destruct (existsb _ l); [|now apply F2_app; [exact H|constructor]]. apply (F2_map2 asim); [|exact H]. intros x y XY. rewrite (as_name _ _ XY), (as_name _ _ AA). destruct (String.eqb _ _); auto.
Qed.
Lemma lookupS : forall e' e nm, esim e' e -> rsim asim (lookup e' nm) (lookup e nm).
Proof using.
  intros e' e nm ES. unfold lookup. rewrite (es_names _ _ ES). destruct (existsb _ _); [|reflexivity]. pose proof (findS _ _ nm (es_agents _ _ ES)) as K.
  destruct (find_agent (e_agents e') nm), (find_agent (e_agents e) nm); try contradiction; [exact K|reflexivity].
Qed.
Lemma with_mdpS : forall e' e m' m, esim e' e -> ms m' m -> esim (with_mdp e' m') (with_mdp e m).
Proof using. intros e' e m' m [] H. split; cbn; auto. Qed.
Lemma with_agentS : forall e' e a' a, esim e' e -> asim a' a -> esim (with_agent e' a') (with_agent e a).
Proof using. intros e' e a' a [] H. split; cbn; auto. now apply putS. Qed.
Lemma tickS : forall e' e, esim e' e -> esim (tick e') (tick e).
Proof using. intros e' e []. split; cbn; auto. Qed.
Lemma set_posS : forall a' a p, asim a' a -> asim (set_pos_only a' p) (set_pos_only a p).
Proof using. intros a' a p []. split; cbn; auto. Qed.
Lemma set_histS : forall a' a h, asim a' a -> asim (set_hist a' h) (set_hist a h).
Proof using. intros a' a p []. split; cbn; auto. Qed.
Lemma set_policyS : forall a' a pi p' p, asim a' a -> osim alike_shape p' p -> asim (set_policy a' pi p') (set_policy a pi p).
Proof using. intros a' a pi p' p [] H. split; cbn; auto. Qed.
Lemma set_fitS : forall a' a f' f, asim a' a -> osim fitsim f' f -> asim (set_fit a' f') (set_fit a f).
Proof using. intros a' a f' f [] H. split; cbn; auto. Qed.
Lemma set_consumedS : forall a' a c, asim a' a -> asim (set_consumed a' c) (set_consumed a c).
Proof using. intros a' a c []. split; cbn; auto. Qed.

Definition mpair (r' : mdp B * attached B) (r : mdp R * attached R) : Prop := ms (fst r') (fst r) /\ asim (snd r') (snd r).
Lemma moveS : forall m' m a' a p, ms m' m -> asim a' a -> psim mpair eq (@move_agent B NB m' a' p) (@move_agent R NumR m a p).
Proof using CP.
  intros m' m a' a p MS AS. unfold move_agent. rewrite (ms_n _ _ _ MS), (as_idx _ _ AS). destruct (_ <=? p)%Z; [split; [split; auto|reflexivity]|]. destruct (update_featureS m' m (at_idx a) p MS) as [K1 K2].
  destruct (update_agent_feature m' (at_idx a) p) as [m1' [u|x]], (update_agent_feature m (at_idx a) p) as [m1 [v|y]]; try contradiction; cbn in K1, K2; (split; [split|]); auto; [|reflexivity]. now apply set_posS.
Qed.
Lemma attachS : forall m' m i s' s, ms m' m -> ssim s' s -> psim ms asim (@attach B NB m' i s') (@attach R NumR m i s).
Proof using CP WL.
  intros m' m i s' s MS SS. unfold attach. rewrite (ss_pos _ _ SS). destruct (add_featureS m' m (sp_pos s) MS) as [K1 K2].
  destruct (add_agent_feature m' (sp_pos s)) as [m1' [u|x]], (add_agent_feature m (sp_pos s)) as [m1 [v|y]]; try contradiction; cbn in K1, K2; [|split; auto].
  match goal with |- psim _ _ (match move_agent _ ?A' _ with _ => _ end) (match move_agent _ ?A _ with _ => _ end) => assert (AS : asim A' A) end.
  { destruct SS. split; cbn; auto; try (now rewrite (WL _ _ ss_reward0)); try (now rewrite (ms_non _ _ _ MS)). }
  destruct (moveS _ _ _ _ (sp_pos s) K1 AS) as [[L1 L2] L3]. destruct (move_agent m1' _ _) as [[m2' b'] [u'|x]], (move_agent m1 _ _) as [[m2 b] [v'|y]]; try contradiction; cbn in *; split; auto.
Qed.
Lemma attach_checkedS : forall nf na m' m i s' s, ms m' m -> ssim s' s -> psim ms asim (@attach_checked B NB nf na m' i s') (@attach_checked R NumR nf na m i s).
Proof using CP WL.
  intros nf na m' m i s' s MS SS. unfold attach_checked. rewrite (WL _ _ (ss_reward _ _ SS)), (ss_consumes _ _ SS). destruct (negb _); [split; [exact MS|reflexivity]|]. destruct (existsb _ _); [split; [exact MS|reflexivity]|]. now apply attachS.
Qed.
Lemma attach_allS : forall nf na ss' ss, Forall2 ssim ss' ss -> forall m' m i acc' acc, ms m' m -> Forall2 asim acc' acc -> psim ms (Forall2 asim) (@attach_all B NB nf na m' i ss' acc') (@attach_all R NumR nf na m i ss acc).
Proof using CP WL.
  induction 1 as [|s' s ss' ss HS H IH]; intros m' m i acc' acc MS HA; cbn [attach_all]; [split; auto|]. destruct (attach_checkedS nf na m' m i s' s MS HS) as [K1 K2].
  destruct (attach_checked nf na m' i s') as [m1' [a'|x]], (attach_checked nf na m i s) as [m1 [a|y]]; try contradiction; cbn in K1, K2; [|split; auto]. apply IH; [exact K1|now apply putS].
Qed.
Theorem make_envS : forall m' m ss' ss, ms m' m -> Forall2 ssim ss' ss -> psim ms esim (@make_env B NB m' ss') (@make_env R NumR m ss).
Proof using CP WL.
  intros m' m ss' ss MS HS. unfold make_env. rewrite (ms_ag _ _ _ MS).
  assert (C : rsim ms (if 0 <? m_n_agents m then remove_agent_features m' else Ok m') (if 0 <? m_n_agents m then remove_agent_features m else Ok m)) by (destruct (0 <? m_n_agents m); [now apply remove_featuresS|exact MS]).
  destruct (if 0 <? m_n_agents m then remove_agent_features m' else Ok m') as [c'|x], (if 0 <? m_n_agents m then remove_agent_features m else Ok m) as [c|y]; try contradiction; [|split; [exact MS|exact C]]. cbn in C.
  rewrite (ms_nf _ _ _ C), (F2_length _ _ _ HS). destruct (attach_allS (m_n_features c) (length ss) ss' ss HS c' c 0 [] [] C (Forall2_nil _)) as [K1 K2].
  destruct (attach_all _ _ c' 0 ss' []) as [m1' [l'|x]], (attach_all _ _ c 0 ss []) as [m1 [l|y]]; try contradiction; cbn in K1, K2; split; auto. cbn. split; cbn; auto; [|apply (F2_length _ _ _ K2)].
  clear -HS. induction HS as [|a b l l' H _ IH]; [reflexivity|]. cbn. now rewrite IH, (ss_name _ _ H).
Qed.

(** ** Calls *)
Record alike (pl' : plugins B) (pl : plugins R) : Prop := {
  al_fit : forall e' e nm n s, esim e' e -> reachable pl e -> rsim fitsim (pl_fit pl' nm e' n s) (pl_fit pl nm e n s);
  al_pi : forall nm s q' q, q2 q' q -> pl_pi pl' nm s q' = pl_pi pl nm s q;
  al_pi_p : forall nm q' q, q2 q' q -> rsim alike_shape (pl_pi_p pl' nm q') (pl_pi_p pl nm q);
  al_forgets : forall nm, pl_forgets pl' nm = pl_forgets pl nm }.

Section Calls.
Variables (pl' : plugins B) (pl : plugins R).
Hypothesis AL : alike pl' pl.

Lemma policyS : forall a' a s, asim a' a -> psim asim eq (get_policy pl' a' s) (get_policy pl a s).
Proof using AL.
  intros a' a s AS. unfold get_policy. rewrite (as_name _ _ AS), (as_pi _ _ AS). pose proof (as_fit _ _ AS) as F. destruct (at_fit a') as [[v' q']|], (at_fit a) as [[v q]|]; try contradiction; [|split; [exact AS|reflexivity]]. destruct F as [_ F]. cbn in F.
  pose proof (get_pi_pS (pl_pi_p pl' (at_name a)) (pl_pi_p pl (at_name a)) q' q F (al_pi_p _ _ AL _ _ _ (cleanS _ _ F))) as K.
  destruct (get_pi_p _ q') as [p'|x], (get_pi_p _ q) as [p|y]; try contradiction; [|split; [exact AS|exact K]]. cbn in K.
  rewrite (get_piS (pl_pi pl' (at_name a) s) (pl_pi pl (at_name a) s) q' q F (al_pi _ _ AL _ _ _ _ (cleanS _ _ F))). destruct (get_pi _ q) as [pi|x]; (split; [|reflexivity]); cbn; now apply set_policyS.
Qed.
Lemma alg_fitS : forall e' e a' a n s, esim e' e -> reachable pl e -> asim a' a -> rsim fitsim (alg_fit pl' e' a' n s) (alg_fit pl e a n s).
Proof using AL WL.
  intros e' e a' a n s ES RE AS. unfold alg_fit. pose proof (es_mdp _ _ ES) as MS. rewrite (WL _ _ (as_reward _ _ AS)), (ms_nf _ _ _ MS), (as_name _ _ AS). destruct (negb _); [reflexivity|].
  apply (rsim_bind fitsim); [now apply (al_fit _ _ AL)|]. intros [v' q'] [v q] [F1 F2]. cbn in F1, F2. rewrite F1, (ms_n _ _ _ MS), (ms_na _ _ _ MS), (F2_length _ _ _ F2).
  rewrite (F2_forallb (Forall2 (fsim simv)) _ (fun row => length row =? m_n_actions (e_mdp e)) q' q); [|intros x y XY; now rewrite (F2_length _ _ _ XY)|exact F2].
  destruct (negb _); [reflexivity|]. destruct (negb _); [reflexivity|]. destruct (negb _); [reflexivity|]. split; auto.
Qed.
Lemma env_fitS : forall e' e nm n s s2, esim e' e -> reachable pl e -> psim esim eq (env_fit pl' e' nm n s s2) (env_fit pl e nm n s s2).
Proof using AL WL.
  intros e' e nm n s s2 ES RE. unfold env_fit. pose proof (lookupS _ _ nm ES) as L. destruct (lookup e' nm) as [a'|x], (lookup e nm) as [a|y]; try contradiction; [|split; [exact ES|exact L]]. cbn in L.
  pose proof (alg_fitS _ _ _ _ n s ES RE L) as K. destruct (alg_fit pl' e' a' n s) as [f'|x], (alg_fit pl e a n s) as [f|y]; try contradiction.
  - cbn in K. destruct (policyS _ _ s2 (set_fitS _ _ (Some f') (Some f) L K)) as [P1 P2]. destruct (get_policy pl' _ s2) as [b' r'], (get_policy pl _ s2) as [b r]. cbn in P1, P2. split; [now apply with_agentS|exact P2].
  - split; [|exact K]. cbn [fst]. unfold failed_fit. rewrite (WL _ _ (as_reward _ _ L)), (ms_nf _ _ _ (es_mdp _ _ ES)), (as_name _ _ L), (al_forgets _ _ AL). destruct (_ && _); [|exact ES]. apply with_agentS; [exact ES|]. now apply set_fitS.
Qed.
Lemma agent_stepS : forall m' m a' a s, ms m' m -> asim a' a -> psim mpair eq (@agent_step B NB pl' m' a' s) (@agent_step R NumR pl m a s).
Proof using AL CP.
  intros m' m a' a s MS AS. unfold agent_step. pose proof (as_fit _ _ AS) as F. destruct (at_fit a') as [f'|], (at_fit a) as [f|]; try contradiction; [|split; [split; auto|reflexivity]].
  destruct (policyS _ _ s AS) as [P1 P2]. destruct (get_policy pl' a' s) as [b' [u|x]], (get_policy pl a s) as [b [v|y]]; try contradiction; cbn in P1, P2; [|split; [split; auto|exact P2]].
  rewrite (as_pi _ _ P1). destruct (at_pi b) as [pi|]; [|split; [split; auto|reflexivity]]. rewrite (as_pos _ _ P1). destruct (let* i := _ in _) as [act|x]; [|split; [split; auto|reflexivity]]. destruct (act <? 0)%Z; [split; [split; auto|reflexivity]|].
  rewrite (next_stateS _ _ _ _ MS). destruct (get_next_state m (at_pos b) act) as [t|x]; [|split; [split; auto|reflexivity]].
  destruct (moveS _ _ _ _ (Z.of_nat t) MS P1) as [[Q1 Q2] Q3]. destruct (move_agent m' b' _) as [[m2' c'] [u'|x]], (move_agent m b _) as [[m2 c] [v'|y]]; try contradiction; cbn in Q1, Q2, Q3; [|split; [split; auto|exact Q3]].
  pose proof (set_histS _ _ (at_hist c ++ [at_pos c]) Q2) as H. rewrite (as_hist _ _ Q2), (as_pos _ _ Q2). cbv zeta.
  replace (at_idx (set_hist c' (at_hist c ++ [at_pos c]))) with (at_idx (set_hist c (at_hist c ++ [at_pos c]))) by (symmetry; apply (as_idx _ _ H)).
  replace (at_pos (set_hist c' (at_hist c ++ [at_pos c]))) with (at_pos (set_hist c (at_hist c ++ [at_pos c]))) by (symmetry; apply (as_pos _ _ H)).
  match goal with |- context[update_agent_feature m2 ?i ?p] => destruct (update_featureS m2' m2 i p Q1) as [U1 U2]; destruct (update_agent_feature m2' i p) as [m3' [u3|x]], (update_agent_feature m2 i p) as [m3 [v3|y]] end; try contradiction; cbn in U1, U2; (split; [split; auto|]); auto. reflexivity.
Qed.
Lemma consumeS : forall e' e a' a, esim e' e -> asim a' a -> psim esim eq (@env_consume B NB e' a') (@env_consume R NumR e a).
Proof using CP.
  intros e' e a' a ES AS. unfold env_consume. rewrite (as_consumes _ _ AS), (as_pos _ _ AS), (as_consumed _ _ AS). destruct (at_consumes a) as [|z l]; [split; [exact ES|reflexivity]|].
  unfold consume_features. rewrite (ms_nf _ _ _ (es_mdp _ _ ES)). destruct (consume_loopS (z :: l) (at_pos a) _ _ (repeat 0 (m_n_features (e_mdp e))) (es_mdp _ _ ES)) as [K1 K2].
  destruct (consume_loop (z :: l) (at_pos a) (e_mdp e') _) as [m1' [c'|x]], (consume_loop (z :: l) (at_pos a) (e_mdp e) _) as [m1 [c|y]]; try contradiction; cbn in K1, K2; [|split; [now apply with_mdpS|exact K2]]. subst c'.
  destruct (length (at_consumed a) =? length c); (split; [|reflexivity]); [|now apply with_mdpS]. apply with_agentS; [now apply with_mdpS|now apply set_consumedS].
Qed.
Lemma env_stepS : forall e' e nm s, esim e' e -> psim esim eq (@env_step B NB pl' e' nm s) (@env_step R NumR pl e nm s).
Proof using AL CP.
  intros e' e nm s ES. unfold env_step. pose proof (lookupS _ _ nm ES) as L. destruct (lookup e' nm) as [a'|x], (lookup e nm) as [a|y]; try contradiction; [|split; [exact ES|exact L]]. cbn in L.
  destruct (agent_stepS _ _ _ _ s (es_mdp _ _ ES) L) as [[P1 P2] P3]. destruct (agent_step pl' (e_mdp e') a' s) as [[m1' b'] [u|x]], (agent_step pl (e_mdp e) a s) as [[m1 b] [v|y]]; try contradiction; cbn in P1, P2, P3.
  - assert (E1 : esim (with_agent (with_mdp e' m1') b') (with_agent (with_mdp e m1) b)) by (apply with_agentS; [now apply with_mdpS|exact P2]).
    destruct (consumeS _ _ _ _ E1 P2) as [K1 K2]. destruct (env_consume (with_agent (with_mdp e' m1') b') b') as [e2' [u2|x]], (env_consume (with_agent (with_mdp e m1) b) b) as [e2 [v2|y]]; try contradiction; cbn in K1, K2; [|split; auto].
    split; [now apply tickS|]. cbn. apply (as_pos _ _ P2).
  - split; [|exact P3]. apply with_agentS; [now apply with_mdpS|exact P2].
Qed.
Lemma caughtS : forall e' e a' a, esim e' e -> asim a' a -> caught e' a' = caught e a.
Proof using.
  intros e' e a' a ES AS. unfold caught. rewrite (as_consumes _ _ AS), (as_pos _ _ AS). induction (at_consumes a) as [|z l IH]; [reflexivity|]. cbn. rewrite IH. f_equal.
  apply (F2_existsb asim); [|apply ES]. intros x y XY. now rewrite (as_fidx _ _ XY), (as_pos _ _ XY).
Qed.
Lemma n_stepsS : forall e' e nm, esim e' e -> all_n_steps e' nm = all_n_steps e nm.
Proof using.
  intros e' e nm ES. unfold all_n_steps. rewrite (es_names _ _ ES). set (l := nm :: _). clearbody l. induction l as [|x l IH]; [reflexivity|]. cbn [mapM]. pose proof (findS _ _ x (es_agents _ _ ES)) as F.
  destruct (find_agent (e_agents e') x) as [a'|], (find_agent (e_agents e) x) as [a|]; try contradiction; [|reflexivity]. cbn in F. now rewrite IH, (as_moves _ _ F).
Qed.
Lemma loopE : forall nm refit stop nt ns plan rnd todo e' e i acc, esim e' e -> reachable pl e ->
  psim esim eq (@multi_loop B NB pl' e' nm refit stop nt ns plan rnd i todo acc) (@multi_loop R NumR pl e nm refit stop nt ns plan rnd i todo acc).
Proof using AL CP WL.
  intros nm refit stop nt ns plan rnd todo. induction todo as [|todo IH]; intros e' e i acc ES RE; cbn [multi_loop]; [split; [exact ES|reflexivity]|].
  assert (K : psim esim eq (refit_step pl' e' nm refit i nt ns plan (rnd (3 * i)) (rnd (3 * i + 1))) (refit_step pl e nm refit i nt ns plan (rnd (3 * i)) (rnd (3 * i + 1))) /\ reachable pl (fst (refit_step pl e nm refit i nt ns plan (rnd (3 * i)) (rnd (3 * i + 1))))).
  { unfold refit_step. destruct refit; [|split; [split; [exact ES|reflexivity]|exact RE]]. destruct (step_plan i nt ns plan) as [p|x]; [|split; [split; [exact ES|reflexivity]|exact RE]]. split; [now apply env_fitS|].
    apply (reach_op pl e (OFit nm (Some p) (rnd (3 * i)) (rnd (3 * i + 1))) RE). }
  destruct K as [[K1 K2] K3]. destruct (refit_step pl' e' nm refit i nt ns plan _ _) as [e1' [u|x]], (refit_step pl e nm refit i nt ns plan _ _) as [e1 [v|y]]; try contradiction; cbn in K1, K2, K3; [|split; auto].
  destruct (env_stepS _ _ nm (rnd (3 * i + 2)) K1) as [S1 S2]. pose proof (reach_op pl e1 (OStep nm (rnd (3 * i + 2))) K3) as R2. cbn [do_op] in R2.
  destruct (env_step pl' e1' nm _) as [e2' [p'|x]], (env_step pl e1 nm _) as [e2 [p|y]]; try contradiction; cbn in S1, S2, R2; [|split; auto]. subst p'.
  pose proof (findS _ _ nm (es_agents _ _ S1)) as F.
  assert (C : match find_agent (e_agents e2') nm with Some a => caught e2' a | None => false end = match find_agent (e_agents e2) nm with Some a => caught e2 a | None => false end).
  { destruct (find_agent (e_agents e2') nm) as [a'|], (find_agent (e_agents e2) nm) as [a|]; try contradiction; [|reflexivity]. now apply caughtS. }
  cbv zeta. rewrite C. destruct (_ && stop); [split; [exact S1|reflexivity]|]. now apply IH.
Qed.
Lemma step_multiS : forall e' e nm k plan nt refit stop rnd, esim e' e -> reachable pl e -> psim esim eq (@step_multi B NB pl' e' nm k plan nt refit stop rnd) (@step_multi R NumR pl e nm k plan nt refit stop rnd).
Proof using AL CP WL.
  intros e' e nm k plan nt refit stop rnd ES RE. unfold step_multi. pose proof (lookupS _ _ nm ES) as L. destruct (lookup e' nm) as [a'|x], (lookup e nm) as [a|y]; try contradiction; [|split; [exact ES|exact L]]. cbn in L.
  rewrite (n_stepsS _ _ nm ES). destruct (all_n_steps e nm) as [ns|x]; [|split; [exact ES|reflexivity]]. rewrite (F2_length _ _ _ (es_agents _ _ ES)), (as_moves _ _ L). cbv zeta.
  destruct (negb _); [split; [exact ES|reflexivity]|]. destruct k as [|z|[|z k]|]; try (split; [exact ES|reflexivity]); (destruct (negb _); [split; [exact ES|reflexivity]|]); try (split; [exact ES|reflexivity]); now apply loopE.
Qed.
Lemma reset_agentsS : forall l' l, Forall2 asim l' l -> forall e' e, esim e' e -> psim esim eq (@reset_agents B NB e' l') (@reset_agents R NumR e l).
Proof using CP.
  induction 1 as [|a' a l' l AA H IH]; intros e' e ES; cbn [reset_agents]; [split; [exact ES|reflexivity]|]. rewrite (as_start _ _ AA). destruct (moveS _ _ _ _ (at_start a) (es_mdp _ _ ES) AA) as [[Q1 Q2] Q3].
  destruct (move_agent (e_mdp e') a' _) as [[m1' b'] [u|x]], (move_agent (e_mdp e) a _) as [[m1 b] [v|y]]; try contradiction; cbn in Q1, Q2, Q3; [|split; [now apply with_mdpS|exact Q3]].
  apply IH. rewrite (as_start _ _ Q2). apply with_agentS; [now apply with_mdpS|]. apply set_histS, set_policyS; [exact Q2|exact I].
Qed.
Lemma env_resetS : forall e' e, esim e' e -> psim esim eq (@env_reset B NB e') (@env_reset R NumR e).
Proof using CP.
  intros e' e ES. unfold env_reset. destruct (reset_agentsS _ _ (es_agents _ _ ES) _ _ ES) as [K1 K2]. destruct (reset_agents e' _) as [e1' [u|x]], (reset_agents e _) as [e1 [v|y]]; try contradiction; cbn in K1, K2; [|split; auto].
  pose proof (set_featuresS sim _ _ _ _ (es_mdp _ _ K1) (ms_of _ _ _ (es_mdp _ _ K1))) as K. unfold reset_mdp. destruct (set_features (e_mdp e1') _) as [m'|x], (set_features (e_mdp e1) _) as [m|y]; try contradiction; (split; [|try exact K; reflexivity]); auto. now apply with_mdpS.
Qed.
Lemma set_positionS : forall e' e nm p, esim e' e -> psim esim eq (@set_agent_position B NB e' nm p) (@set_agent_position R NumR e nm p).
Proof using CP.
  intros e' e nm p ES. unfold set_agent_position. pose proof (lookupS _ _ nm ES) as L. destruct (lookup e' nm) as [a'|x], (lookup e nm) as [a|y]; try contradiction; [|split; [exact ES|exact L]]. cbn in L.
  destruct (moveS _ _ _ _ p (es_mdp _ _ ES) L) as [[Q1 Q2] Q3]. destruct (move_agent (e_mdp e') a' p) as [[m1' b'] r'], (move_agent (e_mdp e) a p) as [[m1 b] r]. cbn in *. split; [|exact Q3]. apply with_agentS; [now apply with_mdpS|exact Q2].
Qed.
Lemma interactiveS : forall e' e names n, esim e' e -> psim esim eq (step_multi_interactive e' names n) (step_multi_interactive e names n).
Proof using.
  intros e' e names n ES. unfold step_multi_interactive. destruct n as [[|row rows]|]; try (split; [exact ES|reflexivity]). rewrite (es_names _ _ ES). cbv zeta. set (l := match names with Some l => l | None => e_names e end). clearbody l.
  assert (K : rsim (fun _ _ => True) (mapM (fun nm => lookup e' nm) l) (mapM (fun nm => lookup e nm) l)).
  { induction l as [|x l IH]; [exact I|]. cbn [mapM]. apply (rsim_bind asim); [now apply lookupS|]. intros a b _. eapply rsim_bind; [exact IH|]. intros; exact I. }
  destruct (mapM _ l) as [u|x], (mapM (fun nm => lookup e nm) l) as [v|y]; try contradiction; [|split; [exact ES|exact K]]. destruct (_ || _); split; auto; reflexivity.
Qed.

(** The same call; [step_proba] is left out. *)
Inductive osame : op B -> op R -> Prop :=
| os_fit : forall nm n s s2, osame (OFit nm n s s2) (OFit nm n s s2)
| os_step : forall nm s, osame (OStep nm s) (OStep nm s)
| os_multi : forall nm k p t rf st rnd, osame (OStepMulti nm k p t rf st rnd) (OStepMulti nm k p t rf st rnd)
| os_interactive : forall l n, osame (OInteractive l n) (OInteractive l n)
| os_position : forall nm p, osame (OSetPosition nm p) (OSetPosition nm p)
| os_walls : forall w' w, Forall2 sim w' w -> osame (OSetWalls w') (OSetWalls w)
| os_reset : osame OReset OReset.
Lemma do_opS : forall e' e o' o, esim e' e -> reachable pl e -> osame o' o -> esim (@do_op B NB pl' e' o') (@do_op R NumR pl e o).
Proof using AL CP WL.
  intros e' e o' o ES RE H. destruct H; cbn [do_op].
  - now apply env_fitS.
  - now apply env_stepS.
  - now apply step_multiS.
  - now apply interactiveS.
  - now apply set_positionS.
  - pose proof (set_wallsS NB sim ro M CP _ _ _ _ (es_mdp _ _ ES) H) as K. destruct (set_walls (e_mdp e') w') as [m'|x], (set_walls (e_mdp e) w) as [m|y]; try contradiction; [now apply with_mdpS|exact ES].
  - now apply env_resetS.
Qed.
Theorem runS : forall l' l, Forall2 osame l' l -> forall e' e, esim e' e -> reachable pl e -> esim (@run B NB pl' e' l') (@run R NumR pl e l) /\ reachable pl (@run R NumR pl e l).
Proof using AL CP WL.
  induction 1 as [|o' o l' l HO H IH]; intros e' e ES RE; [split; auto|]. cbn [run fold_left]. apply IH; [now apply do_opS|now apply reach_op].
Qed.
End Calls.
End Sim.
