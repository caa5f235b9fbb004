(** Properties C106-C110: several environments, MDPs and agents at the same time. *)
From Coq Require Import String List ZArith QArith Bool Lia.
From Verif Require Import PyBase PyProofs GridModel MDPModel MDPProps ActionModel EnvModel EnvProps WorldModel WorldProofs WorldProofs2 WorldProofs3.
Import ListNotations.
Local Close Scope Q_scope.
Local Open Scope nat_scope.

Section World.
Context {A : Type} {NA : Num A}.
Implicit Types (e : env A) (w : world A).

(** A program that starts with arrays and agents of its own and makes any calls; MDPs are made from its
    own feature arrays. *)
Definition made (feats : list (list (list A))) (walls : list (list A)) (agents : list (string * Z)) (pls : world A -> nat -> plugins A) (l : list (call A)) (w : world A) : Prop :=
  Forall (from_given (length feats)) l /\ w = calls pls (start feats walls agents) l.
Lemma made_sane : forall feats walls agents pls l w, made feats walls agents pls l w -> sane (length feats) w.
Proof. intros feats walls agents pls l w (F & ->). apply calls_sane; [apply start_sane|exact F]. Qed.

(** The agent objects in environment [j]. *)
Definition has_agent w (j r : nat) : Prop := exists o x, nth_error (w_envs w) j = Some o /\ In (x, r) (eo_agents o).
(** The MDP of environment [j]. *)
Definition on_mdp w (j i : nat) : Prop := exists o, nth_error (w_envs w) j = Some o /\ eo_mdp o = i.
(** MDPs [i] and [i'] keep the same array of walls. *)
Definition same_walls w (i i' : nat) : Prop := exists o o', nth_error (w_mdps w) i = Some o /\ nth_error (w_mdps w) i' = Some o' /\ mo_wall o = mo_wall o'.

(** Call [c] concerns environment [j]: it is made on its MDP, on an environment with the same MDP or an
    agent in common, or it clears walls kept in the same array. *)
Definition concerns w (c : call A) (j : nat) : Prop :=
  match c with
  | CMdp _ _ _ _ _ => False
  | CEnv i _ | CWalls i _ | CAddWall i _ _ | CConsume i _ _ | CReset i => on_mdp w j i
  | CClearWalls i => on_mdp w j i \/ exists i', on_mdp w j i' /\ same_walls w i i'
  | COp j' _ => (exists i, on_mdp w j' i /\ on_mdp w j i) \/ (exists r, has_agent w j' r /\ has_agent w j r)
  end.

Lemma agent_of_in : forall (o : env_obj A) x r, agent_of o x = Some r -> In (x, r) (eo_agents o).
Proof. intros o x r H. unfold agent_of in H. destruct (find _ _) as [p|] eqn:F; [|discriminate]. inversion H. subst. apply find_some in F. destruct F as [F1 F2]. apply String.eqb_eq in F2. subst x. destruct p. exact F1. Qed.
Lemma env_at_some : forall w j e, env_at w j = Some e -> exists o mo, nth_error (w_envs w) j = Some o /\ nth_error (w_mdps w) (eo_mdp o) = Some mo /\ see_env w o = Some e.
Proof. intros w j e H. unfold env_at in H. destruct (nth_error (w_envs w) j) as [o|] eqn:E; [|discriminate]. exists o. pose proof H as H'. unfold see_env in H'. destruct (nth_error (w_mdps w) (eo_mdp o)) as [mo|] eqn:E'; [|discriminate]. eauto. Qed.

(** The same environment is seen if its objects and the contents of what they refer to are the same. *)
Lemma same_view : forall w w' j o mo, nth_error (w_envs w) j = Some o -> nth_error (w_mdps w) (eo_mdp o) = Some mo ->
  nth_error (w_envs w') j = Some o -> nth_error (w_mdps w') (eo_mdp o) = Some mo ->
  nth (mo_feat mo) (w_feats w') [] = nth (mo_feat mo) (w_feats w) [] -> nth (mo_wall mo) (w_walls w') [] = nth (mo_wall mo) (w_walls w) [] ->
  (forall x r, In (x, r) (eo_agents o) -> nth_error (w_agents w') r = nth_error (w_agents w) r) -> env_at w' j = env_at w j.
Proof.
  intros w w' j o mo E1 E2 E1' E2' EF EW EA. unfold env_at. rewrite E1, E1'. unfold see_env. rewrite E2, E2'. f_equal. f_equal.
  - unfold see_mdp. now rewrite EF, EW.
  - apply map_ext. intros a. unfold see_fit. destruct (agent_of o (at_name a)) as [r|] eqn:Er; [|reflexivity]. now rewrite (EA _ _ (agent_of_in _ _ _ Er)).
Qed.

Lemma nth_app_old : forall B (l : list B) x i d, i < length l -> nth i (l ++ [x]) d = nth i l d.
Proof. intros. now rewrite app_nth1. Qed.

(** ** C106: an environment behaves as if it were alone *)

(** A call on an environment has the effect it would have if no other object existed. *)
Theorem C106_own : forall feats walls agents pls l w j e o, made feats walls agents pls l w -> env_at w j = Some e ->
  env_at (do_call pls w (COp j o)) j = Some (do_op (pls w j) e o).
Proof.
  intros feats walls agents pls l w j e o MD HE. pose proof (made_sane _ _ _ _ _ _ MD) as S. destruct (env_at_some _ _ _ HE) as (eo & mo & Ej & Em & Es).
  cbn [do_call]. rewrite Ej, Em, Es. destruct (see_env_mdp _ _ _ _ Em Es) as (_ & EF & EW). destruct (see_env_names _ _ _ Es) as [EN _].
  destruct (s_mdp _ _ S _ _ Em) as [LF LW]. pose proof (nth_error_lt _ _ _ _ Em) as Li. pose proof (nth_error_lt _ _ _ _ Ej) as Lj. destruct (s_names _ _ S _ _ Ej) as (ND & HA & HG).
  assert (AG : forall e' (ws : world A), names e' = names e -> w_agents ws = w_agents w ->
     map (see_fit (put_env ws j eo e') (mkEnvObj e' (eo_mdp eo) (eo_agents eo))) (e_agents e') = e_agents e').
  { intros e' ws N' WA. rewrite <- (map_id (e_agents e')) at 2. apply map_ext_in. intros a Ha. unfold see_fit, agent_of. cbn [eo_agents]. change (match find (fun p => String.eqb (fst p) (at_name a)) (eo_agents eo) with Some p => Some (snd p) | None => None end) with (agent_of eo (at_name a)).
    destruct (HA (at_name a)) as (r & Er). { rewrite <- EN, <- N'. now apply in_map. } rewrite Er. cbn [put_env w_agents]. rewrite WA. destruct (HG _ _ Er) as (g0 & G0 & _).
    destruct (puts_same eo (e_agents e') (w_agents w) a r) as (g & G & F); auto.
    - unfold names in N'. rewrite N'. unfold names in EN. rewrite EN. exact ND.
    - eapply nth_error_lt; eauto.
    - intros x y Hx Hy. destruct (HG _ _ Hx) as (g1 & G1 & <-). destruct (HG _ _ Hy) as (g2 & G2 & <-). congruence.
    - rewrite G, F. now destruct a. }
  assert (K : forall e', names e' = names e -> m_walls (e_mdp e') = m_walls (e_mdp e) -> env_at (put_env (put_mdp w (eo_mdp eo) mo (e_mdp e')) j eo e') j = Some e').
  { intros e' N' W'. unfold env_at. cbn [put_env w_envs put_mdp]. rewrite nth_error_upd_same by exact Lj. unfold see_env. cbn [eo_mdp put_env put_mdp w_mdps]. rewrite nth_error_upd_same by exact Li.
    f_equal. destruct e' as [m' nm' ag' na' ns']. cbn [eo_attrs e_names e_agents e_n_agents e_n_steps]. f_equal.
    - unfold see_mdp. cbn [mo_attrs mo_feat mo_wall put_env put_mdp w_feats w_walls e_mdp]. rewrite nth_upd_same by exact LF. cbn [e_mdp] in W'. rewrite <- EW, <- W'. destruct m'. reflexivity.
    - apply (AG (mkEnv m' nm' ag' na' ns')); auto. }
  destruct o; cbn [env_call]; try (apply K; [apply op_names|apply op_walls; discriminate]).
  - cbn [do_op]. destruct (set_walls (e_mdp e) walls0) as [m|x] eqn:SW; [|exact HE]. destruct (set_walls_keeps _ _ _ SW) as [W1 W2].
    unfold env_at. cbn [put_env w_envs use_walls new_walls]. rewrite nth_error_upd_same by exact Lj. unfold see_env. cbn [eo_mdp put_env use_walls new_walls w_mdps]. rewrite nth_error_upd_same by exact Li.
    f_equal. cbn [eo_attrs with_mdp e_names e_agents e_n_agents e_n_steps]. unfold with_mdp. f_equal.
    + unfold see_mdp. cbn [mo_attrs mo_feat mo_wall put_env use_walls new_walls w_feats w_walls e_mdp]. rewrite app_nth2, Nat.sub_diag by lia. cbn [nth]. rewrite <- EF, <- W1, <- W2. destruct m. reflexivity.
    + apply (AG (with_mdp e m)); auto.
  - cbn [do_op]. unfold env_reset. pose proof (reset_agents_names (e_agents e) e (or_introl (incl_refl _))) as N. pose proof (reset_agents_walls (e_agents e) e) as RW. destruct (reset_agents e (e_agents e)) as [e1 [u|x]]; cbn [fst] in *; [|now apply K].
    destruct (reset_mdp (e_mdp e1)) as [m|x] eqn:RM; cbn [fst]; [|now apply K].
    unfold env_at. cbn [put_env w_envs new_table put_mdp]. rewrite nth_error_upd_same by exact Lj. unfold see_env. cbn [eo_mdp put_env new_table put_mdp w_mdps]. rewrite nth_error_upd_same by (now rewrite upd_length).
    f_equal. cbn [eo_attrs with_mdp e_names e_agents e_n_agents e_n_steps]. unfold with_mdp. f_equal.
    + unfold see_mdp. cbn [mo_attrs mo_feat mo_wall put_env new_table put_mdp w_feats w_walls e_mdp]. rewrite app_nth2, Nat.sub_diag by lia. cbn [nth]. rewrite <- EW.
      apply reset_mdp_walls in RM. unfold walls_of in RW. rewrite <- RW, <- RM. destruct m. reflexivity.
    + apply (AG (with_mdp e1 m)); auto.
Qed.

(** No other call changes it, whatever was done before: only calls that concern the environment can. *)
Theorem C106_apart : forall feats walls agents pls l w j e c, made feats walls agents pls l w -> env_at w j = Some e -> e_agents e <> [] ->
  ~ concerns w c j -> env_at (do_call pls w c) j = Some e.
Proof.
  intros feats walls agents pls l w j e c MD HE NE NC. pose proof (made_sane _ _ _ _ _ _ MD) as S. destruct (env_at_some _ _ _ HE) as (eo & mo & Ej & Em & Es). rewrite <- HE.
  destruct (s_mdp _ _ S _ _ Em) as [LF LW]. pose proof (nth_error_lt _ _ _ _ Em) as Li. pose proof (nth_error_lt _ _ _ _ Ej) as Lj.
  assert (OWN : length feats <= mo_feat mo). { destruct (s_env _ _ S _ _ Ej) as (mo' & Em' & H). assert (mo' = mo) by congruence. subst. apply H. intros X. apply NE. now apply (see_env_names _ _ _ Es). }
  assert (ON : on_mdp w j (eo_mdp eo)) by (exists eo; auto).
  assert (DF : forall i mi, i <> eo_mdp eo -> nth_error (w_mdps w) i = Some mi -> mo_feat mi <> mo_feat mo). { intros i mi D E F. pose proof (s_own _ _ S _ _ _ _ D E Em F). lia. }
  destruct c as [k f wl shape st|i cl|j' o|i r|i x y|i|i fs s|i]; cbn [do_call].
  - destruct (nth_error (w_feats w) f) as [ft|]; [|reflexivity]. destruct wl as [r|].
    + destruct (nth_error (w_walls w) r) as [wt|]; cbn [option_map]; [|reflexivity]. destruct (grid_mdp _ _ _ _ _) as [m|]; [|reflexivity]. eapply same_view; eauto. cbn. now rewrite nth_error_app1.
    + destruct (grid_mdp _ _ _ _ _) as [m|]; [|reflexivity]. eapply same_view; eauto; cbn; [now rewrite nth_error_app1|]. now apply nth_app_old.
  - destruct (nth_error (w_mdps w) i) as [mi|] eqn:Ei; [|reflexivity]. destruct (entry_specs w cl) as [ss|]; [|reflexivity]. cbv zeta. destruct (make_env (see_mdp w mi) ss) as [m' r].
    assert (D : eo_mdp eo <> i) by (intros X; apply NC; cbn; now rewrite <- X). set (w1 := if _ && _ then _ else _).
    assert (V : nth_error (w_envs w1) j = Some eo /\ nth_error (w_mdps w1) (eo_mdp eo) = Some mo /\ nth (mo_feat mo) (w_feats w1) [] = nth (mo_feat mo) (w_feats w) [] /\ w_walls w1 = w_walls w /\ w_agents w1 = w_agents w).
    { unfold w1. destruct (_ && _); cbn [put_mdp new_table w_envs w_mdps w_feats w_walls w_agents]; rewrite nth_error_upd_other by exact D; repeat split; auto.
      - apply nth_upd_other. intros X. apply (DF i mi); auto.
      - now apply nth_app_old. }
    destruct V as (V1 & V2 & V3 & V4 & V5). destruct r as [e'|x]; eapply same_view; eauto; cbn; rewrite ?V4, ?V5; auto. now rewrite nth_error_app1 by (eapply nth_error_lt; eauto).
  - destruct (nth_error (w_envs w) j') as [eo'|] eqn:Ej'; [|reflexivity]. destruct (nth_error (w_mdps w) (eo_mdp eo')) as [mo'|] eqn:Em'; [|reflexivity]. destruct (see_env w eo') as [e'|] eqn:Es'; [|reflexivity].
    assert (D : eo_mdp eo <> eo_mdp eo'). { intros X. apply NC. left. exists (eo_mdp eo). split; [exists eo'; auto|exact ON]. }
    assert (DJ : j <> j') by (intros ->; apply D; congruence).
    assert (DA : forall x r, In (x, r) (eo_agents eo) -> forall e1, nth_error (fold_left (put_fit eo') (e_agents e1) (w_agents w)) r = nth_error (w_agents w) r).
    { intros x r Hr e1. apply puts_other. intros a _ Ea. apply NC. right. exists r. split; [exists eo', (at_name a); split; [exact Ej'|now apply agent_of_in]|exists eo, x; auto]. }
    assert (FF := DF _ _ (fun X => D (eq_sym X)) Em').
    assert (K : forall e1, env_at (put_env (put_mdp w (eo_mdp eo') mo' (e_mdp e1)) j' eo' e1) j = env_at w j).
    { intros e1. eapply same_view; eauto; cbn [put_env put_mdp w_envs w_mdps w_feats w_walls w_agents].
      - now rewrite nth_error_upd_other.
      - now rewrite nth_error_upd_other.
      - apply nth_upd_other. auto.
      - intros x r Hr. eapply DA. exact Hr. }
    destruct o; cbn [env_call]; try apply K.
    + destruct (set_walls (e_mdp e') walls0) as [m|x]; [|reflexivity]. eapply same_view; eauto; cbn [put_env use_walls new_walls w_envs w_mdps w_feats w_walls w_agents].
      * now rewrite nth_error_upd_other.
      * now rewrite nth_error_upd_other.
      * now apply nth_app_old.
      * intros x r Hr. eapply DA. exact Hr.
    + destruct (reset_agents e' (e_agents e')) as [e1 [u|x]]; [|apply K]. destruct (reset_mdp (e_mdp e1)) as [m|x]; [|apply K].
      eapply same_view; eauto; cbn [put_env new_table put_mdp w_envs w_mdps w_feats w_walls w_agents].
      * now rewrite nth_error_upd_other.
      * now rewrite !nth_error_upd_other.
      * rewrite nth_app_old by (now rewrite upd_length). apply nth_upd_other. auto.
      * intros x r Hr. eapply DA. exact Hr.
  - destruct (nth_error (w_mdps w) i) as [mi|] eqn:Ei; [|reflexivity]. destruct (nth_error (w_walls w) r); [|reflexivity]. destruct (set_walls _ _); [|reflexivity].
    eapply same_view; eauto. cbn. rewrite nth_error_upd_other; [exact Em|]. intros X. apply NC. cbn. now rewrite <- X.
  - destruct (nth_error (w_mdps w) i) as [mi|] eqn:Ei; [|reflexivity]. destruct (add_wall_xy _ _ _); [|reflexivity].
    eapply same_view; eauto; cbn; [rewrite nth_error_upd_other; [exact Em|]; intros X; apply NC; cbn; now rewrite <- X|]. now apply nth_app_old.
  - destruct (nth_error (w_mdps w) i) as [mi|] eqn:Ei; [|reflexivity]. cbv zeta. assert (D : eo_mdp eo <> i) by (intros X; apply NC; left; now rewrite <- X).
    assert (DW : mo_wall mo <> mo_wall mi). { intros X. apply NC. right. exists (eo_mdp eo). split; [exact ON|]. exists mi, mo. auto. }
    destruct (reset_walls _); eapply same_view; eauto; cbn; try (now rewrite nth_error_upd_other); now apply nth_upd_other.
  - destruct (nth_error (w_mdps w) i) as [mi|] eqn:Ei; [|reflexivity]. assert (D : eo_mdp eo <> i) by (intros X; apply NC; cbn; now rewrite <- X).
    eapply same_view; eauto; cbn; [now rewrite nth_error_upd_other|]. apply nth_upd_other. intros X. apply (DF i mi); auto.
  - destruct (nth_error (w_mdps w) i) as [mi|] eqn:Ei; [|reflexivity]. assert (D : eo_mdp eo <> i) by (intros X; apply NC; cbn; now rewrite <- X). destruct (reset_mdp _); [|reflexivity].
    eapply same_view; eauto; cbn; [now rewrite nth_error_upd_other|]. now apply nth_app_old.
Qed.

(** So any interleaving has the effect of the environment's own calls alone. [undisturbed]: at the time it
    is made, each call is a call on environment [j] or does not concern it. *)
Fixpoint undisturbed (pls : world A -> nat -> plugins A) w (j : nat) (l : list (call A)) : Prop :=
  match l with
  | [] => True
  | c :: r => ((exists o, c = COp j o) \/ ~ concerns w c j) /\ undisturbed pls (do_call pls w c) j r
  end.
Fixpoint own_ops (j : nat) (l : list (call A)) : list (op A) :=
  match l with
  | [] => []
  | COp j' o :: r => if j' =? j then o :: own_ops j r else own_ops j r
  | _ :: r => own_ops j r
  end.
Theorem C106_interleaved : forall feats walls agents pls l w j e pl l', made feats walls agents pls l w -> env_at w j = Some e -> e_agents e <> [] ->
  (forall w', pls w' j = pl) -> Forall (from_given (length feats)) l' -> undisturbed pls w j l' ->
  env_at (calls pls w l') j = Some (run pl e (own_ops j l')).
Proof.
  intros feats walls agents pls l w j e pl l' MD HE NE PL. revert l w e MD HE NE. induction l' as [|c l' IH]; intros l w e MD HE NE FG U; [exact HE|].
  inversion FG as [|? ? G0 FG']. subst. destruct U as [U0 U]. cbn [calls fold_left]. change (fold_left (do_call pls) l' (do_call pls w c)) with (calls pls (do_call pls w c) l').
  assert (MD' : made feats walls agents pls (l ++ [c]) (do_call pls w c)).
  { destruct MD as [F ->]. split; [apply Forall_app; auto|]. rewrite calls_app. reflexivity. }
  destruct U0 as [[o ->]|NC].
  - cbn [own_ops]. rewrite Nat.eqb_refl. cbn [run fold_left]. change (fold_left (do_op pl) (own_ops j l') (do_op pl e o)) with (run pl (do_op pl e o) (own_ops j l')).
    apply (IH _ _ _ MD'); auto.
    + rewrite <- (PL w). eapply C106_own; eauto.
    + intros X. apply NE. pose proof (op_names pl e o) as N. unfold names in N. rewrite X in N. symmetry in N. now apply map_eq_nil in N.
  - replace (own_ops j (c :: l')) with (own_ops j l').
    + apply (IH _ _ _ MD'); auto. eapply C106_apart; eauto.
    + destruct c as [| |j' o| | | | |]; try reflexivity. cbn [own_ops]. destruct (Nat.eqb_spec j' j) as [->|]; [|reflexivity]. exfalso. apply NC. left. destruct (env_at_some _ _ _ HE) as (eo & mo & Ej & _). exists (eo_mdp eo). split; exists eo; auto.
Qed.
End World.

(** Two environments made from the same feature array and used in turn. *)
Definition two_envs : list (call Q) :=
  [CMdp Square 0 None (2, 2) false; CMdp Square 0 None (2, 2) false;
   CEnv 0 [mkEntry 0 0%Z [1; 0; 0]%Q [0%Z]]; CEnv 1 [mkEntry 1 3%Z [0; 1; 0]%Q [1%Z]]].
Definition ex_use : list (call Q) := [COp 0 (OFit "p" None 0 0); COp 1 (OFit "q" None 0 0); COp 1 (OStep "q" 0); COp 0 (OStep "p" 0); COp 1 OReset].
Example C106_example : exists w e0 e1, made [ex_ft] [] [("p"%string, 1%Z); ("q"%string, 1%Z)] (fun _ _ => ex_pl [2; 2; 2; 2]%Z) two_envs w /\
  env_at w 0 = Some e0 /\ env_at w 1 = Some e1 /\ e_agents e0 <> [] /\ undisturbed (fun _ _ => ex_pl [2; 2; 2; 2]%Z) w 0 ex_use /\
  own_ops 0 ex_use = [OFit "p" None 0 0; OStep "p" 0]%string /\
  env_at (calls (fun _ _ => ex_pl [2; 2; 2; 2]%Z) w ex_use) 0 = Some (run (ex_pl [2; 2; 2; 2]%Z) e0 [OFit "p" None 0 0; OStep "p" 0]%string).
Proof.
  do 3 eexists. split; [split; [repeat constructor|reflexivity]|]. split; [vm_compute; reflexivity|]. split; [vm_compute; reflexivity|]. split; [discriminate|]. split; [|split; vm_compute; reflexivity].
  cbn [undisturbed ex_use].
  assert (K : forall w (o : op Q) o0 o1, nth_error (w_envs w) 0 = Some o0 -> nth_error (w_envs w) 1 = Some o1 -> eo_mdp o0 = 0 -> eo_mdp o1 = 1 -> map snd (eo_agents o0) = [0] -> map snd (eo_agents o1) = [1] -> ~ concerns w (COp 1 o) 0).
  { intros w o o0 o1 E0 E1 M0 M1 A0 A1 [(i & (x & X1 & X2) & (y & Y1 & Y2))|(r & (x & nx & X1 & X2) & (y & ny & Y1 & Y2))].
    - rewrite E1 in X1. rewrite E0 in Y1. inversion X1. inversion Y1. subst. congruence.
    - rewrite E1 in X1. rewrite E0 in Y1. inversion X1. inversion Y1. subst. apply (in_map snd) in X2, Y2. rewrite A1 in X2. rewrite A0 in Y2. cbn in X2, Y2. destruct X2 as [<-|[]]. destruct Y2 as [Y2|[]]. discriminate. }
  repeat split; try (left; eexists; reflexivity); right; eapply K; try (vm_compute; reflexivity).
Qed.
