(** Properties C107-C108: arrays given by the caller, and MDPs made from the same arrays. *)
From Coq Require Import String List ZArith QArith Reals Bool Lia Lra.
From Verif Require Import PyBase PyProofs GridModel MDPModel MDPProps ActionModel EnvModel EnvProps WorldModel WorldProofs WorldProofs2 WorldProofs3 WorldProps.
Import ListNotations.
Local Close Scope Q_scope. Local Close Scope R_scope.
Local Open Scope nat_scope.

Section World.
Context {A : Type} {NA : Num A}.
Implicit Types (e : env A) (w : world A).

Definition consumes_directly (c : call A) : Prop := match c with CConsume _ _ _ => True | _ => False end.
Definition clears_walls (c : call A) : Prop := match c with CClearWalls _ => True | _ => False end.

Lemma made_more : forall feats walls agents pls l c w, made (A:=A) feats walls agents pls (l ++ [c]) w ->
  exists w0, made feats walls agents pls l w0 /\ w = do_call pls w0 c /\ from_given (length feats) c.
Proof.
  intros feats walls agents pls l c w [F ->]. apply Forall_app in F. destruct F as [F1 F2]. inversion F2. subst. exists (calls pls (start feats walls agents) l). split; [split; auto|]. split; [|assumption]. rewrite calls_app. reflexivity.
Qed.

(** What a call on an environment does to a table: nothing, unless it is the table of its MDP and the
    environment has agents. *)
Lemma env_call_feats : forall n pl w j eo mo e o f, sane n w -> nth_error (w_envs w) j = Some eo -> nth_error (w_mdps w) (eo_mdp eo) = Some mo -> see_env w eo = Some e ->
  f < length (w_feats w) -> f <> mo_feat mo \/ e_agents e = [] -> nth f (w_feats (env_call pl w j eo mo e o)) [] = nth f (w_feats w) [].
Proof.
  intros n pl w j eo mo e o f S Ej Em Es Lf D. destruct (see_env_mdp _ _ _ _ Em Es) as (_ & EF & _).
  assert (K : forall m, m_features m = m_features (e_mdp e) \/ e_agents e <> [] -> nth f (upd (w_feats w) (mo_feat mo) (m_features m)) [] = nth f (w_feats w) []).
  { intros m [X|X]; [rewrite X, EF, upd_id; reflexivity|]. destruct D as [D|D]; [now apply nth_upd_other|now elim X]. }
  assert (DE : e_agents e = [] \/ e_agents e <> []) by (destruct (e_agents e); [left; reflexivity|right; discriminate]).
  assert (K' : o <> OReset -> nth f (upd (w_feats w) (mo_feat mo) (m_features (e_mdp (do_op pl e o)))) [] = nth f (w_feats w) []).
  { intros NR. apply K. destruct DE as [DE|DE]; [|right; exact DE]. destruct (op_no_agents pl e o DE) as [X|X]; [left; exact X|congruence]. }
  destruct o; cbn [env_call put_env put_mdp w_feats]; try (apply K'; discriminate).
  - destruct (set_walls (e_mdp e) walls); reflexivity.
  - assert (KR : nth f (upd (w_feats w) (mo_feat mo) (m_features (e_mdp (fst (reset_agents e (e_agents e)))))) [] = nth f (w_feats w) []).
    { apply K. destruct DE as [DE|DE]; [left; rewrite DE; reflexivity|right; exact DE]. }
    destruct (reset_agents e (e_agents e)) as [e1 [u|x]]; [|exact KR]. destruct (reset_mdp (e_mdp e1)) as [m|x]; [|exact KR].
    cbn [put_env new_table put_mdp w_feats]. rewrite app_nth1 by (now rewrite upd_length). exact KR.
Qed.
Lemma env_call_walls : forall pl w j eo mo e o r, r < length (w_walls w) -> nth r (w_walls (env_call pl w j eo mo e o)) [] = nth r (w_walls w) [].
Proof.
  intros. destruct o; cbn [env_call put_env put_mdp w_walls]; try reflexivity.
  - destruct (set_walls (e_mdp e) walls); [|reflexivity]. cbn. now apply nth_app_old.
  - destruct (reset_agents e (e_agents e)) as [e1 [u|x]]; [|reflexivity]. destruct (reset_mdp (e_mdp e1)); reflexivity.
Qed.
Lemma new_env_feats : forall w i mo ss m' r f, nth_error (w_mdps w) i = Some mo -> make_env (see_mdp w mo) ss = (m', r) -> f < length (w_feats w) ->
  nth f (w_feats (if (m_n_agents (see_mdp w mo) =? 0) && (length (m_features m') =? length (m_features (see_mdp w mo))) then put_mdp w i mo m' else new_table w i mo m')) [] = nth f (w_feats w) [].
Proof.
  intros w i mo ss m' r f Em ME Lf. destruct (_ && _) eqn:X; [|now apply nth_app_old]. apply andb_prop in X. destruct X as [X1 X2]. apply Nat.eqb_eq in X1, X2.
  destruct (make_env_features _ _ _ _ ME X1) as [[F _]|F]; [|lia]. cbn [put_mdp w_feats]. rewrite F. cbn [see_mdp with_walls with_features m_features]. now rewrite upd_id.
Qed.

(** ** C107: the caller's arrays *)
(** The feature arrays keep their contents, unless features are consumed by calls on an MDP directly. *)
Theorem C107_features_partial : forall feats walls agents pls l w f, made feats walls agents pls l w -> Forall (fun c => ~ consumes_directly c) l ->
  f < length feats -> nth f (w_feats w) [] = nth f feats [].
Proof.
  intros feats walls agents pls l. induction l as [|c l IH] using rev_ind; intros w f MD NC Lf; [destruct MD as [_ ->]; reflexivity|].
  apply made_more in MD. destruct MD as (w0 & MD & -> & FG). apply Forall_app in NC. destruct NC as [NC NC0]. inversion NC0 as [|? ? N0 _]. subst. rewrite <- (IH _ f MD NC Lf). pose proof (made_sane _ _ _ _ _ _ MD) as S.
  assert (Lf' : f < length (w_feats w0)) by (pose proof (s_n _ _ S); lia). clear IH.
  destruct c as [k ft wl shape st|i cl|j o|i r|i x y|i|i fs s|i]; cbn [do_call].
  - destruct (nth_error (w_feats w0) ft); [|reflexivity]. destruct wl as [r|]; [destruct (nth_error (w_walls w0) r); cbn [option_map]; [|reflexivity]|]; (destruct (grid_mdp _ _ _ _ _); reflexivity).
  - destruct (nth_error (w_mdps w0) i) as [mo|] eqn:Em; [|reflexivity]. destruct (entry_specs w0 cl) as [ss|]; [|reflexivity]. cbv zeta. destruct (make_env (see_mdp w0 mo) ss) as [m' r] eqn:ME.
    destruct r; exact (new_env_feats _ _ _ _ _ _ f Em ME Lf').
  - destruct (nth_error (w_envs w0) j) as [eo|] eqn:Ej; [|reflexivity]. destruct (nth_error (w_mdps w0) (eo_mdp eo)) as [mo|] eqn:Em; [|reflexivity]. destruct (see_env w0 eo) as [e|] eqn:Es; [|reflexivity].
    eapply env_call_feats; eauto. destruct (s_env _ _ S _ _ Ej) as (mo' & Em' & H). assert (mo' = mo) by congruence. subst mo'. destruct (see_env_names _ _ _ Es) as [_ EA].
    destruct (e_agents (eo_attrs eo)) eqn:X; [right; now apply EA|left; intros Y; specialize (H ltac:(discriminate)); lia].
  - destruct (nth_error (w_mdps w0) i); [|reflexivity]. destruct (nth_error (w_walls w0) r); [|reflexivity]. destruct (set_walls _ _); reflexivity.
  - destruct (nth_error (w_mdps w0) i); [|reflexivity]. destruct (add_wall_xy _ _ _); reflexivity.
  - destruct (nth_error (w_mdps w0) i); [|reflexivity]. cbv zeta. destruct (reset_walls _); reflexivity.
  - elim N0. exact I.
  - destruct (nth_error (w_mdps w0) i); [|reflexivity]. destruct (reset_mdp _); [|reflexivity]. cbn. now apply nth_app_old.
Qed.

(** The same, as C180: a property of its own. *)
Theorem C180_features : forall feats walls agents pls l w f, made feats walls agents pls l w -> Forall (fun c => ~ consumes_directly c) l ->
  f < length feats -> nth f (w_feats w) [] = nth f feats [].
Proof. exact (@C107_features_partial). Qed.
Lemma walls_grow : forall pls w c, length (w_walls w) <= length (w_walls (do_call (A:=A) pls w c)).
Proof.
  intros pls w c. destruct c as [k ft wl shape st|i cl|j o|i r|i x y|i|i fs s|i]; cbn [do_call].
  - destruct (nth_error (w_feats w) ft); [|lia]. destruct wl as [r|]; [destruct (nth_error (w_walls w) r); cbn [option_map]; [|lia]|]; (destruct (grid_mdp _ _ _ _ _); cbn; rewrite ?app_length; lia).
  - destruct (nth_error (w_mdps w) i) as [mo|] eqn:Em; [|lia]. destruct (entry_specs w cl) as [ss|]; [|lia]. cbv zeta. destruct (make_env (see_mdp w mo) ss) as [m' [e|x]]; destruct (_ && _); cbn; lia.
  - destruct (nth_error (w_envs w) j) as [eo|] eqn:Ej; [|lia]. destruct (nth_error (w_mdps w) (eo_mdp eo)) as [mo|] eqn:Em; [|lia]. destruct (see_env w eo) as [e|] eqn:Es; [|lia].
    destruct o; cbn [env_call put_env put_mdp w_walls]; try lia.
    + destruct (set_walls (e_mdp e) walls); [|lia]. cbn. rewrite app_length. lia.
    + destruct (reset_agents e (e_agents e)) as [e1 [u|x]]; [|cbn; lia]. destruct (reset_mdp (e_mdp e1)); cbn; lia.
  - destruct (nth_error (w_mdps w) i); [|lia]. destruct (nth_error (w_walls w) r); [|lia]. destruct (set_walls _ _); cbn; lia.
  - destruct (nth_error (w_mdps w) i); [|lia]. destruct (add_wall_xy _ _ _); cbn; rewrite ?app_length; lia.
  - destruct (nth_error (w_mdps w) i); [|lia]. cbv zeta. destruct (reset_walls _); cbn; rewrite upd_length; lia.
  - destruct (nth_error (w_mdps w) i); [|lia]. cbn. lia.
  - destruct (nth_error (w_mdps w) i); [|lia]. destruct (reset_mdp _); cbn; lia.
Qed.
(** The arrays of walls keep their contents, unless [reset_walls] is called. *)
Theorem C107_walls_partial : forall feats walls agents pls l w r, made feats walls agents pls l w -> Forall (fun c => ~ clears_walls c) l ->
  r < length walls -> nth r (w_walls w) [] = nth r walls [].
Proof.
  intros feats walls agents pls l w r MD NC Lr. cut (nth r (w_walls w) [] = nth r walls [] /\ length walls <= length (w_walls w)); [tauto|]. revert w MD NC.
  induction l as [|c l IH] using rev_ind; intros w MD NC; [destruct MD as [_ ->]; cbn; auto|].
  apply made_more in MD. destruct MD as (w0 & MD & -> & FG). apply Forall_app in NC. destruct NC as [NC NC0]. inversion NC0 as [|? ? N0 _]. subst. destruct (IH _ MD NC) as [<- LW]. assert (Lr' : r < length (w_walls w0)) by lia. clear IH.
  split; [|pose proof (walls_grow pls w0 c); lia].
  destruct c as [k ft wl shape st|i cl|j o|i r'|i x y|i|i fs s|i]; cbn [do_call].
  - destruct (nth_error (w_feats w0) ft); [|reflexivity]. destruct wl as [r'|]; [destruct (nth_error (w_walls w0) r'); cbn [option_map]; [|reflexivity]|]; (destruct (grid_mdp _ _ _ _ _); [|reflexivity]); cbn; [reflexivity|now apply nth_app_old].
  - destruct (nth_error (w_mdps w0) i) as [mo|] eqn:Em; [|reflexivity]. destruct (entry_specs w0 cl) as [ss|]; [|reflexivity]. cbv zeta. destruct (make_env (see_mdp w0 mo) ss) as [m' [e|x]]; destruct (_ && _); reflexivity.
  - destruct (nth_error (w_envs w0) j) as [eo|] eqn:Ej; [|reflexivity]. destruct (nth_error (w_mdps w0) (eo_mdp eo)) as [mo|] eqn:Em; [|reflexivity]. destruct (see_env w0 eo) as [e|] eqn:Es; [|reflexivity].
    now apply env_call_walls.
  - destruct (nth_error (w_mdps w0) i); [|reflexivity]. destruct (nth_error (w_walls w0) r'); [|reflexivity]. destruct (set_walls _ _); reflexivity.
  - destruct (nth_error (w_mdps w0) i); [|reflexivity]. destruct (add_wall_xy _ _ _); [|reflexivity]. cbn. now apply nth_app_old.
  - elim N0. exact I.
  - destruct (nth_error (w_mdps w0) i); reflexivity.
  - destruct (nth_error (w_mdps w0) i); [|reflexivity]. destruct (reset_mdp _); reflexivity.
Qed.

(** The same, as C180: a property of its own. *)
Theorem C180_walls : forall feats walls agents pls l w r, made feats walls agents pls l w -> Forall (fun c => ~ clears_walls c) l ->
  r < length walls -> nth r (w_walls w) [] = nth r walls [].
Proof. exact (@C107_walls_partial). Qed.

(** ** C108: MDPs made from the same arrays *)
Definition same_table w (i i' : nat) : Prop := exists o o', nth_error (w_mdps w) i = Some o /\ nth_error (w_mdps w) i' = Some o' /\ mo_feat o = mo_feat o'.
(** Call [c] is made on MDP [i], or on an environment with that MDP, or it clears walls or consumes features
    kept in an array of MDP [i]. *)
Definition touches w (c : call A) (i : nat) : Prop :=
  match c with
  | CMdp _ _ _ _ _ => False
  | CEnv i' _ | CWalls i' _ | CAddWall i' _ _ | CReset i' => i' = i
  | CConsume i' _ _ => same_table w i' i
  | CClearWalls i' => same_walls w i' i
  | COp j _ => on_mdp w j i
  end.
Lemma same_mdp_view : forall w w' i mo, nth_error (w_mdps w) i = Some mo -> nth_error (w_mdps w') i = Some mo ->
  nth (mo_feat mo) (w_feats w') [] = nth (mo_feat mo) (w_feats w) [] -> nth (mo_wall mo) (w_walls w') [] = nth (mo_wall mo) (w_walls w) [] -> mdp_at w' i = mdp_at w i.
Proof. intros w w' i mo E E' EF EW. unfold mdp_at. rewrite E, E'. cbn. unfold see_mdp. now rewrite EF, EW. Qed.

Theorem C108_apart_partial : forall feats walls agents pls l w i m c, made feats walls agents pls l w -> mdp_at w i = Some m -> ~ touches w c i ->
  mdp_at (do_call pls w c) i = Some m.
Proof.
  intros feats walls agents pls l w i m c MD HM NT. pose proof (made_sane _ _ _ _ _ _ MD) as S. rewrite <- HM. unfold mdp_at in HM. destruct (nth_error (w_mdps w) i) as [mo|] eqn:Em; [|discriminate]. clear HM.
  destruct (s_mdp _ _ S _ _ Em) as [LF LW]. pose proof (nth_error_lt _ _ _ _ Em) as Li.
  destruct c as [k ft wl shape st|i' cl|j o|i' r|i' x y|i'|i' fs s|i']; cbn [do_call].
  - destruct (nth_error (w_feats w) ft); [|reflexivity]. destruct wl as [r|]; [destruct (nth_error (w_walls w) r); cbn [option_map]; [|reflexivity]|]; (destruct (grid_mdp _ _ _ _ _); [|reflexivity]); eapply same_mdp_view; eauto; cbn; try (now rewrite nth_error_app1). now apply nth_app_old.
  - destruct (nth_error (w_mdps w) i') as [mo'|] eqn:Em'; [|reflexivity]. destruct (entry_specs w cl) as [ss|]; [|reflexivity]. cbv zeta. destruct (make_env (see_mdp w mo') ss) as [m' r] eqn:ME.
    assert (D : i <> i') by (intros X; apply NT; cbn; auto). pose proof (new_env_feats _ _ _ _ _ _ _ Em' ME LF) as NF.
    destruct r; (eapply same_mdp_view; eauto; [|cbn; destruct (_ && _); reflexivity]); cbn; destruct (_ && _); cbn; now rewrite nth_error_upd_other.
  - destruct (nth_error (w_envs w) j) as [eo|] eqn:Ej; [|reflexivity]. destruct (nth_error (w_mdps w) (eo_mdp eo)) as [mo'|] eqn:Em'; [|reflexivity]. destruct (see_env w eo) as [e|] eqn:Es; [|reflexivity].
    assert (D : i <> eo_mdp eo) by (intros X; apply NT; exists eo; auto).
    eapply same_mdp_view; eauto.
    + destruct o; cbn [env_call put_env put_mdp w_mdps]; try (now rewrite nth_error_upd_other).
      * destruct (set_walls (e_mdp e) walls0); cbn; [now rewrite nth_error_upd_other|exact Em].
      * destruct (reset_agents e (e_agents e)) as [e1 [u|x]]; [destruct (reset_mdp (e_mdp e1))|]; cbn; now rewrite !nth_error_upd_other.
    + eapply env_call_feats; eauto. destruct (s_env _ _ S _ _ Ej) as (mo2 & Em2 & H). assert (mo2 = mo') by congruence. subst mo2. destruct (see_env_names _ _ _ Es) as [_ EA].
      destruct (e_agents (eo_attrs eo)) eqn:X; [right; now apply EA|left; intros Y; specialize (H ltac:(discriminate))]. pose proof (s_own _ _ S _ _ _ _ D Em Em' Y). lia.
    + now apply env_call_walls.
  - destruct (nth_error (w_mdps w) i'); [|reflexivity]. destruct (nth_error (w_walls w) r); [|reflexivity]. destruct (set_walls _ _); [|reflexivity]. eapply same_mdp_view; eauto. cbn. rewrite nth_error_upd_other; [exact Em|]. intros X. apply NT. cbn. auto.
  - destruct (nth_error (w_mdps w) i'); [|reflexivity]. destruct (add_wall_xy _ _ _); [|reflexivity]. eapply same_mdp_view; eauto; cbn; [rewrite nth_error_upd_other; [exact Em|]; intros X; apply NT; cbn; auto|]. now apply nth_app_old.
  - destruct (nth_error (w_mdps w) i') as [mo'|] eqn:Em'; [|reflexivity]. cbv zeta. assert (D : i <> i') by (intros ->; apply NT; exists mo', mo'; auto).
    assert (DW : mo_wall mo <> mo_wall mo') by (intros X; apply NT; exists mo', mo; auto).
    destruct (reset_walls _); eapply same_mdp_view; eauto; cbn; try (now rewrite nth_error_upd_other); now apply nth_upd_other.
  - destruct (nth_error (w_mdps w) i') as [mo'|] eqn:Em'; [|reflexivity]. assert (D : i <> i') by (intros ->; apply NT; exists mo', mo'; auto).
    assert (DF : mo_feat mo <> mo_feat mo') by (intros X; apply NT; exists mo', mo; auto).
    eapply same_mdp_view; eauto; cbn; [now rewrite nth_error_upd_other|now apply nth_upd_other].
  - destruct (nth_error (w_mdps w) i') as [mo'|] eqn:Em'; [|reflexivity]. destruct (reset_mdp _); [|reflexivity].
    eapply same_mdp_view; eauto; cbn; [rewrite nth_error_upd_other; [exact Em|]; intros X; apply NT; cbn; auto|now apply nth_app_old].
Qed.

(** Consuming features of an MDP directly consumes them in every MDP with the same table. *)
Theorem C108_consume_refuted : forall feats walls agents pls l w i i' m m' fs s, made feats walls agents pls l w -> i <> i' -> mdp_at w i = Some m -> mdp_at w i' = Some m' -> same_table w i i' ->
  exists m2, mdp_at (do_call pls w (CConsume i fs s)) i' = Some m2 /\ m_features m2 = m_features (fst (consume_features m fs s)) /\ m_orig_features m2 = m_orig_features m'.
Proof.
  intros feats walls agents pls l w i i' m m' fs s MD D HM HM' (o & o' & E & E' & F). destruct (s_mdp _ _ (made_sane _ _ _ _ _ _ MD) _ _ E) as [LF _]. unfold mdp_at in HM, HM'. rewrite E in HM. rewrite E' in HM'. inversion HM. inversion HM'. subst m m'.
  cbn [do_call]. rewrite E. unfold mdp_at. cbn [put_mdp w_mdps]. rewrite nth_error_upd_other by auto. rewrite E'. cbn [option_map]. eexists. split; [reflexivity|]. split; [|reflexivity]. cbn. rewrite <- F. now rewrite nth_upd_same.
Qed.
End World.

(** ** Clearing walls *)
Lemma times_zero : forall l : list R, map (fun x => nmul x n0) l = repeat 0%R (length l).
Proof. induction l as [|x l IH]; cbn [map repeat length]; [reflexivity|]. rewrite IH. f_equal. change (x * 0 = 0)%R. lra. Qed.

(** [reset_walls] sets every entry of the array the MDP was made with to zero. *)
Theorem C107_clear_walls_refuted : forall feats walls agents pls l w k f r shape st m, made (A:=R) feats walls agents pls l w -> r < length (w_walls w) ->
  let i := length (w_mdps w) in let w1 := do_call pls w (CMdp k f (Some r) shape st) in mdp_at w1 i = Some m ->
  m_walls m = nth r (w_walls w) [] /\
  nth r (w_walls (do_call pls w1 (CClearWalls i))) [] = repeat 0%R (length (nth r (w_walls w) [])).
Proof.
  intros feats walls agents pls l w k f r shape st m MD Lr. cbv zeta. intros HM.
  assert (N : mdp_at w (length (w_mdps w)) = None). { unfold mdp_at. rewrite (proj2 (nth_error_None _ _)) by lia. reflexivity. }
  cbn [do_call] in *. destruct (nth_error (w_feats w) f) as [ft|]; [|rewrite N in HM; discriminate]. destruct (nth_error (w_walls w) r) as [wt|] eqn:Ew; cbn [option_map] in *; [|rewrite N in HM; discriminate].
  destruct (grid_mdp k ft (Some wt) shape st) as [m0|] eqn:GM; [|rewrite N in HM; discriminate]. cbn [w_mdps] in *. unfold mdp_at in HM. cbn [w_mdps] in HM. rewrite nth_error_app2, Nat.sub_diag in * by lia. cbn [nth_error option_map] in *. inversion HM. split; [reflexivity|].
  cbv zeta. destruct (reset_walls _); cbn; rewrite nth_upd_same by exact Lr; apply times_zero.
Qed.

(** Another MDP made from that array then shows no walls, although its transitions still have them. *)
Theorem C108_clear_walls_refuted : forall feats walls agents pls l w i i' m', made (A:=R) feats walls agents pls l w -> i <> i' -> mdp_at w i' = Some m' -> same_walls w i i' ->
  mdp_at (do_call pls w (CClearWalls i)) i' = Some (with_walls m' (repeat 0%R (length (m_walls m')))).
Proof.
  intros feats walls agents pls l w i i' m' MD D HM (o & o' & E & E' & F). destruct (s_mdp _ _ (made_sane _ _ _ _ _ _ MD) _ _ E) as [_ LW]. unfold mdp_at in HM. rewrite E' in HM. inversion HM. subst m'.
  cbn [do_call]. rewrite E. cbv zeta. unfold mdp_at. destruct (reset_walls _); cbn; rewrite ?nth_error_upd_other by auto; rewrite E'; cbn; f_equal; unfold see_mdp, with_walls, with_features; cbn; rewrite <- F, nth_upd_same by exact LW; now rewrite times_zero.
Qed.

(** For example: two MDPs with a wall at state 1, and an environment on the second one. *)
Definition shared_walls : list (call Q) :=
  [CMdp Square 0 (Some 0) (2, 2) false; CMdp Square 0 (Some 0) (2, 2) false; CEnv 1 [mkEntry 0 0%Z [1; 0; 0]%Q []]].
Example C108_walls_example : exists w m m', made [ex_ft] [[0; 1; 0; 0]%Q] [("p"%string, 1%Z)] (fun _ _ => ex_pl [2; 2; 2; 2]%Z) shared_walls w /\
  same_walls w 0 1 /\ mdp_at w 1 = Some m /\ mdp_at (do_call (fun _ _ => ex_pl [2; 2; 2; 2]%Z) w (CClearWalls 0)) 1 = Some m' /\
  m_walls m = [0; 1; 0; 0]%Q /\ m_walls m' = [0; 0; 0; 0]%Q /\ m_sas m' = m_sas m /\ state_valid_actions m' 0 = Ok [1] /\
  w_walls (do_call (fun _ _ => ex_pl [2; 2; 2; 2]%Z) w (CClearWalls 0)) = [[0; 0; 0; 0]%Q].
Proof.
  do 3 eexists. split; [split; [repeat constructor|reflexivity]|]. split; [do 2 eexists; vm_compute; repeat split|]. split; [vm_compute; reflexivity|]. split; [vm_compute; reflexivity|]. vm_compute. repeat split.
Qed.
(** Two MDPs made from the same features: consuming in one consumes in the other and in the caller's array. *)
Theorem C107_consume_refuted : exists w m m', made [ex_ft] [] [] (fun _ _ => ex_pl (A:=Q) [2; 2; 2; 2]%Z) [CMdp Square 0 None (2, 2) false; CMdp Square 0 None (2, 2) false] w /\
  same_table w 0 1 /\ mdp_at w 1 = Some m /\ nth 0 (m_features m) [] = [1; 0; 0; 1]%Q /\
  let w' := do_call (fun _ _ => ex_pl (A:=Q) [2; 2; 2; 2]%Z) w (CConsume 0 [0%Z] 3) in
  mdp_at w' 1 = Some m' /\ nth 0 (m_features m') [] = [1; 0; 0; 0]%Q /\ nth 0 (nth 0 (w_feats w') []) [] = [1; 0; 0; 0]%Q.
Proof.
  do 3 eexists. split; [split; [repeat constructor|reflexivity]|]. split; [do 2 eexists; vm_compute; repeat split|]. cbv zeta. vm_compute. repeat split.
Qed.
(** With an environment on each of them, nothing is shared: an agent that eats changes neither the array nor
    the other MDP. *)
Example C107_example : exists w m, made [ex_ft] [] [("p"%string, 1%Z); ("q"%string, 1%Z)] (fun _ _ => ex_pl (A:=Q) [2; 2; 2; 2]%Z)
    (two_envs ++ [COp 0 (OFit "p" None 0 0); COp 0 (OStep "p" 0)]) w /\ Forall (fun c => ~ consumes_directly c) (two_envs ++ [COp 0 (OFit "p" None 0 0); COp 0 (OStep "p" 0)]%string) /\
  mdp_at w 0 = Some m /\ nth 0 (m_features m) [] <> nth 0 ex_ft [] /\ nth 0 (w_feats w) [] = ex_ft /\ ~ touches w (COp 0 (OStep "p" 0)) 1.
Proof.
  do 2 eexists. split; [split; [repeat constructor|reflexivity]|]. split; [repeat constructor; intros []|]. split; [vm_compute; reflexivity|]. split; [vm_compute; discriminate|]. split; [vm_compute; reflexivity|].
  intros (o & E & F). vm_compute in E. inversion E. subst o. discriminate F.
Qed.
