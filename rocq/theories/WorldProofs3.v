(** Every call keeps the invariant of worlds; what each call does to arrays and other objects. *)
From Coq Require Import String List ZArith Bool Lia.
From Verif Require Import PyBase PyProofs GridModel MDPModel ActionModel EnvModel WorldModel WorldProofs WorldProofs2.
Import ListNotations.
Local Open Scope nat_scope.

Section World.
Context {A : Type} {NA : Num A}.
Implicit Types (e : env A) (a : attached A) (w : world A) (pl : plugins A).

(** ** Pieces of calls *)
Lemma sane_put_mdp : forall n w i mo m, sane n w -> nth_error (w_mdps w) i = Some mo -> sane n (put_mdp w i mo m).
Proof.
  intros n w i mo m S E. pose proof (nth_error_lt _ _ _ _ E) as Li. destruct S as [S1 S2 S3 S4 S5]. constructor; cbn [put_mdp w_feats w_walls w_mdps w_envs w_agents].
  - now rewrite upd_length.
  - intros i' mo' E'. rewrite upd_length. rewrite nth_error_upd in E'. destruct ((i' =? i) && _) eqn:X; [|eauto]. inversion E'. cbn. eauto.
  - intros i1 i2 m1 m2 D E1 E2 F.
    assert (G : forall k mk, nth_error (upd (w_mdps w) i (mkMdpObj m (mo_feat mo) (mo_wall mo))) k = Some mk -> exists mk', nth_error (w_mdps w) k = Some mk' /\ mo_feat mk' = mo_feat mk).
    { intros k mk X. rewrite nth_error_upd in X. destruct (Nat.eqb_spec k i) as [->|Nk]; cbn [andb] in X; [|eauto]. destruct (i <? _); [|eauto]. inversion X. exists mo. auto. }
    destruct (G _ _ E1) as (m1' & G1 & F1). destruct (G _ _ E2) as (m2' & G2 & F2). rewrite <- F1. apply (S3 i1 i2 m1' m2'); [exact D|exact G1|exact G2|rewrite F1, F2; exact F].
  - intros j eo Ej. destruct (S4 j eo Ej) as (mo' & E' & H). destruct (Nat.eq_dec (eo_mdp eo) i) as [Ee|Ne]; [rewrite Ee in *|].
    + eexists. split; [apply nth_error_upd_same, Li|]. cbn. assert (mo' = mo) by congruence. subst. exact H.
    + exists mo'. split; [|exact H]. now rewrite nth_error_upd_other.
  - exact S5.
Qed.
Lemma sane_new_table : forall n w i mo m, sane n w -> nth_error (w_mdps w) i = Some mo -> sane n (new_table w i mo m).
Proof.
  intros n w i mo m S E. pose proof (nth_error_lt _ _ _ _ E) as Li. destruct S as [S1 S2 S3 S4 S5].
  assert (G : forall k mk, nth_error (upd (w_mdps w) i (mkMdpObj m (length (w_feats w)) (mo_wall mo))) k = Some mk -> (k = i /\ mo_feat mk = length (w_feats w) /\ mo_wall mk = mo_wall mo) \/ (k <> i /\ nth_error (w_mdps w) k = Some mk)).
  { intros k mk X. rewrite nth_error_upd in X. destruct (Nat.eqb_spec k i) as [->|Nk]; cbn [andb] in X; [|auto]. apply Nat.ltb_lt in Li. rewrite Li in X. inversion X. cbn. auto. }
  constructor; cbn [new_table w_feats w_walls w_mdps w_envs w_agents].
  - rewrite app_length. lia.
  - intros i' mo' E'. rewrite app_length. cbn [length]. destruct (G _ _ E') as [(_ & -> & ->)|(_ & E2)]; [destruct (S2 _ _ E); lia|destruct (S2 _ _ E2); lia].
  - intros i1 i2 m1 m2 D E1 E2 F. destruct (G _ _ E1) as [(-> & F1 & _)|(N1 & G1)]; destruct (G _ _ E2) as [(-> & F2 & _)|(N2 & G2)].
    + now elim D.
    + destruct (S2 _ _ G2). lia.
    + destruct (S2 _ _ G1). lia.
    + apply (S3 i1 i2 m1 m2); auto.
  - intros j eo Ej. destruct (S4 j eo Ej) as (mo' & E' & H). destruct (Nat.eq_dec (eo_mdp eo) i) as [Ee|Ne]; [rewrite Ee in *|].
    + eexists. split; [apply nth_error_upd_same, Li|]. cbn. intros _. exact S1.
    + exists mo'. split; [|exact H]. now rewrite nth_error_upd_other.
  - exact S5.
Qed.
Lemma sane_use_walls : forall n w i mo m r, sane n w -> nth_error (w_mdps w) i = Some mo -> r < length (w_walls w) -> sane n (use_walls w i mo m r).
Proof.
  intros n w i mo m r S E Lr. pose proof (nth_error_lt _ _ _ _ E) as Li. destruct S as [S1 S2 S3 S4 S5]. constructor; cbn [use_walls w_feats w_walls w_mdps w_envs w_agents].
  - exact S1.
  - intros i' mo' E'. rewrite nth_error_upd in E'. destruct ((i' =? i) && _) eqn:X; [|eauto]. inversion E'. cbn. destruct (S2 _ _ E). auto.
  - intros i1 i2 m1 m2 D E1 E2 F.
    assert (G : forall k mk, nth_error (upd (w_mdps w) i (mkMdpObj m (mo_feat mo) r)) k = Some mk -> exists mk', nth_error (w_mdps w) k = Some mk' /\ mo_feat mk' = mo_feat mk).
    { intros k mk X. rewrite nth_error_upd in X. destruct (Nat.eqb_spec k i) as [->|Nk]; cbn [andb] in X; [|eauto]. destruct (i <? _); [|eauto]. inversion X. exists mo. auto. }
    destruct (G _ _ E1) as (m1' & G1 & F1). destruct (G _ _ E2) as (m2' & G2 & F2). rewrite <- F1. apply (S3 i1 i2 m1' m2'); [exact D|exact G1|exact G2|rewrite F1, F2; exact F].
  - intros j eo Ej. destruct (S4 j eo Ej) as (mo' & E' & H). destruct (Nat.eq_dec (eo_mdp eo) i) as [Ee|Ne]; [rewrite Ee in *|].
    + eexists. split; [apply nth_error_upd_same, Li|]. cbn. assert (mo' = mo) by congruence. subst. exact H.
    + exists mo'. split; [|exact H]. now rewrite nth_error_upd_other.
  - exact S5.
Qed.
Lemma sane_walls : forall n w l, sane n w -> length (w_walls w) <= length l -> sane n (mkWorld (w_feats w) l (w_agents w) (w_mdps w) (w_envs w)).
Proof. intros n w l [S1 S2 S3 S4 S5] L. constructor; cbn; auto. intros i mo E. destruct (S2 i mo E). lia. Qed.
Lemma sane_put_env : forall n w j eo e, sane n w -> nth_error (w_envs w) j = Some eo -> names e = names (eo_attrs eo) -> sane n (put_env w j eo e).
Proof.
  intros n w j eo e S E EN. pose proof (nth_error_lt _ _ _ _ E) as Lj. destruct S as [S1 S2 S3 S4 S5]. constructor; cbn [put_env w_feats w_walls w_mdps w_envs w_agents]; auto.
  - intros j' eo' E'. rewrite nth_error_upd in E'. destruct ((j' =? j) && _) eqn:X; [|eauto]. inversion E'. cbn. destruct (S4 _ _ E) as (mo & Em & H). exists mo. split; [exact Em|]. intros N. apply H. intros N'. apply N.
    unfold names in EN. rewrite N' in EN. cbn in EN. now apply map_eq_nil in EN.
  - assert (P : forall r x, (exists g, nth_error (w_agents w) r = Some g /\ ag_name g = x) -> exists g, nth_error (fold_left (put_fit eo) (e_agents e) (w_agents w)) r = Some g /\ ag_name g = x).
    { intros r x (g & G & <-). pose proof (puts_name eo (e_agents e) (w_agents w) r) as H. rewrite G in H. cbn in H. destruct (nth_error (fold_left _ _ _) r) as [g'|]; [|discriminate]. exists g'. split; [reflexivity|]. cbn in H. now inversion H. }
    intros j' eo' E'. rewrite nth_error_upd in E'. destruct ((j' =? j) && _) eqn:X.
    + inversion E'. cbn [eo_attrs]. destruct (S5 _ _ E) as (H1 & H2 & H3). rewrite EN. split; [exact H1|]. split; [exact H2|]. intros x r Hx. apply P. exact (H3 x r Hx).
    + destruct (S5 _ _ E') as (H1 & H2 & H3). split; [exact H1|]. split; [exact H2|]. intros x r Hx. apply P. exact (H3 x r Hx).
Qed.

Lemma env_call_sane : forall n pl w j eo mo e o, sane n w -> nth_error (w_envs w) j = Some eo -> nth_error (w_mdps w) (eo_mdp eo) = Some mo -> see_env w eo = Some e ->
  sane n (env_call pl w j eo mo e o).
Proof.
  intros n pl w j eo mo e o S Ej Em Es. destruct (see_env_names _ _ _ Es) as [EN _].
  assert (K : forall e', names e' = names e -> sane n (put_env (put_mdp w (eo_mdp eo) mo (e_mdp e')) j eo e')).
  { intros e' N'. apply sane_put_env; [apply sane_put_mdp; auto|exact Ej|congruence]. }
  destruct o; cbn [env_call]; try (apply K, op_names).
  - destruct (set_walls (e_mdp e) walls) as [m|x]; [|exact S]. apply sane_put_env; [|exact Ej|exact EN]. apply sane_use_walls.
    + unfold new_walls. apply sane_walls; [exact S|]. rewrite app_length. lia.
    + exact Em.
    + cbn. rewrite app_length. cbn. lia.
  - pose proof (reset_agents_names (e_agents e) e (or_introl (incl_refl _))) as N. destruct (reset_agents e (e_agents e)) as [e1 [u|x]]; cbn [fst] in N; [|now apply K].
    destruct (reset_mdp (e_mdp e1)) as [m|x]; [|now apply K]. apply sane_put_env; [|exact Ej|cbn; unfold names in *; cbn; congruence].
    pose proof (sane_put_mdp n w _ mo (e_mdp e1) S Em) as S1. pose proof (nth_error_lt _ _ _ _ Em) as Li.
    pose proof (sane_new_table n _ (eo_mdp eo) (mkMdpObj (e_mdp e1) (mo_feat mo) (mo_wall mo)) m S1 (nth_error_upd_same _ _ _ _ Li)) as S2. exact S2.
Qed.

Lemma entry_specs_names : forall w l ss, entry_specs w l = Some ss -> map sp_name ss = map fst (rev (agents_by_name w l)) /\ forall x, In x l -> exists g, nth_error (w_agents w) (en_agent x) = Some g.
Proof.
  intros w. unfold agents_by_name. induction l as [|x l IH]; intros ss H; cbn [entry_specs] in H; [inversion H; split; [reflexivity|intros ? []]|].
  unfold entry_spec in H. destruct (nth_error (w_agents w) (en_agent x)) as [g|] eqn:G; [|discriminate]. destruct (entry_specs w l) as [ss'|] eqn:E; [|discriminate]. inversion H. destruct (IH ss' eq_refl) as [I1 I2].
  rewrite rev_involutive in *. cbn [map fst]. rewrite G, <- I1. split; [reflexivity|]. intros y [->|Hy]; eauto.
Qed.
Lemma by_name_of : forall w l (o : env_obj A) x r, (forall y, In y l -> exists g, nth_error (w_agents w) (en_agent y) = Some g) -> eo_agents o = agents_by_name w l -> agent_of o x = Some r -> exists g, nth_error (w_agents w) r = Some g /\ ag_name g = x.
Proof.
  intros w l o x r H E F. unfold agent_of in F. rewrite E in F. destruct (find _ _) as [p|] eqn:FF; [|discriminate]. inversion F. subst r. apply find_some in FF. destruct FF as [I1 I2]. apply String.eqb_eq in I2.
  unfold agents_by_name in I1. apply in_rev in I1. apply in_map_iff in I1. destruct I1 as (y & <- & Hy). destruct (H y Hy) as (g & G). cbn [fst snd] in *. rewrite G in I2. eauto.
Qed.
Lemma by_name_has : forall w l ss (o : env_obj A) x, entry_specs w l = Some ss -> eo_agents o = agents_by_name w l -> In x (map sp_name ss) -> exists r, agent_of o x = Some r.
Proof.
  intros w l ss o x H E I. destruct (entry_specs_names _ _ _ H) as [N _]. rewrite N in I. apply in_map_iff in I. destruct I as (p & <- & Hp). apply in_rev in Hp. unfold agent_of. rewrite E.
  destruct (find _ _) eqn:F; [eauto|]. apply (find_none _ _ F) in Hp. rewrite String.eqb_refl in Hp. discriminate.
Qed.

(** ** All calls *)
Theorem call_sane : forall n pls w c, sane n w -> from_given n c -> sane n (do_call pls w c).
Proof.
  intros n pls w c S G. destruct c as [k f wl shape st|i l|j o|i r|i x y|i|i fs s|i]; cbn [do_call].
  - destruct (nth_error (w_feats w) f) as [ft|] eqn:Ef; [|exact S]. assert (Lf := nth_error_lt _ _ _ _ Ef).
    assert (K : forall w' mo, sane n w' -> w_mdps w' = w_mdps w -> length (w_feats w) <= length (w_feats w') -> mo_feat mo = f -> mo_wall mo < length (w_walls w') ->
      sane n (mkWorld (w_feats w') (w_walls w') (w_agents w') (w_mdps w' ++ [mo]) (w_envs w'))).
    { intros w' mo [S1 S2 S3 S4 S5] EM LF F LW. assert (Q : forall q mq, nth_error (w_mdps w' ++ [mo]) q = Some mq -> nth_error (w_mdps w') q = Some mq \/ (q = length (w_mdps w') /\ mq = mo)).
      { intros q mq E. destruct (Nat.lt_ge_cases q (length (w_mdps w'))) as [L|L]; [rewrite nth_error_app1 in E by exact L; auto|]. rewrite nth_error_app2 in E by exact L. destruct (q - length (w_mdps w')) as [|d] eqn:D; cbn in E; [inversion E; right; split; [lia|reflexivity]|]. destruct d; discriminate. }
      constructor; cbn; auto.
      - intros q mq E. destruct (Q _ _ E) as [E'|(_ & ->)]; [eauto|]. split; [lia|exact LW].
      - intros i1 i2 m1 m2 D E1 E2 FF. cbn in G. destruct (Q _ _ E1) as [E1'|(-> & ->)]; destruct (Q _ _ E2) as [E2'|(-> & ->)]; try lia. eauto.
      - intros j eo Ej. destruct (S4 j eo Ej) as (mq & Eq & H). exists mq. split; [|exact H]. rewrite nth_error_app1; [exact Eq|]. eapply nth_error_lt; eauto. }
    destruct wl as [r|].
    + destruct (nth_error (w_walls w) r) as [wt|] eqn:Ew; cbn [option_map]; [|exact S]. destruct (grid_mdp _ _ _ _ _) as [m|]; [|exact S]. apply (K w); auto. cbn. eapply nth_error_lt; eauto.
    + destruct (grid_mdp _ _ _ _ _) as [m|]; [|exact S]. apply (K (new_walls w (m_walls m))); auto.
      * apply sane_walls; [exact S|]. rewrite app_length. lia.
      * cbn. rewrite app_length. cbn. lia.
  - destruct (nth_error (w_mdps w) i) as [mo|] eqn:Em; [|exact S]. destruct (entry_specs w l) as [ss|] eqn:ES; [|exact S]. cbv zeta. destruct (make_env (see_mdp w mo) ss) as [m' r] eqn:ME.
    set (w1 := if _ && _ then put_mdp w i mo m' else new_table w i mo m').
    assert (S1 : sane n w1) by (unfold w1; destruct (_ && _); [apply sane_put_mdp|apply sane_new_table]; auto).
    assert (A1 : w_agents w1 = w_agents w) by (unfold w1; destruct (_ && _); reflexivity).
    destruct r as [e|x]; [|exact S1]. destruct (make_env_names _ _ _ _ ME) as (_ & ND & IN & NE).
    assert (O : e_agents e <> [] -> exists mo1, nth_error (w_mdps w1) i = Some mo1 /\ n <= mo_feat mo1).
    { intros NA'. pose proof (nth_error_lt _ _ _ _ Em) as Li. unfold w1. destruct (_ && _) eqn:X.
      - exfalso. apply andb_prop in X. destruct X as [X1 X2]. apply Nat.eqb_eq in X1, X2. destruct (make_env_features _ _ _ _ ME X1) as [[_ H]|H]; [apply NA', H; reflexivity|lia].
      - eexists. split; [apply nth_error_upd_same, Li|]. cbn. apply (s_n _ _ S). }
    destruct S1 as [S1 S2 S3 S4 S5].
    assert (Q : forall q eq, nth_error (w_envs w1 ++ [mkEnvObj e i (agents_by_name w l)]) q = Some eq -> nth_error (w_envs w1) q = Some eq \/ eq = mkEnvObj e i (agents_by_name w l)).
    { intros q eq E. destruct (Nat.lt_ge_cases q (length (w_envs w1))) as [L|L]; [rewrite nth_error_app1 in E by exact L; auto|]. rewrite nth_error_app2 in E by exact L. destruct (q - length (w_envs w1)) as [|d] eqn:D; cbn in E; [inversion E; auto|]. destruct d; discriminate. }
    assert (HM : exists mo1, nth_error (w_mdps w1) i = Some mo1).
    { pose proof (nth_error_lt _ _ _ _ Em) as Li. unfold w1. destruct (_ && _); eexists; apply nth_error_upd_same, Li. }
    constructor; cbn; auto.
    + intros q eq E. destruct (Q _ _ E) as [E'| ->]; [eauto|]. cbn. destruct HM as (mo1 & HM). exists mo1. split; [exact HM|]. intros N. destruct (O N) as (mo2 & O1 & O2). congruence.
    + intros q eq E. destruct (Q _ _ E) as [E'| ->]; [eauto|]. cbn [eo_attrs]. split; [exact ND|]. split.
      * intros x Hx. exact (by_name_has w l ss (mkEnvObj e i (agents_by_name w l)) x ES eq_refl (IN x Hx)).
      * intros x r Hx. rewrite A1. exact (by_name_of w l (mkEnvObj e i (agents_by_name w l)) x r (proj2 (entry_specs_names _ _ _ ES)) eq_refl Hx).
  - destruct (nth_error (w_envs w) j) as [eo|] eqn:Ej; [|exact S]. destruct (nth_error (w_mdps w) (eo_mdp eo)) as [mo|] eqn:Em; [|exact S]. destruct (see_env w eo) as [e|] eqn:Es; [|exact S].
    eapply env_call_sane; eauto.
  - destruct (nth_error (w_mdps w) i) as [mo|] eqn:Em; [|exact S]. destruct (nth_error (w_walls w) r) as [wt|] eqn:Ew; [|exact S]. destruct (set_walls _ _); [|exact S]. apply sane_use_walls; auto. eapply nth_error_lt; eauto.
  - destruct (nth_error (w_mdps w) i) as [mo|] eqn:Em; [|exact S]. destruct (add_wall_xy _ _ _) as [m|]; [|exact S]. apply sane_use_walls; [|exact Em|cbn; rewrite app_length; cbn; lia]. apply sane_walls; [exact S|]. rewrite app_length. lia.
  - destruct (nth_error (w_mdps w) i) as [mo|] eqn:Em; [|exact S]. cbv zeta.
    assert (S1 : sane n (put_walls w (mo_wall mo) (map (fun x => nmul x n0) (m_walls (see_mdp w mo))))) by (apply sane_walls; [exact S|]; now rewrite upd_length).
    destruct (reset_walls _); [|exact S1]. apply sane_use_walls; [exact S1|exact Em|]. cbn. rewrite upd_length. apply (s_mdp _ _ S _ _ Em).
  - destruct (nth_error (w_mdps w) i) as [mo|] eqn:Em; [|exact S]. now apply sane_put_mdp.
  - destruct (nth_error (w_mdps w) i) as [mo|] eqn:Em; [|exact S]. destruct (reset_mdp _) as [m|]; [|exact S]. now apply sane_new_table.
Qed.

Lemma start_sane : forall feats walls agents, sane (length feats) (start (A:=A) feats walls agents).
Proof.
  intros. constructor; cbn; auto.
  - intros i mo E. destruct i; discriminate.
  - intros i i' mo mo' _ E. destruct i; discriminate.
  - intros j eo E. destruct j; discriminate.
  - intros j eo E. destruct j; discriminate.
Qed.
Lemma calls_app : forall pls (w : world A) l l', calls pls w (l ++ l') = calls pls (calls pls w l) l'.
Proof. intros. unfold calls. apply fold_left_app. Qed.
Lemma calls_sane : forall n pls l w, sane n w -> Forall (from_given n) l -> sane n (calls pls w l).
Proof. induction l as [|c l IH]; intros w S F; cbn; [exact S|]. inversion F. subst. apply IH; [now apply call_sane|assumption]. Qed.
End World.
