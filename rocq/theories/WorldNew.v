(** C106 and C108: what a new MDP and a new environment share with what is there already. *)
From Coq Require Import String List ZArith QArith Bool Lia.
From Verif Require Import PyBase PyProofs GridModel MDPModel MDPProps ActionModel EnvModel EnvProps WorldModel WorldProofs WorldProofs2 WorldProofs3 WorldProps.
Import ListNotations.
Local Close Scope Q_scope.
Local Open Scope nat_scope.

Section World.
Context {A : Type} {NA : Num A}.
Implicit Types (e : env A) (w : world A).

Lemma grid_mdp_arrays : forall k ft wt shape st (m : mdp A), grid_mdp k ft wt shape st = Ok m -> m_features m = ft /\ (forall x, wt = Some x -> m_walls m = x).
Proof.
  intros k ft wt shape st m H. unfold grid_mdp in H. apply bind_ok in H. destruct H as (sas & _ & H). unfold init_mdp in H. apply bind_ok in H. destruct H as (m1 & _ & H). cbv zeta in H. apply bind_ok in H. destruct H as (m3 & SF & H).
  assert (F3 : m_features m3 = ft). { unfold set_features in SF. destruct (forallb _ _); [|discriminate]. now inversion SF. }
  unfold set_walls in H. cbn [m_shape] in H. destruct (m_shape m3) as [[w h]|]; [|discriminate]. destruct (negb _); [discriminate|]. destruct (negb _); [discriminate|]. apply bind_ok in H. destruct H as (m5 & SS & H).
  assert (F5 : m_features m5 = ft). { unfold set_sas in SS. destruct (negb _); [discriminate|]. destruct (entries3 _); [discriminate|]. destruct (existsb _ _); [discriminate|]. inversion SS. cbn. exact F3. }
  inversion H. cbn. split; [exact F5|]. intros x ->. reflexivity.
Qed.

(** A new MDP is what the arrays say, whatever else exists. Made without walls, it keeps its walls in an array
    that neither the caller nor another MDP has. *)
Theorem C106_new_mdp : forall feats walls agents pls l w k f ft wl wt shape st m, made feats walls agents pls l w ->
  nth_error (w_feats w) f = Some ft -> match wl with None => wt = None | Some r => exists x, nth_error (w_walls w) r = Some x /\ wt = Some x end ->
  grid_mdp k ft wt shape st = Ok m ->
  let w' := do_call pls w (CMdp k f wl shape st) in let i := length (w_mdps w) in
  mdp_at w' i = Some m /\ (forall j m', mdp_at w j = Some m' -> mdp_at w' j = Some m') /\
  (wl = None -> (forall j, j <> i -> ~ same_walls w' j i) /\ exists o, nth_error (w_mdps w') i = Some o /\ length (w_walls w) <= mo_wall o).
Proof.
  intros feats walls agents pls l w k f ft wl wt shape st m MD EF EW EG. pose proof (made_sane _ _ _ _ _ _ MD) as S. cbv zeta. destruct (grid_mdp_arrays _ _ _ _ _ _ EG) as [MF MW].
  assert (NF : nth f (w_feats w) [] = ft) by now apply nth_error_nth.
  assert (OLD : forall mo ws, (ws = w_walls w \/ exists x, ws = w_walls w ++ [x]) -> forall j m', mdp_at w j = Some m' -> mdp_at (mkWorld (w_feats w) ws (w_agents w) (w_mdps w ++ [mo]) (w_envs w)) j = Some m').
  { intros mo ws WS j m' H. unfold mdp_at in *. destruct (nth_error (w_mdps w) j) as [mj|] eqn:Ej; [|discriminate]. destruct (s_mdp _ _ S _ _ Ej) as [_ LW]. cbn [w_mdps]. rewrite nth_error_app1 by (eapply nth_error_lt; eauto). rewrite Ej. rewrite <- H. cbn [option_map]. unfold see_mdp. cbn [w_feats w_walls].
    destruct WS as [->|(x & ->)]; [reflexivity|]. now rewrite app_nth1. }
  cbn [do_call]. rewrite EF. destruct wl as [r|].
  - destruct EW as (x & Ex & ->). rewrite Ex. cbn [option_map]. rewrite EG. split; [|split; [apply OLD; now left|discriminate]].
    unfold mdp_at. cbn [w_mdps]. rewrite nth_error_app2, Nat.sub_diag by lia. cbn [nth_error option_map]. unfold see_mdp. cbn [mo_attrs mo_feat mo_wall w_feats w_walls]. rewrite NF, (nth_error_nth _ _ _ Ex), <- MF, <- (MW x eq_refl). destruct m; reflexivity.
  - subst wt. rewrite EG. split; [|split; [apply OLD; right; now exists (m_walls m)|]].
    + unfold mdp_at. cbn [w_mdps]. rewrite nth_error_app2, Nat.sub_diag by lia. cbn [nth_error option_map]. unfold see_mdp. cbn [mo_attrs mo_feat mo_wall w_feats w_walls]. rewrite NF, app_nth2, Nat.sub_diag by lia. cbn [nth]. rewrite <- MF. destruct m; reflexivity.
    + intros _. cbn [w_mdps]. split; [|eexists; rewrite nth_error_app2, Nat.sub_diag by lia; split; [reflexivity|cbn; lia]].
      intros j Hj (o & o' & Ho & Ho' & EQ). cbn [w_mdps] in *. rewrite nth_error_app2, Nat.sub_diag in Ho' by lia. inversion Ho'. subst o'. cbn [mo_wall] in EQ.
      destruct (Nat.lt_ge_cases j (length (w_mdps w))) as [L|L]; [rewrite nth_error_app1 in Ho by exact L; destruct (s_mdp _ _ S _ _ Ho); lia|].
      rewrite nth_error_app2 in Ho by exact L. destruct (j - length (w_mdps w)) as [|d] eqn:D; [lia|]. destruct d; discriminate.
Qed.

(** ** A new environment *)
Lemma attach_fit : forall (m : mdp A) i s m' a, attach m i s = (m', Ok a) -> at_name a = sp_name s /\ at_fit a = sp_fit s.
Proof.
  intros m i s m' a H. unfold attach in H. destruct (add_agent_feature m (sp_pos s)) as [m1 [?|?]]; [|discriminate]. unfold move_agent in H. destruct (_ <=? _)%Z; [discriminate|]. destruct (update_agent_feature _ _ _) as [m2 [?|?]]; [|discriminate]. inversion H. split; reflexivity.
Qed.
Lemma find_app : forall B (p : B -> bool) l l', find p (l ++ l') = match find p l with Some x => Some x | None => find p l' end.
Proof. induction l as [|x l IH]; intros l'; cbn; [reflexivity|]. destruct (p x); auto. Qed.
Lemma attach_all_fit : forall nf na ss (m : mdp A) i acc m' l, attach_all nf na m i ss acc = (m', Ok l) ->
  forall a, In a l -> match find (fun s => String.eqb (sp_name s) (at_name a)) (rev ss) with Some s => at_fit a = sp_fit s | None => In a acc end.
Proof.
  induction ss as [|s ss IH]; intros m i acc m' l H a Ha; cbn [attach_all] in H; [inversion H; subst; exact Ha|].
  destruct (attach_checked nf na m i s) as [m1 [b|x]] eqn:AC; [|discriminate]. specialize (IH _ _ _ _ _ H a Ha). cbn [rev]. rewrite find_app. destruct (find _ (rev ss)); [exact IH|].
  unfold attach_checked in AC. destruct (negb _); [discriminate|]. destruct (existsb _ _); [discriminate|]. apply attach_fit in AC. destruct AC as [EN EF]. cbn [find].
  unfold put_agent in IH. destruct (existsb _ acc) eqn:EX.
  - apply in_map_iff in IH. destruct IH as (c & Ec & Hc). destruct (String.eqb_spec (at_name c) (at_name b)) as [E|E]; subst a.
    + rewrite <- EN, String.eqb_refl. exact EF.
    + destruct (String.eqb_spec (sp_name s) (at_name c)) as [E'|E']; [congruence|exact Hc].
  - apply in_app_or in IH. destruct IH as [IH|[<-|[]]].
    + destruct (String.eqb_spec (sp_name s) (at_name a)) as [E'|E']; [|exact IH]. exfalso. assert (X : existsb (fun c => String.eqb (at_name c) (at_name b)) acc = true) by (apply existsb_exists; exists a; split; [exact IH|apply String.eqb_eq; congruence]). congruence.
    + rewrite <- EN, String.eqb_refl. exact EF.
Qed.
Lemma entry_fit : forall w cl ss x, entry_specs w cl = Some ss ->
  match find (fun s => String.eqb (sp_name s) x) (rev ss) with
  | Some s => exists p g, find (fun p => String.eqb (fst p) x) (agents_by_name w cl) = Some p /\ nth_error (w_agents w) (snd p) = Some g /\ ag_fit g = sp_fit s
  | None => find (fun p => String.eqb (fst p) x) (agents_by_name w cl) = None
  end.
Proof.
  unfold agents_by_name. induction cl as [|c cl IH]; intros ss x H; cbn [entry_specs] in H; [inversion H; reflexivity|]. unfold entry_spec in H. destruct (nth_error (w_agents w) (en_agent c)) as [g|] eqn:G; [|discriminate].
  destruct (entry_specs w cl) as [ss'|]; [|discriminate]. inversion H. subst ss. specialize (IH ss' x eq_refl). cbn [map rev]. rewrite !find_app, G. destruct (find _ (rev ss')) as [s|].
  - destruct IH as (p & g' & -> & Hg & E). eauto.
  - rewrite IH. cbn [find sp_name fst]. destruct (String.eqb (ag_name g) x); [|reflexivity]. exists (ag_name g, en_agent c), g. cbn. auto.
Qed.

(** A new environment is the one its MDP and agents say, whatever else exists. *)
Theorem C106_new_environment : forall feats walls agents pls l w i m cl ss m' e, made feats walls agents pls l w -> mdp_at w i = Some m ->
  entry_specs w cl = Some ss -> make_env m ss = (m', Ok e) ->
  let w' := do_call pls w (CEnv i cl) in
  env_at w' (length (w_envs w)) = Some e /\ on_mdp w' (length (w_envs w)) i /\ mdp_at w' i = Some m' /\
  forall r, has_agent w' (length (w_envs w)) r <-> exists x, In x cl /\ en_agent x = r.
Proof.
  intros feats walls agents pls l w i m cl ss m' e MD HM ES ME. pose proof (made_sane _ _ _ _ _ _ MD) as S. cbv zeta. unfold mdp_at in HM. destruct (nth_error (w_mdps w) i) as [mo|] eqn:Em; [|discriminate]. cbn [option_map] in HM. inversion HM. subst m. clear HM.
  destruct (s_mdp _ _ S _ _ Em) as [LF LW]. pose proof (nth_error_lt _ _ _ _ Em) as Li. cbn [do_call]. rewrite Em, ES. cbv zeta. rewrite ME. pose proof (make_env_walls _ _ _ _ ME) as MW. destruct (make_env_names _ _ _ _ ME) as (EM & _).
  set (w1 := if _ && _ then _ else _).
  assert (V : w_envs w1 = w_envs w /\ w_agents w1 = w_agents w /\ exists mo1, nth_error (w_mdps w1) i = Some mo1 /\ see_mdp w1 mo1 = m').
  { unfold w1. destruct (_ && _); cbn [put_mdp new_table w_envs w_mdps w_agents]; (split; [reflexivity|]; split; [reflexivity|]; eexists; split; [apply nth_error_upd_same, Li|]); unfold see_mdp, with_walls, with_features; cbn; change (nth (mo_wall mo) (w_walls w) []) with (m_walls (see_mdp w mo)); rewrite <- MW.
    - rewrite nth_upd_same by exact LF. now destruct m'.
    - rewrite app_nth2, Nat.sub_diag by lia. now destruct m'. }
  destruct V as (V1 & V2 & mo1 & V3 & V4). set (w2 := mkWorld _ _ _ _ _).
  assert (EO : nth_error (w_envs w2) (length (w_envs w)) = Some (mkEnvObj e i (agents_by_name w cl))). { unfold w2. cbn [w_envs]. rewrite V1, nth_error_app2, Nat.sub_diag by lia. reflexivity. }
  split; [|split; [|split]].
  - unfold env_at. rewrite EO. unfold see_env. cbn [eo_mdp eo_attrs]. unfold w2 at 1. cbn [w_mdps]. rewrite V3. f_equal. change (see_mdp w2 mo1) with (see_mdp w1 mo1). rewrite V4, <- EM.
    assert (X : map (see_fit w2 (mkEnvObj e i (agents_by_name w cl))) (e_agents e) = e_agents e).
    { rewrite <- (map_id (e_agents e)) at 2. apply map_ext_in. intros a Ha. unfold see_fit, agent_of. cbn [eo_agents]. unfold make_env in ME. destruct (if 0 <? _ then _ else _) as [m0|]; [|discriminate]. destruct (attach_all _ _ m0 0 ss []) as [m1 [ll|]] eqn:AA; [|discriminate]. injection ME as _ E2. rewrite <- E2 in Ha. cbn [e_agents] in Ha.
      pose proof (attach_all_fit _ _ _ _ _ _ _ _ AA a Ha) as AF. pose proof (entry_fit w cl ss (at_name a) ES) as EF. destruct (find _ (rev ss)) as [s|]; [|destruct AF]. destruct EF as (p & g & -> & G & E). unfold w2. cbn [w_agents]. rewrite V2, G, E, <- AF. destruct a; reflexivity. }
    rewrite X. destruct e; reflexivity.
  - exists (mkEnvObj e i (agents_by_name w cl)). split; [exact EO|reflexivity].
  - unfold mdp_at, w2. cbn [w_mdps]. rewrite V3. cbn [option_map]. f_equal. exact V4.
  - intros r. unfold has_agent. split.
    + intros (o & x & Ho & Hi). rewrite EO in Ho. inversion Ho. subst o. cbn [eo_agents] in Hi. unfold agents_by_name in Hi. apply in_rev in Hi. apply in_map_iff in Hi. destruct Hi as (y & E & Hy). inversion E. eauto.
    + intros (x & Hx & <-). exists (mkEnvObj e i (agents_by_name w cl)). eexists. split; [exact EO|]. cbn [eo_agents]. unfold agents_by_name. apply -> in_rev. apply in_map_iff. exists x. split; [reflexivity|exact Hx].
Qed.

(** Agents keep the names and moves per turn they were made with, and a dictionary passes on these, the positions, the
    reward functions and the features consumed; the plan an agent has already is kept (its algorithm is shared). *)
Definition settings (g : agent_obj A) : string * Z := (ag_name g, ag_moves g).
Lemma puts_settings : forall o (as_ : list (attached A)) l, map settings (fold_left (put_fit o) as_ l) = map settings l.
Proof.
  induction as_ as [|a as_ IH]; intros l; cbn [fold_left]; [reflexivity|]. rewrite IH. unfold put_fit. destruct (agent_of o _) as [r|]; [|reflexivity]. destruct (nth_error l r) as [g|] eqn:E; [|reflexivity].
  clear - E. revert r E. induction l as [|h l IH]; intros [|r] E; try discriminate; cbn in *; [now inversion E|]. now rewrite IH.
Qed.
Lemma call_settings : forall pls w c, map settings (w_agents (do_call pls w c)) = map settings (w_agents w).
Proof.
  intros pls w c. destruct c as [k f wl shape st|i l|j o|i r|i x y|i|i fs s|i]; cbn [do_call].
  - destruct (nth_error (w_feats w) f); [|reflexivity]. destruct wl as [r|]; [destruct (nth_error (w_walls w) r); cbn [option_map]; [|reflexivity]|]; destruct (grid_mdp _ _ _ _ _); reflexivity.
  - destruct (nth_error (w_mdps w) i); [|reflexivity]. destruct (entry_specs w l); [|reflexivity]. cbv zeta. destruct (make_env _ _) as [m' [e|x]]; destruct (_ && _); reflexivity.
  - destruct (nth_error (w_envs w) j) as [eo|]; [|reflexivity]. destruct (nth_error (w_mdps w) (eo_mdp eo)) as [mo|]; [|reflexivity]. destruct (see_env w eo) as [e|]; [|reflexivity].
    destruct o; cbn [env_call]; try (cbn [put_env w_agents]; now rewrite puts_settings).
    + destruct (set_walls _ _); [|reflexivity]. cbn [put_env w_agents]. now rewrite puts_settings.
    + destruct (reset_agents _ _) as [e1 [u|x]]; [destruct (reset_mdp _)|]; cbn [put_env w_agents]; now rewrite puts_settings.
  - destruct (nth_error (w_mdps w) i); [|reflexivity]. destruct (nth_error (w_walls w) r); [|reflexivity]. destruct (set_walls _ _); reflexivity.
  - destruct (nth_error (w_mdps w) i); [|reflexivity]. destruct (add_wall_xy _ _ _); reflexivity.
  - destruct (nth_error (w_mdps w) i); [|reflexivity]. cbv zeta. destruct (reset_walls _); reflexivity.
  - destruct (nth_error (w_mdps w) i); reflexivity.
  - destruct (nth_error (w_mdps w) i); [|reflexivity]. destruct (reset_mdp _); reflexivity.
Qed.
Theorem C106_settings : forall feats walls agents pls l w cl, made feats walls agents pls l w ->
  (entry_specs w cl <> None <-> forall x, In x cl -> en_agent x < length agents) /\
  forall ss, entry_specs w cl = Some ss -> length ss = length cl /\ forall i x s, nth_error cl i = Some x -> nth_error ss i = Some s ->
    nth_error agents (en_agent x) = Some (sp_name s, sp_n_moves s) /\ sp_pos s = en_pos x /\ sp_reward s = en_reward x /\ sp_consumes s = en_consumes x.
Proof.
  intros feats walls agents pls l w cl [_ ->].
  assert (K : map settings (w_agents (calls pls (start feats walls agents) l)) = agents).
  { unfold calls. assert (G : forall l w, map settings (w_agents (fold_left (do_call pls) l w)) = map settings (w_agents w)) by (clear; induction l as [|c l IH]; intros w; cbn [fold_left]; [reflexivity|]; now rewrite IH, call_settings).
    rewrite G. cbn [start w_agents]. rewrite map_map. rewrite (map_ext _ (fun g => g)) by (intros []; reflexivity). apply map_id. }
  set (w := calls pls (start feats walls agents) l) in *. clearbody w. subst agents. rewrite map_length. split.
  - induction cl as [|x cl IH]; cbn [entry_specs]; [split; [intros _ x []|discriminate]|]. unfold entry_spec. destruct (nth_error (w_agents w) (en_agent x)) as [g|] eqn:G.
    + destruct (entry_specs w cl) as [ss|]; split; intros H; try discriminate; try congruence.
      * intros y [<-|Hy]; [now apply nth_error_Some; congruence|]. apply IH; [discriminate|exact Hy].
      * exfalso. apply (proj2 IH); [|reflexivity]. intros y Hy. apply H. now right.
    + split; intros H; [congruence|]. exfalso. apply (proj1 (nth_error_None _ _)) in G. specialize (H x (or_introl eq_refl)). lia.
  - induction cl as [|x cl IH]; cbn [entry_specs]; intros ss H; [inversion H; split; [reflexivity|intros [] ? ? X; discriminate]|].
    unfold entry_spec in H. destruct (nth_error (w_agents w) (en_agent x)) as [g|] eqn:G; [|discriminate]. destruct (entry_specs w cl) as [ss'|]; [|discriminate]. inversion H. subst ss. destruct (IH ss' eq_refl) as [I1 I2].
    split; [cbn; now rewrite I1|]. intros [|i] y s Hy Hs; cbn in Hy, Hs; [|eauto]. inversion Hy. inversion Hs. subst y s. cbn [sp_name sp_n_moves sp_pos sp_reward sp_consumes]. rewrite nth_error_map, G. auto.
Qed.
End World.

(** For example, with three MDPs and an environment around: both kinds of call succeed. *)
Example C106_new_example : exists w m m' e, made [ex_ft] [[0; 0; 0; 0]%Q] [("p"%string, 1%Z)] (fun _ _ => ex_pl (A:=Q) [2; 2; 2; 2]%Z)
    [CMdp Square 0 (Some 0) (2, 2) false; CMdp Hex 0 None (2, 2) true; CEnv 0 [mkEntry 0 0%Z [1; 0; 0]%Q []]] w /\
  nth_error (w_feats w) 0 = Some ex_ft /\ grid_mdp (A:=Q) Square ex_ft None (2, 2) false = Ok m /\
  mdp_at w 1 <> None /\ match mdp_at w 1 with Some m1 => entry_specs w [mkEntry 0 3%Z [0; 1; 1]%Q [0%Z]] <> None /\
    match entry_specs w [mkEntry 0 3%Z [0; 1; 1]%Q [0%Z]] with Some ss => make_env m1 ss = (m', Ok e) | None => True end | None => True end.
Proof.
  do 4 eexists. split; [split; [repeat constructor|reflexivity]|]. split; [vm_compute; reflexivity|]. split; [vm_compute; reflexivity|]. split; [vm_compute; discriminate|]. vm_compute. split; [discriminate|reflexivity].
Qed.
