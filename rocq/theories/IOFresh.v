(** Property C190: a new environment that is saved and loaded again is the same environment. *)
From Coq Require Import String List ZArith QArith Reals Bool Lia Lra.
From Verif Require Import PyBase PyProofs GridModel GridSpec MDPModel MDPSpec MDPProofs MDPProofs2 MDPProofs3 MDPProofs4 MDPProps EnvModel EnvSpec EnvProofs EnvProofs2 EnvProofs3 EnvProofs4 EnvProps IOModel IOProofs IOProps.
Import ListNotations.
Local Close Scope Q_scope.
Local Open Scope nat_scope.

Lemma same_mdp : forall k shape st (m m' : mdp R), clean k shape st m -> clean k shape st m' -> m_walls m = m_walls m' ->
  m_features m = m_features m' -> m_orig_features m = m_orig_features m' -> m_n_agents m = m_n_agents m' -> m = m'.
Proof.
  intros k shape st m m' C C' W F O A. pose proof (cl_grid _ _ _ _ C) as G. pose proof (cl_grid _ _ _ _ C') as G'.
  pose proof (same_transitions _ _ _ _ _ G G' W) as S.
  assert (OS : m_orig_sas m = m_orig_sas m').
  { eapply shape3_ext; [apply (gi_osh _ _ _ _ G)|apply (gi_osh _ _ _ _ G')|]. intros i j l Hi Hj Hl. rewrite (gi_orig _ _ _ _ G), (gi_orig _ _ _ _ G') by assumption. reflexivity. }
  pose proof (gi_adj _ _ _ _ G) as D1. pose proof (gi_adj _ _ _ _ G') as D2. rewrite OS in D1.
  pose proof (cl_nf _ _ _ _ C) as N1. pose proof (cl_nf _ _ _ _ C') as N2. destruct (cl_table _ _ _ _ C) as [T1 _]. destruct (cl_table _ _ _ _ C') as [T2 _]. rewrite F in T1.
  pose proof (gi_shape _ _ _ _ G) as E1. pose proof (gi_shape _ _ _ _ G') as E1'. pose proof (gi_ns _ _ _ _ G) as E2. pose proof (gi_ns _ _ _ _ G') as E2'.
  pose proof (gi_na _ _ _ _ G) as E3. pose proof (gi_na _ _ _ _ G') as E3'. pose proof (gi_det _ _ _ _ G) as E4. pose proof (gi_det _ _ _ _ G') as E4'.
  destruct m, m'. cbn in *. f_equal; try congruence; lia.
Qed.

Section Fresh.
Variable K : Type.
Notation world := (world (A:=R) K).

(** What is read back for an agent. *)
Definition read_spec (a : attached R) : spec R := mkSpec (at_name a) (at_n_moves a) None (at_pos a) (map (fun r => IZR (Rtrunc r)) (at_reward a)) (at_consumes a).

Lemma specs_read : forall shape (w : world) l ags xs, mapM (write_agent Rtrunc K FIndex shape w) l = Ok ags -> mapM (read_agent (A:=R) K) ags = Ok xs -> map (fun a => fst (fst a)) xs = map read_spec l.
Proof.
  intros shape w. induction l as [|a l IH]; intros ags xs E1 E2; cbn [mapM] in E1.
  - injection E1 as <-. cbn [mapM] in E2. injection E2 as <-. reflexivity.
  - apply bind_ok in E1. destruct E1 as (p & Ep & E1). apply bind_ok in E1. destruct E1 as (ps & Eps & E1). injection E1 as <-.
    cbn [mapM] in E2. apply bind_ok in E2. destruct E2 as (x & Ex & E2). apply bind_ok in E2. destruct E2 as (xs' & Exs & E2). injection E2 as <-.
    cbn [map]. rewrite (IH _ _ Eps Exs). f_equal. unfold write_agent in Ep. cbn [bind] in Ep. destruct (kit_of K w (at_name a)) as [k|]; [|discriminate]. destruct (kit_algorithm K k); [|discriminate]. destruct (kit_selector K k); [|discriminate]. injection Ep as <-.
    unfold read_agent in Ex. cbn [i_algorithm i_selector i_position i_n_moves i_reward i_consumes] in Ex. destruct (negb _); [discriminate|]. destruct (negb _); [discriminate|]. injection Ex as <-. cbn [fst]. unfold read_spec. now rewrite map_map.
Qed.

Lemma env_form : forall k shape st m ss m' e, clean k shape st m -> m_n_agents m = 0 -> NoDup (map sp_name ss) -> make_env m ss = (m', Ok e) ->
  e_agents e = agents_from (m_n_non_agent m) 0 ss.
Proof.
  intros k shape st m ss m' e C Z ND E. pose proof (make_env_valid _ _ _ _ _ _ _ C E) as V. destruct (make_env_ok k shape st m ss C V) as (m0 & _ & _ & _ & _ & _ & _ & _ & EQ & _ & E'). cbv zeta in E'. rewrite (EQ Z) in E'.
  rewrite (dict_distinct (m_n_non_agent m) ss 0 []) in E' by exact ND. cbn [app] in E'. rewrite E in E'. assert (PI : forall (x y : mdp R) (u v : res (env R)), (x, u) = (y, v) -> u = v) by (intros x y u v X; now inversion X).
  apply PI in E'. assert (OI : forall u v : env R, Ok u = Ok v -> u = v) by congruence. apply OI in E'. subst e. reflexivity.
Qed.

Lemma specs_back : forall non ss i, (forall s, In s ss -> sp_fit s = None) -> (forall s r, In s ss -> In r (sp_reward s) -> whole r) -> map read_spec (agents_from non i ss) = ss.
Proof.
  intros non. induction ss as [|s ss IH]; intros i NF WH; [reflexivity|]. cbn [agents_from map]. rewrite IH; [|intros; apply NF; now right|intros s' r H; apply WH; now right]. f_equal.
  unfold read_spec, new_agent. cbn [at_name at_n_moves at_pos at_reward at_consumes]. rewrite (map_ext_in _ (fun x => x)), map_id. 2: { intros r Hr. apply trunc_whole. eapply WH; [now left|exact Hr]. }
  pose proof (NF s (or_introl eq_refl)) as X. destruct s. cbn in *. now subst.
Qed.

(** Exporting a new environment and importing it with the same feature names gives an environment that is equal
    in every respect, so it answers every call in the same way ever after; and agents have the same plug-ins. *)
Theorem C190_fresh : forall feats w0 shape st m0 calls ss m' (w : world) names,
  grid_mdp (A:=R) Hex feats w0 shape st = Ok m0 -> make_env (after_wall_calls m0 calls) ss = (m', Ok (w_env _ w)) -> NoDup (map sp_name ss) ->
  (forall s, In s ss -> sp_fit s = None) -> (forall row x, In row feats -> In x row -> x = 0%R \/ x = 1%R) -> (forall s r, In s ss -> In r (sp_reward s) -> whole r) ->
  w_self _ w = st -> kits_known K w -> length names = length feats -> NoDup names ->
  exists d w', hex_env_to_dict Rtrunc K w (Some names) FIndex = Ok d /\ hex_environment_from_dict (A:=R) K d names = Ok w' /\
    w_env _ w' = w_env _ w /\ w_self _ w' = w_self _ w /\ (forall a, In a (e_agents (w_env _ w)) -> kit_of _ w' (at_name a) = kit_of _ w (at_name a)).
Proof.
  intros feats w0 shape st m0 calls ss m' w names H E ND NF BF WH ST KN LN NDN. set (pl := mkPlugins (fun _ _ _ _ => Err ValueError) (fun _ _ _ => Err ValueError) (fun _ _ => Err ValueError) (fun _ => false) : plugins R).
  destruct (grid_clean _ _ _ _ _ _ calls H) as (C & OF & F & NA). set (m := after_wall_calls m0 calls) in *.
  pose proof (env_form _ _ _ _ _ _ _ C NA ND E) as EA. set (e := w_env K w) in *.
  assert (HB : hex_built pl (length feats) shape st e) by (exists feats, w0, m0, calls, ss, m', e, []; auto).
  assert (HNS : forall row, In row feats -> length row = fst shape * snd shape). { intros row Hr. destruct (cl_table _ _ _ _ C) as [_ T]. rewrite F, Forall_forall in T. rewrite (T row Hr). apply (gi_ns _ _ _ _ (cl_grid _ _ _ _ C)). }
  pose proof (usable_grid pl _ _ _ _ _ _ calls H) as U. fold m in U. destruct (C17_result pl _ _ _ _ U ND E) as (R1 & _ & _ & _ & _ & _ & R7 & R8 & R9 & R10).
  assert (NO : n_ordinary m = length feats) by (unfold n_ordinary; destruct (cl_table _ _ _ _ C) as [T _]; rewrite T, F, NA; lia).
  assert (FE : forall i s, i < length feats -> feat m' i s = nth s (nth i feats []) 0%R). { intros i s Hi. rewrite R8 by lia. unfold feat, get2. now rewrite F. }
  assert (BW : binary_features K (length feats) w).
  { intros i s Hi Hs. fold e. rewrite R1, FE by exact Hi. assert (In (nth i feats []) feats) as Hin by now apply nth_In.
    destruct (Nat.lt_ge_cases s (length (nth i feats []))) as [L|L]; [|left; now apply nth_overflow]. apply (BF _ _ Hin). now apply nth_In. }
  assert (WW : whole_rewards K w).
  { intros a r Ha Hr. fold e in Ha. rewrite EA in Ha. apply In_nth_error in Ha. destruct Ha as (i & Ha). rewrite agents_from_nth in Ha. destruct (nth_error ss i) as [s|] eqn:Q; [|discriminate]. injection Ha as <-. eapply WH; [eapply nth_error_In; exact Q|exact Hr]. }
  destruct (C56_dict K pl _ _ _ w names HB ST KN BW WW LN NDN) as (d & w' & ED & EW & RL). exists d, w'. split; [exact ED|]. split; [exact EW|].
  destruct RL as (_ & L2 & _ & L4 & L5 & L6 & _ & _ & L9). split; [|split; [exact L4|exact L9]].
  assert (DA : exists sh', mapM (write_agent Rtrunc K FIndex sh' w) (e_agents e) = Ok (d_agents K d) /\ d_self K d = st /\ m_shape (e_mdp e) = Some sh' /\ d_size K d = sh').
  { unfold hex_env_to_dict in ED. fold e in ED. destruct (negb _) in ED; [discriminate|]. destruct (m_shape (e_mdp e)) as [sh'|] eqn:SH; [|discriminate]. apply bind_ok in ED. destruct ED as (fs & _ & ED). apply bind_ok in ED. destruct ED as (ws & _ & ED). apply bind_ok in ED. destruct ED as (ags & Eags & ED). injection ED as <-. exists sh'. cbn [d_agents d_self d_size]. auto. }
  destruct DA as (sh' & DA & DS & SH & DZ).
  assert (sh' = shape). { destruct (hex_built_facts _ _ _ _ _ HB) as (WF & _). pose proof (gi_shape _ _ _ _ (wf_grid _ _ _ _ WF)). congruence. } subst sh'. rename H0 into DZ.
  unfold hex_environment_from_dict in EW. destruct (negb _) in EW; [discriminate|]. rewrite DS, DZ in EW. apply bind_ok in EW. destruct EW as (fe & _ & EW). apply bind_ok in EW. destruct EW as (wl & _ & EW). apply bind_ok in EW. destruct EW as (m1 & E1 & EW). apply bind_ok in EW. destruct EW as (xs & EX & EW).
  destruct (forallb _ _) in EW; [|discriminate]. rewrite (specs_read _ _ _ _ _ DA EX), EA, specs_back in EW by assumption.
  destruct (make_env m1 ss) as [m2 [e2|x]] eqn:E2; cbn [snd bind] in EW; [|discriminate]. injection EW as <-. cbn [w_env] in *.
  destruct (grid_clean _ _ _ _ _ _ [] E1) as (C1 & OF1 & F1 & NA1). cbn [after_wall_calls fold_left] in *.
  pose proof (usable_grid pl _ _ _ _ _ _ [] E1) as U1. cbn [after_wall_calls fold_left] in U1. destruct (C17_result pl _ _ _ _ U1 ND E2) as (S1 & _ & _ & _ & _ & _ & S7 & S8 & S9 & S10).
  assert (NO1 : n_ordinary m1 = length fe) by (unfold n_ordinary; destruct (cl_table _ _ _ _ C1) as [T _]; rewrite T, F1, NA1; lia).
  fold e in L2, L5, L6. rewrite R1, S1 in L2, L5, L6. assert (LF : length fe = length feats) by lia.
  assert (FEQ : fe = feats).
  { apply (list_eq_nth _ _ _ []); [exact LF|]. intros i Hi. assert (HT : forall row, In row fe -> length row = fst shape * snd shape). { intros row Hr. destruct (cl_table _ _ _ _ C1) as [_ T]. rewrite F1, Forall_forall in T. rewrite (T row Hr). apply (gi_ns _ _ _ _ (cl_grid _ _ _ _ C1)). }
    assert (L1 : length (nth i fe []) = fst shape * snd shape) by (apply HT, nth_In, Hi). assert (L0 : length (nth i feats []) = fst shape * snd shape) by (apply HNS, nth_In; lia).
    apply (list_eq_nth _ _ _ 0%R); [lia|]. intros s Hs. rewrite L1 in Hs. specialize (L6 i s ltac:(lia) Hs). rewrite FE, S8 in L6 by lia. unfold feat, get2 in L6. now rewrite F1 in L6. }
  assert (m1 = m) as ->; [|congruence]. eapply same_mdp; [exact C1|exact C|congruence..].
Qed.

(** With JSON, which passes no feature names, this holds of environments without ordinary features. *)
Theorem C190_json : forall w0 shape st m0 calls ss m' (w : world),
  grid_mdp (A:=R) Hex [] w0 shape st = Ok m0 -> make_env (after_wall_calls m0 calls) ss = (m', Ok (w_env _ w)) -> NoDup (map sp_name ss) ->
  (forall s, In s ss -> sp_fit s = None) -> (forall s r, In s ss -> In r (sp_reward s) -> whole r) -> w_self _ w = st -> kits_known K w ->
  exists d w', hex_env_to_json Rtrunc K w (Some []) = Ok d /\ hex_environment_from_json (A:=R) K d = Ok w' /\
    w_env _ w' = w_env _ w /\ w_self _ w' = w_self _ w /\ (forall a, In a (e_agents (w_env _ w)) -> kit_of _ w' (at_name a) = kit_of _ w (at_name a)).
Proof. intros w0 shape st m0 calls ss m' w H E ND NF WH ST KN. apply (C190_fresh [] w0 shape st m0 calls ss m' w []); auto; [intros row x []|constructor]. Qed.

(** ** C191, C192: resetting an environment that was loaded *)
(** It returns to what was saved: the agents stand where they stood when the environment was saved, and its ordinary features are
    those of that time, whatever was done since loading. *)
Theorem C192_saved : forall pl nf shape st (w : world) names, hex_built pl nf shape st (w_env _ w) -> w_self _ w = st -> kits_known K w ->
  binary_features K nf w -> whole_rewards K w -> length names = nf -> NoDup names ->
  exists d w', hex_env_to_dict Rtrunc K w (Some names) FIndex = Ok d /\ hex_environment_from_dict (A:=R) K d names = Ok w' /\
    forall ops, exists e', env_reset (run pl (w_env _ w') ops) = (e', Ok tt) /\
      (forall a, In a (e_agents (w_env _ w)) -> exists b, In b (e_agents e') /\ at_name b = at_name a /\ at_pos b = at_pos a /\ at_hist b = [at_pos a]) /\
      (forall i s, i < nf -> s < fst shape * snd shape -> feat (e_mdp e') i s = feat (e_mdp (w_env _ w)) i s).
Proof.
  intros pl nf shape st w names HB ST KN BF WR LN ND. destruct (C56_dict K _ _ _ _ _ names HB ST KN BF WR LN ND) as (d & w' & ED & EW & RL). exists d, w'. split; [exact ED|]. split; [exact EW|].
  assert (X : exists m1 ss m2, usable pl m1 /\ make_env m1 ss = (m2, Ok (w_env K w'))).
  { unfold hex_environment_from_dict in EW. destruct (negb _) in EW; [discriminate|]. apply bind_ok in EW. destruct EW as (fe & _ & EW). apply bind_ok in EW. destruct EW as (wl & _ & EW). apply bind_ok in EW. destruct EW as (m1 & E1 & EW). apply bind_ok in EW. destruct EW as (xs & EX & EW).
    destruct (forallb _ _) in EW; [|discriminate]. destruct (make_env m1 _) as [m2 [e2|x]] eqn:E2; cbn [snd bind] in EW; [|discriminate]. injection EW as <-. exists m1. eexists. exists m2. split; [exact (usable_grid pl _ _ _ _ _ _ [] E1)|exact E2]. }
  destruct X as (m1 & ss & m2 & U & E2). intros ops. destruct (C18_reset pl _ _ _ _ ops U E2) as (e' & ER & FE & _ & AG). exists e'. split; [exact ER|]. destruct RL as (_ & _ & _ & _ & _ & L6 & _ & L8 & _). split.
  - intros a Ha. apply In_nth_error in Ha. destruct Ha as (i & Ha). destruct (L8 i a Ha) as (b & Hb & B1 & _ & B3 & _). destruct (AG b (nth_error_In _ _ Hb)) as (c & Hc & C1 & C2 & C3 & _). exists c. split; [exact Hc|]. rewrite C1, C2, C3, B1, B3. auto.
  - intros i s Hi Hs. rewrite <- L6 by assumption. unfold feat. now rewrite FE.
Qed.

(** So whenever an agent had left its starting place before saving, resetting the loaded environment does not
    return it there. *)
Theorem C191_start_refuted : forall pl nf shape st (w : world) names e0 a b0, hex_built pl nf shape st (w_env _ w) -> w_self _ w = st -> kits_known K w ->
  binary_features K nf w -> whole_rewards K w -> length names = nf -> NoDup names ->
  env_reset (w_env _ w) = (e0, Ok tt) -> In b0 (e_agents e0) -> In a (e_agents (w_env _ w)) -> at_name b0 = at_name a -> at_pos b0 <> at_pos a ->
  exists d w' e1 b1, hex_env_to_dict Rtrunc K w (Some names) FIndex = Ok d /\ hex_environment_from_dict (A:=R) K d names = Ok w' /\
    env_reset (w_env _ w') = (e1, Ok tt) /\ In b1 (e_agents e1) /\ at_name b1 = at_name b0 /\ at_pos b1 <> at_pos b0.
Proof.
  intros pl nf shape st w names e0 a b0 HB ST KN BF WR LN ND E0 H0 Ha NM NE. destruct (C192_saved _ _ _ _ _ names HB ST KN BF WR LN ND) as (d & w' & ED & EW & H). destruct (H []) as (e1 & E1 & AG & _). destruct (AG a Ha) as (b1 & Hb & B1 & B2 & _).
  exists d, w', e1, b1. split; [exact ED|]. split; [exact EW|]. split; [exact E1|]. split; [exact Hb|]. split; congruence.
Qed.
End Fresh.

(** The hypotheses are met. *)
Lemma fresh_world : exists m m' (w : world (A:=R) unit), grid_mdp (A:=R) Hex io_ft (Some io_walls) (2, 3) false = Ok m /\ make_env m [io_p] = (m', Ok (w_env _ w)) /\ w_self _ w = false /\ kits_known unit w.
Proof.
  destruct (grid_mdp_ok Hex io_ft (Some io_walls) (2, 3) false) as (m & E & G & H1 & H2 & H3 & H4 & H5 & H6).
  { cbn; lia. } { repeat constructor. } { reflexivity. } { apply Forall_forall. intros x Hx. cbn in Hx. cbn. intuition. }
  set (pl := mkPlugins (fun _ _ _ _ => Err ValueError) (fun _ _ _ => Err ValueError) (fun _ _ => Err ValueError) (fun _ => false) : plugins R).
  pose proof (usable_grid pl _ _ _ _ _ _ [] E) as U. cbn [after_wall_calls fold_left] in U. assert (NO : n_ordinary m = 1) by (unfold n_ordinary; rewrite H4, H5; reflexivity). assert (NS : m_n_states m = 6) by apply (gi_ns _ _ _ _ G).
  destruct (proj2 (C17_accepts_iff pl m [io_p] U)) as (m' & e & E2). { rewrite NO, NS. intros s [<-|[]]. split; [reflexivity|]. split; [cbn; intros z Hz; lia|cbn; lia]. }
  assert (ND : NoDup (map sp_name [io_p (A:=R)])) by (repeat constructor; intros []). destruct (C17_result pl _ _ _ _ U ND E2) as (_ & _ & _ & _ & R5 & R6 & _).
  exists m, m', (mkWorld unit e false [("p"%string, io_kit)]). cbn [w_env w_self]. split; [exact E|]. split; [exact E2|]. split; [reflexivity|].
  destruct (R6 0 _ eq_refl) as (a & Ha & F & _). destruct F as (A1 & _). destruct (e_agents e) as [|a' [|? ?]] eqn:EA; cbn in R5; try discriminate. cbn in Ha. assert (a' = a) by congruence. subst a'.
  intros b Hb. cbn [w_env] in Hb. rewrite EA in Hb. destruct Hb as [<-|[]]. exists io_kit. rewrite A1. split; [reflexivity|]. split; [reflexivity|now right].
Qed.

Example C190_example : exists (w : world (A:=R) unit) d w', length (e_agents (w_env _ w)) = 1 /\ hex_env_to_dict Rtrunc unit w (Some ["food"%string]) FIndex = Ok d /\ hex_environment_from_dict (A:=R) unit d ["food"%string] = Ok w' /\ w_env _ w' = w_env _ w.
Proof.
  destruct fresh_world as (m & m' & w & E & E2 & ST & KN). set (pl := mkPlugins (fun _ _ _ _ => Err ValueError) (fun _ _ _ => Err ValueError) (fun _ _ => Err ValueError) (fun _ => false) : plugins R).
  destruct (C190_fresh unit io_ft (Some io_walls) (2, 3) false m [] [io_p] m' w ["food"%string] E E2) as (d & w' & H1 & H2 & H3 & _); auto.
  { repeat constructor; intros []. } { intros s [<-|[]]. reflexivity. } { intros row x [<-|[]] Hx. cbn in Hx. intuition. } { intros s r [<-|[]] [<-|[<-|[]]]; [now exists 1%Z|now exists (-2)%Z]. } { repeat constructor; intros []. }
  exists w, d, w'. split; [|auto]. pose proof (usable_grid pl _ _ _ _ _ _ [] E) as U. assert (ND : NoDup (map sp_name [io_p (A:=R)])) by (repeat constructor; intros []). now destruct (C17_result pl _ _ _ _ U ND E2) as (_ & _ & _ & _ & R5 & _).
Qed.

(** An agent moved from state 0 to state 2 before saving: a reset of the original returns it to 0, a reset of the loaded environment returns it to 2. *)
Example C191_example : exists m m' e d w', grid_mdp (A:=Q) Hex [[1; 0; 0; 1; 0; 0]]%Q (Some [0; 0; 0; 0; 1; 0]%Q) (2, 3) false = Ok m /\
  make_env m [mkSpec "p"%string 2 None 0 [1; -2]%Q [0%Z]] = (m', Ok e) /\
  let e1 := fst (set_agent_position e "p"%string 2) in
  hex_env_to_dict Qtrunc unit (mkWorld unit e1 false [("p"%string, io_kit)]) (Some ["food"%string]) FIndex = Ok d /\ hex_environment_from_dict (A:=Q) unit d ["food"%string] = Ok w' /\
  map at_pos (e_agents e1) = [2%Z] /\ map at_pos (e_agents (fst (env_reset e1))) = [0%Z] /\ map at_pos (e_agents (fst (env_reset (w_env _ w')))) = [2%Z].
Proof.
  do 5 eexists. split; [vm_compute; reflexivity|]. split; [vm_compute; reflexivity|]. split; [vm_compute; reflexivity|]. split; [vm_compute; reflexivity|]. split; [vm_compute; reflexivity|]. split; vm_compute; reflexivity.
Qed.
