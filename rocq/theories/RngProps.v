(** Properties C136-C139: which runs can be repeated. *)
From Coq Require Import String List ZArith QArith Reals Bool Lia.
From Verif Require Import PyBase PyProofs GridModel GridSpec MDPModel MDPSpec MDPProofs MDPProofs2 MDPProofs3 MDPProofs4 MDPProps ActionModel ActionSpec EnvModel EnvSpec EnvProofs EnvProofs2 EnvProofs3 EnvProofs4 EnvProps StepProps VIModel VIEnvProps MCTSModel MCTSRun AgainSpec Again AgainProps RngModel RngSpec QueryProofs.
Import ListNotations.
Local Close Scope Q_scope.
Local Open Scope nat_scope.

(** ** Runs with generators are runs *)
Section Run.
Context {A : Type} {NA : Num A} (pl : plugins A) (D : generators A).

Lemma r_loop_run : forall nm rf st t l p todo i acc g e g' e' r, r_loop pl D g e nm rf st t l p i todo acc = (g', e', r) ->
  exists rnd, multi_loop pl e nm rf st t l p rnd i todo acc = (e', r).
Proof using.
  intros nm rf st t l p todo. induction todo as [|todo IH]; intros i acc g e g' e' r E; cbn [r_loop] in E.
  { inversion E. exists (fun _ => 0). reflexivity. }
  assert (AG : forall todo0 j acc0 e0 rnd rnd', (forall x, 3 * j <= x -> rnd x = rnd' x) -> multi_loop pl e0 nm rf st t l p rnd j todo0 acc0 = multi_loop pl e0 nm rf st t l p rnd' j todo0 acc0).
  { clear. induction todo0 as [|todo0 IH]; intros j acc0 e0 rnd rnd' H; [reflexivity|]. cbn [multi_loop]. rewrite !H by lia. destruct (refit_step _ _ _ _ _ _ _ _ _ _) as [e1 [u|x]]; [|reflexivity].
    destruct (env_step _ _ _ _) as [e2 [z|x]]; [|reflexivity]. destruct (_ && _); [reflexivity|]. apply IH. intros y Hy. apply H. lia. }
  set (s1 := rg_search g) in *.
  destruct (if rf then _ else _) as [[g1 e1] r1] eqn:E1.
  assert (X1 : exists s s', refit_step pl e nm rf i t l p s s' = (e1, r1)).
  { unfold refit_step. destruct rf; [|inversion E1; exists 0, 0; reflexivity]. destruct (step_plan i t l p) as [pp|x]; [|inversion E1; exists 0, 0; reflexivity].
    unfold r_fit in E1. destruct (env_fit pl e nm (Some pp) (rg_search g) (rng_state g nm)) as [e9 r9] eqn:EF. inversion E1. subst. eauto. }
  destruct X1 as (s & s' & X1). destruct r1 as [u|x].
  2:{ inversion E. subst. exists (fun x => if x =? 3 * i then s else s'). cbn [multi_loop]. rewrite Nat.eqb_refl. replace (3 * i + 1 =? 3 * i) with false by (symmetry; apply Nat.eqb_neq; lia). rewrite X1. reflexivity. }
  unfold r_step in E. destruct (env_step pl e1 nm (rng_state g1 nm)) as [e2 r2] eqn:E2.
  destruct r2 as [z|x].
  2:{ inversion E. subst. exists (fun x => if x =? 3 * i then s else if x =? 3 * i + 1 then s' else rng_state g1 nm). cbn [multi_loop]. rewrite !Nat.eqb_refl.
      replace (3 * i + 1 =? 3 * i) with false by (symmetry; apply Nat.eqb_neq; lia). replace (3 * i + 2 =? 3 * i) with false by (symmetry; apply Nat.eqb_neq; lia). replace (3 * i + 2 =? 3 * i + 1) with false by (symmetry; apply Nat.eqb_neq; lia).
      rewrite X1, E2. reflexivity. }
  set (wc := match find_agent (e_agents e2) nm with Some a => caught e2 a | None => false end) in *.
  assert (Y : exists rnd', (if wc && st then (e2, Ok StoppedCaught) else multi_loop pl e2 nm rf st t l p rnd' (S i) todo (acc ++ [z])) = (e', r)).
  { destruct (wc && st); [inversion E; exists (fun _ => 0); reflexivity|]. exact (IH _ _ _ _ _ _ _ E). }
  destruct Y as (rnd' & Y). exists (fun x => if x =? 3 * i then s else if x =? 3 * i + 1 then s' else if x =? 3 * i + 2 then rng_state g1 nm else rnd' x). cbn [multi_loop]. rewrite !Nat.eqb_refl.
  replace (3 * i + 1 =? 3 * i) with false by (symmetry; apply Nat.eqb_neq; lia). replace (3 * i + 2 =? 3 * i) with false by (symmetry; apply Nat.eqb_neq; lia). replace (3 * i + 2 =? 3 * i + 1) with false by (symmetry; apply Nat.eqb_neq; lia).
  rewrite X1, E2. fold wc. rewrite <- Y. destruct (wc && st); [reflexivity|]. apply AG. intros x Hx.
  replace (x =? 3 * i) with false by (symmetry; apply Nat.eqb_neq; lia). replace (x =? 3 * i + 1) with false by (symmetry; apply Nat.eqb_neq; lia). replace (x =? 3 * i + 2) with false by (symmetry; apply Nat.eqb_neq; lia). reflexivity.
Qed.
Lemma r_multi_run : forall nm ns pn t rf st g e g' e' r, r_multi pl D g e nm ns pn t rf st = (g', e', r) -> exists rnd, step_multi pl e nm ns pn t rf st rnd = (e', r).
Proof using.
  intros nm ns pn t rf st g e g' e' r E. unfold r_multi, step_multi in *. destruct (lookup e nm) as [a|x]; [|inversion E; exists (fun _ => 0); reflexivity].
  destruct (all_n_steps e nm) as [l|x]; [|inversion E; exists (fun _ => 0); reflexivity]. destruct (negb (_ =? _)); [inversion E; exists (fun _ => 0); reflexivity|].
  destruct ns as [|n|[|n ns]|]; try (inversion E; exists (fun _ => 0); reflexivity); (destruct (negb _); [inversion E; exists (fun _ => 0); reflexivity|]); try (inversion E; exists (fun _ => 0); reflexivity); exact (r_loop_run _ _ _ _ _ _ _ _ _ _ _ _ _ _ E).
Qed.
(** The call [o'] of the base model is the call [o] with some draws. *)
Definition is_call (o : rop A) (o' : op A) : Prop :=
  match o, o' with
  | RFit nm n, OFit nm' n' _ _ => nm' = nm /\ n' = n
  | RStep nm, OStep nm' _ => nm' = nm
  | RStepMulti nm n p t rf st, OStepMulti nm' n' p' t' rf' st' _ => nm' = nm /\ n' = n /\ p' = p /\ t' = t /\ rf' = rf /\ st' = st
  | RStepProba nm p, OStepProba nm' p' _ => nm' = nm /\ p' = p
  | RInteractive l n, OInteractive l' n' => l' = l /\ n' = n
  | RSetPosition nm p, OSetPosition nm' p' => nm' = nm /\ p' = p
  | RSetWalls w, OSetWalls w' => w' = w
  | RReset, OReset => True
  | _, _ => False
  end.
Lemma r_op_run : forall g e o g' e' out, r_op pl D g e o = (g', e', out) ->
  (library_call o = false /\ e' = e /\ out = []) \/ (library_call o = true /\ exists o', is_call o o' /\ e' = do_op pl e o' /\ out = [reports pl e o']).
Proof using.
  intros g e o g' e' out E. destruct o; cbn [r_op library_call] in *.
  - right. split; [reflexivity|]. unfold r_fit in E. destruct (env_fit _ _ _ _ _ _) as [e1 r] eqn:EF. inversion E. subst. eexists (OFit _ _ _ _). split; [split; reflexivity|]. cbn [do_op reports]. rewrite EF. auto.
  - right. split; [reflexivity|]. unfold r_step in E. destruct (env_step _ _ _ _) as [e1 r] eqn:EF. inversion E. subst. eexists (OStep _ _). split; [reflexivity|]. cbn [do_op reports]. rewrite EF. auto.
  - right. split; [reflexivity|]. destruct (r_multi _ _ _ _ _ _ _ _ _ _) as [[g1 e1] r] eqn:EF. inversion E. subst. destruct (r_multi_run _ _ _ _ _ _ _ _ _ _ _ EF) as (rnd & X).
    exists (OStepMulti name n_steps plan n_turns refit stop rnd). split; [repeat split|]. cbn [do_op reports]. rewrite X. auto.
  - right. split; [reflexivity|]. unfold r_proba in E. destruct (env_step_proba _ _ _ _ _) as [e1 r] eqn:EF. inversion E. subst. eexists (OStepProba _ _ _). split; [split; reflexivity|]. cbn [do_op reports]. rewrite EF. auto.
  - right. split; [reflexivity|]. destruct (step_multi_interactive _ _ _) as [e1 r] eqn:EF. inversion E. subst. exists (OInteractive names n_moves). split; [split; reflexivity|]. cbn [do_op reports]. rewrite EF. auto.
  - right. split; [reflexivity|]. destruct (set_agent_position _ _ _) as [e1 r] eqn:EF. inversion E. subst. exists (OSetPosition name p). split; [split; reflexivity|]. cbn [do_op reports]. rewrite EF. auto.
  - right. split; [reflexivity|]. exists (OSetWalls walls). split; [reflexivity|]. cbn [do_op reports]. destruct (set_walls _ _); inversion E; auto.
  - right. split; [reflexivity|]. destruct (env_reset e) as [e1 r] eqn:EF. inversion E. subst. exists OReset. split; [exact I|]. cbn [do_op reports]. rewrite EF. auto.
  - left. inversion E. auto.
  - left. inversion E. auto.
Qed.
(** Every run with generators is a run of the environment for some choice of the draws: what is proved of all runs holds
    for it. *)
Theorem C136_is_a_run : forall p g e, exists l, Forall2 is_call (filter library_call p) l /\ final pl D g e p = run pl e l /\ answers pl D g e p = reports_all pl e l.
Proof using.
  unfold final, answers. induction p as [|o p IH]; intros g e; [exists []; repeat split; constructor|]. cbn [r_run filter].
  destruct (r_op pl D g e o) as [[g1 e1] out] eqn:E. specialize (IH g1 e1). destruct (r_run pl D g1 e1 p) as [[g2 e2] outs] eqn:E2. cbn [fst snd] in *. destruct IH as (l & H1 & H2 & H3).
  destruct (r_op_run _ _ _ _ _ _ E) as [(-> & -> & ->)|(-> & o' & K & -> & ->)]; [exists l; auto|].
  exists (o' :: l). split; [constructor; assumption|]. split; [exact H2|]. cbn [reports_all app]. now rewrite H3.
Qed.

(** ** C136: runs with seeds are reproducible *)

(** Generators that agree on everything a seeded, or a deterministic, run draws from. *)
Definition alike_rngs (shared : bool) (g1 g2 : rngs) : Prop :=
  (forall nm, rg_own g1 nm = rg_own g2 nm) /\ (if shared then rg_global g1 = rg_global g2 else forall nm, rg_own g1 nm <> None).
Context (DT : deterministic pl) (shared : bool).
Lemma state_alike : forall g1 g2 nm, alike_rngs shared g1 g2 -> rng_state g1 nm = rng_state g2 nm.
Proof using.
  intros g1 g2 nm [H1 H2]. unfold rng_state. rewrite H1. destruct (rg_own g2 nm) eqn:E; [reflexivity|]. destruct shared; [exact H2|]. elim (H2 nm). now rewrite H1.
Qed.
Lemma advance_alike : forall g1 g2 nm s, alike_rngs shared g1 g2 -> alike_rngs shared (rng_advance g1 nm s) (rng_advance g2 nm s).
Proof using.
  intros g1 g2 nm s [H1 H2]. unfold rng_advance. rewrite H1. destruct (rg_own g2 nm) eqn:E; split; cbn [rg_own rg_global]; auto.
  - intros x. now rewrite H1.
  - destruct shared; [exact H2|]. intros x. destruct (String.eqb x nm); [discriminate|apply H2].
  - destruct shared; [reflexivity|exact H2].
Qed.
Lemma draws_alike : forall g1 g2 nm q, alike_rngs shared g1 g2 -> alike_rngs shared (policy_draws pl D g1 nm q) (policy_draws pl D g2 nm q).
Proof using. intros g1 g2 nm q H. unfold policy_draws. destruct (get_pi_p _ q); [|exact H]. rewrite (state_alike _ _ nm H). now apply advance_alike. Qed.
Definition agree {X} (r1 r2 : rngs * env A * X) : Prop := alike_rngs shared (fst (fst r1)) (fst (fst r2)) /\ snd (fst r1) = snd (fst r2) /\ snd r1 = snd r2.
Lemma agree_parts : forall {X} g1 g2 e (r : X), alike_rngs shared g1 g2 -> agree (g1, e, r) (g2, e, r). Proof using. intros. split; [assumption|split; reflexivity]. Qed.
Lemma env_fit_seed : forall e nm n s1 s2 s', env_fit pl e nm n s1 s' = env_fit pl e nm n s2 s'.
Proof using DT. intros. unfold env_fit. destruct (lookup e nm) as [a|]; [|reflexivity]. unfold alg_fit. rewrite (DT (at_name a) e n s1 s2). reflexivity. Qed.
Lemma r_fit_alike : forall g1 g2 e nm n, alike_rngs shared g1 g2 -> agree (r_fit pl D g1 e nm n) (r_fit pl D g2 e nm n).
Proof using DT.
  intros g1 g2 e nm n H. unfold r_fit. rewrite (state_alike _ _ nm H), (env_fit_seed e nm n (rg_search g1) (rg_search g2)). destruct (env_fit pl e nm n _ _) as [e' r]. apply agree_parts.
  destruct (lookup e nm) as [a|]; [|exact H]. destruct (negb _); [exact H|]. replace (alg_fit pl e a n (rg_search g1)) with (alg_fit pl e a n (rg_search g2)) by (unfold alg_fit; now rewrite (DT (at_name a) e n (rg_search g2) (rg_search g1))).
  destruct (alg_fit pl e a n (rg_search g2)) as [[v q]|]; [|exact H]. apply draws_alike. exact H.
Qed.
Lemma r_step_alike : forall g1 g2 e nm, alike_rngs shared g1 g2 -> agree (r_step pl D g1 e nm) (r_step pl D g2 e nm).
Proof using.
  intros g1 g2 e nm H. unfold r_step. rewrite (state_alike _ _ nm H). destruct (env_step pl e nm _) as [e' r]. apply agree_parts. destruct (lookup e nm) as [a|]; [|exact H]. destruct (at_fit a) as [[v q]|]; [now apply draws_alike|exact H].
Qed.
Lemma r_proba_alike : forall g1 g2 e nm p, alike_rngs shared g1 g2 -> agree (r_proba pl D g1 e nm p) (r_proba pl D g2 e nm p).
Proof using.
  intros g1 g2 e nm p H. unfold r_proba. rewrite (state_alike _ _ nm H). destruct (env_step_proba pl e nm p _) as [e' r]. apply agree_parts. destruct (lookup e nm) as [a|]; [|exact H].
  destruct (match p with Some _ => _ | None => _ end); [|exact H]. destruct (at_fit a) as [[v q]|]; [now apply draws_alike|exact H].
Qed.
Lemma r_loop_alike : forall nm rf st t l p todo i acc g1 g2 e, alike_rngs shared g1 g2 -> agree (r_loop pl D g1 e nm rf st t l p i todo acc) (r_loop pl D g2 e nm rf st t l p i todo acc).
Proof using DT.
  intros nm rf st t l p todo. induction todo as [|todo IH]; intros i acc g1 g2 e H; cbn [r_loop]; [now apply agree_parts|].
  assert (X : agree (if rf then match step_plan i t l p with Ok pp => r_fit pl D g1 e nm (Some pp) | Err x => (g1, e, Err x) end else (g1, e, Ok tt))
                    (if rf then match step_plan i t l p with Ok pp => r_fit pl D g2 e nm (Some pp) | Err x => (g2, e, Err x) end else (g2, e, Ok tt))).
  { destruct rf; [|now apply agree_parts]. destruct (step_plan i t l p); [now apply r_fit_alike|now apply agree_parts]. }
  destruct (if rf then match step_plan i t l p with Ok pp => r_fit pl D g1 e nm (Some pp) | Err x => (g1, e, Err x) end else (g1, e, Ok tt)) as [[h1 e1] r1].
  destruct (if rf then match step_plan i t l p with Ok pp => r_fit pl D g2 e nm (Some pp) | Err x => (g2, e, Err x) end else (g2, e, Ok tt)) as [[h2 e2] r2].
  destruct X as (X1 & X2 & X3). cbn [fst snd] in *. subst e2 r2. destruct r1 as [u|x]; [|now apply agree_parts].
  pose proof (r_step_alike h1 h2 e1 nm X1) as Y. destruct (r_step pl D h1 e1 nm) as [[h3 e3] r3]. destruct (r_step pl D h2 e1 nm) as [[h4 e4] r4]. destruct Y as (Y1 & Y2 & Y3). cbn [fst snd] in *. subst e4 r4.
  destruct r3 as [z|x]; [|now apply agree_parts]. destruct (_ && st); [now apply agree_parts|]. now apply IH.
Qed.
Lemma r_op_alike : forall g1 g2 e o, library_call o = true -> alike_rngs shared g1 g2 -> agree (r_op pl D g1 e o) (r_op pl D g2 e o).
Proof using DT.
  intros g1 g2 e o L H. destruct o; try discriminate L; cbn [r_op].
  - pose proof (r_fit_alike g1 g2 e name n_moves H) as X. destruct (r_fit pl D g1 e name n_moves) as [[h1 e1] r1]. destruct (r_fit pl D g2 e name n_moves) as [[h2 e2] r2]. destruct X as (X1 & X2 & X3). cbn [fst snd] in *. subst. now apply agree_parts.
  - pose proof (r_step_alike g1 g2 e name H) as X. destruct (r_step pl D g1 e name) as [[h1 e1] r1]. destruct (r_step pl D g2 e name) as [[h2 e2] r2]. destruct X as (X1 & X2 & X3). cbn [fst snd] in *. subst. now apply agree_parts.
  - assert (X : agree (r_multi pl D g1 e name n_steps plan n_turns refit stop) (r_multi pl D g2 e name n_steps plan n_turns refit stop)).
    { unfold r_multi. destruct (lookup e name) as [a|]; [|now apply agree_parts]. destruct (all_n_steps e name); [|now apply agree_parts]. destruct (negb (_ =? _)); [now apply agree_parts|].
      destruct n_steps as [|n|[|n ns]|]; try (now apply agree_parts); (destruct (negb _); [now apply agree_parts|]); first [now apply r_loop_alike|now apply agree_parts]. }
    destruct (r_multi pl D g1 e name n_steps plan n_turns refit stop) as [[h1 e1] r1]. destruct (r_multi pl D g2 e name n_steps plan n_turns refit stop) as [[h2 e2] r2]. destruct X as (X1 & X2 & X3). cbn [fst snd] in *. subst. now apply agree_parts.
  - pose proof (r_proba_alike g1 g2 e name position H) as X. destruct (r_proba pl D g1 e name position) as [[h1 e1] r1]. destruct (r_proba pl D g2 e name position) as [[h2 e2] r2]. destruct X as (X1 & X2 & X3). cbn [fst snd] in *. subst. now apply agree_parts.
  - destruct (step_multi_interactive _ _ _). now apply agree_parts.
  - destruct (set_agent_position _ _ _). now apply agree_parts.
  - destruct (set_walls _ _); now apply agree_parts.
  - destruct (env_reset e). now apply agree_parts.
Qed.
End Run.

Lemma r_run_cons : forall {A} `{Num A} (pl : plugins A) D g e o p, r_run pl D g e (o :: p) =
  let '(g1, e1, out) := r_op pl D g e o in let '(g2, e2, outs) := r_run pl D g1 e1 p in (g2, e2, out ++ outs).
Proof. reflexivity. Qed.
Lemma run_alike : forall {A} `{Num A} (pl : plugins A) D, deterministic pl -> forall p1 p2 g1 g2 e, alike_rngs false g1 g2 -> filter library_call p1 = filter library_call p2 ->
  agree false (r_run pl D g1 e p1) (r_run pl D g2 e p2).
Proof.
  intros A NA pl D DT p1. induction p1 as [|o p1 IH].
  - induction p2 as [|o2 p2 IH2]; intros g1 g2 e G E; [now apply agree_parts|]. cbn [filter] in E. destruct (library_call o2) eqn:L2; [discriminate|].
    rewrite r_run_cons. assert (X : exists g', r_op pl D g2 e o2 = (g', e, []) /\ alike_rngs false g1 g').
    { destruct o2; try discriminate L2; cbn [r_op]; eexists; (split; [reflexivity|]); exact G. }
    destruct X as (g' & -> & G'). specialize (IH2 g1 g' e G' E). destruct (r_run pl D g' e p2) as [[h k] outs]. exact IH2.
  - intros p2 g1 g2 e G E. cbn [filter] in E. destruct (library_call o) eqn:L.
    + revert g2 G E. induction p2 as [|o2 p2 IH2]; intros g2 G E; [discriminate|]. cbn [filter] in E. destruct (library_call o2) eqn:L2.
      * inversion E as [[Eo Ep]]. subst o2. rewrite !r_run_cons. pose proof (r_op_alike pl D DT false g1 g2 e o L G) as X.
        destruct (r_op pl D g1 e o) as [[h1 e1] r1]. destruct (r_op pl D g2 e o) as [[h2 e2] r2]. destruct X as (X1 & X2 & X3). cbn [fst snd] in *. subst e2 r2.
        specialize (IH p2 h1 h2 e1 X1 Ep). destruct (r_run pl D h1 e1 p1) as [[h3 e3] r3]. destruct (r_run pl D h2 e1 p2) as [[h4 e4] r4]. destruct IH as (Y1 & Y2 & Y3). cbn [fst snd] in *. subst. now apply agree_parts.
      * rewrite (r_run_cons pl D g2). assert (X : exists g', r_op pl D g2 e o2 = (g', e, []) /\ alike_rngs false g1 g').
        { destruct o2; try discriminate L2; cbn [r_op]; eexists; (split; [reflexivity|]); exact G. }
        destruct X as (g' & -> & G'). specialize (IH2 g' G' E). destruct (r_run pl D g' e p2) as [[h k] outs]. exact IH2.
    + rewrite r_run_cons. assert (X : exists g', r_op pl D g1 e o = (g', e, []) /\ alike_rngs false g' g2).
      { destruct o; try discriminate L; cbn [r_op]; eexists; (split; [reflexivity|]); exact G. }
      destruct X as (g' & -> & G'). specialize (IH p2 g' g2 e G' E). destruct (r_run pl D g' e p1) as [[h k] outs]. exact IH.
Qed.

(** Two runs of the same calls, by agents that all have a seed and algorithms without random choices, give the same answers and
    end the same, whatever state the process's other generators are in and whatever other code does to them in between. *)
Theorem C136_seeded : forall {A} `{Num A} (pl : plugins A) D start seeds e p1 p2 gl1 se1 gl2 se2, deterministic pl -> (forall nm, seeds nm <> None) ->
  filter library_call p1 = filter library_call p2 ->
  let g1 := new_rngs start seeds gl1 se1 in let g2 := new_rngs start seeds gl2 se2 in
  answers pl D g1 e p1 = answers pl D g2 e p2 /\ final pl D g1 e p1 = final pl D g2 e p2.
Proof.
  intros A NA pl D start seeds e p1 p2 gl1 se1 gl2 se2 DT SD E g1 g2. assert (G : alike_rngs false g1 g2).
  { split; [reflexivity|]. intros nm. cbn. specialize (SD nm). now destruct (seeds nm). }
  destruct (run_alike pl D DT p1 p2 g1 g2 e G E) as (_ & X & Y). split; assumption.
Qed.
(** The same for agents without seeds, if [np.random.seed] is called first and no other code draws in between. *)
Theorem C136_numpy_seed : forall {A} `{Num A} (pl : plugins A) D start seeds e s p gl1 se1 gl2 se2, deterministic pl -> Forall undisturbed p ->
  let g1 := new_rngs start seeds gl1 se1 in let g2 := new_rngs start seeds gl2 se2 in
  answers pl D g1 e (RSeed s :: p) = answers pl D g2 e (RSeed s :: p) /\ final pl D g1 e (RSeed s :: p) = final pl D g2 e (RSeed s :: p).
Proof.
  intros A NA pl D start seeds e s p gl1 se1 gl2 se2 DT U g1 g2. unfold answers, final. rewrite !r_run_cons. cbn [r_op app].
  assert (X : forall p h1 h2 e, Forall undisturbed p -> alike_rngs true h1 h2 -> agree true (r_run pl D h1 e p) (r_run pl D h2 e p)).
  { clear - DT. induction p as [|o p IH]; intros h1 h2 e U G; [now apply agree_parts|]. inversion U as [|? ? U1 U2]. subst. rewrite !r_run_cons.
    assert (Y : agree true (r_op pl D h1 e o) (r_op pl D h2 e o)).
    { destruct (library_call o) eqn:L; [now apply r_op_alike|]. destruct o; try discriminate L; cbn [undisturbed] in U1; [contradiction|]. cbn [r_op]. split; [|split; reflexivity]. destruct G as [G1 _]. split; [exact G1|reflexivity]. }
    destruct (r_op pl D h1 e o) as [[k1 e1] r1]. destruct (r_op pl D h2 e o) as [[k2 e2] r2]. destruct Y as (Y1 & Y2 & Y3). cbn [fst snd] in *. subst e2 r2.
    specialize (IH k1 k2 e1 U2 Y1). destruct (r_run pl D k1 e1 p) as [[k3 e3] r3]. destruct (r_run pl D k2 e1 p) as [[k4 e4] r4]. destruct IH as (Z1 & Z2 & Z3). cbn [fst snd] in *. subst. now apply agree_parts. }
  specialize (X p (mkRngs (rg_own g1) s (rg_search g1)) (mkRngs (rg_own g2) s (rg_search g2)) e U). destruct X as (_ & X & Y); [split; reflexivity|].
  destruct (r_run pl D (mkRngs (rg_own g1) s (rg_search g1)) e p) as [[h1 e1] r1]. destruct (r_run pl D (mkRngs (rg_own g2) s (rg_search g2)) e p) as [[h2 e2] r2]. auto.
Qed.

(** ** C138: the path of a seeded agent does not depend on the schedule *)

(** A call about other agents leaves an agent as it is. *)
Definition about_others {A} (nm : string) (o : op A) : Prop :=
  match o with
  | OFit n _ _ _ | OStep n _ | OStepMulti n _ _ _ _ _ _ | OStepProba n _ _ | OSetPosition n _ => n <> nm
  | OInteractive _ _ => True
  | OSetWalls _ | OReset => False
  end.
Section Others.
Context {A : Type} {NA : Num A} (pl : plugins A) (nm : string).
Notation fnd e := (find_agent (e_agents e) nm).
Lemma with_other : forall (e : env A) a, at_name a <> nm -> fnd (with_agent e a) = fnd e.
Proof using. intros e a N. cbn [with_agent e_agents]. now apply find_put_other. Qed.
Lemma consume_other : forall (e : env A) a, at_name a <> nm -> fnd (fst (env_consume e a)) = fnd e.
Proof using.
  intros e a N. unfold env_consume. destruct (at_consumes a); [reflexivity|]. destruct (consume_features _ _ _) as [m' [c|x]]; [|reflexivity]. destruct (_ =? _); [|reflexivity]. cbn [fst]. now rewrite with_other.
Qed.
Lemma step_other : forall (e : env A) n s, n <> nm -> fnd (fst (env_step pl e n s)) = fnd e.
Proof using.
  intros e n s N. unfold env_step. destruct (lookup e n) as [a|] eqn:L; [|reflexivity]. apply WorldProofs.lookup_in in L. destruct L as [_ L]. destruct (agent_step pl (e_mdp e) a s) as [[m1 a1] r] eqn:S. apply Again.astep_keeps in S. destruct S as (_ & _ & S).
  assert (N1 : at_name a1 <> nm) by congruence. destruct r; [|cbn [fst]; now rewrite with_other]. pose proof (consume_other (with_agent (with_mdp e m1) a1) a1 N1) as X. destruct (env_consume _ a1) as [e2 [u'|x]]; cbn [fst] in *; cbn [tick e_agents]; rewrite X; now rewrite with_other.
Qed.
Lemma fit_other : forall (e : env A) n k s s', n <> nm -> fnd (fst (env_fit pl e n k s s')) = fnd e.
Proof using.
  intros e n k s s' N. unfold env_fit. destruct (lookup e n) as [a|] eqn:L; [|reflexivity]. apply WorldProofs.lookup_in in L. destruct L as [_ L]. destruct (alg_fit pl e a k s) as [f|x].
  - destruct (get_policy pl (set_fit a (Some f)) s') as [a' r] eqn:GP. apply Again.policy_keeps in GP. destruct GP as (_ & _ & GP). cbn [fst]. apply with_other. cbn in GP. congruence.
  - cbn [fst]. unfold failed_fit. destruct (_ && _); [|reflexivity]. apply with_other. cbn. congruence.
Qed.
Lemma loop_other : forall n rf st t l p rnd todo i acc (e : env A), n <> nm -> fnd (fst (multi_loop pl e n rf st t l p rnd i todo acc)) = fnd e.
Proof using.
  intros n rf st t l p rnd todo. induction todo as [|todo IH]; intros i acc e N; [reflexivity|]. cbn [multi_loop].
  assert (X : fnd (fst (refit_step pl e n rf i t l p (rnd (3 * i)) (rnd (3 * i + 1)))) = fnd e).
  { unfold refit_step. destruct rf; [|reflexivity]. destruct (step_plan i t l p); [now apply fit_other|reflexivity]. }
  destruct (refit_step _ _ _ _ _ _ _ _ _ _) as [e1 [u|x]]; cbn [fst] in *; [|exact X]. pose proof (step_other e1 n (rnd (3 * i + 2)) N) as Y.
  destruct (env_step pl e1 n _) as [e2 [z|x]]; cbn [fst] in *; [|congruence]. destruct (_ && st); cbn [fst]; [congruence|]. rewrite IH by exact N. congruence.
Qed.
Lemma op_other : forall (e : env A) o, about_others nm o -> fnd (do_op pl e o) = fnd e.
Proof using.
  intros e o N. destruct o; cbn [about_others do_op] in *; try contradiction.
  - now apply fit_other.
  - now apply step_other.
  - unfold step_multi. destruct (lookup e name); [|reflexivity]. destruct (all_n_steps e name); [|reflexivity]. destruct (negb (_ =? _)); [reflexivity|].
    destruct n_steps as [|n|[|n ns]|]; try reflexivity; (destruct (negb _); [reflexivity|]); first [now apply loop_other|reflexivity].
  - unfold env_step_proba. destruct (lookup e name) as [a|] eqn:L; [|reflexivity]. apply WorldProofs.lookup_in in L. destruct L as [_ L]. destruct (agent_step_proba pl (e_mdp e) a position seed) as [a' r] eqn:S.
    assert (N1 : at_name a' <> nm).
    { unfold agent_step_proba in S. destruct (match position with Some _ => _ | None => _ end); [|inversion S; congruence]. destruct (negb _); [inversion S; congruence|]. destruct (at_fit a); [|inversion S; congruence].
      destruct (get_policy pl a seed) as [a1 r1] eqn:GP. apply Again.policy_keeps in GP. destruct GP as (_ & _ & GP). destruct r1; [destruct (at_pi_p a1)|]; inversion S; congruence. }
    destruct r; cbn [fst tick e_agents]; now rewrite with_other.
  - unfold step_multi_interactive. destruct n_moves as [[|r rs]|]; try reflexivity. destruct (mapM _ _); [|reflexivity]. now destruct (_ || _).
  - unfold set_agent_position. destruct (lookup e name) as [a|] eqn:L; [|reflexivity]. apply WorldProofs.lookup_in in L. destruct L as [_ L]. destruct (move_agent (e_mdp e) a p) as [[m' a'] r] eqn:M. apply Again.move_keeps in M. destruct M as (_ & _ & M).
    cbn [fst]. rewrite with_other by congruence. reflexivity.
Qed.
End Others.

(** The stepping agent, whatever the features. *)
Lemma move_same : forall k shape st k' shape' st' (e1 e2 : env R) a b p, wf k shape st e1 -> wf k' shape' st' e2 -> mident (e_mdp e1) = mident (e_mdp e2) -> In b (e_agents e2) -> at_idx b = at_idx a ->
  exists m1 m2 a' r, move_agent (e_mdp e1) a p = (m1, a', r) /\ move_agent (e_mdp e2) a p = (m2, a', r).
Proof.
  intros k shape st k' shape' st' e1 e2 a b p W1 W2 MI Hb EI. unfold mident in MI. injection MI as I1 I2 I3 I4 I5 I6 I7 I8.
  destruct (wf_agents _ _ _ _ W2 b Hb) as (Hi & _). rewrite EI in Hi.
  destruct (move_agent_spec (e_mdp e1) a p (wf_table _ _ _ _ W1) (wf_nf _ _ _ _ W1) ltac:(rewrite I8; exact Hi)) as [(s & S1 & S2 & M1)|[[H1 M1]|[H1 M1]]];
  destruct (move_agent_spec (e_mdp e2) a p (wf_table _ _ _ _ W2) (wf_nf _ _ _ _ W2) Hi) as [(s' & S3 & S4 & M2)|[[H2 M2]|[H2 M2]]]; rewrite M1, M2; try (do 4 eexists; split; reflexivity); exfalso.
  all: unfold stands_on in *; rewrite ?I3 in *; try (apply py_index_ok in S1); try (apply py_index_ok in S3); lia.
Qed.
Lemma astep_same : forall pl k shape st k' shape' st' (e1 e2 : env R) a s, wf k shape st e1 -> wf k' shape' st' e2 -> mident (e_mdp e1) = mident (e_mdp e2) -> core (e_mdp e1) = core (e_mdp e2) -> In a (e_agents e2) ->
  exists m1 m2 a' r, agent_step pl (e_mdp e1) a s = (m1, a', r) /\ agent_step pl (e_mdp e2) a s = (m2, a', r).
Proof.
  intros pl k shape st k' shape' st' e1 e2 a s W1 W2 MI CO Ha. unfold agent_step. destruct (at_fit a) eqn:F; [|do 4 eexists; split; reflexivity].
  destruct (get_policy pl a s) as [a1 [u|x]] eqn:GP; [|do 4 eexists; split; reflexivity].
  destruct (at_pi a1) as [pi|]; [|do 4 eexists; split; reflexivity]. destruct (let* i := py_index _ _ in _) as [act|x]; [|do 4 eexists; split; reflexivity]. destruct (act <? 0)%Z; [do 4 eexists; split; reflexivity|].
  assert (GN : get_next_state (e_mdp e1) (at_pos a1) act = get_next_state (e_mdp e2) (at_pos a1) act).
  { unfold get_next_state. unfold mident in MI. injection MI as I1 I2 I3 I4 I5 I6 I7 I8. unfold core in CO. injection CO as C1 C2 C3 C4. now rewrite I3, I4, C1, C2. }
  rewrite GN. destruct (get_next_state (e_mdp e2) (at_pos a1) act) as [t|x]; [|do 4 eexists; split; reflexivity].
  assert (EI : at_idx a = at_idx a1). { apply get_policy_spec in GP. destruct GP as (H1 & _). unfold ident in H1. now injection H1.  }
  pose proof MI as MI'. unfold mident in MI'. injection MI' as I1 I2 I3 I4 I5 I6 I7 I8.
  destruct (wf_agents _ _ _ _ W2 a Ha) as (Hi & _).
  destruct (move_same _ _ _ _ _ _ e1 e2 a1 a (Z.of_nat t) W1 W2 MI Ha EI) as (m1 & m2 & a2 & r & M1 & M2). rewrite M1, M2. destruct r as [v|x]; [|do 4 eexists; split; reflexivity].
  assert (T1 : table_ok m1 /\ m_n_features m1 = m_n_non_agent m1 + m_n_agents m1 /\ m_n_agents m1 = m_n_agents (e_mdp e2) /\ m_n_states m1 = m_n_states (e_mdp e2) /\ at_idx a2 = at_idx a).
  { destruct (move_agent_spec (e_mdp e1) a1 (Z.of_nat t) (wf_table _ _ _ _ W1) (wf_nf _ _ _ _ W1) ltac:(rewrite I8, <- EI; exact Hi)) as [(z & S1 & S2 & M3)|[[H1 M3]|[H1 M3]]]; rewrite M1 in M3; inversion M3. subst.
    split; [|split; [apply (wf_nf _ _ _ _ W1)|split; [exact I8|split; [exact I3|exact (eq_sym EI)]]]]. apply table_row_set; [apply (wf_table _ _ _ _ W1)|]. unfold onehot, zeros1; now rewrite upd_length, repeat_length. }
  assert (T2 : table_ok m2 /\ m_n_features m2 = m_n_non_agent m2 + m_n_agents m2 /\ m_n_agents m2 = m_n_agents (e_mdp e2) /\ m_n_states m2 = m_n_states (e_mdp e2)).
  { destruct (move_agent_spec (e_mdp e2) a1 (Z.of_nat t) (wf_table _ _ _ _ W2) (wf_nf _ _ _ _ W2) ltac:(rewrite <- EI; exact Hi)) as [(z & S1 & S2 & M3)|[[H1 M3]|[H1 M3]]]; rewrite M2 in M3; inversion M3. subst.
    split; [|split; [apply (wf_nf _ _ _ _ W2)|split; reflexivity]]. apply table_row_set; [apply (wf_table _ _ _ _ W2)|]. unfold onehot, zeros1; now rewrite upd_length, repeat_length. }
  destruct T1 as (T1 & N1 & A1 & S1 & E2). destruct T2 as (T2 & N2 & A2 & S2). cbn [set_hist at_idx at_pos].
  rewrite (update_agent_spec m1), (update_agent_spec m2), S1, S2 by (assumption || (rewrite E2, ?A1, ?A2; exact Hi)). destruct (py_index _ _); do 4 eexists; split; reflexivity.
Qed.
Definition track (nm : string) (e1 e2 : env R) : Prop :=
  match find_agent (e_agents e1) nm, find_agent (e_agents e2) nm with
  | Some a1, Some a2 => exists c, a1 = set_consumed a2 c
  | None, None => True
  | _, _ => False
  end.
Definition frame (e e' : env R) : Prop := static e e' /\ core (e_mdp e') = core (e_mdp e).
Lemma r_frame : forall pl D k shape st g e o g' e' out nm, wf k shape st e -> keeps_plan_of nm o -> r_op pl D g e o = (g', e', out) ->
  wf k shape st e' /\ frame e e' /\ (acts nm o = false -> find_agent (e_agents e') nm = find_agent (e_agents e) nm).
Proof.
  intros pl D k shape st g e o g' e' out nm W KP E. destruct (r_op_run pl D _ _ _ _ _ _ E) as [(L & -> & ->)|(L & o' & C & -> & ->)]; [split; [exact W|split; [split; [apply static_refl|reflexivity]|auto]]|].
  split; [now apply do_op_wf|]. split.
  - split; [eapply muts_static; [exact W|eapply do_op_muts; exact W]|]. eapply op_core; [exact W|]. destruct o, o'; cbn [is_call keeps_plan_of] in *; try contradiction; reflexivity.
  - intros NA. apply op_other. destruct o, o'; cbn [is_call keeps_plan_of about_others acts] in *; try contradiction; try exact I; try (replace name0 with name by (symmetry; apply C); exact KP).
    + subst. now apply String.eqb_neq.
    + destruct C as [-> _]. now apply String.eqb_neq.
    + destruct C as [-> _]. now apply String.eqb_neq.
Qed.
Lemma r_own_other : forall {A} `{Num A} (pl : plugins A) D g e o g' e' out nm, keeps_plan_of nm o -> acts nm o = false -> r_op pl D g e o = (g', e', out) ->
  rg_own g nm <> None -> rg_own g' nm = rg_own g nm.
Proof.
  intros A NA pl D g e o g' e' out nm KP AC E NN.
  assert (ADV : forall g n s, n <> nm -> rg_own (rng_advance g n s) nm = rg_own g nm).
  { intros g0 n s N. unfold rng_advance. destruct (rg_own g0 n); [|reflexivity]. cbn [rg_own]. destruct (String.eqb_spec nm n); [congruence|reflexivity]. }
  assert (POL : forall g n q, n <> nm -> rg_own (policy_draws pl D g n q) nm = rg_own g nm).
  { intros g0 n q N. unfold policy_draws. destruct (get_pi_p _ q); [now apply ADV|reflexivity]. }
  assert (FIT : forall g e n k, n <> nm -> rg_own (fst (fst (r_fit pl D g e n k))) nm = rg_own g nm).
  { intros g0 e0 n k N. unfold r_fit. destruct (env_fit pl e0 n k _ _). cbn [fst]. destruct (lookup e0 n) as [a|]; [|reflexivity]. destruct (negb _); [reflexivity|]. destruct (alg_fit pl e0 a k _) as [[v q]|]; [now rewrite POL|reflexivity]. }
  assert (STP : forall g e n, n <> nm -> rg_own (fst (fst (r_step pl D g e n))) nm = rg_own g nm).
  { intros g0 e0 n N. unfold r_step. destruct (env_step pl e0 n _). cbn [fst]. destruct (lookup e0 n) as [a|]; [|reflexivity]. destruct (at_fit a) as [[v q]|]; [now rewrite POL|reflexivity]. }
  destruct o; cbn [r_op keeps_plan_of acts] in *; try contradiction.
  - pose proof (FIT g e name n_moves KP) as X. destruct (r_fit pl D g e name n_moves) as [[h1 e1] r1]. inversion E. subst. exact X.
  - apply String.eqb_neq in AC. pose proof (STP g e name AC) as X. destruct (r_step pl D g e name) as [[h1 e1] r1]. inversion E. subst. exact X.
  - assert (X : rg_own (fst (fst (r_multi pl D g e name n_steps plan n_turns refit stop))) nm = rg_own g nm).
    { assert (LP : forall todo g e i acc l p, rg_own (fst (fst (r_loop pl D g e name refit stop n_turns l p i todo acc))) nm = rg_own g nm).
      { clear E NN. induction todo as [|todo IH]; intros g0 e0 i acc l p; [reflexivity|]. cbn [r_loop].
        assert (Y : rg_own (fst (fst (if refit then match step_plan i n_turns l p with Ok pp => r_fit pl D g0 e0 name (Some pp) | Err x => (g0, e0, Err x) end else (g0, e0, Ok tt)))) nm = rg_own g0 nm).
        { destruct refit; [|reflexivity]. destruct (step_plan i n_turns l p); [now apply FIT|reflexivity]. }
        destruct (if refit then _ else _) as [[h1 e1] [u|x]]; cbn [fst] in *; [|exact Y]. pose proof (STP h1 e1 name KP) as Z. destruct (r_step pl D h1 e1 name) as [[h2 e2] [z|x]]; cbn [fst] in *; [|congruence].
        destruct (_ && stop); cbn [fst]; [congruence|]. rewrite IH. congruence. }
      unfold r_multi. destruct (lookup e name); [|reflexivity]. destruct (all_n_steps e name); [|reflexivity]. destruct (negb (_ =? _)); [reflexivity|].
      destruct n_steps as [|n|[|n ns]|]; try reflexivity; (destruct (negb _); [reflexivity|]); first [apply LP|reflexivity]. }
    destruct (r_multi _ _ _ _ _ _ _ _ _ _) as [[h1 e1] r1]. inversion E. subst. exact X.
  - apply String.eqb_neq in AC. unfold r_proba in E. destruct (env_step_proba _ _ _ _ _) as [e1 r1]. inversion E. subst. destruct (lookup e name) as [a|]; [|reflexivity]. destruct (match position with Some _ => _ | None => _ end); [|reflexivity].
    destruct (at_fit a) as [[v q]|]; [now rewrite POL|reflexivity].
  - destruct (step_multi_interactive _ _ _). inversion E. now subst.
  - destruct (set_agent_position _ _ _). inversion E. now subst.
  - inversion E. reflexivity.
  - inversion E. reflexivity.
Qed.
(** The agent after its own step. *)
Lemma find_with : forall {A} (e : env A) a nm, find_agent (e_agents e) nm <> None -> at_name a = nm -> find_agent (e_agents (with_agent e a)) nm = Some a.
Proof. intros A e a nm H N. cbn [with_agent e_agents]. rewrite <- N. apply find_put_same. now rewrite N. Qed.
Lemma lookup_find : forall {A} (e : env A) nm a, lookup e nm = Ok a -> find_agent (e_agents e) nm = Some a /\ at_name a = nm.
Proof. intros A e nm a H. unfold lookup in H. destruct (existsb _ _); [|discriminate]. destruct (find_agent (e_agents e) nm) as [b|] eqn:F; [|discriminate]. inversion H. subst. split; [reflexivity|]. unfold find_agent in F. apply find_some in F. now apply String.eqb_eq. Qed.
Lemma step_own : forall {A} `{Num A} (pl : plugins A) e nm s a m' a' r, lookup e nm = Ok a -> agent_step pl (e_mdp e) a s = (m', a', r) ->
  exists c, find_agent (e_agents (fst (env_step pl e nm s))) nm = Some (set_consumed a' c).
Proof.
  intros A NA pl e nm s a m' a' r L S. destruct (lookup_find _ _ _ L) as [F N]. unfold env_step. rewrite L, S. destruct (Again.astep_keeps _ _ _ _ _ _ _ S) as (_ & _ & N').
  assert (F1 : find_agent (e_agents (with_agent (with_mdp e m') a')) nm = Some a') by (apply find_with; [cbn [with_mdp e_agents]; rewrite F; discriminate|congruence]).
  assert (SC : a' = set_consumed a' (at_consumed a')) by now destruct a'.
  destruct r as [u|x]; [|cbn [fst]; rewrite F1; eexists; f_equal; exact SC]. unfold env_consume.
  destruct (at_consumes a'); [cbn [fst tick e_agents]; change (e_agents (tick ?x)) with (e_agents x); rewrite F1; eexists; f_equal; exact SC|].
  destruct (consume_features _ _ _) as [m2 [c|x]]; [|cbn [fst with_mdp e_agents]; eexists; rewrite <- SC; exact F1].
  destruct (_ =? _); cbn [fst]; [|eexists; cbn [with_mdp e_agents]; rewrite <- SC; exact F1].
  eexists. cbn [tick e_agents]. apply find_with; [cbn [with_mdp e_agents]; rewrite F1; discriminate|cbn; congruence].
Qed.
Lemma track_lookup : forall nm e1 e2, e_names e1 = e_names e2 -> track nm e1 e2 ->
  (exists x, lookup e1 nm = Err x /\ lookup e2 nm = Err x) \/ exists a c, lookup e1 nm = Ok (set_consumed a c) /\ lookup e2 nm = Ok a.
Proof.
  intros nm e1 e2 EN T. unfold lookup. rewrite EN. destruct (existsb _ _); [|eauto]. unfold track in T. destruct (find_agent (e_agents e1) nm) as [a1|], (find_agent (e_agents e2) nm) as [a2|]; try contradiction; [|eauto].
  destruct T as (c & ->). eauto.
Qed.
Lemma r_own : forall pl D k shape st g1 g2 e1 e2 o nm g1' e1' out1 g2' e2' out2, wf k shape st e1 -> wf k shape st e2 -> e_names e1 = e_names e2 -> mident (e_mdp e1) = mident (e_mdp e2) -> core (e_mdp e1) = core (e_mdp e2) ->
  track nm e1 e2 -> rg_own g1 nm = rg_own g2 nm -> rg_own g2 nm <> None -> acts nm o = true ->
  r_op pl D g1 e1 o = (g1', e1', out1) -> r_op pl D g2 e2 o = (g2', e2', out2) -> track nm e1' e2' /\ rg_own g1' nm = rg_own g2' nm /\ rg_own g2' nm <> None.
Proof.
  intros pl D k shape st g1 g2 e1 e2 o nm g1' e1' out1 g2' e2' out2 W1 W2 EN MI CO T G GN AC E1 E2.
  assert (ST : rng_state g1 nm = rng_state g2 nm) by (unfold rng_state; rewrite G; destruct (rg_own g2 nm); [reflexivity|contradiction]).
  assert (POL : forall q, rg_own (policy_draws pl D g1 nm q) nm = rg_own (policy_draws pl D g2 nm q) nm /\ rg_own (policy_draws pl D g2 nm q) nm <> None).
  { intros q. unfold policy_draws. destruct (get_pi_p _ q); [|auto]. rewrite ST. unfold rng_advance. rewrite G. destruct (rg_own g2 nm); [|contradiction]. cbn [rg_own]. rewrite String.eqb_refl. split; [reflexivity|discriminate]. }
  assert (NS : m_n_states (e_mdp e1) = m_n_states (e_mdp e2)) by (unfold mident in MI; now inversion MI).
  destruct o; cbn [acts r_op] in *; try discriminate AC; apply String.eqb_eq in AC; subst name.
  - unfold r_step in *. destruct (track_lookup nm e1 e2 EN T) as [(x & L1 & L2)|(a & c & L1 & L2)].
    + unfold env_step in *. rewrite L1 in E1. rewrite L2 in E2. inversion E1. inversion E2. subst. auto.
    + rewrite ST in E1. destruct (env_step pl e1 nm (rng_state g2 nm)) as [e1x r1] eqn:S1. destruct (env_step pl e2 nm (rng_state g2 nm)) as [e2x r2] eqn:S2. rewrite L1 in E1. rewrite L2 in E2. cbn [set_consumed at_fit] in E1. inversion E1. inversion E2. subst.
      destruct (lookup_find _ _ _ L2) as [F2 N2]. assert (Ha : In a (e_agents e2)) by (unfold find_agent in F2; now apply find_some in F2).
      destruct (astep_same pl _ _ _ _ _ _ e1 e2 a (rng_state g2 nm) W1 W2 MI CO Ha) as (m1 & m2 & a' & r & A1 & A2).
      assert (A1' : agent_step pl (e_mdp e1) (set_consumed a c) (rng_state g2 nm) = (m1, set_consumed a' c, r)) by (rewrite astep_c, A1; reflexivity).
      destruct (step_own _ _ _ _ _ _ _ _ L1 A1') as (c1 & X1). destruct (step_own _ _ _ _ _ _ _ _ L2 A2) as (c2 & X2). rewrite S1 in X1. rewrite S2 in X2. cbn [fst] in *.
      split; [unfold track; rewrite X1, X2; exists c1; reflexivity|]. destruct (at_fit a) as [[v q]|]; auto.
  - unfold r_proba in *. destruct (track_lookup nm e1 e2 EN T) as [(x & L1 & L2)|(a & c & L1 & L2)].
    + unfold env_step_proba in *. rewrite L1 in E1. rewrite L2 in E2. inversion E1. inversion E2. subst. auto.
    + rewrite ST in E1. unfold env_step_proba in *. rewrite L1 in E1. rewrite L2 in E2. change (at_pos (set_consumed a c)) with (at_pos a) in E1. change (at_fit (set_consumed a c)) with (at_fit a) in E1. rewrite NS in E1.
      destruct (lookup_find _ _ _ L1) as [F1 N1]. destruct (lookup_find _ _ _ L2) as [F2 N2].
      assert (X : exists a' r1 r2, agent_step_proba pl (e_mdp e1) (set_consumed a c) position (rng_state g2 nm) = (set_consumed a' c, r1) /\ agent_step_proba pl (e_mdp e2) a position (rng_state g2 nm) = (a', r2) /\ at_name a' = nm).
      { unfold agent_step_proba. change (at_pos (set_consumed a c)) with (at_pos a). change (at_fit (set_consumed a c)) with (at_fit a). rewrite NS.
        destruct (match position with Some p => Ok p | None => _ end); [|exists a; eauto 7]. destruct (negb _); [exists a; eauto 7|]. destruct (at_fit a); [|exists a; eauto 7].
        rewrite policy_c. destruct (get_policy pl a (rng_state g2 nm)) as [a1 r] eqn:GP. destruct (Again.policy_keeps _ _ _ _ _ GP) as (_ & _ & N3). exists a1. rewrite N3. destruct r; [|eauto 7]. cbn [set_consumed at_pi_p]. destruct (at_pi_p a1); eauto 7. }
      destruct X as (a' & r1 & r2 & X1 & X2 & N3). rewrite X1 in E1. rewrite X2 in E2.
      assert (Y1 : find_agent (e_agents (with_agent e1 (set_consumed a' c))) nm = Some (set_consumed a' c)) by (apply find_with; [rewrite F1; discriminate|exact N3]).
      assert (Y2 : find_agent (e_agents (with_agent e2 a')) nm = Some a') by (apply find_with; [rewrite F2; discriminate|exact N3]).
      assert (Z1 : find_agent (e_agents e1') nm = Some (set_consumed a' c)) by (destruct r1; inversion E1; subst; exact Y1).
      assert (Z2 : find_agent (e_agents e2') nm = Some a') by (destruct r2; inversion E2; subst; exact Y2).
      split; [unfold track; rewrite Z1, Z2; eauto|].
      assert (H1 : g1' = (if match position with Some p => length p =? m_n_states (e_mdp e2) | None => match py_index (m_n_states (e_mdp e2)) (at_pos a) with Ok _ => true | Err _ => false end end then match at_fit a with Some (_, q) => policy_draws pl D g1 nm q | None => g1 end else g1)) by (destruct r1; inversion E1; reflexivity).
      assert (H2 : g2' = (if match position with Some p => length p =? m_n_states (e_mdp e2) | None => match py_index (m_n_states (e_mdp e2)) (at_pos a) with Ok _ => true | Err _ => false end end then match at_fit a with Some (_, q) => policy_draws pl D g2 nm q | None => g2 end else g2)) by (destruct r2; inversion E2; reflexivity).
      rewrite H1, H2. destruct (match position with Some p => _ | None => _ end); [|auto]. destruct (at_fit a) as [[v q]|]; auto.
  - unfold set_agent_position in *. destruct (track_lookup nm e1 e2 EN T) as [(x & L1 & L2)|(a & c & L1 & L2)]; rewrite L1 in E1; rewrite L2 in E2.
    + inversion E1. inversion E2. subst. auto.
    + rewrite move_c in E1. destruct (lookup_find _ _ _ L1) as [F1 N1]. destruct (lookup_find _ _ _ L2) as [F2 N2]. assert (Ha : In a (e_agents e2)) by (unfold find_agent in F2; now apply find_some in F2).
      destruct (move_same _ _ _ _ _ _ e1 e2 a a p W1 W2 MI Ha eq_refl) as (m1 & m2 & a' & r & M1 & M2). rewrite M1 in E1. rewrite M2 in E2. inversion E1. inversion E2. subst. destruct (Again.move_keeps _ _ _ _ _ _ M1) as (_ & _ & N3).
      split; [|auto]. unfold track. rewrite find_with, find_with; try (cbn [with_mdp e_agents]; rewrite ?F1, ?F2; discriminate); try (cbn; congruence). eauto.
Qed.
(** Agent [nm] has a seed and follows its plan. Whatever the other agents and other code do in between, and in whatever order: its positions,
    its history and its policy are what they would be if it had acted alone. *)
Theorem C138_schedule : forall pl D e nm g g' p a b, reachable pl e -> rg_own g nm <> None -> rg_own g' nm = rg_own g nm -> Forall (keeps_plan_of nm) p ->
  agent_named (final pl D g e p) nm a -> agent_named (final pl D g' e (filter (acts nm) p)) nm b -> seen a = seen b.
Proof.
  intros pl D e nm g g' p a b RE SD G KP NA NB. destruct (reachable_wf _ _ RE) as (k & shape & st & W).
  assert (X : forall p g1 g2 e1 e2, wf k shape st e1 -> wf k shape st e2 -> e_names e1 = e_names e2 -> mident (e_mdp e1) = mident (e_mdp e2) -> core (e_mdp e1) = core (e_mdp e2) ->
    track nm e1 e2 -> rg_own g1 nm = rg_own g2 nm -> rg_own g2 nm <> None -> Forall (keeps_plan_of nm) p ->
    let f1 := final pl D g1 e1 p in let f2 := final pl D g2 e2 (filter (acts nm) p) in wf k shape st f1 /\ wf k shape st f2 /\ track nm f1 f2).
  { clear. unfold final. induction p as [|o p IH]; intros g1 g2 e1 e2 W1 W2 EN MI CO T G GN KP; [auto|]. inversion KP as [|? ? K1 K2]. subst. cbn [filter].
    rewrite r_run_cons. destruct (r_op pl D g1 e1 o) as [[h1 f1] o1] eqn:E1. destruct (r_frame _ _ _ _ _ _ _ _ _ _ _ _ W1 K1 E1) as (W1' & (S1 & C1) & O1).
    destruct S1 as (S1 & S2 & S3). destruct (acts nm o) eqn:AC.
    - rewrite (r_run_cons pl D g2). destruct (r_op pl D g2 e2 o) as [[h2 f2] o2] eqn:E2. destruct (r_frame _ _ _ _ _ _ _ _ _ _ _ _ W2 K1 E2) as (W2' & ((S4 & S5 & S6) & C2) & _).
      destruct (r_own _ _ _ _ _ _ _ _ _ _ _ _ _ _ _ _ _ W1 W2 EN MI CO T G GN AC E1 E2) as (T' & G' & GN').
      specialize (IH h1 h2 f1 f2 W1' W2' ltac:(congruence) ltac:(congruence) ltac:(congruence) T' G' GN' K2). cbv zeta in IH. destruct (r_run pl D h1 f1 p) as [[x1 y1] z1]. destruct (r_run pl D h2 f2 (filter (acts nm) p)) as [[x2 y2] z2]. exact IH.
    - assert (G1 : rg_own h1 nm = rg_own g1 nm) by (refine (r_own_other pl D g1 e1 o h1 f1 o1 nm K1 AC E1 _); rewrite G; exact GN). assert (T' : track nm f1 e2) by (unfold track in *; now rewrite (O1 eq_refl)).
      specialize (IH h1 g2 f1 e2 W1' W2 ltac:(congruence) ltac:(congruence) ltac:(congruence) T' ltac:(congruence) GN K2). cbv zeta in IH. destruct (r_run pl D h1 f1 p) as [[x1 y1] z1]. exact IH. }
  assert (T0 : track nm e e) by (unfold track; destruct (find_agent (e_agents e) nm) as [x|]; [exists (at_consumed x); now destruct x|exact I]).
  destruct (X p g g' e e W W eq_refl eq_refl eq_refl T0 (eq_sym G) ltac:(congruence) KP) as (W1 & W2 & T). apply (find_agent_iff _ _ _ (wf_names _ _ _ _ W1)) in NA. apply (find_agent_iff _ _ _ (wf_names _ _ _ _ W2)) in NB.
  unfold track in T. rewrite NA, NB in T. destruct T as (c & ->). reflexivity.
Qed.

(** ** Concrete cases *)

(** Three states in a row, a reward at each end: in the middle both moves are equally good, and the draw decides. *)
Definition ex_row : list (list Q) := [[1; 0; 1]]%Q.
Definition ex_s (nm : string) : spec Q := mkSpec nm 1%Z None 1%Z [1; 0; 0]%Q [].
Definition ex_one (nm : string) : spec Q := mkSpec nm 1%Z None 1%Z [1; 0]%Q [].
Definition ex_vi : plugins Q := vi_greedy (1 # 2)%Q (1 # 2)%Q 2.
(** A generator that counts, and one that shifts. *)
Definition counting : generators Q := mkGen (fun _ s _ => S s) (fun _ _ _ s => S s).
Definition shifting : generators Q := mkGen (fun _ s _ => Nat.div2 s) (fun _ _ _ s => Nat.div2 s).

Example C136_example : deterministic ex_vi /\ exists m m' e, grid_mdp (A:=Q) Square ex_row None (3, 1) false = Ok m /\ make_env m [ex_s "q"%string; ex_s "r"%string] = (m', Ok e) /\
  let run seed := answers ex_vi counting (new_rngs (fun s => s) (fun _ => Some seed) 0 0) e in
  run 0 [RFit "q"%string None; RForeign 4 4; RStep "q"%string] = [Done (Ok tt); Moved (Ok 0%Z)] /\
  run 0 [RFit "q"%string None; RStep "q"%string] = [Done (Ok tt); Moved (Ok 0%Z)] /\
  run 1 [RFit "q"%string None; RStep "q"%string] = [Done (Ok tt); Moved (Ok 2%Z)].
Proof. split; [intros nm e n s s'; reflexivity|]. do 3 eexists. do 2 (split; [vm_compute; reflexivity|]). cbv zeta. vmr. Qed.

(** Without a seed, and without [np.random.seed], what other code draws changes the run. *)
Theorem C136_unseeded_refuted : exists m m' e, grid_mdp (A:=Q) Square ex_row None (3, 1) false = Ok m /\ make_env m [ex_s "q"%string; ex_s "r"%string] = (m', Ok e) /\
  let run := answers ex_vi counting (new_rngs (fun s => s) (fun _ => None) 0 0) e in
  run [RFit "q"%string None; RStep "q"%string] = [Done (Ok tt); Moved (Ok 0%Z)] /\ run [RFit "q"%string None; RForeign 0 0; RStep "q"%string] = [Done (Ok tt); Moved (Ok 2%Z)].
Proof. do 3 eexists. do 2 (split; [vm_compute; reflexivity|]). cbv zeta. vmr. Qed.

(** ** C137: tree search *)
Definition mcts_drawing {A} `{Num A} (score : scorer A) (cfg : mcts_config A) : plugins A :=
  mkPlugins (fun nm e n seed => match find_agent (e_agents e) nm with
                             | Some a => mcts_fit score cfg e a n (fun _ _ => seed) (passes (length (e_agents e)) (match n with Some m => m | None => [] end))
                             | None => Err KeyError end)
    (fun _ seed => max_get_pi (fun _ => seed)) (fun _ => max_get_pi_p) (fun _ => true).
(** Refuted: the agent's selector has a seed and [np.random.seed] is called first, but the search draws from a generator of its own. *)
Theorem C137_search_refuted : exists m m' e, grid_mdp (A:=Q) Square ex_row None (3, 1) false = Ok m /\ make_env m [ex_one "q"%string] = (m', Ok e) /\
  let pl := mcts_drawing (MCTSRun.mean_score (A:=Q)) (mkMCTS 1 1%Q 0%Q false (OppSolve select_max) false 5 (9 # 10)%Q (1 # 100)%Q) in
  let run search := answers pl counting (new_rngs (fun s => s) (fun _ => Some 3) 0 search) e [RSeed 5; RFit "q"%string (Some [[1]]%Z); RStep "q"%string] in
  run 0 = [Done (Ok tt); Moved (Ok 2%Z)] /\ run 1 = [Done (Ok tt); Moved (Ok 0%Z)].
Proof. do 3 eexists. do 2 (split; [vm_compute; reflexivity|]). cbv zeta. vmr. Qed.

(** ** C138, C139 *)
Example C138_example : exists m m' e, grid_mdp (A:=Q) Square ex_row None (3, 1) false = Ok m /\ make_env m [ex_s "q"%string; ex_s "r"%string] = (m', Ok e) /\
  let go p := let f := final ex_vi counting (new_rngs (fun s => s) (fun _ => Some 0) 0 0) e ([RFit "q"%string None; RFit "r"%string None] ++ p) in option_map at_hist (find_agent (e_agents f) "q") in
  go [RStep "r"%string; RStep "q"%string; RStep "r"%string; RForeign 5 5; RStep "q"%string] = Some [1; 0; 1]%Z /\ go [RStep "q"%string; RStep "q"%string] = Some [1; 0; 1]%Z.
Proof. do 3 eexists. do 2 (split; [vm_compute; reflexivity|]). cbv zeta. vmr. Qed.
(** Without seeds the agents draw from the same generator, and the order of their moves decides where they go. *)
Theorem C138_unseeded_refuted : exists m m' e, grid_mdp (A:=Q) Square ex_row None (3, 1) false = Ok m /\ make_env m [ex_s "q"%string; ex_s "r"%string] = (m', Ok e) /\
  let go p := let f := final ex_vi counting (new_rngs (fun s => s) (fun _ => None) 0 0) e ([RFit "q"%string None; RFit "r"%string None] ++ p) in option_map at_hist (find_agent (e_agents f) "q") in
  go [RStep "r"%string; RStep "q"%string] <> go [RStep "q"%string; RStep "r"%string].
Proof. do 3 eexists. do 2 (split; [vm_compute; reflexivity|]). cbv zeta. vm_compute. discriminate. Qed.
(** Refuted: a reset does not put the generators back, so the same calls by seeded agents go another way after it. *)
Theorem C139_reset_repeats_refuted : exists m m' e, grid_mdp (A:=Q) Square ex_row None (3, 1) false = Ok m /\ make_env m [ex_s "q"%string; ex_s "r"%string] = (m', Ok e) /\
  let p := [RFit "q"%string None; RStep "q"%string] in
  answers ex_vi shifting (new_rngs (fun s => s) (fun _ => Some 6) 0 0) e (p ++ [RReset] ++ p) =
    [Done (Ok tt); Moved (Ok 0%Z); Done (Ok tt); Done (Ok tt); Moved (Ok 2%Z)].
Proof. do 3 eexists. do 2 (split; [vm_compute; reflexivity|]). cbv zeta. vm_compute. reflexivity. Qed.

(** If the draws do not matter (the best action is always unique, say), a reset does make a run repeat: whatever was done before it, and
    whatever the generators have become, the same calls get the answers they got in the new environment, provided agents are fitted
    before they act and the walls are as they were. *)
Definition no_draws {A} (o : rop A) : list (op A) :=
  match o with
  | RFit nm n => [OFit nm n 0 0] | RStep nm => [OStep nm 0] | RStepMulti nm n p t rf st => [OStepMulti nm n p t rf st (fun _ => 0)]
  | RStepProba nm p => [OStepProba nm p 0] | RInteractive l n => [OInteractive l n] | RSetPosition nm p => [OSetPosition nm p]
  | RSetWalls w => [OSetWalls w] | RReset => [OReset] | RForeign _ _ | RSeed _ => []
  end.
Definition draws_ignored {A} (pl : plugins A) : Prop := forall nm s s' q, pl_pi pl nm s q = pl_pi pl nm s' q.
Section NoDraws.
Context {A : Type} {NA : Num A} (pl : plugins A) (DT : deterministic pl) (DI : draws_ignored pl).
Lemma policy_seed : forall a s s', get_policy pl a s = get_policy pl a s'.
Proof using DI. intros a s s'. unfold get_policy. destruct (at_fit a) as [[v q]|]; [|reflexivity]. destruct (get_pi_p _ q); [|reflexivity]. unfold get_pi. now rewrite (DI (at_name a) s s'). Qed.
Lemma fit_seed : forall e nm n s1 s2 s3 s4, env_fit pl e nm n s1 s2 = env_fit pl e nm n s3 s4.
Proof using DT DI. intros. rewrite (env_fit_seed pl DT e nm n s1 s3). unfold env_fit. destruct (lookup e nm) as [a|]; [|reflexivity]. destruct (alg_fit pl e a n s3); [|reflexivity]. now rewrite (policy_seed _ s2 s4). Qed.
Lemma step_seed : forall e nm s s', env_step pl e nm s = env_step pl e nm s'.
Proof using DI. intros. unfold env_step. destruct (lookup e nm) as [a|]; [|reflexivity]. replace (agent_step pl (e_mdp e) a s) with (agent_step pl (e_mdp e) a s'); [reflexivity|]. unfold agent_step. now rewrite (policy_seed a s' s). Qed.
Lemma call_seed : forall e o o', is_call o o' -> exists o0, no_draws o = [o0] /\ do_op pl e o' = do_op pl e o0 /\ reports pl e o' = reports pl e o0.
Proof using DT DI.
  intros e o o' C. destruct o, o'; cbn [is_call] in C; try contradiction; cbn [no_draws]; eexists; (split; [reflexivity|]); cbn [do_op reports].
  - destruct C as [-> ->]. now rewrite (fit_seed e name n_moves seed seed' 0 0).
  - subst. now rewrite (step_seed e name seed 0).
  - destruct C as (-> & -> & -> & -> & -> & ->). assert (X : step_multi pl e name n_steps plan n_turns refit stop rnd = step_multi pl e name n_steps plan n_turns refit stop (fun _ => 0)).
    { unfold step_multi. destruct (lookup e name); [|reflexivity]. destruct (all_n_steps e name) as [l|]; [|reflexivity]. destruct (negb (_ =? _)); [reflexivity|].
      assert (Y : forall todo e i acc p, multi_loop pl e name refit stop n_turns l p rnd i todo acc = multi_loop pl e name refit stop n_turns l p (fun _ => 0) i todo acc).
      { induction todo as [|todo IH]; intros e0 i acc p; [reflexivity|]. cbn [multi_loop]. replace (refit_step pl e0 name refit i n_turns l p (rnd (3 * i)) (rnd (3 * i + 1))) with (refit_step pl e0 name refit i n_turns l p 0 0).
        2:{ unfold refit_step. destruct refit; [|reflexivity]. destruct (step_plan _ _ _ _); [|reflexivity]. apply fit_seed. }
        destruct (refit_step _ _ _ _ _ _ _ _ _ _) as [e1 [u|x]]; [|reflexivity]. rewrite (step_seed e1 name (rnd (3 * i + 2)) 0). destruct (env_step pl e1 name 0) as [e2 [z|x]]; [|reflexivity]. destruct (_ && stop); [reflexivity|]. apply IH. }
      destruct n_steps as [|n|[|n ns]|]; try reflexivity; (destruct (negb _); [reflexivity|]); first [apply Y|reflexivity]. }
    now rewrite X.
  - destruct C as [-> ->]. assert (X : env_step_proba pl e name position seed = env_step_proba pl e name position 0).
    { unfold env_step_proba. destruct (lookup e name) as [a|]; [|reflexivity]. replace (agent_step_proba pl (e_mdp e) a position seed) with (agent_step_proba pl (e_mdp e) a position 0); [reflexivity|]. unfold agent_step_proba. now rewrite (policy_seed a 0 seed). }
    now rewrite X.
  - destruct C as [-> ->]. auto.
  - destruct C as [-> ->]. auto.
  - subst. auto.
  - auto.
Qed.
Lemma no_draws_run : forall D p g e, final pl D g e p = run pl e (flat_map no_draws p) /\ answers pl D g e p = reports_all pl e (flat_map no_draws p).
Proof using DT DI.
  intros D. unfold final, answers. induction p as [|o p IH]; intros g e; [auto|]. rewrite r_run_cons. destruct (r_op pl D g e o) as [[g1 e1] out] eqn:E. specialize (IH g1 e1). destruct (r_run pl D g1 e1 p) as [[g2 e2] outs].
  cbn [fst snd flat_map] in *. destruct IH as [H1 H2]. destruct (r_op_run pl D _ _ _ _ _ _ E) as [(L & -> & ->)|(L & o' & C & -> & ->)].
  - destruct o; try discriminate L; auto.
  - destruct (call_seed e o o' C) as (o0 & -> & E1 & E2). cbn [app]. unfold run in *. cbn [fold_left reports_all]. rewrite E1, E2 in *. split; [exact H1|]. now rewrite H2.
Qed.
End NoDraws.
Theorem C139_no_draws_partial : forall pl D D' m ss m' e g g' l p, usable pl m -> make_env m ss = (m', Ok e) -> Forall (fun s => sp_fit s = None) ss ->
  ignores_records pl -> deterministic pl -> draws_ignored pl -> Forall (fun o => match o with RSetWalls _ => False | _ => True end) l -> prepared pl e (flat_map no_draws p) ->
  answers pl D g' (final pl D' g e (l ++ [RReset])) p = answers pl D g e p.
Proof.
  intros pl D D' m ss m' e g g' l p U E F IG DT DI NW P. rewrite (proj2 (no_draws_run pl DT DI D p g e)), (proj2 (no_draws_run pl DT DI D p g' _)), (proj1 (no_draws_run pl DT DI D' (l ++ [RReset]) g e)).
  rewrite flat_map_app. unfold run. rewrite fold_left_app. cbn [flat_map no_draws app fold_left].
  pose proof (C135_reset_like_new pl m ss m' e (flat_map no_draws l) (flat_map no_draws p) U E F IG) as X. cbv zeta in X.
  assert (NF : filter assigns_walls (flat_map no_draws l) = []).
  { clear - NW. induction NW as [|o l H NW IH]; [reflexivity|]. cbn [flat_map]. rewrite filter_app, IH. destruct o; try contradiction; reflexivity. }
  rewrite NF in X. apply (X P).
Qed.
(** C230: runs without draws repeat after a reset. *)
Theorem C230_no_draws : forall pl D D' m ss m' e g g' l p, usable pl m -> make_env m ss = (m', Ok e) -> Forall (fun s => sp_fit s = None) ss ->
  ignores_records pl -> deterministic pl -> draws_ignored pl -> Forall (fun o => match o with RSetWalls _ => False | _ => True end) l -> prepared pl e (flat_map no_draws p) ->
  answers pl D g' (final pl D' g e (l ++ [RReset])) p = answers pl D g e p.
Proof. exact (@C139_no_draws_partial). Qed.

(** Value iteration and the null algorithm make no random choices. *)
Theorem C136_library : forall {A} `{Num A}, (forall g tol mi, deterministic (vi_greedy g tol mi)) /\ deterministic greedy.
Proof. intros A NA. split; [intros g tol mi nm e n s s'; reflexivity|intros nm e n s s'; reflexivity]. Qed.
