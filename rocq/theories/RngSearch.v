(** What makes tree search repeatable (C137): the state of the generator of the compiled functions. *)
From Coq Require Import String List ZArith QArith Reals Bool Lia.
From Verif Require Import PyBase PyProofs GridModel GridSpec MDPModel MDPSpec MDPProps ActionModel ActionSpec EnvModel EnvSpec EnvProps VIModel VIEnvProps MCTSModel MCTSRun AgainSpec Again AgainProps RngModel RngSpec RngProps.
Import ListNotations.
Local Close Scope Q_scope.
Local Open Scope nat_scope.

(** Generators that agree on everything but numpy's global one, which no agent uses. *)
Definition same_search (g1 g2 : rngs) : Prop :=
  (forall nm, rg_own g1 nm = rg_own g2 nm) /\ (forall nm, rg_own g1 nm <> None) /\ rg_search g1 = rg_search g2.
Section Search.
Context {A : Type} {NA : Num A} (pl : plugins A) (D : generators A).
Definition agree2 {X} (r1 r2 : rngs * env A * X) : Prop := same_search (fst (fst r1)) (fst (fst r2)) /\ snd (fst r1) = snd (fst r2) /\ snd r1 = snd r2.
Lemma agree2_parts : forall {X} g1 g2 e (r : X), same_search g1 g2 -> agree2 (g1, e, r) (g2, e, r).
Proof using. intros. split; [assumption|split; reflexivity]. Qed.
Lemma state_same : forall g1 g2 nm, same_search g1 g2 -> rng_state g1 nm = rng_state g2 nm.
Proof using. intros g1 g2 nm (H1 & H2 & _). unfold rng_state. rewrite H1. destruct (rg_own g2 nm) eqn:E; [reflexivity|]. elim (H2 nm). now rewrite H1. Qed.
Lemma draws_same : forall g1 g2 nm q, same_search g1 g2 -> same_search (policy_draws pl D g1 nm q) (policy_draws pl D g2 nm q).
Proof using.
  intros g1 g2 nm q H. unfold policy_draws. destruct (get_pi_p _ q); [|exact H]. rewrite (state_same _ _ nm H). destruct H as (H1 & H2 & H3). unfold rng_advance. rewrite H1.
  destruct (rg_own g2 nm) eqn:E; [|elim (H2 nm); now rewrite H1]. split; [|split]; cbn [rg_own rg_search]; auto.
  - intros x. now rewrite H1.
  - intros x. destruct (String.eqb x nm); [discriminate|apply H2].
Qed.
Lemma r_fit_same : forall g1 g2 e nm n, same_search g1 g2 -> agree2 (r_fit pl D g1 e nm n) (r_fit pl D g2 e nm n).
Proof using.
  intros g1 g2 e nm n H. unfold r_fit. rewrite (state_same _ _ nm H). pose proof H as (H1 & H2 & H3). rewrite H3. destruct (env_fit pl e nm n _ _) as [e' r]. apply agree2_parts.
  destruct (lookup e nm) as [a|]; [|exact H]. destruct (negb _); [exact H|]. destruct (alg_fit pl e a n (rg_search g2)) as [[v q]|]; [apply draws_same|]; (split; [|split]); cbn [rg_own rg_search]; auto.
Qed.
Lemma r_step_same : forall g1 g2 e nm, same_search g1 g2 -> agree2 (r_step pl D g1 e nm) (r_step pl D g2 e nm).
Proof using.
  intros g1 g2 e nm H. unfold r_step. rewrite (state_same _ _ nm H). destruct (env_step pl e nm _) as [e' r]. apply agree2_parts. destruct (lookup e nm) as [a|]; [|exact H]. destruct (at_fit a) as [[v q]|]; [now apply draws_same|exact H].
Qed.
Lemma r_proba_same : forall g1 g2 e nm p, same_search g1 g2 -> agree2 (r_proba pl D g1 e nm p) (r_proba pl D g2 e nm p).
Proof using.
  intros g1 g2 e nm p H. unfold r_proba. rewrite (state_same _ _ nm H). destruct (env_step_proba pl e nm p _) as [e' r]. apply agree2_parts. destruct (lookup e nm) as [a|]; [|exact H].
  destruct (match p with Some _ => _ | None => _ end); [|exact H]. destruct (at_fit a) as [[v q]|]; [now apply draws_same|exact H].
Qed.
Lemma r_loop_same : forall nm rf st t l p todo i acc g1 g2 e, same_search g1 g2 -> agree2 (r_loop pl D g1 e nm rf st t l p i todo acc) (r_loop pl D g2 e nm rf st t l p i todo acc).
Proof using.
  intros nm rf st t l p todo. induction todo as [|todo IH]; intros i acc g1 g2 e H; cbn [r_loop]; [now apply agree2_parts|].
  assert (X : agree2 (if rf then match step_plan i t l p with Ok pp => r_fit pl D g1 e nm (Some pp) | Err x => (g1, e, Err x) end else (g1, e, Ok tt))
                    (if rf then match step_plan i t l p with Ok pp => r_fit pl D g2 e nm (Some pp) | Err x => (g2, e, Err x) end else (g2, e, Ok tt))).
  { destruct rf; [|now apply agree2_parts]. destruct (step_plan i t l p); [now apply r_fit_same|now apply agree2_parts]. }
  destruct (if rf then match step_plan i t l p with Ok pp => r_fit pl D g1 e nm (Some pp) | Err x => (g1, e, Err x) end else (g1, e, Ok tt)) as [[h1 e1] r1].
  destruct (if rf then match step_plan i t l p with Ok pp => r_fit pl D g2 e nm (Some pp) | Err x => (g2, e, Err x) end else (g2, e, Ok tt)) as [[h2 e2] r2].
  destruct X as (X1 & X2 & X3). cbn [fst snd] in *. subst e2 r2. destruct r1 as [u|x]; [|now apply agree2_parts].
  pose proof (r_step_same h1 h2 e1 nm X1) as Y. destruct (r_step pl D h1 e1 nm) as [[h3 e3] r3]. destruct (r_step pl D h2 e1 nm) as [[h4 e4] r4]. destruct Y as (Y1 & Y2 & Y3). cbn [fst snd] in *. subst e4 r4.
  destruct r3 as [z|x]; [|now apply agree2_parts]. destruct (_ && st); [now apply agree2_parts|]. now apply IH.
Qed.
Lemma r_op_same : forall g1 g2 e o, library_call o = true -> same_search g1 g2 -> agree2 (r_op pl D g1 e o) (r_op pl D g2 e o).
Proof using.
  intros g1 g2 e o L H. destruct o; try discriminate L; cbn [r_op].
  - pose proof (r_fit_same g1 g2 e name n_moves H) as X. destruct (r_fit pl D g1 e name n_moves) as [[h1 e1] r1]. destruct (r_fit pl D g2 e name n_moves) as [[h2 e2] r2]. destruct X as (X1 & X2 & X3). cbn [fst snd] in *. subst. now apply agree2_parts.
  - pose proof (r_step_same g1 g2 e name H) as X. destruct (r_step pl D g1 e name) as [[h1 e1] r1]. destruct (r_step pl D g2 e name) as [[h2 e2] r2]. destruct X as (X1 & X2 & X3). cbn [fst snd] in *. subst. now apply agree2_parts.
  - assert (X : agree2 (r_multi pl D g1 e name n_steps plan n_turns refit stop) (r_multi pl D g2 e name n_steps plan n_turns refit stop)).
    { unfold r_multi. destruct (lookup e name) as [a|]; [|now apply agree2_parts]. destruct (all_n_steps e name); [|now apply agree2_parts]. destruct (negb (_ =? _)); [now apply agree2_parts|].
      destruct n_steps as [|n|[|n ns]|]; try (now apply agree2_parts); (destruct (negb _); [now apply agree2_parts|]); first [now apply r_loop_same|now apply agree2_parts]. }
    destruct (r_multi pl D g1 e name n_steps plan n_turns refit stop) as [[h1 e1] r1]. destruct (r_multi pl D g2 e name n_steps plan n_turns refit stop) as [[h2 e2] r2]. destruct X as (X1 & X2 & X3). cbn [fst snd] in *. subst. now apply agree2_parts.
  - pose proof (r_proba_same g1 g2 e name position H) as X. destruct (r_proba pl D g1 e name position) as [[h1 e1] r1]. destruct (r_proba pl D g2 e name position) as [[h2 e2] r2]. destruct X as (X1 & X2 & X3). cbn [fst snd] in *. subst. now apply agree2_parts.
  - destruct (step_multi_interactive _ _ _). now apply agree2_parts.
  - destruct (set_agent_position _ _ _). now apply agree2_parts.
  - destruct (set_walls _ _); now apply agree2_parts.
  - destruct (env_reset e). now apply agree2_parts.
Qed.
Lemma seed_same : forall g1 g2 (o : rop A) e, undisturbed o -> library_call o = false -> same_search g1 g2 ->
  exists g', r_op pl D g2 e o = (g', e, []) /\ same_search g1 g'.
Proof using. intros g1 g2 o e U L G. destruct o; try discriminate L; cbn [undisturbed] in U; [contradiction|]. cbn [r_op]. eexists. split; [reflexivity|]. exact G. Qed.
Lemma same_sym : forall g1 g2, same_search g1 g2 -> same_search g2 g1.
Proof using. intros g1 g2 (H1 & H2 & H3). split; [intros; symmetry; apply H1|]. split; [intros nm; rewrite <- H1; apply H2|congruence]. Qed.
Lemma run_same : forall p1 p2 g1 g2 e, Forall undisturbed p1 -> Forall undisturbed p2 -> same_search g1 g2 -> filter library_call p1 = filter library_call p2 ->
  agree2 (r_run pl D g1 e p1) (r_run pl D g2 e p2).
Proof using.
  intros p1. induction p1 as [|o p1 IH].
  - induction p2 as [|o2 p2 IH2]; intros g1 g2 e U1 U2 G E; [now apply agree2_parts|]. cbn [filter] in E. destruct (library_call o2) eqn:L2; [discriminate|]. inversion U2 as [|? ? U3 U4]. subst.
    rewrite (r_run_cons pl D g2). destruct (seed_same g1 g2 o2 e U3 L2 G) as (g' & -> & G'). specialize (IH2 g1 g' e U1 U4 G' E). destruct (r_run pl D g' e p2) as [[h k] outs]. exact IH2.
  - intros p2 g1 g2 e U1 U2 G E. pose proof U1 as U1'. inversion U1' as [|? ? U5 U6]. subst. clear U1'. cbn [filter] in E. destruct (library_call o) eqn:L.
    + revert g2 U2 G E. induction p2 as [|o2 p2 IH2]; intros g2 U2 G E; [discriminate|]. cbn [filter] in E. inversion U2 as [|? ? U3 U4]. subst. destruct (library_call o2) eqn:L2.
      * inversion E as [[Eo Ep]]. subst o2. rewrite !r_run_cons. pose proof (r_op_same g1 g2 e o L G) as X.
        destruct (r_op pl D g1 e o) as [[h1 e1] r1]. destruct (r_op pl D g2 e o) as [[h2 e2] r2]. destruct X as (X1 & X2 & X3). cbn [fst snd] in *. subst e2 r2.
        specialize (IH p2 h1 h2 e1 U6 U4 X1 Ep). destruct (r_run pl D h1 e1 p1) as [[h3 e3] r3]. destruct (r_run pl D h2 e1 p2) as [[h4 e4] r4]. destruct IH as (Y1 & Y2 & Y3). cbn [fst snd] in *. subst. now apply agree2_parts.
      * rewrite (r_run_cons pl D g2). destruct (seed_same g1 g2 o2 e U3 L2 G) as (g' & -> & G'). specialize (IH2 g' U4 G' E). destruct (r_run pl D g' e p2) as [[h k] outs]. exact IH2.
    + rewrite (r_run_cons pl D g1). destruct (seed_same g2 g1 o e U5 L (same_sym _ _ G)) as (g' & -> & G'). specialize (IH p2 g' g2 e U6 U2 (same_sym _ _ G') E). destruct (r_run pl D g' e p1) as [[h k] outs]. exact IH.
Qed.

(** Calls that search nothing: everything except fitting, stepping a sequence with refitting, and searches of other code. *)
Definition searches_nothing (o : rop A) : Prop :=
  match o with RFit _ _ | RForeign _ _ => False | RStepMulti _ _ _ _ refit _ => refit = false | _ => True end.
Lemma draws_search : forall g nm q, rg_search (policy_draws pl D g nm q) = rg_search g.
Proof using. intros g nm q. unfold policy_draws, rng_advance. destruct (get_pi_p _ q); [|reflexivity]. now destruct (rg_own g nm). Qed.
Lemma step_search : forall g e nm g' e' r, r_step pl D g e nm = (g', e', r) -> rg_search g' = rg_search g.
Proof using.
  intros g e nm g' e' r E. unfold r_step in E. destruct (env_step pl e nm _) as [e1 r1]. injection E as <- _ _. destruct (lookup e nm) as [a|]; [|reflexivity]. destruct (at_fit a) as [[v q]|]; [apply draws_search|reflexivity].
Qed.
Lemma loop_search : forall nm st t l p todo i acc g e g' e' r, r_loop pl D g e nm false st t l p i todo acc = (g', e', r) -> rg_search g' = rg_search g.
Proof using.
  intros nm st t l p todo. induction todo as [|todo IH]; intros i acc g e g' e' r E; cbn [r_loop] in E; [injection E as <- _ _; reflexivity|].
  destruct (r_step pl D g e nm) as [[g2 e2] r2] eqn:S. apply step_search in S. destruct r2 as [z|x]; [|injection E as <- _ _; exact S]. destruct (_ && st); [injection E as <- _ _; exact S|]. apply IH in E. congruence.
Qed.
End Search.

(** True variant of C137: if the compiled functions' generator starts in the same state and no other code searches in between, then the
    runs of the same calls by agents with seeds are the same, whatever other code does to numpy's global generator. *)
Theorem C137_same_state_partial : forall {A} `{Num A} (pl : plugins A) D start seeds e p1 p2 gl1 gl2 se, (forall nm, seeds nm <> None) ->
  Forall undisturbed p1 -> Forall undisturbed p2 -> filter library_call p1 = filter library_call p2 ->
  let g1 := new_rngs start seeds gl1 se in let g2 := new_rngs start seeds gl2 se in
  answers pl D g1 e p1 = answers pl D g2 e p2 /\ final pl D g1 e p1 = final pl D g2 e p2.
Proof.
  intros A NA pl D start seeds e p1 p2 gl1 gl2 se SD U1 U2 E g1 g2. assert (G : same_search g1 g2).
  { split; [reflexivity|]. split; [|reflexivity]. intros nm. cbn. specialize (SD nm). now destruct (seeds nm). }
  destruct (run_same pl D p1 p2 g1 g2 e U1 U2 G E) as (_ & X & Y). split; assumption.
Qed.

(** The same, as C184: a property of its own. *)
Theorem C184_same_state : forall {A} `{Num A} (pl : plugins A) D start seeds e p1 p2 gl1 gl2 se, (forall nm, seeds nm <> None) ->
  Forall undisturbed p1 -> Forall undisturbed p2 -> filter library_call p1 = filter library_call p2 ->
  let g1 := new_rngs start seeds gl1 se in let g2 := new_rngs start seeds gl2 se in
  answers pl D g1 e p1 = answers pl D g2 e p2 /\ final pl D g1 e p1 = final pl D g2 e p2.
Proof. exact (@C137_same_state_partial). Qed.
(** Only fits draw from that generator: every other call, by agents with or without seeds, leaves its state alone, so that such calls may
    be added or left out before a fit without changing what it draws. *)
Theorem C137_only_fits_partial : forall {A} `{Num A} (pl : plugins A) D g e p, Forall searches_nothing p -> rg_search (fst (fst (r_run pl D g e p))) = rg_search g.
Proof.
  intros A NA pl D g e p U. revert g e. induction U as [|o p Uo U IH]; intros g e; [reflexivity|]. rewrite r_run_cons.
  destruct (r_op pl D g e o) as [[g1 e1] out] eqn:E. specialize (IH g1 e1). destruct (r_run pl D g1 e1 p) as [[g2 e2] outs]. cbn [fst] in *. rewrite IH. clear IH.
  destruct o; cbn [searches_nothing] in Uo; try contradiction; cbn [r_op] in E.
  - destruct (r_step pl D g e name) as [[g3 e3] r3] eqn:S. apply step_search in S. injection E as <- _ _. exact S.
  - subst refit. destruct (r_multi pl D g e name n_steps plan n_turns false stop) as [[g3 e3] r3] eqn:S. injection E as <- _ _. unfold r_multi in S.
    destruct (lookup e name) as [a|]; [|injection S as <- _ _; reflexivity]. destruct (all_n_steps e name) as [l|]; [|injection S as <- _ _; reflexivity]. destruct (negb (_ =? _)); [injection S as <- _ _; reflexivity|].
    destruct n_steps as [|n|[|n ns]|]; try (injection S as <- _ _; reflexivity); (destruct (negb _); [injection S as <- _ _; reflexivity|]); try (injection S as <- _ _; reflexivity); exact (loop_search _ _ _ _ _ _ _ _ _ _ _ _ _ _ _ S).
  - unfold r_proba in E. destruct (env_step_proba pl e name position _) as [e3 r3]. injection E as <- _ _. destruct (lookup e name) as [a|]; [|reflexivity].
    destruct (match position with Some _ => _ | None => _ end); [|reflexivity]. destruct (at_fit a) as [[v q]|]; [apply draws_search|reflexivity].
  - destruct (step_multi_interactive _ _ _). injection E as <- _ _. reflexivity.
  - destruct (set_agent_position _ _ _). injection E as <- _ _. reflexivity.
  - destruct (set_walls _ _); injection E as <- _ _; reflexivity.
  - destruct (env_reset e). injection E as <- _ _. reflexivity.
  - injection E as <- _ _. reflexivity.
Qed.

(** The same, as C184: a property of its own. *)
Theorem C184_only_fits : forall {A} `{Num A} (pl : plugins A) D g e p, Forall searches_nothing p -> rg_search (fst (fst (r_run pl D g e p))) = rg_search g.
Proof. exact (@C137_only_fits_partial). Qed.

(** The two runs of C137_search_refuted differ in that state only. Started in the same state, the two runs below agree although numpy's
    global generator is seeded differently at different times; the stepping calls in between leave the search generator alone. *)
Example C137_same_state_example : exists m m' e, grid_mdp (A:=Q) Square ex_row None (3, 1) false = Ok m /\ make_env m [ex_one "q"%string] = (m', Ok e) /\
  let pl := mcts_drawing (MCTSRun.mean_score (A:=Q)) (mkMCTS 1 1%Q 0%Q false (OppSolve select_max) false 5 (9 # 10)%Q (1 # 100)%Q) in
  let p1 := [RSeed 5; RFit "q"%string (Some [[1]]%Z); RStep "q"%string] in
  let p2 := [RSeed 9; RFit "q"%string (Some [[1]]%Z); RSeed 2; RStep "q"%string] in
  answers pl counting (new_rngs (fun s => s) (fun _ => Some 3) 0 1) e p1 = [Done (Ok tt); Moved (Ok 0%Z)] /\
  answers pl counting (new_rngs (fun s => s) (fun _ => Some 3) 7 1) e p2 = [Done (Ok tt); Moved (Ok 0%Z)] /\
  filter library_call p1 = filter library_call p2.
Proof. do 3 eexists. split; [vm_compute; reflexivity|]. split; [vm_compute; reflexivity|]. cbv zeta. vmr. Qed.
