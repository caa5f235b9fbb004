(** Calls about one agent leave the other agents' records alone. *)
From Coq Require Import String List ZArith QArith Reals Bool Lia.
From Verif Require Import PyBase PyProofs GridModel MDPModel MDPSpec ActionModel EnvModel EnvSpec StepSpec EnvProofs EnvProofs2 EnvProofs5 EnvProofs3 EnvProofs4 MDPProps EnvProps StepProps QueryProofs WorldProofs.
Import ListNotations.
Local Close Scope Q_scope. Local Open Scope nat_scope.

(** The calls that can move the agent [nm] or change its plan: those made in its name, and resets. *)
Definition about {A} (nm : string) (o : op A) : Prop :=
  match o with
  | OFit n _ _ _ | OStep n _ | OStepMulti n _ _ _ _ _ _ | OStepProba n _ _ | OSetPosition n _ => n = nm
  | OInteractive _ _ | OSetWalls _ => False
  | OReset => True
  end.

Section Own.
Context {A : Type} {NA : Num A}.
Implicit Types (e : env A) (a : attached A) (pl : plugins A).

Definition view e nm : option (attached A) * list string := (find_agent (e_agents e) nm, e_names e).
Lemma with_view : forall e m a nm, at_name a <> nm -> view (with_agent (with_mdp e m) a) nm = view e nm.
Proof. intros e m a nm H. unfold view. cbn [with_agent with_mdp e_agents e_names]. now rewrite find_put_other. Qed.
Lemma with_view' : forall e a nm, at_name a <> nm -> view (with_agent e a) nm = view e nm.
Proof. intros e a nm H. unfold view. cbn [with_agent e_agents e_names]. now rewrite find_put_other. Qed.
Lemma mdp_view : forall e m nm, view (with_mdp e m) nm = view e nm. Proof. reflexivity. Qed.

Lemma fit_view : forall pl e n k s s' nm, n <> nm -> view (fst (env_fit pl e n k s s')) nm = view e nm.
Proof.
  intros pl e n k s s' nm N. unfold env_fit. destruct (lookup e n) as [a|] eqn:EL; [|reflexivity]. apply WorldProofs.lookup_in in EL. destruct EL as [_ EN].
  destruct (alg_fit pl e a k s) as [f|x].
  - destruct (get_policy pl (set_fit a (Some f)) s') as [a' r] eqn:GP. apply policy_name in GP. cbn [fst]. apply with_view'. cbn in GP. congruence.
  - unfold failed_fit. destruct (_ && _); [|reflexivity]. apply with_view'. cbn. congruence.
Qed.
Lemma step_view : forall pl e n s nm, n <> nm -> view (fst (env_step pl e n s)) nm = view e nm.
Proof.
  intros pl e n s nm N. unfold env_step. destruct (lookup e n) as [a|] eqn:EL; [|reflexivity]. apply WorldProofs.lookup_in in EL. destruct EL as [_ EN].
  destruct (agent_step pl (e_mdp e) a s) as [[m1 a1] r1] eqn:ES. apply step_name in ES. assert (N1 : at_name a1 <> nm) by congruence.
  pose proof (with_view e m1 a1 nm N1) as V1. destruct r1 as [[]|x]; [|exact V1]. set (e1 := with_agent (with_mdp e m1) a1) in *.
  assert (V2 : view (fst (env_consume e1 a1)) nm = view e nm).
  { unfold env_consume. destruct (at_consumes a1); [exact V1|]. destruct (consume_features _ _ _) as [m' [c|x]]; [|exact V1].
    destruct (_ =? _); [|exact V1]. cbn [fst]. rewrite with_view; [exact V1|exact N1]. }
  destruct (env_consume e1 a1) as [e2 [[]|x]]; exact V2.
Qed.
Lemma loop_view : forall pl n rf st nt nas plan rnd nm, n <> nm -> forall todo e i acc, view (fst (multi_loop pl e n rf st nt nas plan rnd i todo acc)) nm = view e nm.
Proof.
  intros pl n rf st nt nas plan rnd nm N. induction todo as [|todo IH]; intros e i acc; cbn [multi_loop]; [reflexivity|].
  assert (V1 : view (fst (refit_step pl e n rf i nt nas plan (rnd (3 * i)) (rnd (3 * i + 1)))) nm = view e nm).
  { unfold refit_step. destruct rf; [|reflexivity]. destruct (step_plan _ _ _ _); [|reflexivity]. now apply fit_view. }
  destruct (refit_step pl e n rf i nt nas plan _ _) as [e1 [[]|x]]; [|exact V1]. cbn [fst] in V1.
  pose proof (step_view pl e1 n (rnd (3 * i + 2)) nm N) as V2. destruct (env_step pl e1 n (rnd (3 * i + 2))) as [e2 [p|x]]; cbn [fst] in *; [|congruence].
  destruct (_ && st); cbn [fst]; [congruence|]. rewrite IH. congruence.
Qed.
Lemma op_view : forall pl e o nm, ~ about nm o -> view (do_op pl e o) nm = view e nm.
Proof.
  intros pl e o nm H. destruct o; cbn [do_op about] in *.
  - now apply fit_view.
  - now apply step_view.
  - unfold step_multi. destruct (lookup e name); [|reflexivity]. destruct (all_n_steps e name); [|reflexivity]. destruct (negb _); [reflexivity|].
    destruct n_steps as [|z|[|z l0]|]; try reflexivity; destruct (negb _); try reflexivity; now apply loop_view.
  - unfold env_step_proba. destruct (lookup e name) as [a|] eqn:EL; [|reflexivity]. apply WorldProofs.lookup_in in EL. destruct EL as [_ EN].
    destruct (agent_step_proba pl (e_mdp e) a position seed) as [a' r] eqn:E.
    assert (K : at_name a' = at_name a).
    { unfold agent_step_proba in E. destruct (match position with Some p0 => _ | None => _ end); [|now inversion E]. destruct (negb _); [now inversion E|]. destruct (at_fit a); [|now inversion E].
      destruct (get_policy pl a seed) as [a1 [[]|x]] eqn:GP; apply policy_name in GP; [|inversion E; subst; auto]. destruct (at_pi_p a1); inversion E; subst; auto. }
    assert (V : view (with_agent e a') nm = view e nm) by (apply with_view'; congruence). destruct r; exact V.
  - unfold step_multi_interactive. destruct n_moves as [[|row0 rows]|]; try reflexivity. destruct (mapM _ _); [|reflexivity]. destruct (_ || _); reflexivity.
  - unfold set_agent_position. destruct (lookup e name) as [a|] eqn:EL; [|reflexivity]. apply WorldProofs.lookup_in in EL. destruct EL as [_ EN].
    destruct (move_agent (e_mdp e) a p) as [[m' a'] r] eqn:MV. apply move_name in MV. cbn [fst]. apply with_view. congruence.
  - destruct (set_walls _ _); reflexivity.
  - now elim H.
Qed.
Lemma run_view : forall pl l e nm, Forall (fun o => ~ about nm o) l -> view (run pl e l) nm = view e nm.
Proof.
  intros pl l. induction l as [|o l IH]; intros e nm H; [reflexivity|]. inversion_clear H as [|? ? H1 H2]. cbn [run fold_left]. fold (run pl (do_op pl e o) l).
  rewrite (IH _ _ H2). now apply op_view.
Qed.
End Own.

(** Whatever is called for other agents, returning or raising, and whatever walls are assigned: an agent stays where it is and keeps its
    history, consumption record, plan and policy. *)
Theorem C205_others_untouched : forall pl (e : env R) l nm, Forall (fun o => ~ about nm o) l ->
  get_history (run pl e l) nm = get_history e nm /\
  get_agent_pi (run pl e l) nm = get_agent_pi e nm /\ get_agent_pi_p (run pl e l) nm = get_agent_pi_p e nm /\
  (reachable pl e -> forall a, agent_named e nm a -> agent_named (run pl e l) nm a).
Proof.
  intros pl e l nm H. pose proof (run_view pl l e nm H) as V. unfold view in V. injection V as V1 V2.
  assert (L : lookup (run pl e l) nm = lookup e nm) by (unfold lookup; now rewrite V1, V2).
  unfold get_history, get_agent_pi, get_agent_pi_p. rewrite L. split; [reflexivity|]. split; [reflexivity|]. split; [reflexivity|].
  intros RE a [Ha EN]. destruct (reachable_wf _ _ RE) as (k & shape & st & W). pose proof (EnvProofs2.lookup_in _ _ _ _ _ W Ha) as LA. rewrite EN in LA.
  rewrite <- L in LA. apply WorldProofs.lookup_in in LA. exact LA.
Qed.

Lemma found_eq : forall l l' : list (attached R), NoDup (map at_name l) -> map at_name l' = map at_name l ->
  (forall n, In n (map at_name l) -> find_agent l' n = find_agent l n) -> l' = l.
Proof.
  induction l as [|b l IH]; intros [|b' l'] ND EN H; try discriminate; [reflexivity|]. cbn [map] in *. injection EN as EN1 EN2. inversion_clear ND as [|? ? N1 N2].
  assert (EB : b' = b).
  { pose proof (H _ (or_introl eq_refl)) as X. unfold find_agent in X. cbn [find] in X. rewrite EN1, String.eqb_refl in X. congruence. }
  subst b'. f_equal. apply IH; [exact N2|exact EN2|]. intros n Hn. pose proof (H n (or_intror Hn)) as X. unfold find_agent in X |- *. cbn [find] in X.
  destruct (String.eqb_spec (at_name b) n) as [E|_]; [subst n; contradiction|exact X].
Qed.
Lemma one_differs : forall (f : attached R -> nat) (l l' : list (attached R)) nm a a', NoDup (map at_name l) -> map at_name l' = map at_name l ->
  (forall n, n <> nm -> find_agent l' n = find_agent l n) -> In a l -> at_name a = nm -> In a' l' -> at_name a' = nm ->
  list_sum (map f l') + f a = list_sum (map f l) + f a'.
Proof.
  intros f. induction l as [|b l IH]; intros [|b' l'] nm a a' ND EN H Ia Na Ia' Na'; try discriminate; [destruct Ia|]. cbn [map] in *. injection EN as EN1 EN2. inversion_clear ND as [|? ? N1 N2].
  change (list_sum (f b' :: map f l')) with (f b' + list_sum (map f l')). change (list_sum (f b :: map f l)) with (f b + list_sum (map f l)).
  assert (HT : forall n, n <> nm -> In n (map at_name l) -> find_agent l' n = find_agent l n).
  { intros n X Hn. pose proof (H n X) as Y. unfold find_agent in Y |- *. cbn [find] in Y. rewrite EN1 in Y. destruct (String.eqb_spec (at_name b) n) as [E|_]; [subst n; contradiction|exact Y]. }
  destruct (string_dec (at_name b) nm) as [E|E].
  - assert (l' = l) as ->.
    { apply found_eq; [exact N2|exact EN2|]. intros n Hn. apply HT; [|exact Hn]. intros ->. now rewrite <- E in Hn. }
    assert (b = a) as ->. { destruct Ia as [X|X]; [exact X|]. elim N1. rewrite E, <- Na. now apply in_map. }
    assert (b' = a') as ->. { destruct Ia' as [X|X]; [exact X|]. elim N1. rewrite E, <- Na'. now apply in_map. }
    lia.
  - assert (EB : b' = b).
    { pose proof (H _ E) as X. unfold find_agent in X. cbn [find] in X. rewrite EN1, String.eqb_refl in X. congruence. }
    subst b'. destruct Ia as [X|Ia]; [congruence|]. destruct Ia' as [X|Ia']; [congruence|].
    assert (K : list_sum (map f l') + f a = list_sum (map f l) + f a'); [|lia].
    apply (IH l' nm a a'); auto. intros n X. destruct (in_dec string_dec n (map at_name l)) as [I|I]; [now apply HT|].
    assert (NO : forall q : list (attached R), ~ In n (map at_name q) -> find_agent q n = None).
    { intros q Hq. destruct (find_agent q n) eqn:F; [|reflexivity]. apply WorldProofs.find_in in F. destruct F as [F1 F2]. elim Hq. rewrite <- F2. now apply in_map. }
    rewrite !NO; auto. now rewrite EN2.
Qed.

(** Calls that fit or step the agent [nm]. *)
Definition drives {A} (nm : string) (o : op A) : Prop :=
  match o with OFit n _ _ _ | OStep n _ | OStepMulti n _ _ _ _ _ _ => n = nm | _ => False end.

(** While only one agent is driven, its history grows by one entry whenever the step counter does. *)
Theorem C205_own_steps : forall pl e l nm a a', reachable pl e -> consumes_in_range e -> Forall (drives nm) l ->
  agent_named e nm a -> agent_named (run pl e l) nm a' ->
  length (at_hist a') + e_n_steps e = length (at_hist a) + e_n_steps (run pl e l).
Proof.
  intros pl e l nm a a' RE CR HL [Ha Na] [Ha' Na'].
  assert (HC : Forall (@counted_op) l) by (eapply Forall_impl; [|exact HL]; intros o; destruct o; cbn; tauto).
  pose proof (C20_count pl e l RE CR HC) as T. destruct (reachable_wf _ _ RE) as (k & shape & st & W).
  assert (HV : forall n, n <> nm -> find_agent (e_agents (run pl e l)) n = find_agent (e_agents e) n).
  { intros n X. assert (F : Forall (fun o => ~ about n o) l) by (eapply Forall_impl; [|exact HL]; intros o Ho; destruct o; cbn in *; try contradiction; congruence).
    pose proof (run_view pl l e n F) as V. unfold view in V. congruence. }
  assert (NM : map at_name (e_agents (run pl e l)) = map at_name (e_agents e)).
  { clear. revert e. induction l as [|o l IH]; intros e; [reflexivity|]. cbn [run fold_left]. fold (run pl (do_op pl e o) l). rewrite IH. apply (op_names pl e o). }
  pose proof (one_differs (fun a => length (at_hist a)) _ _ nm a a' (wf_names _ _ _ _ W) NM HV Ha Na Ha' Na') as D. cbv beta in D. unfold total_history in T. lia.
Qed.

Example C205_example : exists m m' e, grid_mdp (A:=Q) Square ex_ft None (2, 2) false = Ok m /\ make_env m [ex_p; ex_q] = (m', Ok e) /\
  let pl := ex_pl [1; 1; 0; 3]%Z in
  let e1 := run pl e [OFit "p" None 0 0; OStep "p" 0; OFit "q" None 0 0] in
  let e2 := run pl e1 [OStepMulti "p" (StepsInt 3) None 1 false false (fun _ => 0); OStep "nobody" 0; OSetPosition "p" 0%Z] in
  map at_hist (e_agents e1) = [[0; 2]; [3]]%Z /\ map at_hist (e_agents e2) = [[0; 2; 3; 1; 3]; [3]]%Z /\
  get_agent_pi e1 "q" = Ok (Some [1; 1; 0; 3]%Z) /\ get_agent_pi e2 "q" = Ok (Some [1; 1; 0; 3]%Z) /\ e_n_steps e1 = 1 /\ e_n_steps e2 = 4.
Proof. do 3 eexists. cbv zeta. vmr. Qed.
