(** Which states are flagged: C197. *)
From Coq Require Import List ZArith Reals Bool Lia Lra.
From Verif Require Import PyBase PyProofs ActionModel ActionSpec SoftmaxModel ActionProofs ActionProps SoftmaxProofs MCTSProps MCTSRun.
Import ListNotations.
Local Open Scope nat_scope.

Lemma softmax_from_len : forall us prows s pi, softmax_pi_from s us prows = Ok pi -> length pi = length prows /\ forall i, i < length pi -> (0 <= nth i pi 0)%Z.
Proof.
  intros us prows. induction prows as [|p prows IH]; intros s pi E; cbn [softmax_pi_from] in E.
  - injection E as <-. split; [reflexivity|]. cbn. lia.
  - apply bind_ok in E. destruct E as (a & EA & E). apply bind_ok in E. destruct E as (r & ER & E). injection E as <-. destruct (IH _ _ ER) as [L P]. split; [cbn; now rewrite L|].
    unfold softmax_choice in EA. apply bind_ok in EA. destruct EA as (ws & _ & EA). injection EA as <-. intros [|i] Hi; cbn [nth]; [lia|]. apply P. cbn in Hi. lia.
Qed.
(** Greedy selection: the action is -1 exactly where nothing is known. *)
Theorem C197_greedy : forall (draws : nat -> nat) (q : list (list (fval R))) pi,
  (forall row, In row q -> row <> [] /\ unmixed row) -> get_pi (max_get_pi draws) q = Ok pi ->
  length pi = length q /\ forall s, s < length q -> (nth s pi 0%Z = (-1)%Z <-> ~ some_known (nth s q [])).
Proof.
  intros draws q pi H E. split; [|now apply (C26_max_selector_partial draws)]. unfold get_pi in E. apply bind_ok in E. destruct E as (u & _ & E). apply bind_ok in E. destruct E as (p & _ & E).
  destruct (Nat.eqb_spec (length p) (length q)) as [L|]; cbn [negb] in E; [|discriminate]. injection E as <-. rewrite map_length, combine_length. lia.
Qed.
(** Softmax selection. *)
Theorem C197_softmax : forall t us (q : list (list (fval R))) pi,
  (forall row, In row q -> unmixed row) -> get_pi (softmax_get_pi t us) q = Ok pi ->
  length pi = length q /\ forall s, s < length q -> (nth s pi 0%Z = (-1)%Z <-> ~ some_known (nth s q [])).
Proof.
  intros t us q pi HR E. assert (K : exists row, In row q /\ some_known row) by (apply check_q_ok; unfold get_pi in E; apply bind_ok in E; destruct E as ([] & E & _); exact E).
  pose proof E as E0. unfold get_pi in E0. apply bind_ok in E0. destruct E0 as (u & _ & E0). apply bind_ok in E0. destruct E0 as (pi0 & ES & E0). destruct (Nat.eqb_spec (length pi0) (length q)) as [L|]; cbn [negb] in E0; [|discriminate]. clear E0.
  destruct (C26_flagged_states_partial _ _ _ K ES L) as (pi' & E' & L' & H). rewrite E in E'. injection E' as <-. split; [exact L'|]. intros s Hs. destruct (H s Hs) as (H1 & _ & H3). split; [|exact H1].
  intros Em KN. rewrite H3 in Em; [|exact KN|apply HR; now apply nth_In]. unfold softmax_get_pi in ES. apply bind_ok in ES. destruct ES as (pr & _ & ES). destruct (softmax_from_len _ _ _ _ ES) as [_ P]. rewrite <- L in Hs. specialize (P s Hs). lia.
Qed.
(** Probabilities are all NaN exactly where nothing is known, and are numbers elsewhere. *)
Definition flagged_row (row prow : list (fval R)) : Prop := (~ some_known row -> Forall (fun v => v = NaN) prow) /\ (some_known row -> Forall (fun v => exists x, v = Fin x) prow).
Lemma clean_row : forall (q : list (list (fval R))) s, s < length q -> nth s (ActionModel.clean q) [] = map nan_to_ninf (nth s q []).
Proof. intros q s H. unfold ActionModel.clean. now apply nth_map_lt. Qed.
Theorem C197_greedy_probabilities : forall (q p : list (list (fval R))), (forall row, In row q -> unmixed row) -> get_pi_p max_get_pi_p q = Ok p ->
  length p = length q /\ forall s, s < length q -> length (nth s p []) = length (nth s q []) /\ flagged_row (nth s q []) (nth s p []).
Proof.
  intros q p HU E. destruct (C26_flagged_probabilities_partial _ _ _ E) as (L & H). split; [exact L|]. intros s Hs. destruct (H s Hs) as (H1 & H2 & H3). split; [exact H1|]. split.
  - intros K. apply Forall_forall. apply H2. now left.
  - intros K. destruct (H3 K) as (p0 & E0 & ->); [apply HU; now apply nth_In|]. unfold max_get_pi_p in E0. destruct (mapM_nth _ _ _ _ _ E0) as [_ M]. specialize (M s [] []). unfold ActionModel.clean in M at 1. rewrite map_length in M. specialize (M Hs).
    unfold max_pi_p_row in M. apply bind_ok in M. destruct M as (l & _ & M). injection M as <-. apply Forall_forall. intros v Hv. apply in_map_iff in Hv. destruct Hv as (a & <- & _). destruct (existsb (Nat.eqb a) l); eauto.
Qed.
Theorem C197_softmax_probabilities : forall T (q p : list (list (fval R))), (0 < T)%R -> (forall row, In row q -> ~ In PInf row) -> get_pi_p (softmax_get_pi_p T) q = Ok p ->
  length p = length q /\ forall s, s < length q -> length (nth s p []) = length (nth s q []) /\ flagged_row (nth s q []) (nth s p []).
Proof.
  intros T q p HT HP E. destruct (C26_flagged_probabilities_partial _ _ _ E) as (L & H). split; [exact L|]. intros s Hs. destruct (H s Hs) as (H1 & H2 & H3). split; [exact H1|]. split.
  - intros K. apply Forall_forall. apply H2. now left.
  - intros K. assert (NP : ~ In PInf (nth s q [])) by (apply HP; now apply nth_In). destruct (H3 K) as (p0 & E0 & ->); [intros [X _]; contradiction|]. unfold softmax_get_pi_p in E0. injection E0 as <-. rewrite (nth_map_lt _ _ _ _ _ _ []) by (unfold ActionModel.clean; now rewrite map_length). rewrite clean_row by exact Hs.
    set (row := map nan_to_ninf (nth s q [])). assert (B : forall v, In v row -> v <> NaN /\ v <> PInf). { intros v Hv. apply in_map_iff in Hv. destruct Hv as (w & <- & Hw). destruct w; cbn; split; try congruence; intros X; try discriminate X; contradiction. }
    destruct (forallb isninf row) eqn:EN.
    + unfold softmax. rewrite EN. apply Forall_forall. intros v Hv. apply in_map_iff in Hv. destruct Hv as (w & <- & _). eauto.
    + rewrite softmax_gibbs; [|exact HT|exact B|].
      * apply Forall_forall. intros v Hv. apply in_map_iff in Hv. destruct Hv as (w & <- & _). eauto.
      * now apply all_ninf_false.
Qed.
(** An array in which nothing is known is rejected. *)
Theorem C197_rejected : forall (q : list (list (fval R))), (forall row, In row q -> ~ some_known row) ->
  (forall sel, get_pi sel q = Err ValueError) /\ (forall sel, get_pi_p sel q = Err ValueError).
Proof. exact C26_all_nan_rejected. Qed.

(** One state with known values, one without. *)
Example C197_example : let q := [[Fin 1; NaN]; [NaN; NaN]]%R in (forall row, In row q -> row <> [] /\ unmixed row /\ ~ In PInf row) /\ (exists pi, get_pi (max_get_pi (fun _ => 0)) q = Ok pi) /\
  (exists pi, get_pi (softmax_get_pi 1 (fun _ => 0%R)) q = Ok pi) /\ (exists p, get_pi_p max_get_pi_p q = Ok p) /\ (exists p, get_pi_p (softmax_get_pi_p 1) q = Ok p) /\ some_known (nth 0 q []) /\ ~ some_known (nth 1 q []).
Proof.
  intros q. assert (A : forall row, In row q -> row <> [] /\ unmixed row /\ ~ In PInf row). { intros row [<-|[<-|[]]]; (split; [discriminate|]); split; [intros [[X|[X|[]]] _]|intros [X|[X|[]]]|intros [[X|[X|[]]] _]|intros [X|[X|[]]]]; discriminate X. }
  assert (K : exists row, In row q /\ some_known row) by (exists [Fin 1%R; NaN]; split; [now left|exists (Fin 1%R); split; [now left|discriminate]]).
  split; [exact A|]. split.
  - destruct (max_get_pi_from_spec (fun _ => 0) q 0) as (pi0 & E0 & L & P); [intros row Hr; apply (A row Hr)|]. destruct (C26_flagged_states_partial (max_get_pi (fun _ => 0)) q pi0 K E0 L) as (pi & E & _). eauto.
  - split. { destruct (C27_sampled_is_possible 1 (fun _ => 0%R) q) as (pi & E & _); [lra|intros; lra| |exact K|eauto]. intros row Hr. destruct (A row Hr) as (X & _ & Y). now split. }
    split. { destruct (C25_probabilities q) as (p & E & _); [|exact K|eauto]. intros row Hr. apply (A row Hr). }
    split. { now apply softmax_pi_p_total. }
    split; [exists (Fin 1%R); split; [now left|discriminate]|]. intros (v & [<-|[<-|[]]] & N); now apply N.
Qed.
