(** Property C33: probabilistic stepping. *)
From Coq Require Import String List ZArith QArith Reals Bool Lia Lra.
From Verif Require Import PyBase PyProofs GridModel GridSpec MDPModel MDPSpec MDPProofs MDPProofs2 MDPProofs3 MDPProofs4 MDPProps ActionModel ActionSpec ActionProofs RSum EnvModel EnvSpec StepSpec EnvProofs EnvProofs2 EnvProofs3 EnvProofs4 EnvProofs5 EnvProps.
Import ListNotations.
Local Close Scope Q_scope.
Local Open Scope nat_scope.

(** ** Refuted: on the 2 x 2 grid, from state 1 with action probabilities 1/4 each, the result sums to
    1/2: three of the four actions overwrite each other's entry. *)
Theorem C33_not_a_distribution_refuted : exists m m' e e1 e2, grid_mdp (A:=Q) Square ex_ft None (2, 2) false = Ok m /\
  make_env m [mkSpec "q"%string 1%Z None 1%Z [1; 0; 0]%Q []] = (m', Ok e) /\
  let pl := mkPlugins (fun _ e _ _ => null_fit e) (fun _ seed => max_get_pi (fun _ => seed)) (fun _ => max_get_pi_p) (fun _ => false) in
  env_fit pl e "q" None 0 0 = (e1, Ok tt) /\
  env_step_proba pl e1 "q" None 0 = (e2, Ok [Fin (1 # 4); Fin 0; Fin 0; Fin (1 # 4)])%Q.
Proof. do 5 eexists. cbv zeta. vmr. Qed.

(** ** What the call returns *)

(** The pairs (state, action) in the order in which they are processed. *)
Definition pairs (pos : list R) (nA : nat) : list (nat * nat) :=
  concat (map (fun s => map (fun a => (s, a)) (seq 0 nA)) (where_ (fun x => nltb n0 x) pos)).
Definition earlier (p p' : nat * nat) : Prop := fst p < fst p' \/ (fst p = fst p' /\ snd p < snd p').

Lemma in_pairs : forall pos nA s a, In (s, a) (pairs pos nA) <-> (s < length pos /\ (0 < nth s pos 0)%R) /\ a < nA.
Proof.
  intros pos nA s a. unfold pairs. rewrite in_concat. split.
  - intros (l & Hl & H). apply in_map_iff in Hl. destruct Hl as (s' & <- & Hs). apply in_map_iff in H. destruct H as (a' & E & Ha). inversion E. subst s' a'.
    apply (in_where _ _ _ _ 0%R) in Hs. destruct Hs as [H1 H2]. apply in_seq in Ha. apply Rltb_true in H2. split; [split; [exact H1|exact H2]|lia].
  - intros [[H1 H2] Ha]. exists (map (fun a => (s, a)) (seq 0 nA)). split.
    + apply in_map_iff. exists s. split; [reflexivity|]. apply (in_where _ _ _ _ 0%R). split; [exact H1|]. apply Rltb_true. exact H2.
    + apply in_map_iff. exists a. split; [reflexivity|]. apply in_seq. lia.
Qed.

Lemma foldM_concat : forall A B (f : B -> A -> res B) ls b, foldM f (concat ls) b = foldM (fun b l => foldM f l b) ls b.
Proof.
  induction ls as [|l ls IH]; intros b; [reflexivity|]. cbn [concat foldM]. rewrite foldM_app. destruct (foldM f l b); cbn [bind]; auto.
Qed.
Lemma foldM_map : forall A B C (f : B -> C -> res B) (g : A -> C) l b, foldM f (map g l) b = foldM (fun b a => f b (g a)) l b.
Proof. induction l as [|x l IH]; intros b; [reflexivity|]. cbn [map foldM]. destruct (f b (g x)); cbn [bind]; auto. Qed.
Lemma foldM_ext : forall A B (f g : B -> A -> res B) l b, (forall b x, f b x = g b x) -> foldM f l b = foldM g l b.
Proof. induction l as [|x l IH]; intros b H; [reflexivity|]. cbn [foldM]. rewrite H. destruct (g b x); cbn [bind]; auto. Qed.

Definition write (m : mdp R) (pi_p : list (list (fval R))) (pos : list R) (acc : list (fval R)) (p : nat * nat) : res (list (fval R)) :=
  let '(s, act) := p in
  let* t := get_next_state m (Z.of_nat s) (Z.of_nat act) in
  match nth_error pi_p s with
  | None => Err IndexError
  | Some prow => Ok (upd acc t (fmul (nth act prow NaN) (nth s pos n0)))
  end.
Lemma proba_loop_pairs : forall m pi_p pos, proba_loop m pi_p pos =
  foldM (write m pi_p pos) (pairs pos (length (nth 0 pi_p []))) (repeat (Fin n0) (m_n_states m)).
Proof.
  intros. unfold proba_loop, pairs. rewrite foldM_concat, foldM_map. apply foldM_ext. intros b s. rewrite foldM_map. reflexivity.
Qed.

(** The entries after a sequence of writes: the last write to [t] wins. *)
Lemma writes_spec : forall m pi_p pos n l acc r, foldM (write m pi_p pos) l acc = Ok r -> length acc = n ->
  length r = n /\ forall t, t < n ->
    (exists s a l1 l2 prow, l = l1 ++ (s, a) :: l2 /\ get_next_state m (Z.of_nat s) (Z.of_nat a) = Ok t /\ nth_error pi_p s = Some prow /\
       nth t r NaN = fmul (nth a prow NaN) (nth s pos 0%R) /\ forall s' a', In (s', a') l2 -> get_next_state m (Z.of_nat s') (Z.of_nat a') <> Ok t) \/
    (nth t r NaN = nth t acc NaN /\ forall s a, In (s, a) l -> get_next_state m (Z.of_nat s) (Z.of_nat a) <> Ok t).
Proof.
  induction l as [|[s a] l IH]; intros acc r E L.
  - cbn [foldM] in E. inversion E. subst. split; [reflexivity|]. intros t Ht. right. split; [reflexivity|]. intros s a [].
  - cbn [foldM write] in E. destruct (get_next_state m (Z.of_nat s) (Z.of_nat a)) as [t0|] eqn:NS; cbn [bind] in E; [|discriminate].
    destruct (nth_error pi_p s) as [prow|] eqn:EP; cbn [bind] in E; [|discriminate].
    destruct (IH _ _ E) as [LR H]; [now rewrite upd_length|]. split; [exact LR|]. intros t Ht.
    destruct (H t Ht) as [(s1 & a1 & l1 & l2 & prow1 & -> & N1 & E1 & V1 & O1)|[V O]].
    + left. exists s1, a1, ((s, a) :: l1), l2, prow1. auto.
    + rewrite nth_upd in V. destruct (Nat.eqb_spec t t0) as [->|N].
      * left. exists s, a, [], l, prow. split; [reflexivity|]. split; [exact NS|]. split; [exact EP|]. split; [|exact O].
        rewrite V. destruct (Nat.ltb_spec t0 (length acc)); [reflexivity|lia].
      * right. split; [exact V|]. intros s' a' [X|X]; [inversion X; subst; rewrite NS; congruence|auto].
Qed.

Lemma where_from_incr : forall A (p : A -> bool) l i l1 x l2 y, where_from p i l = l1 ++ x :: l2 -> In y l2 -> x < y.
Proof.
  induction l as [|z l IH]; intros i l1 x l2 y E H; cbn [where_from] in E; [destruct l1; discriminate|].
  destruct (p z); [|eauto]. destruct l1 as [|w l1]; cbn [app] in E; inversion E; [|eauto]. subst.
  apply (where_from_sorted _ p l (S x) y) in H. lia.
Qed.

(** In [pairs], whatever comes later is later in the order (state, action); and conversely. *)
Lemma pairs_order : forall pos nA l1 p l2 p', pairs pos nA = l1 ++ p :: l2 -> (In p' l2 <-> In p' (pairs pos nA) /\ earlier p p').
Proof.
  intros pos nA. unfold pairs.
  assert (K : forall ws, (forall l1 x l2 y, ws = l1 ++ x :: l2 -> In y l2 -> x < y) ->
    forall l1 p l2 p', concat (map (fun s => map (fun a => (s, a)) (seq 0 nA)) ws) = l1 ++ p :: l2 ->
      (In p' l2 <-> In p' (concat (map (fun s => map (fun a => (s, a)) (seq 0 nA)) ws)) /\ earlier p p')).
  { induction ws as [|w ws IH]; intros HS l1 p l2 p' E; [destruct l1; discriminate|]. cbn [map concat] in *.
    assert (HS' : forall l1 x l2 y, ws = l1 ++ x :: l2 -> In y l2 -> x < y).
    { intros l1' x l2' y Ew. apply (HS (w :: l1') x l2' y). rewrite Ew. reflexivity. }
    specialize (IH HS').
    assert (GT : forall q, In q (concat (map (fun s => map (fun a => (s, a)) (seq 0 nA)) ws)) -> w < fst q).
    { intros q Hq. apply in_concat in Hq. destruct Hq as (l & Hl & Hq). apply in_map_iff in Hl. destruct Hl as (s & <- & Hs).
      apply in_map_iff in Hq. destruct Hq as (a & <- & _). cbn. apply (HS [] w ws s); auto. }
    assert (HEAD : forall q, In q (map (fun a => (w, a)) (seq 0 nA)) <-> fst q = w /\ snd q < nA).
    { intros [q1 q2]. rewrite in_map_iff. cbn. split; [intros (a & X & Ha); inversion X; subst; apply in_seq in Ha; lia|].
      intros [-> H2]. exists q2. split; [reflexivity|apply in_seq; lia]. }
    (* where does the split fall? *)
    destruct (Nat.le_gt_cases (length (map (fun a => (w, a)) (seq 0 nA))) (length l1)) as [LE|LT].
    - assert (X : exists l1', l1 = map (fun a => (w, a)) (seq 0 nA) ++ l1' /\ concat (map (fun s => map (fun a => (s, a)) (seq 0 nA)) ws) = l1' ++ p :: l2).
      { revert LE E. generalize (map (fun a => (w, a)) (seq 0 nA)) as h. clear. intros h. revert l1. induction h as [|x h IHh]; intros l1 LE E; [exists l1; split; [reflexivity|exact E]|].
        destruct l1 as [|y l1]; [cbn in LE; lia|]. cbn [app] in E. inversion E. subst. destruct (IHh l1) as (l1' & -> & X); [cbn in LE; lia|assumption|]. exists l1'. auto. }
      destruct X as (l1' & -> & X). rewrite (IH l1' p l2 p' X). rewrite in_app_iff.
      assert (Hp : w < fst p) by (apply GT; rewrite X; apply in_elt).
      split; [tauto|]. intros [[H|H] R]; [|tauto]. apply HEAD in H. destruct R as [R|[R _]]; lia.
    - assert (X : exists l2', map (fun a => (w, a)) (seq 0 nA) = l1 ++ p :: l2' /\ l2 = l2' ++ concat (map (fun s => map (fun a => (s, a)) (seq 0 nA)) ws)).
      { revert LT E. generalize (map (fun a => (w, a)) (seq 0 nA)) as h. clear. intros h. revert l1. induction h as [|x h IHh]; intros l1 LT E; [cbn in LT; lia|].
        destruct l1 as [|y l1]; cbn [app] in E; inversion E; subst; [exists h; auto|]. destruct (IHh l1) as (l2' & -> & ->); [cbn in LT; lia|assumption|]. exists l2'. auto. }
      destruct X as (l2' & X & ->). rewrite !in_app_iff.
      assert (Hp : fst p = w /\ snd p < nA) by (apply HEAD; rewrite X; apply in_elt).
      assert (Y : In p' l2' <-> In p' (map (fun a => (w, a)) (seq 0 nA)) /\ earlier p p').
      { rewrite X. assert (SS : forall n k l1 q l2 q', map (fun a : nat => (w, a)) (seq k n) = l1 ++ q :: l2 -> (In q' l2 <-> In q' (l1 ++ q :: l2) /\ earlier q q')).
        { clear. induction n as [|n IH]; intros k l1 q l2 q' E; [destruct l1; discriminate|]. cbn [seq map] in E. destruct l1 as [|y l1]; cbn [app] in *; inversion E; subst.
          - split; [intros H; split; [now right|]|intros [[<-|H] R]; [|exact H]].
            + apply in_map_iff in H. destruct H as (a & <- & Ha). apply in_seq in Ha. right. cbn. lia.
            + unfold earlier in R. cbn in R. lia.
          - rewrite (IH _ _ _ _ q' H1). rewrite ?H1. split; [intros [H R]; split; [right; exact H|exact R]|]. intros [[<-|H] R]; [|auto].
            exfalso. assert (Hq : In q (map (fun a : nat => (w, a)) (seq (S k) n))) by (rewrite H1; apply in_elt).
            apply in_map_iff in Hq. destruct Hq as (a & <- & Ha). apply in_seq in Ha. unfold earlier in R. cbn in R. lia. }
        exact (SS _ _ _ _ _ _ X). }
      rewrite Y. split; [intros [H|H]; [tauto|]|intros [[H|H] R]; [tauto|auto]].
      split; [auto|]. left. destruct Hp as [-> _]. now apply GT. }
  apply K. intros l1 x l2 y E H. eapply where_from_incr; eauto.
Qed.

(** *** Vocabulary *)
(** Probability of starting in state [s]: the given weights normalised, or certainty of the agent's
    position. *)
Definition starts (e : env R) (a : attached R) (position : option (list R)) (s : nat) : R :=
  match position with
  | Some p => (nth s p 0 / Rsum p)%R
  | None => match py_index (m_n_states (e_mdp e)) (at_pos a) with Ok i => if s =? i then 1%R else 0%R | Err _ => 0%R end
  end.
(** Action [act] takes state [s] to [t]. *)
Definition goes (e : env R) (s act t : nat) : Prop := get_next_state (e_mdp e) (Z.of_nat s) (Z.of_nat act) = Ok t.
(** The action probabilities of agent [a], as computed from its fitted values. *)
Definition action_probs (pl : plugins R) (a : attached R) (P : list (list (fval R))) : Prop :=
  exists v q, at_fit a = Some (v, q) /\ get_pi_p (pl_pi_p pl (at_name a)) q = Ok P.

Lemma Rsum_onehot : forall n i, i < n -> Rsum (upd (zeros1 n) i 1%R) = 1%R.
Proof.
  intros n i H. rewrite Rsum_nth. unfold zeros1. rewrite upd_length, repeat_length.
  rewrite (sumf_ext _ _ (fun x => if x =? i then 1%R else 0%R)); [now apply sumf_indicator|].
  intros x Hx. apply in_seq in Hx. rewrite nth_upd, repeat_length. destruct (Nat.eqb_spec x i) as [->|N].
  - destruct (Nat.ltb_spec i n); [reflexivity|lia].
  - apply nth_repeat_lt. lia.
Qed.

Lemma env_step_proba_spec : forall pl e nm position seed e' d, reachable pl e -> env_step_proba pl e nm position seed = (e', Ok d) ->
  exists a P pos, agent_named e nm a /\ action_probs pl a P /\ length pos = m_n_states (e_mdp e) /\
    (forall s, s < m_n_states (e_mdp e) -> nth s pos 0%R = starts e a position s) /\
    e_mdp e' = e_mdp e /\ proba_loop (e_mdp e) P pos = Ok d.
Proof.
  intros pl e nm position seed e' d RE E. destruct (reachable_wf _ _ RE) as (k & shape & st & W).
  unfold env_step_proba in E. destruct (lookup_spec k shape st e nm W) as [(a & EL & Ha & EN)|(EL & _)]; rewrite EL in E; [|discriminate].
  destruct (agent_step_proba pl (e_mdp e) a position seed) as [a' [r|x]] eqn:EA; [|discriminate].
  assert (PI : forall (u v : env R) (x y : res (list (fval R))), (u, x) = (v, y) -> u = v /\ x = y) by (intros; split; congruence).
  apply PI in E. destruct E as [<- E]. inversion E. subst r. clear E.
  unfold agent_step_proba in EA.
  destruct (match position with Some p => Ok p | None => _ end) as [pos|x] eqn:EP; [|discriminate].
  destruct (Nat.eqb_spec (length pos) (m_n_states (e_mdp e))) as [L|L]; cbn [negb] in EA; [|discriminate].
  destruct (at_fit a) as [[v q]|] eqn:F; [|discriminate].
  unfold get_policy in EA. rewrite F in EA.
  destruct (get_pi_p (pl_pi_p pl (at_name a)) q) as [P|x] eqn:GP; [|discriminate].
  destruct (get_pi (pl_pi pl (at_name a) seed) q) as [pi|x] eqn:GI; [|discriminate]. cbn [at_pi_p set_policy] in EA.
  exists a, P, (map (fun x => ndiv x (nsum pos)) pos).
  split; [split; assumption|]. split; [exists v, q; auto|]. split; [now rewrite map_length|]. split; [|split; [reflexivity|congruence]].
  intros s Hs. rewrite (nth_map_lt _ _ _ _ _ _ 0%R) by lia. rewrite nsum_Rsum. unfold starts.
  destruct position as [p|]; [inversion EP; reflexivity|].
  destruct (py_index (m_n_states (e_mdp e)) (at_pos a)) as [i|] eqn:EI; cbn [bind] in EP; [|discriminate]. inversion EP. subst pos.
  pose proof (proj1 (py_index_ok _ _ _ EI)) as Hi. rewrite Rsum_onehot by exact Hi. rewrite nth_upd. unfold zeros1. rewrite repeat_length.
  cbn [ndiv NumR]. destruct (Nat.eqb_spec s i) as [->|N].
  - destruct (Nat.ltb_spec i (m_n_states (e_mdp e))); [cbn; lra|lia].
  - rewrite nth_repeat_lt by lia. cbn. lra.
Qed.

(** A probability times a share; an unknown probability makes the product unknown. *)
Definition times (p : fval R) (x : R) : fval R := match p with Fin y => Fin (y * x)%R | v => v end.

(** Partial: what the call does return. Pairs (state, action) are taken in order of state, then
    action, over the states with positive starting probability; the entry for [t] is the probability
    of the {e last} pair that leads to [t], and zero if there is none. (Missing for the property: the
    probabilities of the other pairs are lost.) *)
Theorem C33_last_write_partial : forall pl e nm position seed e' d, reachable pl e -> env_step_proba pl e nm position seed = (e', Ok d) ->
  exists a P, agent_named e nm a /\ action_probs pl a P /\ e_mdp e' = e_mdp e /\ length d = m_n_states (e_mdp e) /\
    let nA := length (nth 0 P []) in
    let possible s act := s < m_n_states (e_mdp e) /\ (0 < starts e a position s)%R /\ act < nA in
    forall t, t < m_n_states (e_mdp e) ->
      (forall s act, possible s act -> goes e s act t ->
         (forall s' act', possible s' act' -> earlier (s, act) (s', act') -> ~ goes e s' act' t) ->
         nth t d NaN = times (nth act (nth s P []) NaN) (starts e a position s)) /\
      ((forall s act, possible s act -> ~ goes e s act t) -> nth t d NaN = Fin 0%R).
Proof.
  intros pl e nm position seed e' d RE E. destruct (env_step_proba_spec _ _ _ _ _ _ _ RE E) as (a & P & pos & AN & AP & LP & SP & EM & PL).
  exists a, P. split; [exact AN|]. split; [exact AP|]. split; [exact EM|].
  rewrite proba_loop_pairs in PL. destruct (writes_spec _ _ _ (m_n_states (e_mdp e)) _ _ _ PL) as [LD H]; [apply repeat_length|]. split; [exact LD|].
  cbv zeta. set (nA := length (nth 0 P [])) in *.
  assert (IP : forall s act, In (s, act) (pairs pos nA) <-> s < m_n_states (e_mdp e) /\ (0 < starts e a position s)%R /\ act < nA).
  { intros s act. rewrite in_pairs, LP. split; [intros [[H1 H2] H3]; rewrite SP in H2; tauto|intros (H1 & H2 & H3); rewrite <- SP in H2; tauto]. }
  intros t Ht. split.
  - intros s act PO GO LAST. apply IP in PO. destruct (H t Ht) as [(s1 & a1 & l1 & l2 & prow & EL & G1 & E1 & V & LATER)|[_ NO]].
    2: { elim (NO _ _ PO). exact GO. }
    assert (IN1 : In (s1, a1) (pairs pos nA)) by (rewrite EL; apply in_elt).
    assert (SAME : (s1, a1) = (s, act)).
    { destruct (in_dec (fun p q : nat * nat => ltac:(decide equality; apply Nat.eq_dec)) (s, act) l2) as [I2|N2]; [elim (LATER _ _ I2); exact GO|].
      rewrite (pairs_order _ _ _ _ _ _ EL) in N2.
      assert (NE : ~ earlier (s1, a1) (s, act)) by tauto. assert (NE2 : ~ earlier (s, act) (s1, a1)).
      { intros X. apply (LAST s1 a1); [now apply IP|exact X|exact G1]. }
      unfold earlier in *. cbn in *. f_equal; lia. }
    inversion SAME. subst s1 a1. rewrite V. rewrite (nth_error_nth P s [] E1). rewrite SP; [reflexivity|]. apply IP in PO. tauto.
  - intros NO. destruct (H t Ht) as [(s1 & a1 & l1 & l2 & prow & EL & G1 & _)|[V _]].
    + elim (NO s1 a1); [|exact G1]. apply IP. rewrite EL. apply in_elt.
    + rewrite V. now rewrite nth_repeat_lt.
Qed.

(** Partial: when no two possible pairs lead to the same state (so in particular no impossible action
    has to be "taken"), starting from a probability distribution and with action probabilities that
    sum to one, the result is the distribution after one step: the entry for [t] is the total
    probability of the pairs that lead to [t], and the entries sum to one. *)
Theorem C33_distinct_partial : forall pl e nm position seed e' d p, reachable pl e -> env_step_proba pl e nm position seed = (e', Ok d) ->
  (forall a P, agent_named e nm a -> action_probs pl a P ->
     P = map (map Fin) p /\ length p = m_n_states (e_mdp e) /\ Forall distribution p /\ Forall (fun row => length row = length (nth 0 p [])) p /\
     (forall s, s < m_n_states (e_mdp e) -> (0 <= starts e a position s)%R) /\ sumf (starts e a position) (seq 0 (m_n_states (e_mdp e))) = 1%R /\
     forall s act s' act' t, (0 < starts e a position s)%R -> (0 < starts e a position s')%R -> act < length (nth 0 p []) -> act' < length (nth 0 p []) ->
       goes e s act t -> goes e s' act' t -> s = s' /\ act = act') ->
  exists a ds, agent_named e nm a /\ d = map Fin ds /\ length ds = m_n_states (e_mdp e) /\ distribution ds /\
    forall t, t < m_n_states (e_mdp e) -> nth t ds 0%R =
      sumf (fun s => sumf (fun act =>
        match get_next_state (e_mdp e) (Z.of_nat s) (Z.of_nat act) with
        | Ok t' => if t' =? t then (nth act (nth s p []) 0 * starts e a position s)%R else 0%R
        | Err _ => 0%R
        end) (seq 0 (length (nth 0 p [])))) (seq 0 (m_n_states (e_mdp e))).
Proof.
  intros pl e nm position seed e' d p RE E HY.
  pose proof (env_step_proba_spec _ _ _ _ _ _ _ RE E) as (a0 & P0 & pos & AN0 & AP0 & LP & SP & _ & PL).
  destruct (C33_last_write_partial _ _ _ _ _ _ _ RE E) as (a & P & AN & AP & _ & LD & H). cbv zeta in H.
  destruct (reachable_wf _ _ RE) as (k & shape & st & W).
  assert (a0 = a). { destruct AN0, AN. eapply same_name_same; eauto; [apply (wf_names _ _ _ _ W)|congruence]. } subst a0.
  assert (P0 = P). { destruct AP0 as (v & q & F & G), AP as (v' & q' & F' & G'). rewrite F in F'. inversion F'. subst v' q'. congruence. } subst P0.
  destruct (HY a P AN AP) as (EP & Lp & DI & REC & NN & S1 & INJ). set (n := m_n_states (e_mdp e)) in *. set (nA := length (nth 0 p [])) in *.
  assert (nA0 : length (nth 0 P []) = nA). { rewrite EP. unfold nA. destruct p; [reflexivity|]. cbn. apply map_length. }
  rewrite nA0 in H.
  assert (ROW : forall s act, s < n -> act < nA -> nth act (nth s P []) NaN = Fin (nth act (nth s p []) 0%R)).
  { intros s act Hs Ha. rewrite EP. rewrite (nth_map_lt _ _ _ _ _ _ []) by lia. rewrite (nth_map_lt _ _ _ _ _ _ 0%R); [reflexivity|].
    rewrite Forall_forall in REC. rewrite (REC (nth s p [])) by (apply nth_In; lia). exact Ha. }
  assert (TOT : forall s act, s < n -> (0 < starts e a position s)%R -> act < nA -> exists t, t < n /\ goes e s act t).
  { intros s act Hs Hp Ha. rewrite proba_loop_pairs, nA0 in PL.
    assert (IN : In (s, act) (pairs pos nA)). { apply in_pairs. rewrite SP by exact Hs. rewrite LP. auto. }
    apply in_split in IN. destruct IN as (l1 & l2 & EL). rewrite EL, foldM_app in PL. destruct (foldM (write (e_mdp e) P pos) l1 _) as [acc|]; cbn [bind] in PL; [|discriminate].
    cbn [foldM write] in PL. destruct (get_next_state (e_mdp e) (Z.of_nat s) (Z.of_nat act)) as [t|] eqn:G; cbn [bind] in PL; [|discriminate].
    exists t. split; [|exact G]. eapply next_state_lt; [apply (wf_grid _ _ _ _ W)|exact G]. }
  set (val := fun t => sumf (fun s => sumf (fun act =>
        match get_next_state (e_mdp e) (Z.of_nat s) (Z.of_nat act) with
        | Ok t' => if t' =? t then (nth act (nth s p []) 0 * starts e a position s)%R else 0%R
        | Err _ => 0%R
        end) (seq 0 nA)) (seq 0 n)).
  assert (Z0 : forall s, s < n -> ~ (0 < starts e a position s)%R -> starts e a position s = 0%R).
  { intros s Hs N. specialize (NN s Hs). lra. }
  assert (TERM0 : forall s act t, s < n -> act < nA -> ((0 < starts e a position s)%R -> ~ goes e s act t) ->
    match get_next_state (e_mdp e) (Z.of_nat s) (Z.of_nat act) with
        | Ok t' => if t' =? t then (nth act (nth s p []) 0 * starts e a position s)%R else 0%R
        | Err _ => 0%R
        end = 0%R).
  { intros s act t Hs Ha N. unfold goes in N. destruct (get_next_state _ _ _) as [t'|]; [|reflexivity]. destruct (Nat.eqb_spec t' t) as [->|]; [|reflexivity].
    rewrite Z0; [lra|exact Hs|]. intros X. now apply (N X). }
  assert (V : forall t, t < n -> nth t d NaN = Fin (val t)).
  { intros t Ht. destruct (H t Ht) as [H1 H2].
    (* is there a pair leading to t? *)
    assert (DEC : (exists s act, s < n /\ (0 < starts e a position s)%R /\ act < nA /\ goes e s act t) \/
                  (forall s act, (s < n /\ (0 < starts e a position s)%R /\ act < nA) -> ~ goes e s act t)).
    { destruct (existsb (fun p => match get_next_state (e_mdp e) (Z.of_nat (fst p)) (Z.of_nat (snd p)) with Ok t' => t' =? t | Err _ => false end) (pairs pos nA)) eqn:X.
      - left. apply existsb_exists in X. destruct X as ([s act] & IN & G). cbn [fst snd] in G. apply in_pairs in IN. rewrite LP in IN. destruct IN as [[I1 I2] I3]. rewrite SP in I2 by exact I1.
        exists s, act. do 3 (split; [assumption|]). unfold goes. destruct (get_next_state _ _ _) as [t'|]; [|discriminate]. apply Nat.eqb_eq in G. congruence.
      - right. intros s act (Hs & Hp & Ha) G. assert (X' : true = false); [|discriminate]. rewrite <- X. symmetry. apply existsb_exists. exists (s, act). split.
        + apply in_pairs. rewrite LP, SP by exact Hs. auto.
        + cbn [fst snd]. rewrite G. apply Nat.eqb_refl. }
    destruct DEC as [(s & act & Hs & Hp & Ha & G)|NO].
    - rewrite (H1 s act); [|auto|exact G|].
      + rewrite ROW by assumption. cbn [fmul]. f_equal. unfold val.
        rewrite (sumf_single _ _ s); [|apply seq_NoDup|apply in_seq; lia|].
        * rewrite (sumf_single _ _ act); [|apply seq_NoDup|apply in_seq; lia|].
          -- rewrite G, Nat.eqb_refl. reflexivity.
          -- intros act' I N. apply in_seq in I. apply TERM0; [exact Hs|lia|]. intros _ G'. apply N. destruct (INJ s act s act' t Hp Hp Ha ltac:(lia) G G'). congruence.
        * intros s' I N. apply in_seq in I. apply sumf_0. intros act' I'. apply in_seq in I'. apply TERM0; [lia|lia|]. intros Hp' G'. apply N.
          destruct (INJ s act s' act' t Hp Hp' Ha ltac:(lia) G G'). congruence.
      + intros s' act' (Hs' & Hp' & Ha') EA G'. destruct (INJ s act s' act' t Hp Hp' Ha Ha' G G') as [-> ->]. unfold earlier in EA. cbn in EA. lia.
    - rewrite (H2 NO). f_equal. symmetry. unfold val. apply sumf_0. intros s I. apply in_seq in I. apply sumf_0. intros act I'. apply in_seq in I'. apply TERM0; [lia|lia|]. intros Hp. apply NO. split; [lia|split; [exact Hp|lia]]. }
  exists a, (map val (seq 0 n)). split; [exact AN|].
  assert (LV : length (map val (seq 0 n)) = n) by now rewrite map_length, seq_length.
  assert (NV : forall t, t < n -> nth t (map val (seq 0 n)) 0%R = val t).
  { intros t Ht. rewrite (nth_map_lt _ _ _ _ _ _ 0) by (rewrite seq_length; exact Ht). now rewrite seq_nth. }
  split. { apply nth_ext with (d:=NaN) (d':=NaN); [rewrite map_length; congruence|]. intros t Ht. rewrite LD in Ht. rewrite (nth_map_lt _ _ _ _ _ _ 0%R) by lia. rewrite NV by exact Ht. now apply V. }
  split; [exact LV|]. split; [|exact NV]. split.
  - intros x Hx. apply in_map_iff in Hx. destruct Hx as (t & <- & Ht). unfold val. apply sumf_nonneg. intros s Hs. apply in_seq in Hs. apply sumf_nonneg. intros act Ha. apply in_seq in Ha.
    destruct (get_next_state _ _ _) as [t'|]; [|lra]. destruct (t' =? t); [|lra]. apply Rmult_le_pos; [|apply NN; lia].
    rewrite Forall_forall in DI, REC. destruct (DI (nth s p [])) as [D1 _]; [apply nth_In; lia|]. apply D1. apply nth_In. rewrite (REC (nth s p [])) by (apply nth_In; lia). unfold nA in Ha. lia.
  - change (sumf val (seq 0 n) = 1%R). unfold val. rewrite sumf_swap. rewrite <- S1. apply sumf_ext. intros s Hs. apply in_seq in Hs. rewrite sumf_swap.
    transitivity (sumf (fun act => starts e a position s * nth act (nth s p []) 0)%R (seq 0 nA)).
    + apply sumf_ext. intros act Ha. apply in_seq in Ha. destruct (Rlt_dec 0 (starts e a position s)) as [Hp|N].
      * destruct (TOT s act ltac:(lia) Hp ltac:(lia)) as (t0 & Ht0 & G). unfold goes in G. rewrite G.
        rewrite (sumf_ext _ _ (fun t => if t =? t0 then (nth act (nth s p []) 0 * starts e a position s)%R else 0%R)).
        -- rewrite sumf_indicator by exact Ht0. lra.
        -- intros t _. rewrite Nat.eqb_sym. reflexivity.
      * rewrite (Z0 s ltac:(lia) N). rewrite sumf_0; [lra|]. intros t _. destruct (get_next_state _ _ _) as [t'|]; [|reflexivity]. destruct (t' =? t); lra.
    + rewrite sumf_scal. rewrite Forall_forall in DI, REC. destruct (DI (nth s p [])) as [_ D2]; [apply nth_In; lia|].
      rewrite Rsum_nth in D2. rewrite (REC (nth s p [])) in D2 by (apply nth_In; lia). fold nA in D2. rewrite D2. lra.
Qed.

(** The same, as C179: a property of its own. *)
Theorem C179_distribution : forall pl e nm position seed e' d p, reachable pl e -> env_step_proba pl e nm position seed = (e', Ok d) ->
  (forall a P, agent_named e nm a -> action_probs pl a P ->
     P = map (map Fin) p /\ length p = m_n_states (e_mdp e) /\ Forall distribution p /\ Forall (fun row => length row = length (nth 0 p [])) p /\
     (forall s, s < m_n_states (e_mdp e) -> (0 <= starts e a position s)%R) /\ sumf (starts e a position) (seq 0 (m_n_states (e_mdp e))) = 1%R /\
     forall s act s' act' t, (0 < starts e a position s)%R -> (0 < starts e a position s')%R -> act < length (nth 0 p []) -> act' < length (nth 0 p []) ->
       goes e s act t -> goes e s' act' t -> s = s' /\ act = act') ->
  exists a ds, agent_named e nm a /\ d = map Fin ds /\ length ds = m_n_states (e_mdp e) /\ distribution ds /\
    forall t, t < m_n_states (e_mdp e) -> nth t ds 0%R =
      sumf (fun s => sumf (fun act =>
        match get_next_state (e_mdp e) (Z.of_nat s) (Z.of_nat act) with
        | Ok t' => if t' =? t then (nth act (nth s p []) 0 * starts e a position s)%R else 0%R
        | Err _ => 0%R
        end) (seq 0 (length (nth 0 p [])))) (seq 0 (m_n_states (e_mdp e))).
Proof. exact (@C33_distinct_partial). Qed.

(** The hypotheses are met at the centre of a 3 x 3 grid: four distinct neighbours, probability 1/4 each. *)
Example C33_example : exists m m' e e1 e2, grid_mdp (A:=Q) Square [[0;0;0;0;0;0;0;0;1]%Q] None (3, 3) false = Ok m /\
  make_env m [mkSpec "q"%string 1%Z None 4%Z [1; 0]%Q []] = (m', Ok e) /\
  let pl := mkPlugins (fun _ e _ _ => null_fit e) (fun _ seed => max_get_pi (fun _ => seed)) (fun _ => max_get_pi_p) (fun _ => false) in
  env_fit pl e "q" None 0 0 = (e1, Ok tt) /\
  env_step_proba pl e1 "q" None 0 = (e2, Ok [Fin 0; Fin (1 # 4); Fin 0; Fin (1 # 4); Fin 0; Fin (1 # 4); Fin 0; Fin (1 # 4); Fin 0])%Q /\
  map (fun a => get_next_state (e_mdp e1) 4 a) [0;1;2;3]%Z = [Ok 5; Ok 7; Ok 3; Ok 1].
Proof. do 5 eexists. cbv zeta. vmr. Qed.
