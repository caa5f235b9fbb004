(** The learners that look along the line of sight, as objects: fitting in several calls, what happens to estimates
    returned earlier, and failed fits (C88, C161-C163). *)
From Coq Require Import List ZArith QArith Reals Bool Lia Lra.
From Verif Require Import PyBase PyProofs ActionSpec RSum GridModel GridSpec MDPModel MDPSpec MDPProofs MDPProps IRLModel IRLLook SightModel.
Import ListNotations.
Local Close Scope Q_scope.
Local Open Scope nat_scope.

(** ** Specification *)
(** The learner's estimate, if any, is an array in memory. *)
Definition alive {A} (x : option nat) (h : heap A) : Prop := forall a, x = Some a -> a < length h.
(** What each trajectory counts for, in its own MDP: as many numbers as there are features. *)
Definition counted (count : mdp R -> list (list Z) -> res (list R)) (nF : nat) (ms : list (mdp R)) (ts : list (list Z)) (gs : list (list R)) : Prop :=
  length ts = length ms /\ Forall2 (fun p g => count (fst p) [snd p] = Ok g /\ length g = nF) (combine ms ts) gs.
(** Any further calls of [fit], whether they succeed or fail. *)
Inductive sight_history {A} `{Num A} (count : mdp A -> list (list Z) -> res (list A)) : option nat * heap A -> option nat * heap A -> Prop :=
| sh_none : forall s, sight_history count s s
| sh_fit : forall x h ms ts reset x' h' r s, fit_sight count ms ts reset x h = (x', h', r) -> sight_history count (x', h') s -> sight_history count (x, h) s.
(** The estimate a fit starts from. *)
Definition from (nF : nat) (reset : bool) (x : option nat) (h : heap R) : list R := match x, reset with Some a, false => nth a h [] | _, _ => repeat 0%R nF end.

(** ** Proofs *)
Section Generic.
Context {A : Type} `{Num A}.
Variable count : mdp A -> list (list Z) -> res (list A).
Lemma loop_app : forall ms1 ms2 ts a n h, sight_loop count n (ms1 ++ ms2) ts a h =
  match sight_loop count n ms1 ts a h with (h1, Ok _) => sight_loop count (n + length ms1) ms2 ts a h1 | (h1, Err e) => (h1, Err e) end.
Proof.
  induction ms1 as [|m ms1 IH]; intros ms2 ts a n h; [cbn [app sight_loop length]; now rewrite Nat.add_0_r|]. cbn [app sight_loop length]. destruct (nth_error ts n) as [t|]; [|reflexivity]. destruct (count m [t]) as [f|e]; [|reflexivity]. destruct (_ =? _); [|reflexivity].
  rewrite IH. now replace (S n + length ms1) with (n + S (length ms1)) by lia.
Qed.
Lemma loop_front : forall ms ts ts' a n h, n + length ms <= length ts -> sight_loop count n ms (ts ++ ts') a h = sight_loop count n ms ts a h.
Proof.
  induction ms as [|m ms IH]; intros ts ts' a n h L; [reflexivity|]. cbn [length] in L. cbn [sight_loop]. rewrite nth_error_app1 by lia. destruct (nth_error ts n) as [t|]; [|reflexivity]. destruct (count m [t]) as [f|e]; [|reflexivity]. destruct (_ =? _); [|reflexivity]. apply IH. lia.
Qed.
Lemma loop_back : forall ms ts ts' a n h, sight_loop count (length ts + n) ms (ts ++ ts') a h = sight_loop count n ms ts' a h.
Proof.
  induction ms as [|m ms IH]; intros ts ts' a n h; [reflexivity|]. cbn [sight_loop]. rewrite nth_error_app2 by lia. replace (length ts + n - length ts) with n by lia. destruct (nth_error ts' n) as [t|]; [|reflexivity]. destruct (count m [t]) as [f|e]; [|reflexivity]. destruct (_ =? _); [|reflexivity].
  replace (S (length ts + n)) with (length ts + S n) by lia. apply IH.
Qed.
Lemma loop_other : forall ms ts a n h h' r, sight_loop count n ms ts a h = (h', r) -> length h' = length h /\ forall b, b <> a -> nth b h' [] = nth b h [].
Proof.
  induction ms as [|m ms IH]; intros ts a n h h' r E; cbn [sight_loop] in E; [injection E as <- _; auto|]. destruct (nth_error ts n) as [t|]; [|injection E as <- _; auto]. destruct (count m [t]) as [f|e]; [|injection E as <- _; auto]. destruct (_ =? _); [|injection E as <- _; auto].
  apply IH in E. destruct E as [E1 E2]. split; [now rewrite E1, upd_length|]. intros b Hb. rewrite E2 by exact Hb. apply nth_upd_other. congruence.
Qed.
(** The array at [a] after the loop depends on its values before it only. *)
Lemma loop_value : forall ms ts a a' n h h1, a < length h -> a' < length h1 -> nth a h [] = nth a' h1 [] ->
  snd (sight_loop count n ms ts a h) = snd (sight_loop count n ms ts a' h1) /\ nth a (fst (sight_loop count n ms ts a h)) [] = nth a' (fst (sight_loop count n ms ts a' h1)) [].
Proof.
  induction ms as [|m ms IH]; intros ts a a' n h h1 L L1 E; cbn [sight_loop]; [auto|]. destruct (nth_error ts n) as [t|]; [|auto]. destruct (count m [t]) as [f|e]; [|auto]. rewrite E. destruct (_ =? _); [|auto].
  apply IH; rewrite ?upd_length; auto. now rewrite !nth_upd_same.
Qed.
Lemma loop_fold : forall ms ts a n h, a < length h -> match foldM (fun th '(n, m) => match nth_error ts n with None => Err IndexError | Some t => let* f := count m [t] in if (length f =? length th)%nat then Ok (vadd th f) else Err ValueError end) (combine (seq n (length ms)) ms) (nth a h []) with
  | Ok th => exists h', sight_loop count n ms ts a h = (h', Ok tt) /\ nth a h' [] = th | Err e => exists h', sight_loop count n ms ts a h = (h', Err e) end.
Proof.
  induction ms as [|m ms IH]; intros ts a n h L; cbn [length seq combine foldM sight_loop]; [eauto|]. destruct (nth_error ts n) as [t|]; cbn [bind]; [|eauto]. destruct (count m [t]) as [f|e]; cbn [bind]; [|eauto]. destruct (_ =? _); cbn [bind]; [|eauto].
  specialize (IH ts a (S n) (upd h a (vadd (nth a h []) f))). rewrite upd_length, nth_upd_same in IH by exact L. now apply IH.
Qed.
Lemma fit_alive : forall ms ts reset x h x' h' r, alive x h -> fit_sight count ms ts reset x h = (x', h', r) -> alive x' h' /\ length h <= length h'.
Proof.
  intros ms ts reset x h x' h' r AL E. unfold fit_sight in E. assert (G : forall a h0, a < length h0 -> length h <= length h0 -> (let '(h'0, r0) := sight_loop count 0 ms ts a h0 in (Some a, h'0, match r0 with Ok _ => Ok a | Err e => Err e end)) = (x', h', r) -> alive x' h' /\ length h <= length h').
  { intros a h0 L LL E0. destruct (sight_loop count 0 ms ts a h0) as [h2 r2] eqn:EL. apply loop_other in EL. injection E0 as <- <- _. split; [intros b Hb; injection Hb as <-; lia|lia]. }
  assert (F : (match ms with [] => (x, h, Err IndexError) | m0 :: _ => let '(h', r) := sight_loop count 0 ms ts (length h) (h ++ [zeros1 (m_n_features m0)]) in (Some (length h), h', match r with Ok _ => Ok (length h) | Err e => Err e end) end) = (x', h', r) -> alive x' h' /\ length h <= length h').
  { clear E. destruct ms as [|m0 ms]; intros E; [injection E as <- <- _; auto|]. apply (G (length h) (h ++ [zeros1 (m_n_features m0)])); [rewrite app_length; cbn; lia|rewrite app_length; lia|exact E]. }
  destruct x as [a|]; [destruct reset|]; [exact (F E)| |exact (F E)]. apply (G a h); [now apply AL|lia|exact E].
Qed.
Lemma fit_keeps : forall ms ts reset x h x' h' r b, alive x h -> fit_sight count ms ts reset x h = (x', h', r) -> b < length h -> x <> Some b -> nth b h' [] = nth b h [] /\ x' <> Some b.
Proof.
  intros ms ts reset x h x' h' r b AL E Hb NX. unfold fit_sight in E.
  assert (F : (match ms with [] => (x, h, Err IndexError) | m0 :: _ => let '(h', r) := sight_loop count 0 ms ts (length h) (h ++ [zeros1 (m_n_features m0)]) in (Some (length h), h', match r with Ok _ => Ok (length h) | Err e => Err e end) end) = (x', h', r) -> nth b h' [] = nth b h [] /\ x' <> Some b).
  { clear E. destruct ms as [|m0 ms]; intros E; [injection E as <- <- _; auto|]. destruct (sight_loop _ _ _ _ _ _) as [h2 r2] eqn:EL in E. apply loop_other in EL. destruct EL as [_ EL]. injection E as <- <- _. split; [|intros Q; injection Q; lia]. rewrite EL by lia. now apply app_nth1. }
  destruct x as [a|]; [destruct reset|]; [exact (F E)| |exact (F E)]. destruct (sight_loop _ _ _ _ _ _) as [h2 r2] eqn:EL in E. apply loop_other in EL. destruct EL as [_ EL]. injection E as <- <- _. split; [|exact NX]. apply EL. congruence.
Qed.
End Generic.

(** The learner's estimate is the sum that [C88_learner] describes. *)
Theorem C88_object : forall (count : mdp R -> list (list Z) -> res (list R)) ms ts reset x h, alive x h ->
  match fit_simple count ms ts reset (option_map (fun a => nth a h []) x) with
  | Ok th => exists a h', fit_sight count ms ts reset x h = (Some a, h', Ok a) /\ nth a h' [] = th
  | Err e => exists x' h', fit_sight count ms ts reset x h = (x', h', Err e)
  end.
Proof.
  intros count ms ts reset x h AL. unfold fit_simple, fit_sight.
  assert (G : forall a h0 th0, a < length h0 -> th0 = nth a h0 [] -> match foldM (fun th '(n, m) => match nth_error ts n with None => Err IndexError | Some t => let* f := count m [t] in if (length f =? length th)%nat then Ok (vadd th f) else Err ValueError end) (combine (seq 0 (length ms)) ms) th0 with
    | Ok th => exists b h', (let '(h', r) := sight_loop count 0 ms ts a h0 in (Some a, h', match r with Ok _ => Ok a | Err e => Err e end)) = (Some b, h', Ok b) /\ nth b h' [] = th
    | Err e => exists x' h', (let '(h', r) := sight_loop count 0 ms ts a h0 in (Some a, h', match r with Ok _ => Ok a | Err e => Err e end)) = (x', h', Err e) end).
  { intros a h0 th0 L ->. pose proof (loop_fold count ms ts a 0 h0 L) as F. destruct (foldM _ _ _) as [th|e]; [destruct F as (h' & F & V)|destruct F as (h' & F)]; rewrite F; eauto. }
  assert (F : forall m0 ms', ms = m0 :: ms' -> nth (length h) (h ++ [zeros1 (A:=R) (m_n_features m0)]) [] = zeros1 (m_n_features m0)) by (intros; rewrite app_nth2, Nat.sub_diag by lia; reflexivity).
  assert (L : forall n, length h < length (h ++ [zeros1 (A:=R) n])) by (intros; rewrite app_length; cbn; lia).
  destruct x as [a|]; [destruct reset|]; cbn [option_map bind].
  - destruct ms as [|m0 ms]; cbn [bind]; [eauto|]. apply G; [apply L|symmetry; eapply F; reflexivity].
  - apply G; [now apply AL|reflexivity].
  - destruct ms as [|m0 ms]; cbn [bind]; [eauto|]. apply G; [apply L|symmetry; eapply F; reflexivity].
Qed.

(** ** C161: fitting call by call *)
(** Fitting to some trajectories and then, without resetting, to others is fitting to all of them: the learner, its memory, the
    result and a failure are the same. *)
Theorem C161_increments : forall A (NA : Num A) (count : mdp A -> list (list Z) -> res (list A)) ms1 ms2 ts1 ts2 reset x h, length ts1 = length ms1 -> ms1 <> [] ->
  fit_sight count (ms1 ++ ms2) (ts1 ++ ts2) reset x h =
  match fit_sight count ms1 ts1 reset x h with (x1, h1, Ok _) => fit_sight count ms2 ts2 false x1 h1 | (x1, h1, Err e) => (x1, h1, Err e) end.
Proof.
  intros A NA count ms1 ms2 ts1 ts2 reset x h L NE. unfold fit_sight at 1 2.
  assert (G : forall a h0, (let '(h', r) := sight_loop count 0 (ms1 ++ ms2) (ts1 ++ ts2) a h0 in (Some a, h', match r with Ok _ => Ok a | Err e => Err e end)) =
    match (let '(h', r) := sight_loop count 0 ms1 ts1 a h0 in (Some a, h', match r with Ok _ => Ok a | Err e => Err e end)) with (x1, h1, Ok _) => fit_sight count ms2 ts2 false x1 h1 | (x1, h1, Err e) => (x1, h1, Err e) end).
  { intros a h0. rewrite loop_app, loop_front by lia. destruct (sight_loop count 0 ms1 ts1 a h0) as [h1 [u|e]]; [|reflexivity]. replace (0 + length ms1) with (length ts1 + 0) by lia. rewrite loop_back. reflexivity. }
  destruct ms1 as [|m0 ms1]; [now elim NE|]. cbn [app] in *. destruct x as [a|]; [destruct reset|]; apply G.
Qed.

(** ** C162: estimates returned earlier *)
(** A fit without resetting returns the same array again, with the new counts added. *)
Theorem C162_returned_refuted : forall (count : mdp R -> list (list Z) -> res (list R)) ms ts reset x h x1 h1 a nF ms2 ts2 gs, alive x h -> fit_sight count ms ts reset x h = (x1, h1, Ok a) ->
  length (nth a h1 []) = nF -> counted count nF ms2 ts2 gs ->
  exists h2, fit_sight count ms2 ts2 false x1 h1 = (Some a, h2, Ok a) /\ forall i, nth i (nth a h2 []) 0%R = (nth i (nth a h1 []) 0 + sumf (fun g => nth i g 0) gs)%R.
Proof.
  intros count ms ts reset x h x1 h1 a nF ms2 ts2 gs AL E LA [L F]. assert (X : x1 = Some a). { unfold fit_sight in E. destruct x as [b|]; [destruct reset|]; try (destruct ms as [|m0 ms]; [discriminate|]); destruct (sight_loop _ _ _ _ _ _) as [h' [u|e]] in E; try discriminate; injection E as <- _ <-; reflexivity. }
  subst x1. destruct (fit_alive _ _ _ _ _ _ _ _ _ AL E) as [AL1 _]. assert (La : a < length h1) by (now apply AL1). cbn [fit_sight].
  assert (G : forall ms2 ts2 pre gs h1, length ts2 = length ms2 -> a < length h1 -> length (nth a h1 []) = nF -> Forall2 (fun p g => count (fst p) [snd p] = Ok g /\ length g = nF) (combine ms2 ts2) gs ->
    exists h2, sight_loop count (length pre) ms2 (pre ++ ts2) a h1 = (h2, Ok tt) /\ forall i, nth i (nth a h2 []) 0%R = (nth i (nth a h1 []) 0 + sumf (fun g => nth i g 0) gs)%R).
  { clear. induction ms2 as [|m ms2 IH]; intros [|t ts2] pre gs h1 L La LA F; try discriminate; cbn [combine] in F.
    - inversion_clear F. exists h1. split; [reflexivity|]. intros i. rewrite sumf_nil. lra.
    - inversion_clear F as [|? g ? gs' [E1 E2] F']. cbn [sight_loop]. rewrite nth_error_app2, Nat.sub_diag by lia. cbn [nth_error]. cbn [fst snd] in E1. rewrite E1, E2, LA, Nat.eqb_refl.
      destruct (IH ts2 (pre ++ [t]) gs' (upd h1 a (vadd (nth a h1 []) g))) as (h2 & E & V); [cbn in L; lia|now rewrite upd_length|rewrite nth_upd_same by exact La; now apply IRLLook.vadd_length|exact F'|]. rewrite app_length, Nat.add_1_r, <- app_assoc in E. cbn [app] in E.
      exists h2. split; [exact E|]. intros i. rewrite V, nth_upd_same, (vadd_nth nF), sumf_cons by assumption. lra. }
  destruct (G ms2 ts2 [] gs h1 L La LA F) as (h2 & E2 & V). cbn [length app] in E2. exists h2. rewrite E2. auto.
Qed.
(** What was returned before a fit with [reset] that has at least one MDP never changes again. *)
Theorem C162_reset_partial : forall A (NA : Num A) (count : mdp A -> list (list Z) -> res (list A)) ms ts x h x1 h1 r x2 h2 b, alive x h -> ms <> [] -> fit_sight count ms ts true x h = (x1, h1, r) -> sight_history count (x1, h1) (x2, h2) ->
  b < length h -> nth b h2 [] = nth b h [].
Proof.
  intros A NA count ms ts x h x1 h1 r x2 h2 b AL NE E W Hb.
  assert (E' : fit_sight count ms ts true None h = (x1, h1, r)) by (rewrite <- E; unfold fit_sight; destruct ms as [|m0 ms]; [now elim NE|]; destruct x; reflexivity).
  destruct (fit_alive count ms ts true None h _ _ _ ltac:(intros c Hc; discriminate) E') as [AL1 LL]. destruct (fit_keeps count ms ts true None h _ _ _ b ltac:(intros c Hc; discriminate) E' Hb ltac:(discriminate)) as [K NX]. rewrite <- K. assert (Hb1 : b < length h1) by lia. clear - W AL1 NX Hb1.
  remember (x1, h1) as s1. remember (x2, h2) as s2. revert x1 h1 x2 h2 Heqs1 Heqs2 AL1 NX Hb1. induction W as [s|x h ms ts reset x' h' r s E W IH]; intros x1 h1 x2 h2 Q1 Q2 AL NX Hb.
  - subst s. injection Q2 as _ <-. reflexivity.
  - injection Q1 as -> ->. destruct (fit_alive _ _ _ _ _ _ _ _ _ AL E) as [AL' LL]. destruct (fit_keeps _ _ _ _ _ _ _ _ _ _ AL E Hb NX) as [K NX']. rewrite (IH x' h' x2 h2 eq_refl Q2 AL' NX') by lia. exact K.
Qed.
(** C223: estimates returned before a fit with reset never change again. *)
Theorem C223_older : forall A (NA : Num A) (count : mdp A -> list (list Z) -> res (list A)) ms ts x h x1 h1 r x2 h2 b, alive x h -> ms <> [] -> fit_sight count ms ts true x h = (x1, h1, r) -> sight_history count (x1, h1) (x2, h2) ->
  b < length h -> nth b h2 [] = nth b h [].
Proof. exact (@C162_reset_partial). Qed.

(** ** C163: failed fits *)
(** If the trajectories before it could be counted and the next one cannot be ([e] is what counting it raises, or it is
    missing), the fit fails and the learner is left with the sum of the earlier ones; with [reset] its old estimate is gone. *)
Theorem C163_failed_refuted : forall (count : mdp R -> list (list Z) -> res (list R)) nF ms1 m ms2 ts1 ts' gs reset x h e, alive x h -> (forall a, x = Some a -> length (nth a h []) = nF) ->
  m_n_features (hd m ms1) = nF -> counted count nF ms1 ts1 gs -> match ts' with [] => e = IndexError | t :: _ => count m [t] = Err e end ->
  exists a h', fit_sight count (ms1 ++ m :: ms2) (ts1 ++ ts') reset x h = (Some a, h', Err e) /\ forall i, nth i (nth a h' []) 0%R = (nth i (from nF reset x h) 0 + sumf (fun g => nth i g 0) gs)%R.
Proof.
  intros count nF ms1 m ms2 ts1 ts' gs reset x h e AL LX EN [L F] FE.
  assert (G : forall ms1 ts1 pre gs a h0, length ts1 = length ms1 -> a < length h0 -> length (nth a h0 []) = nF -> Forall2 (fun p g => count (fst p) [snd p] = Ok g /\ length g = nF) (combine ms1 ts1) gs ->
    exists h', sight_loop count (length pre) (ms1 ++ m :: ms2) (pre ++ ts1 ++ ts') a h0 = (h', Err e) /\ forall i, nth i (nth a h' []) 0%R = (nth i (nth a h0 []) 0 + sumf (fun g => nth i g 0) gs)%R).
  { clear - FE. induction ms1 as [|m1 ms1 IH]; intros [|t1 ts1] pre gs a h0 L La LA F; try discriminate; cbn [combine] in F.
    - inversion_clear F. exists h0. split; [|intros i; rewrite sumf_nil; lra]. cbn [app sight_loop]. rewrite nth_error_app2, Nat.sub_diag by lia. destruct ts' as [|t ts']; cbn [nth_error]; [now subst|now rewrite FE].
    - inversion_clear F as [|? g ? gs' [E1 E2] F']. cbn [app sight_loop]. rewrite nth_error_app2, Nat.sub_diag by lia. cbn [nth_error]. cbn [fst snd] in E1. rewrite E1, E2, LA, Nat.eqb_refl.
      destruct (IH ts1 (pre ++ [t1]) gs' a (upd h0 a (vadd (nth a h0 []) g))) as (h2 & E & V); [cbn in L; lia|now rewrite upd_length|rewrite nth_upd_same by exact La; now apply IRLLook.vadd_length|exact F'|]. rewrite app_length, Nat.add_1_r, <- app_assoc in E. cbn [app] in E.
      exists h2. split; [exact E|]. intros i. rewrite V, nth_upd_same, (vadd_nth nF), sumf_cons by assumption. lra. }
  assert (N : forall k, nth (length h) (h ++ [zeros1 (A:=R) k]) [] = repeat 0%R k) by (intros; rewrite app_nth2, Nat.sub_diag by lia; reflexivity).
  assert (K : exists m0 ms, ms1 ++ m :: ms2 = m0 :: ms /\ m_n_features m0 = nF) by (destruct ms1 as [|m1 ms1]; cbn [app hd] in *; eauto). destruct K as (m0 & ms & EM & EN0).
  assert (R0 : exists h', (let '(h', r) := sight_loop count 0 (ms1 ++ m :: ms2) (ts1 ++ ts') (length h) (h ++ [zeros1 (m_n_features m0)]) in (Some (length h), h', match r with Ok _ => Ok (length h) | Err e => Err e end)) = (Some (length h), h', Err e) /\
     forall i, nth i (nth (length h) h' []) 0%R = (nth i (repeat 0%R nF) 0 + sumf (fun g => nth i g 0) gs)%R).
  { destruct (G ms1 ts1 [] gs (length h) (h ++ [zeros1 (m_n_features m0)]) L) as (h' & E & V); [rewrite app_length; cbn; lia|rewrite N, repeat_length; exact EN0|exact F|]. cbn [length app] in E. exists h'. rewrite E. split; [reflexivity|]. intros i. rewrite V, N, EN0. reflexivity. }
  unfold fit_sight, from. destruct x as [b|]; [destruct reset|].
  - rewrite EM in *. destruct R0 as (h' & R1 & R2). exists (length h), h'. auto.
  - destruct (G ms1 ts1 [] gs b h L (AL _ eq_refl) (LX _ eq_refl) F) as (h' & E & V). cbn [length app] in E. exists b, h'. rewrite E. auto.
  - rewrite EM in *. destruct R0 as (h' & R1 & R2). exists (length h), h'. auto.
Qed.
(** A fit with [reset] does not depend on what happened before: it returns what a new learner returns. *)
Theorem C163_reset_partial : forall A (NA : Num A) (count : mdp A -> list (list Z) -> res (list A)) ms ts x h x1 h1 a h0, fit_sight count ms ts true x h = (x1, h1, Ok a) ->
  exists a' h1', fit_sight count ms ts true new_sight h0 = (Some a', h1', Ok a') /\ nth a' h1' [] = nth a h1 [].
Proof.
  intros A NA count ms ts x h x1 h1 a h0 E. assert (E' : fit_sight count ms ts true None h = (x1, h1, Ok a)) by (rewrite <- E; unfold fit_sight; destruct ms as [|m0 ms]; [destruct x; discriminate|]; destruct x; reflexivity).
  unfold new_sight, fit_sight in *. destruct ms as [|m0 ms]; [discriminate|]. set (z := zeros1 (m_n_features m0)) in *.
  destruct (loop_value count (m0 :: ms) ts (length h) (length h0) 0 (h ++ [z]) (h0 ++ [z])) as [V1 V2]; [rewrite app_length; cbn; lia|rewrite app_length; cbn; lia|now rewrite !app_nth2, !Nat.sub_diag by lia|].
  destruct (sight_loop count 0 (m0 :: ms) ts (length h) (h ++ [z])) as [h2 r2]. destruct (sight_loop count 0 (m0 :: ms) ts (length h0) (h0 ++ [z])) as [h3 r3]. cbn [fst snd] in V1, V2. subst r3. destruct r2 as [u|e]; [|discriminate]. injection E' as _ <- <-. exists (length h0), h3. auto.
Qed.
(** C223: a fit with reset gives what a new learner gives. *)
Theorem C223_fresh : forall A (NA : Num A) (count : mdp A -> list (list Z) -> res (list A)) ms ts x h x1 h1 a h0, fit_sight count ms ts true x h = (x1, h1, Ok a) ->
  exists a' h1', fit_sight count ms ts true new_sight h0 = (Some a', h1', Ok a') /\ nth a' h1' [] = nth a h1 [].
Proof. exact (@C163_reset_partial). Qed.

(** ** Grids *)
(** On a grid, trajectories of moves to other states can be counted: shares of one, or nothing if no feature is seen. *)
Theorem C162_grids : forall k feats w0 shape st m0 calls ts fuel, grid_mdp (A:=R) k feats w0 shape st = Ok m0 -> let m := after_wall_calls m0 calls in
  Forall (fun t => walkable m t /\ never_stays t) ts -> fst shape * snd shape <= fuel -> Forall (Forall (fun x => 0 <= x)%R) feats ->
  exists gs, counted (fun m ts => trajectory_eyeline fuel m ts true) (m_n_features m) (repeat m (length ts)) (map (map Z.of_nat) ts) gs /\ Forall (fun g => Rsum g = 1 \/ forall i, nth i g 0 = 0)%R gs.
Proof.
  intros k feats w0 shape st m0 calls ts fuel E m F HF NN. induction F as [|t ts W F (gs & [L1 G1] & G2)].
  - exists []. split; [split; [reflexivity|constructor]|constructor].
  - destruct (C88_counts k feats w0 shape st m0 calls [t] fuel E) as (rays & f & _ & _ & LF & _ & H); [repeat constructor; apply W|exact HF|]. fold m in LF, H. destruct (H NN) as (g & EG & [LG SH] & S1). exists (g :: gs). split; [split|].
    + cbn [map length repeat]. now rewrite L1.
    + cbn [map length repeat combine]. constructor; [|exact G1]. cbn [fst snd]. split; [exact EG|congruence].
    + constructor; [|exact G2]. destruct S1 as [S1|S1]; [now left|right]. destruct SH as [[_ SH]|[(i & SH) _]]; [now subst|]. now rewrite S1 in SH.
Qed.

(** ** A concrete case *)
(** Two calls and one call; the returned array changes; a failed fit adds its first trajectory, and with [reset] it also
    forgets the earlier estimate. *)
Example C161_example : exists m, grid_mdp (A:=Q) Square eye_feats None (2, 3) false = Ok m /\ let c := fun m ts => trajectory_eyeline 6 m ts true in
  let h1 := [[3 # 2; 1 # 2]]%Q in let h2 := [[9 # 4; 3 # 4]]%Q in let h3 := [[13 # 4; 3 # 4]]%Q in
  fit_sight c [m; m] [[3; 0]; [0; 1; 2]]%Z true new_sight [] = (Some 0, h1, Ok 0) /\ fit_sight c [m] [[1; 2; 5]]%Z false (Some 0) h1 = (Some 0, h2, Ok 0) /\
  fit_sight c [m; m; m] [[3; 0]; [0; 1; 2]; [1; 2; 5]]%Z true new_sight [] = (Some 0, h2, Ok 0) /\
  fit_sight c [m; m] [[1; 2]; [0; 5]]%Z false (Some 0) h2 = (Some 0, h3, Err AttributeError) /\
  fit_sight c [m; m] [[1; 2]; [0; 5]]%Z true (Some 0) h3 = (Some 1, h3 ++ [[1; 0]%Q], Err AttributeError).
Proof. cbv zeta. eexists. vmr. Qed.
