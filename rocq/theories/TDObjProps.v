(** Policy learners as objects: the arrays they hand out and are given (C86, C164), and integer estimates (C165). *)
From Coq Require Import List ZArith QArith Reals Bool Lia Lra.
From Verif Require Import PyBase PyProofs ActionSpec RSum GridModel GridSpec MDPModel MDPSpec MDPProofs MDPProps PLModel PLSpec PLProofs PLProps PLProps2 PLExamples TDObjModel.
Import ListNotations.
Local Close Scope Q_scope.
Local Open Scope nat_scope.

(** ** Specification *)
(** The same learner with arrays as values, as in [PLModel]. *)
Definition ref_value {A} (h : list (arr A)) (r : tref) : qval A := match r with RNone => QNone | RObj => QObj | RArr a => QArr (a_vals (nth a h no_arr)) end.
Definition same_ref (r r' : tref) : bool := match r, r' with RArr a, RArr b => a =? b | RObj, RObj => true | _, _ => false end.
Definition as_values {A} (s : tstate A) : learner A :=
  let '(o, h) := s in mkLearner (ref_value h (o_Q o)) (ref_value h (o_orig o)) (same_ref (o_Q o) (o_orig o)) (o_adj o) (o_n o) (o_done o).
(** References are to arrays of floats in memory. *)
Definition float_ref {A} (h : list (arr A)) (r : tref) : Prop := match r with RArr a => a < length h /\ a_int (nth a h no_arr) = false | _ => True end.
Definition floats {A} (s : tstate A) : Prop := float_ref (snd s) (o_Q (fst s)) /\ float_ref (snd s) (o_orig (fst s)) /\ (o_Q (fst s) = RNone -> o_orig (fst s) = RObj) /\ o_orig (fst s) <> RNone.
(** A history of calls; exceptions are caught. *)
Inductive obj_call (A : Type) := OFit (arg : mdp_arg A) (ts : list (list Z)) | OReset.
Arguments OFit {A}. Arguments OReset {A}.
Definition after_obj_call {A} `{Num A} (c : td_config A) (s : tstate A) (k : obj_call A) : tstate A := match k with OFit arg ts => fst (fit_obj c arg ts s) | OReset => reset_td c s end.
Definition after_obj_calls {A} `{Num A} (c : td_config A) (ks : list (obj_call A)) (s : tstate A) : tstate A := fold_left (after_obj_call c) ks s.
Definition is_fit {A} (k : obj_call A) : Prop := match k with OFit _ _ => True | OReset => False end.
(** The values in memory at an address. *)
Definition at_ {A} (s : tstate A) (a : nat) : arr A := nth a (snd s) no_arr.

(** ** Proofs *)
Section Sim.
Context {A : Type} `{Num A}.
Variable c : td_config A.
(** One call keeps the reference to the original, and the estimate's if there is one; it changes only the estimate's array. *)
Definition moves_on (s s' : tstate A) : Prop :=
  o_orig (fst s') = o_orig (fst s) /\ (o_Q (fst s) <> RNone -> o_Q (fst s') = o_Q (fst s)) /\ length (snd s) <= length (snd s') /\
  (forall b, b < length (snd s) -> o_Q (fst s) <> RArr b -> at_ s' b = at_ s b /\ o_Q (fst s') <> RArr b) /\
  (o_Q (fst s) = RNone -> forall p, o_Q (fst s') = RArr p -> length (snd s) <= p < length (snd s')).
Lemma moves_refl : forall s, moves_on s s. Proof. intros s. split; [reflexivity|]. split; [reflexivity|]. split; [lia|]. split; [auto|congruence]. Qed.
Lemma moves_trans : forall s s1 s2, moves_on s s1 -> moves_on s1 s2 -> moves_on s s2.
Proof.
  intros s s1 s2 (A1 & A2 & A3 & A4 & A5) (B1 & B2 & B3 & B4 & B5). split; [congruence|]. split; [intros N; rewrite <- (A2 N); apply B2; rewrite (A2 N); exact N|]. split; [lia|]. split.
  - intros b Hb NB. destruct (A4 b Hb NB) as [C1 C2]. destruct (B4 b ltac:(lia) C2) as [D1 D2]. split; [congruence|exact D2].
  - intros N p EP. destruct (o_Q (fst s1)) as [| |p1] eqn:E1; [specialize (B5 eq_refl p EP); lia|rewrite B2 in EP by discriminate; discriminate|]. rewrite B2 in EP by discriminate. injection EP as <-. specialize (A5 N p1 eq_refl). lia.
Qed.
Lemma observe_moves : forall n a s, moves_on s (fst (observe_obj c n a s)).
Proof.
  intros n a [o h]. unfold observe_obj. destruct (c_reward c n a) as [v|]; [|apply moves_refl]. destruct (o_Q o) as [| |p] eqn:EQ; try apply moves_refl. destruct (negb _); [apply moves_refl|]. destruct (if c_decaying c then _ else _); [|apply moves_refl]. destruct (a_int _); (split; [reflexivity|]); cbn [fst snd o_Q o_orig]; rewrite EQ.
  - split; [auto|]. split; [lia|]. split; [auto|discriminate].
  - split; [auto|]. split; [now rewrite upd_length|]. split; [|discriminate]. intros b Hb NB. split; [|exact NB]. unfold at_. cbn [snd]. apply nth_upd_other. congruence.
Qed.
Lemma all_moves : forall mdps acts i s, moves_on s (fst (observe_obj_all c mdps i acts s)).
Proof.
  intros mdps. induction acts as [|a acts IH]; intros i s; [apply moves_refl|]. cbn [observe_obj_all]. destruct (nth_error mdps i) as [m|]; [|apply moves_refl]. pose proof (observe_moves (m_n_actions m) a s) as M. destruct (observe_obj c (m_n_actions m) a s) as [s1 [u|e]]; [|exact M]. eapply moves_trans; [exact M|apply IH].
Qed.
Lemma trajectories_move : forall mdps ts n s, moves_on s (fst (observe_obj_trajectories c mdps n ts s)).
Proof.
  intros mdps. induction ts as [|t ts IH]; intros n s; [apply moves_refl|]. destruct t as [|z t]; cbn [observe_obj_trajectories]; [apply IH|]. destruct (nth_error mdps n) as [m|]; [|apply moves_refl]. destruct (trajectory_to_state_action m (z :: t)) as [sa|]; [|apply moves_refl].
  pose proof (all_moves mdps (map snd sa) 0 s) as M. destruct (observe_obj_all c mdps 0 (map snd sa) s) as [s1 [u|e]]; [|exact M]. eapply moves_trans; [exact M|apply IH].
Qed.
Lemma fit_moves : forall arg ts s, moves_on s (fst (fit_obj c arg ts s)).
Proof.
  intros arg ts s. assert (G : forall ms, moves_on s (fst (fit_td_obj c ms ts s))).
  { intros ms. destruct s as [o h]. unfold fit_td_obj. destruct (o_Q o) as [| |p] eqn:EQ.
    - destruct ms as [|m ms]; [apply moves_refl|]. eapply moves_trans; [|apply trajectories_move]. split; [reflexivity|]. cbn [fst snd o_Q]. rewrite EQ. split; [congruence|]. split; [rewrite app_length; lia|]. split; [|intros _ p EP; injection EP as <-; rewrite app_length; cbn; lia]. intros b Hb _. split; [|intros X; injection X; lia]. unfold at_. cbn [snd]. now apply app_nth1.
    - eapply moves_trans; [|apply trajectories_move]. split; [reflexivity|]. cbn [fst snd o_Q]. rewrite EQ. split; [auto|]. split; [lia|]. split; [auto|discriminate].
    - eapply moves_trans; [|apply trajectories_move]. split; [reflexivity|]. cbn [fst snd o_Q]. rewrite EQ. split; [auto|]. split; [lia|]. split; [auto|discriminate]. }
  assert (F : forall ms, moves_on s (fst (match fit_td_obj c ms ts s with ((o, h), Ok _) => ((mkTdo (o_Q o) (o_orig o) (o_adj o) (o_n o) true, h), Ok tt) | x => x end))).
  { intros ms. specialize (G ms). destruct (fit_td_obj c ms ts s) as [[o h] [u|e]]; exact G. }
  unfold fit_obj. destruct arg as [m|ms]; [apply F|]. destruct (negb _); [apply moves_refl|apply F].
Qed.

(** Simulation by the model with values. *)
Definition sim (x : tstate A * res unit) (y : learner A * res unit) : Prop := y = (as_values (fst x), snd x) /\ floats (fst x).
Lemma observe_sim : forall n a s, floats s -> sim (observe_obj c n a s) (observe c n a (as_values s)).
Proof.
  intros n a [o h] SAME. pose proof SAME as (F1 & F2 & F3 & F4). cbn [fst snd] in *. unfold sim, observe_obj, observe. destruct (c_reward c n a) as [v|]; [|split; [reflexivity|exact SAME]]. cbn [as_values l_Q l_orig l_shared l_adj l_n l_done].
  destruct (o_Q o) as [| |p] eqn:EQ; cbn [ref_value].
  - split; [cbn [fst snd as_values]; now rewrite EQ|exact SAME].
  - split; [cbn [fst snd as_values]; now rewrite EQ|exact SAME].
  - destruct (negb _); [split; [cbn [fst snd as_values]; now rewrite EQ|exact SAME]|].
    match goal with |- context [match ?x with Ok _ => _ | Err _ => _ end] => destruct x as [rate|e] end; [|split; [cbn [fst snd as_values]; now rewrite EQ|exact SAME]]. destruct F1 as [L1 I1]. rewrite I1. cbn [fst snd as_values o_Q o_orig o_adj o_n o_done].
    assert (EV : nth p (upd h p (mkArr false (move_towards rate v (a_vals (nth p h no_arr))))) no_arr = mkArr false (move_towards rate v (a_vals (nth p h no_arr)))) by (now apply nth_upd_same). split.
    + rewrite ?EQ. cbn [ref_value]. rewrite EV. cbn [a_vals]. f_equal. f_equal. destruct (o_orig o) as [| |b] eqn:EO; cbn [same_ref ref_value]; try reflexivity. destruct (Nat.eqb_spec p b) as [<-|NE]; [now rewrite EV|]. rewrite nth_upd_other by congruence. reflexivity.
    + unfold floats. cbn [fst snd o_Q o_orig]. split; [|split; [|split; [intros X; rewrite ?EQ in X; discriminate|exact F4]]]; unfold float_ref; rewrite ?EQ; rewrite ?upd_length, ?EV; [auto|]. destruct (o_orig o) as [| |b] eqn:EO; [exact I|exact I|]. destruct F2 as [L2 I2]. split; [rewrite ?upd_length; exact L2|]. destruct (Nat.eq_dec p b) as [<-|NE]; [now rewrite EV|]. rewrite nth_upd_other by congruence. exact I2.
Qed.
Lemma all_sim : forall mdps acts i s, floats s -> sim (observe_obj_all c mdps i acts s) (observe_all c mdps i acts (as_values s)).
Proof.
  intros mdps. induction acts as [|a acts IH]; intros i s F; cbn [observe_obj_all observe_all]; [split; auto|]. destruct (nth_error mdps i) as [m|]; [|split; auto]. destruct (observe_sim (m_n_actions m) a s F) as [E F1]. rewrite E. destruct (observe_obj c (m_n_actions m) a s) as [s1 [u|e]]; cbn [fst snd] in *; [now apply IH|split; auto].
Qed.
Lemma trajectories_sim : forall mdps ts n s, floats s -> sim (observe_obj_trajectories c mdps n ts s) (observe_trajectories c mdps n ts (as_values s)).
Proof.
  intros mdps. induction ts as [|t ts IH]; intros n s F; [split; auto|]. destruct t as [|z t]; cbn [observe_obj_trajectories observe_trajectories]; [now apply IH|]. destruct (nth_error mdps n) as [m|]; [|split; auto]. destruct (trajectory_to_state_action m (z :: t)) as [sa|]; [|split; auto].
  destruct (all_sim mdps (map snd sa) 0 s F) as [E F1]. rewrite E. destruct (observe_obj_all c mdps 0 (map snd sa) s) as [s1 [u|e]]; cbn [fst snd] in *; [now apply IH|split; auto].
Qed.
Lemma fit_td_sim : forall ms ts s, floats s -> sim (fit_td_obj c ms ts s) (fit_td c ms ts (as_values s)).
Proof.
  intros ms ts [o h] SAME. pose proof SAME as (F1 & F2 & F3 & F4). cbn [fst snd] in *. unfold fit_td_obj, fit_td. cbn [as_values l_Q l_orig l_shared l_adj l_done]. destruct (o_Q o) as [| |p] eqn:EQ; cbn [ref_value].
  - specialize (F3 eq_refl). rewrite F3. destruct ms as [|m ms]; [split; [cbn [fst snd as_values]; now rewrite EQ, F3|exact SAME]|].
    replace (mkLearner (QArr (zeros1 (m_n_actions m))) (ref_value h RObj) false (o_adj o) 1 (o_done o)) with (as_values (mkTdo (RArr (length h)) RObj (o_adj o) 1 (o_done o), h ++ [mkArr false (zeros1 (m_n_actions m))])) by (cbn [as_values o_Q o_orig ref_value same_ref o_adj o_n o_done]; rewrite app_nth2, Nat.sub_diag by lia; reflexivity).
    apply trajectories_sim. split; [|split; [exact I|split; discriminate]]. cbn [fst snd o_Q float_ref]. rewrite app_length, app_nth2, Nat.sub_diag by lia. cbn. split; [lia|reflexivity].
  - replace (mkLearner QObj (ref_value h (o_orig o)) (same_ref RObj (o_orig o)) (o_adj o) 1 (o_done o)) with (as_values (mkTdo RObj (o_orig o) (o_adj o) 1 (o_done o), h)) by reflexivity. assert (T : sim (observe_obj_trajectories c ms 0 ts (mkTdo RObj (o_orig o) (o_adj o) 1 (o_done o), h)) (observe_trajectories c ms 0 ts (as_values (mkTdo RObj (o_orig o) (o_adj o) 1 (o_done o), h)))) by (apply trajectories_sim; split; [exact I|split; [exact F2|split; [discriminate|exact F4]]]). destruct ms; exact T.
  - assert (T : sim (observe_obj_trajectories c ms 0 ts (mkTdo (RArr p) (o_orig o) (o_adj o) 1 (o_done o), h)) (observe_trajectories c ms 0 ts (as_values (mkTdo (RArr p) (o_orig o) (o_adj o) 1 (o_done o), h)))) by (apply trajectories_sim; split; [exact F1|split; [exact F2|split; [discriminate|exact F4]]]). destruct ms; exact T.
Qed.
Lemma fit_sim : forall arg ts s, floats s -> sim (fit_obj c arg ts s) (fit_learner c arg ts (as_values s)).
Proof.
  intros arg ts s F. assert (G : forall ms, sim (match fit_td_obj c ms ts s with ((o, h), Ok _) => ((mkTdo (o_Q o) (o_orig o) (o_adj o) (o_n o) true, h), Ok tt) | x => x end) (let '(l', r) := fit_td c ms ts (as_values s) in (match r with Ok _ => mkLearner (l_Q l') (l_orig l') (l_shared l') (l_adj l') (l_n l') true | Err _ => l' end, r))).
  { intros ms. destruct (fit_td_sim ms ts s F) as [E F1]. rewrite E. destruct (fit_td_obj c ms ts s) as [[o h] [[]|e]]; cbn [fst snd] in *; split; auto. }
  unfold fit_obj, fit_learner. destruct arg as [m|ms]; [apply G|]. destruct (negb _); [split; auto|apply G].
Qed.
Lemma new_floats : forall Q h, (forall a, Q = Some a -> a < length h /\ a_int (nth a h no_arr) = false) -> floats (new_td c Q h) /\ as_values (new_td c Q h) = new_learner c (option_map (fun a => a_vals (nth a h no_arr)) Q).
Proof.
  intros [a|] h HQ; [|split; [split; [exact I|split; [exact I|split; [reflexivity|discriminate]]]|reflexivity]]. destruct (HQ a eq_refl) as [L IA]. cbn [new_td option_map]. split.
  - split; [|split; [|split; discriminate]]; cbn [fst snd o_Q o_orig float_ref]; rewrite app_length; [rewrite app_nth1 by exact L|rewrite app_nth2, Nat.sub_diag by lia]; cbn; (split; [lia|exact IA]).
  - unfold new_learner. cbn [as_values o_Q o_orig ref_value same_ref o_adj o_n o_done]. rewrite app_nth1 by exact L. rewrite app_nth2, Nat.sub_diag by lia. cbn [nth]. destruct (Nat.eqb_spec a (length h)); [lia|reflexivity].
Qed.
Lemma reset_floats : forall s, floats s -> floats (reset_td c s) /\ as_values (reset_td c s) = reset_learner c (as_values s).
Proof.
  intros [o h] (F1 & F2 & F3 & F4). cbn [fst snd] in *. split; [split; [exact F2|split; [exact F2|split; [cbn; intros E; now elim F4|exact F4]]]|]. unfold reset_td, reset_learner. cbn [fst snd as_values o_Q o_orig o_adj o_n o_done l_orig]. f_equal. destruct (o_orig o); [now elim F4|reflexivity|apply Nat.eqb_refl].
Qed.
End Sim.

(** The learner does what [PLModel] describes, so what is proved about that (C47-C50) holds of the object. *)
Definition value_call (k : obj_call R) : learner_call := match k with OFit arg ts => Fit arg ts | OReset => Reset end.
Theorem C47_object : forall (c : td_config R) Q h ks, (forall a, Q = Some a -> a < length h /\ a_int (nth a h no_arr) = false) ->
  as_values (after_obj_calls c ks (new_td c Q h)) = after_learner_calls c (map value_call ks) (new_learner c (option_map (fun a => a_vals (nth a h no_arr)) Q)).
Proof.
  intros c Q h ks HQ. destruct (new_floats c Q h HQ) as [F E]. rewrite <- E. clear E. revert F. generalize (new_td c Q h). unfold after_obj_calls, after_learner_calls. induction ks as [|k ks IH]; intros s F; [reflexivity|]. cbn [map fold_left]. destruct k as [arg ts|]; cbn [after_obj_call value_call after_learner_call].
  - destruct (fit_sim c arg ts s F) as [E F1]. rewrite E. now apply IH.
  - destruct (reset_floats c s F) as [F1 E]. rewrite <- E. now apply IH.
Qed.

(** ** C164: Q values handed out *)
Lemma one_move : forall m u v, valid_on m [u; v] -> exists a sa, trajectory_to_state_action m [Z.of_nat u; Z.of_nat v] = Ok sa /\ map snd sa = [a] /\ a < m_n_actions m.
Proof.
  intros m u v V. destruct (valid_taken m _ V) as (acts & (sa & E & ->) & L & F). cbn [map length Nat.sub] in *. destruct (map snd sa) as [|a [|? ?]] eqn:EM; try discriminate. exists a, sa. split; [exact E|]. split; [exact EM|]. now inversion F.
Qed.
(** The array handed out is the learner's own. The next fit changes it: after one more move the values are different,
    if none of them was one. *)
Theorem C164_handed_out_refuted : forall lr d ls c l0 m u v (s : tstate R) z a, td_learner lr d None false ls = Ok (c, l0) -> decay_value d = 0%R -> floats s -> get_q s z = RArr a ->
  length (a_vals (at_ s a)) = m_n_actions m -> Forall (fun x => x < 1)%R (a_vals (at_ s a)) -> valid_on m [u; v] ->
  exists s', fit_obj c (OneMDP m) [[Z.of_nat u; Z.of_nat v]] s = (s', Ok tt) /\ (forall z', get_q s' z' = RArr a) /\ a_vals (at_ s' a) <> a_vals (at_ s a).
Proof.
  intros lr d ls c l0 m u v [o h] z a ET D0 (F1 & _) GQ LV LT V. destruct (td_learner_inv _ _ _ _ _ _ _ ET) as (LP & _ & EL & ED & _ & ER & _). unfold get_q in GQ. cbn [fst snd] in *. rewrite GQ in F1. cbn [float_ref] in F1. destruct F1 as [LA IA]. unfold at_ in *. cbn [snd] in *.
  destruct (one_move m u v V) as (b & sa & ES & EB & Hb). rewrite D0 in ED. cbn [nltb NumR] in ED. unfold Rltb in ED. destruct (Rlt_dec 0 0) as [X|_]; [lra|].
  set (r := upd (zeros1 (m_n_actions m)) b 1%R). set (q := a_vals (nth a h no_arr)) in *. assert (LR : length r = m_n_actions m) by (unfold r; rewrite upd_length; apply repeat_length).
  set (h' := upd h a (mkArr false (move_towards lr r q))). exists (mkTdo (RArr a) (o_orig o) (o_adj o) 2 true, h'). split; [|split; [reflexivity|]].
  - unfold fit_obj, fit_td_obj. cbn [length repeat]. rewrite GQ. cbn [observe_obj_trajectories nth_error]. rewrite ES, EB. cbn [observe_obj_all nth_error]. unfold observe_obj. rewrite ER. unfold onehot_reward. rewrite (proj2 (Nat.ltb_lt _ _) Hb). cbn [o_Q]. change (@n1 R NumR) with 1%R. fold r q. rewrite LR, LV, Nat.eqb_refl. cbn [negb]. rewrite ED, IA, EL. reflexivity.
  - cbn [snd]. unfold h'. rewrite nth_upd_same by exact LA. cbn [a_vals]. intros E. assert (X : nth b (move_towards lr r q) 0%R = nth b q 0%R) by (now rewrite E). unfold move_towards in X. rewrite (nth_map_lt _ _ _ _ _ _ (0, 0)%R) in X by (rewrite combine_length; lia). rewrite combine_nth in X by lia. unfold r in X at 1. rewrite nth_upd_same in X by (unfold zeros1; rewrite repeat_length; exact Hb). cbn [nadd nmul nsub NumR] in X.
    rewrite Forall_forall in LT. assert (HB : b < length q) by (rewrite LV; exact Hb). specialize (LT (nth b q 0%R) (nth_In q 0%R HB)). clear - X LT LP. nra.
Qed.
Lemma calls_other : forall A (NA : Num A) (c : td_config A) ks s a, a < length (snd s) -> o_Q (fst s) <> RArr a -> o_orig (fst s) <> RArr a -> at_ (after_obj_calls c ks s) a = at_ s a.
Proof.
  intros A NA c. unfold after_obj_calls. induction ks as [|k ks IH]; intros s a L N1 N2; [reflexivity|]. cbn [fold_left]. destruct k as [arg ts|]; cbn [after_obj_call].
  - destruct (fit_moves c arg ts s) as (M1 & _ & M3 & M4 & _). destruct (M4 a L N1) as [V N]. rewrite IH; [exact V|lia|exact N|congruence].
  - rewrite IH; [reflexivity|exact L|exact N2|exact N2].
Qed.
(** What was handed out before the first reset never changes after it. *)
Theorem C164_after_reset_partial : forall A (NA : Num A) (c : td_config A) Q h fits ks z a, (forall p, Q = Some p -> p < length h) -> Forall is_fit fits ->
  let s := after_obj_calls c fits (new_td c Q h) in get_q s z = RArr a -> at_ (after_obj_calls c ks (reset_td c s)) a = at_ s a.
Proof.
  intros A NA c Q h fits ks z a HQ FF s GQ. unfold get_q in GQ.
  assert (M : moves_on (new_td c Q h) s). { unfold s, after_obj_calls. clear GQ s. generalize (new_td c Q h). induction FF as [|k fits K FF IH]; intros s; [apply moves_refl|]. cbn [fold_left]. destruct k as [arg ts|]; [|destruct K]. cbn [after_obj_call]. eapply moves_trans; [apply fit_moves|apply IH]. }
  destruct M as (M1 & M2 & M3 & M4 & M5). assert (X : a < length (snd s) /\ o_orig (fst s) <> RArr a).
  { destruct Q as [p|]; cbn [new_td fst snd o_Q o_orig] in *.
    - rewrite M2 in GQ by discriminate. injection GQ as <-. specialize (HQ p eq_refl). rewrite app_length in M3. split; [lia|]. rewrite M1. intros E. injection E. lia.
    - specialize (M5 eq_refl a GQ). split; [lia|congruence]. }
  destruct X as [X1 X2]. rewrite calls_other; [reflexivity|exact X1|exact X2|exact X2].
Qed.
(** C224: values handed out before the first reset never change after it. *)
Theorem C224_handed_out : forall A (NA : Num A) (c : td_config A) Q h fits ks z a, (forall p, Q = Some p -> p < length h) -> Forall is_fit fits ->
  let s := after_obj_calls c fits (new_td c Q h) in get_q s z = RArr a -> at_ (after_obj_calls c ks (reset_td c s)) a = at_ s a.
Proof. exact (@C164_after_reset_partial). Qed.
(** The array given to the constructor is the estimate until the first reset: fitting changes it. *)
Theorem C86_policy_refuted : forall lr d q0 ls c l0 m u v h a, td_learner lr d q0 false ls = Ok (c, l0) -> decay_value d = 0%R -> a < length h -> a_int (nth a h no_arr) = false ->
  length (a_vals (nth a h no_arr)) = m_n_actions m -> Forall (fun x => x < 1)%R (a_vals (nth a h no_arr)) -> valid_on m [u; v] ->
  exists s', fit_obj c (OneMDP m) [[Z.of_nat u; Z.of_nat v]] (new_td c (Some a) h) = (s', Ok tt) /\ a_vals (at_ s' a) <> a_vals (nth a h no_arr).
Proof.
  intros lr d q0 ls c l0 m u v h a ET D0 HA IA LV LT V. destruct (td_learner_inv _ _ _ _ _ _ _ ET) as (_ & _ & _ & _ & _ & _ & EN). assert (ET' : td_learner lr d None false ls = Ok (c, new_learner c None)).
  { unfold td_learner in *. destruct (negb _); [discriminate|]. destruct (nltb _ _); [discriminate|]. injection ET as <- _. reflexivity. }
  destruct (new_floats c (Some a) h) as [F _]; [intros p Hp; injection Hp as <-; auto|]. assert (EA : at_ (new_td c (Some a) h) a = nth a h no_arr) by (unfold at_; cbn [new_td snd]; now apply app_nth1).
  destruct (C164_handed_out_refuted _ _ _ _ _ m u v (new_td c (Some a) h) 0%Z a ET' D0 F eq_refl) as (s' & E & _ & N); [now rewrite EA|now rewrite EA|exact V|]. rewrite EA in N. eauto.
Qed.

(** ** C165: integer estimates *)
(** With an initial estimate of integers, every fit to a move raises TypeError and learns nothing. *)
Theorem C165_integers_refuted : forall lr d q0 kernel ls c l0 h a arg (ts : list (list nat)) nA, td_learner lr d q0 kernel ls = Ok (c, l0) -> a < length h -> a_int (nth a h no_arr) = true -> fits (Some (a_vals (nth a h no_arr))) d nA ->
  (forall m, In m (mdps_of arg (length ts)) -> m_n_actions m = nA) -> Forall2 valid_on (mdps_of arg (length ts)) ts -> (exists t, In t ts /\ 2 <= length t) ->
  exists o, fit_obj c arg (map (map Z.of_nat) ts) (new_td c (Some a) h) = ((o, snd (new_td c (Some a) h)), Err TypeError).
Proof.
  intros lr d q0 kernel ls c l0 h a arg ts nA ET HA IA [FQ FD] N F EX. destruct (td_learner_inv _ _ _ _ _ _ _ ET) as (_ & _ & EL & ED & EF & ER & _).
  assert (LR : forall b v, c_reward c nA b = Ok v -> length v = nA) by (intros b v; rewrite ER; apply reward_len).
  assert (RO : forall b, b < nA -> exists v, c_reward c nA b = Ok v). { intros b Hb. rewrite ER. destruct kernel; [unfold kernel_reward; eauto|]. unfold onehot_reward. apply Nat.ltb_lt in Hb. rewrite Hb. eauto. }
  assert (FO : c_decaying c = true -> forall n, exists f, c_factor c n = Ok f). { intros D n. rewrite EF. destruct FD as [D0|(r & ->)]; [|cbn; eauto]. exfalso. rewrite ED, D0 in D. cbn in D. unfold Rltb in D. destruct (Rlt_dec 0 0); [lra|discriminate]. }
  set (h1 := h ++ [nth a h no_arr]). assert (NA : nth a h1 no_arr = nth a h no_arr) by (unfold h1; now apply app_nth1).
  set (ms := mdps_of arg (length ts)) in *. assert (LM : length ms = length ts) by (clear -F; induction F; cbn; congruence).
  assert (G : forall us n o, o_Q o = RArr a -> Forall2 valid_on (skipn n ms) us -> n + length us = length ms -> (exists t, In t us /\ 2 <= length t) -> exists o', observe_obj_trajectories c ms n (map (map Z.of_nat) us) (o, h1) = ((o', h1), Err TypeError)).
  { induction us as [|t us IH]; intros n o EO FF EL2 (w & Hu & L2); [destruct Hu|]. cbn [length] in EL2. destruct (nth_error ms n) as [m|] eqn:EM; [|apply nth_error_None in EM; lia].
    assert (SK : skipn n ms = m :: skipn (S n) ms). { clear -EM. revert EM. generalize ms as mm. induction n as [|n IH]; intros [|y mm] E; try discriminate; cbn in *; [congruence|]. now apply IH. }
    rewrite SK in FF. inversion_clear FF as [|? ? ? ? V F']. pose proof (N m (nth_error_In _ _ EM)) as NM. destruct (valid_taken m t V) as (acts & T & LA & FA). rewrite NM in FA. cbn [map].
    assert (LATER : acts = [] -> exists t0, In t0 us /\ 2 <= length t0). { intros ->. cbn in LA. destruct Hu as [->|Hu]; [lia|eauto]. }
    destruct t as [|z t]; cbn [map observe_obj_trajectories]; [apply IH; [exact EO|exact F'|lia|apply LATER; exact T]|]. destruct T as (sa & ET' & EA). cbn [map] in ET'. rewrite EM, ET', <- EA. destruct acts as [|b acts].
    - cbn [observe_obj_all]. apply IH; [exact EO|exact F'|lia|now apply LATER].
    - cbn [observe_obj_all]. destruct ms as [|m0 r0] eqn:EMS; [destruct n; discriminate|]. cbn [nth_error]. rewrite (N m0) by (now left). inversion_clear FA as [|? ? Ha FA'].
      unfold observe_obj. destruct (RO b Ha) as (v & EV). rewrite EV, EO, NA, IA, (LR _ _ EV), FQ, Nat.eqb_refl. cbn [negb]. destruct (c_decaying c) eqn:D; [destruct (FO eq_refl (o_n o)) as (f & ->); cbn [bind]|]; eauto. }
  destruct (G ts 0 (mkTdo (RArr a) (RArr (length h)) (c_lr c) 1 false)) as (o' & E); [reflexivity|rewrite skipn_O; exact F|lia|exact EX|]. exists o'. cbn [new_td snd]. fold h1.
  assert (FT : fit_td_obj c ms (map (map Z.of_nat) ts) (mkTdo (RArr a) (RArr (length h)) (c_lr c) 1 false, h1) = ((o', h1), Err TypeError)) by exact E.
  unfold fit_obj, ms in *. destruct arg as [m|mm]; cbn [mdps_of] in *; rewrite map_length; [now rewrite FT|]. rewrite LM, Nat.eqb_refl. cbn [negb]. now rewrite FT.
Qed.
(** With floats it succeeds, exactly when [C48_when_it_succeeds_partial] says so. *)
Theorem C165_floats_partial : forall lr d q0 kernel ls c l0 h a arg (ts : list (list nat)) nA, td_learner lr d q0 kernel ls = Ok (c, l0) -> a < length h -> a_int (nth a h no_arr) = false -> fits (Some (a_vals (nth a h no_arr))) d nA ->
  (forall m, In m (mdps_of arg (length ts)) -> m_n_actions m = nA) -> Forall2 valid_on (mdps_of arg (length ts)) ts ->
  ((exists s', fit_obj c arg (map (map Z.of_nat) ts) (new_td c (Some a) h) = (s', Ok tt)) <-> (forall t, In t ts -> length t - 1 <= length ts)).
Proof.
  intros lr d q0 kernel ls c l0 h a arg ts nA ET HA IA FI N F. set (q := a_vals (nth a h no_arr)) in *. assert (ET' : td_learner lr d (Some q) kernel ls = Ok (c, new_learner c (Some q))).
  { unfold td_learner in *. destruct (negb _); [discriminate|]. destruct (nltb _ _); [discriminate|]. injection ET as <- _. reflexivity. }
  destruct (new_floats c (Some a) h) as [FL EV]; [intros p Hp; injection Hp as <-; auto|]. destruct (fit_sim c arg (map (map Z.of_nat) ts) _ FL) as [E _]. cbn [option_map] in EV. fold q in EV. rewrite EV in E. pose proof (C48_when_it_succeeds_partial _ _ _ _ _ _ _ arg ts nA ET' FI N F) as W. split.
  - intros (s' & ES). rewrite ES in E. cbn [fst snd] in E. apply W. eauto.
  - intros H. destruct (fit_obj c arg (map (map Z.of_nat) ts) (new_td c (Some a) h)) as [s' r]. cbn [fst snd] in E. destruct (proj2 W) as (l' & EL); [split; [exact H|discriminate]|]. rewrite EL in E. injection E as _ <-. eauto.
Qed.

(** ** A concrete case *)
(** On a hex grid: a learner given an array of floats changes it, and hands it out; after a reset it works on its own copy, so the
    array stays. With integers the fit fails. *)
Example C164_example : exists m, grid_mdp (A:=Q) Hex [[0; 0; 0; 0; 0; 0]]%Q None (2, 3) false = Ok m /\
  let fit s := fit_obj td_q (OneMDP m) [[0; 1]]%Z s in let vals s a := map Qred (a_vals (at_ s a)) in
  let s0 := new_td td_q (Some 0) [mkArr false [0; 0; 0; 0; 0; 0]%Q] in let s1 := fst (fit s0) in let s2 := fst (fit s1) in let s3 := fst (fit (reset_td td_q s2)) in
  get_q s1 0 = RArr 0 /\ vals s1 0 = [3 # 10; 0; 0; 0; 0; 0]%Q /\ get_q s2 0 = RArr 0 /\ vals s2 0 = [51 # 100; 0; 0; 0; 0; 0]%Q /\
  get_q s3 0 = RArr 1 /\ vals s3 0 = [51 # 100; 0; 0; 0; 0; 0]%Q /\ vals s3 1 = [3 # 10; 0; 0; 0; 0; 0]%Q /\
  let i0 := new_td td_q (Some 0) [mkArr true [0; 0; 0; 0; 0; 0]%Q] in fit i0 = (i0, Err TypeError).
Proof. cbv zeta. eexists. vmr. Qed.
