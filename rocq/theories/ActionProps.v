(** Action selection: properties C25-C28, C61. *)
From Coq Require Import List ZArith Reals Bool Lia Lra QArith.
From Verif Require Import PyBase PyProofs ActionModel ActionSpec ActionProofs SoftmaxModel SoftmaxProofs.
Import ListNotations.
Local Close Scope Q_scope.
Local Open Scope nat_scope.

(** * C25: greedy probabilities and greedy samples *)

(** For every array with at least one column and one known value: [get_pi_p] succeeds; in every state with a
    known value (and not mixing the two infinities) the probabilities are 1/k on the k best actions, 0 elsewhere. *)
Theorem C25_probabilities : forall q : list (list (fval R)),
  (forall row, In row q -> row <> []) -> (exists row, In row q /\ some_known row) ->
  exists p, get_pi_p max_get_pi_p q = Ok p /\ length p = length q /\
    forall s, s < length q -> some_known (nth s q []) -> unmixed (nth s q []) ->
      exists (best : list nat) (ps : list R),
        nth s p [] = map Fin ps /\ length ps = length (nth s q []) /\ distribution ps /\
        NoDup best /\ best <> [] /\ (forall a, In a best <-> best_action (nth s q []) a) /\
        forall a, a < length ps -> nth a ps 0%R = if in_dec Nat.eq_dec a best then (1 / INR (length best))%R else 0%R.
Proof.
  intros q HR HK. unfold get_pi_p. rewrite (proj2 (check_q_ok q) HK). cbn [bind].
  assert (M : exists p, max_get_pi_p (clean q) = Ok p /\ length p = length q /\
    forall s, s < length q -> exists l, max_actions (map nan_to_ninf (nth s q [])) = Ok l /\
      nth s p [] = map (fun a => if existsb (Nat.eqb a) l then Fin (1 / INR (length l))%R else Fin 0%R) (seq 0 (length (nth s q [])))).
  { clear HK. induction q as [|row q IH].
    - exists []. split; [reflexivity|]. split; [reflexivity|]. cbn; intros; lia.
    - destruct IH as (p & E & L & P); [intros; apply HR; now right|].
      destruct (clean_max row) as (l & El & ND & NE & B); [apply HR; now left|].
      unfold max_get_pi_p in *. cbn [clean map mapM]. unfold max_pi_p_row at 1. rewrite El. cbn [bind].
      fold (clean q). rewrite E. cbn [bind]. eexists. split; [reflexivity|]. split; [cbn; lia|].
      intros [|s] Hs; [|cbn [nth]; apply P; cbn in Hs; lia]. exists l. split; [exact El|]. cbn [nth]. rewrite map_length.
      apply map_ext. intros a. cbn [ndiv n1 n0 nofZ NumR]. rewrite <- INR_IZR_INZ. reflexivity. }
  destruct M as (p & E & L & P). rewrite E. cbn [bind]. rewrite L, Nat.eqb_refl. cbn [negb].
  set (p' := map _ (combine q p)).
  assert (L' : length p' = length q) by (unfold p'; rewrite map_length, combine_length; lia).
  assert (P' : forall s, s < length q -> nth s p' [] =
     if nan_state (nth s q []) then map (fun _ => NaN) (nth s p []) else nth s p []).
  { intros s Hs. unfold p'. rewrite (nth_map_combine _ _ _ _ _ _ _ [] [] []) by lia. reflexivity. }
  assert (F : forallb (fun '(row, prow) => length row =? length prow) (combine q p') = true).
  { apply forallb_forall. intros [row prow] Hin. apply (In_nth _ _ ([], [])) in Hin. destruct Hin as (s & Hs & Es).
    rewrite combine_length in Hs. rewrite combine_nth in Es by lia. inversion Es as [[E1 E2]].
    apply Nat.eqb_eq. rewrite P' by lia. destruct (P s ltac:(lia)) as (l & _ & El).
    destruct (nan_state (nth s q [])); rewrite ?map_length, El, map_length, seq_length; reflexivity. }
  rewrite F. exists p'. split; [reflexivity|]. split; [exact L'|]. intros s Hs K U.
  destruct (P s Hs) as (l & El & Ep).
  assert (NE : nth s q [] <> []) by (apply HR; now apply nth_In).
  destruct (clean_max (nth s q []) NE) as (l' & El' & ND & NN & B). rewrite El in El'. inversion El'. subst l'.
  exists l, (map (fun a => if existsb (Nat.eqb a) l then (1 / INR (length l))%R else 0%R) (seq 0 (length (nth s q [])))).
  assert (LP : (0 < INR (length l))%R) by (apply lt_0_INR; destruct l; [congruence|cbn; lia]).
  split; [|split; [|split; [|split; [exact ND|split; [exact NN|split; [exact B|]]]]]].
  - rewrite P' by exact Hs. rewrite (proj2 (nan_state_false _) (conj K U)), Ep, map_map.
    apply map_ext. intros a. destruct (existsb _ l); reflexivity.
  - now rewrite map_length, seq_length.
  - split.
    + intros x Hx. apply in_map_iff in Hx. destruct Hx as (a & <- & _). destruct (existsb _ l); [|lra].
      apply Rlt_le, Rdiv_lt_0_compat; lra.
    + rewrite Rsum_ind_seq; [field; lra|exact ND|]. intros a Ha. apply B in Ha. destruct Ha. lia.
  - intros a Ha. rewrite map_length, seq_length in Ha.
    rewrite (nth_map_lt _ _ _ _ _ _ 0) by now rewrite seq_length. rewrite seq_nth0 by exact Ha.
    destruct (in_dec Nat.eq_dec a l) as [I|I]; destruct (existsb (Nat.eqb a) l) eqn:X; try reflexivity; exfalso.
    + assert (existsb (Nat.eqb a) l = true) by (apply existsb_exists; exists a; split; [exact I|apply Nat.eqb_refl]). congruence.
    + apply existsb_exists in X. destruct X as (b & Hb & Eb). apply Nat.eqb_eq in Eb. subst b. contradiction.
Qed.

(** Whatever the draws, [get_pi] succeeds, and the sampled action of every such state is a best one. *)
Theorem C25_sampled_is_best : forall (draws : nat -> nat) (q : list (list (fval R))),
  (forall row, In row q -> row <> []) -> (exists row, In row q /\ some_known row) ->
  exists pi, get_pi (max_get_pi draws) q = Ok pi /\ length pi = length q /\
    forall s, s < length q -> some_known (nth s q []) -> unmixed (nth s q []) ->
      exists a, nth s pi 0%Z = Z.of_nat a /\ best_action (nth s q []) a.
Proof.
  intros draws q HR HK. unfold get_pi. rewrite (proj2 (check_q_ok q) HK). cbn [bind].
  destruct (max_get_pi_from_spec draws q 0 HR) as (pi & E & L & P). unfold max_get_pi. rewrite E. cbn [bind].
  rewrite L, Nat.eqb_refl. cbn [negb]. eexists. split; [reflexivity|]. split; [rewrite map_length, combine_length; lia|].
  intros s Hs K U. rewrite (nth_map_combine _ _ _ _ _ _ _ [] 0%Z 0%Z) by lia. cbn beta iota.
  rewrite (proj2 (nan_state_false _) (conj K U)). destruct (P s Hs) as (l & a & El & -> & ->).
  destruct (clean_max (nth s q [])) as (l' & El' & _ & NE & B); [apply HR; now apply nth_In|].
  rewrite El in El'. inversion El'. subst l'. eexists. split; [reflexivity|]. apply B. now apply mod_nth_In.
Qed.

(** Every best action of every such state is the sample for some draws. *)
Theorem C25_best_can_be_sampled : forall (q : list (list (fval R))) s a,
  (forall row, In row q -> row <> []) -> s < length q -> some_known (nth s q []) -> unmixed (nth s q []) ->
  best_action (nth s q []) a ->
  exists draws pi, get_pi (max_get_pi draws) q = Ok pi /\ nth s pi 0%Z = Z.of_nat a.
Proof.
  intros q s a HR Hs K U BA.
  destruct (clean_max (nth s q [])) as (l & El & _ & NE & B); [apply HR; now apply nth_In|].
  apply B in BA. apply (In_nth _ _ 0) in BA. destruct BA as (r & Lr & Er).
  exists (fun _ => r). unfold get_pi. assert (CK : check_q_values q = Ok tt) by (apply check_q_ok; exists (nth s q []); split; [now apply nth_In|exact K]).
  rewrite CK. cbn [bind]. destruct (max_get_pi_from_spec (fun _ => r) q 0 HR) as (pi & E & L & P).
  unfold max_get_pi. rewrite E. cbn [bind]. rewrite L, Nat.eqb_refl. cbn [negb]. eexists. split; [reflexivity|].
  rewrite (nth_map_combine _ _ _ _ _ _ _ [] 0%Z 0%Z) by lia. cbn beta iota.
  rewrite (proj2 (nan_state_false _) (conj K U)). destruct (P s Hs) as (l' & a' & El' & -> & ->).
  rewrite El in El'. inversion El'. subst l'. rewrite Nat.mod_small by exact Lr. now rewrite Er.
Qed.

(** * C26: states without known values *)

(** The exact set of flagged states, for every selector: a state gets -1 if all its values are NaN or both
    infinities occur, and the selector's own action otherwise. *)
Theorem C26_flagged_states_partial : forall sel (q : list (list (fval R))) pi0,
  (exists row, In row q /\ some_known row) -> sel (clean q) = Ok pi0 -> length pi0 = length q ->
  exists pi, get_pi sel q = Ok pi /\ length pi = length q /\
    forall s, s < length q ->
      (~ some_known (nth s q []) -> nth s pi 0%Z = (-1)%Z) /\
      (~ unmixed (nth s q []) -> nth s pi 0%Z = (-1)%Z) /\
      (some_known (nth s q []) -> unmixed (nth s q []) -> nth s pi 0%Z = nth s pi0 0%Z).
Proof.
  intros sel q pi0 K E L. unfold get_pi. rewrite (proj2 (check_q_ok q) K), E. cbn [bind]. rewrite L, Nat.eqb_refl. cbn [negb].
  eexists. split; [reflexivity|]. split; [rewrite map_length, combine_length; lia|]. intros s Hs.
  rewrite (nth_map_combine _ _ _ _ _ _ _ [] 0%Z 0%Z) by lia. cbn beta iota. split; [|split].
  - intros N. now rewrite (proj2 (nan_state_iff _) (or_introl N)).
  - intros N. now rewrite (proj2 (nan_state_iff _) (or_intror N)).
  - intros H1 H2. now rewrite (proj2 (nan_state_false _) (conj H1 H2)).
Qed.

(** The same for the probabilities: NaN rows exactly in the flagged states. *)
Theorem C26_flagged_probabilities_partial : forall sel (q : list (list (fval R))) p,
  get_pi_p sel q = Ok p ->
  length p = length q /\
  forall s, s < length q -> length (nth s p []) = length (nth s q []) /\
    (~ some_known (nth s q []) \/ ~ unmixed (nth s q []) -> forall v, In v (nth s p []) -> v = NaN) /\
    (some_known (nth s q []) -> unmixed (nth s q []) ->
       exists p0, sel (clean q) = Ok p0 /\ nth s p [] = nth s p0 []).
Proof.
  intros sel q p E. unfold get_pi_p in E. apply bind_ok in E. destruct E as (t & _ & E).
  apply bind_ok in E. destruct E as (p0 & Es & E). destruct (length p0 =? length q) eqn:L; [|discriminate].
  cbn [negb] in E. apply Nat.eqb_eq in L. destruct (forallb _ _) eqn:F in E; [|discriminate].
  assert (OI : forall u v : list (list (fval R)), Ok u = Ok v -> v = u) by congruence. apply OI in E. clear OI.
  rewrite <- E in F. assert (Lp : length p = length q) by (rewrite E, map_length, combine_length; lia).
  split; [exact Lp|]. intros s Hs.
  assert (P : nth s p [] = if nan_state (nth s q []) then map (fun _ => NaN) (nth s p0 []) else nth s p0 []).
  { rewrite E. rewrite (nth_map_combine _ _ _ _ _ _ _ [] [] []) by lia. reflexivity. }
  split; [|split].
  - rewrite forallb_forall in F. specialize (F (nth s q [], nth s p [])). rewrite <- (combine_nth q p s [] []) in F by lia.
    rewrite combine_nth in F by lia. symmetry. apply Nat.eqb_eq. apply F. rewrite <- combine_nth by lia. apply nth_In.
    rewrite combine_length. lia.
  - intros H. apply nan_state_iff in H. rewrite P, H. intros v Hv. apply in_map_iff in Hv. now destruct Hv as (_ & <- & _).
  - intros H1 H2. exists p0. split; [exact Es|]. now rewrite P, (proj2 (nan_state_false _) (conj H1 H2)).
Qed.

(** With the max selector and no mixed infinities, -1 marks exactly the states without a known value. *)
Theorem C26_max_selector_partial : forall (draws : nat -> nat) (q : list (list (fval R))) pi,
  (forall row, In row q -> row <> [] /\ unmixed row) -> get_pi (max_get_pi draws) q = Ok pi ->
  forall s, s < length q -> (nth s pi 0%Z = (-1)%Z <-> ~ some_known (nth s q [])).
Proof.
  intros draws q pi HR E s Hs.
  assert (CK : check_q_values q = Ok tt) by (unfold get_pi in E; apply bind_ok in E; destruct E as ([] & E & _); exact E).
  destruct (max_get_pi_from_spec draws q 0) as (pi0 & E0 & L & P); [apply HR|].
  destruct (C26_flagged_states_partial (max_get_pi draws) q pi0) as (pi' & E' & _ & H); [now apply check_q_ok|exact E0|exact L|].
  rewrite E in E'. inversion E'. subst pi'. destruct (H s Hs) as (H1 & _ & H3). split; [|exact H1].
  intros Em K. destruct (P s Hs) as (l & a & _ & _ & Ea). rewrite H3, Ea in Em; [lia|exact K|]. apply HR. now apply nth_In.
Qed.

(** An array that is NaN everywhere is rejected, by both methods and every selector. *)
Theorem C26_all_nan_rejected : forall (q : list (list (fval R))), (forall row, In row q -> ~ some_known row) ->
  (forall sel, get_pi sel q = Err ValueError) /\ (forall sel, get_pi_p sel q = Err ValueError).
Proof. intros q H. unfold get_pi, get_pi_p. rewrite (check_q_err q H). split; reflexivity. Qed.

(** C26 as stated is false: a state whose values are all known, +inf and -inf, is flagged. *)
Theorem C26_mixed_infinities_refuted : forall draws,
  exists pi, get_pi (max_get_pi draws) [[PInf; NInf]; [Fin 1%R; Fin 0%R]] = Ok pi /\
    nth 0 pi 0%Z = (-1)%Z /\ some_known [PInf; NInf] /\ best_action [PInf; NInf] 0.
Proof.
  intros draws. destruct (max_get_pi_from_spec draws [[PInf; NInf]; [Fin 1%R; Fin 0%R]] 0) as (pi0 & E0 & L & _).
  { intros row [<-|[<-|[]]]; discriminate. }
  destruct (C26_flagged_states_partial (max_get_pi draws) [[PInf; NInf]; [Fin 1%R; Fin 0%R]] pi0) as (pi & E & _ & H).
  { exists [PInf; NInf]. split; [now left|]. exists PInf. split; [now left|discriminate]. }
  { exact E0. } { exact L. }
  exists pi. split; [exact E|]. split; [|split].
  - apply (H 0); [cbn; lia|]. intros U. apply U. cbn. tauto.
  - exists PInf. split; [now left|discriminate].
  - split; [cbn; lia|]. intros [|[|b]] Hb; cbn in *; auto; lia.
Qed.

(** * C27: softmax *)

(** Non-positive temperatures, and only those, are rejected. *)
Theorem C27_temperature : forall T : R,
  ((0 < T)%R -> softmax_init T = Ok T) /\ ((T <= 0)%R -> softmax_init T = Err ValueError).
Proof.
  intros T. unfold softmax_init. split; intros H; destruct (Rltb 0 T) eqn:E; try reflexivity;
    [apply Rltb_false in E|apply Rltb_true in E]; lra.
Qed.

(** The row returned for finite-or-minus-infinite values (NaN counts as minus infinity), some of them finite. *)
Theorem C27_gibbs : forall (T : R) (q p : list (list (fval R))), (0 < T)%R ->
  get_pi_p (softmax_get_pi_p T) q = Ok p ->
  forall s, s < length q -> ~ In PInf (nth s q []) -> (exists x, In (Fin x) (nth s q [])) ->
  exists ps : list R, nth s p [] = map Fin ps /\ length ps = length (nth s q []) /\ distribution ps /\
    (forall a, a < length ps -> nth a ps 0%R =
       (gibbs_weight T (nth a (nth s q []) NaN) / Rsum (map (gibbs_weight T) (nth s q [])))%R) /\
    (forall a, a < length ps -> (nth a ps 0%R = 0%R <-> forall x, nth a (nth s q []) NaN <> Fin x)) /\
    (forall a b x y, a < length ps -> b < length ps -> nth a (nth s q []) NaN = Fin x -> nth b (nth s q []) NaN = Fin y ->
       ((nth a ps 0 < nth b ps 0)%R <-> (x < y)%R)).
Proof.
  intros T q p HT E s Hs NP (x0 & Hx0).
  destruct (C26_flagged_probabilities_partial _ _ _ E) as (L & H). destruct (H s Hs) as (Ls & _ & H2).
  destruct H2 as (p0 & Ep0 & Ep).
  { exists (Fin x0). split; [exact Hx0|discriminate]. } { intros [X _]. contradiction. }
  unfold softmax_get_pi_p in Ep0. assert (OI : forall u v : list (list (fval R)), Ok u = Ok v -> v = u) by congruence.
  apply OI in Ep0. clear OI. set (row := nth s q []) in *.
  assert (R1 : nth s p [] = softmax (map nan_to_ninf row) T).
  { rewrite Ep, Ep0. unfold clean. rewrite map_map. now rewrite (nth_map_lt _ _ _ _ _ _ []) by exact Hs. }
  assert (GW : forall v : fval R, gibbs_weight T (nan_to_ninf v) = gibbs_weight T v) by (intros []; reflexivity).
  assert (R2 : nth s p [] = map Fin (map (fun v => gibbs_weight T v / Rsum (map (gibbs_weight T) row))%R row)).
  { rewrite R1, softmax_gibbs; [|exact HT| |].
    - rewrite !map_map. rewrite (map_ext _ (gibbs_weight T)) by exact GW. apply map_ext. intros v. now rewrite GW.
    - intros v Hv. split; [eapply clean_no_nan; exact Hv|]. apply in_map_iff in Hv. destruct Hv as (w & <- & Hw).
      intros X. apply NP. destruct w; cbn in X; try discriminate. exact Hw.
    - exists (Fin x0). split; [|discriminate]. apply in_map_iff. exists (Fin x0). split; [reflexivity|exact Hx0]. }
  set (tot := Rsum (map (gibbs_weight T) row)) in *.
  assert (TP : (0 < tot)%R).
  { unfold tot. rewrite <- (map_ext (fun v => gibbs_weight T (nan_to_ninf v)) _ GW), <- (map_map nan_to_ninf (gibbs_weight T)).
    apply gibbs_total_pos.
    - intros v Hv. split; [eapply clean_no_nan; exact Hv|]. apply in_map_iff in Hv. destruct Hv as (w & <- & Hw).
      intros X. apply NP. destruct w; cbn in X; try discriminate. exact Hw.
    - exists (Fin x0). split; [|discriminate]. apply in_map_iff. exists (Fin x0). split; [reflexivity|exact Hx0]. }
  exists (map (fun v => gibbs_weight T v / tot)%R row). split; [exact R2|].
  assert (N : forall a, a < length row -> nth a (map (fun v => gibbs_weight T v / tot)%R row) 0%R = (gibbs_weight T (nth a row NaN) / tot)%R).
  { intros a Ha. now rewrite (nth_map_lt _ _ _ _ _ _ NaN) by exact Ha. }
  assert (W0 : forall v, (0 <= gibbs_weight T v)%R) by (intros []; cbn; try lra; apply Rlt_le, exp_pos).
  rewrite map_length. split; [reflexivity|]. split; [split|split; [exact N|split]].
  - intros x Hx. apply in_map_iff in Hx. destruct Hx as (v & <- & _). apply Rmult_le_pos; [apply W0|].
    apply Rlt_le, Rinv_0_lt_compat, TP.
  - rewrite Rsum_div. fold tot. field. lra.
  - intros a Ha. rewrite N by exact Ha. split.
    + intros Z x Ex. rewrite Ex in Z. cbn in Z. assert (0 < exp (x / T) / tot)%R by (apply Rdiv_lt_0_compat; [apply exp_pos|exact TP]). lra.
    + intros F. destruct (nth a row NaN) as [| | |x]; cbn; try (field; lra). elim (F x). reflexivity.
  - intros a b x y Ha Hb Ex Ey. rewrite !N, Ex, Ey by assumption. cbn.
    assert (D : forall x y, (x < y)%R -> (exp (x / T) / tot < exp (y / T) / tot)%R).
    { intros u v Huv. apply Rmult_lt_compat_r; [apply Rinv_0_lt_compat, TP|]. apply exp_increasing.
      apply Rmult_lt_compat_r; [apply Rinv_0_lt_compat, HT|exact Huv]. }
    split; [|apply D]. intros X. destruct (Rlt_le_dec x y) as [|Y]; [assumption|]. destruct Y as [Y|Y]; [specialize (D _ _ Y); lra|subst; lra].
Qed.

(** All values minus infinity: the uniform distribution. *)
Theorem C27_uniform : forall (T : R) row, (forall v, In v row -> v = NInf) -> row <> [] ->
  exists ps, softmax row T = map Fin ps /\ distribution ps /\ length ps = length row /\
    forall x, In x ps -> x = (1 / INR (length row))%R.
Proof.
  intros T row H N. assert (P : (0 < INR (length row))%R) by (apply lt_0_INR; destruct row; [congruence|cbn; lia]).
  exists (map (fun _ => (1 / INR (length row))%R) row). split; [rewrite map_map; now apply softmax_all_ninf|].
  split; [split|split; [apply map_length|]].
  - intros x Hx. apply in_map_iff in Hx. destruct Hx as (v & <- & _). apply Rlt_le, Rdiv_lt_0_compat; lra.
  - rewrite Rsum_const. field. lra.
  - intros x Hx. apply in_map_iff in Hx. destruct Hx as (v & <- & _). reflexivity.
Qed.

(** Adding a constant to every value changes nothing. *)
Theorem C27_shift : forall (T c : R) row, (0 < T)%R -> (forall v, In v row -> v <> NaN /\ v <> PInf) ->
  softmax (map (fun v => match v with Fin a => Fin (a + c)%R | w => w end) row) T = softmax row T.
Proof.
  intros T c row HT H. set (sh := fun v : fval R => match v with Fin a => Fin (a + c)%R | w => w end).
  destruct (forallb isninf row) eqn:E.
  - assert (F : map sh row = row).
    { rewrite <- (map_id row) at 2. apply map_ext_in. intros v Hv. rewrite forallb_forall in E. specialize (E v Hv).
      destruct v; try discriminate. reflexivity. }
    now rewrite F.
  - apply all_ninf_false in E. assert (X := E). destruct E as (v & Hv & N).
    assert (GW : forall v, gibbs_weight T (sh v) = (exp (c / T) * gibbs_weight T v)%R).
    { intros [| | |a]; cbn; try ring. rewrite <- exp_plus. f_equal. field. lra. }
    rewrite !softmax_gibbs; try assumption.
    + rewrite !map_map. rewrite (map_ext (fun x => gibbs_weight T (sh x)) _ GW), <- (map_map (gibbs_weight T)), Rsum_scal.
      assert (P := gibbs_total_pos T row H X). assert (EP := exp_pos (c / T)).
      apply map_ext. intros w. f_equal. rewrite GW. field. lra.
    + intros w Hw. apply in_map_iff in Hw. destruct Hw as (u & <- & Hu). destruct (H u Hu). destruct u; cbn; split; congruence.
    + exists (sh v). split; [now apply in_map|]. destruct (H v Hv). destruct v; cbn; congruence.
Qed.

(** The shift by the maximum: every exponent the code passes to [exp] is non-positive. *)
Theorem C27_no_overflow : forall (T : R) row mx v, (0 < T)%R -> (forall v, In v row -> v <> NaN /\ v <> PInf) ->
  fmax_list row = Ok mx -> In v row -> fle (fdiv_t (fsub v mx) T) (Fin 0%R).
Proof.
  intros T [|x row] mx v HT H E Hv; [destruct Hv|]. cbn [fmax_list] in E.
  assert (OI : forall u v : fval R, Ok u = Ok v -> v = u) by congruence. apply OI in E. clear OI.
  destruct (fold_fmax row x) as (H1 & H2 & H3 & H4); [intros w Hw; apply (H w (or_intror Hw))|apply (H x (or_introl eq_refl))|].
  rewrite <- E in *. assert (UB : fle v mx) by (destruct Hv as [<-|Hv]; auto).
  destruct (H v Hv). destruct v as [| | |a], mx as [| | |m]; cbn in *; try congruence; try tauto.
  assert (0 < / T)%R by (apply Rinv_0_lt_compat, HT). unfold Rdiv. 
  assert ((a - m) * / T <= 0 * / T)%R by (apply Rmult_le_compat_r; lra). lra.
Qed.

(** The softmax sample of a state is an action of finite value whenever there is one (no +inf), for all draws. *)
Theorem C27_sampled_is_possible : forall (T : R) us (q : list (list (fval R))), (0 < T)%R ->
  (forall s, (0 <= us s < 1)%R) ->
  (forall row, In row q -> row <> [] /\ ~ In PInf row) -> (exists row, In row q /\ some_known row) ->
  exists pi, get_pi (softmax_get_pi T us) q = Ok pi /\ length pi = length q /\
    forall s, s < length q -> (exists x, In (Fin x) (nth s q [])) -> exists a x, nth s pi 0%Z = Z.of_nat a /\ a < length (nth s q []) /\ nth a (nth s q []) NaN = Fin x /\
      (cum_share (map (gibbs_weight T) (nth s q [])) a <= us s < cum_share (map (gibbs_weight T) (nth s q [])) (S a))%R.
Proof.
  intros T us q HT HU HQ NE.
  assert (ROW : forall row u, (0 <= u < 1)%R -> ~ In PInf row -> (exists x, In (Fin x) row) ->
    exists a x, softmax_choice (softmax (map nan_to_ninf row) T) u = Ok (Z.of_nat a) /\ a < length row /\ nth a row NaN = Fin x /\
      (cum_share (map (gibbs_weight T) row) a <= u < cum_share (map (gibbs_weight T) row) (S a))%R).
  { clear - HT. intros row u Hu NP (x0 & Hx0).
    assert (C1 : forall v, In v (map nan_to_ninf row) -> v <> NaN /\ v <> PInf).
    { intros v Hv. split; [eapply clean_no_nan; exact Hv|]. apply in_map_iff in Hv. destruct Hv as (w & <- & Hw).
      intros X. apply NP. destruct w; cbn in X; try discriminate. exact Hw. }
    assert (C2 : exists v, In v (map nan_to_ninf row) /\ v <> NInf).
    { exists (Fin x0). split; [|discriminate]. apply in_map_iff. exists (Fin x0). split; [reflexivity|exact Hx0]. }
    assert (GW : forall v : fval R, gibbs_weight T (nan_to_ninf v) = gibbs_weight T v) by (intros []; reflexivity).
    assert (TP := gibbs_total_pos T _ C1 C2). rewrite map_map, (map_ext _ (gibbs_weight T)) in TP by exact GW.
    rewrite softmax_gibbs by assumption. rewrite !map_map. rewrite (map_ext (fun x => gibbs_weight T (nan_to_ninf x)) (gibbs_weight T)) by exact GW.
    set (ws := map (gibbs_weight T) row) in *.
    assert (EM : map (fun x => Fin (gibbs_weight T (nan_to_ninf x) / Rsum ws)%R) row = map Fin (map (fun w => w / Rsum ws)%R ws)).
    { generalize (Rsum ws). intros c. unfold ws. rewrite !map_map. apply map_ext. intros v. now rewrite GW. }
    rewrite EM. set (ps := map (fun w => w / Rsum ws)%R ws).
    assert (S1 : Rsum ps = 1%R). { unfold ps. rewrite Rsum_div, map_id. field. lra. }
    assert (WN : forall x, In x ws -> (0 <= x)%R).
    { intros x Hx. unfold ws in Hx. apply in_map_iff in Hx. destruct Hx as (v & <- & _). destruct v; cbn; try lra. apply Rlt_le, exp_pos. }
    unfold softmax_choice. replace (forallb (fun v => feqb v (Fin 0%R)) (map Fin ps)) with false.
    2:{ symmetry. destruct (forallb _ _) eqn:F; [|reflexivity]. exfalso. rewrite forallb_forall in F.
        assert (Z : Rsum ps = 0%R); [|lra]. assert (A : forall x, In x ps -> x = 0%R).
        { intros x Hx. specialize (F (Fin x) (in_map Fin _ _ Hx)). cbn in F. now apply Reqb_true in F. }
        clear - A. induction ps as [|y l IH]; [reflexivity|]. rewrite Rsum_cons, IH by (intros; apply A; now right).
        rewrite (A y (or_introl eq_refl)). lra. }
    rewrite fsum_fin, S1. rewrite map_map.
    assert (D : map (fun x => fdiv (Fin x) (Fin 1%R)) ps = map Fin ps).
    { apply map_ext. intros x. cbn. destruct (Reqb 1 0) eqn:Z; [apply Reqb_true in Z; lra|]. f_equal. field. }
    rewrite D. assert (MM : mapM (fun v => match fin_of v with Some a => Ok a | None => Err ValueError end) (map Fin ps) = Ok ps).
    { clear. induction ps as [|y l IH]; [reflexivity|]. cbn [map mapM fin_of bind]. rewrite IH. reflexivity. }
    rewrite MM. cbn [bind].
    assert (CS : forall i, cum_share ps i = cum_share ws i).
    { intros i. unfold cum_share. rewrite S1. unfold ps. rewrite firstn_map, Rsum_div, map_id. field. lra. }
    assert (PN : forall x, In x ps -> (0 <= x)%R).
    { intros x Hx. unfold ps in Hx. apply in_map_iff in Hx. destruct Hx as (v & <- & Hv). apply Rmult_le_pos; [now apply WN|].
      apply Rlt_le, Rinv_0_lt_compat, TP. }
    assert (P1 : (0 < Rsum ps)%R) by lra.
    destruct (proj1 (choice_p_iff ps u PN P1 Hu _) eq_refl) as (La & Ha).
    assert (HP := choice_pos ps u P1 _ La Ha). set (a := choice_p ps u) in *.
    assert (Lr : a < length row) by (unfold ps, ws in La; now rewrite !map_length in La).
    assert (X : exists x, nth a row NaN = Fin x).
    { unfold ps, ws in HP. rewrite map_map in HP. rewrite (nth_map_lt _ _ _ _ _ _ NaN) in HP by exact Lr.
      destruct (nth a row NaN) as [| | |x]; [| | |eauto]; cbn in HP; exfalso; unfold Rdiv in HP; rewrite Rmult_0_l in HP; lra. }
    destruct X as (x & Ex). exists a, x. rewrite <- !CS. auto. }
  assert (ROW2 : forall row u, row <> [] -> ~ In PInf row -> ~ (exists x, In (Fin x) row) ->
    exists z, softmax_choice (softmax (map nan_to_ninf row) T) u = Ok z).
  { clear. intros row u NN NP NX. rewrite softmax_all_ninf.
    2:{ intros v Hv. apply in_map_iff in Hv. destruct Hv as (w & <- & Hw). destruct w as [| | |x]; try reflexivity; [now elim NP|elim NX; eauto]. }
    rewrite map_map, map_length. assert (P : (0 < INR (length row))%R) by (apply lt_0_INR; destruct row; [congruence|cbn; lia]).
    set (c := (1 / INR (length row))%R). assert (CP : (0 < c)%R) by (apply Rdiv_lt_0_compat; lra).
    assert (PP : (0 < Rsum (map (fun _ => c) row))%R). { rewrite Rsum_const. apply Rmult_lt_0_compat; lra || exact CP. }
    unfold softmax_choice. replace (map (fun _ : fval R => Fin c) row) with (map Fin (map (fun _ : fval R => c) row)) by now rewrite map_map.
    assert (MC : forall (d : R) (l : list (fval R)), mapM (fun v => match fin_of v with Some a => Ok a | None => Err ValueError end) (map (fun _ => Fin d) l) = Ok (map (fun _ => d) l)).
    { clear. induction l as [|y l IH]; [reflexivity|]. cbn [map mapM fin_of bind]. rewrite IH. reflexivity. }
    rewrite fsum_fin. destruct (forallb _ _).
    - rewrite !map_map, MC. eexists. reflexivity.
    - rewrite !map_map. set (S := Rsum (map (fun _ => c) row)) in *. clearbody S. cbn [fdiv]. destruct (Reqb S 0) eqn:Z; [apply Reqb_true in Z; lra|].
      rewrite MC. eexists. reflexivity. }
  assert (DEC : forall row : list (fval R), (exists x, In (Fin x) row) \/ ~ exists x, In (Fin x) row).
  { clear. induction row as [|v row IH]; [right; intros (x & [])|]. destruct v as [| | |x]; try (destruct IH as [(y & H)|N]; [left; exists y; now right|right; intros (y & [H|H]); [discriminate|apply N; eauto]]). left. exists x. now left. }
  assert (K : forall q s0, (forall row, In row q -> row <> [] /\ ~ In PInf row) ->
    exists pi, softmax_pi_from s0 us (map (fun row => softmax row T) (clean q)) = Ok pi /\ length pi = length q /\
      forall s, s < length q -> (exists x, In (Fin x) (nth s q [])) -> exists a x, nth s pi 0%Z = Z.of_nat a /\ a < length (nth s q []) /\ nth a (nth s q []) NaN = Fin x /\
      (cum_share (map (gibbs_weight T) (nth s q [])) a <= us (s0 + s)%nat < cum_share (map (gibbs_weight T) (nth s q [])) (S a))%R).
  { clear - ROW ROW2 DEC HU. induction q as [|row q IH]; intros s0 HQ.
    - exists []. split; [reflexivity|]. split; [reflexivity|]. cbn; intros; lia.
    - cbn [clean map softmax_pi_from]. destruct (HQ row (or_introl eq_refl)) as [NN N].
      destruct (IH (S s0)) as (pi & E' & L & Q); [intros; apply HQ; now right|]. fold (clean q).
      destruct (DEC row) as [X|X].
      + destruct (ROW row (us s0) (HU s0) N X) as (a & x & E & P). rewrite E. cbn [bind]. rewrite E'. cbn [bind].
        eexists. split; [reflexivity|]. split; [cbn; lia|]. intros [|s] Hs Hx; cbn [nth] in *.
        * exists a, x. rewrite Nat.add_0_r. tauto.
        * replace (s0 + S s) with (S s0 + s) by lia. apply Q; [cbn in Hs; lia|exact Hx].
      + destruct (ROW2 row (us s0) NN N X) as (z & E). rewrite E. cbn [bind]. rewrite E'. cbn [bind].
        eexists. split; [reflexivity|]. split; [cbn; lia|]. intros [|s] Hs Hx; cbn [nth] in *; [contradiction|].
        replace (s0 + S s) with (S s0 + s) by lia. apply Q; [cbn in Hs; lia|exact Hx]. }
  destruct (K q 0 HQ) as (pi0 & E0 & L & P).
  destruct (C26_flagged_states_partial (softmax_get_pi T us) q pi0) as (pi & E & Lp & H).
  { exact NE. }
  { exact E0. } { exact L. }
  exists pi. split; [exact E|]. split; [exact Lp|]. intros s Hs Hx. destruct (P s Hs Hx) as (a & x & Ea & La & Ex & B).
  destruct (H s Hs) as (_ & _ & H3). exists a, x. split; [|auto]. rewrite H3; [exact Ea| |].
  - exists (Fin x). split; [|discriminate]. rewrite <- Ex. now apply nth_In.
  - intros [X _]. destruct (HQ (nth s q [])) as [_ N]; [now apply nth_In|]. contradiction.
Qed.

(** * C61: a plus-infinite action value breaks softmax *)
Theorem C61_probabilities_nan : forall (T : R) (q p : list (list (fval R))), get_pi_p (softmax_get_pi_p T) q = Ok p ->
  forall s, s < length q -> In PInf (nth s q []) -> forall v, In v (nth s p []) -> v = NaN.
Proof.
  intros T q p E s Hs I v Hv. destruct (C26_flagged_probabilities_partial _ _ _ E) as (L & H). destruct (H s Hs) as (_ & H1 & H2).
  destruct (nan_state (nth s q [])) eqn:NS.
  - apply nan_state_iff in NS. exact (H1 NS v Hv).
  - apply nan_state_false in NS. destruct NS as [K U]. destruct (H2 K U) as (p0 & E0 & Ep).
    unfold softmax_get_pi_p in E0. assert (OI : forall u v : list (list (fval R)), Ok u = Ok v -> v = u) by congruence. apply OI in E0.
    rewrite Ep, E0 in Hv. unfold clean in Hv. rewrite map_map in Hv. rewrite (nth_map_lt _ _ _ _ _ _ []) in Hv by exact Hs.
    rewrite softmax_pinf in Hv; [apply in_map_iff in Hv; now destruct Hv as (_ & <- & _)| |apply clean_no_nan].
    apply in_map_iff. exists PInf. auto.
Qed.
Theorem C61_sampling_raises : forall (T : R) us (q : list (list (fval R))) row, In row q -> In PInf row ->
  get_pi (softmax_get_pi T us) q = Err ValueError.
Proof.
  intros T us q row Hr I. unfold get_pi.
  rewrite (proj2 (check_q_ok q)) by (exists row; split; [exact Hr|exists PInf; split; [exact I|discriminate]]). cbn [bind].
  unfold softmax_get_pi, softmax_get_pi_p. cbn [bind].
  assert (K : forall q s0, In row q -> softmax_pi_from s0 us (map (fun row => softmax row T) (clean q)) = Err ValueError).
  { clear q Hr. intros q. induction q as [|r q IH]; intros s0 Hr; [destruct Hr|]. cbn [clean map softmax_pi_from].
    assert (MV : forall l, (exists e, softmax_choice l (us s0) = Ok e) \/ softmax_choice l (us s0) = Err ValueError).
    { intros l. unfold softmax_choice. match goal with |- context [mapM _ ?x] => generalize x end. intros ps.
      assert (M : (exists e : list R, mapM (fun v => match fin_of v with Some a => Ok a | None => Err ValueError end) ps = Ok e) \/
                  mapM (fun v => match fin_of v with Some a => Ok a | None => @Err R ValueError end) ps = Err ValueError).
      { induction ps as [|y ps IHp]; [left; eexists; reflexivity|]. cbn [mapM]. destruct (fin_of y); [|right; reflexivity]. cbn [bind].
        destruct IHp as [[e ->]| ->]; [left; eexists; reflexivity|right; reflexivity]. }
      destruct M as [[e ->]| ->]; [left; eexists; reflexivity|right; reflexivity]. }
    destruct Hr as [->|Hr].
    - rewrite softmax_pinf; [|apply in_map_iff; exists PInf; auto|apply clean_no_nan].
      unfold softmax_choice. destruct row as [|y row]; [destruct I|]. cbn [map forallb feqb andb].
      rewrite !map_map. cbn [map mapM fdiv fin_of bind]. reflexivity.
    - destruct (MV (softmax (map nan_to_ninf r) T)) as [[a ->]| ->]; [|reflexivity]. cbn [bind]. fold (clean q).
      rewrite IH by exact Hr. reflexivity. }
  rewrite (K q 0 Hr). reflexivity.
Qed.

(** * C28: sampling follows the weights *)
Theorem C28_interval : forall (ps : list R) (u : R), (forall x, In x ps -> (0 <= x)%R) -> (0 < Rsum ps)%R -> (0 <= u < 1)%R ->
  forall i, let lo := (Rsum (firstn i ps) / Rsum ps)%R in let hi := (Rsum (firstn (S i) ps) / Rsum ps)%R in
    (choice_p ps u = i <-> i < length ps /\ (lo <= u < hi)%R) /\
    (rand_choice_nb ps u = i <-> i < length ps /\ (lo <= u < hi)%R) /\
    (i < length ps -> (hi - lo = nth i ps 0 / Rsum ps)%R).
Proof.
  intros ps u NN P HU i. cbv zeta. split; [exact (choice_p_iff ps u NN P HU i)|].
  split; [exact (rand_choice_nb_iff ps u NN P HU i)|]. exact (cum_share_len ps P i).
Qed.

Theorem C28_zero_weight_never_drawn : forall (ps : list R) (u : R),
  (forall x, In x ps -> (0 <= x)%R) -> (0 < Rsum ps)%R -> (0 <= u < 1)%R ->
  choice_p ps u < length ps /\ (0 < nth (choice_p ps u) ps 0)%R /\
  rand_choice_nb ps u < length ps /\ (0 < nth (rand_choice_nb ps u) ps 0)%R.
Proof.
  intros ps u NN P HU. destruct (proj1 (choice_p_iff ps u NN P HU _) eq_refl) as (L & H).
  destruct (proj1 (rand_choice_nb_iff ps u NN P HU _) eq_refl) as (L' & H').
  split; [exact L|]. split; [now apply (choice_pos ps u P)|]. split; [exact L'|]. now apply (choice_pos ps u P).
Qed.

(** * Non-vacuity: concrete arrays meeting the hypotheses *)
Example ex_q_rows : forall row, In row [[Fin 1%R; NaN; Fin 1%R]; [NaN; NaN; NaN]; [PInf; Fin 0%R; Fin 2%R]] -> row <> [].
Proof. intros row [<-|[<-|[<-|[]]]]; discriminate. Qed.
Example ex_q_known : some_known [Fin 1%R; NaN; Fin 1%R] /\ unmixed [Fin 1%R; NaN; Fin 1%R] /\ ~ some_known [NaN; NaN; NaN] /\
  unmixed [PInf; Fin 0%R; Fin 2%R].
Proof.
  split; [exists (Fin 1%R); split; [now left|discriminate]|]. split; [intros [[|[|[|[]]]] _]; discriminate|].
  split; [intros (v & [<-|[<-|[<-|[]]]] & N); congruence|]. intros [_ [|[|[|[]]]]]; discriminate.
Qed.
Example ex_q_best : best_action [Fin 1%R; NaN; Fin 1%R] 2 /\ best_action [Fin 1%R; NaN; Fin 1%R] 0 /\ ~ best_action [Fin 1%R; NaN; Fin 1%R] 1.
Proof.
  split; [|split].
  - split; [cbn; lia|]. intros [|[|[|b]]] H; cbn in *; try lra; auto; lia.
  - split; [cbn; lia|]. intros [|[|[|b]]] H; cbn in *; try lra; auto; lia.
  - intros [_ H]. exact (H 0 ltac:(cbn; lia)).
Qed.
(** The executable model on rationals. *)
Example ex_pi_run : get_pi (max_get_pi (fun s => s)) [[Fin 1%Q; NaN; Fin 1%Q]; [Fin 3%Q; NaN; Fin 3%Q]; [NaN; NaN; NaN]; [PInf; Fin 0%Q; Fin 2%Q]]
  = Ok [0; 2; -1; 0]%Z.
Proof. vm_compute. reflexivity. Qed.
Example ex_softmax_hyp : (0 < 2)%R /\ ~ In PInf [Fin 1%R; NInf; Fin 3%R] /\ (exists x, In (Fin x) [Fin 1%R; NInf; Fin 3%R]).
Proof. split; [lra|]. split; [intros [|[|[|[]]]]; discriminate|]. exists 1%R. now left. Qed.
Example ex_choice_run : choice_p [1#4; 0; 3#4]%Q (1#4)%Q = 2 /\ choice_p [1#4; 0; 3#4]%Q (1#5)%Q = 0 /\
  rand_choice_nb [1; 0; 3]%Q (1#4)%Q = 2.
Proof. vm_compute. auto. Qed.
Example ex_choice_hyp : (forall x, In x [1%R; 0%R; 3%R] -> (0 <= x)%R) /\ (0 < Rsum [1%R; 0%R; 3%R])%R.
Proof. split; [intros x [<-|[<-|[<-|[]]]]; lra|]. unfold Rsum; cbn; lra. Qed.

Print Assumptions C25_probabilities.
Print Assumptions C25_sampled_is_best.
Print Assumptions C25_best_can_be_sampled.
Print Assumptions C26_flagged_states_partial.
Print Assumptions C26_flagged_probabilities_partial.
Print Assumptions C26_max_selector_partial.
Print Assumptions C26_all_nan_rejected.
Print Assumptions C26_mixed_infinities_refuted.
Print Assumptions C27_temperature.
Print Assumptions C27_gibbs.
Print Assumptions C27_uniform.
Print Assumptions C27_shift.
Print Assumptions C27_no_overflow.
Print Assumptions C27_sampled_is_possible.
Print Assumptions C61_probabilities_nan.
Print Assumptions C61_sampling_raises.
Print Assumptions C28_interval.
Print Assumptions C28_zero_weight_never_drawn.
