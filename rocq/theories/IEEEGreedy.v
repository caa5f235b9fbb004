(** C247: greedy action selection with the numbers of IEEE 754 double precision, bit by bit. *)
From Coq Require Import String List ZArith Reals Bool Lia Lra Arith.
From Flocq Require Import Core BinarySingleNaN.
From Verif Require Import PyBase PyProofs GridModel MDPModel MDPSpec ActionModel ActionProofs RSum ActionSpec ActionProps EnvModel EnvSpec RoundModel RoundSpec RoundProofs RoundProps RoundExample IEEEModel SimRound SimMDP SimEnv IEEE IEEEEnv.
Import ListNotations.
Local Open Scope R_scope.

#[local] Existing Instance NumB.

(** What the action values stand for. *)
Definition reads (q : list (list (fval b64))) : list (list (fval R)) := map (map fval_of) q.
(** No more than a billion actions; the numbers that are given are finite (infinities and NaN are [NInf], [PInf] and [NaN]). *)
Definition usable (q : list (list (fval b64))) : Prop := forall row, In row q -> row <> [] /\ Forall finite_if_known row /\ (Z.of_nat (length row) <= 10 ^ 9)%Z.

Lemma readsS : forall q, usable q -> Forall2 (Forall2 (fsim stands)) q (reads q).
Proof.
  intros q H. unfold reads. induction q as [|row q IH]; cbn [map]; constructor; [|apply IH; intros r I; apply H; now right]. destruct (H row (or_introl eq_refl)) as (_ & F & _). clear - F.
  induction F as [|x row X _ IH]; cbn [map]; constructor; [|exact IH]. destruct x; cbn in *; auto. split; auto.
Qed.
Lemma nth_reads : forall q s, nth s (reads q) [] = map fval_of (nth s q []).
Proof. unfold reads. induction q as [|r q IH]; intros [|s]; cbn; auto. Qed.
Lemma reads_rows : forall q, usable q -> forall row, In row (reads q) -> row <> [].
Proof. intros q H row I. unfold reads in I. apply in_map_iff in I. destruct I as (r & <- & I). destruct (H r I) as (N & _). destruct r; [congruence|discriminate]. Qed.
Notation ltbS := (c_ltb _ _ _ _ ieee_computes).
Notation eqbS := (c_eqb _ _ _ _ ieee_computes).

(** Whatever the draws, the sampled action of a state with a known value (not mixing the infinities) has the greatest value, with respect to the real numbers the values stand for. *)
Theorem C247_sampled_is_best : forall draws q, usable q -> (exists row, In row (reads q) /\ some_known row) ->
  exists pi, @get_pi b64 (@max_get_pi b64 NumB draws) q = Ok pi /\ length pi = length q /\
    forall s, (s < length q)%nat -> some_known (map fval_of (nth s q [])) -> unmixed (map fval_of (nth s q [])) -> exists a, nth s pi 0%Z = Z.of_nat a /\ best_action (map fval_of (nth s q [])) a.
Proof.
  intros draws q U K. pose proof (readsS q U) as S. destruct (C25_sampled_is_best draws (reads q) (reads_rows q U) K) as (pi & E & L & P).
  exists pi. rewrite (get_piS stands (@max_get_pi b64 NumB draws) (@max_get_pi R NumR draws) q (reads q) S); [|exact (max_get_piS NumB stands ltbS eqbS draws _ _ (cleanS stands _ _ S))].
  split; [exact E|]. unfold reads in L, P. rewrite map_length in L, P. split; [exact L|]. intros s Hs. specialize (P s Hs). fold (reads q) in P. rewrite nth_reads in P. exact P.
Qed.

(** ** Probabilities *)
(** [b] is finite and agrees with [x] to fifteen digits. *)
Definition pnear (b : b64) (x : R) : Prop := finite b /\ Rabs (val b - x) <= 2 / 10 ^ 16 * x.
Lemma share_near : forall k, (1 <= k)%nat -> (Z.of_nat k <= 10 ^ 9)%Z -> pnear (@ndiv b64 NumB n1 (@nofZ b64 NumB (Z.of_nat k))) (@ndiv R NumR n1 (@nofZ R NumR (Z.of_nat k))).
Proof.
  intros k K1 K2. cbn [ndiv n1 nofZ NumR]. assert (KR : 1 <= IZR (Z.of_nat k)) by (apply IZR_le; lia). assert (KB : IZR (Z.of_nat k) <= 10 ^ 9) by (rewrite pow_IZR; apply IZR_le; exact K2).
  assert (I1 : 0 < / IZR (Z.of_nat k) <= 1) by (split; [apply Rinv_0_lt_compat; lra|apply Rle_trans with (/ 1); [apply Rinv_le_contravar; lra|lra]]). assert (I2 : / 10 ^ 9 <= / IZR (Z.of_nat k)) by (apply Rinv_le_contravar; lra).
  assert (P : 1 <= 2 ^ 1023) by (apply pow_R1_Rle; lra).
  assert (Q : stands (@ndiv b64 NumB n1 (@nofZ b64 NumB (Z.of_nat k))) (float64 (1 / IZR (Z.of_nat k)))).
  { apply (quotient _ 1 _ (IZR (Z.of_nat k))); [apply (c_one _ _ _ _ ieee_computes)|apply whole; lia|lra|]. unfold Rdiv. rewrite Rmult_1_l, Rabs_pos_eq; lra. }
  destruct Q as [F V]. split; [exact F|]. rewrite V. pose proof (rd_err _ _ _ C206_float64 (1 / IZR (Z.of_nat k))) as E. pose proof u64_small. pose proof eta64_small. unfold Rdiv in *. rewrite Rmult_1_l in *. rewrite (Rabs_pos_eq (/ IZR (Z.of_nat k))) in E by lra. eapply Rle_trans; [exact E|].
  set (x := / IZR (Z.of_nat k)) in *. apply Rle_trans with (12 * / 10 ^ 17 * x + / 10 ^ 30); [apply Rplus_le_compat; [apply Rmult_le_compat_r; lra|lra]|]. lra.
Qed.
Lemma max_rowS : forall r' r, Forall2 (fsim stands) r' r -> (Z.of_nat (length r') <= 10 ^ 9)%Z -> (forall l, max_actions r = Ok l -> l <> [] /\ (length l <= length r)%nat) -> rsim (Forall2 (fsim pnear)) (@max_pi_p_row b64 NumB r') (@max_pi_p_row R NumR r).
Proof.
  intros r' r S L N. unfold max_pi_p_row. rewrite (max_actionsS NumB stands ltbS eqbS _ _ S). destruct (max_actions r) as [l|]; [|reflexivity]. cbn [bind rsim]. destruct (N l eq_refl) as [N1 N2]. pose proof (F2_length _ _ _ S) as LL. rewrite LL.
  apply F2_map_same. intros a _. destruct (existsb (Nat.eqb a) l); cbn [fsim].
  - apply share_near; [destruct l; [congruence|cbn; lia]|lia].
  - destruct (c_zero _ _ _ _ ieee_computes) as [F V]. split; [exact F|]. rewrite V. cbn [n0 NumR]. rewrite Rminus_0_r, Rabs_R0, Rmult_0_r. lra.
Qed.
Lemma sum_near : forall pb ps, Forall2 pnear pb ps -> Rabs (Rsum (map val pb) - Rsum ps) <= 2 / 10 ^ 16 * Rsum ps.
Proof.
  induction 1 as [|b x pb ps [_ B] _ IH]; cbn [map Rsum fold_right].
  - rewrite Rminus_0_r, Rabs_R0, Rmult_0_r. lra.
  - fold (Rsum (map val pb)) (Rsum ps). replace (val b + Rsum (map val pb) - (x + Rsum ps)) with ((val b - x) + (Rsum (map val pb) - Rsum ps)) by ring. eapply Rle_trans; [apply Rabs_triang|]. lra.
Qed.
Lemma near_fin : forall r' ps, Forall2 (fsim pnear) r' (map Fin ps) -> exists pb, r' = map Fin pb /\ Forall2 pnear pb ps.
Proof.
  intros r' ps. revert r'. induction ps as [|x ps IH]; intros r' H; cbn [map] in H; inversion H as [|y x' t' t'' HY HT]; subst; [exists []; split; [reflexivity|constructor]|]. destruct (IH _ HT) as (pb & -> & N). destruct y as [| | |b]; cbn [fsim] in HY; try contradiction. exists (b :: pb). split; [reflexivity|]. now constructor.
Qed.
Lemma where_short : forall {X} (f : X -> bool) l, (length (where_ f l) <= length l)%nat.
Proof.
  intros X f l. unfold where_. generalize 0%nat. induction l as [|x l IH]; intros i; cbn; [lia|]. specialize (IH (S i)). destruct (f x); cbn; lia.
Qed.

Lemma clean_rows : forall q, clean (reads q) = reads (clean q).
Proof. intros q. unfold clean, reads. rewrite !map_map. apply map_ext. intros r. rewrite !map_map. apply map_ext. intros [| | |x]; reflexivity. Qed.
Lemma max_pS : forall q, usable q -> rsim (Forall2 (Forall2 (fsim pnear))) (@max_get_pi_p b64 NumB (clean q)) (@max_get_pi_p R NumR (clean (reads q))).
Proof.
  intros q U. unfold max_get_pi_p, clean, reads. induction q as [|row q IH]; cbn [map mapM]; [constructor|].
  destruct (U row (or_introl eq_refl)) as (N & _ & LB). assert (U1 : usable [row]) by (intros r [<-|[]]; apply U; now left). pose proof (cleanS stands _ _ (readsS _ U1)) as S. unfold clean, reads in S. cbn [map] in S. assert (S2 := S). inversion S2 as [|w1 w2 w3 w4 SR _]; subst. clear S2.
  eapply rsim_bind; [apply (max_rowS _ _ SR)|].
  - now rewrite map_length.
  - intros l E. destruct (clean_max (map fval_of row)) as (l' & E' & _ & NE & _); [destruct row; [congruence|discriminate]|]. rewrite E in E'. assert (EL : l' = l) by congruence. subst l'. split; [exact NE|]. unfold max_actions in E. destruct (fmax_list _) as [mx|]; [|discriminate]. cbn [bind] in E. assert (EW : l = where_ (feqb mx) (map nan_to_ninf (map fval_of row))) by congruence. rewrite EW. apply where_short.
  - intros p' p P. eapply rsim_bind; [apply IH; intros r I; apply U; now right|]. intros ps' ps PS. constructor; assumption.
Qed.

(** The probabilities of the best actions are equal shares and the others are zero, to fifteen digits; they add up to one to fifteen digits. *)
Theorem C247_probabilities : forall q, usable q -> (exists row, In row (reads q) /\ some_known row) ->
  exists p, @get_pi_p b64 (@max_get_pi_p b64 NumB) q = Ok p /\ length p = length q /\
    forall s, (s < length q)%nat -> some_known (map fval_of (nth s q [])) -> unmixed (map fval_of (nth s q [])) ->
      exists (best : list nat) (ps : list b64), nth s p [] = map Fin ps /\ length ps = length (nth s q []) /\ Forall finite ps /\ Rabs (Rsum (map val ps) - 1) <= 2 / 10 ^ 16 /\
        NoDup best /\ best <> [] /\ (forall a, In a best <-> best_action (map fval_of (nth s q [])) a) /\
        forall a, (a < length ps)%nat -> if in_dec Nat.eq_dec a best then Rabs (val (nth a ps n0) - 1 / INR (length best)) <= 2 / 10 ^ 16 / INR (length best) else val (nth a ps n0) = 0.
Proof.
  intros q U K. pose proof (readsS q U) as S. pose proof (max_pS q U) as M. destruct (C25_probabilities (reads q) (reads_rows q U) K) as (pR & E & L & P).
  unfold get_pi_p in *. rewrite (checkS stands _ _ S). destruct (check_q_values (reads q)); [|discriminate]. cbn [bind] in *.
  destruct (@max_get_pi_p b64 NumB (clean q)) as [p'|x], (@max_get_pi_p R NumR (clean (reads q))) as [p|y]; cbn [rsim bind] in *; try contradiction; try discriminate.
  rewrite (F2_length _ _ _ S), (F2_length _ _ _ M). destruct (negb _); [discriminate|].
  set (P1 := map (fun '(row, prow) => if nan_state row then map (fun _ => NaN) prow else prow) (combine q p')). set (P2 := map (fun '(row, prow) => if nan_state row then map (fun _ => NaN) prow else prow) (combine (reads q) p)) in *.
  assert (SP : Forall2 (Forall2 (fsim pnear)) P1 P2).
  { unfold P1, P2. apply (F2_combine_map (Forall2 (fsim stands)) (Forall2 (fsim pnear))); auto. intros w x y z AB CD _. rewrite (nan_stateS stands _ _ AB). destruct (nan_state x); [|exact CD]. clear - CD. induction CD; cbn [map]; constructor; [exact Logic.I|assumption]. }
  assert (FB : forallb (fun '(row, prow) => length row =? length prow)%nat (combine q P1) = forallb (fun '(row, prow) => length row =? length prow)%nat (combine (reads q) P2)).
  { clearbody P1 P2. clear - S SP. revert P1 P2 SP. induction S as [|r' r a b HR H IH]; intros P1 P2 SP; [reflexivity|]. destruct SP as [|x y P1 P2 AB SP]; [reflexivity|]. cbn [combine forallb]. rewrite (F2_length _ _ _ HR), (F2_length _ _ _ AB). f_equal. now apply IH. }
  rewrite FB. destruct (forallb _ (combine (reads q) P2)); [|discriminate]. assert (EP : pR = P2) by congruence. rewrite EP in *. clear EP.
  exists P1. split; [reflexivity|]. assert (LR : length (reads q) = length q) by apply map_length. rewrite LR in *. split; [now rewrite (F2_length _ _ _ SP)|]. intros s Hs KS US.
  specialize (P s Hs). rewrite nth_reads in P. destruct (P KS US) as (best & ps & N & LP & D & ND & NE & B & V). rewrite map_length in LP.
  pose proof (F2_nth (Forall2 (fsim pnear)) P1 P2 [] [] SP (Forall2_nil _) s) as NS. rewrite N in NS. destruct (near_fin _ _ NS) as (pb & EB & NB). exists best, pb. pose proof (F2_length _ _ _ NB) as LN.
  split; [exact EB|]. split; [lia|]. split; [clear - NB; induction NB as [|b x l l' [F _] _ IH]; constructor; assumption|]. split; [pose proof (sum_near _ _ NB) as SN; destruct D as [_ D]; rewrite D in SN; lra|].
  split; [exact ND|]. split; [exact NE|]. split; [exact B|]. intros b Ha. assert (Ha' : (b < length ps)%nat) by lia. specialize (V b Ha').
  assert (Z0 : pnear n0 0). { destruct (c_zero _ _ _ _ ieee_computes) as [F W]. split; [exact F|]. rewrite W, Rminus_0_r, Rabs_R0, Rmult_0_r. lra. }
  destruct (F2_nth pnear pb ps n0 0 NB Z0 b) as [_ X]. rewrite V in X. destruct (in_dec Nat.eq_dec b best).
  - eapply Rle_trans; [exact X|]. unfold Rdiv. lra.
  - rewrite Rminus_0_r, Rmult_0_r in X. pose proof (Rabs_pos (val (nth b pb n0))) as Y. destruct (Req_dec (val (nth b pb n0)) 0) as [R0|R0]; [exact R0|]. pose proof (Rabs_pos_lt _ R0). lra.
Qed.

(** Three actions, of which the first is impossible and the others are equally good; a second state without known values. *)
Example C247_example : let q := [[NInf; Fin (@n1 b64 NumB); Fin (@n1 b64 NumB)]; [NaN; NaN; NaN]] in usable q /\ (exists row, In row (reads q) /\ some_known row) /\ some_known (map fval_of (nth 0 q [])) /\ unmixed (map fval_of (nth 0 q [])).
Proof.
  assert (I1 : finite (@n1 b64 NumB)) by apply (c_one _ _ _ _ ieee_computes).
  assert (SK : some_known (map fval_of [NInf; Fin (@n1 b64 NumB); Fin (@n1 b64 NumB)])) by (exists NInf; split; [now left|discriminate]).
  split; [|split; [|split]].
  - intros row [<-|[<-|[]]]; (split; [discriminate|]); (split; [|vm_compute; congruence]); repeat (apply Forall_cons || apply Forall_nil); first [exact I1|exact Logic.I].
  - eexists. split; [now left|exact SK].
  - exact SK.
  - cbn [nth map fval_of]. intros [[H|[H|[H|[]]]] _]; discriminate H.
Qed.
