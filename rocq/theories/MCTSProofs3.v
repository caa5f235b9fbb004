(** Proofs about search iterations: walks, overlap, the non-interactive search. *)
From Coq Require Import List ZArith Reals Bool Lia Lra.
From Verif Require Import PyBase PyProofs MDPModel ActionModel ActionSpec EnvModel PlanProps RSum VIModel MCTSModel MCTSSpec MCTSProofs MCTSProofs2.
Import ListNotations.
Local Open Scope nat_scope.

Lemma walk_snoc : forall sas l s x, walk sas s l -> can_go sas (last l s) x -> walk sas s (l ++ [x]).
Proof.
  intros sas l. induction l as [|y l IH]; intros s x W C; [cbn in *; auto|]. destruct W as [W1 W2]. cbn [walk app]. split; [exact W1|]. apply IH; [exact W2|].
  destruct l as [|z l]; [exact C|]. change (last (y :: z :: l) s) with (last (z :: l) s) in C. assert (E : forall (l : list nat) z d d', last (z :: l) d = last (z :: l) d'). { clear. induction l as [|u l IH]; intros; [reflexivity|]. apply (IH u). } rewrite (E l z y s). exact C.
Qed.
Lemma last_snoc : forall A (l : list A) x d, last (l ++ [x]) d = x.
Proof. intros. apply last_last. Qed.

Section Walk.
Variables (score : scorer R) (c : search R) (V N : list R) (rnd : nat -> nat) (s0 : nat).
Hypotheses (Hn : 0 < length (s_start c)) (P0 : py_index (length (s_sas c)) (nth 0 (s_start c) 0%Z) = Ok s0).
Definition on_walk (st : it_state R) : Prop :=
  0 < length (it_nodes st) /\ walk (s_sas c) s0 (it_visited st) /\
  (it_visited st = [] /\ nth 0 (it_nodes st) 0%Z = nth 0 (s_start c) 0%Z \/ exists l x, it_visited st = l ++ [x] /\ nth 0 (it_nodes st) 0%Z = Z.of_nat x).
Lemma on_walk_body : forall st r, on_walk st -> it_body score c V N rnd st = Ok r -> match r with inl st' => on_walk st' | inr st' => on_walk st' end.
Proof using Hn P0.
  intros st r (L & W & X) B. apply it_body_inv in B. destruct B as (row & k & _ & _ & [(K & [(s1 & M & ->)|(s1 & M & ->)])|(K & ->)]).
  - apply it_move_ok in M. destruct M as (ft & ad & ac & acts & _ & _ & GA & _ & _ & _ & _ & _ & WH & _).
    assert (on_walk s1).
    { destruct WH as [(Z0 & x & NX & _ & EV & EN & _)|[(Z0 & _ & _ & x & _ & _ & _ & EV & EN & _)|(Z0 & _ & _ & _ & EV & EN & _)]].
      - unfold on_walk. rewrite EV, EN, upd_length. split; [exact L|]. split; [|right; exists (it_visited st), x; split; [reflexivity|now apply nth_upd_same]].
        apply walk_snoc; [exact W|]. apply next_node_in in NX. apply in_map_iff in NX. destruct NX as ([a t] & E & NX). cbn in E. subst t.
        apply get_actions_states_spec in GA. destruct GA as (s & PS & GA). rewrite Z0 in PS. apply GA in NX. exists a. replace (last (it_visited st) s0) with s; [exact NX|].
        destruct X as [[E1 E2]|(l & y & E1 & E2)]; rewrite E2 in PS.
        + rewrite E1. cbn. congruence.
        + rewrite E1, last_snoc. apply py_index_ok in PS. lia.
      - unfold on_walk. rewrite EV, EN, upd_length, nth_upd_other by congruence. auto.
      - unfold on_walk. rewrite EV, EN. auto. }
    destruct (it_next_fields c k s1) as (_ & F2 & F3 & _). unfold on_walk. rewrite F2, F3. exact H.
  - apply it_move_caught in M. destruct M as (ft & ad & ac & _ & _ & ->). exact (conj L (conj W X)).
  - destruct (it_next_fields c k st) as (_ & F2 & F3 & _). unfold on_walk. rewrite F2, F3. exact (conj L (conj W X)).
Qed.
Lemma loop_walk : forall k fuel st b, it_loop score c V N rnd fuel (it_start c k) = Ok (st, b) -> on_walk st.
Proof using Hn P0.
  intros k fuel st b. apply (it_loop_inv score c V N rnd on_walk (fun st _ => on_walk st)).
  - intros s s' H _ B. apply (on_walk_body s (inl s') H B).
  - intros s s' H _ B. apply (on_walk_body s (inr s') H B).
  - auto.
  - split; [exact Hn|]. split; [exact I|]. left. auto.
Qed.
End Walk.

(** * Overlaps *)
Section Overlap.
Variables (consumes : list (list bool)) (nodes : list Z) (cost : R) (values : list R).

Definition hit (p : nat * nat) : bool := (nth (fst p) nodes 0 =? nth (snd p) nodes 0)%Z.
Lemma overlap_app : forall l1 l2 r act, (forall p, In p l1 -> hit p = true -> snd p <> 0) ->
  overlap_loop (l1 ++ l2) nodes cost values r act =
  overlap_loop l2 nodes cost values
    (fold_left (fun r p => if hit p && (fst p =? 0) then (r + nth (snd p) values 0)%R else r) l1 r)
    (fold_left (fun act p => if hit p then upd act (snd p) false else act) l1 act).
Proof using.
  induction l1 as [|[a1 a2] l1 IH]; intros l2 r act H; [reflexivity|]. cbn [app overlap_loop fold_left fst snd]. unfold hit at 2 4. cbn [fst snd].
  destruct (Z.eqb_spec (nth a1 nodes 0%Z) (nth a2 nodes 0%Z)) as [E|E].
  - assert (a2 <> 0). { apply (H (a1, a2)); [now left|]. unfold hit. cbn. now apply Z.eqb_eq. }
    destruct (Nat.eqb_spec a2 0); [contradiction|]. rewrite IH by (intros; apply H; [now right|assumption]). reflexivity.
  - rewrite IH by (intros; apply H; [now right|assumption]). reflexivity.
Qed.
Lemma overlap_clear : forall l r act, (forall p, In p l -> hit p = true -> snd p <> 0) ->
  overlap_loop l nodes cost values r act =
  (fold_left (fun r p => if hit p && (fst p =? 0) then (r + nth (snd p) values 0)%R else r) l r,
   fold_left (fun act p => if hit p then upd act (snd p) false else act) l act, false).
Proof using. intros l r act H. rewrite <- (app_nil_r l) at 1. now rewrite overlap_app. Qed.

Lemma in_true_pairs : forall m i j, In (i, j) (true_pairs m) <-> i < length m /\ nth j (nth i m []) false = true.
Proof using.
  intros m i j. unfold true_pairs. rewrite in_concat. split.
  - intros (l & Hl & Hp). apply in_map_iff in Hl. destruct Hl as ([a r] & <- & Hr). apply in_map_iff in Hp. destruct Hp as (j' & E & Hj). inversion E. subst a j'. clear E.
    apply (in_where _ _ _ _ false) in Hj. destruct Hj as [_ Hj]. apply (In_nth _ _ (0, [])) in Hr. destruct Hr as (a & La & Ea). rewrite combine_length, seq_length, Nat.min_id in La.
    rewrite combine_nth, seq_nth in Ea by (try apply seq_length; assumption). inversion Ea. subst. cbn. auto.
  - intros [Li H]. exists (map (fun j => (i, j)) (where_ (fun b => b) (nth i m []))). split.
    + apply in_map_iff. exists (i, nth i m []). split; [reflexivity|].
      replace (i, nth i m []) with (nth i (combine (seq 0 (length m)) m) (0, [])); [apply nth_In; rewrite combine_length, seq_length; lia|].
      rewrite combine_nth by apply seq_length. now rewrite seq_nth.
    + apply in_map_iff. exists j. split; [reflexivity|]. apply (in_where _ _ _ _ false). split; [|exact H].
      destruct (Nat.lt_ge_cases j (length (nth i m []))) as [|G]; [assumption|]. rewrite (nth_overflow _ _ G) in H. discriminate.
Qed.
Lemma fold_upd_false : forall l act j, (nth j (fold_left (fun act p => if hit p then upd act (snd p) false else act) l act) true = false <->
  j < length act /\ (nth j act true = false \/ exists p, In p l /\ hit p = true /\ snd p = j)).
Proof using.
  induction l as [|p l IH]; intros act j; cbn [fold_left].
  - split; [|intros [_ [H|(p & [] & _)]]; exact H]. intros H. split; [|now left]. destruct (Nat.lt_ge_cases j (length act)) as [|G]; [assumption|]. rewrite (nth_overflow _ _ G) in H. discriminate.
  - rewrite IH. destruct (hit p) eqn:E.
    + rewrite upd_length. split; intros [L H]; (split; [exact L|]).
      * destruct H as [H|(q & Hq & H)]; [|right; exists q; split; [now right|exact H]].
        destruct (Nat.eq_dec j (snd p)) as [->|D]; [right; exists p; split; [now left|auto]|]. rewrite nth_upd_other in H by assumption. now left.
      * destruct (Nat.eq_dec j (snd p)) as [->|D]; [left; now apply nth_upd_same|]. rewrite nth_upd_other by assumption. destruct H as [H|(q & [<-|Hq] & H1 & H2)]; [now left|congruence|right; exists q; auto].
    + split; intros [L H]; (split; [exact L|]).
      * destruct H as [H|(q & Hq & H)]; [now left|right; exists q; split; [now right|exact H]].
      * destruct H as [H|(q & [<-|Hq] & H1 & H2)]; [now left|congruence|right; exists q; auto].
Qed.
Lemma fold_upd_length : forall l act, length (fold_left (fun act p => if hit p then upd act (snd p) false else act) l act) = length act.
Proof using. induction l as [|p l IH]; intros act; cbn; [reflexivity|]. rewrite IH. destruct (hit p); [apply upd_length|reflexivity]. Qed.
Lemma fold_reward : forall l r, fold_left (fun r p => if hit p && (fst p =? 0) then (r + nth (snd p) values 0)%R else r) l r =
  (r + Rsum (map (fun p => nth (snd p) values 0) (filter (fun p => hit p && (fst p =? 0)) l)))%R.
Proof using.
  induction l as [|p l IH]; intros r; cbn [fold_left filter]; [cbn; lra|]. rewrite IH. destruct (hit p && (fst p =? 0)); [|reflexivity]. cbn [map]. cbn [Rsum fold_right]. change (fold_right Rplus 0%R) with Rsum. lra.
Qed.
End Overlap.

Lemma true_pairs_blocks : forall m, true_pairs m = concat (map (fun i => map (pair i) (where_ (fun b => b) (nth i m []))) (seq 0 (length m))).
Proof.
  intros m. unfold true_pairs. f_equal. apply (nth_ext _ _ [] []); [rewrite !map_length, combine_length, seq_length; lia|].
  intros i Hi. rewrite map_length, combine_length, seq_length, Nat.min_id in Hi.
  rewrite (nth_map_lt _ _ _ _ i [] (0, [])) by (rewrite combine_length, seq_length; lia). rewrite (nth_map_lt _ _ _ _ i [] 0) by (now rewrite seq_length).
  rewrite combine_nth by apply seq_length. now rewrite seq_nth.
Qed.
Lemma where_true_0 : forall l, nth 0 l false = true -> exists r, where_ (fun b => b) l = 0 :: r.
Proof. intros [|[|] l] H; try discriminate. eexists. reflexivity. Qed.
Lemma where_filter : forall (l : list bool), where_ (fun b => b) l = filter (fun j => nth j l false) (seq 0 (length l)).
Proof.
  assert (G : forall (l : list bool) i, where_from (fun b => b) i l = filter (fun j => nth (j - i) l false) (seq i (length l))).
  { induction l as [|b l IH]; intros i; [reflexivity|]. cbn [where_from length seq filter]. rewrite IH.
    assert (E : filter (fun j => nth (j - S i) l false) (seq (S i) (length l)) = filter (fun j => nth (j - i) (b :: l) false) (seq (S i) (length l))).
    { apply filter_ext_in. intros j Hj. apply in_seq in Hj. replace (j - i) with (S (j - S i)) by lia. reflexivity. }
    rewrite E, Nat.sub_diag. destruct b; reflexivity. }
  intros l. unfold where_. rewrite G. apply filter_ext. intros j. now rewrite Nat.sub_0_r.
Qed.
Lemma Rsum_map_filter : forall A (f : A -> R) (p : A -> bool) l, Rsum (map f (filter p l)) = Rsum (map (fun x => if p x then f x else 0%R) l).
Proof.
  induction l as [|x l IH]; [reflexivity|]. cbn [filter map]. destruct (p x); cbn [map]; unfold Rsum in *; cbn [fold_right]; rewrite IH; lra.
Qed.
Lemma filter_nil : forall A (p : A -> bool) l, (forall x, In x l -> p x = false) -> filter p l = [].
Proof. induction l as [|x l IH]; intros H; [reflexivity|]. cbn. rewrite (H x) by now left. apply IH. intros. apply H. now right. Qed.
