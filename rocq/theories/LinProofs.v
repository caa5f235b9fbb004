(** Gaussian elimination is correct: it inverts every matrix with trivial kernel. *)
From Coq Require Import List ZArith Reals Bool Lia Lra.
From Verif Require Import PyBase PyProofs ActionProofs RSum VIProofs2 SRModel.
Import ListNotations.
Local Open Scope R_scope.

(** Matrix entry. *)
Definition at2 (M : list (list R)) (i j : nat) : R := nth j (nth i M []) 0.
Definition square (n : nat) (M : list (list R)) : Prop := length M = n /\ forall i, (i < n)%nat -> length (nth i M []) = n.
(** [M x]. *)
Definition mat_vec (n : nat) (M : list (list R)) (x : nat -> R) (i : nat) : R := sumf (fun k => at2 M i k * x k) (seq 0 n).
(** No non-zero vector is sent to zero. *)
Definition trivial_kernel (n : nat) (M : list (list R)) : Prop :=
  forall x, (forall i, (i < n)%nat -> mat_vec n M x i = 0) -> forall i, (i < n)%nat -> x i = 0.
Definition delta (i j : nat) : R := if (i =? j)%nat then 1 else 0.

Lemma dot_nil : forall v : list R, dot [] v = 0.
Proof. reflexivity. Qed.
Lemma dot_cons : forall a b (u v : list R), dot (a :: u) (b :: v) = a * b + dot u v.
Proof. intros. unfold dot. cbn [combine map]. rewrite !nsum_Rsum. reflexivity. Qed.
Lemma dot_scale : forall c (u v : list R), length u = length v -> dot (vscale c u) v = c * dot u v.
Proof.
  induction u as [|a u IH]; intros [|b v] L; try discriminate; [rewrite !dot_nil; cbn; lra|]. unfold vscale in *. cbn [map]. rewrite !dot_cons, IH by (cbn in L; lia). cbn. lra.
Qed.
Lemma dot_sub : forall u w v : list R, length u = length v -> length w = length v -> dot (vsub u w) v = dot u v - dot w v.
Proof.
  induction u as [|a u IH]; intros [|c w] [|b v] L1 L2; try discriminate; [rewrite !dot_nil; lra|]. unfold vsub in *. cbn [combine map]. rewrite !dot_cons, IH by (cbn in *; lia). cbn. lra.
Qed.
Lemma vscale_len : forall c (u : list R), length (vscale c u) = length u.
Proof. intros. apply map_length. Qed.
Lemma vsub_len : forall u v : list R, length u = length v -> length (vsub u v) = length u.
Proof. intros u v L. unfold vsub. rewrite map_length, combine_length, L. lia. Qed.
Lemma vscale_nth : forall c (u : list R) j, nth j (vscale c u) 0 = c * nth j u 0.
Proof. induction u as [|a u IH]; intros [|j]; cbn; try lra; auto. Qed.
Lemma vsub_nth : forall (u v : list R) j, length u = length v -> nth j (vsub u v) 0 = nth j u 0 - nth j v 0.
Proof. induction u as [|a u IH]; intros [|b v] [|j] L; cbn in *; try lra; try discriminate. apply IH. congruence. Qed.

Definition row_ok (n width : nat) (r : list R * list R) : Prop := length (fst r) = n /\ length (snd r) = width.

Lemma pivot_some : forall rows p rest, pivot (A:=R) rows = Some (p, rest) -> nth 0 (fst p) 0 <> 0 /\ In p rows /\ (forall r, In r rows <-> r = p \/ In r rest) /\ length rows = S (length rest).
Proof.
  induction rows as [|r rows IH]; intros p rest E; [discriminate|]. cbn [pivot] in E. cbn [neqb NumR n0] in E. unfold Reqb in E. destruct (Req_EM_T (nth 0 (fst r) 0) 0) as [Z|NZ].
  - destruct (pivot rows) as [[p' rest']|] eqn:EP; [|discriminate]. inversion E. subst. destruct (IH _ _ eq_refl) as (H1 & H2 & H3 & H4). split; [exact H1|]. split; [now right|]. split; [|cbn; lia].
    intros x. cbn [In]. rewrite H3. tauto.
  - inversion E. subst. split; [exact NZ|]. split; [now left|]. split; [|reflexivity]. intros x. cbn [In]. intuition congruence.
Qed.
Lemma pivot_none : forall rows, pivot (A:=R) rows = None -> forall r, In r rows -> nth 0 (fst r) 0 = 0.
Proof.
  induction rows as [|r rows IH]; intros E x Hx; [destruct Hx|]. cbn [pivot neqb NumR n0] in E. unfold Reqb in E. destruct (Req_EM_T (nth 0 (fst r) 0) 0) as [Z|NZ]; [|discriminate].
  destruct (pivot rows) as [[p' rest']|] eqn:EP; [discriminate|]. destruct Hx as [<-|Hx]; [exact Z|]. now apply IH.
Qed.

Definition reduce (cs' b' : list R) : list R * list R -> list R * list R := fun '(ds, d) => let c := nth 0 ds 0 in (vsub (tl ds) (vscale c cs'), vsub d (vscale c b')).
Lemma reduce_ok : forall n width cs' b' r, length cs' = n -> length b' = width -> row_ok (S n) width r -> row_ok n width (reduce cs' b' r).
Proof.
  intros n width cs' b' [ds d] L1 L2 [H1 H2]. cbn [fst snd] in *. destruct ds as [|x ds]; [discriminate|]. cbn [length] in H1. unfold row_ok, reduce. cbn [fst snd nth tl]. split; rewrite vsub_len; rewrite ?vscale_len; lia.
Qed.

Lemma eliminate_sound : forall n width rows xs, (forall r, In r rows -> row_ok n width r) -> length rows = n -> eliminate (A:=R) n width rows = Ok xs ->
  length xs = n /\ (forall x, In x xs -> length x = width) /\
  forall r, In r rows -> forall j, (j < width)%nat -> dot (fst r) (map (fun row => nth j row 0) xs) = nth j (snd r) 0.
Proof.
  induction n as [|n IH]; intros width rows xs OK L E; cbn [eliminate] in E.
  - inversion E. subst. destruct rows; [|discriminate]. cbn. repeat split; intros; contradiction.
  - destruct (pivot rows) as [[[cs b] rest]|] eqn:EP; [|discriminate]. destruct (pivot_some _ _ _ EP) as (NZ & IP & IR & LR). cbn [fst snd] in *.
    destruct (OK _ IP) as [LC LB]. cbn [fst snd] in *. destruct cs as [|p cs]; [discriminate|]. cbn [nth tl length] in *.
    apply bind_ok in E. destruct E as (xs' & E & EX). cbn [ndiv n1 n0 nsub NumR] in *. set (cs' := vscale (1 / p) cs) in *. set (b' := vscale (1 / p) b) in *.
    assert (LC' : length cs' = n) by (unfold cs'; rewrite vscale_len; lia). assert (LB' : length b' = width) by (unfold b'; rewrite vscale_len; lia).
    change (eliminate n width (map (reduce cs' b') rest) = Ok xs') in E. apply IH in E; [|intros r Hr; apply in_map_iff in Hr; destruct Hr as (r0 & <- & H0); apply reduce_ok; auto; apply OK, IR; now right|rewrite map_length; lia].
    destruct E as (L1 & L2 & HE). assert (XE : xs = map (fun j => nth j b' 0 - dot cs' (map (fun row => nth j row 0) xs')) (seq 0 width) :: xs') by congruence. subst xs. clear EX.
    split; [cbn; lia|]. split; [intros x [<-|Hx]; [now rewrite map_length, seq_length|auto]|].
    intros r Hr j Hj. cbn [map]. rewrite (nth_map_lt _ _ _ _ _ _ 0%nat) by (rewrite seq_length; exact Hj). rewrite seq_nth by exact Hj. cbn [Nat.add].
    set (xj := map (fun row => nth j row 0) xs') in *. assert (LX : length xj = n) by (unfold xj; rewrite map_length; exact L1). apply IR in Hr. destruct Hr as [->|Hr].
    + cbn [fst snd]. rewrite dot_cons. unfold cs', b'. rewrite dot_scale by lia. rewrite vscale_nth. field. exact NZ.
    + destruct (OK r) as [O1 O2]; [apply IR; now right|]. destruct r as [ds d]. cbn [fst snd] in *. destruct ds as [|c ds]; [discriminate|]. cbn [length] in O1. rewrite dot_cons.
      specialize (HE (reduce cs' b' (c :: ds, d)) (in_map _ _ _ Hr) j Hj). cbn [reduce fst snd nth tl] in HE. fold xj in HE. rewrite dot_sub, dot_scale in HE; rewrite ?vscale_len; try lia.
      rewrite vsub_nth, vscale_nth in HE by (rewrite vscale_len; lia). lra.
Qed.

Lemma eliminate_fails : forall n width rows e, (forall r, In r rows -> row_ok n width r) -> eliminate (A:=R) n width rows = Err e ->
  e = LinAlgError /\ exists x, length x = n /\ (exists i, (i < n)%nat /\ nth i x 0 <> 0) /\ forall r, In r rows -> dot (fst r) x = 0.
Proof.
  induction n as [|n IH]; intros width rows e OK E; cbn [eliminate] in E; [discriminate|].
  destruct (pivot rows) as [[[cs b] rest]|] eqn:EP.
  - destruct (pivot_some _ _ _ EP) as (NZ & IP & IR & LR). cbn [fst snd] in *.
    destruct (OK _ IP) as [LC LB]. cbn [fst snd] in *. destruct cs as [|p cs]; [discriminate|]. cbn [nth tl length] in *. cbn [ndiv n1 n0 nsub NumR] in *. set (cs' := vscale (1 / p) cs) in *. set (b' := vscale (1 / p) b) in *.
    assert (LC' : length cs' = n) by (unfold cs'; rewrite vscale_len; lia). assert (LB' : length b' = width) by (unfold b'; rewrite vscale_len; lia).
    destruct (eliminate n width (map (reduce cs' b') rest)) as [xs|e'] eqn:EE.
    { change (bind (eliminate n width (map (reduce cs' b') rest)) (fun xs => Ok (map (fun j => nth j b' 0 - dot cs' (map (fun row => nth j row 0) xs)) (seq 0 width) :: xs)) = Err e) in E. rewrite EE in E. discriminate. }
    assert (e = e') by (change (bind (eliminate n width (map (reduce cs' b') rest)) (fun xs => Ok (map (fun j => nth j b' 0 - dot cs' (map (fun row => nth j row 0) xs)) (seq 0 width) :: xs)) = Err e) in E; rewrite EE in E; cbn in E; congruence). subst e'.
    apply IH in EE; [|intros r Hr; apply in_map_iff in Hr; destruct Hr as (r0 & <- & H0); apply reduce_ok; auto; apply OK, IR; now right].
    destruct EE as (-> & x & LX & (i & Hi & NX) & HX). split; [reflexivity|]. exists (- dot cs' x :: x). split; [cbn; lia|]. split; [exists (S i); split; [lia|exact NX]|].
    intros r Hr. apply IR in Hr. destruct Hr as [->|Hr].
    + cbn [fst]. rewrite dot_cons. unfold cs'. rewrite dot_scale by lia. field. exact NZ.
    + destruct (OK r) as [O1 O2]; [apply IR; now right|]. destruct r as [ds d]. cbn [fst snd] in *. destruct ds as [|c ds]; [discriminate|]. cbn [length] in O1. rewrite dot_cons.
      specialize (HX (reduce cs' b' (c :: ds, d)) (in_map _ _ _ Hr)). cbn [reduce fst snd nth tl] in HX. rewrite dot_sub, dot_scale in HX; rewrite ?vscale_len; try lia. lra.
  - split; [congruence|]. exists (1 :: repeat 0 n). split; [cbn; now rewrite repeat_length|]. split; [exists 0%nat; split; [lia|cbn; lra]|].
    intros r Hr. pose proof (pivot_none _ EP r Hr) as Z. destruct (OK r Hr) as [O1 _]. destruct (fst r) as [|c ds]; [discriminate|]. cbn in Z, O1. rewrite dot_cons, Z.
    rewrite (dot_sumf n) by (rewrite ?repeat_length; lia). rewrite sumf_0; [lra|]. intros t _. rewrite nth_repeat. lra.
Qed.

Lemma eye_square : forall n, length (eye (A:=R) n) = n /\ forall i, (i < n)%nat -> length (nth i (eye (A:=R) n) []) = n.
Proof.
  intros n. unfold eye. split; [now rewrite map_length, seq_length|]. intros i Hi. rewrite (nth_map_lt _ _ _ _ _ _ 0%nat) by (now rewrite seq_length). now rewrite map_length, seq_length.
Qed.
Lemma eye_nth : forall n i j, (i < n)%nat -> (j < n)%nat -> at2 (eye (A:=R) n) i j = delta i j.
Proof.
  intros n i j Hi Hj. unfold at2, eye. rewrite (nth_map_lt _ _ _ _ _ _ 0%nat) by (now rewrite seq_length). rewrite (nth_map_lt _ _ _ _ _ _ 0%nat) by (now rewrite seq_length). rewrite !seq_nth by assumption. reflexivity.
Qed.

(** [inv] succeeds on every square matrix with trivial kernel and returns its inverse; it can only fail with
    LinAlgError. *)
Theorem inv_correct : forall n M, square n M ->
  match inv M with
  | Ok X => square n X /\ forall i j, (i < n)%nat -> (j < n)%nat -> mat_vec n M (fun k => at2 X k j) i = delta i j
  | Err e => e = LinAlgError /\ ~ trivial_kernel n M
  end.
Proof.
  intros n M [LM SM]. unfold inv. rewrite LM. destruct (eye_square n) as [LE SE].
  assert (OK : forall r, In r (combine M (eye (A:=R) n)) -> row_ok n n r).
  { intros r Hr. apply (In_nth _ _ ([], [])) in Hr. destruct Hr as (i & Hi & <-). rewrite combine_length, LM, LE, Nat.min_id in Hi. rewrite combine_nth by lia. split; cbn; auto. }
  assert (IN : forall i, (i < n)%nat -> In (nth i M [], nth i (eye (A:=R) n) []) (combine M (eye (A:=R) n))).
  { intros i Hi. rewrite <- combine_nth by lia. apply nth_In. rewrite combine_length. lia. }
  destruct (eliminate n n (combine M (eye (A:=R) n))) as [X|e] eqn:E.
  - apply eliminate_sound in E; [|exact OK|rewrite combine_length; lia]. destruct E as (L1 & L2 & H). split; [split; [exact L1|intros i Hi; apply L2, nth_In; lia]|].
    intros i j Hi Hj. specialize (H _ (IN i Hi) j Hj). cbn [fst snd] in H. rewrite (dot_sumf n) in H; [|auto|now rewrite map_length]. change (nth j (nth i (eye (A:=R) n) []) 0) with (at2 (eye (A:=R) n) i j) in H. rewrite eye_nth in H by assumption. rewrite <- H.
    apply sumf_ext. intros k Hk. apply in_seq in Hk. unfold at2. f_equal. rewrite (nth_map_lt _ _ (fun row => nth j row 0) _ _ _ []) by lia. reflexivity.
  - apply eliminate_fails in E; [|exact OK]. destruct E as (-> & x & LX & (i & Hi & NZ) & H). split; [reflexivity|]. intros TK. apply NZ. apply (TK (fun k => nth k x 0)); [|exact Hi].
    intros i' Hi'. specialize (H _ (IN i' Hi')). cbn [fst] in H. rewrite (dot_sumf n) in H by auto. exact H.
Qed.
