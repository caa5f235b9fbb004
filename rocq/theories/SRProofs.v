(** The matrix inverted by the successor representation. *)
From Coq Require Import List ZArith Reals Bool Lia Lra Lia.
From Verif Require Import PyBase PyProofs ActionProofs RSum VIProofs2 SRModel SRSpec LinProofs.
Import ListNotations.
Local Open Scope R_scope.

Lemma nth_blocks : forall A (f : nat -> list A) m d n s a, (forall i, length (f i) = m) -> (s < n)%nat -> (a < m)%nat ->
  nth (s * m + a) (flat_map f (seq 0 n)) d = nth a (f s) d.
Proof.
  intros A f m d n s a L Hs Ha. assert (G : forall n i0 s, (s < n)%nat -> nth (s * m + a) (flat_map f (seq i0 n)) d = nth a (f (i0 + s)%nat) d).
  { clear n s Hs. induction n as [|n IH]; intros i0 s Hs; [lia|]. cbn [seq flat_map]. destruct s as [|s].
    - rewrite app_nth1 by (rewrite L; lia). now rewrite Nat.add_0_r.
    - rewrite app_nth2 by (rewrite L; lia). rewrite L. replace (S s * m + a - m)%nat with (s * m + a)%nat by lia. rewrite IH by lia. f_equal. f_equal. lia. }
  now apply (G n 0%nat s).
Qed.
Lemma len_blocks : forall A (f : nat -> list A) m n, (forall i, length (f i) = m) -> length (flat_map f (seq 0 n)) = (n * m)%nat.
Proof.
  intros A f m n L. assert (G : forall n i0, length (flat_map f (seq i0 n)) = (n * m)%nat); [|apply G].
  clear n. induction n as [|n IH]; intros i0; [reflexivity|]. cbn [seq flat_map]. rewrite app_length, IH, L. lia.
Qed.
Lemma sumf_blocks : forall m f n, sumf f (seq 0 (n * m)) = sumf (fun t => sumf (fun b => f (t * m + b)%nat) (seq 0 m)) (seq 0 n).
Proof.
  intros m f. induction n as [|n IH]; [reflexivity|]. rewrite seq_S, sumf_app. replace (S n * m)%nat with (n * m + m)%nat by lia. rewrite seq_app, sumf_app, IH. f_equal. rewrite sumf_cons, sumf_nil, Rplus_0_r. cbn [Nat.add].
  generalize (n * m)%nat. clear. intros k. rewrite <- (map_id (seq k m)) at 1. assert (G : forall i, seq (i + k) m = map (fun b => (k + b)%nat) (seq i m)).
  { induction m as [|m IH]; intros i; [reflexivity|]. cbn [seq map]. f_equal; [lia|]. exact (IH (S i)). }
  rewrite map_id. specialize (G 0%nat). cbn [Nat.add] in G. rewrite G, sumf_map. reflexivity.
Qed.

(** ** The state-action transition matrix *)
Lemma upd_block : forall (c : R) nA base n (l : list R) k, (nth k (fold_left (fun r a' => upd r (base + a')%nat c) (seq n nA) l) 0) =
  if (k <? length l)%nat && (base + n <=? k)%nat && (k <? base + n + nA)%nat then c else nth k l 0.
Proof.
  induction nA as [|nA IH]; intros base n l k; cbn [seq fold_left].
  - destruct (Nat.leb_spec (base + n) k), (Nat.ltb_spec k (base + n + 0)); try lia; rewrite ?andb_false_r; reflexivity.
  - rewrite IH, upd_length. destruct (Nat.ltb_spec k (length l)) as [Hk|Hk]; cbn [andb].
    + destruct (Nat.eq_dec k (base + n)) as [->|NE].
      * rewrite nth_upd_same by exact Hk. destruct (Nat.leb_spec (base + S n) (base + n)); [lia|]. cbn [andb]. rewrite Nat.leb_refl. destruct (Nat.ltb_spec (base + n) (base + n + S nA)); [reflexivity|lia].
      * rewrite nth_upd_other by congruence. destruct (Nat.leb_spec (base + S n) k), (Nat.ltb_spec k (base + S n + nA)), (Nat.leb_spec (base + n) k), (Nat.ltb_spec k (base + n + S nA)); cbn [andb]; try lia; reflexivity.
    + rewrite !nth_overflow by (rewrite ?upd_length; lia). reflexivity.
Qed.
Lemma upd_block_len : forall (c : R) base l0 (l : list R), length (fold_left (fun r a' => upd r (base + a')%nat c) l0 l) = length l.
Proof. induction l0 as [|x l0 IH]; intros l; [reflexivity|]. cbn [fold_left]. rewrite IH. apply upd_length. Qed.

Lemma next_of_spec : forall sas nS nA s a, shape3 nS nA nS sas -> (s < nS)%nat -> (a < nA)%nat ->
  match next_of (nth a (nth s sas []) []) with
  | Some t => (t < nS)%nat /\ leads_to sas s a t
  | None => impossible sas s a
  end.
Proof.
  intros sas nS nA s a [L SH] Hs Ha. destruct (SH s Hs) as [L2 SH2]. specialize (SH2 a Ha). unfold next_of.
  destruct (where_ (fun x => negb (neqb x n0)) (nth a (nth s sas []) [])) as [|t l] eqn:E; cbn [hd_error].
  - intros t LT. assert (I : In t (where_ (fun x : R => negb (neqb x n0)) (nth a (nth s sas []) []))).
    { apply (in_where _ _ _ _ 0). unfold leads_to, get3 in LT. split.
      - destruct (Nat.lt_ge_cases t (length (nth a (nth s sas []) []))); [assumption|]. elim LT. now apply nth_overflow.
      - cbn [neqb NumR n0]. unfold Reqb. destruct (Req_EM_T _ 0); [contradiction|reflexivity]. }
    rewrite E in I. destruct I.
  - assert (I : In t (where_ (fun x : R => negb (neqb x n0)) (nth a (nth s sas []) []))) by (rewrite E; now left). apply (in_where _ _ _ _ 0) in I. destruct I as [I1 I2]. split; [lia|]. unfold leads_to, get3.
    cbn [neqb NumR n0] in I2. unfold Reqb in I2. now destruct (Req_EM_T _ 0).
Qed.

Lemma idx_lt : forall nS nA s a, (s < nS)%nat -> (a < nA)%nat -> (s * nA + a < nS * nA)%nat.
Proof. intros. nia. Qed.
Lemma idx_inv : forall nS nA i, (i < nS * nA)%nat -> exists s a, (s < nS)%nat /\ (a < nA)%nat /\ i = (s * nA + a)%nat.
Proof.
  intros nS nA i Hi. assert (P : (0 < nA)%nat) by nia. exists (i / nA)%nat, (i mod nA)%nat. split; [apply Nat.div_lt_upper_bound; lia|]. split; [apply Nat.mod_upper_bound; lia|]. rewrite (Nat.div_mod i nA) at 1 by lia. lia.
Qed.
Lemma mean_bound : forall nA f B, (forall b, (b < nA)%nat -> Rabs (f b) <= B) -> 0 <= B -> Rabs (mean nA f) <= B.
Proof.
  intros nA f B H HB. unfold mean. destruct (Nat.eq_dec nA 0) as [->|NZ]; [ cbn [seq]; unfold Rdiv; rewrite sumf_nil, Rmult_0_l, Rabs_R0; exact HB|].
  assert (P : 0 < INR nA) by (apply lt_0_INR; lia). unfold Rdiv. rewrite Rabs_mult, (Rabs_right (/ INR nA)) by (apply Rle_ge, Rlt_le, Rinv_0_lt_compat; exact P).
  apply Rmult_le_reg_r with (INR nA); [exact P|]. rewrite Rmult_assoc, Rinv_l, Rmult_1_r by lra.
  assert (G : forall l, (forall b, In b l -> Rabs (f b) <= B) -> Rabs (sumf f l) <= B * INR (length l)).
  { induction l as [|b l IH]; intros HH; [rewrite sumf_nil, Rabs_R0; cbn; lra|]. rewrite sumf_cons. cbn [length]. rewrite S_INR. eapply Rle_trans; [apply Rabs_triang|].
    specialize (IH (fun c Hc => HH c (or_intror Hc))). specialize (HH b (or_introl eq_refl)). lra. }
  rewrite <- (seq_length nA 0) at 2. apply G. intros b Hb. apply in_seq in Hb. apply H. lia.
Qed.
Lemma max_exists : forall (f : nat -> R) n, exists B, 0 <= B /\ (forall i, (i < n)%nat -> Rabs (f i) <= B) /\ (B = 0 \/ exists i, (i < n)%nat /\ Rabs (f i) = B).
Proof.
  intros f. induction n as [|n (B & P & H & A)]; [exists 0; split; [lra|]; split; [lia|now left]|].
  destruct (Rle_lt_dec (Rabs (f n)) B) as [Hle|Hlt].
  - exists B. split; [exact P|]. split; [intros i Hi; destruct (Nat.eq_dec i n) as [->|]; [exact Hle|apply H; lia]|]. destruct A as [A|(i & Hi & A)]; [now left|right; exists i; split; [lia|exact A]].
  - exists (Rabs (f n)). split; [lra|]. split; [intros i Hi; destruct (Nat.eq_dec i n) as [->|]; [lra|specialize (H i ltac:(lia)); lra]|]. right. exists n. split; [lia|reflexivity].
Qed.

Section Matrix.
Variables (sas : list (list (list R))) (nS nA : nat) (g : R).
Hypothesis SH : shape3 nS nA nS sas.
Hypothesis pS : (0 < nS)%nat.
Let N := (nS * nA)%nat.
Definition pair_idx (s a : nat) : nat := (s * nA + a)%nat.


Lemma sa_row_len : forall row : list R, length (sa_row nS nA row) = N.
Proof. intros row. unfold sa_row. destruct (next_of row) as [t|]; [rewrite upd_block_len|]; apply repeat_length. Qed.
Lemma first_len : length (nth 0 sas []) = nA.
Proof. apply SH. exact pS. Qed.
Lemma sa_matrix_rows : length (sa_matrix sas) = N /\ forall s a, (s < nS)%nat -> (a < nA)%nat -> nth (s * nA + a) (sa_matrix sas) [] = sa_row nS nA (nth a (nth s sas []) []).
Proof.
  unfold sa_matrix. rewrite first_len. destruct SH as [L _]. rewrite L.
  assert (LB : forall s, length (map (fun a => sa_row nS nA (nth a (nth s sas []) [])) (seq 0 nA)) = nA) by (intros; now rewrite map_length, seq_length).
  split; [now rewrite (len_blocks _ _ nA)|]. intros s a Hs Ha. rewrite (nth_blocks _ _ nA) by assumption. rewrite (nth_map_lt _ _ _ _ _ _ 0%nat) by (now rewrite seq_length). now rewrite seq_nth.
Qed.

(** Expected value of [x] one step later. *)
Definition ahead (x : nat -> R) (s a : nat) : R :=
  match next_of (nth a (nth s sas []) []) with Some t => mean nA (fun b => x (t * nA + b)%nat) | None => 0 end.

Lemma sa_row_sum : forall x s a, (s < nS)%nat -> (a < nA)%nat -> sumf (fun k => nth k (sa_row nS nA (nth a (nth s sas []) [])) 0 * x k) (seq 0 N) = ahead x s a.
Proof.
  intros x s a Hs Ha. pose proof (next_of_spec sas nS nA s a SH Hs Ha) as NX. unfold ahead, sa_row. destruct (next_of (nth a (nth s sas []) [])) as [t|].
  - destruct NX as [Ht _]. set (c := ndiv n1 (nofZ (Z.of_nat nA))). assert (Ec : c = 1 / INR nA) by (unfold c; cbn; now rewrite <- INR_IZR_INZ).
    unfold N. rewrite sumf_blocks. rewrite (sumf_single _ _ t); [|apply seq_NoDup|apply in_seq; lia|].
    + unfold mean. transitivity (sumf (fun b => c * x (t * nA + b)%nat) (seq 0 nA)); [|rewrite sumf_scal, Ec; lra].
      apply sumf_ext. intros b Hb. apply in_seq in Hb. rewrite upd_block. unfold zeros1. rewrite repeat_length.
      assert (X : (t * nA + b < nS * nA)%nat) by (apply idx_lt; lia). destruct (Nat.ltb_spec (t * nA + b) (nS * nA)); [|lia].
      destruct (Nat.leb_spec (t * nA + 0) (t * nA + b)); [|lia]. destruct (Nat.ltb_spec (t * nA + b) (t * nA + 0 + nA)); [reflexivity|lia].
    + intros t' Ht' NE. apply in_seq in Ht'. apply sumf_0. intros b Hb. apply in_seq in Hb. rewrite upd_block. unfold zeros1. rewrite nth_repeat.
      destruct (Nat.leb_spec (t * nA + 0) (t' * nA + b)), (Nat.ltb_spec (t' * nA + b) (t * nA + 0 + nA)); rewrite ?andb_false_r; cbn [andb n0 NumR]; try lra.
      exfalso. apply NE. nia.
  - apply sumf_0. intros k _. unfold zeros1. rewrite nth_repeat. cbn. lra.
Qed.

Let M := mat_sub (eye (A:=R) (length (sa_matrix sas))) (map (vscale g) (sa_matrix sas)).
Lemma M_rows : square N M /\ forall s a, (s < nS)%nat -> (a < nA)%nat -> nth (s * nA + a) M [] = vsub (nth (s * nA + a) (eye (A:=R) N) []) (vscale g (sa_row nS nA (nth a (nth s sas []) []))).
Proof.
  destruct sa_matrix_rows as [LT RT]. destruct (eye_square N) as [LE SE]. unfold M. rewrite LT.
  assert (LM : length (mat_sub (eye (A:=R) N) (map (vscale g) (sa_matrix sas))) = N) by (unfold mat_sub; rewrite map_length, combine_length, map_length; lia).
  assert (R1 : forall s a, (s < nS)%nat -> (a < nA)%nat -> nth (s * nA + a) (mat_sub (eye (A:=R) N) (map (vscale g) (sa_matrix sas))) [] = vsub (nth (s * nA + a) (eye (A:=R) N) []) (vscale g (sa_row nS nA (nth a (nth s sas []) [])))).
  { intros s a Hs Ha. pose proof (idx_lt nS nA s a Hs Ha) as Hi. fold N in Hi. unfold mat_sub. rewrite (nth_map_lt _ _ _ _ _ _ ([], [])) by (rewrite combine_length, map_length; lia).
    rewrite combine_nth by (rewrite map_length; lia). f_equal. rewrite (nth_map_lt _ _ _ _ _ _ []) by lia. now rewrite RT. }
  split; [|exact R1]. split; [exact LM|]. intros i Hi. destruct (idx_inv nS nA i Hi) as (s & a & Hs & Ha & ->). rewrite R1 by assumption. rewrite vsub_len; rewrite ?vscale_len, ?sa_row_len; auto.
Qed.
Lemma M_vec : forall x s a, (s < nS)%nat -> (a < nA)%nat -> mat_vec N M x (s * nA + a) = x (s * nA + a)%nat - g * ahead x s a.
Proof.
  intros x s a Hs Ha. destruct M_rows as [_ R1]. pose proof (idx_lt nS nA s a Hs Ha) as Hi. fold N in Hi. destruct (eye_square N) as [LE SE].
  rewrite <- (sa_row_sum x s a Hs Ha), <- sumf_scal. unfold mat_vec.
  transitivity (sumf (fun k => delta (s * nA + a) k * x k) (seq 0 N) + sumf (fun k => -1 * (g * (nth k (sa_row nS nA (nth a (nth s sas []) [])) 0 * x k))) (seq 0 N)).
  - rewrite <- sumf_add. apply sumf_ext. intros k Hk. apply in_seq in Hk. unfold at2. rewrite R1 by assumption. rewrite vsub_nth by (rewrite vscale_len, sa_row_len; auto). rewrite vscale_nth.
    change (nth k (nth (s * nA + a) (eye N) []) 0) with (at2 (eye (A:=R) N) (s * nA + a) k). rewrite eye_nth by lia. cbn [nmul NumR]. lra.
  - rewrite sumf_scal. enough (E0 : sumf (fun k => delta (s * nA + a) k * x k) (seq 0 N) = x (s * nA + a)%nat) by (rewrite E0; lra). rewrite (sumf_single _ _ (s * nA + a)%nat); [unfold delta; rewrite Nat.eqb_refl; lra|apply seq_NoDup|apply in_seq; lia|].
    intros k _ NE. unfold delta. destruct (Nat.eqb_spec (s * nA + a) k); [congruence|lra].
Qed.

Hypothesis g_rng : 0 <= g < 1.
Lemma ahead_bound : forall x B s a, (s < nS)%nat -> (a < nA)%nat -> (forall i, (i < N)%nat -> Rabs (x i) <= B) -> 0 <= B -> Rabs (ahead x s a) <= B.
Proof.
  intros x B s a Hs Ha H HB. pose proof (next_of_spec sas nS nA s a SH Hs Ha) as NX. unfold ahead. destruct (next_of _) as [t|]; [|rewrite Rabs_R0; exact HB].
  apply mean_bound; [|exact HB]. intros b Hb. apply H. apply idx_lt; tauto.
Qed.
Lemma M_kernel : trivial_kernel N M.
Proof.
  intros x H i Hi. destruct (max_exists x N) as (B & P & HB & A). assert (B = 0).
  { destruct A as [A|(j & Hj & A)]; [exact A|]. destruct (idx_inv nS nA j Hj) as (s & a & Hs & Ha & ->). specialize (H _ Hj). rewrite M_vec in H by assumption.
    pose proof (ahead_bound x B s a Hs Ha HB P) as AB. assert (E : x (s * nA + a)%nat = g * ahead x s a) by lra. rewrite E, Rabs_mult, (Rabs_right g) in A by lra. nra. }
  specialize (HB i Hi). pose proof (Rabs_pos (x i)). destruct (Req_dec (x i) 0) as [E|E]; [exact E|]. apply Rabs_pos_lt in E. lra.
Qed.

(** The inverse exists, and multiplying it with [v] gives the discounted total of [v]. *)
Lemma sr_exists : exists sr, get_sa_sr sas g = Ok sr /\ square N sr /\
  forall v s a, (s < nS)%nat -> (a < nA)%nat -> mat_vec N sr v (s * nA + a) = v (s * nA + a)%nat + g * ahead (mat_vec N sr v) s a.
Proof.
  destruct M_rows as [SQ _]. pose proof (inv_correct N M SQ) as IC. unfold get_sa_sr. fold M. destruct (inv M) as [X|e]; [|destruct IC as [_ C]; elim C; apply M_kernel].
  destruct IC as [SX IX]. exists X. split; [reflexivity|]. split; [exact SX|]. intros v s a Hs Ha. pose proof (idx_lt nS nA s a Hs Ha) as Hi. fold N in Hi.
  pose proof (M_vec (mat_vec N X v) s a Hs Ha) as E. enough (mat_vec N M (mat_vec N X v) (s * nA + a) = v (s * nA + a)%nat) by lra.
  unfold mat_vec at 1. transitivity (sumf (fun j => v j * mat_vec N M (fun k => at2 X k j) (s * nA + a)) (seq 0 N)).
  - unfold mat_vec. transitivity (sumf (fun k => sumf (fun j => at2 M (s * nA + a) k * (at2 X k j * v j)) (seq 0 N)) (seq 0 N)).
    + apply sumf_ext. intros k _. now rewrite sumf_scal.
    + rewrite sumf_swap. apply sumf_ext. intros j _. rewrite <- sumf_scal. apply sumf_ext. intros k _. lra.
  - rewrite (sumf_single _ _ (s * nA + a)%nat); [|apply seq_NoDup|apply in_seq; lia|].
    + rewrite IX by assumption. unfold delta. rewrite Nat.eqb_refl. lra.
    + intros j Hj NE. apply in_seq in Hj. rewrite IX by lia. unfold delta. destruct (Nat.eqb_spec (s * nA + a) j); [congruence|lra].
Qed.
End Matrix.
