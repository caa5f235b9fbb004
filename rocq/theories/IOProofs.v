(** Lemmas about writing and reading environments. *)
From Coq Require Import String List ZArith Reals Bool Lia Lra.
From Verif Require Import PyBase PyProofs GridModel GridSpec MDPModel MDPSpec MDPProofs MDPProofs2 MDPProofs3 MDPProofs4 EnvModel EnvSpec EnvProofs EnvProofs2 EnvProofs3 EnvProofs4 EnvProps IOModel.
Import ListNotations.
Local Open Scope nat_scope.

(** 1 where something is present, 0 elsewhere. *)
Definition presence (x : R) : R := if Req_EM_T x 0 then 0%R else 1%R.
Lemma presence_binary : forall v, binary v -> map presence v = v.
Proof. induction v as [|x v IH]; intros B; [reflexivity|]. inversion B as [|? ? [->| ->] B']; subst; cbn [map]; rewrite IH by assumption; f_equal; unfold presence; destruct (Req_EM_T _ _); lra. Qed.

(** ** Marking states *)
Lemma mark_from : forall (l : list nat) (v : list R), (forall i, In i l -> i < length v) ->
  exists v', foldM (fun v s => let* i := py_index (length v) s in Ok (upd v i 1%R)) (map Z.of_nat l) v = Ok v' /\ length v' = length v /\
    forall i, nth i v' 0%R = if in_dec Nat.eq_dec i l then 1%R else nth i v 0%R.
Proof.
  induction l as [|k l IH]; intros v H; cbn [map foldM].
  - exists v. split; [reflexivity|]. split; [reflexivity|]. intros i. destruct (in_dec _ _ _) as [[]|_]; reflexivity.
  - rewrite py_index_nat by (apply H; now left). cbn [bind]. destruct (IH (upd v k 1%R)) as (v' & E & L & N).
    { intros i Hi. rewrite upd_length. apply H. now right. }
    rewrite upd_length in L. exists v'. split; [exact E|]. split; [exact L|]. intros i. rewrite N. destruct (in_dec Nat.eq_dec i l) as [I|NI]; destruct (in_dec Nat.eq_dec i (k :: l)) as [I'|NI']; try reflexivity.
    + elim NI'. now right.
    + destruct I' as [<-|I']; [|contradiction]. rewrite nth_upd_same; [reflexivity|]. apply H. now left.
    + rewrite nth_upd_other; [reflexivity|]. intros X. apply NI'. now left.
Qed.

Lemma mark_nonzero : forall (v : list R) n, length v = n -> mark (zeros1 n) (Indices (nonzero v)) = Ok (map presence v).
Proof.
  intros v n L. unfold mark, nonzero. cbn [flat]. destruct (mark_from (where_ (fun x => negb (neqb x n0)) v) (zeros1 n)) as (v' & E & L' & N).
  { intros i Hi. apply (in_where _ _ _ _ 0%R) in Hi. unfold zeros1. rewrite repeat_length. lia. }
  change (@n1 R NumR) with 1%R. unfold zeros1 in *. rewrite repeat_length in L'.
  etransitivity; [exact E|]. f_equal. apply (list_eq_nth _ _ _ 0%R); [rewrite map_length; lia|]. intros i Hi. rewrite N, (nth_map_lt _ _ _ _ _ _ 0%R) by lia. unfold presence.
  destruct (in_dec _ _ _) as [I|NI]; rewrite (in_where _ _ _ _ 0%R) in *; cbn [neqb n0 NumR] in *.
  - destruct I as [_ I]. apply negb_true_iff, Reqb_false in I. destruct (Req_EM_T _ _); [contradiction|reflexivity].
  - rewrite nth_repeat_lt by lia. destruct (Req_EM_T (nth i v 0%R) 0%R) as [|NE]; [reflexivity|]. elim NI. split; [lia|]. now apply negb_true_iff, Reqb_false.
Qed.

(** ** Dictionaries *)
Lemma dict_set_fresh : forall B (l : list (string * B)) k v, ~ In k (map fst l) -> dict_set l k v = l ++ [(k, v)].
Proof.
  induction l as [|[k' v'] l IH]; intros k v H; [reflexivity|]. cbn [dict_set app]. destruct (String.eqb_spec k' k) as [->|NE]; [elim H; now left|].
  rewrite IH; [reflexivity|]. intros X. apply H. now right.
Qed.
Lemma dict_get_in : forall B (l : list (string * B)) k v, NoDup (map fst l) -> In (k, v) l -> dict_get l k = Ok v.
Proof.
  unfold dict_get. induction l as [|[k' v'] l IH]; intros k v ND H; [destruct H|]. cbn [find fst]. inversion ND as [|? ? NI ND']. subst.
  destruct (String.eqb_spec k' k) as [->|NE].
  - destruct H as [E|H]; [congruence|]. elim NI. apply in_map_iff. exists (k, v). auto.
  - destruct H as [E|H]; [congruence|]. now apply IH.
Qed.
Lemma dict_set_keys : forall B (l : list (string * B)) k v, NoDup (map fst l) -> NoDup (map fst (dict_set l k v)) /\ (forall x, In x (map fst (dict_set l k v)) <-> x = k \/ In x (map fst l)) /\ length (dict_set l k v) <= S (length l).
Proof.
  induction l as [|[k' v'] l IH]; intros k v ND; cbn [dict_set map fst].
  - split; [repeat constructor; intros []|]. split; [intros x; cbn; intuition|cbn; lia].
  - inversion ND as [|? ? NI ND']. subst. destruct (String.eqb_spec k' k) as [->|NE]; cbn [map fst].
    + split; [now constructor|]. split; [intros x; cbn; intuition|cbn; lia].
    + destruct (IH k v ND') as (A1 & A2 & A3). split; [|split].
      * constructor; [|exact A1]. rewrite A2. intros [X|X]; congruence.
      * intros x. cbn [In]. rewrite A2. intuition.
      * cbn [length] in *. lia.
Qed.

(** ** Features *)
Definition entry {B} (vals : nat -> B) (p : nat * string) : string * B := (snd p, vals (fst p)).
Lemma write_features : forall B (vals : nat -> B) (f : nat -> res B) ns k acc, (forall i, k <= i < k + length ns -> f i = Ok (vals i)) -> NoDup (map fst acc ++ ns) ->
  foldM (fun d '(i, name) => let* s := f i in Ok (dict_set d name s)) (combine (seq k (length ns)) ns) acc = Ok (acc ++ map (entry vals) (combine (seq k (length ns)) ns)).
Proof.
  induction ns as [|n ns IH]; intros k acc Hf ND; cbn [length seq combine foldM map]; [now rewrite app_nil_r|].
  rewrite Hf by (cbn; lia). cbn [bind]. rewrite dict_set_fresh by (apply NoDup_remove_2 in ND; intros X; apply ND, in_or_app; now left).
  rewrite IH; [|intros; apply Hf; cbn; lia|rewrite map_app; cbn [map fst]; rewrite <- app_assoc; exact ND]. now rewrite <- app_assoc.
Qed.
Lemma entries_keys : forall B (vals : nat -> B) ns k, map fst (map (entry vals) (combine (seq k (length ns)) ns)) = ns.
Proof. induction ns as [|n ns IH]; intros k; [reflexivity|]. cbn [length seq combine map]. rewrite IH. reflexivity. Qed.

Lemma upd_app : forall A (pre : list A) x rest y, upd (pre ++ x :: rest) (length pre) y = pre ++ y :: rest.
Proof. induction pre as [|a pre IH]; intros; [reflexivity|]. cbn [app length upd]. now rewrite IH. Qed.

Lemma read_rows : forall (get : string -> res index_list) (row : nat -> list R) N ns k pre, length pre = k ->
  (forall i name, In (i, name) (combine (seq k (length ns)) ns) -> exists st, get name = Ok st /\ mark (zeros1 N) st = Ok (row i)) ->
  foldM (fun t '(i, name) => let* states := get name in let* r := py_index (length t) (Z.of_nat i) in let* rw := mark (nth r t []) states in Ok (upd t r rw))
    (combine (seq k (length ns)) ns) (pre ++ zeros2 (length ns) N) = Ok (pre ++ map row (seq k (length ns))).
Proof.
  intros get row N. induction ns as [|n ns IH]; intros k pre Lp H; cbn [length seq combine foldM map]; [reflexivity|]. subst k.
  destruct (H (length pre) n) as (st & G & M); [now left|]. rewrite G. cbn [bind]. rewrite py_index_nat by (rewrite app_length; cbn; lia). cbn [bind].
  change (zeros2 (S (length ns)) N) with (zeros1 N :: zeros2 (A:=R) (length ns) N). rewrite app_nth2 by lia. rewrite Nat.sub_diag. cbn [nth]. rewrite M. cbn [bind].
  rewrite upd_app. replace (pre ++ row (length pre) :: zeros2 (length ns) N) with ((pre ++ [row (length pre)]) ++ zeros2 (length ns) N) by (rewrite <- app_assoc; reflexivity).
  rewrite IH; [now rewrite <- app_assoc|rewrite app_length; cbn; lia|]. intros i name Hi. apply H. now right.
Qed.

(** ** Equal transition tables *)
Lemma shape3_ext : forall n a k (x y : list (list (list R))), shape3 n a k x -> shape3 n a k y -> (forall i j l, i < n -> j < a -> l < k -> get3 0%R x i j l = get3 0%R y i j l) -> x = y.
Proof.
  intros n a k x y [X1 X2] [Y1 Y2] H. apply (list_eq_nth _ _ _ []); [lia|]. intros i Hi. rewrite X1 in Hi. destruct (X2 i Hi) as [X3 X4], (Y2 i Hi) as [Y3 Y4].
  apply (list_eq_nth _ _ _ []); [lia|]. intros j Hj. rewrite X3 in Hj. specialize (X4 j Hj). specialize (Y4 j Hj). apply (list_eq_nth _ _ _ 0%R); [lia|]. intros l Hl. rewrite X4 in Hl. now apply H.
Qed.
Lemma same_transitions : forall k shape st m m', grid_inv k shape st m -> grid_inv k shape st m' -> m_walls m = m_walls m' -> m_sas m = m_sas m'.
Proof.
  intros k shape st m m' G G' W. rewrite (gi_sas _ _ _ _ G), (gi_sas _ _ _ _ G'), W. do 2 f_equal.
  eapply shape3_ext; [apply (gi_osh _ _ _ _ G)|apply (gi_osh _ _ _ _ G')|]. intros i j l Hi Hj Hl. rewrite (gi_orig _ _ _ _ G), (gi_orig _ _ _ _ G') by assumption. reflexivity.
Qed.
