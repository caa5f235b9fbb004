From Coq Require Import List ZArith QArith Reals Bool Lia Lra.
From Verif Require Import PyBase PyProofs GridModel GridSpec GridProofs GridProofs2 MDPModel MDPSpec.
Import ListNotations.
Local Close Scope Q_scope.
Local Open Scope nat_scope.

(** * Grid transition arrays *)
Section Gen.
Context {A : Type} {NA : Num A}.

Definition cell_eqb (c t : Z * Z) : bool := (fst c =? fst t)%Z && (snd c =? snd t)%Z.
Lemma cell_eqb_eq : forall c t, cell_eqb c t = true <-> c = t.
Proof.
  intros [x y] [u v]. unfold cell_eqb. cbn [fst snd]. rewrite andb_true_iff, !Z.eqb_eq.
  split; [intros [-> ->]; reflexivity|intros H; inversion H; auto].
Qed.

Definition edgeb (k : gkind) (shape : nat * nat) (st : bool) (s a t : nat) : bool :=
  ((a <? dirs_of k) && cell_eqb (move_of k a (cell_of shape s)) (cell_of shape t))
  || (st && (a =? dirs_of k) && (t =? s)).

Lemma edgeb_spec : forall k shape st s a t, edgeb k shape st s a t = true <-> grid_edge k shape st s a t.
Proof.
  intros. unfold edgeb, grid_edge. rewrite orb_true_iff, !andb_true_iff, cell_eqb_eq, Nat.ltb_lt, !Nat.eqb_eq. tauto.
Qed.

Definition kadj (k : gkind) : Z * Z -> Z * Z -> bool := match k with Square => sq_adj | Hex => hex_adj end.

Lemma grid_adjacency_total : forall k coords,
  grid_adjacency k coords = Ok (map (fun i => map (fun j => if kadj k i j then 1%Z else 0%Z) coords) coords).
Proof. intros [|] coords; simpl; [now rewrite square_adjacency_total|apply hex_adjacency_total]. Qed.

Lemma kadj_move : forall k c t, kadj k c t = true <-> exists d, d < dirs_of k /\ move_of k d c = t.
Proof. intros [|]; [apply sq_adj_move|apply hex_adj_move]. Qed.

Lemma get_action_spec : forall k i j T coords a, i < length coords -> j < length coords ->
  get2 0%Z T i j = (if kadj k (nth i coords (0, 0)%Z) (nth j coords (0, 0)%Z) then 1 else 0)%Z ->
  (get_action k i j T coords = Ok a <->
   a < dirs_of k /\ move_of k a (nth i coords (0, 0)%Z) = nth j coords (0, 0)%Z) /\
  (kadj k (nth i coords (0, 0)%Z) (nth j coords (0, 0)%Z) = false -> get_action k i j T coords = Err ValueError).
Proof. intros [|]; [apply square_action_spec|apply hex_action_spec]. Qed.

Lemma coords_length : forall shape, length (snd (grid_coords (zero_grid (A:=A) shape))) = fst shape * snd shape.
Proof.
  intros [w h]. unfold grid_coords, zero_grid. cbn [fst snd]. rewrite rows_coords_repeat. apply flat_grid_length.
Qed.

Lemma coords_nth : forall shape s d, s < fst shape * snd shape ->
  nth s (snd (grid_coords (zero_grid (A:=A) shape))) d = cell_of shape s.
Proof.
  intros [w h] s d L. unfold grid_coords, zero_grid. cbn [fst snd] in *. rewrite rows_coords_repeat.
  rewrite flat_grid_nth by assumption. reflexivity.
Qed.

Lemma move_inj : forall k a b c, a < dirs_of k -> b < dirs_of k -> move_of k a c = move_of k b c -> a = b.
Proof. intros [|]; [apply square_move_inj|apply hex_move_inj]. Qed.

Lemma dirs_n_dirs : forall k, n_dirs k = dirs_of k.
Proof. intros [|]; reflexivity. Qed.

Lemma move_ne : forall k a c, move_of k a c <> c.
Proof.
  intros k a c E. destruct k; simpl in E.
  - pose proof (square_move_dist1 a c). rewrite E in H. unfold sqd in H. lia.
  - pose proof (hex_move_dist1 a c). rewrite E, hexd_refl in H. lia.
Qed.

(** value of the array after the loops *)
Lemma get_sas_spec : forall k shape st,
  exists sas, get_sas (A:=A) k shape st = Ok sas /\
    shape3 (fst shape * snd shape) (actions_of k st) (fst shape * snd shape) sas /\
    forall s a t, s < fst shape * snd shape -> a < actions_of k st -> t < fst shape * snd shape ->
      get3 n0 sas s a t = if edgeb k shape st s a t then n1 else n0.
Proof.
  intros k shape st. unfold get_sas. rewrite grid_adjacency_total. cbn [bind]. rewrite dirs_n_dirs.
  fold (actions_of k st). set (na := actions_of k st). set (n := fst shape * snd shape).
  set (coords := snd (grid_coords (zero_grid shape))).
  set (adj := map (fun i => map (fun j => if kadj k i j then 1%Z else 0%Z) coords) coords).
  assert (LC : length coords = n) by apply coords_length.
  assert (CN : forall s, s < n -> nth s coords (0, 0)%Z = cell_of shape s) by (intros; now apply coords_nth).
  assert (NA' : dirs_of k <= na) by (unfold na, actions_of; destruct st; lia).
  assert (NAp : 0 < na) by (destruct k; simpl in NA'; lia).
  assert (ADJ : forall i j, i < n -> j < n -> get2 0%Z adj i j =
     if kadj k (cell_of shape i) (cell_of shape j) then 1%Z else 0%Z).
  { intros. unfold adj. rewrite (adj_entry (fun i j => if kadj k i j then 1%Z else 0%Z)) by (rewrite LC; assumption).
    rewrite !CN by assumption. reflexivity. }
  pose (P := fun (i : nat) (sas : list (list (list A))) => shape3 n na n sas /\
    forall s a t, s < n -> a < na -> t < n ->
      get3 n0 sas s a t = if (s <? i) && edgeb k shape st s a t then n1 else n0).
  assert (R : exists sas, foldM (sas_row k st na n adj coords) (seq 0 n) (zeros3 n na n) = Ok sas /\ P n sas).
  { apply foldM_seq_inv.
    - split; [apply shape3_repeat|]. intros. unfold zeros3. rewrite get3_repeat. reflexivity.
    - intros i sas Hi [SH HS]. unfold sas_row.
      pose (P2 := fun (j : nat) (sas : list (list (list A))) => shape3 n na n sas /\
        forall s a t, s < n -> a < na -> t < n ->
        get3 n0 sas s a t = if ((s <? i) && edgeb k shape st s a t)
           || ((s =? i) && (t <? j) && (a <? dirs_of k) && cell_eqb (move_of k a (cell_of shape s)) (cell_of shape t)) then n1 else n0).
      assert (R2 : exists sas', foldM (sas_pair k adj coords i) (seq 0 n) sas = Ok sas' /\ P2 n sas').
      { apply foldM_seq_inv.
        - split; [assumption|]. intros. rewrite HS by assumption. cbn [Nat.ltb Nat.leb].
          rewrite !andb_false_r. cbn [andb]. rewrite orb_false_r. reflexivity.
        - intros j s0 Hj [SH0 HS0]. unfold sas_pair. rewrite ADJ by assumption.
          destruct (kadj k (cell_of shape i) (cell_of shape j)) eqn:KA; cbn [Z.eqb].
          + change ((if Pos.eqb 1 1 then true else false)) with true.
            assert (EX : exists a, a < dirs_of k /\ move_of k a (cell_of shape i) = cell_of shape j)
              by (now apply kadj_move).
            destruct EX as (a0 & La0 & Ma0).
            destruct (get_action_spec k i j adj coords a0) as [GA _]; [rewrite LC; assumption..| |].
            { rewrite ADJ by assumption. rewrite !CN by assumption. reflexivity. }
            rewrite !CN in GA by assumption.
            cbn [Pos.eqb]. rewrite (proj2 GA (conj La0 Ma0)). cbn [bind]. eexists. split; [reflexivity|].
            split; [now apply shape3_set3|]. intros s a t Hs Ha Ht.
            rewrite (get3_set3 A n0 n1 n na n) by (auto; lia). rewrite HS0 by assumption.
            destruct (Nat.eqb_spec s i) as [->|]; cbn [andb]; [|rewrite ?orb_false_r; reflexivity].
            assert (F : (i <? i) = false) by apply Nat.ltb_irrefl. rewrite F. cbn [andb orb].
            destruct (Nat.eqb_spec t j) as [->|Nt].
            * destruct (Nat.ltb_spec j (S j)); [|lia]. destruct (Nat.ltb_spec j j); [lia|]. cbn [andb].
              destruct (Nat.eqb_spec a a0) as [->|Na].
              -- cbn [andb]. rewrite (proj2 (cell_eqb_eq _ _) Ma0).
                 destruct (Nat.ltb_spec a0 (dirs_of k)); [reflexivity|lia].
              -- cbn [andb]. destruct (Nat.ltb_spec a (dirs_of k)); [|reflexivity]. cbn [andb].
                 destruct (cell_eqb _ _) eqn:CE; [|reflexivity]. apply cell_eqb_eq in CE. exfalso. apply Na.
                 eapply move_inj; [eassumption|exact La0|]. now rewrite Ma0.
            * rewrite andb_false_r. replace (t <? S j) with (t <? j); [reflexivity|].
              destruct (Nat.ltb_spec t j), (Nat.ltb_spec t (S j)); reflexivity || lia.
          + eexists. split; [reflexivity|]. split; [assumption|]. intros s a t Hs Ha Ht. rewrite HS0 by assumption.
            destruct (Nat.eqb_spec s i) as [->|]; cbn [andb]; [|reflexivity].
            destruct (Nat.eqb_spec t j) as [->|Nt].
            * destruct (Nat.ltb_spec j j); [lia|]. cbn [andb].
              destruct ((j <? S j) && (a <? dirs_of k) && cell_eqb (move_of k a (cell_of shape i)) (cell_of shape j)) eqn:X; [|reflexivity].
              apply andb_true_iff in X. destruct X as [X1 X2]. apply andb_true_iff in X1. destruct X1 as [_ X1].
              apply Nat.ltb_lt in X1. apply cell_eqb_eq in X2.
              assert (kadj k (cell_of shape i) (cell_of shape j) = true) by (apply kadj_move; eauto). congruence.
            * replace (t <? S j) with (t <? j); [reflexivity|].
              destruct (Nat.ltb_spec t j), (Nat.ltb_spec t (S j)); reflexivity || lia. }
      destruct R2 as (sas' & E2 & SH' & HS'). rewrite E2. cbn [bind].
      assert (SI : forall s, (s <? S i) = (s <? i) || (s =? i)).
      { intros. destruct (Nat.ltb_spec s (S i)), (Nat.ltb_spec s i), (Nat.eqb_spec s i); reflexivity || lia. }
      destruct st eqn:ST.
      + eexists. split; [reflexivity|]. split; [now apply shape3_set3|]. intros s a t Hs Ha Ht.
        rewrite (get3_set3 A n0 n1 n na n) by (auto; lia). rewrite HS' by assumption. rewrite SI.
        assert (Ht' : (t <? n) = true) by (now apply Nat.ltb_lt). rewrite Ht'.
        destruct (Nat.eqb_spec s i) as [->|]; cbn [andb].
        2:{ cbn [andb orb]. rewrite ?orb_false_r. reflexivity. }
        rewrite Nat.ltb_irrefl. cbn [andb orb].
        unfold edgeb. cbn [andb].
        assert (NAE : na - 1 = dirs_of k) by (unfold na, actions_of; lia). rewrite NAE.
        destruct (Nat.eqb_spec a (dirs_of k)) as [->|].
        * rewrite Nat.ltb_irrefl. cbn [andb orb]. reflexivity.
        * cbn [andb orb]. rewrite orb_false_r. reflexivity.
      + eexists. split; [reflexivity|]. split; [assumption|]. intros s a t Hs Ha Ht.
        rewrite HS' by assumption. rewrite SI.
        assert (Ht' : (t <? n) = true) by (now apply Nat.ltb_lt). rewrite Ht'.
        destruct (Nat.eqb_spec s i) as [->|]; cbn [andb].
        * rewrite Nat.ltb_irrefl. cbn [andb orb]. unfold edgeb. cbn [andb]. rewrite orb_false_r. reflexivity.
        * rewrite !orb_false_r. reflexivity. }
  destruct R as (sas & E & SH & HS). exists sas. split; [exact E|]. split; [exact SH|].
  intros s a t Hs Ha Ht. rewrite HS by assumption. apply Nat.ltb_lt in Hs. now rewrite Hs.
Qed.

(** * Masking *)
Lemma mask_spec : forall walls sas n na s a t, shape3 n na n sas -> s < n -> a < na -> t < n ->
  get3 n0 (mask_out walls (mask_in walls sas)) s a t =
  if walled walls s || walled walls t then n0 else get3 n0 sas s a t.
Proof.
  intros walls sas n na s a t [L H] Hs Ha Ht. unfold get3, mask_out.
  destruct (H s Hs) as [L2 H2]. pose proof (H2 a Ha) as L3.
  assert (LM : length (mask_in walls sas) = n) by (unfold mask_in; rewrite map_length; exact L).
  rewrite (map_combine_seq_nth _ _ _ _ _ _ []) by lia.
  assert (MI : nth s (mask_in walls sas) [] = map (fun row => map (fun '(j, x) => if walled walls j then n0 else x)
                           (combine (seq 0 (length row)) row)) (nth s sas [])).
  { unfold mask_in. now rewrite (nth_map_lt _ _ _ _ _ _ []) by lia. }
  assert (MR : nth a (nth s (mask_in walls sas) []) [] = map (fun '(j, x) => if walled walls j then n0 else x)
      (combine (seq 0 (length (nth a (nth s sas []) []))) (nth a (nth s sas []) []))).
  { rewrite MI. now rewrite (nth_map_lt _ _ _ _ _ _ []) by lia. }
  destruct (walled walls s) eqn:W; cbn [orb].
  - rewrite (nth_map_lt _ _ _ _ _ _ []) by (rewrite MI, map_length; lia).
    rewrite MR. rewrite (nth_map_lt _ _ _ _ _ _ n0); [reflexivity|].
    rewrite map_length, combine_length, seq_length. lia.
  - rewrite MR. rewrite (map_combine_seq_nth _ _ _ _ _ _ n0) by lia. reflexivity.
Qed.

Lemma mask_shape : forall walls sas n na, shape3 n na n sas -> shape3 n na n (mask_out walls (mask_in walls sas)).
Proof.
  intros walls sas n na [L H].
  assert (LM : length (mask_in walls sas) = n) by (unfold mask_in; rewrite map_length; exact L).
  split; [unfold mask_out; rewrite map_length, combine_length, seq_length; lia|].
  intros s Hs. unfold mask_out. rewrite (map_combine_seq_nth _ _ _ _ _ _ []) by lia.
  destruct (H s Hs) as [L2 H2].
  assert (MI : nth s (mask_in walls sas) [] = map (fun row => map (fun '(j, x) => if walled walls j then n0 else x)
                           (combine (seq 0 (length row)) row)) (nth s sas [])).
  { unfold mask_in. now rewrite (nth_map_lt _ _ _ _ _ _ []) by lia. }
  assert (S1 : shape2 na n (nth s (mask_in walls sas) [])).
  { rewrite MI. split; [rewrite map_length; exact L2|]. intros a Ha.
    rewrite (nth_map_lt _ _ _ _ _ _ []) by lia.
    rewrite map_length, combine_length, seq_length, H2 by assumption. lia. }
  destruct (walled walls s); [|exact S1]. destruct S1 as [S1 S2].
  split; [rewrite map_length; exact S1|]. intros a Ha. rewrite (nth_map_lt _ _ _ _ _ _ []) by lia.
  rewrite map_length. now apply S2.
Qed.

Lemma sas_shape_ok_spec : forall (sas : list (list (list A))) n na, 0 < n ->
  shape3 n na n sas -> sas_shape_ok sas = true.
Proof.
  intros sas n na Hn [L H]. unfold sas_shape_ok. apply forallb_forall. intros mat Hm.
  apply (In_nth _ _ []) in Hm. destruct Hm as (i & Hi & <-). rewrite L in Hi.
  destruct (H 0 Hn) as [L0 _]. destruct (H i Hi) as [Li Hi2].
  apply andb_true_iff. split; [apply Nat.eqb_eq; congruence|]. apply forallb_forall. intros row Hr.
  apply (In_nth _ _ []) in Hr. destruct Hr as (j & Hj & <-). apply Nat.eqb_eq. rewrite L. apply Hi2. lia.
Qed.

Lemma sas_shape_ok_inv : forall (sas : list (list (list A))), sas_shape_ok sas = true ->
  shape3 (length sas) (length (nth 0 sas [])) (length sas) sas.
Proof.
  intros sas H. unfold sas_shape_ok in H. rewrite forallb_forall in H. split; [reflexivity|]. intros i Hi.
  specialize (H (nth i sas []) (nth_In _ _ Hi)). apply andb_true_iff in H. destruct H as [H1 H2].
  apply Nat.eqb_eq in H1. rewrite forallb_forall in H2. split; [exact H1|]. intros j Hj.
  apply Nat.eqb_eq. apply H2. apply nth_In. lia.
Qed.

Lemma in_entries3 : forall (sas : list (list (list A))) n na x, shape3 n na n sas ->
  In x (entries3 sas) -> exists s a t, s < n /\ a < na /\ t < n /\ x = get3 n0 sas s a t.
Proof.
  intros sas n na x [L H] Hx. unfold entries3 in Hx. apply in_concat in Hx. destruct Hx as (l & Hl & Hx).
  apply in_map_iff in Hl. destruct Hl as (mat & <- & Hm). apply in_concat in Hx. destruct Hx as (row & Hr & Hx).
  apply (In_nth _ _ []) in Hm. destruct Hm as (s & Hs & <-). rewrite L in Hs. destruct (H s Hs) as [L2 H2].
  apply (In_nth _ _ []) in Hr. destruct Hr as (a & Ha & <-). rewrite L2 in Ha. specialize (H2 a Ha).
  apply (In_nth _ _ n0) in Hx. destruct Hx as (t & Ht & <-). rewrite H2 in Ht.
  exists s, a, t. auto.
Qed.

Lemma entries3_in : forall (sas : list (list (list A))) n na s a t, shape3 n na n sas ->
  s < n -> a < na -> t < n -> In (get3 n0 sas s a t) (entries3 sas).
Proof.
  intros sas n na s a t [L H] Hs Ha Ht. destruct (H s Hs) as [L2 H2]. specialize (H2 a Ha).
  unfold entries3, get3. apply in_concat. exists (concat (nth s sas [])). split.
  - apply in_map. apply nth_In. lia.
  - apply in_concat. exists (nth a (nth s sas []) []). split; apply nth_In; lia.
Qed.
End Gen.
