From Coq Require Import List ZArith Reals Bool Lia Lra.
From Verif Require Import PyBase PyProofs GridModel GridSpec GridProofs GridProofs2 MDPModel MDPSpec MDPProofs MDPProofs2.
Import ListNotations.
Local Open Scope nat_scope.

Lemma shape3_ext : forall n m k (l1 l2 : list (list (list R))), shape3 n m k l1 -> shape3 n m k l2 ->
  (forall i j q, i < n -> j < m -> q < k -> get3 0%R l1 i j q = get3 0%R l2 i j q) -> l1 = l2.
Proof.
  intros n m k l1 l2 [L1 H1] [L2 H2] E. apply (list_eq_nth _ _ _ []); [congruence|]. intros i Hi. rewrite L1 in Hi.
  destruct (H1 i Hi) as [M1 N1]. destruct (H2 i Hi) as [M2 N2].
  apply (list_eq_nth _ _ _ []); [congruence|]. intros j Hj. rewrite M1 in Hj.
  apply (list_eq_nth _ _ _ 0%R); [rewrite N1, N2 by assumption; reflexivity|]. intros q Hq. rewrite N1 in Hq by assumption.
  now apply E.
Qed.

(** ** wall histories *)
Lemma zrange_in : forall a b x, In x (zrange a b) <-> (a <= x < b)%Z.
Proof.
  intros. unfold zrange. rewrite in_map_iff. split.
  - intros (i & <- & H). apply in_seq in H. lia.
  - intros H. exists (Z.to_nat (x - a)). split; [lia|]. apply in_seq. lia.
Qed.
Lemma coord_list_in : forall arg x, In x (coord_list arg) <-> addressed arg x.
Proof. intros [|a [|b [|c l]]] x; simpl; try tauto. apply zrange_in. Qed.

Lemma reset_walls_zero : forall k shape st m, grid_inv k shape st m ->
  exists m', reset_walls m = Ok m' /\ grid_inv k shape st m' /\ m_walls m' = zeros1 (nst shape) /\ m_orig_sas m' = m_orig_sas m.
Proof.
  intros k shape st m I. unfold reset_walls.
  assert (E : map (fun x : R => nmul x n0) (m_walls m) = zeros1 (nst shape)).
  { rewrite <- (gi_wlen _ _ _ _ I). induction (m_walls m) as [|x l IHl]; [reflexivity|]. cbn [map length]. rewrite IHl. unfold zeros1. cbn [repeat].
    f_equal. cbn [nmul n0 NumR]. lra. }
  rewrite E. destruct (set_walls_ok k shape st m (zeros1 (nst shape)) I) as (m' & H1 & H2 & H3 & H4 & _).
  - unfold zeros1. apply repeat_length.
  - apply binary_zeros.
  - exists m'. auto.
Qed.

(** the double loop of [add_wall_xy] *)
Definition wall_cell (shape : nat * nat) (ws : list R) (c : Z * Z) : res (list R) :=
  let* s := idx_to_state shape c in let* i := py_index (length ws) s in Ok (upd ws i n1).

Lemma idx_to_state_spec : forall shape c,
  (in_grid shape c /\ exists i, i < nst shape /\ cell_of shape i = c /\ idx_to_state shape c = Ok (Z.of_nat i)) \/
  (~ in_grid shape c /\ idx_to_state shape c = Err ValueError).
Proof.
  intros shape [x y].
  assert (D : in_grid shape (x, y) \/ ~ in_grid shape (x, y)) by (unfold in_grid; simpl; lia).
  destruct D as [D|D]; [left|right]; (split; [assumption|]).
  - destruct (cell_of_surj shape _ D) as (i & Hi & Ei). exists i. split; [exact Hi|]. split; [exact Ei|].
    destruct shape as [w h]. unfold idx_to_state, in_grid, cell_of in *. cbn [fst snd] in *.
    inversion Ei. subst x y. clear Ei.
    destruct (Z.leb_spec 0 (Z.of_nat (i / h))); [|lia]. destruct (Z.ltb_spec (Z.of_nat (i / h)) (Z.of_nat w)); [|lia].
    destruct (Z.leb_spec 0 (Z.of_nat (i mod h))); [|lia]. destruct (Z.ltb_spec (Z.of_nat (i mod h)) (Z.of_nat h)); [|lia].
    cbn [andb]. f_equal. rewrite <- Nat2Z.inj_mul, <- Nat2Z.inj_add. f_equal. rewrite (Nat.div_mod i h) at 3; lia.
  - destruct shape as [w h]. unfold idx_to_state, in_grid in *. cbn [fst snd] in *.
    destruct (Z.leb_spec 0 x); [|reflexivity]. destruct (Z.ltb_spec x (Z.of_nat w)); [|reflexivity].
    destruct (Z.leb_spec 0 y); [|reflexivity]. destruct (Z.ltb_spec y (Z.of_nat h)); [lia|reflexivity].
Qed.

Lemma wall_cells_spec : forall shape cells ws, length ws = nst shape ->
  ((forall c, In c cells -> in_grid shape c) ->
    exists ws', foldM (wall_cell shape) cells ws = Ok ws' /\ length ws' = nst shape /\
      (binary ws -> binary ws') /\
      forall s, s < nst shape -> (is_wall ws' s <-> is_wall ws s \/ In (cell_of shape s) cells)) /\
  ((exists c, In c cells /\ ~ in_grid shape c) -> foldM (wall_cell shape) cells ws = Err ValueError).
Proof.
  induction cells as [|c cells IH]; intros ws L.
  - split.
    + intros _. exists ws. simpl. repeat split; auto. tauto.
    + intros (c & [] & _).
  - cbn [foldM]. destruct (idx_to_state_spec shape c) as [[G (i & Hi & Ei & E)]|[N E]].
    + assert (W : wall_cell shape ws c = Ok (upd ws i n1)).
      { unfold wall_cell. rewrite E. cbn [bind]. rewrite py_index_nat by lia. reflexivity. }
      rewrite W. cbn [bind]. destruct (IH (upd ws i n1)) as [IH1 IH2]; [now rewrite upd_length|]. split.
      * intros H. destruct IH1 as (ws' & E1 & L1 & B1 & H1); [intros; apply H; now right|].
        exists ws'. split; [exact E1|]. split; [exact L1|]. split.
        -- intros B. apply B1. unfold binary in *. rewrite Forall_forall in *. intros x Hx.
           apply (In_nth _ _ 0%R) in Hx. destruct Hx as (j & Hj & <-). rewrite upd_length in Hj. rewrite nth_upd.
           destruct ((j =? i) && (i <? length ws)); [now right|]. apply B. now apply nth_In.
        -- intros s Hs. rewrite (H1 s Hs). unfold is_wall at 1. rewrite nth_upd, L.
           destruct (Nat.ltb_spec i (nst shape)); [|lia]. rewrite andb_true_r.
           destruct (Nat.eqb_spec s i) as [->|Ns].
           ++ cbn [In]. rewrite Ei. split; [tauto|]. intros _. now left.
           ++ cbn [In]. fold (is_wall ws s). split; [tauto|]. intros [Hw|[Hc|Hc]]; [tauto| |tauto].
              exfalso. apply Ns. eapply cell_of_inj; [rewrite <- Hc; symmetry; exact Ei|]. apply pos_snd. lia.
      * intros (c' & [<-|Hc] & N'); [contradiction|]. apply IH2. eauto.
    + assert (W : wall_cell shape ws c = Err ValueError) by (unfold wall_cell; now rewrite E).
      rewrite W. cbn [bind]. split; [|reflexivity]. intros H. exfalso. apply N, H. now left.
Qed.

Lemma foldM_nested : forall (f : list R -> Z * Z -> res (list R)) xs ys ws,
  foldM (fun ws x => foldM (fun ws' y => f ws' (x, y)) ys ws) xs ws = foldM f (list_prod xs ys) ws.
Proof.
  induction xs as [|x xs IH]; intros ys ws; [reflexivity|]. cbn [foldM list_prod].
  rewrite foldM_app.
  assert (E : forall ws, foldM f (map (fun y => (x, y)) ys) ws = foldM (fun ws' y => f ws' (x, y)) ys ws).
  { induction ys as [|y ys IHy]; intros; [reflexivity|]. cbn [foldM map]. destruct (f ws0 (x, y)); simpl; auto. }
  rewrite E. destruct (foldM (fun ws' y => f ws' (x, y)) ys ws); simpl; [apply IH|reflexivity].
Qed.

Lemma add_wall_spec : forall k shape st m xs ys, grid_inv k shape st m ->
  ((forall x y, addressed xs x -> addressed ys y -> in_grid shape (x, y)) ->
    exists m', add_wall_xy m xs ys = Ok m' /\ grid_inv k shape st m' /\ m_orig_sas m' = m_orig_sas m /\
      m_features m' = m_features m /\
      forall s, s < nst shape -> (is_wall (m_walls m') s <-> is_wall (m_walls m) s \/
         (addressed xs (fst (cell_of shape s)) /\ addressed ys (snd (cell_of shape s))))) /\
  ((exists x y, addressed xs x /\ addressed ys y /\ ~ in_grid shape (x, y)) -> add_wall_xy m xs ys = Err ValueError).
Proof.
  intros k shape st m xs ys I. unfold add_wall_xy. rewrite (gi_shape _ _ _ _ I).
  assert (EF : foldM (fun ws x_id => foldM (fun ws' y_id =>
          let* s := idx_to_state shape (x_id, y_id) in
          let* i := py_index (length ws') s in Ok (upd ws' i n1)) (coord_list ys) ws) (coord_list xs) (m_walls m)
     = foldM (wall_cell shape) (list_prod (coord_list xs) (coord_list ys)) (m_walls m)).
  { rewrite <- foldM_nested. reflexivity. }
  rewrite EF. clear EF.
  destruct (wall_cells_spec shape (list_prod (coord_list xs) (coord_list ys)) (m_walls m) (gi_wlen _ _ _ _ I)) as [H1 H2].
  assert (PI : forall x y, In (x, y) (list_prod (coord_list xs) (coord_list ys)) <-> addressed xs x /\ addressed ys y).
  { intros. rewrite in_prod_iff, !coord_list_in. tauto. }
  split.
  - intros H. destruct H1 as (ws & E & L & B & W).
    { intros [x y] Hc. apply PI in Hc. apply H; tauto. }
    rewrite E. cbn [bind]. destruct (set_walls_ok k shape st m ws I L (B (gi_wbin _ _ _ _ I))) as (m' & E' & I' & W' & O' & F' & _).
    exists m'. split; [exact E'|]. split; [exact I'|]. split; [exact O'|]. split; [exact F'|].
    intros s Hs. rewrite W', (W s Hs). destruct (cell_of shape s) as [x y]. rewrite PI. cbn [fst snd]. tauto.
  - intros (x & y & Hx & Hy & N). rewrite H2; [reflexivity|]. exists (x, y). split; [apply PI; tauto|exact N].
Qed.

Lemma add_wall_inv : forall k shape st m xs ys m', grid_inv k shape st m -> add_wall_xy m xs ys = Ok m' ->
  (forall x y, addressed xs x -> addressed ys y -> in_grid shape (x, y)).
Proof.
  intros k shape st m xs ys m' I H x y Hx Hy.
  destruct (add_wall_spec k shape st m xs ys I) as [_ H2].
  assert (D : in_grid shape (x, y) \/ ~ in_grid shape (x, y)) by (unfold in_grid; simpl; lia).
  destruct D as [D|D]; [exact D|]. rewrite H2 in H; [discriminate|]. eauto.
Qed.

Lemma after_wall_call_inv : forall k shape st m c, grid_inv k shape st m ->
  grid_inv k shape st (after_wall_call m c) /\ m_orig_sas (after_wall_call m c) = m_orig_sas m.
Proof.
  intros k shape st m c I. unfold after_wall_call. destruct (do_wall_call m c) as [m'|] eqn:E; [|auto].
  destruct c; simpl in E.
  - apply (set_walls_inv k shape st) in E; [|assumption]. tauto.
  - pose proof (add_wall_inv k shape st m x y m' I E) as G.
    destruct (add_wall_spec k shape st m x y I) as [H1 _]. destruct (H1 G) as (m2 & E2 & I2 & O2 & _).
    rewrite E2 in E. inversion E. subst. auto.
  - destruct (reset_walls_zero k shape st m I) as (m2 & E2 & I2 & _ & O2). rewrite E2 in E. inversion E. subst. auto.
Qed.

Lemma after_wall_calls_inv : forall cs k shape st m, grid_inv k shape st m ->
  grid_inv k shape st (after_wall_calls m cs) /\ m_orig_sas (after_wall_calls m cs) = m_orig_sas m.
Proof.
  induction cs as [|c cs IH]; intros k shape st m I; [auto|].
  unfold after_wall_calls. cbn [fold_left]. fold (after_wall_calls (after_wall_call m c) cs).
  destruct (after_wall_call_inv k shape st m c I) as [I1 O1]. destruct (IH k shape st _ I1) as [I2 O2].
  split; [exact I2|]. now rewrite O2.
Qed.

(** ** travelling *)
Lemma travels_one : forall k shape st m, grid_inv k shape st m -> forall s a t, s < nst shape -> t < nst shape ->
  walled_edge k shape st (m_walls m) s a t -> forall acts u, travels m t acts u -> travels m s (a :: acts) u.
Proof.
  intros k shape st m I s a t Hs Ht W acts u T.
  destruct (in_valid_actions _ _ _ _ I s Hs) as (va & E & V).
  econstructor; [exact E|apply V; eauto|eapply next_state_edge; eauto|exact T].
Qed.

Lemma travels_inv : forall k shape st m, grid_inv k shape st m -> forall s a acts u, s < nst shape ->
  travels m s (a :: acts) u -> exists t, t < nst shape /\ walled_edge k shape st (m_walls m) s a t /\
     get_next_state m (Z.of_nat s) (Z.of_nat a) = Ok t /\ travels m t acts u.
Proof.
  intros k shape st m I s a acts u Hs T. inversion T as [|? ? ? t ? va E V N T']. subst.
  destruct (in_valid_actions _ _ _ _ I s Hs) as (va' & E' & V'). rewrite E in E'. inversion E'. subst.
  apply V' in V. destruct V as (t' & Ht' & W). exists t'. split; [exact Ht'|]. split; [exact W|].
  rewrite (next_state_edge _ _ _ _ I s a t') in N by assumption. inversion N. subst.
  split; [now apply (next_state_edge _ _ _ _ I)|assumption].
Qed.

Lemma no_wall_zeros : forall n s, ~ is_wall (zeros1 n) s.
Proof.
  intros n s H. unfold is_wall, zeros1 in H.
  assert (E : nth s (repeat (n0 (A:=R)) n) 0%R = 0%R).
  { destruct (Nat.lt_ge_cases s n); [now rewrite nth_repeat_lt|apply nth_overflow; now rewrite repeat_length]. }
  rewrite E in H. lra.
Qed.

Lemma walk_travels : forall k shape st m, grid_inv k shape st m -> (forall s, ~ is_wall (m_walls m) s) ->
  forall n c c', walk (move_of k) (dirs_of k) (in_grid shape) n c c' ->
  forall s, s < nst shape -> cell_of shape s = c ->
  exists acts u, length acts = n /\ cell_of shape u = c' /\ u < nst shape /\ travels m s acts u.
Proof.
  intros k shape st m I NW n c c' W. induction W; intros s Hs Es.
  - exists [], s. repeat split; auto. constructor.
  - destruct (cell_of_surj shape _ H0) as (t & Ht & Et). destruct (IHW t Ht Et) as (acts & u & L & Eu & Hu & T).
    exists (d :: acts), u. split; [simpl; lia|]. split; [exact Eu|]. split; [exact Hu|].
    apply (travels_one k shape st m I s d t Hs Ht); [|exact T]. split; [|split; apply NW]. left. split; [exact H|]. congruence.
Qed.

Lemma travels_walk : forall k shape st m, grid_inv k shape st m -> forall acts s u, s < nst shape -> travels m s acts u ->
  exists n, n <= length acts /\ walk (move_of k) (dirs_of k) (in_grid shape) n (cell_of shape s) (cell_of shape u).
Proof.
  intros k shape st m I. induction acts as [|a acts IH]; intros s u Hs T.
  - inversion T. subst. exists 0. split; [lia|constructor].
  - destruct (travels_inv _ _ _ _ I s a acts u Hs T) as (t & Ht & [W _] & _ & T').
    destruct (IH t u Ht T') as (n & Ln & Wn). destruct W as [[La Ma]|(_ & _ & ->)].
    + exists (S n). split; [simpl; lia|]. econstructor; [exact La|rewrite Ma; now apply cell_of_in|]. now rewrite Ma.
    + exists n. split; [simpl; lia|exact Wn].
Qed.

Lemma travels_unwalled : forall k shape st m, grid_inv k shape st m -> forall acts s u, s < nst shape ->
  travels m s acts u -> acts <> [] -> u < nst shape /\ ~ is_wall (m_walls m) u /\ ~ is_wall (m_walls m) s.
Proof.
  intros k shape st m I. induction acts as [|a acts IH]; intros s u Hs T N; [congruence|].
  destruct (travels_inv _ _ _ _ I s a acts u Hs T) as (t & Ht & (_ & Ws & Wt) & _ & T').
  destruct acts as [|b acts].
  - inversion T'. subst. auto.
  - destruct (IH t u Ht T') as (H1 & H2 & H3); [congruence|]. auto.
Qed.

(** ** trajectory conversion *)
Lemma traj_pairs_step : forall (m : mdp R) s t r, traj_pairs m (s :: t :: r) =
  let* _ := state_pair_to_action m s t true in
  let* i := py_index (m_n_states m) s in
  let* j := py_index (m_n_states m) t in
  let* rest := traj_pairs m (t :: r) in
  Ok ((s, argmax (sas_col m i j)) :: rest).
Proof. reflexivity. Qed.

Lemma traj_convert : forall k shape st m, grid_inv k shape st m -> forall traj, Forall (fun s => s < nst shape) traj ->
  linked m traj -> exists sa, traj_pairs m (map Z.of_nat traj) = Ok sa /\
    length sa = length traj - 1 /\
    forall i, i < length sa -> fst (nth i sa (0%Z, 0)) = Z.of_nat (nth i traj 0) /\
       get_next_state m (Z.of_nat (nth i traj 0)) (Z.of_nat (snd (nth i sa (0%Z, 0)))) = Ok (nth (S i) traj 0) /\
       (exists va, state_valid_actions m (Z.of_nat (nth i traj 0)) = Ok va /\ In (snd (nth i sa (0%Z, 0))) va).
Proof.
  intros k shape st m I. induction traj as [|s [|t r] IH]; intros F L.
  - exists []. simpl. split; [reflexivity|]. split; [reflexivity|]. intros; lia.
  - exists []. simpl. split; [reflexivity|]. split; [reflexivity|]. intros; lia.
  - inversion F as [|? ? Hs F1]. subst. inversion F1 as [|? ? Ht _]. subst.
    destruct L as [A L]. destruct (is_adjacent_spec _ _ _ _ I s t Hs Ht) as (b & Eb & Sb).
    rewrite A in Eb. inversion Eb. subst. destruct (proj1 Sb eq_refl) as (a & W).
    destruct (pair_action_edge _ _ _ _ I s a t Hs Ht W) as (P1 & _ & AM).
    destruct (IH F1 L) as (sa & E & Ls & H). cbn [map] in E |- *.
    exists ((Z.of_nat s, a) :: sa). split.
    + rewrite traj_pairs_step, P1. cbn [bind]. rewrite (gi_ns _ _ _ _ I), !py_index_nat by assumption.
      cbn [bind]. rewrite E. cbn [bind]. rewrite AM. reflexivity.
    + split; [simpl in *; lia|]. intros [|i] Hi.
      * cbn [nth fst snd]. split; [reflexivity|]. split; [now apply (next_state_edge _ _ _ _ I)|].
        destruct (in_valid_actions _ _ _ _ I s Hs) as (va & Ev & V). exists va. split; [exact Ev|]. apply V. eauto.
      * cbn [nth fst snd]. apply H. simpl in Hi. lia.
Qed.

Lemma traj_reject : forall k shape st m, grid_inv k shape st m -> forall traj, Forall (fun s => s < nst shape) traj ->
  ~ linked m traj -> traj_pairs m (map Z.of_nat traj) = Err AttributeError.
Proof.
  intros k shape st m I. induction traj as [|s [|t r] IH]; intros F L; try (exfalso; apply L; exact Logic.I).
  inversion F as [|? ? Hs F1]. subst. inversion F1 as [|? ? Ht _]. subst.
  destruct (is_adjacent_spec _ _ _ _ I s t Hs Ht) as (b & Eb & Sb). cbn [map]. rewrite traj_pairs_step.
  destruct b.
  - destruct (proj1 Sb eq_refl) as (a & W). destruct (pair_action_edge _ _ _ _ I s a t Hs Ht W) as (P1 & _ & AM).
    rewrite P1. cbn [bind]. rewrite (gi_ns _ _ _ _ I), !py_index_nat by assumption. cbn [bind].
    assert (E : traj_pairs m (map Z.of_nat (t :: r)) = Err AttributeError).
    { apply IH; [assumption|]. intros L'. apply L. split; assumption. }
    cbn [map] in E. rewrite E. reflexivity.
  - rewrite (pair_action_none _ _ _ _ I s t true Hs Ht); [reflexivity|].
    intros a W. assert (false = true) by (apply Sb; eauto). discriminate.
Qed.

(** ** adjacency attribute *)
Lemma adjacency_orig : forall k shape st m, grid_inv k shape st m -> forall s t, s < nst shape -> t < nst shape ->
  (get2 0%Z (m_adjacency m) s t = 1%Z /\ exists a, grid_edge k shape st s a t) \/
  (get2 0%Z (m_adjacency m) s t = 0%Z /\ forall a, ~ grid_edge k shape st s a t).
Proof.
  intros k shape st m I s t Hs Ht. rewrite (gi_adj _ _ _ _ I). unfold adjacency_of, get2.
  destruct (gi_osh _ _ _ _ I) as [L SH]. rewrite L.
  rewrite (nth_map_lt _ _ _ _ _ _ 0) by (now rewrite seq_length). rewrite seq_nth0 by assumption.
  rewrite (nth_map_lt _ _ _ _ _ _ 0) by (now rewrite seq_length). rewrite seq_nth0 by assumption.
  unfold sas_sum. destruct (SH s Hs) as [L2 SH2]. cbn [nltb n0 NumR].
  set (col := map (fun row : list R => nth t row 0%R) (nth s (m_orig_sas m) [])).
  assert (CN : forall x, In x col -> exists a, a < actions_of k st /\ x = get3 0%R (m_orig_sas m) s a t).
  { intros x Hx. apply in_map_iff in Hx. destruct Hx as (row & <- & Hr). apply (In_nth _ _ []) in Hr.
    destruct Hr as (a & La & <-). exists a. split; [lia|reflexivity]. }
  assert (NN : forall x, In x col -> (0 <= x)%R).
  { intros x Hx. destruct (CN x Hx) as (a & La & ->). rewrite (gi_orig _ _ _ _ I) by assumption.
    destruct (edgeb _ _ _ _ _ _); lra. }
  destruct (Rltb 0 (nsum col)) eqn:E.
  - left. split; [reflexivity|]. apply Rltb_true in E. apply nsum_pos in E; [|assumption].
    destruct E as (x & Hx & Px). destruct (CN x Hx) as (a & La & ->). exists a.
    rewrite (gi_orig _ _ _ _ I) in Px by assumption. apply edgeb_spec. destruct (edgeb _ _ _ _ _ _); [reflexivity|lra].
  - right. split; [reflexivity|]. intros a W. pose proof (edge_action _ _ _ _ _ _ W) as La.
    assert (P : (0 < nsum col)%R).
    { apply nsum_pos; [assumption|]. exists (get3 0%R (m_orig_sas m) s a t). split.
      - unfold col, get3. apply in_map_iff. exists (nth a (nth s (m_orig_sas m) []) []). split; [reflexivity|].
        apply nth_In. lia.
      - rewrite (gi_orig _ _ _ _ I) by assumption. apply edgeb_spec in W. rewrite W. lra. }
    apply Rltb_true in P. congruence.
Qed.

(** ** valid actions are listed once *)
Lemma NoDup_concat_seq : forall (mat : list (list R)) (f : list R -> list nat) i0,
  (forall row, In row mat -> length (f row) <= 1) ->
  NoDup (concat (map (fun '(a, row) => map (fun _ : nat => a) (f row)) (combine (seq i0 (length mat)) mat))) /\
  forall x, In x (concat (map (fun '(a, row) => map (fun _ : nat => a) (f row)) (combine (seq i0 (length mat)) mat))) -> i0 <= x.
Proof.
  induction mat as [|row mat IH]; intros f i0 H; [split; [constructor|intros x []]|].
  cbn [length seq combine map concat]. destruct (IH f (S i0)) as [H1 H2]; [intros; apply H; now right|].
  specialize (H row (or_introl eq_refl)). destruct (f row) as [|u [|v r]]; cbn [map app length] in *; [|split|lia].
  - split; [exact H1|]. intros x Hx. apply H2 in Hx. lia.
  - constructor; [|exact H1]. intros X. apply H2 in X. lia.
  - intros x [<-|Hx]; [lia|]. apply H2 in Hx. lia.
Qed.

Lemma NoDup_le1 : forall (l : list nat), NoDup l -> (forall x y, In x l -> In y l -> x = y) -> length l <= 1.
Proof.
  intros [|x [|y l]] N H; cbn; try lia. exfalso. assert (x = y) by (apply H; [now left|right; now left]). subst.
  inversion N as [|? ? X]. apply X. now left.
Qed.

Lemma valid_actions_NoDup : forall k shape st m, grid_inv k shape st m -> forall s va, s < nst shape ->
  state_valid_actions m (Z.of_nat s) = Ok va -> NoDup va.
Proof.
  intros k shape st m I s va Hs E. unfold state_valid_actions in E. rewrite (gi_ns _ _ _ _ I), py_index_nat in E by assumption.
  cbn [bind] in E. assert (OI : forall u v : list nat, Ok u = Ok v -> v = u) by congruence. apply OI in E. subst va.
  apply (NoDup_concat_seq (nth s (m_sas m) []) (where_ (fun x => negb (neqb x n0))) 0).
  intros row Hr. destruct (inv_shape _ _ _ _ I) as [_ SH]. destruct (SH s Hs) as [L SH2].
  apply (In_nth _ _ []) in Hr. destruct Hr as (a & La & <-). rewrite L in La.
  apply NoDup_le1; [apply where_NoDup|]. intros x y Hx Hy.
  apply (in_where _ _ _ _ 0%R) in Hx, Hy. rewrite SH2 in Hx, Hy by assumption.
  assert (K : forall z, z < nst shape -> negb (neqb (nth z (nth a (nth s (m_sas m) []) []) 0%R) n0) = true ->
     walled_edge k shape st (m_walls m) s a z).
  { intros z Hz X. destruct (inv_edge _ _ _ _ I s a z Hs La Hz) as [[_ W]|[E0 _]]; [exact W|].
    unfold get3 in E0. rewrite E0 in X. cbn [neqb n0 NumR] in X. rewrite (proj2 (Reqb_true 0 0) eq_refl) in X. discriminate. }
  destruct Hx as [Hx X], Hy as [Hy Y]. apply (K x Hx) in X. apply (K y Hy) in Y.
  eapply edge_unique_t; [apply X|apply Y|apply pos_snd; lia].
Qed.
