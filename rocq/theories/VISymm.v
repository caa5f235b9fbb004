(** Property C158: planning has no preferred side. *)
From Coq Require Import String List ZArith QArith Reals Bool Lia Lra Permutation.
From Verif Require Import PyBase PyProofs GridModel GridSpec GridProofs2 MDPModel MDPSpec MDPProofs2 MDPProofs3 MDPProps ActionModel ActionSpec ActionProofs RSum EnvModel EnvProps StepProps EnvProofs3 QueryModel VIModel VISpec VIProofs VIProofs2 VIProps VIEnvProps VIMono VIAnytime IRLOrder.
Import ListNotations.
Local Close Scope Q_scope.
Local Open Scope R_scope.

(** ** Specification *)

(** The second problem is the first with its states renamed by [sg] and its actions by [ta]. *)
Definition renamed (sas sas' : list (list (list R))) (sg ta : nat -> nat) : Prop :=
  n_states sas' = n_states sas /\ n_actions sas' = n_actions sas /\
  (forall s, (s < n_states sas)%nat -> (sg s < n_states sas)%nat) /\
  (forall s t, (s < n_states sas)%nat -> (t < n_states sas)%nat -> sg s = sg t -> s = t) /\
  (forall a, (a < n_actions sas)%nat -> (ta a < n_actions sas)%nat) /\
  (forall a b, (a < n_actions sas)%nat -> (b < n_actions sas)%nat -> ta a = ta b -> a = b) /\
  (forall s a t, (s < n_states sas)%nat -> (a < n_actions sas)%nat -> (t < n_states sas)%nat -> prob sas' (sg s) (ta a) (sg t) = prob sas s a t).

(** Mirror images and turns of grids: the cells [c] of the first grid are the cells [f c] of the second, and moving in direction [d] in the first is
    moving in direction [ta d] in the second. Square grids may be mirrored in both directions and have their axes swapped; hex grids may be mirrored
    if they have an odd number of columns, and turned by half a turn if the number is even. *)
Definition swap2 (a b d : nat) : nat := if Nat.eqb d a then b else if Nat.eqb d b then a else d.
Inductive symmetry : gkind -> nat * nat -> nat * nat -> (Z * Z -> Z * Z) -> (nat -> nat) -> Prop :=
| mirror_x : forall W H, symmetry Square (W, H) (W, H) (fun c => (Z.of_nat W - 1 - fst c, snd c)%Z) (swap2 1 3)
| mirror_y : forall W H, symmetry Square (W, H) (W, H) (fun c => (fst c, Z.of_nat H - 1 - snd c)%Z) (swap2 0 2)
| axes : forall W H, symmetry Square (W, H) (H, W) (fun c => (snd c, fst c)) (fun d => swap2 0 1 (swap2 2 3 d))
| hex_mirror : forall W H, Nat.Odd W -> symmetry Hex (W, H) (W, H) (fun c => (Z.of_nat W - 1 - fst c, snd c)%Z) (fun d => swap2 1 5 (swap2 2 4 d))
| hex_turn : forall W H, Nat.Even W -> symmetry Hex (W, H) (W, H) (fun c => (Z.of_nat W - 1 - fst c, Z.of_nat H - 1 - snd c)%Z)
                         (fun d => swap2 0 3 (swap2 1 4 (swap2 2 5 d))).

(** State [s'] of the second grid is the image of state [s] of the first. *)
Definition image (shape shape' : nat * nat) (f : Z * Z -> Z * Z) (s s' : nat) : Prop :=
  (s < fst shape * snd shape)%nat /\ (s' < fst shape' * snd shape')%nat /\ cell_of shape' s' = f (cell_of shape s).

(** ** Renaming *)

Lemma nodup_map : forall (f : nat -> nat) l, NoDup l -> (forall x y, In x l -> In y l -> f x = f y -> x = y) -> NoDup (map f l).
Proof.
  intros f l N. induction N as [|x l NI N IH]; intros H; cbn [map]; constructor.
  - intros X. apply in_map_iff in X. destruct X as (y & E & Hy). assert (x = y) as -> by (apply H; cbn; auto). contradiction.
  - apply IH. intros. apply H; cbn; auto.
Qed.
Lemma renumber : forall n (f : nat -> nat), (forall s, (s < n)%nat -> (f s < n)%nat) -> (forall s t, (s < n)%nat -> (t < n)%nat -> f s = f t -> s = t) ->
  Permutation (map f (seq 0 n)) (seq 0 n).
Proof.
  intros n f B I. apply NoDup_Permutation_bis; [| |].
  - apply nodup_map; [apply seq_NoDup|]. intros x y Hx Hy. apply in_seq in Hx. apply in_seq in Hy. apply I; lia.
  - rewrite map_length. lia.
  - intros x Hx. apply in_map_iff in Hx. destruct Hx as (y & <- & Hy). apply in_seq in Hy. apply in_seq. specialize (B y ltac:(lia)). lia.
Qed.
Lemma onto : forall n (f : nat -> nat), (forall s, (s < n)%nat -> (f s < n)%nat) -> (forall s t, (s < n)%nat -> (t < n)%nat -> f s = f t -> s = t) ->
  forall t, (t < n)%nat -> exists s, (s < n)%nat /\ f s = t.
Proof.
  intros n f B I t Ht. assert (X : In t (map f (seq 0 n))). { eapply Permutation_in; [apply Permutation_sym, renumber; assumption|]. apply in_seq. lia. }
  apply in_map_iff in X. destruct X as (s & E & Hs). apply in_seq in Hs. exists s. split; [lia|exact E].
Qed.
Lemma renamed_value : forall sas sas' sg ta r r' g V V', renamed sas sas' sg ta -> (forall t, (t < n_states sas)%nat -> r' (sg t) = r t) -> (forall t, (t < n_states sas)%nat -> V' (sg t) = V t) ->
  forall s a, (s < n_states sas)%nat -> (a < n_actions sas)%nat -> action_value sas' r' g V' (sg s) (ta a) = action_value sas r g V s a.
Proof.
  intros sas sas' sg ta r r' g V V' (EN & EA & SB & SI & TB & TI & P) HR HV s a Hs Ha. unfold action_value. rewrite EN.
  rewrite <- (sumf_permutation _ _ _ _ (renumber _ _ SB SI)), sumf_map. apply sumf_ext. intros t Ht. apply in_seq in Ht. rewrite P, HR, HV by lia. reflexivity.
Qed.

(** Best values, and how good each action is, do not depend on the names of states and actions. *)
Theorem C158_names : forall sas sas' sg ta r r' g V V', is_mdp sas -> is_mdp sas' -> renamed sas sas' sg ta -> 0 <= g < 1 -> (forall t, (t < n_states sas)%nat -> r' (sg t) = r t) ->
  optimal sas r g V -> optimal sas' r' g V' -> forall s, (s < n_states sas)%nat -> V' (sg s) = V s /\
    forall a, (a < n_actions sas)%nat -> action_value sas' r' g V' (sg s) (ta a) = action_value sas r g V s a /\ (possible sas' (sg s) (ta a) <-> possible sas s a).
Proof.
  intros sas sas' sg ta r r' g V V' M M' RN G HR O O'. pose proof RN as (EN & EA & SB & SI & TB & TI & P).
  assert (O2 : optimal sas r g (fun s => V' (sg s))).
  { intros s Hs. destruct (O' (sg s)) as [(b & Hb & EB) B]; [rewrite EN; auto|]. rewrite EA in Hb. destruct (onto _ _ TB TI b Hb) as (a & Ha & <-). split.
    - exists a. split; [exact Ha|]. rewrite <- EB. symmetry. now apply (renamed_value sas sas' sg ta).
    - intros c Hc. rewrite <- (renamed_value sas sas' sg ta r r' g (fun s => V' (sg s)) V' RN HR (fun _ _ => eq_refl) s c Hs Hc). apply B. rewrite EA. auto. }
  destruct (C29_unique_solution sas r g M G) as (U & OU & UU).
  assert (EV : forall s, (s < n_states sas)%nat -> V' (sg s) = V s). { intros s Hs. rewrite (UU V O s Hs). exact (UU _ O2 s Hs). }
  intros s Hs. split; [now apply EV|]. intros a Ha. split; [now apply (renamed_value sas sas' sg ta)|]. split.
  - intros (t' & Ht' & PT). rewrite EN in Ht'. destruct (onto _ _ SB SI t' Ht') as (t & Ht & <-). exists t. split; [exact Ht|]. now rewrite <- P.
  - intros (t & Ht & PT). exists (sg t). rewrite EN. split; [auto|]. now rewrite P.
Qed.

(** ** Grids *)

Definition state_at (shape : nat * nat) (c : Z * Z) : nat := (Z.to_nat (fst c) * snd shape + Z.to_nat (snd c))%nat.
Lemma state_at_cell : forall shape c, in_grid shape c -> (state_at shape c < fst shape * snd shape)%nat /\ cell_of shape (state_at shape c) = c.
Proof.
  intros [w h] [x y]. unfold in_grid, cell_of, state_at. cbn [fst snd]. intros [Hx Hy]. split; [nia|].
  rewrite Nat.div_add_l, (Nat.add_comm (Z.to_nat x * h)), Nat.mod_add by lia. rewrite Nat.div_small, Nat.mod_small by lia. f_equal; lia.
Qed.

Ltac sixth d := destruct d as [|d]; [|destruct d as [|d]; [|destruct d as [|d]; [|destruct d as [|d]; [|destruct d as [|d]; [|destruct d as [|d]]]]]]; try lia.
Lemma symmetry_ok : forall k shape shape' f ta, symmetry k shape shape' f ta ->
  (fst shape' * snd shape' = fst shape * snd shape)%nat /\
  (forall c, in_grid shape c -> in_grid shape' (f c)) /\ (forall c c', f c = f c' -> c = c') /\
  (forall d, (d < dirs_of k)%nat -> (ta d < dirs_of k)%nat) /\ (forall d, (dirs_of k <= d)%nat -> ta d = d) /\ (forall d, ta (ta d) = d) /\
  (forall d c, (d < dirs_of k)%nat -> move_of k (ta d) (f c) = f (move_of k d c)).
Proof.
  assert (SW : forall a b d, swap2 a b (swap2 a b d) = d). { intros a b d. unfold swap2. destruct (Nat.eqb_spec d a); [subst; destruct (Nat.eqb_spec b a); [congruence|now rewrite Nat.eqb_refl]|].
    destruct (Nat.eqb_spec d b); [subst; now rewrite Nat.eqb_refl|]. destruct (Nat.eqb_spec d a); [congruence|]. destruct (Nat.eqb_spec d b); [congruence|reflexivity]. }
  assert (PO : forall W x, Nat.Odd W -> Z.even (Z.of_nat W - 1 - x) = Z.even x).
  { intros W x [p ->]. replace (Z.of_nat (2 * p + 1) - 1 - x)%Z with (2 * (Z.of_nat p) - x)%Z by lia. now rewrite Z.even_sub, Z.even_mul; destruct (Z.even x). }
  assert (PE : forall W x, Nat.Even W -> Z.even (Z.of_nat W - 1 - x) = negb (Z.even x)).
  { intros W x [p ->]. replace (Z.of_nat (2 * p) - 1 - x)%Z with (2 * (Z.of_nat p) - (1 + x))%Z by lia. rewrite Z.even_sub, Z.even_mul, Z.even_add; destruct (Z.even x); reflexivity. }
  intros k shape shape' f ta S. destruct S as [W H|W H|W H|W H OD|W H EV]; cbn [fst snd dirs_of]; unfold in_grid; cbn [fst snd];
    (split; [lia|split; [intros [x y]; cbn [fst snd]; lia|split; [intros [x y] [x' y']; cbn [fst snd]; intros E; apply pair_equal_spec in E; f_equal; lia|]]]).
  - split; [intros d; unfold swap2; sixth d; cbn; lia|]. split; [intros d; unfold swap2; sixth d; reflexivity|]. split; [apply SW|].
    intros d [x y] Hd. cbn [move_of fst snd]. sixth d; cbn [swap2 Nat.eqb square_move fst snd]; f_equal; lia.
  - split; [intros d; unfold swap2; sixth d; cbn; lia|]. split; [intros d; unfold swap2; sixth d; reflexivity|]. split; [apply SW|].
    intros d [x y] Hd. cbn [move_of fst snd]. sixth d; cbn [swap2 Nat.eqb square_move fst snd]; f_equal; lia.
  - split; [intros d; unfold swap2; sixth d; cbn; lia|]. split; [intros d; unfold swap2; sixth d; reflexivity|]. split; [intros d; unfold swap2; sixth d; reflexivity|].
    intros d [x y] Hd. cbn [move_of fst snd]. sixth d; cbn [swap2 Nat.eqb square_move fst snd]; f_equal; lia.
  - split; [intros d; unfold swap2; sixth d; cbn; lia|]. split; [intros d; unfold swap2; sixth d; reflexivity|]. split; [intros d; unfold swap2; sixth d; reflexivity|].
    intros d [x y] Hd. cbn [move_of fst snd]. unfold hex_move. rewrite (PO W x OD). destruct (Z.even x); sixth d; cbn [swap2 Nat.eqb fst snd]; f_equal; lia.
  - split; [intros d; unfold swap2; sixth d; cbn; lia|]. split; [intros d; unfold swap2; sixth d; reflexivity|]. split; [intros d; unfold swap2; sixth d; reflexivity|].
    intros d [x y] Hd. cbn [move_of fst snd]. unfold hex_move. rewrite (PE W x EV). destruct (Z.even x); cbn [negb]; sixth d; cbn [swap2 Nat.eqb fst snd]; f_equal; lia.
Qed.

Lemma grids_renamed : forall k shape shape' f ta st m m', symmetry k shape shape' f ta -> grid_inv k shape st m -> grid_inv k shape' st m' ->
  (forall s s', image shape shape' f s s' -> (is_wall (m_walls m') s' <-> is_wall (m_walls m) s)) ->
  let sg := fun s => state_at shape' (f (cell_of shape s)) in
  renamed (m_sas m) (m_sas m') sg ta /\ forall s, (s < fst shape * snd shape)%nat -> image shape shape' f s (sg s).
Proof.
  intros k shape shape' f ta st m m' SY I I' HW sg. destruct (symmetry_ok _ _ _ _ _ SY) as (SZ & FI & FJ & TB & TH & TT & MV).
  destruct (grid_shape _ _ _ _ I) as (N & NA & _). destruct (grid_shape _ _ _ _ I') as (N' & NA' & _). unfold nst in *.
  assert (SG : forall s, (s < fst shape * snd shape)%nat -> image shape shape' f s (sg s)).
  { intros s Hs. destruct (state_at_cell shape' (f (cell_of shape s)) (FI _ (cell_of_in _ _ Hs))) as [B C]. unfold image, sg. auto. }
  split; [|exact SG].
  assert (H0 : snd shape <> 0%nat) by (pose proof (gi_pos _ _ _ _ I) as X; unfold nst in X; lia). assert (H0' : snd shape' <> 0%nat) by (pose proof (gi_pos _ _ _ _ I') as X; unfold nst in X; lia).
  assert (TA : forall a, (a < actions_of k st)%nat -> (ta a < actions_of k st)%nat).
  { intros a Ha. destruct (Nat.lt_ge_cases a (dirs_of k)) as [L|L]; [specialize (TB a L); unfold actions_of in *; destruct st; lia|now rewrite (TH a L)]. }
  unfold renamed. rewrite N, N', NA, NA'. split; [exact SZ|]. split; [reflexivity|]. split; [intros s Hs; rewrite <- SZ; apply (SG s Hs)|].
  split. { intros s t Hs Ht E. apply (cell_of_inj shape); [|exact H0]. apply FJ. destruct (SG s Hs) as (_ & _ & <-). destruct (SG t Ht) as (_ & _ & <-). now rewrite E. }
  split; [exact TA|]. split; [intros a b _ _ E; rewrite <- (TT a), <- (TT b); now rewrite E|].
  intros s a t Hs Ha Ht. rewrite <- (get3_prob (m_sas m)), <- (get3_prob (m_sas m')). destruct (SG s Hs) as (_ & Bs & Cs). destruct (SG t Ht) as (_ & Bt & Ct).
  assert (ED : grid_edge k shape' st (sg s) (ta a) (sg t) <-> grid_edge k shape st s a t).
  { unfold grid_edge. rewrite Cs, Ct. split.
    - intros [[L E]|(E1 & E2 & E3)].
      + assert (La : (a < dirs_of k)%nat). { destruct (Nat.lt_ge_cases a (dirs_of k)) as [X|X]; [exact X|]. rewrite (TH a X) in L. lia. } left. split; [exact La|]. apply FJ. now rewrite <- MV.
      + right. split; [exact E1|]. split. { destruct (Nat.lt_ge_cases a (dirs_of k)) as [X|X]; [specialize (TB a X); lia|rewrite (TH a X) in E2; exact E2]. }
        apply (cell_of_inj shape); [|exact H0]. apply FJ. rewrite <- Cs, <- Ct. now rewrite E3.
    - intros [[L E]|(E1 & E2 & E3)]; [left; split; [auto|]; rewrite MV by exact L; now rewrite E|]. right. subst t. split; [exact E1|]. split; [rewrite TH by lia; exact E2|reflexivity]. }
  assert (WE : walled_edge k shape' st (m_walls m') (sg s) (ta a) (sg t) <-> walled_edge k shape st (m_walls m) s a t).
  { unfold walled_edge. rewrite ED, (HW s (sg s) (SG s Hs)), (HW t (sg t) (SG t Ht)). tauto. }
  destruct (inv_edge _ _ _ _ I s a t Hs Ha Ht) as [[E X]|[E X]]; destruct (inv_edge _ _ _ _ I' (sg s) (ta a) (sg t) Bs (TA a Ha) Bt) as [[E' X']|[E' X']]; rewrite E, E'; try reflexivity; exfalso; tauto.
Qed.

(** On mirrored and turned grids, with walls and rewards mirrored and turned alike, the best values and the worth of every action are mirrored and turned;
    fitted values are, up to twice the error bound. *)
Theorem C158_grids : forall k shape shape' f ta st feats feats' w0 w0' m0 m0' calls calls' rf rf' g, symmetry k shape shape' f ta ->
  grid_mdp (A:=R) k feats w0 shape st = Ok m0 -> grid_mdp (A:=R) k feats' w0' shape' st = Ok m0' -> 0 < g < 1 ->
  let m := after_wall_calls m0 calls in let m' := after_wall_calls m0' calls' in
  (forall s s', image shape shape' f s s' -> (is_wall (m_walls m') s' <-> is_wall (m_walls m) s) /\ reward_of rf' (m_features m') s' = reward_of rf (m_features m) s) ->
  (forall V V', optimal (m_sas m) (reward_of rf (m_features m)) g V -> optimal (m_sas m') (reward_of rf' (m_features m')) g V' -> forall s s', image shape shape' f s s' -> V' s' = V s /\
     forall a, (a < actions_of k st)%nat -> action_value (m_sas m') (reward_of rf' (m_features m')) g V' s' (ta a) = action_value (m_sas m) (reward_of rf (m_features m)) g V s a /\
       (possible (m_sas m') s' (ta a) <-> possible (m_sas m) s a)) /\
  (forall j tol rho v q v' q', (forall t, (t < fst shape * snd shape)%nat -> Rabs (reward_of rf (m_features m) t) <= rho) -> (1 + g) * g ^ j * (rho / (1 - g)) < tol ->
     solve_value_iteration hard_backup rf (m_features m) (Z.of_nat (S j)) g (m_sas m) tol = Ok (v, q) ->
     solve_value_iteration hard_backup rf' (m_features m') (Z.of_nat (S j)) g (m_sas m') tol = Ok (v', q') ->
     forall s s', image shape shape' f s s' -> Rabs (nth s' v' 0 - nth s v 0) <= 2 * (g * tol / (1 - g))).
Proof.
  intros k shape shape' f ta st feats feats' w0 w0' m0 m0' calls calls' rf rf' g SY E E' G m m' HI. destruct (symmetry_ok _ _ _ _ _ SY) as (SZ & FI & FJ & _).
  destruct (grid_mdp_inv _ _ _ _ _ _ E) as (_ & _ & _ & _ & I0 & _). destruct (after_wall_calls_inv calls _ _ _ _ I0) as [I _]. fold m in I.
  destruct (grid_mdp_inv _ _ _ _ _ _ E') as (_ & _ & _ & _ & I0' & _). destruct (after_wall_calls_inv calls' _ _ _ _ I0') as [I' _]. fold m' in I'.
  destruct (grid_shape _ _ _ _ I) as (N & NA & _). destruct (grid_shape _ _ _ _ I') as (N' & NA' & _). pose proof (grid_is_mdp _ _ _ _ I) as M. pose proof (grid_is_mdp _ _ _ _ I') as M'. unfold nst in *.
  assert (H0' : snd shape' <> 0%nat) by (pose proof (gi_pos _ _ _ _ I') as X; unfold nst in X; lia). assert (H0 : snd shape <> 0%nat) by (pose proof (gi_pos _ _ _ _ I) as X; unfold nst in X; lia).
  destruct (grids_renamed k shape shape' f ta st m m' SY I I' (fun s s' X => proj1 (HI s s' X))) as [RN SG]. set (sg := fun s => state_at shape' (f (cell_of shape s))) in *.
  assert (US : forall s s', image shape shape' f s s' -> s' = sg s). { intros s s' (Hs & Hs' & C). destruct (SG s Hs) as (_ & _ & C'). apply (cell_of_inj shape'); [rewrite C; symmetry; exact C'|exact H0']. }
  assert (HR : forall t, (t < n_states (m_sas m))%nat -> reward_of rf' (m_features m') (sg t) = reward_of rf (m_features m) t). { intros t Ht. rewrite N in Ht. apply (HI t (sg t)). now apply SG. }
  assert (BV : forall V V', optimal (m_sas m) (reward_of rf (m_features m)) g V -> optimal (m_sas m') (reward_of rf' (m_features m')) g V' -> forall s s', image shape shape' f s s' -> V' s' = V s /\
     forall a, (a < actions_of k st)%nat -> action_value (m_sas m') (reward_of rf' (m_features m')) g V' s' (ta a) = action_value (m_sas m) (reward_of rf (m_features m)) g V s a /\
       (possible (m_sas m') s' (ta a) <-> possible (m_sas m) s a)).
  { intros V V' O O' s s' X. pose proof (US s s' X) as ->. rewrite <- NA. apply (C158_names (m_sas m) (m_sas m') sg ta); auto; [lra|]. rewrite N. apply X. }
  split; [exact BV|]. intros j tol rho v q v' q' HB HK E1 E2 s s' X.
  destruct (fitted_near (m_sas m) rf (m_features m) g j tol rho v q M G ltac:(rewrite N; exact HB) HK E1) as (V & O & Y).
  assert (HB' : forall t, (t < n_states (m_sas m'))%nat -> Rabs (reward_of rf' (m_features m') t) <= rho).
  { intros t' Ht'. pose proof RN as (EN & _ & SB & SI & _). rewrite EN in Ht'. destruct (onto _ _ SB SI t' Ht') as (t & Ht & <-). rewrite HR by exact Ht. apply HB. rewrite <- N. exact Ht. }
  destruct (fitted_near (m_sas m') rf' (m_features m') g j tol rho v' q' M' G HB' HK E2) as (V' & O' & Y').
  pose proof (proj1 (BV V V' O O' s s' X)) as Z. destruct X as (Hs & Hs' & _). rewrite <- N in Hs. rewrite <- N' in Hs'. specialize (Y s Hs). specialize (Y' s' Hs'). cbn beta in Y, Y'. rewrite Z in Y'.
  clear - Y Y'. unfold Rabs in *. repeat destruct (Rcase_abs _) in Y; repeat destruct (Rcase_abs _) in Y'; destruct (Rcase_abs _); lra.
Qed.

(** Mirrored and turned grids with their walls and rewards. The solver itself goes through the states in order: after a single sweep the two ends of a
    corridor with the reward in its middle have different values, after enough sweeps they agree up to the tolerance. *)
Example C158_hypotheses : forall m m', grid_mdp (A:=R) Square [[0; 1; 0; 0; 0; 0]] (Some [0; 0; 0; 0; 1; 0]) (2, 3)%nat false = Ok m ->
  grid_mdp (A:=R) Square [[0; 0; 1; 0; 0; 0]] (Some [0; 0; 0; 1; 0; 0]) (3, 2)%nat false = Ok m' ->
  forall s s', image (2, 3)%nat (3, 2)%nat (fun c => (snd c, fst c)) s s' ->
    (is_wall (m_walls m') s' <-> is_wall (m_walls m) s) /\ reward_of [1] (m_features m') s' = reward_of [1] (m_features m) s.
Proof.
  intros m m' E E' s s' (Hs & Hs' & C). cbn [fst snd] in *. destruct (grid_mdp_inv _ _ _ _ _ _ E) as (_ & _ & _ & _ & _ & W & F & _). destruct (grid_mdp_inv _ _ _ _ _ _ E') as (_ & _ & _ & _ & _ & W' & F' & _).
  rewrite F, F', W, W'. unfold is_wall, reward_of. 
  do 6 (destruct s as [|s]; [do 6 (destruct s' as [|s']; [cbn in C; first [discriminate C | cbn; (split; [tauto|lra])]|]); lia|]). lia.
Qed.
Example C158_example : corridor [0; 1; 0]%Q None 1 (1 # 2) (1 # 10) = Ok [1; 1 # 2; 5 # 4]%Q /\ corridor [0; 1; 0]%Q None 11 (1 # 2) (1 # 10) = Ok [21 # 16; 21 # 32; 85 # 64]%Q.
Proof. vm_compute. auto. Qed.
