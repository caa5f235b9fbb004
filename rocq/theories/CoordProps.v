(** C167: what [get_state_coords] returns, and that it finds every agent. *)
From Coq Require Import List ZArith QArith Bool Lia Reals.
From Verif Require Import PyBase PyProofs GridModel GridSpec GridProofs GridProofs2 MDPModel MDPSpec MDPProofs
  MDPProofs2 MDPProofs3 MDPProps GridProps EnvModel EnvSpec EnvProofs EnvProofs2 EnvProofs3 EnvProps.
Import ListNotations.
Local Close Scope Q_scope.
Local Close Scope R_scope.
Local Open Scope Z_scope.

(** For a state number the same as [state_to_idx]; negative numbers count from the end; everything else raises. *)
Theorem C167_coordinates : forall A (NA : Num A) (m : mdp A) shape s, m_shape m = Some shape ->
  let n := Z.of_nat (fst shape * snd shape) in
  (0 <= s < n -> get_state_coords m (Some s) = state_to_idx shape s) /\
  (- n <= s < 0 -> get_state_coords m (Some s) = state_to_idx shape (s + n)) /\
  (s < - n \/ n <= s -> get_state_coords m (Some s) = Err IndexError) /\
  get_state_coords m None = Err AssertionError.
Proof.
  intros A NA m shape s SH n.
  destruct (C01_coordinate_table A NA shape) as (_ & L & T). cbv zeta in L, T.
  assert (G : get_state_coords m (Some s) = (let coords := snd (grid_coords (zero_grid (A:=A) shape)) in
              bind (py_index (length coords) s) (fun i => Ok (nth i coords (0, 0))))).
  { unfold get_state_coords. rewrite SH. reflexivity. }
  cbv zeta in G. rewrite L in G. split; [|split; [|split]].
  - intros H. rewrite G, py_index_nonneg by (subst n; lia). cbn [bind]. rewrite <- T by (subst n; lia).
    rewrite Z2Nat.id by lia. reflexivity.
  - intros H. rewrite G. unfold py_index. fold n.
    destruct (Z.leb_spec 0 s); [lia|]. destruct (Z.leb_spec (- n) s); [|lia].
    cbn [bind]. rewrite <- T by (subst n; lia). rewrite Z2Nat.id by lia. f_equal. lia.
  - intros H. rewrite G. unfold py_index. fold n.
    destruct (Z.leb_spec 0 s).
    + destruct (Z.ltb_spec s n); [lia|reflexivity].
    + destruct (Z.leb_spec (- n) s); [lia|reflexivity].
  - reflexivity.
Qed.

(** The coordinates of an agent's position are those of the cell it stands on, at all times. *)
Theorem C167_agents : forall pl e a, reachable pl e -> In a (e_agents e) ->
  exists shape c s, m_shape (e_mdp e) = Some shape /\ stands_on (e_mdp e) (at_pos a) s /\
    get_state_coords (e_mdp e) (Some (at_pos a)) = Ok c /\ in_grid shape c /\
    idx_to_state shape c = Ok (Z.of_nat s) /\
    (forall t, (t < m_n_states (e_mdp e))%nat -> idx_to_state shape c <> Ok (Z.of_nat t) -> feat (e_mdp e) (at_feature_idx a) t = 0%R).
Proof.
  intros pl e a RE Ha. destruct (reachable_wf _ _ RE) as (k & shape & st & W).
  pose proof (wf_grid _ _ _ _ W) as I. destruct (C16_on_a_state pl e a RE Ha) as (s & Hs & Ls).
  assert (Hn : m_n_states (e_mdp e) = (fst shape * snd shape)%nat) by exact (gi_ns _ _ _ _ I).
  destruct (C01_state_roundtrip shape (Z.of_nat s)) as [H _].
  destruct H as (c & E & Ic & _ & Back); [lia|].
  destruct (C167_coordinates R NumR (e_mdp e) shape (at_pos a) (gi_shape _ _ _ _ I)) as (P1 & P2 & P3 & _).
  exists shape, c, s. split; [exact (gi_shape _ _ _ _ I)|]. split; [exact Hs|].
  split; [|split; [exact Ic|split; [exact Back|]]].
  - unfold stands_on, py_index in Hs. rewrite Hn in Hs.
    set (n := Z.of_nat (fst shape * snd shape)) in *.
    destruct (Z.leb_spec 0 (at_pos a)).
    + destruct (Z.ltb_spec (at_pos a) n); [|discriminate]. injection Hs as Hs.
      rewrite P1 by lia. rewrite <- E. f_equal. lia.
    + destruct (Z.leb_spec (- n) (at_pos a)); [|discriminate]. injection Hs as Hs.
      rewrite P2 by lia. rewrite <- E. f_equal. lia.
  - intros t Ht Nt. destruct (C16_marks_only_position pl e a s RE Ha Hs) as [M _]. apply M; [exact Ht|].
    intros ->. apply Nt. exact Back.
Qed.

(** On a 3 by 4 grid: state 7, the last cell counted from the end, a number that is not a state. *)
Example C167_example : exists m, grid_mdp (A:=Q) Square [repeat 0%Q 12] None (3, 4)%nat false = Ok m /\
  get_state_coords m (Some 7) = Ok (1, 3) /\ get_state_coords m (Some (-1)) = Ok (2, 3) /\
  get_state_coords m (Some 12) = Err IndexError /\ get_state_coords m None = Err AssertionError.
Proof. eexists. vmr. Qed.

Print Assumptions C167_coordinates.
Print Assumptions C167_agents.
