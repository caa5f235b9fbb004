(** Concrete cases of policy learning. *)
From Coq Require Import List ZArith QArith Reals Bool Lia Lra.
From Verif Require Import PyBase PyProofs ActionSpec RSum GridModel GridSpec GridProofs GridProofs2 MDPModel MDPSpec MDPProofs MDPProofs2 MDPProofs3 MDPProofs4 MDPProps PLModel PLSpec PLAngles PLProofs PLProps PLProps2.
Import ListNotations.
Local Close Scope Q_scope.

(** A hex grid of two rows and three columns, and a walk of three moves in it. *)
Example valid_example : exists m, grid_mdp (A:=R) Hex ex_feats None (2, 3) false = Ok m /\ m_n_actions m = 6 /\ valid_on m [0; 1; 5; 2] /\ valid_on m [0; 1] /\ taken m [0; 1]%Z [0].
Proof.
  destruct (grid_mdp_ok Hex ex_feats None (2, 3) false) as (m & E & I & EW & _); [cbn; lia|repeat constructor|reflexivity|repeat constructor; now left|].
  exists m. split; [exact E|]. split; [exact (gi_na _ _ _ _ I)|].
  assert (W : forall s a t, s < 6 -> t < 6 -> edgeb Hex (2, 3) false s a t = true -> walled_edge Hex (2, 3) false (m_walls m) s a t).
  { intros s a t Hs Ht Eb. split; [now apply edgeb_spec|]. rewrite EW. unfold is_wall, walls_arg. assert (X : forall i, nth i (repeat 0%R 6) 0%R <> 1%R) by (intros i; rewrite nth_repeat; lra). split; apply X. }
  assert (AD : forall s t, s < 6 -> t < 6 -> (exists a, edgeb Hex (2, 3) false s a t = true) -> is_adjacent m (Z.of_nat s) (Z.of_nat t) = Ok true).
  { intros s t Hs Ht (a & Ea). destruct (is_adjacent_spec _ _ _ _ I s t Hs Ht) as (b & Eb & Sb). rewrite Eb. f_equal. apply Sb. exists a. now apply W. }
  assert (L1 : linked m [0; 1]) by (split; [apply AD; [lia|lia|exists 0; reflexivity]|exact Logic.I]).
  split; [|split].
  - exists Hex, ex_feats, None, (2, 3), false, m, []. split; [exact E|]. split; [reflexivity|]. split; [repeat constructor|]. split; [apply AD; [lia|lia|exists 0; reflexivity]|]. split; [apply AD; [lia|lia|exists 1; reflexivity]|]. split; [apply AD; [lia|lia|exists 5; reflexivity]|exact Logic.I].
  - exists Hex, ex_feats, None, (2, 3), false, m, []. split; [exact E|]. split; [reflexivity|]. split; [repeat constructor|exact L1].
  - destruct (traj_convert _ _ _ _ I [0; 1] ltac:(repeat constructor) L1) as (sa & Es & Ls & H). exists sa. split; [exact Es|]. destruct sa as [|[z a] [|? ?]]; try discriminate. cbn. f_equal.
    destruct (H 0 ltac:(cbn; lia)) as (_ & NX & va & EV & IV). cbn [nth snd fst] in *. destruct (in_valid_actions _ _ _ _ I 0 ltac:(cbn; lia)) as (va' & EV' & V). change (Z.of_nat 0) with 0%Z in *. assert (va' = va) by congruence. subst va'. apply V in IV. destruct IV as (t & Ht & WE).
    pose proof (next_state_edge _ _ _ _ I 0 a t ltac:(cbn; lia) Ht WE) as NX'. change (Z.of_nat 0) with 0%Z in *. assert (t = 1) by congruence. subst t.
    apply (edge_unique_a Hex (2, 3) false 0 0 a 1); [apply (W 0 0 1); [lia|lia|reflexivity]|apply WE].
Qed.

(** Default learner (rate 0.3, decay 0.5) on the walk above: three trajectories of one move succeed and have
    observed action 0 three times; the walk as one trajectory fails. *)
Example C49_example : exists m c l0 l', grid_mdp (A:=R) Hex ex_feats None (2, 3) false = Ok m /\ td_learner (3 / 10) (DecayFloat (1 / 2)) None false (2 / 100) = Ok (c, l0) /\
  fit_learner c (OneMDP m) [[0; 1]; [0; 1]; [0; 1]]%Z l0 = (l', Ok tt) /\ observed (mdps_of (OneMDP m) 3) [[0; 1]; [0; 1]; [0; 1]]%Z [0; 0; 0] /\ (forall x, In x (mdps_of (OneMDP m) 3) -> m_n_actions x = 6) /\
  exists l'', fit_learner c (OneMDP m) [[0; 1; 5; 2]]%Z l0 = (l'', Err IndexError).
Proof.
  destruct valid_example as (m & E & NA & V3 & V1 & T).
  assert (ET : exists c l0, td_learner (3 / 10) (DecayFloat (1 / 2)) None false (2 / 100) = Ok (c, l0)).
  { unfold td_learner. cbn [decay_value n0 nltb NumR]. unfold Rltb. destruct (Rlt_dec 0 (3 / 10)) as [_|X]; [|exfalso; lra]. cbn [negb]. destruct (Rlt_dec (1 / 2) 0) as [X|_]; [exfalso; lra|]. eauto. }
  destruct ET as (c & l0 & ET). assert (FI : fits None (DecayFloat (1 / 2)) 6) by (split; [exact Logic.I|right; eauto]).
  assert (N : forall x, In x (mdps_of (OneMDP m) 3) -> m_n_actions x = 6) by (intros x [<-|[<-|[<-|[]]]]; exact NA).
  destruct (fit_new _ _ _ _ _ _ _ (OneMDP m) [[0; 1]; [0; 1]; [0; 1]] 6 ET FI N ltac:(repeat constructor; exact V1)) as [(l' & S) _].
  { split; [|discriminate]. intros t [<-|[<-|[<-|[]]]]; cbn; lia. }
  exists m, c, l0, l'. split; [exact E|]. split; [exact ET|]. split; [exact S|]. split.
  - cbn [mdps_of repeat]. change [0; 0; 0] with ([0] ++ [0] ++ [0] ++ []). repeat (constructor; [exact T|]). constructor.
  - split; [exact N|]. rewrite <- NA in FI. exact (C48_one_trajectory_refuted _ _ _ _ _ _ _ m [0; 1; 5; 2] ET FI V3 ltac:(cbn; lia)).
Qed.

(** Over the rationals, rate 3/10 without decay: the estimates, what is left after the failure, and the
    resets. *)
Definition td_q : td_config Q := mkTD (3 # 10)%Q false (fun _ => Ok 1%Q) onehot_reward.
Definition canonical (v : qval Q) : qval Q := match v with QArr q => QArr (map Qred q) | x => x end.
Example C47_example : exists m, grid_mdp (A:=Q) Hex [[0; 0; 0; 0; 0; 0]]%Q None (2, 3) false = Ok m /\
  (let '(l, r) := fit_learner td_q (OneMDP m) [[0; 1]; [1; 5]; [0; 1]]%Z (new_learner td_q None) in (canonical (learner_q_values l), r)) = (QArr [447 # 1000; 21 # 100; 0; 0; 0; 0]%Q, Ok tt) /\
  (let '(l, r) := fit_learner td_q (OneMDP m) [[0; 1; 5; 2]]%Z (new_learner td_q None) in (canonical (learner_q_values l), r)) = (QArr [3 # 10; 0; 0; 0; 0; 0]%Q, Err IndexError).
Proof. eexists. vmr. Qed.
Example C50_example : exists m, grid_mdp (A:=Q) Hex [[0; 0; 0; 0; 0; 0]]%Q None (2, 3) false = Ok m /\
  let fit l := fst (fit_learner td_q (OneMDP m) [[0; 1]]%Z l) in let reset := reset_learner td_q in let l0 := new_learner td_q (Some [0; 0; 0; 0; 0; 0]%Q) in
  canonical (learner_q_values (fit l0)) = QArr [3 # 10; 0; 0; 0; 0; 0]%Q /\ canonical (learner_q_values (reset (fit l0))) = QArr [0; 0; 0; 0; 0; 0]%Q /\
  canonical (learner_q_values (reset (fit (reset (fit l0))))) = QArr [3 # 10; 0; 0; 0; 0; 0]%Q /\
  snd (fit_learner td_q (OneMDP m) [[0; 1]]%Z (reset (new_learner td_q None))) = Err TypeError.
Proof. eexists. cbv zeta. vmr. Qed.

(** ** Turns on the grids *)
(** On the hex grid, directions one turn apart lead to adjacent cells, and three turns is straight back. *)
Theorem C79_hex_turns : forall c i j, i < 6 -> j < 6 ->
  (turns 6 i j = 1 <-> exists d, d < 6 /\ hex_move d (hex_move i c) = hex_move j c) /\ (turns 6 i j = 3 <-> hex_move j (hex_move i c) = c).
Proof.
  intros [x y] i j Hi Hj.
  assert (A : (exists d, d < 6 /\ hex_move d (hex_move i (x, y)) = hex_move j (x, y)) <-> hexd (hex_move i (x, y)) (hex_move j (x, y)) = 1%Z).
  { split; [intros (d & _ & <-); apply hex_move_dist1|intros H; destruct (hexd_one_move _ _ H) as (d & Hd & E); exists d; auto]. }
  rewrite A. clear A.
  assert (B : turns 6 i j = 3 <-> j = (i + 3) mod 6) by (clear x y; dirs6 i; dirs6 j; cbn; lia).
  assert (C : hex_move j (hex_move i (x, y)) = (x, y) <-> j = (i + 3) mod 6).
  { split; [|intros ->; now apply hex_move_back]. intros E. apply (hex_move_inj _ _ (hex_move i (x, y)) Hj); [apply Nat.mod_upper_bound; lia|]. now rewrite hex_move_back. }
  rewrite C. split; [|exact B]. clear B C. unfold hex_move. destruct (sh_step x) as [He Ho]. destruct (Z.even x); [destruct (He eq_refl) as [P M]|destruct (Ho eq_refl) as [P M]]; clear He Ho; dirs6 i; dirs6 j; unfold hexd, qz; cbn [fst snd]; rewrite ?P, ?M; (split; intros H; [first [exfalso; cbv in H; discriminate H|clear H; lia]|first [reflexivity|exfalso; lia]]).
Qed.
Theorem C79_square_turns : forall c i j, i < 4 -> j < 4 -> (turns 4 i j = 2 <-> square_move j (square_move i c) = c).
Proof.
  intros c i j Hi Hj. assert (B : turns 4 i j = 2 <-> j = (i + 2) mod 4) by (dirs4 i; dirs4 j; cbn; lia). rewrite B. split; [intros ->; now apply square_move_back|].
  intros E. apply (square_move_inj _ _ (square_move i c) Hj); [apply Nat.mod_upper_bound; lia|]. now rewrite square_move_back.
Qed.
(** ** C82: staying as an action *)
(** If agents may stay (a seventh action of hex grids), staying is treated as one more direction: direction 0
    is generalised to staying more than to direction 5, although 0 and 5 lead to adjacent cells. *)
Theorem C82_staying_refuted : forall ls v, ls <> 0%R -> kernel_reward ls (actions_of Hex true) 0 = Ok v -> (nth 5 v 0 < nth 6 v 0)%R /\ nth 6 v 0%R = nth 1 v 0%R /\ turns 6 5 0 = 1.
Proof.
  intros ls v Hl E. destruct (C79_generalisation ls 7 0 v Hl ltac:(lia) E) as (_ & _ & H). split; [|split; [|reflexivity]].
  - apply (proj1 (H 6 5 ltac:(lia) ltac:(lia))). cbn. lia.
  - destruct (H 6 1 ltac:(lia) ltac:(lia)) as [A _]. destruct (H 1 6 ltac:(lia) ltac:(lia)) as [B _]. destruct (Rtotal_order (nth 6 v 0%R) (nth 1 v 0%R)) as [X|[X|X]]; [apply B in X; cbn in X; lia|exact X|apply A in X; cbn in X; lia].
Qed.
