(** Property C152: every journey on a grid can be made back. *)
From Coq Require Import List ZArith QArith Reals Bool Lia.
From Verif Require Import PyBase PyProofs GridModel GridSpec GridProofs GridProofs2 GridProps MDPModel MDPSpec MDPProofs MDPProofs2 MDPProofs3 MDPProofs4 MDPProps.
Import ListNotations.
Local Close Scope Q_scope.
Local Open Scope nat_scope.

(** The action in the opposite direction; staying is its own. *)
Definition opposite (k : gkind) (a : nat) : nat := if a <? dirs_of k then (a + dirs_of k / 2) mod dirs_of k else a.
Lemma back_edge : forall k shape st walls s a t, walled_edge k shape st walls s a t -> walled_edge k shape st walls t (opposite k a) s.
Proof.
  intros k shape st walls s a t [E [W1 W2]]. split; [|split; assumption]. unfold opposite. destruct E as [[La Ma]|(E & -> & ->)].
  - left. destruct (Nat.ltb_spec a (dirs_of k)); [|lia]. split; [apply Nat.mod_upper_bound; destruct k; cbn; lia|]. rewrite <- Ma. destruct (C04_opposite_action (cell_of shape s)) as [HX SQ]. destruct k; cbn [dirs_of move_of] in *; [now apply SQ|now apply HX].
  - right. rewrite Nat.ltb_irrefl. auto.
Qed.
Lemma travels_snoc : forall k shape st m, grid_inv k shape st m -> forall s acts t a u, travels m s acts t -> t < nst shape -> u < nst shape -> walled_edge k shape st (m_walls m) t a u -> travels m s (acts ++ [a]) u.
Proof.
  intros k shape st m I s acts t a u T. induction T as [t|s b acts x t va E1 I1 NX T IH]; intros Ht Hu W; cbn [app].
  - apply (travels_one _ _ _ _ I t a u Ht Hu W). constructor.
  - econstructor; eauto.
Qed.
(** Taking the opposite actions in reverse order leads back. *)
Theorem C152_back : forall k feats w0 shape st m0 calls s acts t, grid_mdp (A:=R) k feats w0 shape st = Ok m0 -> let m := after_wall_calls m0 calls in
  s < fst shape * snd shape -> travels m s acts t -> travels m t (rev (map (opposite k) acts)) s.
Proof.
  intros k feats w0 shape st m0 calls s acts t E m Hs T. destruct (grid_mdp_inv _ _ _ _ _ _ E) as (_ & _ & _ & _ & I0 & _). destruct (after_wall_calls_inv calls _ _ _ _ I0) as [I _]. fold m in I. clearbody m. clear - I Hs T.
  change (s < nst shape) in Hs. revert s Hs T. induction acts as [|a acts IH]; intros s Hs T; [inversion T; constructor|].
  destruct (travels_inv _ _ _ _ I s a acts t Hs T) as (x & Hx & W & _ & T'). cbn [map rev]. eapply (travels_snoc _ _ _ _ I); [apply (IH x Hx T')|exact Hx|exact Hs|]. now apply back_edge.
Qed.
(** So travel times are the same both ways. *)
Theorem C152_fewest : forall k feats w0 shape st m0 calls s t n, grid_mdp (A:=R) k feats w0 shape st = Ok m0 -> let m := after_wall_calls m0 calls in
  s < fst shape * snd shape -> t < fst shape * snd shape ->
  (exists acts, travels m s acts t /\ length acts = n) /\ (forall acts, travels m s acts t -> n <= length acts) ->
  (exists acts, travels m t acts s /\ length acts = n) /\ (forall acts, travels m t acts s -> n <= length acts).
Proof.
  intros k feats w0 shape st m0 calls s t n E m Hs Ht [(acts & T & L) F]. split.
  - exists (rev (map (opposite k) acts)). split; [eapply C152_back; eauto|]. now rewrite rev_length, map_length.
  - intros acts' T'. pose proof (C152_back _ _ _ _ _ _ _ _ _ _ E Ht T') as B. specialize (F _ B). now rewrite rev_length, map_length in F.
Qed.
(** There and back on a hex grid around a wall in the middle, staying once. *)
Example C152_example : exists m m', grid_mdp (A:=Q) Hex [repeat 0%Q 9] None (3, 3) true = Ok m /\ MDPModel.set_walls m (upd (repeat 0%Q 9) 4 1%Q) = Ok m' /\
  let go s acts := foldM (fun s a => let* va := state_valid_actions m' (Z.of_nat s) in if existsb (Nat.eqb a) va then get_next_state m' (Z.of_nat s) (Z.of_nat a) else Err ValueError) acts s in
  go 3 [1; 6; 0; 5]%nat = Ok 5 /\ go 5 (rev (map (opposite Hex) [1; 6; 0; 5]%nat)) = Ok 3.
Proof. cbv zeta. do 2 eexists. vmr. Qed.
