(** C243 applies to a grid: three states in a row, a reward of 5 in the last. *)
From Coq Require Import String List ZArith Reals Bool Lia Lra.
From Flocq Require Import Core BinarySingleNaN.
From Verif Require Import PyBase PyProofs GridModel GridSpec MDPModel MDPSpec MDPProofs2 RSum EnvModel EnvSpec EnvProofs VISpec VIModel VIProps VIEnvProps RoundModel RoundSpec RoundProps RoundExample RoundWalk IEEEModel SimRound SimMDP IEEE.
Import ListNotations.
Local Open Scope R_scope.

Example C243_example : exists m' m Vs v q, @grid_mdp b64 NumB Square [[@n0 b64 NumB; @n0 b64 NumB; @n1 b64 NumB]] None (1, 3)%nat false = Ok m' /\ grid_mdp (A:=R) Square [[0; 0; 1]] None (1, 3)%nat false = Ok m /\
  msim stands m' m /\ n_states (m_sas m) = 3%nat /\ optimal (m_sas m) (reward_of [5] (m_features m)) g64 Vs /\
  @vi_fit b64 NumB nine_tenths tolerance 500 m' [@nofZ b64 NumB 5] = Ok (map Fin v, q) /\ accurate64 (m_sas m) (reward_of [5] (m_features m)) Vs v q.
Proof.
  destruct (grid_mdp_ok Square [[0; 0; 1]] None (1, 3)%nat false) as (m & EG & G & _ & MF & _); [cbn; lia|repeat constructor|reflexivity|apply binary_zeros|].
  assert (U : usable (rounded_greedy float64 g64 tol64 500) m) by exact (usable_grid _ _ _ _ _ _ _ [] EG). destruct (C206_grids _ _ U) as [M SU]. destruct (grid_shape _ _ _ _ G) as (NS & _). change (nst (1, 3)%nat) with 3%nat in NS.
  destruct (default_numbers 1 ltac:(lia)) as (GB & _). apply Rabs_le_inv in GB. destruct (c_zero _ _ _ _ ieee_computes) as [F0 V0]. destruct (c_one _ _ _ _ ieee_computes) as [F1 V1].
  pose proof (C243_grids Square [[@n0 b64 NumB; @n0 b64 NumB; @n1 b64 NumB]] None (1, 3)%nat false) as GS. cbn [map option_map] in GS. rewrite V0, V1, EG in GS. specialize (GS ltac:(repeat constructor; assumption) I).
  destruct (@grid_mdp b64 NumB Square [[@n0 b64 NumB; @n0 b64 NumB; @n1 b64 NumB]] None (1, 3)%nat false) as [m'|] eqn:EB; [|contradiction]. cbn in GS.
  destruct (C29_unique_solution (m_sas m) (reward_of [5] (m_features m)) g64 M ltac:(lra)) as (Vs & O & _). destruct C243_settings as [SG ST]. destruct (whole 5 ltac:(lia)) as [F5 V5].
  destruct (C243_fit (rounded_greedy float64 g64 tol64 500) m' m [@nofZ b64 NumB 5] nine_tenths tolerance Vs U GS) as (v & q & E & A); auto; try (cbn [map]; rewrite V5); auto; [now rewrite MF|cbn; lia| |].
  - intros t Ht. rewrite MF. unfold weight_of. cbn [length seq]. rewrite sumf_cons, sumf_nil. cbn [nth]. rewrite Rplus_0_r. destruct t as [|[|[|]]]; [| | |lia]; cbn [nth]; rewrite Rabs_pos_eq; lra.
  - cbn [map] in A. rewrite V5 in A. exists m', m, Vs, v, q. auto 10.
Qed.
(** Two sweeps over two states, computed bit by bit: an action that leads from each state to the other, and a reward of 1 in the second. *)
Example C243_bits : let z := @n0 b64 NumB in let i := @n1 b64 NumB in
  match @solve_value_iteration b64 NumB (@hard_backup b64 NumB) [i] [[z; i]] 2 nine_tenths [[[z; i]]; [[i; z]]] tolerance with
  | Ok ([v0; v1], _) => (B2SF v0, B2SF v1) = (SpecFloat.S754_finite false 8151515325540598 (-52), SpecFloat.S754_finite false 7336363792986538 (-52))
  | _ => False
  end.
Proof. vm_compute. reflexivity. Qed.
