(** C245 applies to a search with two agents. *)
From Coq Require Import String List ZArith Reals Bool Lia Lra Psatz.
From Flocq Require Import Core BinarySingleNaN.
From Verif Require Import PyBase PyProofs GridModel MDPModel MDPSpec MDPProofs2 ActionModel ActionProofs RSum ActionSpec EnvModel EnvSpec EnvProofs SoftmaxProofs VISpec VIModel VIProps RoundModel RoundSpec RoundProofs RoundProps RoundExample RoundWalk IEEEModel SimRound SimMDP SimEnv IEEE IEEEEnv MCTSModel MCTSSpec MCTSProofs MCTSProofs2 MCTSProps MCTSWalk MCTSRoundStats IEEESearch.
Import ListNotations.
Local Open Scope R_scope.

#[local] Existing Instance NumB.

(** Two agents swap places on two states; the second moves at random, the first is rewarded in the second state. The hypotheses are met and the fit succeeds. *)
Definition mdp2 : mdp b64 := let z := @n0 b64 NumB in let i := @n1 b64 NumB in
  mkMDP None [[[z; i]]; [[i; z]]] [[[z; i]]; [[i; z]]] true [] 2 1 [[z; i]; [i; z]; [z; i]] [[z; i]] 3 1 2 [z; z].
Definition hero2 : attached b64 := let z := @n0 b64 NumB in let i := @n1 b64 NumB in mkAttached "a" 2 [i; z; i] [] [] 0 1 None 0%Z 0%Z [] None None.
Definition other2 : attached b64 := let z := @n0 b64 NumB in let i := @n1 b64 NumB in mkAttached "b" 1 [z; i; z] [] [] 1 2 None 1%Z 1%Z [] None None.
Definition env2 : env b64 := mkEnv mdp2 ["a"; "b"]%string [hero2; other2] 2 0.
Definition cfg2 : mcts_config b64 := mkMCTS 3 (@n1 b64 NumB) (@n0 b64 NumB) true OppRandom true 500 nine_tenths tolerance.
Example C245_example : exists score v q b, sized_fit cfg2 env2 hero2 [[2]; [1]]%Z /\ m_n_states (e_mdp env2) = length (m_sas (e_mdp env2)) /\ @mcts_fit b64 NumB score cfg2 env2 hero2 (Some [[2]; [1]]%Z) (fun _ _ => 0%nat) 20 = Ok (v, q) /\ nth 0 (nth 0 q []) NaN = Fin b.
Proof.
  assert (Z0 : fits (2 ^ 100) (@n0 b64 NumB)) by (apply fits_within; now apply within_zero).
  assert (I1 : fits (2 ^ 100) (@n1 b64 NumB)). { destruct (c_one _ _ _ _ ieee_computes) as [F V]. split; [exact F|]. rewrite V, Rabs_R1. apply pow_R1_Rle. lra. }
  assert (SF : sized_fit cfg2 env2 hero2 [[2]; [1]]%Z).
  { split; cbn [m_features e_mdp env2 mdp2 mc_cost cfg2 e_agents length mc_n_iter map m_sas]; try exact Z0; try (match goal with |- (_ <= _)%Z => vm_compute; congruence | |- (_ < _)%Z => reflexivity end).
    - repeat (apply Forall_cons || apply Forall_nil); first [exact Z0|exact I1].
    - intros b [->|[<-|[<-|[]]]]; repeat (apply Forall_cons || apply Forall_nil); first [exact Z0|exact I1].
    - intros [|[|s]] row H; cbn [nth] in H; [destruct H as [<-|[]]; reflexivity|destruct H as [<-|[]]; reflexivity|]. destruct s; destruct H. }
  set (score := (fun _ _ _ _ _ => NaN) : scorer b64). exists score.
  assert (E : match @mcts_fit b64 NumB score cfg2 env2 hero2 (Some [[2]; [1]]%Z) (fun _ _ => 0%nat) 20 with Ok (_, q) => match nth 0 (nth 0 q []) NaN with Fin _ => true | _ => false end | Err _ => false end = true) by (lazy; reflexivity).
  destruct (@mcts_fit b64 NumB score cfg2 env2 hero2 (Some [[2]; [1]]%Z) (fun _ _ => 0%nat) 20) as [[v q]|] eqn:M; [|discriminate]. destruct (nth 0 (nth 0 q []) NaN) as [| | |b] eqn:Q; [discriminate|discriminate|discriminate|]. exists v, q, b. split; [exact SF|]. split; [reflexivity|]. split; [reflexivity|exact Q].
Qed.
