(** What a failed construction leaves behind: C196, and C64 for all MDPs. *)
From Coq Require Import String List ZArith QArith Reals Bool Lia Lra.
From Verif Require Import PyBase PyProofs GridModel GridSpec MDPModel MDPSpec MDPProofs MDPProofs2 MDPProofs3 MDPProofs4 MDPProps ActionModel EnvModel PlanProps EnvSpec EnvProofs EnvProofs2 EnvProofs3 EnvProps.
Import ListNotations.
Local Close Scope Q_scope.
Local Open Scope nat_scope.

(** ** Specification *)
(** [s] is the first entry of the list [ss] that the constructor does not accept for [m]. *)
Definition first_refused (m : mdp R) (ss : list (spec R)) (s : spec R) : Prop :=
  exists good rest, ss = good ++ s :: rest /\ (forall g, In g good -> valid_entry (n_ordinary m) (length ss) (m_n_states m) g) /\
    ~ valid_entry (n_ordinary m) (length ss) (m_n_states m) s.
(** The reward function and the consumed features of the entry pass the checks. *)
Definition lengths_fine (m : mdp R) (ss : list (spec R)) (s : spec R) : Prop :=
  length (sp_reward s) = n_ordinary m + length ss /\ forall z, In z (sp_consumes s) -> (z < Z.of_nat (n_ordinary m + length ss))%Z.

(** ** The loop over the agents *)
Lemma attach_all_app : forall nf nag (l l' : list (spec R)) m idx acc, attach_all nf nag m idx (l ++ l') acc =
  match attach_all nf nag m idx l acc with (m', Err x) => (m', Err x) | (m', Ok acc') => attach_all nf nag m' (idx + length l) l' acc' end.
Proof.
  intros nf nag l. induction l as [|s l IH]; intros l' m idx acc; cbn [app attach_all length].
  - now rewrite Nat.add_0_r.
  - destruct (attach_checked nf nag m idx s) as [m1 [a|x]]; [|reflexivity]. rewrite IH. now replace (S idx + length l) with (idx + S (length l)) by lia.
Qed.
Definition with_orig (m : mdp R) (o : list (list R)) : mdp R :=
  mkMDP (m_shape m) (m_sas m) (m_orig_sas m) (m_deterministic m) (m_adjacency m) (m_n_states m) (m_n_actions m) (m_features m) o (m_n_features m) (m_n_non_agent m) (m_n_agents m) (m_walls m).
Lemma attach_checked_orig : forall nf nag m o idx s, snd (attach_checked nf nag (with_orig m o) idx s) = snd (attach_checked nf nag m idx s) /\
  (forall a, snd (attach_checked nf nag m idx s) = Ok a -> fst (attach_checked nf nag (with_orig m o) idx s) = fst (attach_checked nf nag m idx s)).
Proof.
  intros nf nag m o idx s. unfold attach_checked. destruct (negb (length (sp_reward s) =? nf + nag)); [now split|]. destruct (existsb _ (sp_consumes s)); [now split|].
  unfold attach, add_agent_feature. change (m_n_states (with_orig m o)) with (m_n_states m). change (m_features (with_orig m o)) with (m_features m). change (m_n_agents (with_orig m o)) with (m_n_agents m). change (m_n_non_agent (with_orig m o)) with (m_n_non_agent m).
  destruct (py_index (m_n_states m) (sp_pos s)) as [p|x]; [|now split].
  change (set_features (with_n_agents (with_orig m o) (m_n_agents m + 1)) (m_features m ++ [upd (zeros1 (m_n_states m)) p n1])) with (set_features (with_n_agents m (m_n_agents m + 1)) (m_features m ++ [upd (zeros1 (m_n_states m)) p n1])).
  destruct (set_features (with_n_agents m (m_n_agents m + 1)) (m_features m ++ [upd (zeros1 (m_n_states m)) p n1])) as [m2|x]; [|now split].
  now split.
Qed.
Lemma attach_all_orig : forall nf nag m o idx ss acc, ss <> [] -> snd (attach_all nf nag (with_orig m o) idx ss acc) = snd (attach_all nf nag m idx ss acc) /\
  (forall l, snd (attach_all nf nag m idx ss acc) = Ok l -> fst (attach_all nf nag (with_orig m o) idx ss acc) = fst (attach_all nf nag m idx ss acc)).
Proof.
  intros nf nag m o idx [|s ss] acc NE; [contradiction|]. cbn [attach_all]. destruct (attach_checked_orig nf nag m o idx s) as [H1 H2].
  destruct (attach_checked nf nag (with_orig m o) idx s) as [m1 r1]. destruct (attach_checked nf nag m idx s) as [m2 r2]. cbn [fst snd] in *. subst r1. destruct r2 as [a|x]; [|split; [reflexivity|discriminate]]. rewrite (H2 a eq_refl). now split.
Qed.

(** ** How far the constructor gets *)
Definition grown (m0 : mdp R) (good : list (spec R)) : mdp R := match good with [] => m0 | _ => extended m0 (rows_from m0 good) end.
Lemma rows_len : forall (m : mdp R) ss, Forall (fun row => length row = m_n_states m) (rows_from m ss).
Proof. intros m ss. induction ss as [|s ss IH]; cbn [rows_from]; constructor; [destruct (py_index (m_n_states m) (sp_pos s)); apply onehot_len|exact IH]. Qed.
Lemma grown_clean : forall k shape st m0 good, clean k shape st m0 -> m_n_agents m0 = 0 -> clean k shape st (grown m0 good) /\ m_n_agents (grown m0 good) = length good /\ m_n_states (grown m0 good) = m_n_states m0.
Proof.
  intros k shape st m0 good C A0. destruct good as [|g good]; [auto|]. cbn [grown]. split; [apply extended_clean; [exact C|apply rows_len]|]. split; [|reflexivity]. cbn [extended m_n_agents]. rewrite A0. assert (L : forall l, length (rows_from m0 l) = length l) by (induction l; cbn; auto). now rewrite L.
Qed.
Lemma attach_good : forall k shape st nf nag m0 good s rest, clean k shape st m0 -> m_n_agents m0 = 0 -> (forall g, In g good -> valid_entry nf nag (m_n_states m0) g) ->
  exists acc, attach_all nf nag m0 0 (good ++ s :: rest) [] = attach_all nf nag (grown m0 good) (length good) (s :: rest) acc.
Proof.
  intros k shape st nf nag m0 good s rest C A0 V. rewrite attach_all_app. destruct good as [|g good]; [exists []; reflexivity|]. rewrite (attach_all_ok k shape st nf nag (g :: good) m0 0 [] C A0 V) by discriminate. eexists. reflexivity.
Qed.
Lemma make_env_good : forall k shape st m good s rest, clean k shape st m -> (forall g, In g good -> valid_entry (n_ordinary m) (length (good ++ s :: rest)) (m_n_states m) g) ->
  exists m0 acc, (if 0 <? m_n_agents m then remove_agent_features m else Ok m) = Ok m0 /\ clean k shape st m0 /\ m_n_agents m0 = 0 /\ m_n_features m0 = n_ordinary m /\ m_n_states m0 = m_n_states m /\
  m_features m0 = firstn (n_ordinary m) (m_features m) /\
  make_env m (good ++ s :: rest) = match attach_all (n_ordinary m) (length (good ++ s :: rest)) (grown m0 good) (length good) (s :: rest) acc with (m1, Err x) => (m1, Err x) | (m1, Ok ags) => (m1, Ok (mkEnv m1 (map sp_name (good ++ s :: rest)) ags (length ags) 0)) end.
Proof.
  intros k shape st m good s rest C V. destruct (cleaned_ok k shape st m C) as (m0 & E0 & C0 & A0 & F0 & N0 & S0 & W0 & NN0 & NS0 & Z0 & Z1).
  destruct (attach_good k shape st (n_ordinary m) (length (good ++ s :: rest)) m0 good s rest C0 A0) as (acc & EA); [rewrite NS0; exact V|].
  exists m0, acc. split; [exact E0|]. do 5 (split; [assumption|]). unfold make_env. rewrite E0, N0, EA. reflexivity.
Qed.
(** Taking the agents' rows away again. *)
Lemma regrown : forall k shape st m0 good, clean k shape st m0 -> m_n_agents m0 = 0 -> good <> [] ->
  remove_agent_features (grown m0 good) = Ok (with_orig m0 (m_features m0)).
Proof.
  intros k shape st m0 good C A0 NE. destruct good as [|g good]; [contradiction|]. assert (L : forall l, length (rows_from m0 l) = length l) by (induction l; cbn; auto). cbn [grown]. unfold remove_agent_features.
  cbn [extended m_n_agents m_features]. rewrite A0. cbn [Nat.add]. rewrite app_length, L. destruct (Nat.eqb_spec (length (g :: good)) 0); [discriminate|]. replace (length (m_features m0) + length (g :: good) - length (g :: good)) with (length (m_features m0)) by lia.
  rewrite firstn_app, Nat.sub_diag, firstn_all. cbn [firstn]. rewrite app_nil_r. rewrite set_features_ok by apply (cl_table _ _ _ _ C). cbn [bind]. f_equal. unfold with_n_agents, with_orig. cbn. rewrite A0. f_equal. symmetry. apply (cl_table _ _ _ _ C).
Qed.
(** If the entry that is refused has a wrong number of rewards or consumes a feature that does not exist, the failed attempt changes
    nothing for later constructions, whatever was attached before. *)
Theorem C196_harmless : forall pl m ss s, usable pl m -> first_refused m ss s -> ~ lengths_fine m ss s ->
  exists m1 x, make_env m ss = (m1, Err x) /\ (x = AttributeError \/ x = ValueError) /\
    forall ss', ss' <> [] -> snd (make_env m1 ss') = snd (make_env m ss').
Proof.
  intros pl m ss s U (good & rest & E & V & _) NL. destruct (usable_clean _ _ U) as (k & shape & st & C). subst ss.
  destruct (make_env_good k shape st m good s rest C V) as (m0 & acc & E0 & C0 & A0 & N0 & NS0 & F0 & EM). rewrite EM. cbn [attach_all].
  assert (AC : exists x, attach_checked (n_ordinary m) (length (good ++ s :: rest)) (grown m0 good) (length good) s = (grown m0 good, Err x) /\ (x = AttributeError \/ x = ValueError)).
  { unfold attach_checked. destruct (Nat.eqb_spec (length (sp_reward s)) (n_ordinary m + length (good ++ s :: rest))) as [EL|NEL]; cbn [negb]; [|eauto].
    destruct (existsb (fun i => (Z.of_nat (length (sp_reward s)) - 1 <? i)%Z) (sp_consumes s)) eqn:X; [eauto|]. elim NL. split; [exact EL|]. intros z Hz.
    destruct (Z.ltb_spec z (Z.of_nat (n_ordinary m + length (good ++ s :: rest)))); [assumption|]. assert (Y : existsb (fun i => (Z.of_nat (length (sp_reward s)) - 1 <? i)%Z) (sp_consumes s) = true); [|congruence]. apply existsb_exists. exists z. split; [exact Hz|]. apply Z.ltb_lt. lia. }
  destruct AC as (x & AC & HX). rewrite AC. exists (grown m0 good), x. split; [reflexivity|]. split; [exact HX|]. intros ss' NE.
  unfold make_env at 2. rewrite E0. unfold make_env. destruct good as [|g good].
  - cbn [grown]. rewrite A0. reflexivity.
  - destruct (grown_clean k shape st m0 (g :: good) C0 A0) as (_ & AG & _). rewrite AG. cbn [length Nat.ltb Nat.leb]. rewrite (regrown k shape st m0 (g :: good) C0 A0) by discriminate.
    change (m_n_features (with_orig m0 (m_features m0))) with (m_n_features m0). destruct (attach_all_orig (m_n_features m0) (length ss') m0 (m_features m0) 0 ss' [] NE) as [H1 H2].
    destruct (attach_all (m_n_features m0) (length ss') (with_orig m0 (m_features m0)) 0 ss' []) as [u1 r1]. destruct (attach_all (m_n_features m0) (length ss') m0 0 ss' []) as [u2 r2]. cbn [fst snd] in *. subst r1. destruct r2 as [ags|y]; [|reflexivity]. now rewrite (H2 ags eq_refl).
Qed.
(** If only the position of the entry is wrong, the MDP counts an agent that has no row: every construction that would have succeeded
    before raises AttributeError now. *)
Theorem C64_position_refuted : forall pl m ss s, usable pl m -> 0 < n_ordinary m -> first_refused m ss s -> lengths_fine m ss s ->
  exists m1, make_env m ss = (m1, Err IndexError) /\ n_ordinary m1 = n_ordinary m - 1 /\
    forall ss' m2 e, ss' <> [] -> make_env m ss' = (m2, Ok e) -> snd (make_env m1 ss') = Err AttributeError.
Proof.
  intros pl m ss s U PO (good & rest & E & V & NV) [L1 L2]. destruct (usable_clean _ _ U) as (k & shape & st & C). subst ss.
  destruct (make_env_good k shape st m good s rest C V) as (m0 & acc & E0 & C0 & A0 & N0 & NS0 & F0 & EM). rewrite EM. cbn [attach_all].
  destruct (grown_clean k shape st m0 good C0 A0) as (CG & AG & SG).
  assert (AC : attach_checked (n_ordinary m) (length (good ++ s :: rest)) (grown m0 good) (length good) s = (with_n_agents (grown m0 good) (length good + 1), Err IndexError)).
  { unfold attach_checked. rewrite L1, Nat.eqb_refl. cbn [negb]. destruct (existsb _ (sp_consumes s)) eqn:X.
    - apply existsb_exists in X. destruct X as (z & Hz & LT). apply Z.ltb_lt in LT. specialize (L2 z Hz). lia.
    - unfold attach, add_agent_feature. rewrite AG, SG, NS0. destruct (py_index (m_n_states m) (sp_pos s)) as [p|y] eqn:EP.
      + elim NV. split; [exact L1|]. split; [exact L2|]. apply stands_on_iff. exists p. exact EP.
      + now rewrite (py_index_err _ _ _ EP). }
  rewrite AC. eexists. split; [reflexivity|].
  assert (NFG : m_n_features (grown m0 good) = n_ordinary m + length good).
  { destruct CG as [_ _ NF _ _]. assert (NN : m_n_non_agent (grown m0 good) = m_n_non_agent m0) by (destruct good; reflexivity). rewrite NF, NN, AG. rewrite <- N0, (cl_nf _ _ _ _ C0), A0. lia. }
  split. { unfold n_ordinary at 1. cbn [with_n_agents m_n_features m_n_agents]. lia. }
  intros ss' m2 e NE EO. pose proof (make_env_valid k shape st m ss' m2 e C EO) as VV. destruct ss' as [|s' ss']; [contradiction|]. destruct (VV s' (or_introl eq_refl)) as (L' & _).
  unfold make_env. cbn [with_n_agents m_n_agents]. destruct (Nat.ltb_spec 0 (length good + 1)); [|lia]. unfold remove_agent_features. cbn [with_n_agents m_n_agents m_features]. destruct (Nat.eqb_spec (length good + 1) 0); [lia|].
  pose proof (cl_table _ _ _ _ CG) as [TL TF]. rewrite <- TL, NFG. replace (n_ordinary m + length good - (length good + 1)) with (n_ordinary m - 1) by lia.
  rewrite set_features_ok.
  2:{ cbn. rewrite Forall_forall in *. intros r Hr. apply TF. eapply incl_firstn; exact Hr. }
  cbn [bind attach_all]. cbn [with_n_agents m_n_features]. rewrite firstn_length, <- TL, NFG. unfold attach_checked. rewrite L'. destruct (Nat.eqb_spec (n_ordinary m + length (s' :: ss')) (Nat.min (n_ordinary m - 1) (n_ordinary m + length good) + length (s' :: ss'))); [lia|]. reflexivity.
Qed.

(** ** Concrete cases *)
(** Two features on four states. The second of two agents has too few rewards, or stands outside the grid. *)
Definition fine_one : spec R := mkSpec "p"%string 1 None 0 [1; 0; 0; 0]%R [1%Z].
Definition too_short : spec R := mkSpec "q"%string 1 None 9 [1; 0]%R [].
Definition outside : spec R := mkSpec "q"%string 1 None 9 [1; 0; 0; 0]%R [].
Example C196_example : forall pl, exists m, usable pl m /\ 0 < n_ordinary m /\
  first_refused m [fine_one; too_short] too_short /\ ~ lengths_fine m [fine_one; too_short] too_short /\
  first_refused m [fine_one; outside] outside /\ lengths_fine m [fine_one; outside] outside /\ exists m2 e, make_env m [fine_one; fine_one] = (m2, Ok e).
Proof.
  intros pl. destruct (ex_usable pl) as (m & E & U & NO & NS). exists m. split; [exact U|]. rewrite NO. split; [lia|].
  assert (F : forall s, valid_entry (n_ordinary m) (length [fine_one; s]) (m_n_states m) fine_one) by (intros s; rewrite NO, NS; split; [reflexivity|]; split; [intros z [<-|[]]; cbn; lia|cbn; lia]).
  split. { exists [fine_one], []. split; [reflexivity|]. split; [intros g [<-|[]]; apply F|]. rewrite NO. intros (H & _). cbn in H. lia. }
  split. { intros (H & _). rewrite NO in H. cbn in H. lia. }
  split. { exists [fine_one], []. split; [reflexivity|]. split; [intros g [<-|[]]; apply F|]. rewrite NS. intros (_ & _ & H). cbn in H. lia. }
  split. { split; [rewrite NO; reflexivity|intros z []]. }
  apply (proj2 (C17_accepts_iff pl m [fine_one; fine_one] U)). intros s [<-|[<-|[]]]; apply F.
Qed.
