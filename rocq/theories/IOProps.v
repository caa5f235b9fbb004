(** Properties C56, C102, C103: saving and loading environments. *)
From Coq Require Import String List ZArith QArith Reals Bool Lia Lra.
From Verif Require Import PyBase PyProofs GridModel GridSpec MDPModel MDPSpec MDPProofs MDPProofs2 MDPProofs3 MDPProofs4 MDPProps EnvModel EnvSpec EnvProofs EnvProofs2 EnvProofs3 EnvProofs4 EnvProps IOModel IOProofs.
Import ListNotations.
Local Close Scope Q_scope.
Local Open Scope nat_scope.

(** Truncation of reals towards zero. *)
Definition Rtrunc (x : R) : Z := if Rle_dec 0 x then Int_part x else (- Int_part (- x))%Z.
Definition whole (x : R) : Prop := exists z, x = IZR z.
Lemma Int_part_IZR : forall z, Int_part (IZR z) = z.
Proof. intros z. unfold Int_part. assert (up (IZR z) = z + 1)%Z; [|lia]. symmetry. apply tech_up; rewrite plus_IZR; lra. Qed.
Lemma trunc_whole : forall x, whole x -> IZR (Rtrunc x) = x.
Proof. intros x [z ->]. unfold Rtrunc. destruct (Rle_dec 0 (IZR z)); [now rewrite Int_part_IZR|]. rewrite <- opp_IZR, Int_part_IZR. f_equal. lia. Qed.
(** Truncation keeps the integer part. *)
Lemma trunc_spec : forall x, (Rabs (IZR (Rtrunc x)) <= Rabs x < Rabs (IZR (Rtrunc x)) + 1)%R /\ (0 <= x -> 0 <= IZR (Rtrunc x))%R /\ (x <= 0 -> IZR (Rtrunc x) <= 0)%R.
Proof.
  intros x. unfold Rtrunc. destruct (Rle_dec 0 x) as [P|N].
  - destruct (base_Int_part x) as [B1 B2]. assert (P1 : (0 <= IZR (Int_part x))%R). { apply IZR_le. assert (IZR (-1) < IZR (Int_part x))%R by lra. apply lt_IZR in H. lia. }
    rewrite !Rabs_right by lra. split; [lra|]. split; [lra|]. intros. assert (x = 0)%R by lra. subst x. lra.
  - destruct (base_Int_part (- x)) as [B1 B2]. assert (P1 : (0 <= IZR (Int_part (- x)))%R). { apply IZR_le. assert (IZR (-1) < IZR (Int_part (- x)))%R by lra. apply lt_IZR in H. lia. }
    rewrite opp_IZR. rewrite Rabs_Ropp, (Rabs_right (IZR _)), (Rabs_left x) by lra. split; [lra|]. split; lra.
Qed.

(** Environments on a hexagonal grid with [nf] ordinary features: any walls set at any time, agents with
    distinct names, any sequence of calls. *)
Definition hex_built (pl : plugins R) (nf : nat) (shape : nat * nat) (st : bool) (e : env R) : Prop :=
  exists feats w0 m0 calls ss m' e0 ops, grid_mdp (A:=R) Hex feats w0 shape st = Ok m0 /\ length feats = nf /\
    make_env (after_wall_calls m0 calls) ss = (m', Ok e0) /\ NoDup (map sp_name ss) /\ e = run pl e0 ops.

Lemma hex_built_facts : forall pl nf shape st e, hex_built pl nf shape st e ->
  wf Hex shape st e /\ reachable pl e /\ m_n_features (e_mdp e) = nf + length (e_agents e) /\ m_n_agents (e_mdp e) = length (e_agents e) /\ NoDup (map at_name (e_agents e)).
Proof.
  intros pl nf shape st e (feats & w0 & m0 & calls & ss & m' & e0 & ops & H & L & E & ND & ->). destruct (grid_clean _ _ _ _ _ _ calls H) as (C & _ & F & N).
  pose proof (make_env_wf _ _ _ _ _ _ _ C E) as W0. pose proof (run_wf pl _ _ _ ops e0 W0) as W. pose proof (run_static pl _ _ _ ops e0 W0) as (S1 & S2 & S3).
  pose proof (usable_grid pl _ _ _ _ _ _ calls H) as U. destruct (C17_result pl _ ss m' e0 U ND E) as (R1 & _ & _ & _ & R5 & _ & R7 & _).
  assert (NO : n_ordinary (after_wall_calls m0 calls) = nf). { unfold n_ordinary. rewrite N. destruct (cl_table _ _ _ _ C) as [T _]. rewrite T, F. lia. }
  assert (LA : length (e_agents (run pl e0 ops)) = length ss). { rewrite <- R5, <- (map_length ident), S2. apply map_length. }
  unfold mident in S3. inversion S3 as [[X1 X2 X3 X4 X5 X6 X7 X8]]. split; [exact W|]. split.
  { clear -U E. assert (R0 : reachable pl e0) by (eapply reach_new; eauto). revert R0. generalize e0. induction ops as [|o ops IH]; intros e1 R1; [exact R1|]. cbn [run fold_left]. apply IH. now constructor. }
  rewrite LA, X6, X8, R1, R7, NO. split; [reflexivity|]. split; [|apply (wf_names _ _ _ _ W)].
  pose proof (wf_nf _ _ _ _ W0) as NF. rewrite R1 in NF. assert (NN : m_n_non_agent m' = nf).
  { pose proof (make_env_valid _ _ _ _ _ _ _ C E) as V. destruct (make_env_ok Hex shape st _ ss C V) as (m1 & C1 & A1 & _ & N1 & _ & _ & _ & _ & _ & E'). cbv zeta in E'. rewrite E in E'.
    assert (E2 : m' = match ss with [] => m1 | _ :: _ => extended m1 (rows_from m1 ss) end) by congruence. pose proof (cl_nf _ _ _ _ C1) as NF1. rewrite E2. destruct ss; cbn [m_n_non_agent extended]; lia. }
  lia.
Qed.

Section RoundTrip.
Variable K : Type.
Let world := world (A:=R) K.

(** A kit the loader knows. *)
Definition known_kit (k : kit K) : Prop := kit_algorithm _ k = Some "value_iteration"%string /\ (kit_selector _ k = Some "max"%string \/ kit_selector _ k = Some "softmax"%string).
Definition kits_known (w : world) : Prop := forall a, In a (e_agents (w_env _ w)) -> exists k, kit_of _ w (at_name a) = Some k /\ known_kit k.

(** The loaded agent: [r] is what became of its rewards. *)
Definition reloaded (r : R -> R) (a b : attached R) : Prop :=
  at_name b = at_name a /\ at_n_moves b = at_n_moves a /\ at_pos b = at_pos a /\ at_consumes b = at_consumes a /\ at_reward b = map r (at_reward a).

(** The loaded world: [f] is what became of the values of features, [r] of rewards. *)
Definition reload (f r : R -> R) (nf : nat) (shape : nat * nat) (w w' : world) : Prop :=
  let m := e_mdp (w_env _ w) in let m' := e_mdp (w_env _ w') in
  m_shape m' = Some shape /\ m_walls m' = m_walls m /\ m_sas m' = m_sas m /\ w_self _ w' = w_self _ w /\
  m_n_features m' = m_n_features m /\ (forall i s, i < nf -> s < fst shape * snd shape -> feat m' i s = f (feat m i s)) /\
  length (e_agents (w_env _ w')) = length (e_agents (w_env _ w)) /\
  (forall i a, nth_error (e_agents (w_env _ w)) i = Some a -> exists b, nth_error (e_agents (w_env _ w')) i = Some b /\ reloaded r a b) /\
  (forall a, In a (e_agents (w_env _ w)) -> kit_of _ w' (at_name a) = kit_of _ w (at_name a)).

Lemma find_kit : forall (l : list (string * kit K)) k v, NoDup (map fst l) -> In (k, v) l -> find (fun p => String.eqb (fst p) k) l = Some (k, v).
Proof.
  induction l as [|[k' v'] l IH]; intros k v ND H; [destruct H|]. cbn [find fst map] in *. inversion ND as [|? ? NI ND']. subst. destruct (String.eqb_spec k' k) as [->|NE].
  - destruct H as [E|H]; [congruence|]. elim NI. apply in_map_iff. exists (k, v). auto.
  - destruct H as [E|H]; [congruence|]. now apply IH.
Qed.

(** What is written for an agent. *)
Definition written (w : world) (a : attached R) (p : string * agent_info K) : Prop :=
  fst p = at_name a /\ exists k, kit_of _ w (at_name a) = Some k /\ known_kit k /\ Some (i_algorithm _ (snd p)) = kit_algorithm _ k /\ i_algorithm_kwargs _ (snd p) = kit_algorithm_kwargs _ k /\
    Some (i_selector _ (snd p)) = kit_selector _ k /\ i_selector_kwargs _ (snd p) = kit_selector_kwargs _ k /\
    i_position _ (snd p) = AtIndex (at_pos a) /\ i_n_moves _ (snd p) = at_n_moves a /\ i_reward _ (snd p) = map Rtrunc (at_reward a) /\ i_consumes _ (snd p) = at_consumes a.

Lemma mapM_exists : forall X Y (f : X -> res Y) (P : X -> Y -> Prop) l, (forall x, In x l -> exists y, f x = Ok y /\ P x y) -> exists l', mapM f l = Ok l' /\ Forall2 P l l'.
Proof.
  induction l as [|x l IH]; intros H; [exists []; auto|]. destruct (H x (or_introl eq_refl)) as (y & E & Py). destruct IH as (l' & E' & F); [intros; apply H; now right|].
  exists (y :: l'). cbn [mapM]. rewrite E. cbn [bind]. rewrite E'. auto.
Qed.

Lemma write_ok : forall w shape a, (exists k, kit_of _ w (at_name a) = Some k /\ known_kit k) -> exists p, write_agent Rtrunc K FIndex shape w a = Ok p /\ written w a p.
Proof.
  intros w shape a (k & Hk & KN). unfold write_agent. cbn [bind]. rewrite Hk. pose proof KN as [K1 K2]. rewrite K1. destruct (kit_selector K k) as [sn|] eqn:KS; [|destruct K2; discriminate].
  eexists. split; [reflexivity|]. split; [reflexivity|]. exists k. cbn. rewrite K1, KS. split; [exact Hk|]. split; [exact KN|]. repeat split.
Qed.

(** What is read for an agent. *)
Definition readr (w : world) (a : attached R) (x : spec R * (string * kit K) * where_written) : Prop :=
  sp_name (fst (fst x)) = at_name a /\ sp_n_moves (fst (fst x)) = at_n_moves a /\ sp_pos (fst (fst x)) = at_pos a /\ sp_reward (fst (fst x)) = map (fun r => IZR (Rtrunc r)) (at_reward a) /\
  sp_consumes (fst (fst x)) = at_consumes a /\ is_index (snd x) = true /\ fst (snd (fst x)) = at_name a /\ kit_of _ w (at_name a) = Some (snd (snd (fst x))).

Lemma read_ok : forall w a p, written w a p -> exists x, read_agent (A:=R) K p = Ok x /\ readr w a x.
Proof.
  intros w a [name i] (N & k & Hk & [KA KS] & A1 & A2 & S1 & S2 & P & M & R & C). cbn [fst snd] in *. subst name. unfold read_agent.
  assert (EA : i_algorithm K i = "value_iteration"%string) by congruence. assert (ES : i_selector K i = "max"%string \/ i_selector K i = "softmax"%string) by (destruct KS; [left|right]; congruence).
  assert (B1 : String.eqb (i_algorithm K i) "value_iteration" = true) by (rewrite EA; reflexivity).
  assert (B2 : (String.eqb (i_selector K i) "max" || String.eqb (i_selector K i) "softmax")%bool = true) by (destruct ES as [-> | ->]; reflexivity).
  rewrite B1, B2. cbn [negb]. eexists. split; [reflexivity|]. unfold readr. cbn. rewrite P, R, map_map. do 7 (split; [auto; fail|]).
  rewrite Hk. f_equal. destruct k as [ka kk ks kw]. cbn in *. congruence.
Qed.

Lemma Forall2_app_compose : forall X Y Z (P : X -> Y -> Prop) (Q : X -> Z -> Prop) (f : Y -> res Z) l l', Forall2 P l l' -> (forall x y, P x y -> exists z, f y = Ok z /\ Q x z) -> exists l2, mapM f l' = Ok l2 /\ Forall2 Q l l2.
Proof.
  intros X Y Z P Q f l l' F H. induction F as [|x y l l' Pxy F IH]; [exists []; auto|]. destruct (H _ _ Pxy) as (z & E & Qz). destruct IH as (l2 & E2 & F2). exists (z :: l2). cbn [mapM]. rewrite E. cbn [bind]. rewrite E2. auto.
Qed.
Lemma Forall2_nth : forall X Y (P : X -> Y -> Prop) l l' i x, Forall2 P l l' -> nth_error l i = Some x -> exists y, nth_error l' i = Some y /\ P x y.
Proof. intros X Y P l l' i x F. revert i. induction F as [|a b l l' Pab F IH]; intros [|i] E; cbn [nth_error] in *; try discriminate; [inversion E; subst; eauto|auto]. Qed.
Lemma Forall2_len : forall X Y (P : X -> Y -> Prop) l l', Forall2 P l l' -> length l = length l'.
Proof. induction 1; cbn; congruence. Qed.
Lemma Forall2_map_eq : forall X Y Z (P : X -> Y -> Prop) (f : X -> Z) (g : Y -> Z) l l', Forall2 P l l' -> (forall x y, P x y -> g y = f x) -> map g l' = map f l.
Proof. induction 1; intros H1; cbn; [reflexivity|]. f_equal; auto. Qed.

Lemma nth_error_ext_len : forall X (l l' : list X), length l = length l' -> (forall i x, nth_error l' i = Some x -> nth_error l i = Some x) -> l = l'.
Proof.
  induction l as [|a l IH]; intros [|b l'] L H; cbn in L; try discriminate; [reflexivity|]. pose proof (H 0 b eq_refl) as Q. cbn in Q. f_equal; [congruence|]. apply IH; [lia|]. intros i x Hx. apply (H (S i) x Hx).
Qed.

(** The general round trip: which names are used for loading decides what becomes of the features. *)
Lemma round_trip : forall pl nf shape st (w : world) names, hex_built pl nf shape st (w_env _ w) -> w_self _ w = st -> kits_known w -> length names = nf -> NoDup names ->
  exists d, hex_env_to_dict Rtrunc K w (Some names) FIndex = Ok d /\
  forall names' f, (names' = names /\ f = presence) \/ (names' = [] /\ f = (fun _ => 0%R)) ->
  exists w', hex_environment_from_dict (A:=R) K d names' = Ok w' /\ wf Hex shape st (w_env _ w') /\ reload f (fun x => IZR (Rtrunc x)) nf shape w w'.
Proof.
  intros pl nf shape st w names HB ST KN LN ND. destruct (hex_built_facts _ _ _ _ _ HB) as (W & RE & NF & NA & NDA). set (e := w_env K w) in *. set (m := e_mdp e) in *.
  pose proof (wf_grid _ _ _ _ W) as G. fold m in G. pose proof (wf_table _ _ _ _ W) as [T1 T2]. fold m in T1, T2. set (N := nst shape) in *.
  assert (NS : m_n_states m = N) by apply (gi_ns _ _ _ _ G).
  assert (RL : forall i, i < nf -> length (nth i (m_features m) []) = N). { intros i Hi. rewrite Forall_forall in T2. rewrite <- NS. apply T2, nth_In. lia. }
  destruct (mapM_exists _ _ (write_agent Rtrunc K FIndex shape w) (written w) (e_agents e)) as (ags & EA & FA). { intros a Ha. apply write_ok. now apply KN. }
  set (vals := fun i => Indices (nonzero (nth i (m_features m) []))).
  assert (EF : foldM (fun d '(f, name) => let* s := write_states FIndex shape (nth f (m_features m) []) in Ok (dict_set d name s)) (combine (seq 0 (length names)) names) [] = Ok (map (entry vals) (combine (seq 0 (length names)) names))).
  { rewrite (write_features _ vals (fun f => write_states FIndex shape (nth f (m_features m) [])) names 0 []); [reflexivity| |exact ND]. intros i _. reflexivity. }
  set (d := mkDict K shape (map (entry vals) (combine (seq 0 (length names)) names)) (Indices (nonzero (m_walls m))) "hex" (w_self K w) ags).
  exists d. split.
  { unfold hex_env_to_dict. fold e. fold m. rewrite NF. replace (Z.of_nat (nf + length (e_agents e)) - Z.of_nat (length (e_agents e)) =? Z.of_nat (length names))%Z with true by (symmetry; apply Z.eqb_eq; lia).
    cbn [negb]. rewrite (gi_shape _ _ _ _ G), EF. cbn [bind write_states]. rewrite EA. reflexivity. }
  intros names' f HF.
  assert (RF : exists feats, read_features (A:=R) K d names' = Ok feats /\ length feats = nf /\ Forall (fun row => length row = N) feats /\ forall i s, i < nf -> s < N -> nth s (nth i feats []) 0%R = f (feat m i s)).
  { unfold read_features. cbn [d_size d_features d]. fold (nst shape). fold N. assert (LE : length (map (entry vals) (combine (seq 0 (length names)) names)) = nf) by (rewrite map_length, combine_length, seq_length; lia). rewrite LE.
    destruct HF as [[-> ->]|[-> ->]].
    - exists (map (fun i => map presence (nth i (m_features m) [])) (seq 0 (length names))). split; [|split; [|split]].
      + pose proof (read_rows (dict_get (map (entry vals) (combine (seq 0 (length names)) names))) (fun i => map presence (nth i (m_features m) [])) N names 0 [] eq_refl) as RR. rewrite LN in *. apply RR. clear RR.
        intros i name Hin. exists (vals i). split.
        * apply dict_get_in; [pose proof (entries_keys _ vals names 0) as EK; rewrite LN in EK; now rewrite EK|]. apply in_map_iff. exists (i, name). split; [reflexivity|exact Hin].
        * apply mark_nonzero, RL. apply in_combine_l, in_seq in Hin. lia.
      + now rewrite map_length, seq_length.
      + apply Forall_forall. intros row Hr. apply in_map_iff in Hr. destruct Hr as (i & <- & Hi). apply in_seq in Hi. rewrite map_length. apply RL. lia.
      + intros i s Hi Hs. rewrite (nth_map_lt _ _ (fun i => map presence (nth i (m_features m) [])) (seq 0 (length names)) i [] 0) by (rewrite seq_length; lia). rewrite seq_nth by lia. cbn [Nat.add].
        rewrite (nth_map_lt _ _ presence _ s 0%R 0%R) by (rewrite RL; lia). reflexivity.
    - exists (zeros2 nf N). split; [reflexivity|]. unfold zeros2. split; [apply repeat_length|]. split.
      + apply Forall_forall. intros row Hr. apply repeat_spec in Hr. subst row. unfold zeros1. apply repeat_length.
      + intros i s Hi Hs. rewrite nth_repeat_lt by assumption. unfold zeros1. now rewrite nth_repeat_lt. }
  destruct RF as (feats & ER & LF & WF & VF).
  destruct (Forall2_app_compose _ _ _ _ (readr w) (read_agent (A:=R) K) _ _ FA) as (xs & EX & FX). { intros. now apply read_ok. }
  assert (WB : map presence (m_walls m) = m_walls m) by (apply presence_binary, (gi_wbin _ _ _ _ G)).
  destruct (grid_mdp_ok Hex feats (Some (m_walls m)) shape st) as (m1 & E1 & G1 & W1 & F1 & O1 & N1 & A1 & _).
  { apply (gi_pos _ _ _ _ G). } { exact WF. } { apply (gi_wlen _ _ _ _ G). } { apply (gi_wbin _ _ _ _ G). }
  cbn [walls_arg] in W1. set (ss := map (fun a : spec R * (string * kit K) * where_written => fst (fst a)) xs).
  pose proof (usable_grid pl _ _ _ _ _ _ [] E1) as U. cbn [after_wall_calls fold_left] in U.
  assert (SSN : map sp_name ss = map at_name (e_agents e)). { unfold ss. rewrite map_map. eapply Forall2_map_eq; [exact FX|]. intros a x Hx. apply Hx. }
  assert (LS : length ss = length (e_agents e)). { rewrite <- (map_length sp_name), SSN. apply map_length. }
  assert (NDS : NoDup (map sp_name ss)) by (rewrite SSN; exact NDA).
  assert (NO : n_ordinary m1 = nf) by (unfold n_ordinary; lia).
  assert (NS1 : m_n_states m1 = N) by apply (gi_ns _ _ _ _ G1).
  assert (V : forall s, In s ss -> valid_entry (n_ordinary m1) (length ss) (m_n_states m1) s).
  { intros s Hs. unfold ss in Hs. apply in_map_iff in Hs. destruct Hs as (x & <- & Hx). apply In_nth_error in Hx. destruct Hx as (i & Hi).
    assert (exists a, nth_error (e_agents e) i = Some a) as (a & Ha). { assert (i < length (e_agents e)) by (rewrite (Forall2_len _ _ _ _ _ FX); apply nth_error_Some; congruence). destruct (nth_error (e_agents e) i) eqn:Q; [eauto|]. apply nth_error_None in Q. lia. }
    destruct (Forall2_nth _ _ _ _ _ _ _ FX Ha) as (y & Hy & (Q1 & Q2 & Q3 & Q4 & Q5 & _)). assert (x = y) by congruence. subst y.
    assert (OK : agent_ok m a). { apply (wf_agents _ _ _ _ W). eapply nth_error_In. exact Ha. }
    destruct OK as (_ & _ & _ & O4 & (s0 & O5) & _ & O7). unfold valid_entry. rewrite NO, NS1, Q3, Q4, Q5, map_length, O4, NF, LS. split; [reflexivity|]. split; [intros z Hz; rewrite <- NF; now apply O7|].
    unfold stands_on in O5. rewrite NS in O5. apply py_index_ok in O5. lia. }
  destruct (proj2 (C17_accepts_iff pl m1 ss U) V) as (m2 & e2 & E2). destruct (C17_result pl _ _ _ _ U NDS E2) as (R1 & _ & _ & _ & R5 & R6 & R7 & R8 & R9 & R10).
  assert (IX : forallb (fun a : spec R * (string * kit K) * where_written => is_index (snd a)) xs = true). { clear -FX. induction FX as [|a x l l' P F IH]; [reflexivity|]. cbn [forallb]. rewrite IH. destruct P as (_ & _ & _ & _ & _ & -> & _). reflexivity. }
  set (ks := map (fun a : spec R * (string * kit K) * where_written => snd (fst a)) xs).
  exists (mkWorld K e2 st ks). split.
  { unfold hex_environment_from_dict. rewrite ER. cbn [d_type d_size d_walls d_self d_agents d String.eqb Ascii.eqb Bool.eqb negb bind]. fold (nst shape). fold N. rewrite (mark_nonzero (m_walls m) N (gi_wlen _ _ _ _ G)), WB. cbn [bind]. rewrite ST, E1. cbn [bind]. rewrite EX. cbn [bind]. rewrite IX. fold ss. rewrite E2. reflexivity. }
  assert (SH2 : wf Hex shape st e2). { destruct (grid_clean _ _ _ _ _ _ [] E1) as (C1 & _). eapply make_env_wf; [exact C1|exact E2]. }
  split; [exact SH2|]. unfold reload. cbn [w_env w_self]. fold e. fold m. rewrite R1. pose proof (wf_grid _ _ _ _ SH2) as G2. rewrite R1 in G2.
  split; [apply (gi_shape _ _ _ _ G2)|]. split; [congruence|]. split. { symmetry. eapply same_transitions; [exact G|exact G2|congruence]. }
  split; [congruence|]. split; [rewrite R7, NO, NF; lia|]. split.
  { intros i s Hi Hs. rewrite R8 by lia. unfold feat at 1, get2. rewrite F1. apply VF; assumption. }
  split; [lia|]. split.
  - intros i a Ha. destruct (Forall2_nth _ _ _ _ _ _ _ FX Ha) as (x & Hx & (Q1 & Q2 & Q3 & Q4 & Q5 & _)).
    assert (Hs : nth_error ss i = Some (fst (fst x))) by (unfold ss; now apply map_nth_error with (f := fun a : spec R * (string * kit K) * where_written => fst (fst a))).
    destruct (R6 _ _ Hs) as (b & Hb & FR & _). exists b. split; [exact Hb|]. destruct FR as (B1 & B2 & B3 & B4 & _ & _ & _ & _ & B9 & _). unfold reloaded. repeat split; congruence.
  - intros a Ha. apply In_nth_error in Ha. destruct Ha as (i & Ha). destruct (Forall2_nth _ _ _ _ _ _ _ FX Ha) as (x & Hx & (_ & _ & _ & _ & _ & _ & Q7 & Q8)).
    rewrite Q8. unfold kit_of. cbn [w_kits]. rewrite (find_kit ks (at_name a) (snd (snd (fst x)))); [reflexivity| |].
    + assert (map fst ks = map at_name (e_agents e)) as ->; [|exact NDA]. unfold ks. rewrite map_map. eapply Forall2_map_eq; [exact FX|]. intros a' x' Hx'. apply Hx'.
    + unfold ks. apply in_map_iff. exists x. split; [rewrite <- Q7; now destruct (snd (fst x))|]. eapply nth_error_In. exact Hx.
Qed.

(** ** C56 *)
Definition binary_features (nf : nat) (w : world) : Prop := forall i s, i < nf -> s < m_n_states (e_mdp (w_env _ w)) -> feat (e_mdp (w_env _ w)) i s = 0%R \/ feat (e_mdp (w_env _ w)) i s = 1%R.
Definition whole_rewards (w : world) : Prop := forall a r, In a (e_agents (w_env _ w)) -> In r (at_reward a) -> whole r.

Lemma reload_whole : forall f nf shape w w', whole_rewards w -> reload f (fun x => IZR (Rtrunc x)) nf shape w w' -> reload f (fun x => x) nf shape w w'.
Proof.
  intros f nf shape w w' WR (H1 & H2 & H3 & H4 & H5 & H6 & H7 & H8 & H9). unfold reload. do 7 (split; [assumption|]). split; [|assumption].
  intros i a Ha. destruct (H8 i a Ha) as (b & Hb & B1 & B2 & B3 & B4 & B5). exists b. split; [exact Hb|]. unfold reloaded. do 4 (split; [assumption|]). rewrite B5. apply map_ext_in. intros r Hr. apply trunc_whole. eapply WR; [eapply nth_error_In; exact Ha|exact Hr].
Qed.

(** Through a dictionary everything is preserved. *)
Theorem C56_dict : forall pl nf shape st w names, hex_built pl nf shape st (w_env _ w) -> w_self _ w = st -> kits_known w ->
  binary_features nf w -> whole_rewards w -> length names = nf -> NoDup names ->
  exists d w', hex_env_to_dict Rtrunc K w (Some names) FIndex = Ok d /\ hex_environment_from_dict (A:=R) K d names = Ok w' /\ reload (fun x => x) (fun x => x) nf shape w w'.
Proof.
  intros pl nf shape st w names HB ST KN BF WR LN ND. destruct (hex_built_facts _ _ _ _ _ HB) as (W & _). destruct (round_trip _ _ _ _ _ _ HB ST KN LN ND) as (d & E & H). destruct (H names presence) as (w' & E' & _ & RL); [auto|].
  exists d, w'. split; [exact E|]. split; [exact E'|]. apply reload_whole; [exact WR|]. destruct RL as (H1 & H2 & H3 & H4 & H5 & H6 & H7 & H8 & H9). unfold reload. do 5 (split; [assumption|]). split; [|auto].
  intros i s Hi Hs. rewrite H6 by assumption. destruct (BF i s Hi) as [-> | ->]; [rewrite (gi_ns _ _ _ _ (wf_grid _ _ _ _ W)); exact Hs| |]; unfold presence; destruct (Req_EM_T _ _); lra.
Qed.

(** Through JSON everything but the features is preserved; these become zero. *)
Theorem C56_json_partial : forall pl nf shape st w names, hex_built pl nf shape st (w_env _ w) -> w_self _ w = st -> kits_known w ->
  whole_rewards w -> length names = nf -> NoDup names ->
  exists d w', hex_env_to_json Rtrunc K w (Some names) = Ok d /\ hex_environment_from_json (A:=R) K d = Ok w' /\ reload (fun _ => 0%R) (fun x => x) nf shape w w'.
Proof.
  intros pl nf shape st w names HB ST KN WR LN ND. destruct (round_trip _ _ _ _ _ _ HB ST KN LN ND) as (d & E & H). destruct (H [] (fun _ => 0%R)) as (w' & E' & _ & RL); [auto|].
  exists d, w'. split; [exact E|]. split; [exact E'|]. now apply reload_whole.
Qed.
(** C229: what saving as JSON keeps. *)
Theorem C229_json : forall pl nf shape st w names, hex_built pl nf shape st (w_env _ w) -> w_self _ w = st -> kits_known w ->
  whole_rewards w -> length names = nf -> NoDup names ->
  exists d w', hex_env_to_json Rtrunc K w (Some names) = Ok d /\ hex_environment_from_json (A:=R) K d = Ok w' /\ reload (fun _ => 0%R) (fun x => x) nf shape w w'.
Proof. exact (@C56_json_partial). Qed.

(** So through JSON no ordinary feature that is present anywhere is preserved. *)
Theorem C56_json_refuted : forall pl nf shape st w names i s, hex_built pl nf shape st (w_env _ w) -> w_self _ w = st -> kits_known w ->
  length names = nf -> NoDup names -> i < nf -> s < fst shape * snd shape -> feat (e_mdp (w_env _ w)) i s <> 0%R ->
  exists d w', hex_env_to_json Rtrunc K w (Some names) = Ok d /\ hex_environment_from_json (A:=R) K d = Ok w' /\ feat (e_mdp (w_env _ w')) i s <> feat (e_mdp (w_env _ w)) i s.
Proof.
  intros pl nf shape st w names i s HB ST KN LN ND Hi Hs NZ. destruct (round_trip _ _ _ _ _ _ HB ST KN LN ND) as (d & E & H). destruct (H [] (fun _ => 0%R)) as (w' & E' & _ & RL); [auto|].
  exists d, w'. split; [exact E|]. split; [exact E'|]. destruct RL as (_ & _ & _ & _ & _ & H6 & _). rewrite H6 by assumption. auto.
Qed.

(** ** C102: graded values *)
(** In general features become indicators and rewards lose their fractional part. *)
Theorem C102_actual_partial : forall pl nf shape st w names, hex_built pl nf shape st (w_env _ w) -> w_self _ w = st -> kits_known w -> length names = nf -> NoDup names ->
  exists d w', hex_env_to_dict Rtrunc K w (Some names) FIndex = Ok d /\ hex_environment_from_dict (A:=R) K d names = Ok w' /\
    reload (fun x => if Req_EM_T x 0 then 0%R else 1%R) (fun r => IZR (Rtrunc r)) nf shape w w'.
Proof. intros pl nf shape st w names HB ST KN LN ND. destruct (round_trip _ _ _ _ _ _ HB ST KN LN ND) as (d & E & H). destruct (H names presence) as (w' & E' & _ & RL); [auto|]. exists d, w'. auto. Qed.
(** C229: what saving as a dictionary keeps. *)
Theorem C229_dictionary : forall pl nf shape st w names, hex_built pl nf shape st (w_env _ w) -> w_self _ w = st -> kits_known w -> length names = nf -> NoDup names ->
  exists d w', hex_env_to_dict Rtrunc K w (Some names) FIndex = Ok d /\ hex_environment_from_dict (A:=R) K d names = Ok w' /\
    reload (fun x => if Req_EM_T x 0 then 0%R else 1%R) (fun r => IZR (Rtrunc r)) nf shape w w'.
Proof. exact (@C102_actual_partial). Qed.

Theorem C102_features_refuted : forall pl nf shape st w names i s, hex_built pl nf shape st (w_env _ w) -> w_self _ w = st -> kits_known w -> length names = nf -> NoDup names ->
  i < nf -> s < fst shape * snd shape -> feat (e_mdp (w_env _ w)) i s <> 0%R -> feat (e_mdp (w_env _ w)) i s <> 1%R ->
  exists d w', hex_env_to_dict Rtrunc K w (Some names) FIndex = Ok d /\ hex_environment_from_dict (A:=R) K d names = Ok w' /\ feat (e_mdp (w_env _ w')) i s <> feat (e_mdp (w_env _ w)) i s.
Proof.
  intros pl nf shape st w names i s HB ST KN LN ND Hi Hs N0 N1. destruct (C102_actual_partial _ _ _ _ _ _ HB ST KN LN ND) as (d & w' & E & E' & (_ & _ & _ & _ & _ & H6 & _)). exists d, w'. split; [exact E|]. split; [exact E'|].
  rewrite H6 by assumption. destruct (Req_EM_T _ _); auto.
Qed.

Theorem C102_rewards_refuted : forall pl nf shape st w names i a, hex_built pl nf shape st (w_env _ w) -> w_self _ w = st -> kits_known w -> length names = nf -> NoDup names ->
  nth_error (e_agents (w_env _ w)) i = Some a -> (exists r, In r (at_reward a) /\ ~ whole r) ->
  exists d w' b, hex_env_to_dict Rtrunc K w (Some names) FIndex = Ok d /\ hex_environment_from_dict (A:=R) K d names = Ok w' /\ nth_error (e_agents (w_env _ w')) i = Some b /\ at_reward b <> at_reward a.
Proof.
  intros pl nf shape st w names i a HB ST KN LN ND Ha (r & Hr & NW). destruct (C102_actual_partial _ _ _ _ _ _ HB ST KN LN ND) as (d & w' & E & E' & (_ & _ & _ & _ & _ & _ & _ & H8 & _)). destruct (H8 i a Ha) as (b & Hb & _ & _ & _ & _ & B5).
  exists d, w', b. split; [exact E|]. split; [exact E'|]. split; [exact Hb|]. rewrite B5. intros EQ. apply NW. clear -EQ Hr. revert EQ Hr. induction (at_reward a) as [|x l IH]; intros EQ Hr; [destruct Hr|]. cbn [map] in EQ. assert (Q1 : IZR (Rtrunc x) = x) by congruence. assert (Q2 : map (fun x => IZR (Rtrunc x)) l = l) by congruence.
  destruct Hr as [<-|Hr]; [exists (Rtrunc x); auto|now apply IH].
Qed.

(** ** C104: saving again *)
Lemma written_unique : forall w w' a b p p', kit_of _ w' (at_name a) = kit_of _ w (at_name a) -> reloaded (fun x => IZR (Rtrunc x)) a b -> written w a p -> written w' b p' -> p' = p.
Proof.
  intros w w' a b [n i] [n' i'] HK (B1 & B2 & B3 & B4 & B5) (N & k & Hk & _ & P1 & P2 & P3 & P4 & P5 & P6 & P7 & P8) (N' & k' & Hk' & _ & Q1 & Q2 & Q3 & Q4 & Q5 & Q6 & Q7 & Q8). cbn [fst snd] in *.
  rewrite B1, HK in Hk'. assert (k' = k) by congruence. subst k'. assert (RW : map Rtrunc (at_reward b) = map Rtrunc (at_reward a)). { rewrite B5, map_map. apply map_ext. intros r. unfold Rtrunc at 1. destruct (Rle_dec 0 (IZR (Rtrunc r))); [now rewrite Int_part_IZR|]. rewrite <- opp_IZR, Int_part_IZR. lia. }
  destruct i, i'. cbn in *. f_equal; [congruence|]. f_equal; congruence.
Qed.

Lemma nonzero_presence : forall v v' : list R, length v' = length v -> (forall s, s < length v -> nth s v' 0%R = presence (nth s v 0%R)) -> nonzero v' = nonzero v.
Proof.
  intros v v' L H. unfold nonzero. f_equal. assert (v' = map presence v) as ->. { apply (list_eq_nth _ _ _ 0%R); [now rewrite map_length|]. intros s Hs. rewrite (nth_map_lt _ _ presence v s 0%R 0%R) by lia. apply H. lia. }
  clear. unfold where_. generalize 0. induction v as [|x v IH]; intros k; [reflexivity|]. cbn [map where_from]. rewrite IH.
  assert (negb (neqb (presence x) n0) = negb (neqb x n0)) as ->; [|reflexivity]. f_equal. change (Reqb (presence x) 0 = Reqb x 0). unfold presence, Reqb. destruct (Req_EM_T x 0); destruct (Req_EM_T _ _); try reflexivity; lra.
Qed.

Lemma export_form : forall shape st nf (w : world) names, wf Hex shape st (w_env _ w) -> m_n_features (e_mdp (w_env _ w)) = nf + length (e_agents (w_env _ w)) -> kits_known w -> length names = nf -> NoDup names ->
  exists ags, Forall2 (written w) (e_agents (w_env _ w)) ags /\ hex_env_to_dict Rtrunc K w (Some names) FIndex =
    Ok (mkDict K shape (map (entry (fun i => Indices (nonzero (nth i (m_features (e_mdp (w_env _ w))) [])))) (combine (seq 0 (length names)) names)) (Indices (nonzero (m_walls (e_mdp (w_env _ w))))) "hex" (w_self _ w) ags).
Proof.
  intros shape st nf w names W NF KN LN ND. set (e := w_env K w) in *. set (m := e_mdp e) in *. pose proof (wf_grid _ _ _ _ W) as G. fold m in G.
  destruct (mapM_exists _ _ (write_agent Rtrunc K FIndex shape w) (written w) (e_agents e)) as (ags & EA & FA). { intros a Ha. apply write_ok. now apply KN. }
  exists ags. split; [exact FA|]. unfold hex_env_to_dict. fold e. fold m. rewrite NF. replace (Z.of_nat (nf + length (e_agents e)) - Z.of_nat (length (e_agents e)) =? Z.of_nat (length names))%Z with true by (symmetry; apply Z.eqb_eq; lia).
  cbn [negb]. rewrite (gi_shape _ _ _ _ G). pose proof (write_features _ (fun i => Indices (nonzero (nth i (m_features m) []))) (fun f => write_states FIndex shape (nth f (m_features m) [])) names 0 [] (fun i _ => eq_refl) ND) as EF. cbn [map app] in EF. rewrite EF. cbn [bind write_states]. rewrite EA. reflexivity.
Qed.

(** Saving a loaded environment gives the dictionary it was loaded from, also with graded values. *)
Theorem C104_again : forall pl nf shape st w names, hex_built pl nf shape st (w_env _ w) -> w_self _ w = st -> kits_known w -> length names = nf -> NoDup names ->
  exists d w', hex_env_to_dict Rtrunc K w (Some names) FIndex = Ok d /\ hex_environment_from_dict (A:=R) K d names = Ok w' /\ hex_env_to_dict Rtrunc K w' (Some names) FIndex = Ok d.
Proof.
  intros pl nf shape st w names HB ST KN LN ND. destruct (hex_built_facts _ _ _ _ _ HB) as (W & RE & NF & NA & NDA). destruct (round_trip _ _ _ _ _ _ HB ST KN LN ND) as (d & E & H). destruct (H names presence) as (w' & E' & W' & RL); [auto|].
  exists d, w'. split; [exact E|]. split; [exact E'|]. destruct RL as (H1 & H2 & H3 & H4 & H5 & H6 & H7 & H8 & H9).
  assert (KN' : kits_known w'). { intros b Hb. apply In_nth_error in Hb. destruct Hb as (i & Hb). assert (exists a, nth_error (e_agents (w_env _ w)) i = Some a) as (a & Ha). { assert (i < length (e_agents (w_env _ w))) by (rewrite <- H7; apply nth_error_Some; congruence). destruct (nth_error _ i) eqn:Q in |- *; [eauto|]. apply nth_error_None in Q. lia. }
    destruct (H8 i a Ha) as (b' & Hb' & B1 & _). assert (b' = b) by congruence. subst b'. rewrite B1, (H9 a (nth_error_In _ _ Ha)). apply KN. eapply nth_error_In. exact Ha. }
  destruct (export_form _ _ nf _ names W NF KN LN ND) as (ags & FA & EA). destruct (export_form _ _ nf _ names W') as (ags' & FA' & EA'); [lia|exact KN'|exact LN|exact ND|]. rewrite EA in E. assert (ED : d = _) by (symmetry; injection E as E; exact E). rewrite EA', ED. f_equal.
  assert (AG : ags' = ags). { apply nth_error_ext_len; [rewrite <- (Forall2_len _ _ _ _ _ FA), <- (Forall2_len _ _ _ _ _ FA'); lia|]. intros i p Hp. assert (exists a, nth_error (e_agents (w_env _ w)) i = Some a) as (a & Ha). { assert (i < length (e_agents (w_env _ w))) by (rewrite (Forall2_len _ _ _ _ _ FA); apply nth_error_Some; congruence). destruct (nth_error (e_agents (w_env K w)) i) eqn:Q; [eauto|]. apply nth_error_None in Q. lia. }
    destruct (H8 i a Ha) as (b & Hb & RB). destruct (Forall2_nth _ _ _ _ _ _ _ FA Ha) as (p1 & Hp1 & WP). destruct (Forall2_nth _ _ _ _ _ _ _ FA' Hb) as (p2 & Hp2 & WP2). assert (p1 = p) by congruence. subst p1. rewrite Hp2. f_equal. eapply written_unique; [apply H9; eapply nth_error_In; exact Ha|exact RB|exact WP|exact WP2]. }
  rewrite AG, H2, H4. f_equal. apply map_ext_in. intros [i name] Hin. unfold entry. cbn [fst snd]. do 2 f_equal. apply in_combine_l, in_seq in Hin.
  pose proof (wf_table _ _ _ _ W) as [T1 T2]. pose proof (wf_table _ _ _ _ W') as [T1' T2']. rewrite Forall_forall in T2, T2'. rewrite (gi_ns _ _ _ _ (wf_grid _ _ _ _ W)) in T2. rewrite (gi_ns _ _ _ _ (wf_grid _ _ _ _ W')) in T2'.
  assert (L1 : length (nth i (m_features (e_mdp (w_env _ w))) []) = nst shape) by (apply T2, nth_In; lia). assert (L2 : length (nth i (m_features (e_mdp (w_env _ w'))) []) = nst shape) by (apply T2', nth_In; lia).
  apply nonzero_presence; [congruence|]. intros s Hs. rewrite L1 in Hs. apply (H6 i s); [lia|exact Hs].
Qed.

(** ** C105: what cannot be saved or loaded *)
(** An agent whose algorithm or selector has no name (all but value iteration, greedy and softmax selection) stops the export. *)
Theorem C105_unnamed_refuted : forall pl nf shape st (w : world) names a k fmt, hex_built pl nf shape st (w_env _ w) -> In a (e_agents (w_env _ w)) -> kit_of _ w (at_name a) = Some k ->
  kit_algorithm _ k = None \/ kit_selector _ k = None -> exists x, hex_env_to_dict Rtrunc K w names fmt = Err x.
Proof.
  intros pl nf shape st w names a k fmt HB Ha Hk NN. unfold hex_env_to_dict. destruct names as [ns|]; [|eauto]. destruct (negb _); [eauto|]. destruct (m_shape _) as [sh|]; [|eauto]. destruct (foldM _ _ _) as [fs|x]; [|cbn; eauto]. cbn [bind]. destruct (write_states _ _ (m_walls _)) as [ws|x]; [|cbn; eauto]. cbn [bind].
  assert (exists x, mapM (write_agent Rtrunc K fmt sh w) (e_agents (w_env K w)) = Err x) as (x & ->); [|cbn; eauto].
  induction (e_agents (w_env K w)) as [|a' l IH]; [destruct Ha|]. cbn [mapM]. destruct Ha as [->|Ha].
  - assert (exists x, write_agent Rtrunc K fmt sh w a = Err x) as (x & ->); [|cbn; eauto]. unfold write_agent. destruct (match fmt with FIndex => _ | FCoords => _ end) as [p|x]; [|cbn; eauto]. cbn [bind]. rewrite Hk. destruct (kit_algorithm K k), (kit_selector K k); eauto. destruct NN; discriminate.
  - destruct (write_agent Rtrunc K fmt sh w a') as [p|x]; [|cbn; eauto]. cbn [bind]. destruct (IH Ha) as (x & ->). cbn. eauto.
Qed.
(** In the format 'index' and with as many names as ordinary features, the error is AttributeError. *)
Theorem C105_unnamed_error : forall pl nf shape st (w : world) names a k, hex_built pl nf shape st (w_env _ w) -> In a (e_agents (w_env _ w)) -> (forall b, In b (e_agents (w_env _ w)) -> kit_of _ w (at_name b) <> None) ->
  kit_of _ w (at_name a) = Some k -> kit_algorithm _ k = None \/ kit_selector _ k = None -> hex_env_to_dict Rtrunc K w (Some names) FIndex = Err AttributeError.
Proof.
  intros pl nf shape st w names a k HB Ha All Hk NN. unfold hex_env_to_dict. destruct (negb _); [reflexivity|]. destruct (m_shape _) as [sh|]; [|reflexivity].
  assert (exists fs, foldM (fun d '(f, name) => let* s := write_states FIndex sh (nth f (m_features (e_mdp (w_env K w))) []) in Ok (dict_set d name s)) (combine (seq 0 (length names)) names) [] = Ok fs) as (fs & ->).
  { generalize (@nil (string * index_list)). induction (combine (seq 0 (length names)) names) as [|[i n] l IH]; intros acc; cbn [foldM]; [eauto|]. cbn [write_states bind]. apply IH. }
  cbn [bind write_states].
  assert (mapM (write_agent Rtrunc K FIndex sh w) (e_agents (w_env K w)) = Err AttributeError) as ->; [|reflexivity].
  induction (e_agents (w_env K w)) as [|a' l IH]; [destruct Ha|]. cbn [mapM]. destruct Ha as [->|Ha].
  - assert (write_agent Rtrunc K FIndex sh w a = Err AttributeError) as ->; [|reflexivity]. unfold write_agent. cbn [bind]. rewrite Hk. destruct (kit_algorithm K k), (kit_selector K k); try reflexivity. destruct NN; discriminate.
  - assert (WA : write_agent Rtrunc K FIndex sh w a' = Err AttributeError \/ exists p, write_agent Rtrunc K FIndex sh w a' = Ok p). { unfold write_agent. cbn [bind]. specialize (All a' (or_introl eq_refl)). destruct (kit_of K w (at_name a')) as [k'|]; [|congruence]. destruct (kit_algorithm K k'), (kit_selector K k'); eauto. }
    destruct WA as [->|(p & ->)]; [reflexivity|]. cbn [bind]. rewrite IH; [reflexivity|exact Ha|]. intros b Hb. apply All. now right.
Qed.

(** With a repeated feature name the export succeeds, and loading with these names fails. *)
Lemma fold_keys : forall (f : nat -> res index_list) ns k acc d, NoDup (map fst acc) -> foldM (fun d '(i, name) => let* s := f i in Ok (dict_set d name s)) (combine (seq k (length ns)) ns) acc = Ok d ->
  NoDup (map fst d) /\ (forall x, In x (map fst d) <-> In x ns \/ In x (map fst acc)).
Proof.
  induction ns as [|n ns IH]; intros k acc d ND E; cbn [length seq combine foldM] in E.
  - assert (acc = d) by congruence. subst. split; [exact ND|]. intros x. cbn. tauto.
  - apply bind_ok in E. destruct E as (acc' & E1 & E2). apply bind_ok in E1. destruct E1 as (s & _ & E1). assert (acc' = dict_set acc n s) by congruence. subst acc'. destruct (dict_set_keys _ acc n s ND) as (N1 & N2 & _). destruct (IH _ _ _ N1 E2) as [Q1 Q2]. split; [exact Q1|]. intros x. rewrite Q2, N2. cbn. intuition.
Qed.
(** What is saved for a name are the states of the last feature of this name. *)
Lemma dict_get_set : forall (l : list (string * index_list)) k v x, dict_get (dict_set l k v) x = if String.eqb k x then Ok v else dict_get l x.
Proof.
  unfold dict_get. induction l as [|[k' v'] l IH]; intros k v x; cbn [dict_set find fst]; [destruct (String.eqb k x); reflexivity|].
  destruct (String.eqb_spec k' k) as [->|N]; cbn [find fst]; [destruct (String.eqb k x); reflexivity|]. destruct (String.eqb_spec k' x) as [->|N']; [|apply IH]. destruct (String.eqb_spec k x) as [->|]; [congruence|reflexivity].
Qed.
Lemma fold_last : forall (f : nat -> index_list) ns k acc d i nm, foldM (fun d '(i, name) => let* s := Ok (f i) in Ok (dict_set d name s)) (combine (seq k (length ns)) ns) acc = Ok d ->
  (nth_error ns i = Some nm -> (forall j, i < j -> nth_error ns j <> Some nm) -> dict_get d nm = Ok (f (k + i))) /\ (~ In nm ns -> dict_get d nm = dict_get acc nm).
Proof.
  induction ns as [|n ns IH]; intros k acc d i nm E; cbn [length seq combine foldM] in E.
  - assert (acc = d) by congruence. subst. split; [destruct i; discriminate|reflexivity].
  - cbn [bind] in E. split.
    + intros Hi HJ. destruct i as [|i]; cbn in Hi.
      * inversion Hi. subst n. destruct (IH _ _ _ 0 nm E) as [_ NI]. rewrite NI; [rewrite dict_get_set, String.eqb_refl; now rewrite Nat.add_0_r|]. intros X. apply In_nth_error in X. destruct X as (j & X). apply (HJ (S j)); [lia|exact X].
      * destruct (IH _ _ _ i nm E) as [IN _]. rewrite IN; [f_equal; f_equal; lia|exact Hi|]. intros j Hj X. apply (HJ (S j)); [lia|exact X].
    + intros NI. destruct (IH _ _ _ 0 nm E) as [_ H]. rewrite H by (intros X; apply NI; now right). rewrite dict_get_set. destruct (String.eqb_spec n nm) as [->|]; [elim NI; now left|reflexivity].
Qed.
Theorem C105_saved : forall (w : world) names d f nm, hex_env_to_dict Rtrunc K w (Some names) FIndex = Ok d -> nth_error names f = Some nm -> (forall f', f < f' -> nth_error names f' <> Some nm) ->
  exists l, dict_get (d_features _ d) nm = Ok (Indices l) /\ forall z, In z l <-> exists s, z = Z.of_nat s /\ s < length (nth f (m_features (e_mdp (w_env _ w))) []) /\ nth s (nth f (m_features (e_mdp (w_env _ w))) []) 0%R <> 0%R.
Proof.
  intros w names d f nm E Hf HL. unfold hex_env_to_dict in E. destruct (negb _); [discriminate|]. destruct (m_shape _) as [sh|]; [|discriminate]. apply bind_ok in E. destruct E as (fs & EF & E). cbn [write_states bind] in E. apply bind_ok in E. destruct E as (ags & _ & E). assert (d_features K d = fs) as -> by (injection E as <-; reflexivity).
  destruct (fold_last (fun i => Indices (nonzero (nth i (m_features (e_mdp (w_env K w))) []))) names 0 [] fs f nm EF) as [H _]. eexists. split; [exact (H Hf HL)|]. cbn [Nat.add].
  intros z. unfold nonzero. rewrite in_map_iff. split.
  - intros (s & <- & I). exists s. split; [reflexivity|]. apply (in_where _ _ _ _ 0%R) in I. destruct I as [Ls NZ]. split; [exact Ls|]. apply negb_true_iff in NZ. now apply Reqb_false in NZ.
  - intros (s & -> & Ls & NZ). exists s. split; [reflexivity|]. apply (in_where _ _ _ _ 0%R). split; [exact Ls|]. apply negb_true_iff. now apply Reqb_false.
Qed.
Lemma read_bound : forall (d : env_dict K) N names k t t', foldM (fun t '(i, name) => let* states := dict_get (d_features _ d) name in let* r := py_index (length t) (Z.of_nat i) in let* row := mark (A:=R) (nth r t []) states in Ok (upd t r row)) (combine (seq k (length names)) names) t = Ok t' ->
  length t = N -> names = [] \/ k + length names <= N.
Proof.
  induction names as [|n names IH]; intros k t t' E L; [now left|]. right. cbn [length seq combine foldM] in E. apply bind_ok in E. destruct E as (t1 & E1 & E2). apply bind_ok in E1. destruct E1 as (s & _ & E1). apply bind_ok in E1. destruct E1 as (r & ER & E1). apply bind_ok in E1. destruct E1 as (row & _ & E1).
  assert (t1 = upd t r row) by congruence. subst t1. apply py_index_ok in ER. destruct (IH _ _ _ E2) as [->|Q]; [now rewrite upd_length| |]; cbn [length]; lia.
Qed.
Theorem C105_repeated_refuted : forall pl nf shape st (w : world) names, hex_built pl nf shape st (w_env _ w) -> kits_known w -> length names = nf -> ~ NoDup names ->
  exists d x, hex_env_to_dict Rtrunc K w (Some names) FIndex = Ok d /\ hex_environment_from_dict (A:=R) K d names = Err x.
Proof.
  intros pl nf shape st w names HB KN LN ND. destruct (hex_built_facts _ _ _ _ _ HB) as (W & RE & NF & NA & NDA). unfold hex_env_to_dict. rewrite NF. replace (Z.of_nat (nf + _) - Z.of_nat _ =? Z.of_nat (length names))%Z with true by (symmetry; apply Z.eqb_eq; lia). cbn [negb].
  rewrite (gi_shape _ _ _ _ (wf_grid _ _ _ _ W)). destruct (mapM_exists _ _ (write_agent Rtrunc K FIndex shape w) (written w) (e_agents (w_env _ w))) as (ags & EA & FA). { intros a Ha. apply write_ok. now apply KN. }
  match goal with |- context [foldM ?f ?l []] => assert (exists fs, foldM f l [] = Ok fs) as (fs & EF) end.
  { generalize (@nil (string * index_list)). induction (combine (seq 0 (length names)) names) as [|[i n] l IH]; intros acc; cbn [foldM]; [eauto|]. cbn [write_states bind]. apply IH. }
  rewrite EF. cbn [bind write_states]. rewrite EA. cbn [bind]. apply (fold_keys (fun i => write_states FIndex shape (nth i (m_features (e_mdp (w_env K w))) []))) in EF; [|constructor]. destruct EF as [K1 K2].
  set (d := mkDict K shape fs (Indices (nonzero (m_walls (e_mdp (w_env K w))))) "hex" (w_self K w) ags).
  assert (ER : exists x, read_features (A:=R) K d names = Err x). { destruct (read_features K d names) as [t|x] eqn:E; [|eauto]. exfalso. unfold read_features in E. eapply read_bound in E; [|reflexivity]. assert (LZ : length (zeros2 (A:=R) (length fs) (fst shape * snd shape)) = length fs) by (unfold zeros2; apply repeat_length). cbn [d_features d_size d] in E. rewrite LZ in E.
    assert (LE : length names <= length fs) by (destruct E as [->|E]; cbn; lia). apply ND. eapply NoDup_incl_NoDup; [exact K1|now rewrite map_length|]. intros x Hx. apply K2 in Hx. destruct Hx as [Hx|[]]. exact Hx. }
  destruct ER as (x & ER). exists d, x. split; [reflexivity|]. unfold hex_environment_from_dict. rewrite ER. reflexivity.
Qed.

(** ** C103: coordinates *)
(** A dictionary with coordinates cannot be loaded if there is an agent. *)
Theorem C103_agents_refuted : forall (w : world) names names' d, hex_env_to_dict Rtrunc K w names FCoords = Ok d -> e_agents (w_env _ w) <> [] -> exists x, hex_environment_from_dict (A:=R) K d names' = Err x.
Proof.
  intros w names names' d E NE. unfold hex_env_to_dict in E. destruct names as [ns|]; [|discriminate]. destruct (negb _); [discriminate|]. destruct (m_shape _) as [sh|]; [|discriminate]. apply bind_ok in E. destruct E as (fs & _ & E). apply bind_ok in E. destruct E as (ws & _ & E). apply bind_ok in E. destruct E as (ags & EA & E).
  destruct (e_agents (w_env K w)) as [|a l]; [congruence|]. cbn [mapM] in EA. apply bind_ok in EA. destruct EA as (p & EP & EA). apply bind_ok in EA. destruct EA as (ps & _ & EA). assert (ags = p :: ps) by congruence. subst ags.
  assert (CP : exists c, i_position _ (snd p) = AtCoords c). { unfold write_agent in EP. apply bind_ok in EP. destruct EP as (q & EQ & EP). apply bind_ok in EQ. destruct EQ as (c & _ & EQ). exists c. destruct (kit_of K w (at_name a)) as [k|]; [|discriminate]. destruct (kit_algorithm K k), (kit_selector K k); try discriminate. inversion EP. cbn. congruence. }
  destruct CP as (c & CP). assert (d = mkDict K sh fs ws "hex" (w_self _ w) (p :: ps)) by congruence. subst d.
  destruct (hex_environment_from_dict K _ names') as [w'|x] eqn:EL; [exfalso|eauto]. unfold hex_environment_from_dict in EL. cbn [d_type String.eqb Ascii.eqb Bool.eqb negb] in EL. apply bind_ok in EL. destruct EL as (f & _ & EL). apply bind_ok in EL. destruct EL as (wl & _ & EL). apply bind_ok in EL. destruct EL as (m & _ & EL). apply bind_ok in EL. destruct EL as (xs & EX & EL).
  cbn [d_agents mapM] in EX. apply bind_ok in EX. destruct EX as (x & ER & EX). apply bind_ok in EX. destruct EX as (xs' & _ & EX). assert (xs = x :: xs') by congruence. subst xs. cbn [forallb] in EL.
  assert (is_index (snd x) = false) as IX. { destruct p as [nm i]. unfold read_agent in ER. destruct (negb _); [discriminate|]. destruct (negb _); [discriminate|]. inversion ER. cbn [snd]. cbn [snd] in CP. now rewrite CP. }
  rewrite IX in EL. discriminate.
Qed.
End RoundTrip.

(** ** Examples *)
Definition io_ft {A} `{Num A} : list (list A) := [[n1; n0; n0; n1; n0; n0]].
Definition io_walls {A} `{Num A} : list A := [n0; n0; n0; n0; n1; n0].
Definition io_p {A} `{Num A} : spec A := mkSpec "p"%string 2 None 0 [n1; nofZ (-2)] [0%Z].
Definition io_kit : kit unit := mkKit unit (Some "value_iteration"%string) tt (Some "softmax"%string) tt.

Lemma io_world : forall pl, exists w : world (A:=R) unit, hex_built pl 1 (2, 3) false (w_env _ w) /\ w_self _ w = false /\ kits_known unit w /\ binary_features unit 1 w /\ whole_rewards unit w /\
  feat (e_mdp (w_env _ w)) 0 3 = 1%R /\ length (e_agents (w_env _ w)) = 1.
Proof.
  intros pl. destruct (grid_mdp_ok Hex io_ft (Some io_walls) (2, 3) false) as (m & E & G & H1 & H2 & H3 & H4 & H5 & H6).
  { cbn; lia. } { repeat constructor. } { reflexivity. } { apply Forall_forall. intros x Hx. cbn in Hx. cbn. intuition. }
  pose proof (usable_grid pl _ _ _ _ _ _ [] E) as U. cbn [after_wall_calls fold_left] in U. assert (NO : n_ordinary m = 1) by (unfold n_ordinary; rewrite H4, H5; reflexivity). assert (NS : m_n_states m = 6) by apply (gi_ns _ _ _ _ G).
  destruct (proj2 (C17_accepts_iff pl m [io_p] U)) as (m' & e & E2). { rewrite NO, NS. intros s [<-|[]]. split; [reflexivity|]. split; [cbn; intros z Hz; lia|cbn; lia]. }
  assert (ND : NoDup (map sp_name [io_p (A:=R)])) by (repeat constructor; intros []). destruct (C17_result pl _ _ _ _ U ND E2) as (R1 & _ & _ & _ & R5 & R6 & R7 & R8 & _).
  exists (mkWorld unit e false [("p"%string, io_kit)]). cbn [w_env w_self]. destruct (R6 0 _ eq_refl) as (a & Ha & F & _). destruct F as (A1 & A2 & A3 & _).
  destruct (e_agents e) as [|a' [|? ?]] eqn:EA; cbn in R5; try discriminate. cbn in Ha. assert (a' = a) by congruence. subst a'.
  split. { exists io_ft, (Some io_walls), m, [], [io_p], m', e, []. cbn [after_wall_calls fold_left run]. auto. }
  split; [reflexivity|]. split. { intros b Hb. cbn [w_env] in Hb. rewrite EA in Hb. destruct Hb as [<-|[]]. exists io_kit. rewrite A1. split; [reflexivity|]. split; [reflexivity|now right]. }
  rewrite <- R1 in R8. split. { intros i s Hi Hs. cbn [w_env] in *. assert (i = 0) by lia. subst i. rewrite R8 by lia. unfold feat, get2. rewrite H2. do 6 (destruct s as [|s]; [cbn; auto|]). left. cbn. destruct s; reflexivity. }
  split. { intros b r Hb Hr. cbn [w_env] in Hb. rewrite EA in Hb. destruct Hb as [<-|[]]. rewrite A3 in Hr. destruct Hr as [<-|[<-|[]]]; [now exists 1%Z|now exists (-2)%Z]. }
  split; [rewrite R8 by lia; unfold feat, get2; now rewrite H2|reflexivity].
Qed.

(** The hypotheses of C56, C102 and C104 are met. *)
Example C56_example : forall pl, exists w d w', hex_built pl 1 (2, 3) false (w_env _ w) /\ hex_env_to_dict Rtrunc unit w (Some ["food"%string]) FIndex = Ok d /\ hex_environment_from_dict (A:=R) unit d ["food"%string] = Ok w' /\
  reload unit (fun x => x) (fun x => x) 1 (2, 3) w w' /\ feat (e_mdp (w_env _ w')) 0 3 = 1%R /\ length (e_agents (w_env _ w')) = 1.
Proof.
  intros pl. destruct (io_world pl) as (w & HB & ST & KN & BF & WR & F3 & LA). destruct (C56_dict unit _ _ _ _ _ ["food"%string] HB ST KN BF WR eq_refl) as (d & w' & E & E' & RL); [repeat constructor; intros []|]. exists w, d, w'. split; [exact HB|]. split; [exact E|]. split; [exact E'|]. split; [exact RL|].
  destruct RL as (_ & _ & _ & _ & _ & H6 & H7 & _). rewrite H6 by (cbn; lia). split; [exact F3|lia].
Qed.
Example C56_json_example : forall pl, exists w d w', hex_built pl 1 (2, 3) false (w_env _ w) /\ hex_env_to_json Rtrunc unit w (Some ["food"%string]) = Ok d /\ hex_environment_from_json (A:=R) unit d = Ok w' /\
  feat (e_mdp (w_env _ w)) 0 3 = 1%R /\ feat (e_mdp (w_env _ w')) 0 3 = 0%R.
Proof.
  intros pl. destruct (io_world pl) as (w & HB & ST & KN & BF & WR & F3 & LA). destruct (C56_json_partial unit _ _ _ _ _ ["food"%string] HB ST KN WR eq_refl) as (d & w' & E & E' & RL); [repeat constructor; intros []|]. exists w, d, w'. split; [exact HB|]. split; [exact E|]. split; [exact E'|]. split; [exact F3|].
  destruct RL as (_ & _ & _ & _ & _ & H6 & _). apply H6; cbn; lia.
Qed.

(** Runs. *)
Definition Qtrunc (q : Q) : Z := Z.quot (Qnum q) (Z.pos (Qden q)).
Definition io_run (ft : list (list Q)) (walls : list Q) (ss : list (spec Q)) (kits : list (string * kit unit)) (fmt : format) (names names' : list string) : res (env_dict unit * res (world (A:=Q) unit)) :=
  let* m := grid_mdp (A:=Q) Hex ft (Some walls) (2, 3) false in
  let* e := snd (make_env m ss) in
  let* d := hex_env_to_dict Qtrunc unit (mkWorld unit e false kits) (Some names) fmt in
  Ok (d, hex_environment_from_dict (A:=Q) unit d names').

(** Fractions: rewards 5/2 and -5/2 become 2 and -2, a feature of 1/2 becomes 1. *)
Example C102_example : exists d w', io_run [[1 # 2; 0; 0; 3; 0; 0]]%Q [0; 0; 0; 0; 1; 0]%Q [mkSpec "p"%string 2 None 0 [5 # 2; (-5) # 2]%Q [0%Z]] [("p"%string, io_kit)] FIndex ["food"%string] ["food"%string] = Ok (d, Ok w') /\
  map at_reward (e_agents (w_env _ w')) = [[2; -2]]%Q /\ m_features (e_mdp (w_env _ w')) = [[1; 0; 0; 1; 0; 0]; [1; 0; 0; 0; 0; 0]]%Q.
Proof. do 2 eexists. vmr. Qed.

(** Coordinates: without agents, the wall in state 4, column 1 and row 1, becomes a wall in state 1. *)
Theorem C103_walls_refuted : exists d w', io_run [] [0; 0; 0; 0; 1; 0]%Q [] [] FCoords [] [] = Ok (d, Ok w') /\ d_walls _ d = Coords [(1, 1)%Z] /\ m_walls (e_mdp (w_env _ w')) = [0; 1; 0; 0; 0; 0]%Q.
Proof. do 2 eexists. vmr. Qed.
(** With an agent, dictionaries with coordinates are written and refused. *)
Example C103_example : exists d, io_run io_ft io_walls [io_p] [("p"%string, io_kit)] FCoords ["food"%string] ["food"%string] = Ok (d, Err TypeError).
Proof. eexists. vmr. Qed.
Example C105_example : exists d, io_run [[1; 0; 0; 0; 0; 0]; [0; 1; 0; 0; 0; 0]]%Q io_walls [] [] FIndex ["food"; "food"]%string ["food"; "food"]%string = Ok (d, Err IndexError).
Proof. eexists. vmr. Qed.
Example C105_unnamed_example : io_run io_ft io_walls [io_p] [("p"%string, mkKit unit None tt (Some "max"%string) tt)] FIndex ["food"%string] ["food"%string] = Err AttributeError.
Proof. vmr. Qed.
