From Coq Require Import String List ZArith Reals Bool Lia Lra.
From Verif Require Import PyBase PyProofs GridModel GridSpec MDPModel MDPSpec MDPProofs MDPProofs2 MDPProofs3 MDPProofs4 MDPProps ActionModel EnvModel EnvSpec EnvProofs EnvProofs2.
Import ListNotations.
Local Open Scope nat_scope.

Record clean (k : gkind) (shape : nat * nat) (st : bool) (m : mdp R) : Prop := {
  cl_grid : grid_inv k shape st m;
  cl_table : table_ok m;
  cl_nf : m_n_features m = m_n_non_agent m + m_n_agents m;
  cl_olen : length (m_orig_features m) = m_n_features m;
  cl_orig : Forall (fun row => length row = m_n_states m) (m_orig_features m)
}.

Definition extended (m : mdp R) (rows : list (list R)) : mdp R :=
  mkMDP (m_shape m) (m_sas m) (m_orig_sas m) (m_deterministic m) (m_adjacency m) (m_n_states m) (m_n_actions m)
    (m_features m ++ rows) (m_features m ++ rows) (length (m_features m ++ rows)) (m_n_non_agent m) (m_n_agents m + length rows) (m_walls m).

Definition new_agent (non idx : nat) (s : spec R) : attached R :=
  mkAttached (sp_name s) (sp_n_moves s) (sp_reward s) (sp_consumes s) (repeat 0 (length (sp_reward s))) idx (idx + non) (sp_fit s)
    (sp_pos s) (sp_pos s) [sp_pos s] None None.

Lemma extended_clean : forall k shape st m rows, clean k shape st m -> Forall (fun row => length row = m_n_states m) rows -> clean k shape st (extended m rows).
Proof.
  intros k shape st m rows [G T N O O2] F. pose proof T as [T1 T2].
  assert (F2 : Forall (fun row => length row = m_n_states m) (m_features m ++ rows)) by (apply Forall_app; auto).
  constructor.
  - destruct G. constructor; assumption.
  - split; [reflexivity|exact F2].
  - cbn. rewrite app_length. lia.
  - reflexivity.
  - exact F2.
Qed.

Lemma upd_last : forall A (l : list A) x y, upd (l ++ [x]) (length l) y = l ++ [y].
Proof. induction l; intros; cbn; [reflexivity|]. now rewrite IHl. Qed.

Lemma attach_ok : forall k shape st m idx s p, clean k shape st m -> m_n_agents m = idx -> stands_on m (sp_pos s) p ->
  attach m idx s = (extended m [onehot m p], Ok (new_agent (m_n_non_agent m) idx s)).
Proof.
  intros k shape st m idx s p C NA SP. pose proof C as [G T N O O2]. pose proof T as [T1 T2].
  unfold attach, add_agent_feature. unfold stands_on in SP. rewrite SP.
  assert (FF : Forall (fun row => length row = m_n_states m) (m_features m ++ [onehot m p])).
  { apply Forall_app. split; [exact T2|]. constructor; [apply onehot_len|constructor]. }
  change (upd (zeros1 (m_n_states m)) p n1) with (onehot m p). rewrite set_features_ok by exact FF.
  cbv beta iota zeta. match goal with |- context [move_agent ?m1 _ _] => assert (E1 : m1 = extended m [onehot m p]) by reflexivity; rewrite E1 end.
  pose proof (extended_clean _ _ _ _ [onehot m p] C ltac:(constructor; [apply onehot_len|constructor])) as [G' T' N' O' O2'].
  fold (new_agent (m_n_non_agent m) idx s).
  destruct (move_agent_spec (extended m [onehot m p]) (new_agent (m_n_non_agent m) idx s) (sp_pos s) T' N') as [(p' & S1 & S2 & E)|[[H _]|[H _]]].
  - cbn. lia.
  - unfold stands_on in S1. cbn [m_n_states extended] in S1. rewrite SP in S1. inversion S1. subst p'. rewrite E. f_equal.
    unfold row_set, with_features, extended. cbn [m_features m_n_non_agent at_idx new_agent m_shape m_sas m_orig_sas m_deterministic m_adjacency m_n_states m_n_actions m_orig_features m_n_features m_n_agents m_walls].
    f_equal. replace (m_n_non_agent m + idx) with (length (m_features m)) by lia. unfold onehot at 2. cbn [m_n_states]. apply upd_last.
  - apply py_index_ok in SP. cbn [m_n_states extended] in H. lia.
  - apply py_index_ok in SP. cbn [m_n_states extended] in H. lia.
Qed.

Lemma stands_on_iff : forall (m : mdp R) p, (exists s, stands_on m p s) <-> (- Z.of_nat (m_n_states m) <= p < Z.of_nat (m_n_states m))%Z.
Proof.
  intros m p. unfold stands_on. split.
  - intros (s & E). apply py_index_ok in E. lia.
  - intros H. destruct (py_index_cases (m_n_states m) p) as [(s & E & _)|(_ & X)]; [eauto|lia].
Qed.

(** Entries of a list of specifications with their numbers. *)
Fixpoint agents_from (non idx : nat) (ss : list (spec R)) : list (attached R) :=
  match ss with [] => [] | s :: r => new_agent non idx s :: agents_from non (S idx) r end.
Fixpoint rows_from (m : mdp R) (ss : list (spec R)) : list (list R) :=
  match ss with [] => [] | s :: r => onehot m (match py_index (m_n_states m) (sp_pos s) with Ok p => p | Err _ => 0 end) :: rows_from m r end.

Lemma extended_extended : forall m r1 r2, extended (extended m r1) r2 = extended m (r1 ++ r2).
Proof. intros. unfold extended. cbn. rewrite <- app_assoc. f_equal. rewrite app_length. lia. Qed.

Lemma rows_from_ext : forall m m' ss, m_n_states m = m_n_states m' -> rows_from m ss = rows_from m' ss.
Proof. induction ss as [|s ss IH]; intros E; [reflexivity|]. cbn. rewrite IH by exact E. unfold onehot. now rewrite E. Qed.

Lemma attach_checked_ok : forall k shape st m idx s nf nag, clean k shape st m -> m_n_agents m = idx -> valid_entry nf nag (m_n_states m) s ->
  attach_checked nf nag m idx s = (extended m (rows_from m [s]), Ok (new_agent (m_n_non_agent m) idx s)).
Proof.
  intros k shape st m idx s nf nag C NA (V1 & V2 & V3). unfold attach_checked. rewrite V1, Nat.eqb_refl. cbn [negb].
  destruct (existsb _ (sp_consumes s)) eqn:X.
  - apply existsb_exists in X. destruct X as (z & Hz & L). apply Z.ltb_lt in L. specialize (V2 z Hz). lia.
  - apply stands_on_iff in V3. destruct V3 as (p & SP). rewrite (attach_ok k shape st m idx s p C NA SP). cbn [rows_from]. unfold stands_on in SP. now rewrite SP.
Qed.
Lemma attach_checked_err : forall k shape st m idx s nf nag, clean k shape st m -> m_n_agents m = idx ->
  ~ valid_entry nf nag (m_n_states m) s -> exists m' x, attach_checked nf nag m idx s = (m', Err x) /\ (x = AttributeError \/ x = ValueError \/ x = IndexError).
Proof.
  intros k shape st m idx s nf nag C NA NV. unfold attach_checked. destruct (Nat.eqb_spec (length (sp_reward s)) (nf + nag)) as [V1|]; cbn [negb]; [|eauto 6].
  destruct (existsb _ (sp_consumes s)) eqn:X; [eauto 6|]. unfold attach, add_agent_feature.
  destruct (py_index (m_n_states m) (sp_pos s)) as [p|x] eqn:EP.
  - exfalso. apply NV. split; [exact V1|]. split.
    + intros z Hz. destruct (Z.ltb_spec z (Z.of_nat (nf + nag))); [assumption|]. assert (Y : existsb (fun i => (Z.of_nat (length (sp_reward s)) - 1 <? i)%Z) (sp_consumes s) = true); [|congruence].
      apply existsb_exists. exists z. split; [exact Hz|]. apply Z.ltb_lt. lia.
    + apply stands_on_iff. eauto.
  - apply py_index_err in EP. subst. eauto 6.
Qed.

Lemma attach_all_ok : forall k shape st nf nag ss m idx acc, clean k shape st m -> m_n_agents m = idx ->
  (forall s, In s ss -> valid_entry nf nag (m_n_states m) s) -> ss <> [] ->
  attach_all nf nag m idx ss acc = (extended m (rows_from m ss), Ok (fold_left put_agent (agents_from (m_n_non_agent m) idx ss) acc)).
Proof.
  intros k shape st nf nag. induction ss as [|s ss IH]; intros m idx acc C NA V NE; [contradiction|]. cbn [attach_all].
  rewrite (attach_checked_ok k shape st) by (auto; apply V; now left).
  destruct ss as [|s' ss]; [reflexivity|].
  assert (C' : clean k shape st (extended m (rows_from m [s]))).
  { apply extended_clean; [exact C|]. constructor; [apply onehot_len|constructor]. }
  rewrite (IH _ (S idx)).
  - rewrite extended_extended, (rows_from_ext (extended m (rows_from m [s])) m) by reflexivity. reflexivity.
  - exact C'.
  - cbn. lia.
  - intros x Hx. apply V. now right.
  - discriminate.
Qed.
Lemma attach_all_err : forall k shape st nf nag ss m idx acc, clean k shape st m -> m_n_agents m = idx ->
  (exists s, In s ss /\ ~ valid_entry nf nag (m_n_states m) s) -> exists m' x, attach_all nf nag m idx ss acc = (m', Err x) /\ (x = AttributeError \/ x = ValueError \/ x = IndexError).
Proof.
  intros k shape st nf nag. induction ss as [|s ss IH]; intros m idx acc C NA (b & Hb & NV); [destruct Hb|]. cbn [attach_all].
  assert (VD : valid_entry nf nag (m_n_states m) s \/ ~ valid_entry nf nag (m_n_states m) s).
  { destruct (attach_checked nf nag m idx s) as [m1 [a|x]] eqn:E.
    - left. assert (NN : ~ ~ valid_entry nf nag (m_n_states m) s).
      { intros N. destruct (attach_checked_err k shape st m idx s nf nag C NA N) as (m' & x & E' & _). congruence. }
      unfold valid_entry in *. unfold attach_checked in E. destruct (Nat.eqb_spec (length (sp_reward s)) (nf + nag)) as [V1|]; cbn [negb] in E; [|discriminate].
      destruct (existsb _ (sp_consumes s)) eqn:X; [discriminate|]. unfold attach, add_agent_feature in E.
      destruct (py_index (m_n_states m) (sp_pos s)) as [p|] eqn:EP; [|discriminate]. split; [exact V1|]. split.
      + intros z Hz. destruct (Z.ltb_spec z (Z.of_nat (nf + nag))); [assumption|]. assert (Y : existsb (fun i => (Z.of_nat (length (sp_reward s)) - 1 <? i)%Z) (sp_consumes s) = true); [|congruence].
        apply existsb_exists. exists z. split; [exact Hz|]. apply Z.ltb_lt. lia.
      + apply stands_on_iff. eauto.
    - right. intros V. rewrite (attach_checked_ok k shape st) in E by assumption. discriminate. }
  destruct VD as [V|V].
  - rewrite (attach_checked_ok k shape st) by assumption. destruct Hb as [->|Hb]; [contradiction|].
    apply IH; [|cbn; lia|].
    + apply extended_clean; [exact C|]. constructor; [apply onehot_len|constructor].
    + exists b. auto.
  - destruct (attach_checked_err k shape st m idx s nf nag C NA V) as (m' & x & E' & HX). rewrite E'. eauto.
Qed.

(** Cleaning an MDP that still carries agents. *)
Lemma cleaned_ok : forall k shape st m, clean k shape st m -> exists m0,
  (if 0 <? m_n_agents m then remove_agent_features m else Ok m) = Ok m0 /\ clean k shape st m0 /\ m_n_agents m0 = 0 /\
  m_features m0 = firstn (n_ordinary m) (m_features m) /\ m_n_features m0 = n_ordinary m /\
  m_sas m0 = m_sas m /\ m_walls m0 = m_walls m /\ m_n_non_agent m0 = m_n_non_agent m /\ m_n_states m0 = m_n_states m /\
  (m_n_agents m = 0 -> m0 = m) /\ (0 < m_n_agents m -> m_orig_features m0 = m_features m0).
Proof.
  intros k shape st m [G T N O O2]. pose proof T as [T1 T2]. unfold n_ordinary. destruct (Nat.ltb_spec 0 (m_n_agents m)) as [P|P].
  - unfold remove_agent_features. destruct (Nat.eqb_spec (m_n_agents m) 0) as [|_]; [lia|].
    set (f := firstn (length (m_features m) - m_n_agents m) (m_features m)).
    assert (F : Forall (fun row => length row = m_n_states m) f).
    { rewrite Forall_forall in *. intros r Hr. apply T2. eapply incl_firstn; exact Hr. }
    assert (L : length f = m_n_features m - m_n_agents m) by (unfold f; rewrite firstn_length; lia).
    rewrite set_features_ok by exact F. cbn [bind]. eexists. split; [reflexivity|]. split; [constructor|].
    + destruct G. constructor; assumption.
    + split; [reflexivity|exact F].
    + cbn. lia.
    + reflexivity.
    + exact F.
    + cbn. split; [reflexivity|]. split; [unfold f; now rewrite T1|]. split; [exact L|]. do 4 (split; [reflexivity|]). split; [lia|reflexivity].
  - exists m. split; [reflexivity|]. split; [constructor; assumption|]. split; [lia|]. assert (X : m_n_features m - m_n_agents m = m_n_features m) by lia.
    rewrite X, T1, firstn_all. split; [reflexivity|]. split; [reflexivity|]. do 4 (split; [reflexivity|]). split; [reflexivity|lia].
Qed.

(** The dictionary of agents built from distinct or repeated names. *)
Lemma put_cases : forall (l : list (attached R)) a, 
  (exists b, In b l /\ at_name a = at_name b /\ put_agent l a = map (fun c => if String.eqb (at_name c) (at_name a) then a else c) l) \/
  (~ In (at_name a) (map at_name l) /\ put_agent l a = l ++ [a]).
Proof.
  intros l a. unfold put_agent. destruct (existsb _ l) eqn:X.
  - left. apply existsb_exists in X. destruct X as (b & Hb & E). apply String.eqb_eq in E. exists b. auto.
  - right. split; [|reflexivity]. intros H. apply in_map_iff in H. destruct H as (b & E & Hb).
    assert (Y : existsb (fun b => String.eqb (at_name b) (at_name a)) l = true); [|congruence]. apply existsb_exists. exists b.
    split; [exact Hb|]. rewrite E. apply String.eqb_refl.
Qed.

Lemma NoDup_snoc : forall A (l : list A) x, NoDup l -> ~ In x l -> NoDup (l ++ [x]).
Proof.
  induction l as [|y l IH]; intros x N H; cbn; [repeat constructor; auto|]. inversion N. subst. constructor.
  - rewrite in_app_iff. cbn. intros [Y|[Y|[]]]; [contradiction|]. apply H. left. auto.
  - apply IH; [assumption|]. intros Y. apply H. now right.
Qed.

Lemma dict_inv : forall non ss idx acc, NoDup (map at_name acc) -> NoDup (map at_idx acc) -> (forall a, In a acc -> at_idx a < idx) ->
  let r := fold_left put_agent (agents_from non idx ss) acc in
  NoDup (map at_name r) /\ NoDup (map at_idx r) /\
  (forall nm, In nm (map at_name r) <-> In nm (map at_name acc) \/ In nm (map sp_name ss)) /\
  (forall a, In a r -> In a acc \/ In a (agents_from non idx ss)).
Proof.
  induction ss as [|s ss IH]; intros idx acc N1 N2 H; cbn [agents_from fold_left map].
  - split; [exact N1|]. split; [exact N2|]. split; [intros; cbn; tauto|auto].
  - set (a := new_agent non idx s).
    assert (K : NoDup (map at_name (put_agent acc a)) /\ NoDup (map at_idx (put_agent acc a)) /\ (forall b, In b (put_agent acc a) -> b = a \/ In b acc) /\
      (forall nm, In nm (map at_name (put_agent acc a)) <-> In nm (map at_name acc) \/ nm = at_name a)).
    { destruct (put_cases acc a) as [(b & Hb & EN & E)|(NI & E)].
      - rewrite E. assert (X : map at_name (map (fun c => if String.eqb (at_name c) (at_name a) then a else c) acc) = map at_name acc).
        { rewrite map_map. apply map_ext. intros c. destruct (String.eqb_spec (at_name c) (at_name a)); auto. }
        rewrite X. split; [exact N1|]. split.
        + assert (IDX : forall l, NoDup (map at_name l) -> NoDup (map at_idx l) -> (forall c, In c l -> at_idx c < idx) ->
            NoDup (map at_idx (map (fun c => if String.eqb (at_name c) (at_name a) then a else c) l))).
          { clear. induction l as [|c l IH]; intros N1 N2 H; cbn [map]; [constructor|]. cbn [map] in N1, N2. inversion N1 as [|? ? M1 N1']. inversion N2 as [|? ? M2 N2']. subst.
            constructor; [|apply IH; auto; intros; apply H; now right]. intros Y. apply in_map_iff in Y. destruct Y as (d & Ed & Hd).
            apply in_map_iff in Hd. destruct Hd as (d' & Ed' & Hd').
            destruct (String.eqb_spec (at_name c) (at_name a)) as [Ec|Ec]; destruct (String.eqb_spec (at_name d') (at_name a)) as [Edn|Edn]; subst d.
            - apply M1. rewrite Ec, <- Edn. now apply in_map.
            - specialize (H d' (or_intror Hd')). change (at_idx a) with idx in Ed. lia.
            - specialize (H c (or_introl eq_refl)). change (at_idx a) with idx in Ed. lia.
            - apply M2. rewrite <- Ed. now apply in_map. }
          apply IDX; assumption.
        + split.
          * intros c Hc. apply in_map_iff in Hc. destruct Hc as (d & <- & Hd). destruct (String.eqb _ _); auto.
          * intros nm. split; [auto|]. intros [Y| ->]; [exact Y|]. rewrite EN. now apply in_map.
      - rewrite E, !map_app. cbn [map]. split; [|split; [|split]].
        + apply NoDup_snoc; assumption.
        + apply NoDup_snoc; [exact N2|]. intros Y. apply in_map_iff in Y. destruct Y as (c & Ec & Hc). specialize (H c Hc). change (at_idx a) with idx in Ec. lia.
        + intros b Hb. rewrite in_app_iff in Hb. destruct Hb as [Hb|[<-|[]]]; auto.
        + intros nm. rewrite in_app_iff. cbn. intuition auto. }
    destruct K as (K1 & K2 & K3 & K4).
    destruct (IH (S idx) (put_agent acc a) K1 K2) as (R1 & R2 & R3 & R4).
    { intros b Hb. destruct (K3 b Hb) as [->|Hb']; [cbn; lia|]. specialize (H b Hb'). lia. }
    split; [exact R1|]. split; [exact R2|]. split.
    + intros nm. rewrite R3, K4. cbn [In]. change (at_name a) with (sp_name s). intuition auto.
    + intros b Hb. destruct (R4 b Hb) as [Hb'|Hb']; [|right; now right]. destruct (K3 b Hb') as [->|]; [right; now left|now left].
Qed.

Lemma agents_from_in : forall non ss idx a, In a (agents_from non idx ss) -> exists i s, nth_error ss i = Some s /\ a = new_agent non (idx + i) s.
Proof.
  induction ss as [|s ss IH]; intros idx a H; [destruct H|]. destruct H as [<-|H].
  - exists 0, s. rewrite Nat.add_0_r. auto.
  - destruct (IH _ _ H) as (i & s' & E & ->). exists (S i), s'. split; [exact E|]. f_equal. lia.
Qed.

Lemma rows_from_len : forall m ss, length (rows_from m ss) = length ss.
Proof. induction ss; cbn; auto. Qed.
Lemma rows_from_wide : forall m ss, Forall (fun row => length row = m_n_states m) (rows_from m ss).
Proof. induction ss; cbn; constructor; [apply onehot_len|assumption]. Qed.

(** The constructor on a clean MDP. *)
Lemma make_env_ok : forall k shape st m ss, clean k shape st m -> (forall s, In s ss -> valid_entry (n_ordinary m) (length ss) (m_n_states m) s) ->
  exists m0, clean k shape st m0 /\ m_n_agents m0 = 0 /\ m_features m0 = firstn (n_ordinary m) (m_features m) /\ m_n_features m0 = n_ordinary m /\
    m_sas m0 = m_sas m /\ m_walls m0 = m_walls m /\ m_n_states m0 = m_n_states m /\ (m_n_agents m = 0 -> m0 = m) /\ (0 < m_n_agents m -> m_orig_features m0 = m_features m0) /\
    let m1 := match ss with [] => m0 | _ => extended m0 (rows_from m0 ss) end in
    let ags := fold_left put_agent (agents_from (m_n_non_agent m0) 0 ss) [] in
    make_env m ss = (m1, Ok (mkEnv m1 (map sp_name ss) ags (length ags) 0)).
Proof.
  intros k shape st m ss C V. destruct (cleaned_ok k shape st m C) as (m0 & E0 & C0 & A0 & F0 & N0 & S0 & W0 & NN0 & NS0 & Z0 & Z1).
  exists m0. split; [exact C0|]. do 8 (split; [assumption|]). cbv zeta. unfold make_env. rewrite E0.
  destruct ss as [|s ss]; [reflexivity|].
  rewrite (attach_all_ok k shape st (m_n_features m0) (length (s :: ss)) (s :: ss) m0 0 [] C0 A0); [reflexivity| |discriminate].
  intros x Hx. rewrite N0, NS0. now apply V.
Qed.
Lemma make_env_err : forall k shape st m ss, clean k shape st m -> (exists s, In s ss /\ ~ valid_entry (n_ordinary m) (length ss) (m_n_states m) s) ->
  exists m' x, make_env m ss = (m', Err x) /\ (x = AttributeError \/ x = ValueError \/ x = IndexError).
Proof.
  intros k shape st m ss C (s & Hs & NV). destruct (cleaned_ok k shape st m C) as (m0 & E0 & C0 & A0 & F0 & N0 & S0 & W0 & NN0 & NS0 & Z0 & Z1).
  unfold make_env. rewrite E0. destruct (attach_all_err k shape st (m_n_features m0) (length ss) ss m0 0 [] C0 A0) as (m' & x & E & HX).
  - exists s. split; [exact Hs|]. now rewrite N0, NS0.
  - rewrite E. eauto.
Qed.
Lemma make_env_valid : forall k shape st m ss m' e, clean k shape st m -> make_env m ss = (m', Ok e) ->
  forall s, In s ss -> valid_entry (n_ordinary m) (length ss) (m_n_states m) s.
Proof.
  intros k shape st m ss m' e C E s Hs.
  assert (NN : ~ ~ valid_entry (n_ordinary m) (length ss) (m_n_states m) s).
  { intros N. destruct (make_env_err k shape st m ss C) as (m2 & x & E2 & _); [eauto|congruence]. }
  unfold valid_entry in *.
  destruct (Nat.eq_dec (length (sp_reward s)) (n_ordinary m + length ss)); [|tauto].
  split; [assumption|]. split.
  - intros z Hz. destruct (Z.ltb_spec z (Z.of_nat (n_ordinary m + length ss))); [assumption|]. elim NN. intros (_ & X & _). specialize (X z Hz). lia.
  - destruct (Z_le_dec (- Z.of_nat (m_n_states m)) (sp_pos s)); [|tauto]. destruct (Z_lt_dec (sp_pos s) (Z.of_nat (m_n_states m))); tauto.
Qed.

Lemma make_env_wf : forall k shape st m ss m' e, clean k shape st m -> make_env m ss = (m', Ok e) -> wf k shape st e.
Proof.
  intros k shape st m ss m' e C E. pose proof (make_env_valid _ _ _ _ _ _ _ C E) as V.
  destruct (make_env_ok k shape st m ss C V) as (m0 & C0 & A0 & F0 & N0 & S0 & W0 & NS0 & _ & _ & E'). cbv zeta in E'. rewrite E in E'. inversion E' as [[E1 E2]]. clear E'.
  set (m1 := match ss with [] => m0 | _ => extended m0 (rows_from m0 ss) end) in *.
  assert (C1 : clean k shape st m1) by (unfold m1; destruct ss; [exact C0|apply extended_clean; [exact C0|apply rows_from_wide]]).
  assert (A1 : m_n_agents m1 = length ss /\ m_n_non_agent m1 = m_n_non_agent m0 /\ m_n_features m1 = n_ordinary m + length ss /\ m_n_states m1 = m_n_states m0).
  { unfold m1. destruct C0 as [_ [T _] _ _ _]. destruct ss; cbn; [rewrite Nat.add_0_r; auto|]. rewrite app_length. cbn. rewrite rows_from_len, A0. repeat split; lia. }
  destruct A1 as (A1 & A2 & A3 & A4).
  destruct (dict_inv (m_n_non_agent m0) ss 0 []) as (D1 & D2 & D3 & D4); [constructor|constructor|intros a []|].
  destruct C1 as [G T NF OL OR].
  constructor; cbn [e_mdp e_agents e_names]; try assumption.
  - intros nm. rewrite D3. cbn. tauto.
  - intros a Ha. destruct (D4 a Ha) as [[]|Hin]. destruct (agents_from_in _ _ _ _ Hin) as (i & s & Hn & ->). cbn [Nat.add].
    assert (Hs : In s ss) by (eapply nth_error_In; eauto). destruct (V s Hs) as (V1 & V2 & V3).
    assert (SO : exists p, stands_on m1 (sp_pos s) p) by (apply stands_on_iff; rewrite A4, NS0; exact V3).
    unfold agent_ok. cbn. rewrite repeat_length, V1, A1, A2, A3. split; [apply nth_error_Some; congruence|].
    split; [reflexivity|]. split; [reflexivity|]. split; [reflexivity|]. split; [exact SO|]. split; [exact SO|]. exact V2.
Qed.

Lemma wf_clean : forall k shape st e, wf k shape st e -> clean k shape st (e_mdp e).
Proof. intros k shape st e []. constructor; assumption. Qed.
Lemma after_wall_call_features : forall k shape st m c, grid_inv k shape st m -> mident (after_wall_call m c) = mident m /\ m_features (after_wall_call m c) = m_features m.
Proof.
  intros k shape st m c G. unfold after_wall_call. destruct (do_wall_call m c) as [m'|x] eqn:E; [|auto]. destruct c; cbn [do_wall_call] in E.
  - destruct (set_walls_mident _ _ _ _ _ _ G E) as (H & _ & F). auto.
  - unfold add_wall_xy in E. destruct (m_shape m); [|discriminate]. apply bind_ok in E. destruct E as (w & _ & E). destruct (set_walls_mident _ _ _ _ _ _ G E) as (H & _ & F). auto.
  - unfold reset_walls in E. destruct (set_walls_mident _ _ _ _ _ _ G E) as (H & _ & F). auto.
Qed.
Lemma after_wall_calls_features : forall cs k shape st m, grid_inv k shape st m -> mident (after_wall_calls m cs) = mident m /\ m_features (after_wall_calls m cs) = m_features m.
Proof.
  induction cs as [|c cs IH]; intros k shape st m G; [auto|]. unfold after_wall_calls. cbn [fold_left]. fold (after_wall_calls (after_wall_call m c) cs).
  destruct (after_wall_call_features k shape st m c G) as [H1 H2]. destruct (after_wall_call_inv k shape st m c G) as [G' _].
  destruct (IH k shape st _ G') as [H3 H4]. split; congruence.
Qed.
Lemma grid_clean : forall k feats w0 shape st m cs, grid_mdp k feats w0 shape st = Ok m -> clean k shape st (after_wall_calls m cs) /\
  m_orig_features (after_wall_calls m cs) = feats /\ m_features (after_wall_calls m cs) = feats /\ m_n_agents (after_wall_calls m cs) = 0.
Proof.
  intros k feats w0 shape st m cs E. destruct (grid_mdp_inv _ _ _ _ _ _ E) as (H1 & H2 & H3 & H4 & G & H5 & H6 & H7 & H8 & H9 & H10).
  destruct (after_wall_calls_inv cs k shape st m G) as [G' _]. destruct (after_wall_calls_features cs k shape st m G) as [M F].
  unfold mident in M. inversion M as [[E0 E1 E2 E3 E4 E5 E6 E7]]. split; [|split; [congruence|split; congruence]]. constructor.
  - exact G'.
  - split; [congruence|]. rewrite F, H6, E2, (gi_ns _ _ _ _ G). exact H2.
  - lia.
  - congruence.
  - rewrite E4, H7, E2, (gi_ns _ _ _ _ G). exact H2.
Qed.

Theorem reachable_wf : forall pl e, reachable pl e -> exists k shape st, wf k shape st e.
Proof.
  intros pl. apply (reachable_ind2 pl (fun e _ => exists k shape st, wf k shape st e) (fun m _ => exists k shape st, clean k shape st m)).
  - intros m ss m' e U (k & shape & st & C) E. exists k, shape, st. eapply make_env_wf; eauto.
  - intros e o H (k & shape & st & W). exists k, shape, st. now apply do_op_wf.
  - intros k feats w0 shape st m cs E. exists k, shape, st. eapply grid_clean; eauto.
  - intros e H (k & shape & st & W). exists k, shape, st. now apply wf_clean.
Qed.
Theorem usable_clean : forall pl m, usable pl m -> exists k shape st, clean k shape st m.
Proof.
  intros pl m U. destruct U.
  - exists k, shape, st. eapply grid_clean; eauto.
  - destruct (reachable_wf _ _ H) as (k & shape & st & W). exists k, shape, st. now apply wf_clean.
Qed.

(** Without agents nothing but a reset touches the features; so right after construction the
    features are the ones a reset restores. *)
Lemma no_agents_features : forall k shape st P e e', wf k shape st e -> m_n_agents (e_mdp e) = 0 -> m_orig_features (e_mdp e) = m_features (e_mdp e) -> muts P e e' ->
  m_orig_features (e_mdp e') = m_features (e_mdp e').
Proof.
  intros k shape st P e e' W Z H M. induction M as [|l e e1 e2 Pl M MM IH]; [exact H|].
  assert (NA : forall a, ~ In a (e_agents e)).
  { intros a Ha. destruct (wf_agents _ _ _ _ W a Ha) as (X & _). lia. }
  assert (S : static e e1) by (eapply mut_static; eauto). assert (W1 : wf k shape st e1) by (eapply mut_wf; eauto).
  assert (Z1 : m_n_agents (e_mdp e1) = 0) by (destruct S as (_ & _ & X); unfold mident in X; inversion X; congruence).
  apply IH; [exact W1|exact Z1|].
  destruct l; cbn [mut] in M.
  1-5: destruct M as (a & M); exfalso; apply (NA a); repeat match goal with H : exists _, _ |- _ => destruct H end; tauto.
  - subst. exact H.
  - destruct M as (w & m' & E & ->). destruct (set_walls_mident _ _ _ _ _ _ (wf_grid _ _ _ _ W) E) as (X & _ & F). unfold mident in X. inversion X. cbn. congruence.
  - destruct M as (m' & E & ->). destruct (reset_mdp_ok _ _ _ _ W) as (m2 & E2 & X & _ & _ & F). rewrite E in E2. inversion E2. subst. unfold mident in X. inversion X. cbn. congruence.
Qed.
Definition fresh_orig (m : mdp R) : Prop := m_n_agents m = 0 -> m_orig_features m = m_features m.
Lemma make_env_orig : forall k shape st m ss m' e, clean k shape st m -> fresh_orig m -> make_env m ss = (m', Ok e) ->
  m_orig_features (e_mdp e) = m_features (e_mdp e) /\ e_mdp e = m'.
Proof.
  intros k shape st m ss m' e C FO E. pose proof (make_env_valid _ _ _ _ _ _ _ C E) as V.
  destruct (make_env_ok k shape st m ss C V) as (m0 & C0 & A0 & F0 & N0 & S0 & W0 & NS0 & Z0 & Z1 & E'). cbv zeta in E'. rewrite E in E'.
  inversion E'. subst. split; [|reflexivity]. cbn [e_mdp]. destruct ss; [|reflexivity].
  destruct (Nat.eq_dec (m_n_agents m) 0) as [Z|Z]; [rewrite (Z0 Z) in *; now apply FO|]. apply Z1. lia.
Qed.
Theorem usable_fresh_orig : forall pl m, usable pl m -> fresh_orig m.
Proof.
  intros pl. apply (usable_ind2 pl (fun e _ => fresh_orig (e_mdp e)) (fun m _ => fresh_orig m)).
  - intros m ss m' e U FO E. destruct (usable_clean _ _ U) as (k & shape & st & C). intros _. eapply make_env_orig; eauto.
  - intros e o H FO Z. destruct (reachable_wf _ _ H) as (k & shape & st & W). pose proof (do_op_muts pl k shape st e o W) as M.
    assert (S : static e (do_op pl e o)) by (eapply muts_static; eauto).
    assert (Z0 : m_n_agents (e_mdp e) = 0) by (destruct S as (_ & _ & X); unfold mident in X; inversion X; congruence).
    eapply no_agents_features; eauto.
  - intros k feats w0 shape st m cs E _. destruct (grid_clean _ _ _ _ _ _ cs E) as (_ & H1 & H2 & _). congruence.
  - intros e H FO. exact FO.
Qed.

(** With distinct names the dictionary lists the agents in order. *)
Lemma dict_distinct : forall non ss idx acc, NoDup (map at_name acc ++ map sp_name ss) ->
  fold_left put_agent (agents_from non idx ss) acc = acc ++ agents_from non idx ss.
Proof.
  induction ss as [|s ss IH]; intros idx acc ND; cbn [agents_from fold_left]; [now rewrite app_nil_r|].
  destruct (put_cases acc (new_agent non idx s)) as [(b & Hb & EN & _)|(_ & E)].
  - exfalso. cbn [map] in ND. apply NoDup_remove_2 in ND. apply ND. rewrite in_app_iff. left. change (sp_name s) with (at_name (new_agent non idx s)). rewrite EN. now apply in_map.
  - rewrite E, IH; [now rewrite <- app_assoc|]. rewrite map_app. cbn [map]. rewrite <- app_assoc. exact ND.
Qed.
