(** Hypothesis testing: runs over trajectories (C49, C50, C53, C85, C86, C90, C92-C95). *)
From Coq Require Import List ZArith Reals Bool Lia Lra.
From Verif Require Import PyBase PyProofs ActionModel ActionSpec RSum ActionProofs MDPModel MDPProofs MDPProofs2 VIModel VISpec VIProofs VIProofs2 VIProps VIEnvProps MCTSModel MCTSProofs MCTSProps IRLModel IRLFit HypModel HypProofs HypObs.
Import ListNotations.
Local Open Scope R_scope.

(** ** Specification *)
(** The moves of all trajectories, in order, each with its MDP. *)
Definition all_moves (mdps : list (mdp R)) (ts : list (list Z)) : list (mdp R * (Z * Z)) := concat (map (fun p => map (pair (fst p)) (moves (snd p))) (combine mdps ts)).
(** The evidence about each feature from one move on its own. *)
Definition evidence (c : hyp_cfg) (ex : list Z) (p : mdp R * (Z * Z)) (r : list weight) : Prop := exists q, single_move c (fst p) ex None (fst (snd p)) (snd (snd p)) = Ok (r, q).
(** The documented change of a weight [w] by evidence [r] at the [n]-th move: a step of the learning rate times
    n^-decay, multiplied by the asymmetry for evidence weaker than the weight and divided by it otherwise. *)
Definition documented_step (lr decay asym : R) (n : nat) (r w : weight) : weight :=
  match r, w with
  | Some r, Some w => Some (w + (if Rlt_dec (Rabs r) (Rabs w) then lr * asym else lr / asym) * Rpower (INR n) (- decay) * (r - w))
  | _, _ => None
  end.
(** The same without asymmetry and decay. *)
Definition plain_step (lr : R) (r w : weight) : weight := match r, w with Some r, Some w => Some (w + lr * (r - w)) | _, _ => None end.
(** The weights before the first move. *)
Definition start_weights (nF : nat) (x : hyptest) (h : heap weight) : list weight := match ht_theta x with TArr a => nth a h [] | _ => repeat (Some 0) nF end.
(** MDPs and trajectories that can be used: one MDP for each trajectory, of the same size and with [nF] features; a trajectory
    moves between adjacent states. *)
Definition testable (nF : nat) (mdps : list (mdp R)) (ts : list (list nat)) : Prop :=
  length mdps = length ts /\ hd [] ts <> [] /\
  (exists n na, Forall (fun m => is_mdp (m_sas m) /\ m_n_states m = n /\ n_states (m_sas m) = n /\ n_actions (m_sas m) = na /\ length (m_features m) = nF) mdps) /\
  (forall i j, (S j < length (nth i ts []))%nat -> let m := nth i mdps (blank_mdp None) in let s := nth j (nth i ts []) 0%nat in let t := nth (S j) (nth i ts []) 0%nat in
     (s < m_n_states m)%nat /\ (t < m_n_states m)%nat /\ exists b, 0 < prob (m_sas m) s b t) /\
  exists i, (1 < length (nth i ts []))%nat.
Definition starts_ok (nF : nat) (x : hyptest) (h : heap weight) : Prop := match ht_theta x with TNone => True | TObj => False | TArr a => (a < length h)%nat /\ length (nth a h []) = nF end.

(** ** Runs, without the stored values *)
Definition record (c : hyp_cfg) (st : hyp_run) (r : list weight) : hyp_run := let w := update_weights c (r_n st) r (r_w st) in mkRun w (S (r_n st)) (r_log st ++ [w]).
Fixpoint walk (c : hyp_cfg) (ex : list Z) (l : list (mdp R * (Z * Z))) (st : hyp_run) : hyp_run * res unit :=
  match l with
  | [] => (st, Ok tt)
  | p :: l' => match single_move c (fst p) ex None (fst (snd p)) (snd (snd p)) with Err e => (st, Err e) | Ok (r, _) => walk c ex l' (record c st r) end
  end.
Definition fresh (c : hyp_cfg) (ex : list Z) (m : mdp R) (q : option hyp_q) : Prop := match q with None => True | Some q => estimate_q c m ex = Ok q end.
Lemma move_fresh : forall c ex m q s t, fresh c ex m q -> single_move c m ex q s t = single_move c m ex None s t.
Proof. intros c ex m [q|] s t F; [|reflexivity]. cbn [fresh] in F. unfold single_move. now rewrite F. Qed.
Lemma move_q : forall c ex m s t r q, single_move c m ex None s t = Ok (r, q) -> estimate_q c m ex = Ok q.
Proof.
  intros c ex m s t r q E. unfold single_move in E. apply bind_ok in E. destruct E as ([i a] & _ & E). apply bind_ok in E. destruct E as (q' & EQ & E). apply bind_ok in E. destruct E as (acts & _ & E). rewrite EQ. destruct (h_norm c); congruence.
Qed.
Lemma run_moves_walk : forall c ex m ps q st, fresh c ex m q -> run_moves c m ex q ps st = walk c ex (map (pair m) ps) st.
Proof.
  intros c ex m. induction ps as [|[s t] ps IH]; intros q st F; [reflexivity|]. cbn [run_moves map walk fst snd]. rewrite (move_fresh _ _ _ _ _ _ F). destruct (single_move c m ex None s t) as [[r q']|e] eqn:E; [|reflexivity]. apply IH. cbn [fresh]. eapply move_q. exact E.
Qed.
Lemma walk_app : forall c ex l1 l2 st, walk c ex (l1 ++ l2) st = match walk c ex l1 st with (st', Ok _) => walk c ex l2 st' | (st', Err e) => (st', Err e) end.
Proof. intros c ex. induction l1 as [|p l1 IH]; intros l2 st; [reflexivity|]. cbn [app walk]. destruct (single_move _ _ _ _ _ _) as [[r q]|e]; [apply IH|reflexivity]. Qed.
Lemma run_all_walk : forall c ex l st ends, (fst (fst (run_all c ex l st ends)), snd (run_all c ex l st ends)) = walk c ex (concat (map (fun p => map (pair (fst p)) (moves (snd p))) l)) st.
Proof.
  intros c ex. induction l as [|[m t] l IH]; intros st ends; [reflexivity|]. cbn [run_all map concat fst snd]. rewrite walk_app, <- (run_moves_walk c ex m (moves t) None) by exact I. destruct (run_moves c m ex None (moves t) st) as [st' [u|e]]; [apply IH|reflexivity].
Qed.
Lemma walk_spec : forall c ex l st st', walk c ex l st = (st', Ok tt) -> exists rs, Forall2 (evidence c ex) l rs /\ st' = fold_left (record c) rs st.
Proof.
  intros c ex. induction l as [|p l IH]; intros st st' E; cbn [walk] in E.
  - exists []. split; [constructor|]. cbn. congruence.
  - destruct (single_move _ _ _ _ _ _) as [[r q]|e] eqn:ES; [|congruence]. destruct (IH _ _ E) as (rs & F & EF). exists (r :: rs). split; [constructor; [exists q; exact ES|exact F]|exact EF].
Qed.
Lemma walk_ok : forall c ex l rs st, Forall2 (evidence c ex) l rs -> walk c ex l st = (fold_left (record c) rs st, Ok tt).
Proof. intros c ex l rs st F. revert st. induction F as [|p r l rs (q & E) _ IH]; intros st; [reflexivity|]. cbn [walk fold_left]. rewrite E. apply IH. Qed.
Lemma evidence_fun : forall c ex l rs rs', Forall2 (evidence c ex) l rs -> Forall2 (evidence c ex) l rs' -> rs = rs'.
Proof. intros c ex l rs rs' F. revert rs'. induction F as [|p r l rs (q & E) _ IH]; intros rs' F'; inversion_clear F' as [|? ? ? ? (q' & E') F2]; [reflexivity|]. f_equal; [congruence|now apply IH]. Qed.
Lemma F2_len : forall A B (P : A -> B -> Prop) u v, Forall2 P u v -> length u = length v. Proof. induction 1; cbn; congruence. Qed.

(** The recorded weights: row [k] comes from row [k - 1] and the [k]-th evidence. *)
Lemma record_spec : forall c rs st, let st' := fold_left (record c) rs st in r_n st' = (r_n st + length rs)%nat /\ length (r_log st') = (length (r_log st) + length rs)%nat /\
  (forall k, (k < length (r_log st))%nat -> nth k (r_log st') [] = nth k (r_log st) []) /\
  (forall k, (k < length rs)%nat -> nth (length (r_log st) + k) (r_log st') [] = update_weights c (r_n st + k) (nth k rs []) (nth k (r_w st :: skipn (length (r_log st)) (r_log st')) [])) /\
  r_w st' = nth (length rs) (r_w st :: skipn (length (r_log st)) (r_log st')) [].
Proof.
  intros c. induction rs as [|r rs IH]; intros st; cbn zeta.
  - cbn [fold_left length nth]. repeat split; try lia. 
  - cbn [fold_left length]. destruct (IH (record c st r)) as (H1 & H2 & H3 & H4 & H5). set (st' := fold_left (record c) rs (record c st r)) in *. cbn [record r_n r_log r_w] in H1, H2, H3, H4, H5. rewrite app_length in H2, H3, H4, H5. cbn [length] in H2, H3, H4, H5. set (w := update_weights c (r_n st) r (r_w st)) in *. set (L := length (r_log st)) in *.
    assert (X : nth L (r_log st') [] = w) by (rewrite H3 by lia; rewrite app_nth2 by (unfold L; lia); unfold L; rewrite Nat.sub_diag; reflexivity).
    assert (SK : skipn L (r_log st') = w :: skipn (L + 1) (r_log st')). { rewrite <- X. clear -H2. replace (L + 1)%nat with (S L) by lia. assert (LT : (L < length (r_log st'))%nat) by lia. clear H2. revert LT. generalize (r_log st'). generalize L. induction L0 as [|L0 IH]; intros l LT; destruct l as [|y l]; cbn in LT; try lia; [reflexivity|]. cbn [skipn nth]. apply IH. lia. }
    split; [lia|]. split; [lia|]. split; [|split].
    + intros k Hk. rewrite H3 by lia. now apply app_nth1.
    + intros [|k] Hk; [rewrite !Nat.add_0_r; cbn [nth]; exact X|]. replace (L + S k)%nat with (L + 1 + k)%nat by lia. rewrite H4 by lia. rewrite SK. cbn [nth]. f_equal. lia.
    + rewrite SK. exact H5.
Qed.
(** A successful fit: the evidence of every move was found, and the weights follow from it. *)
Definition learned (c : hyp_cfg) (w0 : list weight) (rs log : list (list weight)) : Prop := length log = length rs /\ forall k, (k < length rs)%nat -> nth k log [] = update_weights c (S k) (nth k rs []) (nth k (w0 :: log) []).
Definition n_feats (mdps : list (mdp R)) : nat := match mdps with m0 :: _ => length (m_features m0) | [] => 0%nat end.
Lemma hyp_fit_spec : forall c mdps ts ex x h x' h' a log ends, fit_hyptest c mdps ts ex x h = (x', h', Ok (a, log, ends)) ->
  length ts = length mdps /\ same_shapes mdps = true /\ ht_theta x' = TArr a /\ ht_orig x' = ht_orig x /\ (exists w, h' = upd (match ht_theta x with TArr _ => h | _ => h ++ [repeat (Some 0) (n_feats mdps)] end) a w) /\
  (ht_theta x = TArr a \/ ht_theta x = TNone /\ a = length h) /\
  exists rs, Forall2 (evidence c ex) (all_moves mdps ts) rs /\ rs <> [] /\ learned c (start_weights (n_feats mdps) x h) rs log /\
  ((a < length h')%nat -> nth a h' [] = last log []).
Proof.
  intros c mdps ts ex x h x' h' a log ends E. unfold fit_hyptest in E. destruct ts as [|t ts]; [congruence|]. destruct t as [|z t]; [congruence|]. set (tss := (z :: t) :: ts) in *. destruct (negb _) eqn:E1; [congruence|]. apply negb_false_iff, Nat.eqb_eq in E1. destruct (negb (same_shapes mdps)) eqn:E2; [congruence|]. apply negb_false_iff in E2.
  split; [exact E1|]. split; [exact E2|]. fold (n_feats mdps) in E.
  assert (GO : forall b h1, (let '(st, ends0, res) := run_all c ex (combine mdps tss) (mkRun (nth b h1 []) 1 []) [] in let h2 := upd h1 b (r_w st) in match res with Ok _ => if (length (r_log st) =? 0)%nat then (x, h2, Err ValueError) else (mkHt (TArr b) (ht_orig x), h2, Ok (b, r_log st, ends0)) | Err e => (x, h2, Err e) end) = (x', h', Ok (a, log, ends)) ->
    b = a /\ ht_theta x' = TArr a /\ ht_orig x' = ht_orig x /\ (exists w, h' = upd h1 a w) /\ exists rs, Forall2 (evidence c ex) (all_moves mdps tss) rs /\ rs <> [] /\ learned c (nth a h1 []) rs log /\ ((a < length h')%nat -> nth a h' [] = last log [])).
  { clear E. intros b h1 E. pose proof (run_all_walk c ex (combine mdps tss) (mkRun (nth b h1 []) 1 []) []) as RW. fold (all_moves mdps tss) in RW. destruct (run_all _ _ _ _ _) as [[st ends0] [u|e]]; cbn [fst snd] in RW; cbv zeta in E; [|congruence]. destruct u. destruct (length (r_log st) =? 0)%nat eqn:EL; [congruence|]. apply Nat.eqb_neq in EL.
    assert (b = a) by congruence. subst b. split; [reflexivity|]. assert (x' = mkHt (TArr a) (ht_orig x)) as -> by congruence. split; [reflexivity|]. split; [reflexivity|]. assert (EH : h' = upd h1 a (r_w st)) by congruence. split; [eauto|]. assert (r_log st = log) by congruence. subst log.
    symmetry in RW. destruct (walk_spec _ _ _ _ _ RW) as (rs & F & ES). exists rs. split; [exact F|]. destruct (record_spec c rs (mkRun (nth a h1 []) 1 [])) as (H1 & H2 & H3 & H4 & H5). rewrite <- ES in H1, H2, H3, H4, H5. cbn [r_n r_log r_w length skipn Nat.add] in *. split; [intros ->; cbn in H2; lia|]. split; [split; [exact H2|exact H4]|].
    intros LA. rewrite EH. rewrite nth_upd_same by (rewrite EH, upd_length in LA; exact LA). rewrite H5. assert (LS : length rs = S (length rs - 1)) by lia. rewrite LS. cbn [nth]. rewrite <- H2. clear -EL. destruct (r_log st) as [|y l] using rev_ind; [cbn in EL; lia|]. rewrite last_last, app_length, app_nth2 by (cbn; lia). cbn [length]. replace (length l + 1 - 1 - length l)%nat with 0%nat by lia. reflexivity. }
  unfold start_weights. destruct (ht_theta x) as [| |b] eqn:ET; [|congruence|].
  - destruct (GO _ _ E) as (<- & H1 & H2 & H3 & rs & H4 & H5 & H6 & H7). split; [exact H1|]. split; [exact H2|]. split; [exact H3|]. split; [auto|]. exists rs. rewrite app_nth2, Nat.sub_diag in H6 by lia. auto.
  - destruct (GO _ _ E) as (-> & H1 & H2 & H3 & rs & H4 & H5 & H6 & H7). split; [exact H1|]. split; [exact H2|]. split; [exact H3|]. split; [auto|]. exists rs. auto.
Qed.
(** Conversely, a fit succeeds if the evidence of every move can be found. *)
Lemma hyp_fit_ok : forall c mdps ts ex x h rs, length ts = length mdps -> hd [] ts <> [] -> same_shapes mdps = true -> ht_theta x <> TObj -> Forall2 (evidence c ex) (all_moves mdps ts) rs -> rs <> [] ->
  exists x' h' a log ends, fit_hyptest c mdps ts ex x h = (x', h', Ok (a, log, ends)).
Proof.
  intros c mdps ts ex x h rs L T0 SS NT F NE. unfold fit_hyptest. destruct ts as [|t ts]; [now elim T0|]. destruct t as [|z t]; [now elim T0|]. set (tss := (z :: t) :: ts) in *. rewrite (proj2 (Nat.eqb_eq _ _) L), SS. cbn [negb].
  assert (GO : forall b h1, exists x' h' a log ends, (let '(st, ends0, res) := run_all c ex (combine mdps tss) (mkRun (nth b h1 []) 1 []) [] in let h2 := upd h1 b (r_w st) in match res with Ok _ => if (length (r_log st) =? 0)%nat then (x, h2, Err ValueError) else (mkHt (TArr b) (ht_orig x), h2, Ok (b, r_log st, ends0)) | Err e => (x, h2, Err e) end) = (x', h', Ok (a, log, ends))).
  { intros b h1. pose proof (run_all_walk c ex (combine mdps tss) (mkRun (nth b h1 []) 1 []) []) as RW. fold (all_moves mdps tss) in RW. rewrite (walk_ok _ _ _ _ _ F) in RW. destruct (run_all _ _ _ _ _) as [[st ends0] r]. cbn [fst snd] in RW. assert (r = Ok tt) as -> by congruence. assert (ES : st = fold_left (record c) rs (mkRun (nth b h1 []) 1 [])) by congruence. cbv zeta.
    destruct (record_spec c rs (mkRun (nth b h1 []) 1 [])) as (_ & H2 & _). rewrite <- ES in H2. cbn [r_log length Nat.add] in H2. destruct (length (r_log st) =? 0)%nat eqn:EL; [apply Nat.eqb_eq in EL; destruct rs; [congruence|cbn in H2; lia]|]. eauto 10. }
  fold (n_feats mdps). destruct (ht_theta x) as [| |b]; [apply GO|congruence|apply GO].
Qed.
