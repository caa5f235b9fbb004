(** Property C115: the list returned by [get_agent_position_history]. *)
From Coq Require Import String List ZArith QArith Reals Bool Lia Lra.
From Verif Require Import PyBase PyProofs GridModel MDPModel MDPProps ActionModel EnvModel EnvSpec StepSpec EnvProofs EnvProofs2 EnvProofs3 EnvProofs4 EnvProofs5 EnvProps StepProps WorldModel WorldProofs WorldProofs2 HistModel.
Import ListNotations.
Local Close Scope Q_scope.
Local Open Scope nat_scope.

Section Hist.
Context {A : Type} {NA : Num A}.
Implicit Types (e : env A) (w : hworld A) (pl : plugins A).

Definition good w : Prop := length (h_of w) = length (e_agents (h_env w)) /\ NoDup (h_of w) /\ forall i, In i (h_of w) -> i < length (h_lists w).

Lemma write_length : forall ags of ls, length (write_all (A:=A) ls of ags) = length ls.
Proof.
  unfold write_all. induction ags as [|a ags IH]; intros of ls; [reflexivity|]. destruct of as [|i of]; [reflexivity|]. cbn [combine fold_left]. now rewrite IH, upd_length.
Qed.
Lemma write_other : forall ags of ls i, ~ In i of -> nth i (write_all (A:=A) ls of ags) [] = nth i ls [].
Proof.
  unfold write_all. induction ags as [|a ags IH]; intros of ls i N; [reflexivity|]. destruct of as [|j of]; [reflexivity|]. cbn [combine fold_left].
  rewrite IH by (intros X; apply N; now right). apply nth_upd_other. intros ->. apply N. now left.
Qed.
Lemma write_nth : forall ags of ls n a i, NoDup of -> (forall i, In i of -> i < length ls) -> nth_error ags n = Some a -> nth_error of n = Some i ->
  nth i (write_all (A:=A) ls of ags) [] = at_hist a.
Proof.
  unfold write_all. induction ags as [|b ags IH]; intros of ls n a i ND LT Ea Ei; [now destruct n|]. destruct of as [|j of]; [now destruct n|]. cbn [combine fold_left]. inversion_clear ND as [|? ? NI ND'].
  destruct n as [|n]; cbn in Ea, Ei.
  - injection Ea as ->. injection Ei as ->. fold (write_all (upd ls i (at_hist a)) of ags). rewrite write_other by exact NI. apply nth_upd_same. apply LT. now left.
  - apply (IH of (upd ls j (at_hist b)) n a i); auto. intros x Hx. rewrite upd_length. apply LT. now right.
Qed.
Lemma set_hist_id : forall a : attached A, set_hist a (at_hist a) = a. Proof. now intros []. Qed.
Lemma map_at : forall (g : attached A * nat -> attached A) (l : list (attached A)) of, length of = length l ->
  (forall n a i, nth_error l n = Some a -> nth_error of n = Some i -> g (a, i) = a) -> map g (combine l of) = l.
Proof.
  intros g. induction l as [|a l IH]; intros of L H; [reflexivity|]. destruct of as [|i of]; [discriminate|]. cbn [combine map]. f_equal; [now apply (H 0)|].
  apply IH; [now injection L|]. intros n b j Hb Hj. now apply (H (S n)).
Qed.
Lemma nth_error_seq_inv : forall len start n i, nth_error (seq start len) n = Some i -> i = start + n /\ n < len.
Proof.
  induction len as [|len IH]; intros start n i H; [now destruct n|]. destruct n as [|n]; cbn in H; [injection H as <-; lia|]. apply IH in H. lia.
Qed.

Lemma new_good : forall e, good (h_new e) /\ view (h_new e) = e.
Proof.
  intros e. split.
  - unfold good, h_new. cbn. rewrite seq_length, map_length. split; [reflexivity|]. split; [apply seq_NoDup|]. intros i Hi. apply in_seq in Hi. lia.
  - unfold view, h_new. cbn [h_env h_lists h_of]. rewrite map_at; [now destruct e|apply seq_length|]. intros n a i Ha Hi. apply nth_error_seq_inv in Hi. destruct Hi as [-> Hn]. cbn [plus].
    rewrite (nth_map_lt _ _ _ _ _ _ a) by exact Hn. rewrite (nth_error_nth _ _ a Ha). apply set_hist_id.
Qed.
Lemma view_agents : forall w, good w -> length (e_agents (view w)) = length (e_agents (h_env w)) /\ map at_name (e_agents (view w)) = map at_name (e_agents (h_env w)).
Proof.
  intros w (L & _). unfold view. cbn [e_agents]. split; [rewrite map_length, combine_length; lia|]. revert L. generalize (h_of w) (h_lists w). induction (e_agents (h_env w)) as [|a l IH]; intros of ls L; [reflexivity|].
  destruct of as [|i of]; [discriminate|]. cbn. f_equal. apply IH. now injection L.
Qed.
Lemma op_count : forall pl e o, length (e_agents (do_op pl e o)) = length (e_agents e).
Proof. intros pl e o. pose proof (op_names pl e o) as H. unfold names in H. apply (f_equal (@length _)) in H. now rewrite !map_length in H. Qed.

(** A call does to the lists what it does to the environment they show. *)
Lemma do_view : forall pl w o, good w -> good (h_do pl w (HCall o)) /\ view (h_do pl w (HCall o)) = do_op pl (view w) o.
Proof.
  intros pl w o G. destruct (view_agents w G) as [VL _]. pose proof (op_count pl (view w) o) as OC. destruct G as (L & ND & LT).
  assert (RS : o = OReset \/ h_do pl w (HCall o) = mkHWorld (do_op pl (view w) o) (write_all (h_lists w) (h_of w) (e_agents (do_op pl (view w) o))) (h_of w)) by (destruct o; auto).
  destruct RS as [->|RS].
  - unfold h_do. set (e1 := do_op pl (view w) OReset) in *. split.
    + unfold good. cbn [h_of h_env h_lists]. rewrite seq_length. split; [reflexivity|]. split; [apply seq_NoDup|]. intros i Hi. apply in_seq in Hi. rewrite app_length, map_length. lia.
    + unfold view at 1. cbn [h_env h_lists h_of]. rewrite map_at; [now destruct e1|apply seq_length|]. intros n a i Ha Hi. apply nth_error_seq_inv in Hi. destruct Hi as [-> Hn].
      rewrite app_nth2_plus, (nth_map_lt _ _ _ _ _ _ a) by exact Hn. rewrite (nth_error_nth _ _ a Ha). apply set_hist_id.
  - rewrite RS. set (e1 := do_op pl (view w) o) in *. split.
    + unfold good. cbn [h_of h_env h_lists]. rewrite write_length. split; [congruence|]. auto.
    + unfold view at 1. cbn [h_env h_lists h_of]. rewrite map_at; [now destruct e1|congruence|]. intros n a i Ha Hi. rewrite (write_nth _ _ _ n a i ND LT Ha Hi). apply set_hist_id.
Qed.
Lemma run_view : forall pl ops w, good w -> good (h_run pl w (map HCall ops)) /\ view (h_run pl w (map HCall ops)) = run pl (view w) ops.
Proof.
  induction ops as [|o ops IH]; intros w G; [now split|]. cbn [map]. unfold h_run, run. cbn [fold_left]. destruct (do_view pl w o G) as [G1 V1].
  destruct (IH _ G1) as [G2 V2]. split; [exact G2|]. unfold h_run, run in V2. now rewrite V2, V1.
Qed.
(** The object returned shows what the environment says the history is. *)
Lemma object_shows : forall w nm i, good w -> history_object w nm = Ok i -> get_history (view w) nm = Ok (nth i (h_lists w) []) /\ In i (h_of w).
Proof.
  intros w nm i (L & _ & _) H. unfold history_object in H. unfold get_history, lookup, view. cbn [e_names e_agents]. destruct (existsb _ _); [|discriminate].
  unfold find_agent. revert L H. generalize (h_of w). induction (e_agents (h_env w)) as [|a l IH]; intros of L H; [discriminate|]. destruct of as [|j of]; [discriminate|]. cbn [combine map find] in *.
  cbn [set_hist at_name]. destruct (String.eqb (at_name a) nm); [injection H as <-; cbn; split; [reflexivity|now left]|]. destruct (IH of) as [H1 H2]; [now injection L|exact H|]. split; [exact H1|now right].
Qed.
Lemma object_after : forall pl w o nm, good w -> o <> OReset -> e_names (do_op pl (view w) o) = e_names (view w) -> history_object (h_do pl w (HCall o)) nm = history_object w nm.
Proof.
  intros pl w o nm G NR EN. assert (RS : h_do pl w (HCall o) = mkHWorld (do_op pl (view w) o) (write_all (h_lists w) (h_of w) (e_agents (do_op pl (view w) o))) (h_of w)) by (destruct o; congruence || reflexivity).
  rewrite RS. unfold history_object. cbn [h_env h_of]. rewrite EN. replace (e_names (view w)) with (e_names (h_env w)) by reflexivity. destruct (existsb _ _); [|reflexivity].
  pose proof (op_names pl (view w) o) as N. unfold names in N. destruct (view_agents w G) as [_ VN]. rewrite VN in N. revert N.
  generalize (e_agents (do_op pl (view w) o)) (e_agents (h_env w)) (h_of w). clear. induction l as [|a l IH]; intros [|b l'] of N; try discriminate; [reflexivity|]. destruct of as [|i of]; [reflexivity|].
  cbn in N. injection N as N1 N2. cbn [combine find]. rewrite N1. destruct (String.eqb _ _); [reflexivity|]. now apply IH.
Qed.
End Hist.

Lemma object_exists : forall {A} `{Num A} (w : hworld A) nm, good w -> In nm (e_names (h_env w)) -> In nm (map at_name (e_agents (h_env w))) -> exists i, history_object w nm = Ok i.
Proof.
  intros A NA w nm (L & _) I1 I2. unfold history_object. replace (existsb _ _) with true by (symmetry; apply existsb_exists; exists nm; split; [exact I1|apply String.eqb_refl]).
  revert L I2. generalize (h_of w). induction (e_agents (h_env w)) as [|a l IH]; intros of L I2; [destruct I2|]. destruct of as [|i of]; [discriminate|]. cbn [combine find].
  destruct (String.eqb_spec (at_name a) nm) as [E|E]; [eauto|]. destruct I2 as [I2|I2]; [contradiction|]. apply IH; [now injection L|exact I2].
Qed.
Lemma op_e_names : forall pl e o, reachable pl e -> e_names (do_op pl e o) = e_names e.
Proof. intros pl e o RE. destruct (reachable_wf _ _ RE) as (k & shape & st & W). now destruct (run_static pl _ _ _ [o] e W). Qed.
Lemma run_reachable : forall pl ops e, reachable pl e -> reachable pl (run pl e ops).
Proof. induction ops as [|o ops IH]; intros e RE; [exact RE|]. cbn. apply IH. now apply reach_op. Qed.
Lemma object_run : forall pl ops w nm, good w -> reachable pl (view w) -> Forall (fun o => o <> OReset) ops -> history_object (h_run pl w (map HCall ops)) nm = history_object w nm.
Proof.
  induction ops as [|o ops IH]; intros w nm G RE F; [reflexivity|]. inversion_clear F. cbn [map]. change (h_run pl w (HCall o :: map HCall ops)) with (h_run pl (h_do pl w (HCall o)) (map HCall ops)).
  destruct (do_view pl w o G) as [G1 V1]. rewrite IH; [|exact G1|rewrite V1; now apply reach_op|assumption]. apply object_after; [exact G|assumption|]. now apply op_e_names.
Qed.
Lemma frozen_run : forall (pl : plugins R) ops w i, good w -> i < length (h_lists w) -> ~ In i (h_of w) -> nth i (h_lists (h_run pl w (map HCall ops))) [] = nth i (h_lists w) [].
Proof.
  induction ops as [|o ops IH]; intros w i G Hi N; [reflexivity|]. cbn [map]. change (h_run pl w (HCall o :: map HCall ops)) with (h_run pl (h_do pl w (HCall o)) (map HCall ops)).
  destruct (do_view pl w o G) as [G1 _].
  assert (RS : o = OReset \/ h_do pl w (HCall o) = mkHWorld (do_op pl (view w) o) (write_all (h_lists w) (h_of w) (e_agents (do_op pl (view w) o))) (h_of w)) by (destruct o; auto).
  destruct RS as [->|RS].
  - rewrite IH; [| exact G1| |]; cbn [h_do h_lists h_of]; [now rewrite app_nth1|rewrite app_length; lia|]. intros X. apply in_seq in X. lia.
  - rewrite IH; [|exact G1| |]; rewrite RS; cbn [h_lists h_of]; [now apply write_other|now rewrite write_length|exact N].
Qed.

(** Every agent's history is a list object; read at any later time before a reset, a list obtained earlier
    shows the history up to then. *)
Theorem C115_live_partial : forall pl e0 ops0 nm ops, reachable pl e0 -> In nm (e_names e0) -> Forall (fun o => o <> OReset) ops ->
  let w := h_run pl (h_new e0) (map HCall ops0) in let w' := h_run pl w (map HCall ops) in
  view w' = run pl e0 (ops0 ++ ops) /\
  exists i, history_object w nm = Ok i /\ history_object w' nm = Ok i /\
    get_history (run pl e0 ops0) nm = Ok (nth i (h_lists w) []) /\ get_history (run pl e0 (ops0 ++ ops)) nm = Ok (nth i (h_lists w') []).
Proof.
  intros pl e0 ops0 nm ops RE I F w w'. destruct (new_good e0) as [G0 V0]. destruct (run_view pl ops0 _ G0) as [G1 V1]. fold w in G1, V1. rewrite V0 in V1.
  destruct (run_view pl ops _ G1) as [G2 V2]. fold w' in G2, V2. rewrite V1 in V2.
  assert (ER : run pl e0 (ops0 ++ ops) = run pl (run pl e0 ops0) ops) by (unfold run; apply fold_left_app). rewrite ER. split; [exact V2|].
  pose proof (run_reachable pl ops0 _ RE) as RE1. destruct (reachable_wf _ _ RE) as (k & shape & st & W). destruct (run_static pl _ _ _ ops0 e0 W) as (EN & _).
  assert (I1 : In nm (e_names (h_env w))). { change (e_names (h_env w)) with (e_names (view w)). rewrite V1, EN. exact I. }
  assert (I2 : In nm (map at_name (e_agents (h_env w)))).
  { destruct (view_agents w G1) as [_ VN]. rewrite <- VN, V1. destruct (reachable_wf _ _ RE1) as (k1 & sh1 & st1 & W1). apply (wf_lookup _ _ _ _ W1). now rewrite EN. }
  destruct (object_exists w nm G1 I1 I2) as (i & HO). exists i. split; [exact HO|].
  assert (HO' : history_object w' nm = Ok i). { unfold w'. rewrite object_run; auto. now rewrite V1. }
  split; [exact HO'|]. destruct (object_shows w nm i G1 HO) as [S1 _]. destruct (object_shows w' nm i G2 HO') as [S2 _]. rewrite V1 in S1. rewrite V2 in S2. now split.
Qed.

(** The same, as C183: a property of its own. *)
Theorem C183_live : forall pl e0 ops0 nm ops, reachable pl e0 -> In nm (e_names e0) -> Forall (fun o => o <> OReset) ops ->
  let w := h_run pl (h_new e0) (map HCall ops0) in let w' := h_run pl w (map HCall ops) in
  view w' = run pl e0 (ops0 ++ ops) /\
  exists i, history_object w nm = Ok i /\ history_object w' nm = Ok i /\
    get_history (run pl e0 ops0) nm = Ok (nth i (h_lists w) []) /\ get_history (run pl e0 (ops0 ++ ops)) nm = Ok (nth i (h_lists w') []).
Proof. exact (@C115_live_partial). Qed.
(** A reset gives every agent a new list: one obtained earlier keeps for ever what it showed before the reset. *)
Theorem C115_reset_partial : forall pl e0 ops0 nm ops i, reachable pl e0 ->
  let w := h_run pl (h_new e0) (map HCall ops0) in let w' := h_run pl w (map HCall (OReset :: ops)) in
  history_object w nm = Ok i ->
  get_history (run pl e0 ops0) nm = Ok (nth i (h_lists w') []).
Proof.
  intros pl e0 ops0 nm ops i RE w w' HO. destruct (new_good e0) as [G0 V0]. destruct (run_view pl ops0 _ G0) as [G1 V1]. fold w in G1, V1. rewrite V0 in V1.
  destruct (object_shows w nm i G1 HO) as [SH II]. rewrite V1 in SH. rewrite SH. f_equal.
  unfold w'. cbn [map]. change (h_run pl w (HCall OReset :: map HCall ops)) with (h_run pl (h_do pl w (HCall OReset)) (map HCall ops)).
  destruct (do_view pl w OReset G1) as [G2 _]. destruct G1 as (L & ND & LT). specialize (LT i II).
  rewrite frozen_run; [| exact G2| |]; cbn [h_do h_lists h_of]; [now rewrite app_nth1|rewrite app_length; lia|]. intros X. apply in_seq in X. lia.
Qed.

(** The same, as C183: a property of its own. *)
Theorem C183_reset : forall pl e0 ops0 nm ops i, reachable pl e0 ->
  let w := h_run pl (h_new e0) (map HCall ops0) in let w' := h_run pl w (map HCall (OReset :: ops)) in
  history_object w nm = Ok i ->
  get_history (run pl e0 ops0) nm = Ok (nth i (h_lists w') []).
Proof. exact (@C115_reset_partial). Qed.
(** Refuted: a list obtained earlier is no snapshot; every step of the agent makes it longer. *)
Theorem C115_snapshot_refuted : forall pl e0 ops0 nm i seed e' p, reachable pl e0 ->
  let w := h_run pl (h_new e0) (map HCall ops0) in
  history_object w nm = Ok i -> env_step pl (run pl e0 ops0) nm seed = (e', Ok p) ->
  nth i (h_lists (h_do pl w (HCall (OStep nm seed)))) [] = nth i (h_lists w) [] ++ [p].
Proof.
  intros pl e0 ops0 nm i seed e' p RE w HO ES. destruct (new_good e0) as [G0 V0]. destruct (run_view pl ops0 _ G0) as [G1 V1]. fold w in G1, V1. rewrite V0 in V1.
  pose proof (run_reachable pl ops0 _ RE) as RE1. destruct (C19_step _ _ _ _ _ _ RE1 ES) as (a & a' & act & s & ridx & NA & NA' & _ & _ & _ & _ & _ & _ & HH & _).
  assert (RV : reachable pl (view w)) by now rewrite V1.
  assert (HO' : history_object (h_do pl w (HCall (OStep nm seed))) nm = Ok i) by (rewrite object_after; auto; [discriminate|now apply op_e_names]).
  destruct (do_view pl w (OStep nm seed) G1) as [G2 V2]. rewrite V1 in V2. cbn [do_op] in V2. rewrite ES in V2. cbn [fst] in V2.
  destruct (object_shows _ _ _ G1 HO) as [S1 _]. destruct (object_shows _ _ _ G2 HO') as [S2 _]. rewrite V1 in S1. rewrite V2 in S2.
  assert (RE2 : reachable pl e') by (replace e' with (do_op pl (run pl e0 ops0) (OStep nm seed)) by (cbn; now rewrite ES); now apply reach_op).
  assert (GH : forall e b, reachable pl e -> agent_named e nm b -> get_history e nm = Ok (at_hist b)).
  { intros e b R1 [Hb Nb]. destruct (reachable_wf _ _ R1) as (k & shape & st & W). unfold get_history. destruct (lookup_spec _ _ _ _ nm W) as [(c & Lc & Hc & Nc)|(Lc & NI)]; rewrite Lc; cbn [bind].
    - f_equal. f_equal. eapply same_name_same; [apply (wf_names _ _ _ _ W)|exact Hc|exact Hb|congruence].
    - exfalso. apply NI. apply (wf_lookup _ _ _ _ W). apply in_map_iff. eauto. }
  rewrite (GH _ _ RE1 NA) in S1. rewrite (GH _ _ RE2 NA') in S2. assert (OI : forall u v : list Z, Ok u = Ok v -> u = v) by congruence. apply OI in S1, S2. rewrite <- S2, <- S1. exact HH.
Qed.
(** Refuted: whoever appends to the list they were given changes what the environment reports. *)
Theorem C115_edit_refuted : forall pl e0 ops0 nm i z, reachable pl e0 ->
  let w := h_run pl (h_new e0) (map HCall ops0) in
  history_object w nm = Ok i -> exists l, get_history (view w) nm = Ok l /\ get_history (view (h_do pl w (HAppend i z))) nm = Ok (l ++ [z]).
Proof.
  intros pl e0 ops0 nm i z RE w HO. destruct (new_good e0) as [G0 V0]. destruct (run_view pl ops0 _ G0) as [G1 V1]. fold w in G1, V1.
  destruct (object_shows _ _ _ G1 HO) as [S1 II]. exists (nth i (h_lists w) []). split; [exact S1|].
  assert (G2 : good (h_do pl w (HAppend i z))). { destruct G1 as (L & ND & LT). unfold good, h_do. cbn [h_of h_env h_lists]. rewrite upd_length. auto. }
  assert (HO' : history_object (h_do pl w (HAppend i z)) nm = Ok i) by exact HO.
  destruct (object_shows _ _ _ G2 HO') as [S2 _]. rewrite S2. cbn [h_do h_lists]. rewrite nth_upd_same; [reflexivity|]. now apply G1.
Qed.
(** A run: the list obtained at the start grows with two steps and is left alone after the reset. *)
Example C115_example : exists m m' e w1 w2 w3, grid_mdp (A:=Q) Square ex_ft None (2, 2) false = Ok m /\ make_env m [ex_p; ex_q] = (m', Ok e) /\
  let pl := ex_pl [1; 1; 3; 3]%Z in
  history_object (h_new e) "q" = Ok 1 /\
  w1 = h_run pl (h_new e) [HCall (OFit "q" None 0 0); HCall (OStep "q" 0)] /\ nth 1 (h_lists w1) [] = [3; 1]%Z /\
  w2 = h_run pl w1 [HCall (OStep "q" 0)] /\ nth 1 (h_lists w2) [] = [3; 1; 3]%Z /\
  w3 = h_run pl w2 [HCall OReset; HCall (OStep "q" 0)] /\ nth 1 (h_lists w3) [] = [3; 1; 3]%Z /\ history_object w3 "q" = Ok 3 /\ nth 3 (h_lists w3) [] = [3; 1]%Z.
Proof. do 6 eexists. split; [vm_compute; reflexivity|]. split; [vm_compute; reflexivity|]. cbv zeta. repeat (split; [vm_compute; reflexivity|]). vm_compute; reflexivity. Qed.
