(** Property C147: asking for a policy changes no array that existed before. *)
From Coq Require Import List ZArith QArith Reals Bool Lia.
From Verif Require Import PyBase PyProofs ActionModel HeapModel MDPProps.
Import ListNotations.
Local Close Scope Q_scope.
Local Open Scope nat_scope.

(** A selector that writes only to the array it is given and to arrays it creates, and returns the one
    or one of the others. *)
Definition tidy {A} (sel : selector_h (A:=A)) : Prop := forall h l h' r, sel h l = (h', r) ->
  length h <= length h' /\ (forall l0, l0 < length h -> l0 <> l -> read h' l0 = read h l0) /\
  forall lr, r = Ok lr -> lr = l \/ length h <= lr.

Section Heap.
Context {A : Type} {NA : Num A}.
Implicit Types (h : heap A) (l : nat).

Lemma read_upd_other : forall h l x l0, l0 <> l -> read (write h l x) l0 = read h l0.
Proof. unfold read, write. induction h as [|y h IH]; intros [|l] x [|l0] N; cbn; try reflexivity; try congruence. apply IH. congruence. Qed.
Lemma read_upd_same : forall h l x, l < length h -> read (write h l x) l = Some x.
Proof. unfold read, write. induction h as [|y h IH]; intros [|l] x H; cbn in *; try lia; [reflexivity|]. apply IH. lia. Qed.
Lemma write_length : forall h l x, length (write h l x) = length h.
Proof. intros. apply upd_length. Qed.
Lemma read_alloc : forall h x, read (h ++ [x]) (length h) = Some x.
Proof. intros. unfold read. rewrite nth_error_app2, Nat.sub_diag by lia. reflexivity. Qed.
Lemma read_app : forall h g l0, l0 < length h -> read (h ++ g) l0 = read h l0.
Proof. intros. unfold read. now apply nth_error_app1. Qed.

Lemma prepare_spec : forall h q h2 l1, prepare_h h q = (h2, l1) -> l1 = length h /\ length h2 = S (length h) /\
  read h2 l1 = Some (AF (ActionModel.clean q)) /\ forall l0, l0 < length h -> read h2 l0 = read h l0.
Proof.
  intros h q h2 l1 E. unfold prepare_h, alloc in E. apply pair_equal_spec in E. destruct E as [<- <-]. split; [reflexivity|].
  rewrite write_length, app_length. cbn [length]. split; [lia|]. split; [apply read_upd_same; rewrite app_length; cbn; lia|].
  intros l0 H. rewrite read_upd_other by lia. now apply read_app.
Qed.

(** Whatever the outcome, every array that existed before the call is as it was; the returned one is new. *)
Definition leaves_all h h' (r : res nat) : Prop :=
  length h <= length h' /\ (forall l0, l0 < length h -> read h' l0 = read h l0) /\ forall lr, r = Ok lr -> length h <= lr.

Theorem C147_actions : forall sel h l h' r, tidy sel -> get_pi_h sel h l = (h', r) -> leaves_all h h' r.
Proof.
  intros sel h l h' r TS E. unfold get_pi_h in E. destruct (check_h h l) as [q|x].
  2:{ apply pair_equal_spec in E. destruct E as [<- <-]. split; [lia|]. split; [reflexivity|discriminate]. }
  destruct (prepare_h h q) as [h2 l1] eqn:EP. destruct (prepare_spec _ _ _ _ EP) as (-> & L2 & _ & R2).
  destruct (sel h2 (length h)) as [h3 r3] eqn:ES. destruct (TS _ _ _ _ ES) as (L3 & R3 & N3).
  assert (K : forall l0, l0 < length h -> read h3 l0 = read h l0) by (intros l0 H; rewrite R3 by lia; now apply R2).
  destruct r3 as [lr|x].
  2:{ apply pair_equal_spec in E. destruct E as [<- <-]. split; [lia|]. split; [exact K|discriminate]. }
  assert (Hlr : length h <= lr) by (destruct (N3 lr eq_refl); lia).
  assert (KW : forall y l0, l0 < length h -> read (write h3 lr y) l0 = read h l0) by (intros y l0 H; rewrite read_upd_other by lia; now apply K).
  destruct (read h3 lr) as [[p|pi]|].
  - destruct (negb _); apply pair_equal_spec in E; destruct E as [<- <-].
    + split; [lia|]. split; [exact K|discriminate].
    + split; [rewrite write_length; lia|]. split; [apply KW|discriminate].
  - destruct (negb _); apply pair_equal_spec in E; destruct E as [<- <-].
    + split; [lia|]. split; [exact K|discriminate].
    + split; [rewrite write_length; lia|]. split; [apply KW|]. intros l2 X. now injection X as <-.
  - apply pair_equal_spec in E; destruct E as [<- <-]. split; [lia|]. split; [exact K|discriminate].
Qed.

Theorem C147_probabilities : forall sel h l h' r, tidy sel -> get_pi_p_h sel h l = (h', r) -> leaves_all h h' r.
Proof.
  intros sel h l h' r TS E. unfold get_pi_p_h in E. destruct (check_h h l) as [q|x].
  2:{ apply pair_equal_spec in E. destruct E as [<- <-]. split; [lia|]. split; [reflexivity|discriminate]. }
  destruct (prepare_h h q) as [h2 l1] eqn:EP. destruct (prepare_spec _ _ _ _ EP) as (-> & L2 & _ & R2).
  destruct (sel h2 (length h)) as [h3 r3] eqn:ES. destruct (TS _ _ _ _ ES) as (L3 & R3 & N3).
  assert (K : forall l0, l0 < length h -> read h3 l0 = read h l0) by (intros l0 H; rewrite R3 by lia; now apply R2).
  destruct r3 as [lr|x].
  2:{ apply pair_equal_spec in E. destruct E as [<- <-]. split; [lia|]. split; [exact K|discriminate]. }
  assert (Hlr : length h <= lr) by (destruct (N3 lr eq_refl); lia).
  assert (KW : forall y l0, l0 < length h -> read (write h3 lr y) l0 = read h l0) by (intros y l0 H; rewrite read_upd_other by lia; now apply K).
  destruct (read h3 lr) as [[p|pi]|].
  - destruct (negb _); apply pair_equal_spec in E; destruct E as [<- <-].
    + split; [lia|]. split; [exact K|discriminate].
    + split; [rewrite write_length; lia|]. split; [apply KW|]. intros l2 X. destruct (forallb _ _); [|discriminate X]. now injection X as <-.
  - apply pair_equal_spec in E; destruct E as [<- <-]. split; [lia|]. split; [exact K|discriminate].
  - apply pair_equal_spec in E; destruct E as [<- <-]. split; [lia|]. split; [exact K|discriminate].
Qed.

(** An agent that works out its policy: its plan's Q values and all policies it had before are as they
    were, and the new probabilities are not touched when the actions are worked out. *)
Theorem C147_policy : forall sel_p sel h l h' r, tidy sel_p -> tidy sel -> get_policy_h sel_p sel h l = (h', r) ->
  (forall l0, l0 < length h -> read h' l0 = read h l0) /\
  forall lp la, r = Ok (lp, la) -> length h <= lp < la /\
    exists h1, get_pi_p_h sel_p h l = (h1, Ok lp) /\ read h' lp = read h1 lp.
Proof.
  intros sel_p sel h l h' r TP TS E. unfold get_policy_h in E.
  destruct (get_pi_p_h sel_p h l) as [h1 r1] eqn:E1. destruct (C147_probabilities _ _ _ _ _ TP E1) as (L1 & R1 & N1).
  destruct r1 as [lp|x].
  2:{ apply pair_equal_spec in E. destruct E as [<- <-]. split; [exact R1|discriminate]. }
  destruct (get_pi_h sel h1 l) as [h2 r2] eqn:E2. destruct (C147_actions _ _ _ _ _ TS E2) as (L2 & R2 & N2).
  assert (K : forall l0, l0 < length h -> read h2 l0 = read h l0) by (intros l0 H; rewrite R2 by lia; now apply R1).
  destruct r2 as [la|x]; apply pair_equal_spec in E; destruct E as [<- <-]; (split; [exact K|]); [|discriminate].
  intros lp0 la0 X. injection X as <- <-. specialize (N2 la eq_refl). specialize (N1 lp eq_refl).
  assert (Hlp : lp < length h1).
  { unfold get_pi_p_h in E1. destruct (check_h h l); [|discriminate E1]. destruct (prepare_h h a) as [h3 l3]. destruct (sel_p h3 l3) as [h4 [l4|x]]; [|discriminate E1].
    destruct (read h4 l4) as [[p|pi]|] eqn:E4; try discriminate E1. assert (l4 < length h4) by (apply nth_error_Some; unfold read in E4; congruence).
    destruct (negb _); [discriminate E1|]. apply pair_equal_spec in E1. destruct E1 as [<- E1]. rewrite write_length.
    destruct (forallb _ _); [|discriminate E1]. now injection E1 as <-. }
  split; [lia|]. exists h1. split; [reflexivity|]. now apply R2.
Qed.

(** The library's selectors are of that kind, and what they return is what the model on values says. *)
Theorem C147_library : (forall f, tidy (lib_pi (A:=A) f)) /\ (forall f, tidy (lib_pi_p (A:=A) f)) /\
  forall h l q, read h l = Some (AF q) ->
  (forall f, exists h', match get_pi f q with
     | Ok pi => exists lr, get_pi_h (lib_pi f) h l = (h', Ok lr) /\ read h' lr = Some (AI pi)
     | Err x => get_pi_h (lib_pi f) h l = (h', Err x) end) /\
  (forall f, exists h', match get_pi_p f q with
     | Ok p => exists lr, get_pi_p_h (lib_pi_p f) h l = (h', Ok lr) /\ read h' lr = Some (AF p)
     | Err x => get_pi_p_h (lib_pi_p f) h l = (h', Err x) end).
Proof.
  assert (TL : forall (h h' : heap A) (l : nat) (r : res nat) x, (h ++ [x], Ok (length h)) = (h', r) -> length h <= length h' /\ (forall l0, l0 < length h -> l0 <> l -> read h' l0 = read h l0) /\ forall lr, r = Ok lr -> lr = l \/ length h <= lr).
  { intros h h' l r x E. apply pair_equal_spec in E. destruct E as [<- <-]. rewrite app_length. split; [lia|]. split; [intros; now apply read_app|]. intros lr X. injection X as <-. right. lia. }
  assert (TE : forall (h h' : heap A) (l : nat) (r : res nat) x, (h, Err x) = (h', r) -> length h <= length h' /\ (forall l0, l0 < length h -> l0 <> l -> read h' l0 = read h l0) /\ forall lr, r = Ok lr -> lr = l \/ length h <= lr).
  { intros h h' l r x E. apply pair_equal_spec in E. destruct E as [<- <-]. split; [lia|]. split; [reflexivity|discriminate]. }
  split; [|split].
  - intros f h l h' r E. unfold lib_pi in E. destruct (read h l) as [[q|]|]; [|eapply TE; exact E|eapply TE; exact E]. destruct (f q); [eapply TL; exact E|eapply TE; exact E].
  - intros f h l h' r E. unfold lib_pi_p in E. destruct (read h l) as [[q|]|]; [|eapply TE; exact E|eapply TE; exact E]. destruct (f q); [eapply TL; exact E|eapply TE; exact E].
  - intros h l q EQ. split; intros f.
    + unfold get_pi_h, get_pi, check_h. rewrite EQ. destruct (check_q_values q) as [u|x]; cbn [bind]; [|eexists; reflexivity].
      destruct (prepare_h h q) as [h2 l1] eqn:EP. destruct (prepare_spec _ _ _ _ EP) as (-> & L2 & R2 & _). unfold lib_pi. rewrite R2.
      destruct (f (ActionModel.clean q)) as [pi|x]; cbn [bind alloc]; [|eexists; reflexivity]. rewrite read_alloc.
      destruct (negb _); [eexists; reflexivity|]. eexists. eexists. split; [reflexivity|]. apply read_upd_same. rewrite app_length. cbn. lia.
    + unfold get_pi_p_h, get_pi_p, check_h. rewrite EQ. destruct (check_q_values q) as [u|x]; cbn [bind]; [|eexists; reflexivity].
      destruct (prepare_h h q) as [h2 l1] eqn:EP. destruct (prepare_spec _ _ _ _ EP) as (-> & L2 & R2 & _). unfold lib_pi_p. rewrite R2.
      destruct (f (ActionModel.clean q)) as [p|x]; cbn [bind alloc]; [|eexists; reflexivity]. rewrite read_alloc.
      destruct (negb _); [eexists; reflexivity|]. cbv zeta. destruct (forallb _ _); [|eexists; reflexivity].
      eexists. eexists. split; [reflexivity|]. apply read_upd_same. rewrite app_length. cbn. lia.
Qed.
End Heap.

(** A selector that sorts out the array it is given and returns that array is tidy too. *)
Definition in_place : selector_h (A:=Q) := fun h l =>
  match read h l with Some (AF q) => (write h l (AF (map (map (fun v => match v with NInf => Fin 0%Q | _ => v end)) q)), Ok l) | _ => (h, Err TypeError) end.
Example C147_tidy : tidy in_place.
Proof.
  intros h l h' r E. unfold in_place in E. destruct (read h l) as [[q|]|]; apply pair_equal_spec in E; destruct E as [<- <-]; [|split; [lia|]; split; [reflexivity|discriminate]..].
  rewrite write_length. split; [lia|]. split; [intros; now apply read_upd_other|]. intros lr X. left. now injection X as <-.
Qed.
Example C147_example : let q := [[NaN; Fin 1%Q]; [NaN; NaN]; [Fin 2%Q; Fin 2%Q]] in
  get_policy_h in_place (lib_pi (max_get_pi (fun _ => 0))) [AF q] 0 =
    ([AF q; AF [[Fin 0%Q; Fin 1%Q]; [NaN; NaN]; [Fin 2%Q; Fin 2%Q]]; AF (ActionModel.clean q); AI [1; -1; 0]%Z], Ok (1, 3)).
Proof. vm_compute. reflexivity. Qed.
(** A selector of the user's own that hands out an array it keeps has that array changed. *)
Example C147_needs_tidy : let keeps : selector_h (A:=Q) := fun h l => (h, Ok 1) in
  get_pi_h keeps [AF [[NaN]; [Fin 1%Q]]; AI [0; 0]%Z] 0 = ([AF [[NaN]; [Fin 1%Q]]; AI [-1; 0]%Z; AF [[NInf]; [Fin 1%Q]]], Ok 1).
Proof. vm_compute. reflexivity. Qed.
