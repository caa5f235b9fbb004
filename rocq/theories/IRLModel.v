(** Model of maMDP/algorithms/irl.py, except hypothesis testing (HypModel.v). Definitions only.
    Numbers are exact; compiled-code details (numba), progress bars and printing are not modelled. *)
From Coq Require Import List ZArith Reals Bool.
From Verif Require Import PyBase MDPModel ActionModel SoftmaxModel VIModel.
Import ListNotations.

Section IRL.
Context {A : Type} {NA : Num A}.
(** irl.py 179 and 181 [len(t)], [len(trajectories)] as divisors. *)
Definition nofn (n : nat) : A := nofZ (Z.of_nat n).

(** ** State visitation *)
(** irl.py 55-61: one sweep; the three loops of lines 56-59 update [Dprime] in place. [sas] and [pi] have the
    shapes numba assumes without checking. *)
Definition visit_step (sas : list (list (list A))) (pi : list (list A)) (p0 D : list A) : list A :=
  fold_left (fun dp s => fold_left (fun dp a => fold_left (fun dp t =>
      upd dp t (nadd (nth t dp n0) (nmul (nmul (nth s D n0) (get2 n0 pi s a)) (get3 n0 sas s a t))))
    (seq 0 (length sas)) dp) (seq 0 (length (nth 0 sas []))) dp) (seq 0 (length sas)) p0.
(** irl.py 30-63 [state_visitation_iterator]. *)
Fixpoint visit_loop (n : nat) (sas : list (list (list A))) (pi : list (list A)) (p0 D : list A) : list A :=
  match n with O => D | S n' => visit_loop n' sas pi p0 (visit_step sas pi p0 D) end.
(** irl.py 30-63 [state_visitation_iterator], from zero visits on. *)
Definition state_visitation_iterator (sas : list (list (list A))) (n_iter : Z) (pi : list (list A)) (p0 : list A) : list A :=
  visit_loop (Z.to_nat n_iter) sas pi p0 (zeros1 (length sas)).

(** irl.py 139 and 177: [v[s] += 1]. *)
Definition bump (v : list A) (s : Z) : res (list A) :=
  let* i := py_index (length v) s in Ok (upd v i (nadd (nth i v n0) n1)).
(** irl.py 137-140 [_get_state_visitation_frequencies]: relative frequency of the first states; [t[0]] fails for an empty trajectory. *)
Definition start_distribution (n_states : nat) (ts : list (list Z)) : res (list A) :=
  let* v := foldM (fun v t => match t with [] => Err IndexError | s :: _ => bump v s end) ts (zeros1 n_states) in
  Ok (map (fun x => ndiv x (nsum v)) v).
(** irl.py 171-181: observed state visitation. Line 179 divides the running total, not the trajectory's own
    count. (For an empty trajectory numpy gives NaN; [start_distribution] then fails anyway.) *)
Definition visited_states (n_states : nat) (ts : list (list Z)) : res (list A) :=
  let* v := foldM (fun v t => let* v' := foldM bump t v in Ok (map (fun x => ndiv x (nofn (length t))) v')) ts (zeros1 n_states) in
  Ok (map (fun x => ndiv x (nofn (length ts))) v).
(** irl.py 184 and 165: [(mdp.features * v).sum(axis=1)]. *)
Definition feature_counts (features : list (list A)) (v : list A) : list A := map (fun row => dot row v) features.

(** ** Maximum entropy *)
(** irl.py 187, 193 and 207: [arr[ignore_features] = 0] for a one-dimensional array: an empty tuple addresses the whole array, a tuple
    of one index that entry, a longer tuple is an IndexError; a list addresses each of its entries. *)
Inductive ignore_arg := IgnoreTuple (l : list Z) | IgnoreList (l : list Z).
(** irl.py 187, 193 and 207: one index. *)
Definition zero_at (v : list A) (i : Z) : res (list A) := let* k := py_index (length v) i in Ok (upd v k n0).
(** irl.py 187, 193 and 207: the assignment. *)
Definition zero_ignored (ig : ignore_arg) (v : list A) : res (list A) :=
  match ig with
  | IgnoreTuple [] => Ok (map (fun _ => n0) v)
  | IgnoreTuple [i] => zero_at v i
  | IgnoreTuple _ => Err IndexError
  | IgnoreList l => let* ks := mapM (py_index (length v)) l in Ok (fold_left (fun v k => upd v k n0) ks v)
  end.

(** irl.py 124-125 and 339-340: Arrays live in a heap; [theta] is None, the object [np.array(None)], or an array. *)
Definition heap := list (list A).
(** irl.py 124-125 and 339-340: what [theta] and [original_theta] refer to. *)
Inductive tval := TNone | TObj | TArr (addr : nat).
(** irl.py 78-131: Constructor arguments used here: [x_powers i] is [(i+1) ** -float(decay)]; [x_inner m ts theta] are the
    expected feature counts (lines 152-167). *)
Record maxent_cfg := mkMxc { x_lr : A; x_decaying : bool; x_power : nat -> A; x_iter : nat; x_tol : A;
  x_inner : mdp A -> list (list Z) -> list A -> res (list A) }.
(** irl.py 120-125: the attributes that change. *)
Record maxent := mkMx { x_theta : tval; x_orig : tval; x_rate : A }.
(** irl.py 118-125: [theta] is the caller's array itself; [original_theta] a copy. *)
Definition new_maxent (c : maxent_cfg) (theta : option nat) (h : heap) : maxent * heap :=
  match theta with
  | None => (mkMx TNone TObj (x_lr c), h)
  | Some a => (mkMx (TArr a) (TArr (length h)) (x_lr c), h ++ [nth a h []])
  end.
(** irl.py 232-235 [reset] and 237-239 [reset_learning_rate]. *)
Definition reset_maxent (c : maxent_cfg) (x : maxent) : maxent := mkMx (x_orig x) (x_orig x) (x_lr c).
(** irl.py 237-239 [reset_learning_rate]. *)
Definition reset_rate (c : maxent_cfg) (x : maxent) : maxent := mkMx (x_theta x) (x_orig x) (x_lr c).

(** irl.py 221 and 229: [np.mean] of a non-empty array. *)
Definition nmean (v : list A) : A := ndiv (nsum v) (nofn (length v)).
(** irl.py 203-227: the loop from iteration [i] on; also returns the last error. *)
Fixpoint maxent_loop (c : maxent_cfg) (m : mdp A) (ts : list (list Z)) (ig : ignore_arg) (true_F : list A) (k i : nat) (theta : list A) (rate : A) (last : option (list A))
  : list A * A * res (option (list A)) :=
  match k with
  | O => (theta, rate, Ok last)
  | S k' =>
    match (let* d := x_inner c m ts theta in zero_ignored ig d) with
    | Err e => (theta, rate, Err e)
    | Ok d =>
      let error := map (fun '(x, y) => nsub x y) (combine true_F d) in
      let rate' := if x_decaying c then nmul rate (x_power c i) else rate in
      let used := if x_decaying c then nmul rate' (x_power c i) else rate in
      let theta' := map (fun '(x, e) => nadd x (nmul used e)) (combine theta error) in
      if nltb (nmean (map nabs error)) (x_tol c) then (theta', rate', Ok (Some error))
      else maxent_loop c m ts ig true_F k' (S i) theta' rate' (Some error)
    end
  end.
(** irl.py 241-263 [fit] and 169-230 [_solve_maxcausalent] for one MDP: the address of the returned array and whether
    a warning was given. Value iteration on [np.array(None)] fails (numba cannot type it). *)
Definition fit_maxent (c : maxent_cfg) (m : mdp A) (ts : list (list Z)) (ig : ignore_arg) (x : maxent) (h : heap) : maxent * heap * res (nat * bool) :=
  match ts with
  | [] => (x, h, Err IndexError)
  | [] :: _ => (x, h, Err TypeError)
  | _ =>
    match (let* v := visited_states (m_n_states m) ts in zero_ignored ig (feature_counts (m_features m) v)) with
    | Err e => (x, h, Err e)
    | Ok true_F =>
      let '(th, h1) := match x_theta x with TNone => (TArr (length h), h ++ [zeros1 (m_n_features m)]) | t => (t, h) end in
      match th with
      | TArr a =>
        let x1 := mkMx th (x_orig x) (x_rate x) in
        match zero_ignored ig (nth a h1 []) with
        | Err e => (x1, h1, Err e)
        | Ok theta =>
          let '(theta', rate', r) := maxent_loop c m ts ig true_F (x_iter c) 0 theta (x_rate x) None in
          (mkMx th (x_orig x) rate', upd h1 a theta',
           match r with
           | Err e => Err e
           | Ok None => Err UnboundLocalError
           | Ok (Some error) => Ok (a, negb (nltb (nmean error) (x_tol c)))
           end)
        end
      | _ => (x, h, Err (match ig with IgnoreTuple [] => TypeError | _ => IndexError end))
      end
    end
  end.

(** ** Feature matching *)
(** irl.py 290: [feature_array[ignore_features, :] = 0]. *)
Definition zero_rows (rows : list (list A)) (l : list Z) : res (list (list A)) :=
  let* ks := mapM (py_index (length rows)) l in Ok (fold_left (fun rs k => upd rs k (map (fun _ => n0) (nth k rs []))) ks rows).
(** irl.py 288: [features[:, states].sum(axis=1)]. *)
Definition states_features (features : list (list A)) (n_states : nat) (states : list Z) : res (list A) :=
  let* ks := mapM (py_index n_states) states in Ok (map (fun row => nsum (map (fun k => nth k row n0) ks)) features).
(** irl.py 273-294 [MFFeatureMatching.fit]; one MDP is repeated for every trajectory. Rows of different lengths
    are a ValueError. *)
Definition fit_matching (mdps : list (mdp A)) (ts : list (list Z)) (ignore : list Z) : res (list A) :=
  match ts with
  | [] => Err IndexError
  | [] :: _ => Err TypeError
  | _ =>
    if negb (length ts =? length mdps)%nat then Err AttributeError else
    match mdps with
    | [] => Err IndexError
    | m0 :: _ =>
      let* rows := mapM (fun '(m, t) =>
        let* v := states_features (m_features m) (m_n_states m) (tl t) in
        if (length v =? m_n_features m0)%nat then Ok v else Err ValueError) (combine mdps ts) in
      let* rows' := zero_rows rows ignore in
      Ok (map (fun f => nsum (map (fun row => nth f row n0) rows')) (seq 0 (m_n_features m0)))
    end
  end.

(** ** Lines of sight *)
(** irl.py 521-526 [state_pair_to_action]. *)
Definition pair_action (m : mdp A) (s1 s2 : Z) : res nat :=
  let* i := py_index (m_n_states m) s1 in
  let* j := py_index (m_n_states m) s2 in
  let col := sas_col m i j in
  if existsb (fun x => nltb n0 x) col then Ok (argmax col) else Err AttributeError.
(** irl.py 531-540: the states looked at, within [fuel] rounds of the loop. *)
Fixpoint eyeline (fuel : nat) (m : mdp A) (s a : nat) : res (list nat) :=
  match fuel with
  | O => Err Diverges
  | S fuel' =>
    let next := nth a (nth s (m_sas m) []) [] in
    if existsb (fun x => nltb n0 x) next then let* r := eyeline fuel' m (argmax next) a in Ok (s :: r) else Ok [s]
  end.
(** irl.py 529-542 [get_eyeline_features]. *)
Definition get_eyeline_features (fuel : nat) (m : mdp A) (s : Z) (a : nat) : res (list A) :=
  let* i := py_index (m_n_states m) s in
  let* l := eyeline fuel m i a in
  Ok (map (fun row => nsum (map (fun k => nth k row n0) l)) (m_features m)).
(** irl.py 552, 570 and 596 [+=] on arrays. *)
Definition vadd (u v : list A) : list A := map (fun '(x, y) => nadd x y) (combine u v).
(** irl.py 550-551: Successive pairs of a trajectory: [enumerate(trajectory[:-1])]. *)
Fixpoint moves (t : list Z) : list (Z * Z) := match t with s :: ((s' :: _) as r) => (s, s') :: moves r | _ => [] end.
(** irl.py 554-555 and 575-579: normalisation. Division by a zero total of a non-zero array gives infinities; those are not
    modelled (theorems state when it does not occur). *)
Definition normalise (v : list A) : list A := if forallb (fun x => neqb x n0) v then v else map (fun x => ndiv x (nsum v)) v.
(** irl.py 544-557 [get_trajectory_eyeline_features]. *)
Definition trajectory_eyeline (fuel : nat) (m : mdp A) (ts : list (list Z)) (norm : bool) : res (list A) :=
  let* v := foldM (fun v p => let* a := pair_action m (fst p) (snd p) in let* f := get_eyeline_features fuel m (fst p) a in Ok (vadd v f))
    (concat (map moves ts)) (zeros1 (m_n_features m)) in
  Ok (if norm then normalise v else v).
(** irl.py 559-582 [get_trajectory_eyeline_features_diff]. *)
Definition trajectory_eyeline_diff (fuel : nat) (m : mdp A) (ts : list (list Z)) (norm : bool) : res (list A) :=
  let* (c, u) := foldM (fun acc p =>
      let* ca := pair_action m (fst p) (snd p) in
      foldM (fun '(c, u) a => let* f := get_eyeline_features fuel m (fst p) a in Ok (if (a =? ca)%nat then (vadd c f, u) else (c, vadd u f)))
        (seq 0 (m_n_actions m - 1)) acc)
    (concat (map moves ts)) (zeros1 (m_n_features m), zeros1 (m_n_features m)) in
  let g := fun v => if norm then normalise v else v in
  Ok (map (fun '(x, y) => nsub x y) (combine (g c) (g u))).
(** irl.py 584-598 [SimpleActionIRL.fit] and 601-616 [SimpleActionFeatureDiffIRL.fit], with [count] one of the
    two functions above: a list of MDPs; a missing trajectory is an IndexError. *)
Definition fit_simple (count : mdp A -> list (list Z) -> res (list A)) (mdps : list (mdp A)) (ts : list (list Z)) (reset : bool) (theta : option (list A)) : res (list A) :=
  let* start := match theta, reset with
    | Some th, false => Ok th
    | _, _ => match mdps with [] => Err IndexError | m0 :: _ => Ok (zeros1 (m_n_features m0)) end end in
  foldM (fun th '(n, m) => match nth_error ts n with
    | None => Err IndexError
    | Some t => let* f := count m [t] in if (length f =? length th)%nat then Ok (vadd th f) else Err ValueError
    end) (combine (seq 0 (length mdps)) mdps) start.

End IRL.
Arguments maxent_cfg A : clear implicits. Arguments maxent A : clear implicits. Arguments heap A : clear implicits.

(** irl.py 134-167: expected feature counts under the policy of the given rewards, over the reals. [soft] selects
    soft value iteration with softmax selection (temperature 1) or ordinary value iteration with uniform
    choice among the best. *)
Definition policy_of (soft : bool) (q : list (list (fval R))) : res (list (list (fval R))) := get_pi_p (if soft then softmax_get_pi_p 1 else max_get_pi_p) q.
(** irl.py 134-167 [_maxcausalent_innerloop]. *)
Definition expected_counts (soft : bool) (discount tol : R) (max_iter : Z) (m : mdp R) (ts : list (list Z)) (theta : list R) : res (list R) :=
  let* (_, q) := solve_value_iteration (if soft then soft_backup else hard_backup) theta (m_features m) max_iter discount (m_sas m) tol in
  let* p := policy_of soft q in
  let* pi := mapM (mapM (fun v => match v with Fin x => Ok x | _ => Err ValueError end)) p in
  let* p0 := start_distribution (m_n_states m) ts in
  Ok (feature_counts (m_features m) (state_visitation_iterator (m_sas m) max_iter pi p0)).
(** irl.py 78-131 [MaxCausalEntIRL(...)]. *)
Definition maxent_config (lr decay : R) (max_iter_irl : Z) (tol discount : R) (vi_max_iter : Z) (soft : bool) : res (maxent_cfg R) :=
  if negb (nltb n0 lr) then Err AssertionError else
  if nltb decay n0 then Err AssertionError else
  Ok (mkMxc lr (negb (neqb decay n0)) (fun i => Rpower (INR (S i)) (- decay)) (Z.to_nat max_iter_irl) tol (expected_counts soft discount tol vi_max_iter)).
