(** Model of hypothesis-testing inference, [HyptestIRL] in maMDP/algorithms/irl.py (297-518), over the reals.
    Definitions only. A weight is a number or NaN ([None]). Progress bars and the compiled-code details (numba) are not
    modelled; neither are initial weights of the wrong length. For weights of an integer type see KindModel. *)
From Coq Require Import List ZArith Reals Bool.
From Verif Require Import PyBase MDPModel ActionModel VIModel MCTSModel IRLModel.
Import ListNotations.

(** irl.py 339-340 and 371: an entry of [theta] or of the Q values; NaN is [None]. *)
Definition weight := option R.
(** irl.py 15-21 [zscore_nb]: infinite entries count as NaN. *)
Definition number_of (v : fval R) : weight := match v with Fin x => Some x | _ => None end.
(** irl.py 15-21: The entries that are numbers, their mean and standard deviation: [np.nanmean], [np.nanstd]. *)
Definition numbers (l : list weight) : list R := concat (map (fun o => match o with Some x => [x] | None => [] end) l).
(** irl.py 15-21 [np.nanmean] of numbers. *)
Definition rmean (l : list R) : R := (fold_right Rplus 0 l / INR (length l))%R.
(** irl.py 15-21 [np.nanstd] of numbers. *)
Definition rstd (l : list R) : R := sqrt (rmean (map (fun x => (x - rmean l) * (x - rmean l)) l))%R.
(** irl.py 15-21 [zscore_nb], one column: infinite entries count as NaN. Where the standard deviation is zero, every
    entry equals the mean and 0/0 is NaN. *)
Definition zscore (col : list (fval R)) : list weight :=
  let x := map number_of col in
  let m := rmean (numbers x) in
  let s := rstd (numbers x) in
  map (fun o => match o with Some v => if Req_EM_T s 0 then None else Some ((v - m) / s)%R | None => None end) x.

(** irl.py 341 and 391-394: The [normalisation] argument: ['z-score'], ['relative'], or any other string. *)
Inductive norm_arg := ZScore | Relative | OtherNorm.
(** irl.py 302-341: the settings of a [HyptestIRL] object. *)
Record hyp_cfg := mkHyp { h_lr : R; h_decaying : bool; h_power : nat -> R; h_asym : R; h_norm : norm_arg;
  h_solve : list R -> list (list R) -> list (list (list R)) -> res (list (list (fval R))) }.
(** irl.py 302-341: the constructor's checks. [h_power n] is [n ** -float(decay)]; [h_solve] the Q values found by
    value iteration (soft or not) for given reward weights, features and transitions. *)
Definition hyptest_config (lr decay asym : R) (tol discount : R) (vi_max_iter : Z) (soft : bool) (norm : norm_arg) : res hyp_cfg :=
  if negb (nltb n0 lr) then Err AssertionError else
  if nltb decay n0 then Err AssertionError else
  if negb (nltb n1 asym) then Err AssertionError else
  Ok (mkHyp lr (nltb n0 decay) (fun n => Rpower (INR n) (- decay)) asym norm
    (fun w features sas => let* (_, q) := solve_value_iteration (if soft then soft_backup else hard_backup) w features vi_max_iter discount sas tol in Ok q)).

(** irl.py 371: Q values under each hypothesis: one array for each feature, NaN throughout ([None]) for an excluded one. *)
Definition hyp_q := list (option (list (list (fval R)))).
(** irl.py 367-382. *)
Definition estimate_q (c : hyp_cfg) (m : mdp R) (exclude : list Z) : res hyp_q :=
  let n := length (m_features m) in
  mapM (fun f => if existsb (Z.eqb (Z.of_nat f)) exclude then Ok None
                 else let* q := h_solve c (map (fun i => if (i =? f)%nat then 1%R else 0%R) (seq 0 n)) (m_features m) (m_sas m) in Ok (Some q)) (seq 0 n).
(** irl.py 361-365: the first action leading from [s] to [t]; any failure becomes a ValueError. *)
Definition move_action (m : mdp R) (s t : Z) : res (nat * nat) :=
  match py_index (m_n_states m) s, py_index (m_n_states m) t with
  | Ok i, Ok j => match where_ (fun x => negb (neqb x n0)) (sas_col m i j) with a :: _ => Ok (i, a) | [] => Err ValueError end
  | _, _ => Err ValueError
  end.
(** irl.py 384-397, for one hypothesis: its values in the state, normalised over the legal actions, for the action taken.
    [acts] are the legal actions, one entry for each possible outcome. *)
Definition hyp_weight (norm : norm_arg) (q : option (list (list (fval R)))) (s : nat) (acts : list nat) (a : nat) : weight :=
  match q with
  | None => None
  | Some q =>
    let row := nth s q [] in
    match norm with
    | ZScore => nth a (fold_left (fun r p => upd r (fst p) (snd p)) (combine acts (zscore (map (fun b => nth b row NaN) acts))) (map number_of row)) None
    | _ => number_of (nth a row NaN)
    end
  end.
(** irl.py 343-399 [_single_move]; [q] are the Q values if already estimated. (Assigning a row of normalised values to the
    same action again, for several outcomes of one action, assigns the same values.) *)
Definition single_move (c : hyp_cfg) (m : mdp R) (exclude : list Z) (q : option hyp_q) (s t : Z) : res (list weight * hyp_q) :=
  let* (i, a) := move_action m s t in
  let* q := match q with Some q => Ok q | None => estimate_q c m exclude end in
  let* acts := get_actions_states (m_sas m) s in
  match h_norm c with
  | Relative => Err NotImplementedErr
  | norm => Ok (map (fun qf => hyp_weight norm qf i (map fst acts) a) q, q)
  end.

(** irl.py 454-469: the change of one weight by one observation, [n] the number of the observation. Comparisons with NaN are
    false; NaN stays NaN. *)
Definition update_weight (c : hyp_cfg) (n : nat) (r w : weight) : weight :=
  match r, w with
  | Some r, Some w =>
    let lr := if h_decaying c
      then (let d := (Rabs r - Rabs w)%R in (if nltb d n0 then h_lr c * h_asym c else h_lr c / h_asym c) * h_power c n)%R
      else h_lr c in
    Some (w + lr * (r - w))%R
  | _, _ => None
  end.
(** irl.py 454-469: all weights. *)
Definition update_weights (c : hyp_cfg) (n : nat) (r w : list weight) : list weight := map (fun p => update_weight c n (fst p) (snd p)) (combine r w).
(** irl.py 444-474: one trajectory. The state is the current weights, the observation number, and the weights recorded so
    far; on a failure the weights reached so far remain. *)
Record hyp_run := mkRun { r_w : list weight; r_n : nat; r_log : list (list weight) }.
(** irl.py 447-474: the moves of one trajectory. *)
Fixpoint run_moves (c : hyp_cfg) (m : mdp R) (exclude : list Z) (q : option hyp_q) (ps : list (Z * Z)) (st : hyp_run) : hyp_run * res unit :=
  match ps with
  | [] => (st, Ok tt)
  | (s, t) :: ps' =>
    match single_move c m exclude q s t with
    | Err e => (st, Err e)
    | Ok (r, q') =>
      let w := update_weights c (r_n st) r (r_w st) in
      run_moves c m exclude (Some q') ps' (mkRun w (S (r_n st)) (r_log st ++ [w]))
    end
  end.
(** irl.py 438-477: all trajectories; also the weights after each of them. *)
Fixpoint run_all (c : hyp_cfg) (exclude : list Z) (l : list (mdp R * list Z)) (st : hyp_run) (ends : list (list weight)) : hyp_run * list (list weight) * res unit :=
  match l with
  | [] => (st, ends, Ok tt)
  | (m, t) :: l' =>
    match run_moves c m exclude None (moves t) st with
    | (st', Err e) => (st', ends, Err e)
    | (st', Ok _) => run_all c exclude l' st' (ends ++ [r_w st'])
    end
  end.
(** irl.py 339-340: The learner: its weights and the kept copy of the initial ones; arrays live in a heap. *)
Record hyptest := mkHt { ht_theta : tval; ht_orig : tval }.
(** irl.py 339-340. *)
Definition new_hyptest (theta : option nat) (h : heap weight) : hyptest * heap weight :=
  match theta with None => (mkHt TNone TObj, h) | Some a => (mkHt (TArr a) (TArr (length h)), h ++ [nth a h []]) end.
(** irl.py 486-488 [reset]. *)
Definition reset_hyptest (x : hyptest) : hyptest := mkHt (ht_orig x) (ht_orig x).
(** irl.py 416-421: the assertions on shapes. *)
Definition same_shapes (mdps : list (mdp R)) : bool :=
  match mdps with
  | [] => true
  | m0 :: _ => forallb (fun m => (length (m_sas m) =? length (m_sas m0)) && (length (nth 0 (m_sas m) []) =? length (nth 0 (m_sas m0) [])) && (length (m_features m) =? length (m_features m0)))%nat mdps
  end.
(** irl.py 438-476 when [R_] is [np.array(None)]: the first move fails at line 455, subtracting None, unless it cannot be
    observed at all; without any move line 476 has nothing to stack. (At least one feature is assumed.) *)
Definition object_error (c : hyp_cfg) (exclude : list Z) (l : list (mdp R * list Z)) : exc :=
  match concat (map (fun '(m, t) => map (fun p => (m, p)) (moves t)) l) with
  | [] => ValueError
  | (m, (s, t)) :: _ => match single_move c m exclude None s t with Err e => e | Ok _ => TypeError end
  end.
(** irl.py 490-518 [fit] and 401-484 [_solve_hyptest]: the address of the weights, the weights after each move and after each
    trajectory. A single MDP is given as one copy for each trajectory. *)
Definition fit_hyptest (c : hyp_cfg) (mdps : list (mdp R)) (ts : list (list Z)) (exclude : list Z) (x : hyptest) (h : heap weight)
  : hyptest * heap weight * res (nat * list (list weight) * list (list weight)) :=
  match ts with
  | [] => (x, h, Err IndexError)
  | [] :: _ => (x, h, Err TypeError)
  | _ =>
    if negb (length ts =? length mdps)%nat then (x, h, Err AttributeError) else
    if negb (same_shapes mdps) then (x, h, Err AssertionError) else
    let nF := match mdps with m0 :: _ => length (m_features m0) | [] => 0 end in
    let '(r, h1) := match ht_theta x with TNone => (TArr (length h), h ++ [repeat (Some 0%R) nF]) | t => (t, h) end in
    match r with
    | TArr a =>
      let '(st, ends, res) := run_all c exclude (combine mdps ts) (mkRun (nth a h1 []) 1 []) [] in
      let h2 := upd h1 a (r_w st) in
      match res with
      | Err e => (x, h2, Err e)
      | Ok _ => if (length (r_log st) =? 0)%nat then (x, h2, Err ValueError) else (mkHt r (ht_orig x), h2, Ok (a, r_log st, ends))
      end
    | _ => (x, h, Err (object_error c exclude (combine mdps ts)))
    end
  end.
