(** Model of the objects of maMDP/algorithms/irl.py 584-616: SimpleActionIRL and SimpleActionFeatureDiffIRL, with their arrays in
    memory. *)
From Coq Require Import List ZArith Bool.
From Verif Require Import PyBase MDPModel IRLModel.
Import ListNotations.

Section Sight.
Context {A : Type} `{Num A}.

(** irl.py 586-587 and 603-604: the only attribute is [theta]: None or (the address of) an array. *)
Definition new_sight : option nat := None.
(** irl.py 594-596 and 611-614: the loop over the MDPs [ms] from number [n] on. [self.theta += counts] works in place, so what was
    added before a failure stays. (Counts of length one, which numpy would broadcast, are treated like other lengths.) *)
Fixpoint sight_loop (count : mdp A -> list (list Z) -> res (list A)) (n : nat) (ms : list (mdp A)) (ts : list (list Z)) (a : nat) (h : heap A) : heap A * res unit :=
  match ms with
  | [] => (h, Ok tt)
  | m :: ms' =>
    match nth_error ts n with
    | None => (h, Err IndexError)
    | Some t =>
      match count m [t] with
      | Err e => (h, Err e)
      | Ok f => if (length f =? length (nth a h []))%nat then sight_loop count (S n) ms' ts a (upd h a (vadd (nth a h []) f)) else (h, Err ValueError)
      end
    end
  end.
(** irl.py 589-598 [SimpleActionIRL.fit] and 606-616 [SimpleActionFeatureDiffIRL.fit]: the learner and the memory afterwards,
    and the address of the returned array. *)
Definition fit_sight (count : mdp A -> list (list Z) -> res (list A)) (ms : list (mdp A)) (ts : list (list Z)) (reset : bool) (x : option nat) (h : heap A) : option nat * heap A * res nat :=
  let go := fun a h => let '(h', r) := sight_loop count 0 ms ts a h in (Some a, h', match r with Ok _ => Ok a | Err e => Err e end) in
  match x, reset with
  | Some a, false => go a h
  | _, _ => match ms with [] => (x, h, Err IndexError) | m0 :: _ => go (length h) (h ++ [zeros1 (m_n_features m0)]) end
  end.
End Sight.
