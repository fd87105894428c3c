(** Specification of the stopwatch: the time elapsed in running intervals. *)
From Coq Require Import List Bool ZArith.
From Verif Require Import StopwatchModel.
Import ListNotations.
Open Scope Z_scope.

(** after these calls the stopwatch is running: the newest call that starts or stops it started it *)
Fixpoint runs (h : list (event * Z)) : bool :=
  match h with
  | [] => false
  | (e, _) :: h =>
      match e with
      | Construct b => b
      | Start | Restart => true
      | Stop | StopAndTime | Reset => false
      | Read => runs h
      end
  end.

Definition zeroes (e : event) : bool :=
  match e with Construct _ | Reset | Restart => true | _ => false end.

(** total length, up to [now], of the stretches between consecutive calls during which it was running,
    going back to the newest call that sets it to zero *)
Fixpoint elapsed (h : list (event * Z)) (now : Z) : Z :=
  match h with
  | [] => 0
  | (e, t) :: h' => (if runs h then now - t else 0) + (if zeroes e then 0 else elapsed h' t)
  end.

(** the instants of the calls do not decrease and none is later than [now] *)
Fixpoint steady (h : list (event * Z)) (now : Z) : Prop :=
  match h with [] => True | (_, t) :: h => t <= now /\ steady h t end.

(** [n] units of size [unit] are [t] rounded down *)
Definition rounds_down (unit n t : Z) : Prop := n * unit <= t < (n + 1) * unit.
