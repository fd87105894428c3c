(** How much a clock is set forward, while the stopwatch runs. *)
From Coq Require Import List Bool ZArith.
From Verif Require Import StopwatchModel StopwatchSpec.
Import ListNotations.
Open Scope Z_scope.

(** how much more than the time elapsed the clock advances from [a] to [b] *)
Definition set_forward (clock : Z -> Z) (a b : Z) : Z := (clock b - clock a) - (b - a).
(** the total of this over the stretches counted by [elapsed] *)
Fixpoint adjusted (clock : Z -> Z) (h : list (event * Z)) (now : Z) : Z :=
  match h with
  | [] => 0
  | (e, t) :: h' => (if runs h then set_forward clock t now else 0) + (if zeroes e then 0 else adjusted clock h' t)
  end.
(** the clock is right over every such stretch *)
Fixpoint right_while_running (clock : Z -> Z) (h : list (event * Z)) (now : Z) : Prop :=
  match h with
  | [] => True
  | (e, t) :: h' => (runs h = true -> set_forward clock t now = 0) /\ (zeroes e = false -> right_while_running clock h' t)
  end.
(** of [k] ticks the clock gains or loses at most one *)
Definition accurate (clock : Z -> Z) (k : Z) : Prop := forall a b, a <= b -> k * Z.abs (set_forward clock a b) <= b - a.
