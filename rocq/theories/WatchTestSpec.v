(** What the tests of the stopwatch assert of the values they see. *)
From Coq Require Import List Bool ZArith.
From Verif Require Import StopwatchModel WatchTestModel.
Import ListNotations.
Open Scope Z_scope.

Notation yes := (Flag true).
Notation no := (Flag false).
Definition sanity_asserts (v : list value) : Prop := v = [yes; no; Num 1; Num 1].
Definition construct_stopped_asserts (v : list value) : Prop := v = [no; Num 0; no].
Definition construct_started_asserts (v : list value) : Prop := exists z, v = [yes; Num z; yes] /\ z <> 0.
Definition copy_asserts (v : list value) : Prop := exists z, v = [yes; no; no; no; Num z; Num z].
Definition reset_asserts (v : list value) : Prop := v = [yes; no] ++ repeat (Num 0) 12.
(** two times with what is_running() returns around them, and how they compare *)
Definition two_times (c : Z -> Z -> Prop) (a b d : list value) (v : list value) : Prop :=
  exists t1 t2, v = [yes] ++ a ++ [Num t1] ++ b ++ [Num t2] ++ d /\ c t1 t2.
Definition does_not_start_asserts := two_times eq [] [no] [no].
Definition does_not_stop_asserts := two_times Z.lt [] [yes] [yes].
Definition restarts_asserts := two_times (fun t1 t2 => t2 < t1) [] [yes] [yes].
Definition stop_restarts_asserts := two_times (fun t1 t2 => t2 < t1) [] [no; yes] [yes].
Definition stop_starts_asserts := two_times Z.lt [] [no; yes] [yes].
Definition stop_and_time_restarts_asserts := two_times (fun t1 t2 => t2 < t1) [] [no; yes] [no].
Definition stop_and_time_starts_asserts := two_times Z.lt [] [no; yes] [no].

(** the test passes in every execution *)
Definition always (tick : Z) (prog : list statement) (P : list value -> Prop) : Prop :=
  forall x l seen, exec tick x nothing prog l seen -> P seen.
(** the clock is at least as fine as the time slept *)
Definition fine (tick : Z) : Prop := tick <= ms.
