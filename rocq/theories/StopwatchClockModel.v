(** Model of pluto::stopwatch (/repo/include/pluto/stopwatch.hpp) with a clock that need not be steady, as the macro
    PLUTO_STOPWATCH_CLOCK_TYPE (16-18, 26) allows: [clock t] is what clock_type::now() returns at the instant [t]. *)
From Coq Require Import List Bool ZArith.
From Verif Require Import StopwatchModel.
Import ListNotations.
Open Scope Z_scope.

(** the calls with their instants, as the object sees them *)
Definition seen (clock : Z -> Z) (h : list (event * Z)) : list (event * Z) := map (fun p => (fst p, clock (snd p))) h.
(** time() at the instant [now] after the calls [h] *)
Definition time_shown (clock : Z -> Z) (h : list (event * Z)) (now : Z) : Z := time (clock now) (run (seen clock h)).
