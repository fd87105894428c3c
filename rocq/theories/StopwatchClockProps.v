(** Property C185: stopwatches whose clock is set, and parts read one after another. *)
From Coq Require Import List Bool ZArith.
From Verif Require Import StopwatchModel StopwatchSpec StopwatchClockModel StopwatchClockSpec StopwatchClockProofs.
Import ListNotations.
Open Scope Z_scope.

Theorem time_never_decreases_on_any_clock_refuted : let clock t := if t <? 20 then t else t - 50 in
  time_shown clock [(Start, 10)] 19 = 9 /\ time_shown clock [(Start, 10)] 25 = -35 /\
  (seconds_part sec (clock 25) (run (seen clock [(Start, 10)])) = -35).
Proof. exact set_back. Qed.
Print Assumptions time_never_decreases_on_any_clock_refuted.
(** the error is what the clock is set forward while the stopwatch runs *)
Theorem time_on_any_clock : forall clock h now, time_shown clock h now = elapsed h now + adjusted clock h now.
Proof. exact clock_error. Qed.
Print Assumptions time_on_any_clock.
Theorem time_on_a_clock_set_while_stopped : forall clock h now, right_while_running clock h now -> time_shown clock h now = elapsed h now.
Proof. exact right_clock. Qed.
Print Assumptions time_on_a_clock_set_while_stopped.
Example time_on_a_clock_set_while_stopped_ex : let clock t := if t <? 20 then t else t - 50 in let h := [(Start, 30); (Stop, 15); (Start, 10)] in
  right_while_running clock h 34 /\ time_shown clock h 34 = 9.
Proof. exact set_back_while_stopped. Qed.
Theorem time_on_an_accurate_clock : forall clock k h now, 0 < k -> accurate clock k -> steady h now ->
  k * Z.abs (time_shown clock h now - elapsed h now) <= elapsed h now.
Proof. exact accurate_clock. Qed.
Print Assumptions time_on_an_accurate_clock.
Example time_on_an_accurate_clock_ex : accurate (fun t => t + t / 1000) 1 /\ steady [(Stop, 9000); (Start, 2000)] 10000 /\
  time_shown (fun t => t + t / 1000) [(Stop, 9000); (Start, 2000)] 10000 = 7007.
Proof. exact accurate_ex. Qed.

(** parts read at different instants: wrong by one larger unit for each of them that ends in between *)
Theorem parts_read_one_after_another : forall tick s, 0 < tick -> forall t1 t2 t3 t4 t5 t6,
  (((((hours_part tick t1 s * 60 + minutes_part tick t2 s) * 60 + seconds_part tick t3 s) * 1000
     + milliseconds_part tick t4 s) * 1000 + microseconds_part tick t5 s) * 1000 + nanoseconds_part tick t6 s) =
  in_nanoseconds tick t6 s + 1000 * (in_microseconds tick t5 s - in_microseconds tick t6 s)
  + 1000000 * (in_milliseconds tick t4 s - in_milliseconds tick t5 s)
  + 1000000000 * (in_seconds tick t3 s - in_seconds tick t4 s)
  + 60000000000 * (in_minutes tick t2 s - in_minutes tick t3 s)
  + 3600000000000 * (in_hours tick t1 s - in_hours tick t2 s).
Proof. exact parts_apart. Qed.
Print Assumptions parts_read_one_after_another.
Theorem hours_minutes_seconds_within_a_minute : forall tick s a b t1 t2 t3, 0 < tick -> a <= t1 <= b -> a <= t2 <= b -> a <= t3 <= b ->
  in_minutes tick a s = in_minutes tick b s ->
  (hours_part tick t1 s * 60 + minutes_part tick t2 s) * 60 + seconds_part tick t3 s = in_seconds tick t3 s.
Proof. exact same_minute. Qed.
Print Assumptions hours_minutes_seconds_within_a_minute.
(** otherwise an hour too little or too much *)
Example hours_minutes_seconds_ex : let s := Sw 0 0 true in
  ((hours_part sec 3599 s * 60 + minutes_part sec 3600 s) * 60 + seconds_part sec 3600 s = 0) /\
  ((hours_part sec 3600 s * 60 + minutes_part sec 3599 s) * 60 + seconds_part sec 3599 s = 7199) /\
  (in_minutes sec 3601 s = in_minutes sec 3659 s /\
   (hours_part sec 3601 s * 60 + minutes_part sec 3650 s) * 60 + seconds_part sec 3659 s = 3659).
Proof. exact display_ex. Qed.
