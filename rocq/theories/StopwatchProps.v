From Coq Require Import List Bool ZArith Lia.
From Verif Require Import StopwatchModel StopwatchSpec StopwatchProofs.
Import ListNotations.
Open Scope Z_scope.

(** C42 *)
Theorem time_is_total_running_time : forall h now, time now (run h) = elapsed h now.
Proof. exact time_ok. Qed.
Print Assumptions time_is_total_running_time.
Theorem is_running_after_start_until_stop : forall h, m_isRunning (run h) = runs h.
Proof. exact running_ok. Qed.
Print Assumptions is_running_after_start_until_stop.
Theorem redundant_start_and_stop_have_no_effect : forall h t,
  (runs h = true -> run ((Start, t) :: h) = run h) /\
  (runs h = false -> run ((Stop, t) :: h) = run h).
Proof. exact no_effect. Qed.
Print Assumptions redundant_start_and_stop_have_no_effect.
Theorem stop_and_time_stops_and_returns_the_time : forall h now, let r := stop_and_time now (run h) in
  fst r = run ((Stop, now) :: h) /\ snd r = elapsed h now.
Proof. exact stop_and_time_ok. Qed.
Print Assumptions stop_and_time_stops_and_returns_the_time.
Example time_ex :
  let h := [(Start, 40); (Stop, 30); (Start, 25); (Start, 20); (Restart, 18); (Stop, 17); (Construct true, 10)] in
  time 45 (run h) = 17 /\ elapsed h 45 = 17 /\ runs h = true.
Proof. repeat split. Qed.

(** C43 *)
Theorem time_is_not_negative : forall h now, steady h now -> 0 <= time now (run h).
Proof. exact (fun h now S => eq_ind_r (fun z => 0 <= z) (elapsed_nonneg h now S) (time_ok h now)). Qed.
Print Assumptions time_is_not_negative.
(** a read at [t1] after the calls [h] and one at [now] after the further calls [h0] *)
Theorem time_never_decreases : forall h0 h t1 now, steady (h0 ++ (Read, t1) :: h) now ->
  Forall (fun p => zeroes (fst p) = false) h0 ->
  time t1 (run h) <= time now (run (h0 ++ (Read, t1) :: h)).
Proof. exact time_mono. Qed.
Print Assumptions time_never_decreases.
Theorem time_is_constant_while_stopped : forall h0 h t1 now, runs h = false ->
  Forall (fun p => fst p = Stop \/ fst p = StopAndTime \/ fst p = Read) h0 ->
  time now (run (h0 ++ (Read, t1) :: h)) = time t1 (run h).
Proof. exact time_stopped. Qed.
Print Assumptions time_is_constant_while_stopped.
Example steady_ex : steady [(Stop, 30); (Start, 20); (Read, 15); (Stop, 15); (Construct true, 10)] 31 /\
  time 15 (run [(Stop, 15); (Construct true, 10)]) = 5 /\
  time 31 (run [(Stop, 30); (Start, 20); (Read, 15); (Stop, 15); (Construct true, 10)]) = 15.
Proof. repeat split; lia. Qed.

(** C44.  All parts read at the same instant, or at any instants of a stopped stopwatch, whose time does
    not depend on the instant. *)
Theorem parts_recombine : forall tick s, 0 < tick -> m_isRunning s = false ->
  forall t1 t2 t3 t4 t5 t6 now,
  (((((hours_part tick t1 s * 60 + minutes_part tick t2 s) * 60 + seconds_part tick t3 s) * 1000
     + milliseconds_part tick t4 s) * 1000 + microseconds_part tick t5 s) * 1000
     + nanoseconds_part tick t6 s) = in_nanoseconds tick now s /\
  in_nanoseconds tick now s = m_time s * tick.
Proof. exact parts_stopped. Qed.
Print Assumptions parts_recombine.
Theorem parts_are_in_range : forall tick now s, 0 < tick -> 0 <= time now s ->
  0 <= nanoseconds_part tick now s < 1000 /\ 0 <= microseconds_part tick now s < 1000 /\
  0 <= milliseconds_part tick now s < 1000 /\ 0 <= seconds_part tick now s < 60 /\
  0 <= minutes_part tick now s < 60 /\ 0 <= hours_part tick now s.
Proof. exact parts_range. Qed.
Print Assumptions parts_are_in_range.
(** each unit in nanoseconds: the time is from the count to the count + 1 units *)
Theorem units_are_rounded_down : forall tick now s, 0 < tick -> 0 <= time now s ->
  in_nanoseconds tick now s = time now s * tick /\
  rounds_down 1000 (in_microseconds tick now s) (time now s * tick) /\
  rounds_down 1000000 (in_milliseconds tick now s) (time now s * tick) /\
  rounds_down 1000000000 (in_seconds tick now s) (time now s * tick) /\
  rounds_down (60 * 1000000000) (in_minutes tick now s) (time now s * tick) /\
  rounds_down (3600 * 1000000000) (in_hours tick now s) (time now s * tick).
Proof. exact all_units_ok. Qed.
Print Assumptions units_are_rounded_down.
(** a running stopwatch: parts of two different instants combine to a time before the first read or
    after the second *)
Theorem parts_of_a_running_stopwatch_recombine_refuted :
  (exists s t0 t1, t0 <= t1 /\ 0 <= time t0 s /\
    microseconds_part 1 t0 s * 1000 + nanoseconds_part 1 t1 s < time t0 s) /\
  (exists s t0 t1, t0 <= t1 /\ 0 <= time t0 s /\
    nanoseconds_part 1 t0 s + microseconds_part 1 t1 s * 1000 > time t1 s).
Proof. exact (conj torn torn_above). Qed.
Print Assumptions parts_of_a_running_stopwatch_recombine_refuted.
Example parts_ex : let s := Sw 37230123456 0 false in
  (hours_part 100 0 s, minutes_part 100 0 s, seconds_part 100 0 s) = (1, 2, 3) /\
  (milliseconds_part 100 0 s, microseconds_part 100 0 s, nanoseconds_part 100 0 s) = (12, 345, 600).
Proof. split; vm_compute; reflexivity. Qed.
