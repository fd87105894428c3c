(** Model of pluto::stopwatch (/repo/include/pluto/stopwatch.hpp).  Clock readings and durations are
    integers in clock ticks; their overflow (292 years of nanoseconds) is not modelled.  A call takes
    place at an instant, and a clock reading it makes returns that instant. *)
From Coq Require Import List Bool ZArith.
Import ListNotations.
Open Scope Z_scope.

(** members, 28-30 *)
Record stopwatch := Sw { m_time : Z; m_start : Z; m_isRunning : bool }.

Definition start (now : Z) (s : stopwatch) : stopwatch := (* 137-144 *)
  if negb (m_isRunning s) then Sw (m_time s) now true else s.
Definition construct (startNow : bool) (now : Z) : stopwatch := (* 33-39 *)
  let s := Sw 0 0 false in if startNow then start now s else s.
Definition time (now : Z) (s : stopwatch) : Z := (* 41-44 *)
  if m_isRunning s then m_time s + (now - m_start s) else m_time s.
Definition reset (s : stopwatch) : stopwatch := Sw 0 0 false. (* 123-128 *)
Definition restart (now : Z) (s : stopwatch) : stopwatch := Sw 0 now true. (* 130-135 *)
Definition stop (now : Z) (s : stopwatch) : stopwatch := (* 146-153 *)
  if m_isRunning s then Sw (m_time s + (now - m_start s)) (m_start s) false else s.
Definition stop_and_time (now : Z) (s : stopwatch) : stopwatch * Z := (* 155-159 *)
  let s := stop now s in (s, m_time s).

(** * Units.  [tick] is the clock's period and [unit] the target's, both in nanoseconds;
    std::chrono::duration_cast multiplies by tick/unit reduced to lowest terms, truncating. *)
Definition duration_cast (tick unit t : Z) : Z :=
  let g := Z.gcd tick unit in Z.quot (t * (tick / g)) (unit / g).
Definition count (tick unit now : Z) (s : stopwatch) : Z := duration_cast tick unit (time now s). (* 46-50 *)
Definition count_rollover (tick unit rollover now : Z) (s : stopwatch) : Z := (* 52-56 *)
  Z.rem (count tick unit now s) rollover.

Definition ns : Z := 1.
Definition us : Z := 1000.
Definition ms : Z := 1000000.
Definition sec : Z := 1000000000.
Definition minute : Z := 60000000000.
Definition hour : Z := 3600000000000.

Definition in_nanoseconds tick := count tick ns. (* 58-61 *)
Definition in_microseconds tick := count tick us. (* 63-66 *)
Definition in_milliseconds tick := count tick ms. (* 68-71 *)
Definition in_seconds tick := count tick sec. (* 73-76 *)
Definition in_minutes tick := count tick minute. (* 78-81 *)
Definition in_hours tick := count tick hour. (* 83-86 *)
Definition nanoseconds_part tick := count_rollover tick ns 1000. (* 88-91 *)
Definition microseconds_part tick := count_rollover tick us 1000. (* 93-96 *)
Definition milliseconds_part tick := count_rollover tick ms 1000. (* 98-101 *)
Definition seconds_part tick := count_rollover tick sec 60. (* 103-106 *)
Definition minutes_part tick := count_rollover tick minute 60. (* 108-111 *)
Definition hours_part tick := count tick hour. (* 113-116 *)

(** * Histories: the calls made on one object, newest first, each with its instant *)
Inductive event :=
| Construct (startNow : bool) | Start | Stop | StopAndTime | Reset | Restart | Read.
Fixpoint run (h : list (event * Z)) : stopwatch :=
  match h with
  | [] => Sw 0 0 false
  | (e, t) :: h =>
      let s := run h in
      match e with
      | Construct b => construct b t
      | Start => start t s
      | Stop => stop t s
      | StopAndTime => fst (stop_and_time t s)
      | Reset => reset s
      | Restart => restart t s
      | Read => s
      end
  end.
