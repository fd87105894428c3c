(** Model of the time in the lines of the default writer of pluto::logger: local_time and gm_time (platform.hpp
    60-82) and their use (logger.hpp 421-431).  The C library's conversion is modelled: days are counted in the
    Gregorian calendar, without leap seconds. *)
From Coq Require Import List Bool ZArith.
From Verif Require Import Base LogTextModel.
Open Scope Z_scope.

(** the date of the day [n] days after 1970-01-01: years are counted from March, 400 of them have 146097 days,
    100 have 36524 or one more, and 4 have 1461 or one less *)
Definition date_of_day (n : Z) : Z * Z * Z :=
  let era := (n + 719468) / 146097 in
  let r := (n + 719468) mod 146097 in
  let c := Z.min 3 (r / 36524) in
  let r := r - c * 36524 in
  let q := r / 1461 in
  let r := r - q * 1461 in
  let k := Z.min 3 (r / 365) in
  let doy := r - k * 365 in
  let y := 400 * era + 100 * c + 4 * q + k in
  let mp := (5 * doy + 2) / 153 in
  let d := doy - (153 * mp + 2) / 5 + 1 in
  if mp <? 10 then (y, mp + 3, d) else (y + 1, mp - 9, d).
(** gmtime_r: seconds since the epoch *)
Definition gmtime (s : Z) : tm :=
  let '(y, m, d) := date_of_day (s / 86400) in
  let r := s mod 86400 in
  Tm y m d (r / 3600) (r / 60 mod 60) (r mod 60).
(** gm_time, platform.hpp 72-81; the conversion does not fail for times whose year is an int *)
Definition gm_time (s : Z) : tm := gmtime s.
(** local_time, platform.hpp 60-70; [zone s] is what local time is ahead of UTC at that time, in seconds *)
Definition local_time (zone : Z -> Z) (s : Z) : tm := gmtime (s + zone s).

(** logger.hpp 423-426; [t] is the time since the epoch in nanoseconds, the unit of system_clock in libstdc++.
    to_time_t and duration_cast truncate. *)
Definition to_time_t (t : Z) : Z := Z.quot t 1000000000.
Definition in_micros (t : Z) : Z := Z.quot t 1000.
(** the line of an entry logged at time [t]; the other fields are those of [e] *)
Definition logged_at (zone : Z -> Z) (t : Z) (e : log_line) : log_line :=
  LogLine (local_time zone (to_time_t t)) (in_micros t) (l_thread e) (l_level e) (l_file e) (l_line e) (l_function e) (l_message e).
Definition line_text (hide : bool) (zone : Z -> Z) (t : Z) (e : log_line) (s : stream) : text :=
  out (default_log_writer hide (logged_at zone t e) s).
