(** Specification vocabulary for time stamps: the Gregorian calendar and the order of texts. *)
From Coq Require Import Ascii List Bool ZArith NArith.
From Verif Require Import Base LogTextModel.
Import ListNotations.
Open Scope Z_scope.

(** * The calendar *)
Definition leap (y : Z) : bool := (y mod 4 =? 0) && (negb (y mod 100 =? 0) || (y mod 400 =? 0)).
Definition days_in (y m : Z) : Z :=
  if m =? 2 then if leap y then 29 else 28 else if (m =? 4) || (m =? 6) || (m =? 9) || (m =? 11) then 30 else 31.
Definition next_day (d : Z * Z * Z) : Z * Z * Z :=
  let '(y, m, d) := d in
  if d <? days_in y m then (y, m, d + 1) else if m <? 12 then (y, m + 1, 1) else (y + 1, 1, 1).
Definition date (t : tm) : Z * Z * Z := (year t, month t, day t).
(** the second after [t] *)
Definition next_second (t : tm) : tm :=
  if second t <? 59 then Tm (year t) (month t) (day t) (hour t) (minute t) (second t + 1)
  else if minute t <? 59 then Tm (year t) (month t) (day t) (hour t) (minute t + 1) 0
  else if hour t <? 23 then Tm (year t) (month t) (day t) (hour t + 1) 0 0
  else let '(y, m, d) := next_day (date t) in Tm y m d 0 0 0.
Definition epoch : tm := Tm 1970 1 1 0 0 0.

(** * The order of texts, character by character *)
Fixpoint text_compare (a b : text) : comparison :=
  match a, b with
  | [], [] => Eq
  | [], _ => Lt
  | _, [] => Gt
  | x :: a, y :: b => match N.compare (N_of_ascii x) (N_of_ascii y) with Eq => text_compare a b | c => c end
  end.
(** the stamp: the first cell of a line *)
Definition stamp (t : text) : text := firstn 26 t.

(** * Clocks and zones *)
(** a time of system_clock, not before 1970, in nanoseconds *)
Definition clock_time (t : Z) : Prop := 0 <= t < 2 ^ 63.
(** zones are at most a day ahead or behind *)
Definition plausible (zone : Z -> Z) : Prop := forall s, -86400 <= zone s <= 86400.
(** local time in microseconds *)
Definition local_micros (zone : Z -> Z) (t : Z) : Z := t / 1000 + 1000000 * zone (t / 1000000000).
(** local clocks are never set back, as long as system_clock can tell the time (seconds [a] and [b]) *)
Definition never_back (zone : Z -> Z) : Prop := forall a b, 0 <= a -> a < b -> b * 1000000000 < 2 ^ 63 -> a + zone a < b + zone b.
(** local clocks never show the same time twice *)
Definition never_again (zone : Z -> Z) : Prop := forall a b, 0 <= a -> a < b -> b * 1000000000 < 2 ^ 63 -> a + zone a <> b + zone b.
