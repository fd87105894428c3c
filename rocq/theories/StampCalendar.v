(** The conversion to dates is that of the Gregorian calendar. *)
From Coq Require Import List Bool ZArith Lia.
From Verif Require Import Base LogTextModel StampModel StampSpec.
Import ListNotations.
Open Scope Z_scope.

Definition year_start (y : Z) : Z := 365 * y + (y - 1) / 4 - (y - 1) / 100 + (y - 1) / 400 - 719527.
Definition month_start (y m : Z) : Z := (367 * m - 362) / 12 + (if m <=? 2 then 0 else if leap y then -1 else -2).
Definition day_of (x : Z * Z * Z) : Z := let '(y, m, d) := x in year_start y + month_start y m + d - 1.
Definition valid (x : Z * Z * Z) : Prop := let '(y, m, d) := x in 1 <= m <= 12 /\ 1 <= d <= days_in y m.

Lemma year_next y : year_start (y + 1) = year_start y + (if leap y then 366 else 365).
Proof.
  unfold year_start, leap. replace (y + 1 - 1) with y by lia.
  destruct (Z.eqb_spec (y mod 4) 0), (Z.eqb_spec (y mod 100) 0), (Z.eqb_spec (y mod 400) 0); cbn [andb orb negb]; Z.div_mod_to_equations; lia.
Qed.
Lemma year_mono a b : a <= b -> year_start a <= year_start b.
Proof.
  intros H. pattern b. apply Zlt_lower_bound_ind with (z := a); [|exact H]. intros x IH X. destruct (Z.eq_dec x a) as [->|]; [lia|].
  specialize (IH (x - 1) ltac:(lia)). pose proof (year_next (x - 1)) as N. replace (x - 1 + 1) with x in N by lia. destruct (leap (x - 1)); lia.
Qed.
Lemma month_next y m : 1 <= m <= 11 -> month_start y (m + 1) = month_start y m + days_in y m.
Proof.
  intros H. assert (m = 1 \/ m = 2 \/ m = 3 \/ m = 4 \/ m = 5 \/ m = 6 \/ m = 7 \/ m = 8 \/ m = 9 \/ m = 10 \/ m = 11) as C by lia. clear H.
  repeat destruct C as [-> |C]; [..|subst m]; unfold month_start, days_in; cbn -[leap]; destruct (leap y); reflexivity.
Qed.
Lemma month_first y : month_start y 1 = 0.
Proof. reflexivity. Qed.
Lemma month_last y : month_start y 12 + days_in y 12 = if leap y then 366 else 365.
Proof. unfold month_start, days_in. cbn -[leap]. destruct (leap y); reflexivity. Qed.
Lemma days_pos y m : 28 <= days_in y m <= 31.
Proof. unfold days_in. repeat match goal with |- context [if ?b then _ else _] => destruct b end; lia. Qed.
Lemma month_mono y a b : 1 <= a -> a <= b -> b <= 12 -> month_start y a <= month_start y b.
Proof.
  intros H1 H2. pattern b. apply Zlt_lower_bound_ind with (z := a); [|exact H2]. intros x IH X H3. destruct (Z.eq_dec x a) as [->|]; [lia|].
  specialize (IH (x - 1) ltac:(lia) ltac:(lia)). pose proof (month_next y (x - 1) ltac:(lia)) as N. replace (x - 1 + 1) with x in N by lia.
  pose proof (days_pos y (x - 1)). lia.
Qed.

(** valid dates are ordered as the days *)
Lemma month_in_year y m d : valid (y, m, d) -> 1 <= month_start y m + d <= if leap y then 366 else 365.
Proof.
  intros [M D]. pose proof (month_mono y 1 m ltac:(lia) ltac:(lia) ltac:(lia)) as A. rewrite month_first in A. split; [lia|].
  destruct (Z.eq_dec m 12) as [->|]; [rewrite <- month_last; lia|]. pose proof (month_next y m ltac:(lia)).
  pose proof (month_mono y (m + 1) 12 ltac:(lia) ltac:(lia) ltac:(lia)). pose proof (month_last y). pose proof (days_pos y 12). lia.
Qed.
Lemma day_in_year y m d : valid (y, m, d) -> year_start y <= day_of (y, m, d) < year_start (y + 1).
Proof. intros V. pose proof (month_in_year _ _ _ V). cbn [day_of]. rewrite year_next. lia. Qed.
Lemma year_less y m d y' m' d' : valid (y, m, d) -> valid (y', m', d') -> y < y' -> day_of (y, m, d) < day_of (y', m', d').
Proof. intros V V' H. pose proof (day_in_year _ _ _ V). pose proof (day_in_year _ _ _ V'). pose proof (year_mono (y + 1) y' ltac:(lia)). lia. Qed.
Lemma month_less y m d m' d' : valid (y, m, d) -> valid (y, m', d') -> m < m' -> day_of (y, m, d) < day_of (y, m', d').
Proof.
  intros [M D] [M' D'] H. cbn [day_of]. pose proof (month_next y m ltac:(lia)). pose proof (month_mono y (m + 1) m' ltac:(lia) ltac:(lia) ltac:(lia)). lia.
Qed.
Lemma day_of_inj a b : valid a -> valid b -> day_of a = day_of b -> a = b.
Proof.
  destruct a as [[y m] d], b as [[y' m'] d']. intros V V' E.
  destruct (Z.lt_trichotomy y y') as [H|[H|H]]; [pose proof (year_less _ _ _ _ _ _ V V' H); lia| |pose proof (year_less _ _ _ _ _ _ V' V H); lia]. subst y'.
  destruct (Z.lt_trichotomy m m') as [H|[H|H]]; [pose proof (month_less _ _ _ _ _ V V' H); lia| |pose proof (month_less _ _ _ _ _ V' V H); lia]. subst m'.
  cbn [day_of] in E. f_equal. lia.
Qed.
Lemma next_day_of x : valid x -> valid (next_day x) /\ day_of (next_day x) = day_of x + 1.
Proof.
  destruct x as [[y m] d]. intros [M D]. unfold next_day. destruct (Z.ltb_spec d (days_in y m)); [cbn [valid day_of]; lia|].
  destruct (Z.ltb_spec m 12).
  - cbn [valid day_of]. rewrite month_next by lia. pose proof (days_pos y (m + 1)). lia.
  - assert (m = 12) by lia. subst m. cbn [valid day_of]. rewrite year_next, month_first. pose proof (month_last y). pose proof (days_pos (y + 1) 1). lia.
Qed.

(** * The days of a year that begins in March *)
Definition month_check (doy : Z) : bool :=
  let mp := (5 * doy + 2) / 153 in
  let d := doy - (153 * mp + 2) / 5 + 1 in
  (1 <=? d) && (0 <=? mp) && (mp <=? 11) &&
  if mp <? 10 then (d <=? days_in 1 (mp + 3)) && ((367 * (mp + 3) - 362) / 12 - 2 + d =? doy + 60)
  else ((d <=? days_in 1 (mp - 9)) || ((mp =? 11) && (d =? 29) && (doy =? 365))) && ((367 * (mp - 9) - 362) / 12 + d =? doy - 305).
Lemma month_checked doy : 0 <= doy <= 365 -> month_check doy = true.
Proof.
  intros H. assert (A : forallb month_check (map Z.of_nat (seq 0 366)) = true) by reflexivity. rewrite forallb_forall in A.
  apply A, in_map_iff. exists (Z.to_nat doy). split; [lia|]. apply in_seq. lia.
Qed.
Lemma days_in_common y y' m : m <> 2 -> days_in y m = days_in y' m.
Proof. intros H. unfold days_in. destruct (Z.eqb_spec m 2); [contradiction|reflexivity]. Qed.
Lemma days_in_least y m : days_in 1 m <= days_in y m.
Proof. unfold days_in. change (leap 1) with false. destruct (m =? 2); [destruct (leap y)|]; lia. Qed.
Lemma march_date y doy : 0 <= doy <= 365 -> (doy = 365 -> leap (y + 1) = true) ->
  let mp := (5 * doy + 2) / 153 in
  let d := doy - (153 * mp + 2) / 5 + 1 in
  let x := if mp <? 10 then (y, mp + 3, d) else (y + 1, mp - 9, d) in
  valid x /\ day_of x = year_start (y + 1) + doy - 306.
Proof.
  intros H L. pose proof (month_checked doy H) as C. unfold month_check in C. cbv zeta in *. set (mp := (5 * doy + 2) / 153) in *.
  set (d := doy - (153 * mp + 2) / 5 + 1) in *. clearbody mp d. apply andb_prop in C. destruct C as [C1 C].
  apply andb_prop in C1. destruct C1 as [C1 C2]. apply andb_prop in C1. destruct C1 as [C1 C3]. apply Z.leb_le in C1, C2, C3.
  destruct (Z.ltb_spec mp 10); apply andb_prop in C; destruct C as [C D]; apply Z.eqb_eq in D; cbn [valid day_of].
  - apply Z.leb_le in C. pose proof (days_in_least y (mp + 3)). split; [lia|]. rewrite year_next. unfold month_start.
    destruct (Z.leb_spec (mp + 3) 2); [lia|]. destruct (leap y); lia.
  - unfold month_start. destruct (Z.leb_spec (mp - 9) 2); [|lia]. split; [|lia]. split; [lia|]. split; [lia|]. apply orb_prop in C. destruct C as [C|C].
    + apply Z.leb_le in C. pose proof (days_in_least (y + 1) (mp - 9)). lia.
    + apply andb_prop in C. destruct C as [C E]. apply andb_prop in C. destruct C as [C C']. apply Z.eqb_eq in C, C', E. unfold days_in. rewrite C, L by exact E.
      change (11 - 9 =? 2) with true. cbv iota. lia.
Qed.
Lemma leap_yes a c q : 0 <= c <= 3 -> 0 <= q <= 24 -> (q = 24 -> c = 3) -> leap (400 * a + 100 * c + 4 * q + 3 + 1) = true.
Proof.
  intros C Q L. unfold leap. destruct (Z.eqb_spec ((400 * a + 100 * c + 4 * q + 3 + 1) mod 4) 0); [|Z.div_mod_to_equations; lia].
  destruct (Z.eqb_spec ((400 * a + 100 * c + 4 * q + 3 + 1) mod 100) 0); [|reflexivity].
  destruct (Z.eqb_spec ((400 * a + 100 * c + 4 * q + 3 + 1) mod 400) 0); [reflexivity|]. exfalso.
  assert (q = 24) by (Z.div_mod_to_equations; lia). specialize (L H). subst. Z.div_mod_to_equations; lia.
Qed.
Lemma start_of a c q k : 0 <= c <= 3 -> 0 <= q <= 24 -> 0 <= k <= 3 ->
  year_start (400 * a + 100 * c + 4 * q + k + 1) = 146097 * a + 36524 * c + 1461 * q + 365 * k - 719162.
Proof.
  intros C Q K. unfold year_start. replace (400 * a + 100 * c + 4 * q + k + 1 - 1) with (400 * a + 100 * c + 4 * q + k) by lia.
  assert ((400 * a + 100 * c + 4 * q + k) / 4 = 100 * a + 25 * c + q) as -> by (symmetry; apply Z.div_unique with (r := k); lia).
  assert ((400 * a + 100 * c + 4 * q + k) / 100 = 4 * a + c) as -> by (symmetry; apply Z.div_unique with (r := 4 * q + k); lia).
  assert ((400 * a + 100 * c + 4 * q + k) / 400 = a) as -> by (symmetry; apply Z.div_unique with (r := 100 * c + 4 * q + k); lia). lia.
Qed.
Lemma date_ok n : valid (date_of_day n) /\ day_of (date_of_day n) = n.
Proof.
  unfold date_of_day. cbv zeta. set (a := (n + 719468) / 146097). set (r := (n + 719468) mod 146097).
  assert (R : 0 <= r < 146097) by (apply Z.mod_pos_bound; lia). assert (N : n + 719468 = 146097 * a + r) by (apply Z.div_mod; lia). clearbody a r.
  set (c := Z.min 3 (r / 36524)). assert (C : 0 <= c <= 3 /\ 0 <= r - c * 36524 <= 36524 /\ (c < 3 -> r - c * 36524 < 36524)).
  { unfold c. Z.div_mod_to_equations; lia. }
  clearbody c. set (r1 := r - c * 36524) in *. set (q := r1 / 1461). assert (Q : 0 <= q <= 24 /\ 0 <= r1 - q * 1461 <= 1460 /\ (q = 24 -> c < 3 -> r1 - q * 1461 < 1460)).
  { unfold q. Z.div_mod_to_equations; lia. }
  clearbody q. set (r2 := r1 - q * 1461) in *. set (k := Z.min 3 (r2 / 365)). assert (K : 0 <= k <= 3 /\ 0 <= r2 - k * 365 <= 365 /\ (r2 - k * 365 = 365 -> k = 3)).
  { unfold k. Z.div_mod_to_equations; lia. }
  clearbody k. destruct (march_date (400 * a + 100 * c + 4 * q + k) (r2 - k * 365)) as [V D]; [lia| |].
  - intros E. assert (k = 3) by lia. subst k. apply leap_yes; lia.
  - cbv zeta in V, D. split; [exact V|]. rewrite D, start_of by lia. unfold r2, r1. lia.
Qed.
Lemma date_next n : date_of_day (n + 1) = next_day (date_of_day n).
Proof.
  destruct (date_ok n) as [V D], (date_ok (n + 1)) as [V' D']. destruct (next_day_of _ V) as [W N]. apply day_of_inj; [assumption..|]. lia.
Qed.

(** * Seconds *)
Lemma gmtime_epoch : gmtime 0 = epoch.
Proof. reflexivity. Qed.
Lemma gmtime_date s : date (gmtime s) = date_of_day (s / 86400).
Proof. unfold gmtime. destruct (date_of_day (s / 86400)) as [[y m] d]. reflexivity. Qed.
Lemma gmtime_clock s : hour (gmtime s) = s mod 86400 / 3600 /\ minute (gmtime s) = s mod 86400 / 60 mod 60 /\ second (gmtime s) = s mod 86400 mod 60.
Proof. unfold gmtime. destruct (date_of_day (s / 86400)) as [[y m] d]. auto. Qed.
Lemma gmtime_is s t : date t = date_of_day (s / 86400) -> 0 <= hour t <= 23 -> 0 <= minute t <= 59 -> 0 <= second t <= 59 ->
  hour t * 3600 + minute t * 60 + second t = s mod 86400 -> gmtime s = t.
Proof.
  intros D H M S E. unfold gmtime. destruct (date_of_day (s / 86400)) as [[y m] d]. destruct t as [y' m' d' h mi se]. cbn in *. injection D as -> -> ->.
  rewrite <- E. f_equal; Z.div_mod_to_equations; lia.
Qed.
Lemma clock_ok s : 0 <= hour (gmtime s) <= 23 /\ 0 <= minute (gmtime s) <= 59 /\ 0 <= second (gmtime s) <= 59 /\
  hour (gmtime s) * 3600 + minute (gmtime s) * 60 + second (gmtime s) = s mod 86400.
Proof. destruct (gmtime_clock s) as (-> & -> & ->). Z.div_mod_to_equations; lia. Qed.
Lemma gmtime_next s : gmtime (s + 1) = next_second (gmtime s).
Proof.
  destruct (clock_ok s) as (H & M & S & E). pose proof (gmtime_date s) as D. pose proof (Z.div_mod s 86400). pose proof (Z.mod_pos_bound s 86400).
  assert (same : hour (gmtime s) * 3600 + minute (gmtime s) * 60 + second (gmtime s) < 86399 -> (s + 1) / 86400 = s / 86400 /\ (s + 1) mod 86400 = s mod 86400 + 1).
  { intros L. split; [symmetry; apply Z.div_unique with (r := s mod 86400 + 1); lia|symmetry; apply Z.mod_unique with (q := s / 86400); lia]. }
  unfold next_second.
  destruct (Z.ltb_spec (second (gmtime s)) 59); [|destruct (Z.ltb_spec (minute (gmtime s)) 59); [|destruct (Z.ltb_spec (hour (gmtime s)) 23)]].
  1-3: destruct same as [Q R]; [lia|]; apply gmtime_is; cbn [date year month day hour minute second] in *; [rewrite Q; exact D|lia..].
  assert (Q : (s + 1) / 86400 = s / 86400 + 1) by (symmetry; apply Z.div_unique with (r := 0); lia).
  assert (R : (s + 1) mod 86400 = 0) by (symmetry; apply Z.mod_unique with (q := s / 86400 + 1); lia).
  rewrite D. destruct (next_day (date_of_day (s / 86400))) as [[y m] d] eqn:N. apply gmtime_is; cbn [date year month day hour minute second]; try lia.
  rewrite Q, date_next. symmetry. exact N.
Qed.
(** conversely there is one only *)
Lemma calendar_unique (f : Z -> tm) : f 0 = epoch -> (forall s, f (s + 1) = next_second (f s)) -> forall s, 0 <= s -> f s = gmtime s.
Proof.
  intros A B s H. pattern s. apply natlike_ind; [rewrite A; symmetry; apply gmtime_epoch| |exact H].
  intros x X IH. unfold Z.succ. rewrite B, gmtime_next, IH. reflexivity.
Qed.
