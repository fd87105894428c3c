(** Proofs about the stopwatch with any clock, and about parts read one after another. *)
From Coq Require Import List Bool ZArith Lia.
From Verif Require Import StopwatchModel StopwatchSpec StopwatchProofs StopwatchClockModel StopwatchClockSpec.
Import ListNotations.
Open Scope Z_scope.

Lemma runs_seen clock h : runs (seen clock h) = runs h.
Proof. induction h as [|[e t] h IH]; [reflexivity|]. destruct e; cbn; auto. Qed.
Lemma elapsed_seen clock h : forall now, elapsed (seen clock h) (clock now) = elapsed h now + adjusted clock h now.
Proof.
  induction h as [|[e t] h IH]; intros now; [reflexivity|]. cbn [elapsed adjusted].
  pose proof (runs_seen clock ((e, t) :: h)) as R. unfold seen in *. cbn [map fst snd elapsed] in *. rewrite R.
  specialize (IH t). unfold set_forward. destruct (runs ((e, t) :: h)), (zeroes e); try rewrite IH; lia.
Qed.
Theorem clock_error clock h now : time_shown clock h now = elapsed h now + adjusted clock h now.
Proof. unfold time_shown. rewrite time_ok. apply elapsed_seen. Qed.
Lemma right_adjusted clock h : forall now, right_while_running clock h now -> adjusted clock h now = 0.
Proof.
  induction h as [|[e t] h IH]; intros now H; [reflexivity|]. destruct H as [H1 H2]. cbn [adjusted].
  destruct (runs ((e, t) :: h)); [rewrite H1 by reflexivity|]; (destruct (zeroes e); [lia|rewrite IH; auto]).
Qed.
Theorem right_clock clock h now : right_while_running clock h now -> time_shown clock h now = elapsed h now.
Proof. intros H. rewrite clock_error, right_adjusted by exact H. lia. Qed.
Lemma accurate_adjusted clock k h : 0 < k -> accurate clock k -> forall now, steady h now -> k * Z.abs (adjusted clock h now) <= elapsed h now.
Proof.
  intros K A. induction h as [|[e t] h IH]; intros now S; [cbn; lia|]. destruct S as [L S]. specialize (IH t S). cbn [adjusted elapsed].
  pose proof (A t now L) as B. pose proof (elapsed_nonneg h t S). set (u := set_forward clock t now) in *. set (v := adjusted clock h t) in *.
  assert (T : Z.abs (u + v) <= Z.abs u + Z.abs v) by lia.
  destruct (runs ((e, t) :: h)), (zeroes e); rewrite ?Z.add_0_r, ?Z.add_0_l; cbn [Z.abs]; try lia; nia.
Qed.
Theorem accurate_clock clock k h now : 0 < k -> accurate clock k -> steady h now ->
  k * Z.abs (time_shown clock h now - elapsed h now) <= elapsed h now.
Proof. intros K A S. rewrite clock_error. replace (elapsed h now + adjusted clock h now - elapsed h now) with (adjusted clock h now) by lia. apply accurate_adjusted; auto. Qed.
(** set back by 50 at 20, while running *)
Lemma set_back : let clock t := if t <? 20 then t else t - 50 in
  time_shown clock [(Start, 10)] 19 = 9 /\ time_shown clock [(Start, 10)] 25 = -35 /\
  (seconds_part sec (clock 25) (run (seen clock [(Start, 10)])) = -35).
Proof. repeat split. Qed.
Lemma set_back_while_stopped : let clock t := if t <? 20 then t else t - 50 in let h := [(Start, 30); (Stop, 15); (Start, 10)] in
  right_while_running clock h 34 /\ time_shown clock h 34 = 9.
Proof. cbn. repeat split; intros; try reflexivity; try discriminate. Qed.
(** one tick in 1000 too fast *)
Lemma accurate_ex : accurate (fun t => t + t / 1000) 1 /\ steady [(Stop, 9000); (Start, 2000)] 10000 /\
  time_shown (fun t => t + t / 1000) [(Stop, 9000); (Start, 2000)] 10000 = 7007.
Proof.
  split; [|split; [cbn; lia|reflexivity]]. intros a b L. unfold set_forward.
  replace (b + b / 1000 - (a + a / 1000) - (b - a)) with (b / 1000 - a / 1000) by lia.
  pose proof (Z.div_le_mono a b 1000 ltac:(lia) L). pose proof (Z.div_mod a 1000). pose proof (Z.div_mod b 1000).
  pose proof (Z.mod_pos_bound a 1000 ltac:(lia)). pose proof (Z.mod_pos_bound b 1000 ltac:(lia)). lia.
Qed.

(** * parts read one after another *)
Theorem parts_apart tick s : 0 < tick -> forall t1 t2 t3 t4 t5 t6,
  (((((hours_part tick t1 s * 60 + minutes_part tick t2 s) * 60 + seconds_part tick t3 s) * 1000
     + milliseconds_part tick t4 s) * 1000 + microseconds_part tick t5 s) * 1000 + nanoseconds_part tick t6 s) =
  in_nanoseconds tick t6 s + 1000 * (in_microseconds tick t5 s - in_microseconds tick t6 s)
  + 1000000 * (in_milliseconds tick t4 s - in_milliseconds tick t5 s)
  + 1000000000 * (in_seconds tick t3 s - in_seconds tick t4 s)
  + 60000000000 * (in_minutes tick t2 s - in_minutes tick t3 s)
  + 3600000000000 * (in_hours tick t1 s - in_hours tick t2 s).
Proof.
  intros Ht t1 t2 t3 t4 t5 t6.
  unfold hours_part, minutes_part, seconds_part, milliseconds_part, microseconds_part, nanoseconds_part,
    in_nanoseconds, in_microseconds, in_milliseconds, in_seconds, in_minutes, in_hours, count_rollover, count.
  rewrite !cast_ok by (unfold ns, us, ms, sec, minute, hour; lia).
  pose proof (chain (time t2 s * tick) minute 60 ltac:(reflexivity) ltac:(reflexivity)) as H1.
  pose proof (chain (time t3 s * tick) sec 60 ltac:(reflexivity) ltac:(reflexivity)) as H2.
  pose proof (chain (time t4 s * tick) ms 1000 ltac:(reflexivity) ltac:(reflexivity)) as H3.
  pose proof (chain (time t5 s * tick) us 1000 ltac:(reflexivity) ltac:(reflexivity)) as H4.
  pose proof (chain (time t6 s * tick) ns 1000 ltac:(reflexivity) ltac:(reflexivity)) as H5.
  change (minute * 60) with hour in H1. change (sec * 60) with minute in H2.
  change (ms * 1000) with sec in H3. change (us * 1000) with ms in H4. change (ns * 1000) with us in H5. lia.
Qed.
(** seconds, minutes and hours *)
Theorem clock_display tick s : 0 < tick -> forall t1 t2 t3,
  (hours_part tick t1 s * 60 + minutes_part tick t2 s) * 60 + seconds_part tick t3 s =
  in_seconds tick t3 s + 60 * (in_minutes tick t2 s - in_minutes tick t3 s) + 3600 * (in_hours tick t1 s - in_hours tick t2 s).
Proof.
  intros Ht t1 t2 t3.
  unfold hours_part, minutes_part, seconds_part, in_seconds, in_minutes, in_hours, count_rollover, count.
  rewrite !cast_ok by (unfold sec, minute, hour; lia).
  pose proof (chain (time t2 s * tick) minute 60 ltac:(reflexivity) ltac:(reflexivity)) as H1.
  pose proof (chain (time t3 s * tick) sec 60 ltac:(reflexivity) ltac:(reflexivity)) as H2.
  change (minute * 60) with hour in H1. change (sec * 60) with minute in H2. lia.
Qed.
Lemma time_le t t' s : t <= t' -> time t s <= time t' s.
Proof. intros. unfold time. destruct (m_isRunning s); lia. Qed.
Lemma count_le tick unit t t' s : 0 < tick -> 0 < unit -> t <= t' -> count tick unit t s <= count tick unit t' s.
Proof. intros Ht Hu H. unfold count. rewrite !cast_ok by lia. apply Z.quot_le_mono; [lia|]. pose proof (time_le t t' s H). nia. Qed.
(** the same minute at the first and the last reading *)
Theorem same_minute tick s a b t1 t2 t3 : 0 < tick -> a <= t1 <= b -> a <= t2 <= b -> a <= t3 <= b ->
  in_minutes tick a s = in_minutes tick b s ->
  (hours_part tick t1 s * 60 + minutes_part tick t2 s) * 60 + seconds_part tick t3 s = in_seconds tick t3 s.
Proof.
  intros Ht H1 H2 H3 E. rewrite clock_display by lia.
  assert (M : forall t, a <= t <= b -> in_minutes tick t s = in_minutes tick a s).
  { intros t H. unfold in_minutes in *. pose proof (count_le tick minute a t s Ht ltac:(reflexivity) (proj1 H)).
    pose proof (count_le tick minute t b s Ht ltac:(reflexivity) (proj2 H)). lia. }
  assert (HH : forall t, in_hours tick t s = Z.quot (in_minutes tick t s) 60).
  { intros t. unfold in_hours, in_minutes, count. rewrite !cast_ok by (unfold minute, hour; lia). change hour with (minute * 60).
    symmetry. apply Z.quot_quot; unfold minute; lia. }
  rewrite !HH, (M t1), (M t2), (M t3) by auto. ring.
Qed.
Lemma display_ex : let s := Sw 0 0 true in
  ((hours_part sec 3599 s * 60 + minutes_part sec 3600 s) * 60 + seconds_part sec 3600 s = 0) /\
  ((hours_part sec 3600 s * 60 + minutes_part sec 3599 s) * 60 + seconds_part sec 3599 s = 7199) /\
  (in_minutes sec 3601 s = in_minutes sec 3659 s /\
   (hours_part sec 3601 s * 60 + minutes_part sec 3650 s) * 60 + seconds_part sec 3659 s = 3659).
Proof. repeat split. Qed.
