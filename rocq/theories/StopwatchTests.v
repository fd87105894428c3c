(** The repository's own tests of the stopwatch (/repo/tests/stopwatch_tests.cpp) on the model.  A test is made for every
    starting time [t0] and for all times [d], [e] that its calls of sleep_for take; calls that follow each other without
    sleeping may take time too, which is [x], [y] where it matters.  The clock's period is a nanosecond. *)
From Coq Require Import List Bool ZArith Lia.
From Verif Require Import StopwatchModel.
Import ListNotations.
Open Scope Z_scope.

Section Times.
Variables t0 d e : Z.
Hypothesis (D : 0 < d) (E : 0 < e).

(* stopwatch_tests.cpp 18-29: a second and less than a second of delay *)
Lemma test_sanity x : 0 <= x < sec ->
  let s0 := construct true t0 in let s := stop (t0 + sec + x) s0 in
  m_isRunning s0 = true /\ m_isRunning s = false /\ in_seconds 1 (t0 + d) s = 1 /\ seconds_part 1 (t0 + d) s = 1.
Proof.
  intros X s0 s. assert (H : in_seconds 1 (t0 + d) s = 1).
  { unfold in_seconds, count, duration_cast. change (1 / Z.gcd 1 sec) with 1. change (sec / Z.gcd 1 sec) with sec. cbn [time m_isRunning s stop construct start s0 negb m_time m_start].
    rewrite Z.quot_div_nonneg by (unfold sec in *; lia). symmetry. apply Z.div_unique with x; [left; exact X|lia]. }
  split; [reflexivity|]. split; [reflexivity|]. split; [exact H|]. unfold seconds_part, count_rollover. unfold in_seconds in H. rewrite H. reflexivity.
Qed.
(* 31-41 *)
Lemma test_construct_stopped : let s := construct false t0 in m_isRunning s = false /\ time (t0 + d) s = 0.
Proof. split; reflexivity. Qed.
(* 43-53 *)
Lemma test_construct_started : let s := construct true t0 in m_isRunning s = true /\ time (t0 + d) s <> 0.
Proof. split; [reflexivity|]. cbn. lia. Qed.
(* 55-69: the copy constructor is the defaulted one *)
Lemma test_copy_constructor x : let s := stop (t0 + d) (construct true t0) in let s2 := s in
  m_isRunning s = false /\ m_isRunning s2 = false /\ time (t0 + d) s = time (t0 + d + x) s2.
Proof. repeat split. Qed.
(* 71-87 *)
Lemma test_time_call_does_not_start x : let s := stop (t0 + d) (construct true t0) in
  m_isRunning s = false /\ time (t0 + d + x) s = time (t0 + d + x + e) s.
Proof. repeat split. Qed.
(* 89-104 *)
Lemma test_time_call_does_not_stop : let s := construct true t0 in m_isRunning s = true /\ time (t0 + d) s < time (t0 + d + e) s.
Proof. split; [reflexivity|]. cbn. lia. Qed.
(* 106-130 *)
Lemma test_reset : let s := reset (construct true t0) in m_isRunning s = false /\
  forall t, Forall (fun f => f t s = 0) [in_nanoseconds 1; in_microseconds 1; in_milliseconds 1; in_seconds 1; in_minutes 1; in_hours 1;
    nanoseconds_part 1; microseconds_part 1; milliseconds_part 1; seconds_part 1; minutes_part 1; hours_part 1].
Proof. split; [reflexivity|]. intros t. repeat constructor. Qed.
(* 132-146: the second call of time() comes [x] after restart(), the first one [d] after the construction *)
Lemma test_restart_does_restart x y : 0 <= x < d -> let s := restart (t0 + d + y) (construct true t0) in
  m_isRunning s = true /\ time (t0 + d + y + x) s < time (t0 + d) (construct true t0).
Proof. intros X. split; [reflexivity|]. cbn. lia. Qed.
(* 148-165 *)
Lemma test_start_does_not_restart : let s := start (t0 + d + e) (construct true t0) in
  m_isRunning s = true /\ time (t0 + d) (construct true t0) < time (t0 + d + e) s.
Proof. split; [reflexivity|]. cbn. lia. Qed.
(* 167-185, 222-238 *)
Lemma test_stop_when_stopped_no_change : let s := stop (t0 + d) (construct true t0) in let s2 := stop (t0 + d + e) s in
  m_isRunning s = false /\ m_isRunning s2 = false /\ time (t0 + d) s = time (t0 + d + e) s2 /\
  snd (stop_and_time (t0 + d) (construct true t0)) = snd (stop_and_time (t0 + d + e) s).
Proof. repeat split. Qed.
(* 187-203, 240-256 *)
Lemma test_stop_then_restart_does_restart x y : 0 <= x < d -> let s := stop (t0 + d) (construct true t0) in let s2 := restart (t0 + d + y) s in
  m_isRunning s = false /\ m_isRunning s2 = true /\ time (t0 + d + y + x) s2 < time (t0 + d) s /\
  snd (stop_and_time (t0 + d + y + x) s2) < snd (stop_and_time (t0 + d) (construct true t0)).
Proof. intros X. split; [reflexivity|]. split; [reflexivity|]. split; cbn; lia. Qed.
(* 205-220, 258-277 *)
Lemma test_stop_then_start_does_not_restart y : let s := stop (t0 + d) (construct true t0) in let s2 := start (t0 + d + y) s in
  m_isRunning s = false /\ m_isRunning s2 = true /\ time (t0 + d) s < time (t0 + d + y + e) s2 /\
  snd (stop_and_time (t0 + d) (construct true t0)) < snd (stop_and_time (t0 + d + y + e) s2).
Proof. split; [reflexivity|]. split; [reflexivity|]. split; cbn; lia. Qed.
End Times.
