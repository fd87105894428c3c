(** C188: which assertions of the tests of the stopwatch hold however long their statements take. *)
From Coq Require Import List Bool ZArith.
From Verif Require Import StopwatchModel WatchTestModel WatchTestSpec WatchTestProofs.
Import ListNotations.
Open Scope Z_scope.

(** six of the fifteen tests never fail *)
Theorem six_stopwatch_tests_never_fail tick : 0 < tick ->
  always tick test_construct_stopped construct_stopped_asserts /\ always tick test_copy_constructor copy_asserts /\
  always tick test_time_call_does_not_start does_not_start_asserts /\ always tick test_reset reset_asserts /\
  always tick test_stop_when_stopped does_not_start_asserts /\ always tick test_stop_and_time_when_stopped does_not_start_asserts.
Proof. exact (six_pass tick). Qed.
Print Assumptions six_stopwatch_tests_never_fail.

(** five never fail exactly if the clock's period is not longer than the millisecond they sleep *)
Theorem five_stopwatch_tests_never_fail_exactly tick : 0 < tick ->
  (always tick test_construct_started construct_started_asserts <-> fine tick) /\
  (always tick test_time_call_does_not_stop does_not_stop_asserts <-> fine tick) /\
  (always tick test_start_does_not_restart does_not_stop_asserts <-> fine tick) /\
  (always tick test_stop_then_start stop_starts_asserts <-> fine tick) /\
  (always tick test_stop_and_time_then_start stop_and_time_starts_asserts <-> fine tick).
Proof. exact (five_exact tick). Qed.
Print Assumptions five_stopwatch_tests_never_fail_exactly.
Example fine_ex : fine 1 /\ ~ fine 15625000.
Proof. exact fine_cases. Qed.

(** four fail in some execution, with every clock *)
Theorem four_stopwatch_tests_refuted tick : 0 < tick ->
  ~ always tick test_sanity sanity_asserts /\ ~ always tick test_restart_does_restart restarts_asserts /\
  ~ always tick test_stop_then_restart stop_restarts_asserts /\ ~ always tick test_stop_and_time_then_restart stop_and_time_restarts_asserts.
Proof. exact (four_fail tick). Qed.
Print Assumptions four_stopwatch_tests_refuted.

(** and pass exactly if the clock counts at least one and less than two seconds between the construction and stop(), or less
    between restart() and the second time than between the construction and the first *)
Theorem four_stopwatch_tests_pass_exactly tick x l seen : 0 < tick ->
  let reads n := nth n l 0 / tick in
  (exec tick x nothing test_sanity l seen -> (sanity_asserts seen <-> sec <= (reads 3%nat - reads 0%nat) * tick < 2 * sec)) /\
  (exec tick x nothing test_restart_does_restart l seen -> (restarts_asserts seen <-> reads 6%nat - reads 5%nat < reads 3%nat - reads 0%nat)) /\
  (exec tick x nothing test_stop_then_restart l seen -> (stop_restarts_asserts seen <-> reads 8%nat - reads 6%nat < reads 3%nat - reads 0%nat)) /\
  (exec tick x nothing test_stop_and_time_then_restart l seen -> (stop_and_time_restarts_asserts seen <-> reads 7%nat - reads 5%nat < reads 3%nat - reads 0%nat)).
Proof. exact (four_exact tick x l seen). Qed.
Print Assumptions four_stopwatch_tests_pass_exactly.
Example sanity_passes_ex : exists l, exec 100 7 nothing test_sanity l [yes; no; Num 1; Num 1].
Proof. exact sanity_ex. Qed.
