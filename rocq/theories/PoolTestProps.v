(** C186: which assertions of the tests of the thread pool hold whatever the scheduler does. *)
From Coq Require Import List Bool Arith ZArith.
From Verif Require Import PoolModel PoolSpec PoolExamples PoolTestModel PoolTestSpec PoolTestProofs PoolTestRuns PoolTestExamples.
Import ListNotations.

(** test_wait_until_all_tasks_complete never fails, with any number of workers and tasks *)
Theorem test_wait_until_all_tasks_complete_passes throws deps sleeps n N clock tr s seen : 1 <= n ->
  run throws deps sleeps (initial n clock) (wait_all_test N) tr s [] seen -> wait_all_passes N seen.
Proof. exact (wait_all_proof throws deps sleeps n N clock tr s seen). Qed.
Print Assumptions test_wait_until_all_tasks_complete_passes.
Example wait_all_ex : exists tr s seen, run no_throw no_deps no_sleep (initial 1 0) (wait_all_test 2) tr s [] seen /\ seen = [1; 0; 0; 0; 0; 2]%Z.
Proof. exact wait_all_run. Qed.

(** test_on_stop_complete_tasks never fails *)
Theorem test_on_stop_complete_tasks_passes throws deps sleeps n N clock tr s seen : 1 <= n ->
  run throws deps sleeps (initial n clock) (on_stop_test CompleteTasks N) tr s [] seen -> complete_tasks_passes N seen.
Proof. exact (complete_tasks_test_proof throws deps sleeps n N clock tr s seen). Qed.
Print Assumptions test_on_stop_complete_tasks_passes.
Example complete_tasks_ex : exists tr s seen, run no_throw no_deps no_sleep (initial 1 0) (on_stop_test CompleteTasks 2) tr s [] seen /\ seen = [1; 0; 0; 2]%Z.
Proof. exact complete_tasks_run. Qed.

(** test_wait_until_no_tasks_waiting does not fail if the compiler reads active_workers_size() before the counter *)
Theorem test_wait_until_no_tasks_waiting_passes_partial throws deps sleeps n N clock tr s seen : 1 <= n ->
  run throws deps sleeps (initial n clock) (wait_none_test false N) tr s [] seen -> wait_none_passes false N seen.
Proof.
  exact (fun L R => match wait_none_reads throws deps sleeps n N clock false tr s seen L R with
    | ex_intro _ w (ex_intro _ l (conj E (conj Nz (ex_intro _ a (ex_intro _ c (conj El La)))))) =>
        ex_intro _ w (ex_intro _ l (conj E (conj Nz (ex_intro _ a (ex_intro _ c (conj El (La eq_refl))))))) end).
Qed.
Print Assumptions test_wait_until_no_tasks_waiting_passes_partial.
Example wait_none_ex : exists tr s seen, run no_throw no_deps no_sleep (initial 1 0) (wait_none_test false 2) tr s [] seen /\ seen = [1; 0; 0; 1; 2; 0]%Z.
Proof. exact wait_none_run. Qed.
(** if the counter is read first, the last task may return in between *)
Theorem test_wait_until_no_tasks_waiting_refuted throws deps sleeps n N clock : plain throws deps -> 1 <= n -> 1 <= N ->
  exists tr s seen, run throws deps sleeps (initial n clock) (wait_none_test true N) tr s [] seen /\
    after_start (fun l => l = [Z.of_nat N - 1; 0; 0]%Z) seen /\ ~ wait_none_passes true N seen.
Proof. exact (fun P => wait_none_fails' throws deps sleeps P n N clock). Qed.
Print Assumptions test_wait_until_no_tasks_waiting_refuted.

(** in test_run_sync the counter is always right and no task waits; the number of active workers is at most that of the workers
    and of the tasks *)
Theorem test_run_sync_reads_partial throws deps sleeps n N clock tr s seen : 1 <= n ->
  run throws deps sleeps (initial n clock) (run_sync_test N) tr s [] seen ->
  exists a, run_sync_reads N a seen /\ (0 <= a <= Z.of_nat (Nat.min n N))%Z.
Proof. exact (run_sync_proof throws deps sleeps n N clock tr s seen). Qed.
Print Assumptions test_run_sync_reads_partial.
(** so the test never fails exactly if there is one worker or at most one task *)
Theorem test_run_sync_passes_exactly throws deps sleeps n N clock : plain throws deps -> 1 <= n ->
  ((forall tr s seen, run throws deps sleeps (initial n clock) (run_sync_test N) tr s [] seen -> run_sync_passes N seen) <-> n = 1 \/ N <= 1).
Proof. exact (run_sync_iff throws deps sleeps n N clock). Qed.
Print Assumptions test_run_sync_passes_exactly.
Theorem test_run_sync_refuted throws deps sleeps n N clock : plain throws deps -> 2 <= n -> 2 <= N ->
  exists tr s seen, run throws deps sleeps (initial n clock) (run_sync_test N) tr s [] seen /\ run_sync_reads N 2 seen.
Proof. exact (fun P => run_sync_fails throws deps sleeps P n N clock). Qed.
Print Assumptions test_run_sync_refuted.

(** in test_run_sync_has_high_priority the task of run_sync is done when the call has returned *)
Theorem test_run_sync_has_high_priority_reads_partial throws deps sleeps n N clock tr s seen : 1 <= n ->
  run throws deps sleeps (initial n clock) (high_priority_test N) tr s [] seen ->
  after_start (fun l => exists c, l = [c; 1%Z] /\ (0 <= c <= Z.of_nat N)%Z) seen.
Proof. exact (high_priority_proof throws deps sleeps n N clock tr s seen). Qed.
Print Assumptions test_run_sync_has_high_priority_reads_partial.
(** but all other tasks may be done before it *)
Theorem test_run_sync_has_high_priority_refuted throws deps sleeps n N clock : plain throws deps -> 1 <= n -> 1 <= N ->
  exists tr s seen, run throws deps sleeps (initial n clock) (high_priority_test N) tr s [] seen /\
    after_start (fun l => l = [Z.of_nat N; 1%Z]) seen /\ ~ high_priority_passes N seen.
Proof. exact (fun P => high_priority_fails' throws deps sleeps P n N clock). Qed.
Print Assumptions test_run_sync_has_high_priority_refuted.

(** test_on_stop_join_all: all tasks may be done before the destructor is called *)
Theorem test_on_stop_join_all_reads_partial throws deps sleeps n N clock tr s seen : 1 <= n ->
  run throws deps sleeps (initial n clock) (on_stop_test JoinAll N) tr s [] seen ->
  after_start (fun l => exists c, l = [c] /\ (0 <= c <= Z.of_nat N)%Z) seen.
Proof. exact (join_all_proof' throws deps sleeps n N clock tr s seen). Qed.
Print Assumptions test_on_stop_join_all_reads_partial.
Theorem test_on_stop_join_all_refuted throws deps sleeps n N clock : plain throws deps -> 1 <= n ->
  exists tr s seen, run throws deps sleeps (initial n clock) (on_stop_test JoinAll N) tr s [] seen /\
    after_start (fun l => l = [Z.of_nat N]) seen /\ ~ join_all_passes N seen.
Proof. exact (fun P => join_all_fails' throws deps sleeps P n N clock). Qed.
Print Assumptions test_on_stop_join_all_refuted.

(** test_run_async: all tasks may be done when the sleep is over *)
Theorem test_run_async_refuted throws deps n N clock time : plain throws deps -> 1 <= n -> 1 <= N ->
  exists tr s seen, run throws deps (until time) (initial n clock) (run_async_test N) tr s [] seen /\
    after_start (fun l => l = [0; 0; Z.of_nat N]%Z) seen /\ ~ run_async_passes N seen.
Proof. exact (fun P => run_async_fails' throws deps P n N clock time). Qed.
Print Assumptions test_run_async_refuted.

(** test_sanity, test_run_at, test_run_after and test_scheduler_exits_and_is_restarted pass if the sleeps last until the pool is at rest *)
Theorem test_sanity_passes_partial throws deps clock tr s seen : plain throws deps ->
  run throws deps (settled throws deps) (initial 0 clock) sanity tr s [] seen -> sanity_passes seen.
Proof. exact (fun P => sanity_proof throws deps (settled throws deps) clock tr s seen P (fun _ H => H)). Qed.
Print Assumptions test_sanity_passes_partial.
Example sanity_ex : exists tr s seen, run no_throw no_deps (settled no_throw no_deps) (initial 0 0) sanity tr s [] seen.
Proof. exact sanity_run. Qed.
Theorem test_run_after_passes_partial throws deps n clock tr s seen : plain throws deps -> 1 <= n ->
  run throws deps (settled throws deps) (initial n clock) run_after_test tr s [] seen -> run_after_passes seen.
Proof. exact (fun P => run_after_proof throws deps (settled throws deps) n clock tr s seen P (fun _ H => H)). Qed.
Print Assumptions test_run_after_passes_partial.
Example run_after_ex : exists tr s seen, run no_throw no_deps (settled no_throw no_deps) (initial 1 0) run_after_test tr s [] seen.
Proof. exact run_after_run. Qed.
Theorem test_scheduler_restarted_passes_partial throws deps n clock tr s seen : plain throws deps -> 1 <= n ->
  run throws deps (settled throws deps) (initial n clock) restart_test tr s [] seen -> restart_passes seen.
Proof. exact (fun P => restart_proof throws deps (settled throws deps) n clock tr s seen P (fun _ H => H)). Qed.
Print Assumptions test_scheduler_restarted_passes_partial.
Example restart_ex : exists tr s seen, run no_throw no_deps (settled no_throw no_deps) (initial 1 0) restart_test tr s [] seen.
Proof. exact restart_run. Qed.

(** but need not if the clock merely reaches the time at which they end *)
Theorem test_sanity_refuted throws deps clock time :
  exists tr s seen, run throws deps (until time) (initial 0 clock) sanity tr s [] seen /\ ~ sanity_passes seen.
Proof. exact (sanity_fails' throws deps clock time). Qed.
Print Assumptions test_sanity_refuted.
Theorem test_run_after_refuted throws deps n clock time : 1 <= n ->
  exists tr s seen, run throws deps (until time) (initial n clock) run_after_test tr s [] seen /\
    after_start (fun l => l = [0; 0; 1; 0]%Z) seen /\ ~ run_after_passes seen.
Proof. exact (run_after_fails' throws deps n clock time). Qed.
Print Assumptions test_run_after_refuted.
(** and the test of run_after may end the process: the scheduler ends before run_at has stored its thread *)
Theorem test_run_after_terminates_refuted throws deps sleeps n clock : 1 <= n ->
  exists tr s rest seen, run throws deps sleeps (initial n clock) run_after_test tr s rest seen /\ status s = Terminated.
Proof. exact (run_after_dies throws deps sleeps n clock). Qed.
Print Assumptions test_run_after_terminates_refuted.

(** the thread of a test is not stuck in a call once the threads of the pool have nothing left to do *)
Theorem test_thread_is_not_blocked throws deps sleeps n clock prog tr s rest seen : plain throws deps -> 1 <= n ->
  (forall m, In (SetTarget m) prog -> 1 <= m) ->
  run throws deps sleeps (initial n clock) prog tr s rest seen -> quiescent throws deps s -> returned s.
Proof. exact (not_blocked_proof throws deps sleeps n clock prog tr s rest seen). Qed.
Print Assumptions test_thread_is_not_blocked.
Example not_blocked_ex : exists tr s seen, run no_throw no_deps no_sleep (initial 1 0) (wait_all_test 1) tr s [Read Active; Read Waiting; Read (Counter 1)] seen /\
  quiescent no_throw no_deps s.
Proof. exact not_blocked_run. Qed.
(** and a test that schedules nothing does not end the process *)
Theorem test_without_scheduling_stays_alive throws deps sleeps n clock prog tr s rest seen : plain throws deps ->
  (forall d p, ~ In (RunAfter d p) prog) ->
  run throws deps sleeps (initial n clock) prog tr s rest seen -> status s = Alive.
Proof. exact (alive_proof throws deps sleeps n clock prog tr s rest seen). Qed.
Print Assumptions test_without_scheduling_stays_alive.
