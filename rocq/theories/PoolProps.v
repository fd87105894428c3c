(** Property theorems C48-C58 and C74-C79: thread_pool.

    [exec throws deps (initial n clock) tr s]: an execution, of any length, of a pool created with [n] workers,
    with any callers and any schedule; [tr] lists its events and [s] is its last state.  [throws]: the tasks
    that throw; [deps]: the tasks that each task waits for. *)
From Coq Require Import List Bool Arith ZArith Permutation.
From Verif Require Import ListUpdate PoolModel PoolSpec PoolProofs PoolLive PoolStop PoolWait PoolDue PoolExamples.
Import ListNotations.

(** C48 *)
Theorem pool_tasks_are_in_one_place : forall throws deps n clock tr s, exec throws deps (initial n clock) tr s ->
  Permutation (scheduled_tasks s ++ waiting_tasks s ++ running s ++ completed s) (givens tr) /\ NoDup (givens tr) /\
  Permutation (starts tr) (running s ++ completed s) /\ Permutation (finishes tr) (completed s) /\
  NoDup (starts tr) /\ NoDup (finishes tr).
Proof. exact places_proof. Qed.
Print Assumptions pool_tasks_are_in_one_place.
Example pool_tasks_are_in_one_place_ex : exists tr s, exec no_throw no_deps (initial 1 0) tr s /\
  quiescent no_throw no_deps s /\ stopping s = false /\ target s = 1 /\ starts tr = [1; 0] /\ finishes tr = [1; 0] /\
  completed s = [0; 1] /\ all_waiters s = [CReturned] /\ none_waiters s = [CReturned] /\ syncs s = [(1, true)] /\
  In (EAllReturned 0) tr /\ In (ENoneReturned 0) tr /\ In (ESyncReturned 1) tr.
Proof. exact busy_execution. Qed.

(** C49.  When task [t] starts, every other task [t'] in the queue has a lower priority, or has the same
    priority and entered the queue later. *)
Theorem pool_starts_the_first_of_the_highest_priority : forall throws deps n clock tr s w t s' p t' p',
  exec throws deps (initial n clock) tr s -> step throws deps s (EStart w t) s' -> given_priority tr t p ->
  In t' (entries tr) -> ~ In t' (starts tr) -> given_priority tr t' p' -> t' <> t ->
  (p' < p)%Z \/ (p' = p /\ before (entries tr) t t' /\ ~ before (entries tr) t' t).
Proof. exact start_order_proof. Qed.
Print Assumptions pool_starts_the_first_of_the_highest_priority.
(** the queue consists of the tasks that entered it and have not started *)
Theorem pool_queue_is_entered_not_started : forall throws deps n clock tr s t,
  exec throws deps (initial n clock) tr s ->
  (In t (waiting_tasks s) <-> In t (entries tr) /\ ~ In t (starts tr)).
Proof. exact entered_not_started. Qed.
Print Assumptions pool_queue_is_entered_not_started.
Example pool_starts_the_first_of_the_highest_priority_ex : exists s s',
  exec no_throw no_deps (initial 1 0) [ESubmit 0 0; ESubmit 1 5; ESubmit 2 5] s /\ step no_throw no_deps s (EStart 0 1) s'.
Proof. exact ordered_execution. Qed.

(** C50.  [busy]: from taking a task until locking the mutex again afterwards. *)
Theorem pool_getters_are_exact : forall throws deps n clock tr s, exec throws deps (initial n clock) tr s ->
  active_workers_size s = length (filter busy (workers s)) /\ active_tasks_size s = length (filter busy (workers s)) /\
  active_workers_size s <= workers_size s /\
  waiting_workers_size s = Z.of_nat (length (filter (fun w => in_map w && negb (busy w)) (workers s))) /\
  tasks_size s = length (waiting_tasks s) + length (filter busy (workers s)) /\
  waiting_tasks_size s = length (waiting_tasks s) /\ scheduled_tasks_size s = length (scheduled_tasks s).
Proof. exact getters_proof. Qed.
Print Assumptions pool_getters_are_exact.
Example pool_getters_are_exact_ex : exists tr s, exec no_throw no_deps (initial 3 0) tr s /\
  quiescent no_throw no_deps s /\ stopping s = false /\ target s = 1 /\ workers_size s = 1 /\ workers s = [WGone; WWait; WGone].
Proof. exact shrunk_execution. Qed.

(** C51 *)
Theorem pool_runs_all_tasks : forall throws deps n clock tr s, exec throws deps (initial n clock) tr s ->
  plain throws deps -> quiescent throws deps s -> stopping s = false -> 1 <= target s ->
  waiting_tasks s = [] /\ running s = [].
Proof. exact tasks_done_proof. Qed.
Print Assumptions pool_runs_all_tasks.
Theorem pool_becomes_quiescent : forall throws deps s, exists b, forall m s',
  internals throws deps m s s' -> m <= b.
Proof. exact finite_proof. Qed.
Print Assumptions pool_becomes_quiescent.
Example pool_runs_all_tasks_ex : plain no_throw no_deps /\ exists tr s, exec no_throw no_deps (initial 1 0) tr s /\
  quiescent no_throw no_deps s /\ stopping s = false /\ target s = 1 /\ starts tr = [1; 0] /\ finishes tr = [1; 0] /\
  completed s = [0; 1] /\ all_waiters s = [CReturned] /\ none_waiters s = [CReturned] /\ syncs s = [(1, true)] /\
  In (EAllReturned 0) tr /\ In (ENoneReturned 0) tr /\ In (ESyncReturned 1) tr.
Proof. exact (conj plain_tasks busy_execution). Qed.

(** C52 *)
Theorem pool_size_at_least_target : forall throws deps n clock tr s, exec throws deps (initial n clock) tr s ->
  stopping s = false -> target s <= workers_size s.
Proof. exact size_at_least_proof. Qed.
Print Assumptions pool_size_at_least_target.
Theorem pool_target_takes_effect : forall throws deps n clock tr s m s', exec throws deps (initial n clock) tr s ->
  stopping s = false -> step throws deps s (ETarget m) s' ->
  target s' = m /\ workers_size s' = Nat.max m (workers_size s) /\ stopping s' = false.
Proof. exact target_proof. Qed.
Print Assumptions pool_target_takes_effect.
Theorem pool_size_converges : forall throws deps n clock tr s, exec throws deps (initial n clock) tr s ->
  plain throws deps -> quiescent throws deps s -> stopping s = false -> workers_size s = target s.
Proof. exact size_converges_proof. Qed.
Print Assumptions pool_size_converges.
Example pool_size_converges_ex : plain no_throw no_deps /\ exists tr s, exec no_throw no_deps (initial 3 0) tr s /\
  quiescent no_throw no_deps s /\ stopping s = false /\ target s = 1 /\ workers_size s = 1 /\ workers s = [WGone; WWait; WGone].
Proof. exact (conj plain_tasks shrunk_execution). Qed.

(** C53 *)
Theorem pool_wait_all_returns_only_when_idle : forall throws deps n clock tr s k s',
  exec throws deps (initial n clock) tr s -> step throws deps s (EAllReturned k) s' ->
  waiting_tasks s = [] /\ running s = [] /\ filter busy (workers s) = [].
Proof. exact all_returns_idle_proof. Qed.
Print Assumptions pool_wait_all_returns_only_when_idle.
(** the same, by what has become of the calls *)
Theorem pool_wait_all_returned_when_idle : forall throws deps n clock tr s e s' k,
  exec throws deps (initial n clock) tr s -> step throws deps s e s' ->
  returned_at k (all_waiters s') -> ~ returned_at k (all_waiters s) ->
  waiting_tasks s = [] /\ running s = [] /\ filter busy (workers s) = [].
Proof. exact all_returns_state_proof. Qed.
Print Assumptions pool_wait_all_returned_when_idle.
(** for a target of at least one worker; see the next theorem *)
Theorem pool_wait_all_returns_partial : forall throws deps n clock tr s k c,
  exec throws deps (initial n clock) tr s -> plain throws deps -> quiescent throws deps s -> stopping s = false ->
  1 <= target s -> nth_error (all_waiters s) k = Some c -> c = CReturned.
Proof. exact all_not_stuck_proof. Qed.
Print Assumptions pool_wait_all_returns_partial.
(** all tasks are complete, nothing more happens, and a caller is still blocked, when the target became 0 *)
Theorem pool_wait_all_returns_refuted : exists tr s, exec no_throw no_deps (initial 1 0) tr s /\
  quiescent no_throw no_deps s /\ stopping s = false /\ starts tr = [0] /\ finishes tr = [0] /\
  waiting_tasks s = [] /\ running s = [] /\ nth_error (all_waiters s) 0 = Some CBlocked.
Proof. exact all_stuck. Qed.
Print Assumptions pool_wait_all_returns_refuted.

(** C54 *)
Theorem pool_run_sync_waits_for_its_task : forall throws deps n clock tr s t s',
  exec throws deps (initial n clock) tr s -> step throws deps s (ESyncReturned t) s' ->
  In (EFinish t) tr /\ exists w, In (EStart w t) tr.
Proof. exact sync_proof. Qed.
Print Assumptions pool_run_sync_waits_for_its_task.
Theorem pool_run_sync_returned_after_its_task : forall throws deps n clock tr s t,
  exec throws deps (initial n clock) tr s -> In (t, true) (syncs s) -> In (EFinish t) tr.
Proof. exact syncs_finished_proof. Qed.
Print Assumptions pool_run_sync_returned_after_its_task.
Theorem pool_run_sync_returns : forall throws deps n clock tr s t b, exec throws deps (initial n clock) tr s ->
  plain throws deps -> quiescent throws deps s -> stopping s = false -> 1 <= target s -> In (t, b) (syncs s) -> b = true.
Proof. exact sync_not_stuck_proof. Qed.
Print Assumptions pool_run_sync_returns.

(** C55 *)
Theorem pool_run_at_is_not_early : forall throws deps n clock tr s t at_ p, exec throws deps (initial n clock) tr s ->
  In (ERunAt t at_ p) tr -> In t (entries tr) -> clock_reached clock tr at_.
Proof. exact not_early_proof. Qed.
Print Assumptions pool_run_at_is_not_early.
(** a scheduler thread that begins to wait does so for the earliest scheduled task *)
Theorem pool_scheduler_waits_for_the_earliest : forall throws deps n clock tr s e s' j x,
  exec throws deps (initial n clock) tr s -> step throws deps s e s' ->
  nth_error (schedulers s') j = Some (SWait x) -> nth_error (schedulers s) j <> Some (SWait x) ->
  In x (scheduled s') /\ forall y, In y (scheduled s') -> (fst x <= fst y)%Z.
Proof. exact earliest_proof. Qed.
Print Assumptions pool_scheduler_waits_for_the_earliest.
Example pool_run_at_is_not_early_ex : exists tr s, exec_calm no_throw no_deps (initial 1 0) tr s /\
  quiescent no_throw no_deps s /\ stopping s = false /\ target s = 1 /\ now s = 7%Z /\ scheduled s = [(20%Z, (0%Z, 1))] /\
  In (ERunAt 0 5 0) tr /\ In (EEnqueue 0) tr /\ In 0 (entries tr) /\ finishes tr = [0; 2].
Proof. exact calm_execution. Qed.
Example pool_scheduler_waits_for_the_earliest_ex : exists tr s s' x, exec no_throw no_deps (initial 1 0) tr s /\
  step no_throw no_deps s ETau s' /\ nth_error (schedulers s') 0 = Some (SWait x) /\
  nth_error (schedulers s) 0 <> Some (SWait x) /\ length (scheduled s') = 2 /\ fst x = 5%Z.
Proof. exact earliest_execution. Qed.

(** C56.  In [exec_calm], while a call of run_at creates the scheduler thread, no other call of run_at happens
    and the last scheduled task is not moved to the queue. *)
Theorem pool_run_at_is_safe_partial : forall throws deps n clock tr s, exec_calm throws deps (initial n clock) tr s ->
  (forall t, throws t = false) -> status s = Alive.
Proof. exact calm_alive_proof. Qed.
Print Assumptions pool_run_at_is_safe_partial.
(** a single call, for a time that has passed *)
Theorem pool_run_at_is_safe_refuted : exists tr s, exec no_throw no_deps (initial 1 0) tr s /\ status s = Terminated /\
  tr = [ERunAt 0 0 0; ETau; ETau; ETau; EEnqueue 0].
Proof. exact run_at_terminates. Qed.
Print Assumptions pool_run_at_is_safe_refuted.
(** two calls at the same time, for times far ahead *)
Theorem pool_two_run_at_are_safe_refuted : exists tr s, exec no_throw no_deps (initial 1 0) tr s /\ status s = Terminated /\
  tr = [ERunAt 0 100 0; ERunAt 1 200 0; ETau; ETau; ETau; ETau].
Proof. exact run_at_twice_terminates. Qed.
Print Assumptions pool_two_run_at_are_safe_refuted.
Theorem pool_two_run_at_are_defined_refuted : exists tr s, exec no_throw no_deps (initial 1 0) tr s /\ status s = Undefined.
Proof. exact run_at_twice_undefined. Qed.
Print Assumptions pool_two_run_at_are_defined_refuted.

(** C57.  For a pool that has at least one worker and no more workers than the target when the destructor is
    called, and whose on_stop stays complete_tasks; this includes tasks submitted by tasks meanwhile. *)
Theorem pool_complete_tasks_partial : forall throws deps n clock tr1 s1 s2 tr2 s t p,
  exec throws deps (initial n clock) tr1 s1 -> step throws deps s1 EStop s2 -> exec throws deps s2 tr2 s ->
  onStop s1 = CompleteTasks -> (forall b, In (EOnStop b) tr2 -> b = CompleteTasks) ->
  workers_size s1 = target s1 -> 1 <= target s1 -> dtor s = DDone ->
  In (ESubmit t p) (tr1 ++ EStop :: tr2) -> In (EFinish t) (tr1 ++ EStop :: tr2).
Proof. exact complete_tasks_proof. Qed.
Print Assumptions pool_complete_tasks_partial.
(** while it is being shrunk *)
Theorem pool_complete_tasks_refuted : exists tr1 s1 s2 tr2 s,
  exec no_throw no_deps (initial 2 0) tr1 s1 /\ step no_throw no_deps s1 EStop s2 /\ exec no_throw no_deps s2 tr2 s /\
  onStop s1 = CompleteTasks /\ target s1 = 1 /\ (forall b, ~ In (EOnStop b) tr2) /\ dtor s = DDone /\
  In (ESubmit 0 0) tr1 /\ waiting_tasks s = [0] /\ ~ In 0 (starts (tr1 ++ EStop :: tr2)).
Proof. exact not_completed_shrinking. Qed.
Print Assumptions pool_complete_tasks_refuted.
(** and when it has no workers *)
Theorem pool_complete_tasks_no_workers_refuted : exists tr1 s1 s2 tr2 s,
  exec no_throw no_deps (initial 0 0) tr1 s1 /\ step no_throw no_deps s1 EStop s2 /\ exec no_throw no_deps s2 tr2 s /\
  onStop s1 = CompleteTasks /\ workers_size s1 = target s1 /\ (forall b, ~ In (EOnStop b) tr2) /\ dtor s = DDone /\
  In (ESubmit 0 0) tr1 /\ waiting_tasks s = [0] /\ ~ In 0 (starts (tr1 ++ EStop :: tr2)).
Proof. exact not_completed_no_workers. Qed.
Print Assumptions pool_complete_tasks_no_workers_refuted.
(** a pool that is being shrunk starts no task at all once the destructor is called *)
Theorem pool_shrinking_starts_nothing : forall throws deps s1 s2 tr s,
  step throws deps s1 EStop s2 -> exec throws deps s2 tr s -> target s1 < workers_size s1 -> starts tr = [].
Proof. exact shrinking_proof. Qed.
Print Assumptions pool_shrinking_starts_nothing.
Example pool_complete_tasks_ex : exists tr1 s1 s2 tr2 s,
  exec no_throw no_deps (initial 1 0) tr1 s1 /\ step no_throw no_deps s1 EStop s2 /\ exec no_throw no_deps s2 tr2 s /\
  onStop s1 = CompleteTasks /\ workers_size s1 = target s1 /\ target s1 = 1 /\ (forall b, ~ In (EOnStop b) tr2) /\
  dtor s = DDone /\ waiting_tasks s1 = [1] /\ running s1 = [0] /\ In (ESubmit 1 0) tr1 /\
  finishes (tr1 ++ EStop :: tr2) = [0; 1].
Proof. exact (destroyed_execution CompleteTasks). Qed.

(** C58 *)
Theorem pool_join_all_starts_nothing : forall throws deps s1 s2 tr s,
  step throws deps s1 EStop s2 -> exec throws deps s2 tr s -> onStop s1 = JoinAll ->
  (forall b, In (EOnStop b) tr -> b = JoinAll) -> starts tr = [].
Proof. exact join_all_proof. Qed.
Print Assumptions pool_join_all_starts_nothing.
(** with either action; by [pool_becomes_quiescent] there is always a quiescent state ahead *)
Theorem pool_destructor_returns : forall throws deps n clock tr s, exec throws deps (initial n clock) tr s ->
  plain throws deps -> quiescent throws deps s -> dtor s <> DNone -> dtor s = DDone.
Proof. exact destroyed_proof. Qed.
Print Assumptions pool_destructor_returns.
Example pool_join_all_ex : exists tr1 s1 s2 tr2 s,
  exec no_throw no_deps (initial 1 0) tr1 s1 /\ step no_throw no_deps s1 EStop s2 /\ exec no_throw no_deps s2 tr2 s /\
  onStop s1 = JoinAll /\ workers_size s1 = target s1 /\ target s1 = 1 /\ (forall b, ~ In (EOnStop b) tr2) /\
  dtor s = DDone /\ waiting_tasks s1 = [1] /\ running s1 = [0] /\ In (ESubmit 1 0) tr1 /\
  finishes (tr1 ++ EStop :: tr2) = [0].
Proof. exact (destroyed_execution JoinAll). Qed.

(** C74 *)
Theorem pool_wait_none_returns_only_when_queue_empty : forall throws deps n clock tr s k s',
  exec throws deps (initial n clock) tr s -> step throws deps s (ENoneReturned k) s' -> waiting_tasks s = [].
Proof. exact none_returns_proof. Qed.
Print Assumptions pool_wait_none_returns_only_when_queue_empty.
Theorem pool_wait_none_returned_when_queue_empty : forall throws deps n clock tr s e s' k,
  exec throws deps (initial n clock) tr s -> step throws deps s e s' ->
  returned_at k (none_waiters s') -> ~ returned_at k (none_waiters s) -> waiting_tasks s = [].
Proof. exact none_returns_state_proof. Qed.
Print Assumptions pool_wait_none_returned_when_queue_empty.
(** and the call blocks only as long as tasks are waiting, whatever the target *)
Theorem pool_wait_none_blocks_only_while_waiting : forall throws deps n clock tr s k,
  exec throws deps (initial n clock) tr s -> nth_error (none_waiters s) k = Some CBlocked -> waiting_tasks s <> [].
Proof. exact none_blocked_proof. Qed.
Print Assumptions pool_wait_none_blocks_only_while_waiting.
Theorem pool_wait_none_returns : forall throws deps n clock tr s k c,
  exec throws deps (initial n clock) tr s -> plain throws deps -> quiescent throws deps s -> stopping s = false ->
  1 <= target s -> nth_error (none_waiters s) k = Some c -> c = CReturned.
Proof. exact none_not_stuck_proof. Qed.
Print Assumptions pool_wait_none_returns.

(** C75.  In all executions that have not ended the process. *)
Theorem pool_due_tasks_are_queued : forall throws deps n clock tr s,
  exec throws deps (initial n clock) tr s -> status s = Alive -> quiescent throws deps s -> stopping s = false ->
  forall e, In e (scheduled s) -> (now s < fst e)%Z.
Proof. exact due_proof. Qed.
Print Assumptions pool_due_tasks_are_queued.
Example pool_due_tasks_are_queued_ex : exists tr s, exec no_throw no_deps (initial 1 0) tr s /\
  quiescent no_throw no_deps s /\ status s = Alive /\ stopping s = false /\ scheduled s = [(9%Z, (0%Z, 2))] /\
  In (EEnqueue 0) tr /\ In (EEnqueue 1) tr /\ schedulers s = [SWait (9%Z, (0%Z, 2)); SDone] /\ sched_obj s = Some 1.
Proof. exact two_schedulers_execution. Qed.

(** C76 *)
Theorem pool_survives_throwing_tasks_refuted : exists tr s, exec (fun _ => true) no_deps (initial 1 0) tr s /\
  status s = Terminated /\ tr = [ESubmit 0 0; EStart 0 0; ETau].
Proof. exact throwing_terminates. Qed.
Print Assumptions pool_survives_throwing_tasks_refuted.
(** whenever a task that throws has started, the process is about to end or has ended *)
Theorem pool_throwing_task_ends_the_process : forall throws deps n clock tr s t,
  exec throws deps (initial n clock) tr s -> In t (starts tr) -> throws t = true ->
  ~ In (EFinish t) tr /\ ~ quiescent throws deps s /\
  (status s = Alive -> exists s', step throws deps s ETau s' /\ status s' = Terminated).
Proof. exact throwing_proof. Qed.
Print Assumptions pool_throwing_task_ends_the_process.
(** without such tasks, and without run_at (see C56), nothing ends the process *)
Theorem pool_survives_partial : forall throws deps n clock tr s, exec throws deps (initial n clock) tr s ->
  (forall t a p, ~ In (ERunAt t a p) tr) -> (forall t, In t (starts tr) -> throws t = false) -> status s = Alive.
Proof. exact survives_proof. Qed.
Print Assumptions pool_survives_partial.

(** C77.  Task 0 gives task 1 to run_sync and waits for it; the only worker runs task 0. *)
Theorem pool_run_sync_in_a_task_returns_refuted : exists tr s, exec no_throw calls_sync (initial 1 0) tr s /\
  quiescent no_throw calls_sync s /\ stopping s = false /\ target s = 1 /\ running s = [0] /\ waiting_tasks s = [1] /\
  syncs s = [(1, false)].
Proof. exact sync_deadlock. Qed.
Print Assumptions pool_run_sync_in_a_task_returns_refuted.
(** tasks stay in the queue for ever only if every worker runs a task that waits for another task *)
Theorem pool_is_stuck_only_by_its_tasks : forall throws deps n clock tr s,
  exec throws deps (initial n clock) tr s -> quiescent throws deps s -> stopping s = false -> waiting_tasks s <> [] ->
  Forall (fun w => w = WGone \/ exists t, w = WRun t /\ throws t = false /\ ~ incl (deps t) (completed s)) (workers s) /\
  target s <= length (running s).
Proof. exact stuck_proof. Qed.
Print Assumptions pool_is_stuck_only_by_its_tasks.
(** if fewer tasks than workers wait for others, tasks do not wait for each other in a circle, and none is
    scheduled for later, all tasks finish and all calls of run_sync return *)
Theorem pool_run_sync_in_a_task_returns_partial : forall throws deps n clock tr s (rank : nat -> nat),
  exec throws deps (initial n clock) tr s -> quiescent throws deps s -> stopping s = false ->
  length (filter (fun t => negb (is_empty (deps t))) (givens tr)) < target s ->
  (forall t d, In t (givens tr) -> In d (deps t) -> In d (givens tr) /\ rank d < rank t) ->
  scheduled_tasks s = [] ->
  waiting_tasks s = [] /\ running s = [] /\ (forall t, In t (givens tr) -> In (EFinish t) tr) /\
  (forall t b, In (t, b) (syncs s) -> b = true).
Proof. exact finished_proof. Qed.
Print Assumptions pool_run_sync_in_a_task_returns_partial.
Example pool_run_sync_in_a_task_returns_ex : exists tr s, exec no_throw calls_sync (initial 2 0) tr s /\
  quiescent no_throw calls_sync s /\ stopping s = false /\
  length (filter (fun t => negb (is_empty (calls_sync t))) (givens tr)) < target s /\
  (forall t d, In t (givens tr) -> In d (calls_sync t) -> In d (givens tr) /\ 2 - d < 2 - t) /\
  scheduled_tasks s = [] /\ finishes tr = [1; 0] /\ syncs s = [(1, true)].
Proof. exact sync_in_task_execution. Qed.

(** C78 *)
Theorem pool_nothing_runs_after_the_destructor : forall throws deps n clock tr s tr' s',
  exec throws deps (initial n clock) tr s -> dtor s = DDone -> exec throws deps s tr' s' ->
  running s = [] /\ running s' = [] /\ starts tr' = [] /\ finishes tr' = [] /\ givens tr' = [].
Proof. exact after_destroyed_proof. Qed.
Print Assumptions pool_nothing_runs_after_the_destructor.
(** when the destructor returns, all threads of the pool have ended *)
Theorem pool_leaves_no_thread_partial : forall throws deps n clock tr s s',
  exec_calm throws deps (initial n clock) tr s -> step throws deps s EDestroyed s' -> handoff s = 0 ->
  dtor s' = DDone /\ Forall ended (workers s') /\ Forall (eq SDone) (schedulers s').
Proof. exact calm_destroyed_proof. Qed.
Print Assumptions pool_leaves_no_thread_partial.
Theorem pool_leaves_no_thread_refuted : exists tr s s', exec no_throw no_deps (initial 1 0) tr s /\
  step no_throw no_deps s EDestroyed s' /\ handoff s = 0 /\ status s' = Alive /\ dtor s' = DDone /\
  schedulers s' = [SReady; SDone].
Proof. exact scheduler_outlives. Qed.
Print Assumptions pool_leaves_no_thread_refuted.
Example pool_leaves_no_thread_ex : exists tr s s', exec_calm no_throw no_deps (initial 1 0) tr s /\
  step no_throw no_deps s EDestroyed s' /\ handoff s = 0 /\ schedulers s = [SDone] /\ scheduled_tasks s = [0].
Proof. exact calm_destroyed_execution. Qed.

(** C79 *)
Theorem pool_complete_tasks_completes_scheduled_refuted : exists tr1 s1 s2 tr2 s,
  exec no_throw no_deps (initial 1 0) tr1 s1 /\ step no_throw no_deps s1 EStop s2 /\ exec no_throw no_deps s2 tr2 s /\
  onStop s1 = CompleteTasks /\ workers_size s1 = target s1 /\ target s1 = 1 /\ (forall b, ~ In (EOnStop b) tr2) /\
  dtor s = DDone /\ In (ERunAt 0 5 0) tr1 /\ scheduled_tasks s = [0] /\ ~ In 0 (starts (tr1 ++ EStop :: tr2)).
Proof. exact scheduled_dropped. Qed.
Print Assumptions pool_complete_tasks_completes_scheduled_refuted.
(** those that were moved to the queue before the destructor was called are completed, under the conditions of C57 *)
Theorem pool_complete_tasks_completes_due_partial : forall throws deps n clock tr1 s1 s2 tr2 s t,
  exec throws deps (initial n clock) tr1 s1 -> step throws deps s1 EStop s2 -> exec throws deps s2 tr2 s ->
  onStop s1 = CompleteTasks -> (forall b, In (EOnStop b) tr2 -> b = CompleteTasks) ->
  workers_size s1 = target s1 -> 1 <= target s1 -> dtor s = DDone ->
  In t (entries tr1) -> In (EFinish t) (tr1 ++ EStop :: tr2).
Proof. exact entered_complete_proof. Qed.
Print Assumptions pool_complete_tasks_completes_due_partial.
(** and those still scheduled when it has returned never run *)
Theorem pool_scheduled_tasks_are_dropped : forall throws deps n clock tr s tr' s' t,
  exec throws deps (initial n clock) tr s -> dtor s = DDone -> exec throws deps s tr' s' ->
  In t (scheduled_tasks s) -> ~ In t (starts (tr ++ tr')).
Proof. exact scheduled_lost_proof. Qed.
Print Assumptions pool_scheduled_tasks_are_dropped.
Example pool_complete_tasks_completes_due_ex : exists tr1 s1 s2 tr2 s,
  exec no_throw no_deps (initial 1 0) tr1 s1 /\ step no_throw no_deps s1 EStop s2 /\ exec no_throw no_deps s2 tr2 s /\
  onStop s1 = CompleteTasks /\ workers_size s1 = target s1 /\ target s1 = 1 /\ (forall b, ~ In (EOnStop b) tr2) /\ dtor s = DDone /\
  In (ERunAt 0 5 0) tr1 /\ entries tr1 = [0] /\ starts tr1 = [] /\ finishes tr2 = [0].
Proof. exact due_completed_execution. Qed.

(** C99 *)
Theorem pool_settings_are_the_last_set : forall throws deps n clock tr s, exec throws deps (initial n clock) tr s ->
  on_stop s = last_on_stop tr /\ target_workers_size s = last_target n tr.
Proof. exact settings_proof. Qed.
Print Assumptions pool_settings_are_the_last_set.
Example pool_settings_are_the_last_set_ex : exists tr s, exec no_throw no_deps (initial 1 0) tr s /\
  tr = [ETarget 3; EOnStop CompleteTasks; ETarget 2] /\ on_stop s = CompleteTasks /\ target_workers_size s = 2.
Proof. exact settings_execution. Qed.
