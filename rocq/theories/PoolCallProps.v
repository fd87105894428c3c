(** Property theorems C172 and C173: a pool with the default number of workers, and the promise of run_sync. *)
From Coq Require Import List Bool Arith ZArith.
From Verif Require Import Base PoolModel PoolSpec PoolExamples PoolCallModel PoolCallSpec PoolCallProofs PoolCallExamples.
Import ListNotations.

(** C172.  For a machine on which hardware_concurrency() is known, and until target_workers_size is called. *)
Theorem pool_default_workers_partial : forall throws deps hw clock tr s, exec throws deps (default_pool hw clock) tr s ->
  plain throws deps -> 1 <= hw -> (forall m, ~ In (ETarget m) tr) -> quiescent throws deps s -> stopping s = false ->
  (forall t, In t (entries tr) -> In t (finishes tr)) /\ forall t b, In (t, b) (syncs s) -> b = true.
Proof. exact default_proof. Qed.
Print Assumptions pool_default_workers_partial.
Example pool_default_workers_ex : plain no_throw no_deps /\ exists tr s, exec no_throw no_deps (default_pool 1 0) tr s /\
  quiescent no_throw no_deps s /\ stopping s = false /\ (forall m, ~ In (ETarget m) tr) /\ entries tr = [0; 1] /\
  finishes tr = [0; 1] /\ syncs s = [(1, true)].
Proof. exact (conj plain_tasks default_execution). Qed.
(** On a machine on which it is not, no task ever runs before the number of workers is set, no call of run_sync returns,
    and the wait functions return only if called before the first task. *)
Theorem pool_without_workers_runs_nothing : forall throws deps clock tr s, exec throws deps (default_pool 0 clock) tr s ->
  (forall m, In (ETarget m) tr -> m = 0) ->
  starts tr = [] /\ (forall t, In t (entries tr) -> In t (waiting_tasks s)) /\ (forall t, ~ In (ESyncReturned t) tr) /\
  (forall l k l', tr = l ++ EAllReturned k :: l' -> entries l = []) /\ (forall l k l', tr = l ++ ENoneReturned k :: l' -> entries l = []).
Proof. exact empty_proof. Qed.
Print Assumptions pool_without_workers_runs_nothing.
Theorem pool_default_workers_refuted : exists tr s, exec no_throw no_deps (default_pool 0 0) tr s /\ quiescent no_throw no_deps s /\
  stopping s = false /\ (forall m, ~ In (ETarget m) tr) /\ entries tr = [0; 1] /\ starts tr = [] /\ syncs s = [(1, false)] /\
  all_waiters s = [CBlocked] /\ none_waiters s = [CBlocked].
Proof. exact empty_execution. Qed.
Print Assumptions pool_default_workers_refuted.

(** C173.  Every call of a member function of the promise begins while it exists; its destructor runs only after the task has
    returned and the future is ready, and nothing but the return of set_value can happen after it. *)
Theorem run_sync_promise_partial : forall throws tr s, crun throws tr s -> begun_while_it_exists tr.
Proof. exact promise_begun. Qed.
Print Assumptions run_sync_promise_partial.
Theorem run_sync_promise_destroyed_when_ready : forall throws tr s l l', crun throws tr s -> tr = l ++ PDestroy :: l' ->
  In PTaskDone l /\ In PReady l /\ (l' = [] \/ l' = [PSetEnd]).
Proof. exact promise_ready. Qed.
Print Assumptions run_sync_promise_destroyed_when_ready.
Example run_sync_promise_ex : crun false [PMake; PGive; PStart; PTaskDone; PSetBegin; PReady; PSetEnd; PFuture; PWaited; PDestroy] (KGone, JDone) /\
  ended_before_destroyed [PMake; PGive; PStart; PTaskDone; PSetBegin; PReady; PSetEnd; PFuture; PWaited; PDestroy].
Proof. exact promise_in_order. Qed.
(** but the call of set_value need not have returned when the promise is destroyed *)
Theorem run_sync_promise_refuted : exists tr s, crun false tr s /\
  tr = [PMake; PGive; PFuture; PStart; PTaskDone; PSetBegin; PReady; PWaited; PDestroy; PSetEnd] /\ ~ ended_before_destroyed tr.
Proof. exact promise_overlap. Qed.
Print Assumptions run_sync_promise_refuted.
(** a task that throws ends the process before the promise is used or destroyed *)
Theorem run_sync_promise_of_a_task_that_throws : forall tr s, crun true tr s ->
  ~ In PTaskDone tr /\ ~ In PReady tr /\ ~ In PDestroy tr /\ (snd s = JThrew -> forall l s', ~ cstep true s l s').
Proof. exact promise_thrown. Qed.
Print Assumptions run_sync_promise_of_a_task_that_throws.
Theorem run_sync_promise_of_a_task_that_returns : forall tr s, crun false tr s -> snd s <> JThrew.
Proof. exact promise_not_thrown. Qed.
Print Assumptions run_sync_promise_of_a_task_that_returns.
Example run_sync_promise_throws_ex : crun true [PMake; PGive; PFuture; PStart] (KFuture, JThrew).
Proof. exact promise_throws. Qed.
