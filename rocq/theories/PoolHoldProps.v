(** C164.  [owned s]: the tasks whose std::function, with the values it captures, the pool owns. *)
From Coq Require Import List Bool Arith ZArith.
From Verif Require Import PoolModel PoolHoldModel PoolSpec PoolExamples PoolHoldProofs PoolHoldExamples.
Import ListNotations.

(** one for each task at most, from the call until the task has finished, afterwards only in the worker that ran it *)
Theorem pool_owns_each_callable_once : forall throws deps n clock tr s, exec throws deps (initial n clock) tr s ->
  NoDup (owned s) /\ incl (owned s) (givens tr) /\ (forall t, In t (givens tr) -> ~ In t (finishes tr) -> In t (owned s)) /\
  (forall t, In t (owned s) -> In t (finishes tr) -> exists i, nth_error (workers s) i = Some (WAfter t)).
Proof. exact owned_proof. Qed.
Print Assumptions pool_owns_each_callable_once.
Example pool_owns_each_callable_once_ex : exists tr s, exec no_throw no_deps (initial 1 0) tr s /\ givens tr = [0; 1; 2] /\ starts tr = [0] /\ owned s = [2; 1; 0].
Proof. exact three_owned. Qed.
(** when wait_until_all_tasks_complete returns, the values captured by all tasks that have run are destroyed *)
Theorem pool_wait_all_returns_after_release : forall throws deps n clock tr s k s',
  exec throws deps (initial n clock) tr s -> step throws deps s (EAllReturned k) s' -> owned s' = scheduled_tasks s'.
Proof. exact wait_all_owned. Qed.
Print Assumptions pool_wait_all_returns_after_release.
Example pool_wait_all_returns_after_release_ex : exists tr s s', exec no_throw no_deps (initial 1 0) tr s /\ step no_throw no_deps s (EAllReturned 0) s' /\
  finishes tr = [0] /\ owned s' = [1].
Proof. exact wait_all_case. Qed.
(** run_sync can return before that, and while its task is still counted as active *)
Theorem pool_run_sync_returns_after_release_refuted : exists tr s, exec no_throw no_deps (initial 1 0) tr s /\ In (ESyncReturned 0) tr /\ finishes tr = [0] /\
  In 0 (owned s) /\ active_tasks_size s = 1 /\ tasks_size s = 1 /\ nth_error (workers s) 0 = Some (WAfter 0) /\ status s = Alive.
Proof. exact sync_still_owned. Qed.
Print Assumptions pool_run_sync_returns_after_release_refuted.
(** then the next step of the worker releases them *)
Theorem pool_worker_releases_its_task : forall throws deps n clock tr s i t s', exec throws deps (initial n clock) tr s ->
  nth_error (workers s) i = Some (WAfter t) -> s' = snd (work_from i (WAfter t) s) -> status s = Alive -> In t (owned s) /\ ~ In t (owned s').
Proof. exact released_proof. Qed.
Print Assumptions pool_worker_releases_its_task.
Example pool_worker_releases_its_task_ex : exists tr s, exec no_throw no_deps (initial 1 0) tr s /\ In (ESyncReturned 0) tr /\ finishes tr = [0] /\
  In 0 (owned s) /\ active_tasks_size s = 1 /\ tasks_size s = 1 /\ nth_error (workers s) 0 = Some (WAfter 0) /\ status s = Alive.
Proof. exact sync_still_owned. Qed.
Theorem pool_at_rest_owns_no_finished_task : forall throws deps n clock tr s, exec throws deps (initial n clock) tr s -> quiescent throws deps s ->
  forall t, In t (finishes tr) -> ~ In t (owned s).
Proof. exact quiescent_owned. Qed.
Print Assumptions pool_at_rest_owns_no_finished_task.
Example pool_at_rest_owns_no_finished_task_ex : exists tr s, exec no_throw no_deps (initial 1 0) tr s /\
  quiescent no_throw no_deps s /\ stopping s = false /\ target s = 1 /\ starts tr = [1; 0] /\ finishes tr = [1; 0] /\
  completed s = [0; 1] /\ all_waiters s = [CReturned] /\ none_waiters s = [CReturned] /\ syncs s = [(1, true)] /\
  In (EAllReturned 0) tr /\ In (ENoneReturned 0) tr /\ In (ESyncReturned 1) tr.
Proof. exact busy_execution. Qed.
(** after the body of the destructor only tasks that never ran are left, which the destruction of the members destroys *)
Theorem pool_destructor_leaves_tasks_not_started : forall throws deps n clock tr s, exec throws deps (initial n clock) tr s -> dtor s = DDone ->
  owned s = scheduled_tasks s ++ waiting_tasks s /\ forall t, In t (starts tr) -> ~ In t (owned s).
Proof. exact destroyed_owned. Qed.
Print Assumptions pool_destructor_leaves_tasks_not_started.
Example pool_destructor_leaves_tasks_not_started_ex : exists tr s, exec no_throw no_deps (initial 1 0) tr s /\ dtor s = DDone /\ starts tr = [0] /\ owned s = [1].
Proof. exact destroyed_case. Qed.
