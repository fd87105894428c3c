(** Property theorems C131-C134: priorities and completion, tasks that wait for the pool, run_sync and the destructor, run_after. *)
From Coq Require Import List Bool Arith ZArith.
From Verif Require Import Base ListUpdate PoolModel PoolSpec PoolProofs PoolLive PoolStop PoolExamples PoolUseModel PoolUseProofs PoolUseExamples.
Import ListNotations.

(** C131.  In a pool that has at most one worker at any time, a task that entered the queue before another task of lower
    priority started has finished by then. *)
Theorem pool_completes_higher_priorities_first_partial : forall throws deps n clock tr s w t s' p t' p',
  exec throws deps (initial n clock) tr s -> n <= 1 -> (forall m, In (ETarget m) tr -> m <= 1) ->
  step throws deps s (EStart w t) s' -> given_priority tr t p -> In t' (entries tr) -> given_priority tr t' p' -> (p < p')%Z ->
  In (EFinish t') tr.
Proof. exact completed_first_proof. Qed.
Print Assumptions pool_completes_higher_priorities_first_partial.
Example pool_completes_higher_priorities_first_ex : exists s s',
  exec no_throw no_deps (initial 1 0) [ESubmit 0 0; ESubmit 1 5; EStart 0 1; EFinish 1] s /\ step no_throw no_deps s (EStart 0 0) s'.
Proof. exact completed_in_order. Qed.
(** with two workers it need not *)
Theorem pool_completes_higher_priorities_first_refuted : exists tr s, exec no_throw no_deps (initial 2 0) tr s /\
  tr = [ESubmit 0 0; ESubmit 1 5; EStart 0 1; EStart 1 0; EFinish 0; EFinish 1].
Proof. exact completed_out_of_order. Qed.
Print Assumptions pool_completes_higher_priorities_first_refuted.
(** the pool never has more workers, and never runs more tasks at a time, than the largest size it was given *)
Theorem pool_is_no_larger_than_asked : forall throws deps b n clock tr s, exec throws deps (initial n clock) tr s ->
  n <= b -> (forall m, In (ETarget m) tr -> m <= b) -> workers_size s <= b /\ length (running s) <= b.
Proof. exact bounded_proof. Qed.
Print Assumptions pool_is_no_larger_than_asked.
Example pool_is_no_larger_than_asked_ex : exists tr s, exec no_throw no_deps (initial 1 0) tr s /\ tr = [ETarget 3; ETarget 2] /\
  workers_size s = 3 /\ forall m, In (ETarget m) tr -> m <= 3.
Proof. exact bounded_execution. Qed.

(** C132.  Task [t] runs and does not finish before call [k] of wait_until_all_tasks_complete has returned: then that call
    never returns and the task never finishes. *)
Theorem pool_wait_all_in_a_task_never_returns : forall throws deps n clock tr1 s1 t k tr2 s2,
  exec throws deps (initial n clock) tr1 s1 -> In t (running s1) -> exec throws deps s1 tr2 s2 ->
  (forall l l', tr2 = l ++ EFinish t :: l' -> In (EAllReturned k) l) ->
  ~ In (EAllReturned k) tr2 /\ In t (running s2).
Proof. exact wait_all_in_task_proof. Qed.
Print Assumptions pool_wait_all_in_a_task_never_returns.
Theorem pool_wait_all_in_a_task_returns_refuted : exists tr s, exec no_throw waits_all (initial 2 0) tr s /\
  quiescent no_throw waits_all s /\ stopping s = false /\ running s = [0] /\ nth_error (all_waiters s) 0 = Some CBlocked.
Proof. exact wait_all_in_task. Qed.
Print Assumptions pool_wait_all_in_a_task_returns_refuted.
(** the same for wait_until_no_tasks_waiting, if a task waits and the pool has no second worker *)
Theorem pool_wait_none_in_a_task_never_returns : forall throws deps n clock tr1 s1 t k tr2 s2,
  exec throws deps (initial n clock) tr1 s1 -> In t (running s1) -> waiting_tasks s1 <> [] ->
  workers_size s1 <= 1 -> exec throws deps s1 tr2 s2 -> (forall m, In (ETarget m) tr2 -> m <= 1) ->
  (forall l l', tr2 = l ++ EFinish t :: l' -> In (ENoneReturned k) l) ->
  ~ In (ENoneReturned k) tr2 /\ In t (running s2) /\ waiting_tasks s2 <> [] /\ starts tr2 = [].
Proof. exact wait_none_in_task_proof. Qed.
Print Assumptions pool_wait_none_in_a_task_never_returns.
Theorem pool_wait_none_in_a_task_returns_refuted : exists tr s, exec no_throw waits_all (initial 1 0) tr s /\
  quiescent no_throw waits_all s /\ stopping s = false /\ running s = [0] /\ waiting_tasks s = [1] /\ workers_size s = 1 /\
  nth_error (none_waiters s) 0 = Some CBlocked.
Proof. exact wait_none_in_task. Qed.
Print Assumptions pool_wait_none_in_a_task_returns_refuted.

(** C133.  Task 0 calls run_sync while the pool is being destroyed, with either action and a second worker: the destructor
    and the task wait for ever. *)
Theorem pool_destructor_returns_with_run_sync_refuted : forall a, exists tr s, exec no_throw calls_sync (initial 2 0) tr s /\
  quiescent no_throw calls_sync s /\ onStop s = a /\ dtor s = DJoining /\ running s = [0] /\ waiting_tasks s = [1] /\
  syncs s = [(1, false)] /\ workers s = [WRun 0; WExited].
Proof. exact destructor_blocked. Qed.
Print Assumptions pool_destructor_returns_with_run_sync_refuted.
(** a call of run_sync from another thread whose task had not finished when the pool was destroyed never returns *)
Theorem pool_run_sync_is_lost_by_the_destructor : forall throws deps n clock tr s t tr' s',
  exec throws deps (initial n clock) tr s -> dtor s = DDone -> ~ In t (completed s) -> exec throws deps s tr' s' ->
  ~ In (ESyncReturned t) tr'.
Proof. exact sync_lost_proof. Qed.
Print Assumptions pool_run_sync_is_lost_by_the_destructor.
Theorem pool_run_sync_returns_when_destroyed_refuted : exists tr s, exec no_throw no_deps (initial 1 0) tr s /\
  quiescent no_throw no_deps s /\ dtor s = DDone /\ givens tr = [0] /\ starts tr = [] /\ syncs s = [(0, false)].
Proof. exact sync_lost. Qed.
Print Assumptions pool_run_sync_returns_when_destroyed_refuted.

(** C134.  The time of run_after is that of the call plus the duration, unless that overflows. *)
Theorem pool_run_after_time : forall now d,
  (forall at_, after_time now d = Ret at_ <-> at_ = (now + d)%Z /\ (- 2 ^ 63 <= now + d < 2 ^ 63)%Z) /\
  (after_time now d = Ub <-> (now + d < - 2 ^ 63 \/ 2 ^ 63 <= now + d)%Z).
Proof. exact after_time_proof. Qed.
Print Assumptions pool_run_after_time.
(** run_after(duration::max()) *)
Theorem pool_run_after_is_defined_refuted : forall now, (0 < now < 2 ^ 63)%Z -> after_time now (2 ^ 63 - 1) = Ub.
Proof. exact after_overflow. Qed.
Print Assumptions pool_run_after_is_defined_refuted.
(** if the clock has shown nothing later than the time of the call, the task enters the queue only after the duration *)
Theorem pool_run_after_waits : forall throws deps n clock tr s d at_ t p s' tr' s'',
  exec throws deps (initial n clock) tr s -> after_time (now s) d = Ret at_ ->
  step throws deps s (ERunAt t at_ p) s' -> exec throws deps s' tr' s'' -> In t (entries tr') ->
  (clock <= now s)%Z -> (forall z, In (ETick z) tr -> (z <= now s)%Z) ->
  (d <= 0)%Z \/ exists z, In (ETick z) tr' /\ (now s + d <= z)%Z.
Proof. exact run_after_proof. Qed.
Print Assumptions pool_run_after_waits.
Example pool_run_after_waits_ex : exists tr s s' tr' s'', exec no_throw no_deps (initial 1 0) tr s /\ after_time (now s) 5 = Ret 8%Z /\
  step no_throw no_deps s (ERunAt 0 8 0) s' /\ exec no_throw no_deps s' tr' s'' /\ In 0 (entries tr') /\ (0 <= now s)%Z /\
  forall z, In (ETick z) tr -> (z <= now s)%Z.
Proof. exact run_after_execution. Qed.
