(** Property theorems C129 and C130: thread_pool when threads cannot be created or memory cannot be allocated.

    [exec_f throws deps (initial n clock) tr s]: an execution in which calls may fail; [tr] lists its events ([happened tr])
    and its failures ([failures tr]), and [s] is its last state. *)
From Coq Require Import List Bool Arith ZArith Permutation.
From Verif Require Import ListUpdate PoolModel PoolSpec PoolProofs PoolExamples PoolFaultModel PoolFaultSpec PoolFaultProofs PoolFaultExamples.
Import ListNotations.

(** C129.  The constructor succeeds if every operation does, throws if the first thread cannot be created, and ends the
    process if a later operation fails. *)
Theorem pool_constructor_failures : forall ok n clock,
  (construct ok n clock = (Normal, Some (initial n clock)) <-> forall i, i < 2 * n -> ok i = true) /\
  (fst (construct ok n clock) = Exception <-> 0 < n /\ ok 0 = false) /\
  (fst (construct ok n clock) = Terminate <-> exists i, 0 < i < 2 * n /\ ok i = false /\ forall j, j < i -> ok j = true).
Proof. exact construct_proof. Qed.
Print Assumptions pool_constructor_failures.
Theorem pool_constructor_throws_refuted : construct (all_but 2) 4 0 = (Terminate, None) /\ construct (all_but 1) 4 0 = (Terminate, None) /\
  construct (all_but 0) 4 0 = (Exception, None) /\ construct (all_but 8) 4 0 = (Normal, Some (initial 4 0)).
Proof. exact construct_terminates. Qed.
Print Assumptions pool_constructor_throws_refuted.
(** a call that fails moves no task and changes neither on_stop nor whether the pool is stopping *)
Theorem pool_failed_calls_move_no_task : forall s f s', fails s f s' -> same_tasks s s' /\ same_settings s s'.
Proof. exact fails_frame. Qed.
Print Assumptions pool_failed_calls_move_no_task.
(** if it does not end the process, run_async, run_sync and a run_at that cannot store its task leave the pool as it was;
    target_workers_size sets the target and keeps the workers created so far, fewer than it was asked for *)
Theorem pool_failed_calls_have_no_effect_partial : forall s f s', fails s f s' -> status s' = Alive ->
  match f with
  | FMove => False
  | FTarget n => target s' = n /\ exists k, workers s' = workers s ++ repeat WReady k /\ workers_size s' = workers_size s + k /\ workers_size s' < n
  | FSpawn => target s' = target s /\ workers s' = workers s
  | _ => s' = s
  end.
Proof. exact fails_alive. Qed.
Print Assumptions pool_failed_calls_have_no_effect_partial.
(** the task of a call of run_at that threw runs later, because of another call of run_at *)
Theorem pool_failed_run_at_has_no_effect_refuted : exists tr s, exec_f no_throw no_deps (initial 1 0) tr s /\ status s = Alive /\
  hd_error tr = Some (inl (ERunAt 0 5 0)) /\ nth_error tr 1 = Some (inr FSpawn) /\ finishes (happened tr) = [0].
Proof. exact thrown_task_runs. Qed.
Print Assumptions pool_failed_run_at_has_no_effect_refuted.
(** a target that cannot be reached is kept; with no worker, tasks never run though the target is 2 *)
Theorem pool_failed_target_has_no_effect_refuted : exists tr s, exec_f no_throw no_deps (initial 0 0) tr s /\ status s = Alive /\
  quiescent no_throw no_deps s /\ stopping s = false /\ hd_error tr = Some (inr (FTarget 2)) /\ target_workers_size s = 2 /\
  workers_size s = 0 /\ waiting_tasks s = [0].
Proof. exact target_without_workers. Qed.
Print Assumptions pool_failed_target_has_no_effect_refuted.
(** out of memory while a worker or a due task is stored, the process ends *)
Theorem pool_failed_target_throws_refuted : exists tr s, exec_f no_throw no_deps (initial 1 0) tr s /\ tr = [inr (FTarget 2)] /\ status s = Terminated.
Proof. exact target_terminates. Qed.
Print Assumptions pool_failed_target_throws_refuted.
Theorem pool_survives_failures_refuted : exists tr s, exec_f no_throw no_deps (initial 1 0) tr s /\ last tr (inl ETau) = inr FMove /\
  failures tr = [FMove] /\ givens (happened tr) = [0] /\ status s = Terminated.
Proof. exact move_terminates. Qed.
Print Assumptions pool_survives_failures_refuted.
(** how target_workers_size ends.  Operation 2k creates thread number k, operation 2k+1 stores it. *)
Theorem pool_target_failures : forall ok n s, stopping s = false ->
  (fst (set_target_size ok n s) = Normal <-> forall i, i < 2 * (n - workers_size s) -> ok i = true) /\
  (forall s', set_target_size ok n s = (Exception, s') <-> exists k, k < n - workers_size s /\ (forall i, i < 2 * k -> ok i = true) /\ ok (2 * k) = false /\
     s' = set_workers (workers s ++ repeat WReady k) (set_target n s)) /\
  (forall s', set_target_size ok n s = (Terminate, s') <-> exists k, k < n - workers_size s /\ (forall i, i <= 2 * k -> ok i = true) /\ ok (2 * k + 1) = false /\
     s' = set_status Terminated (set_workers (workers s ++ repeat WReady k) (set_target n s))).
Proof. exact set_target_endings. Qed.
Print Assumptions pool_target_failures.
Example pool_target_failures_ex : fst (set_target_size (all_but 3) 4 (initial 1 0)) = Terminate /\ fst (set_target_size (all_but 4) 4 (initial 1 0)) = Exception /\
  fst (set_target_size (all_but 6) 4 (initial 1 0)) = Normal /\ workers_size (snd (set_target_size (all_but 4) 4 (initial 1 0))) = 3.
Proof. exact target_endings. Qed.
(** when nothing fails, target_workers_size does what C52 is about *)
Theorem pool_target_without_failures : forall throws deps ok n s, (forall i, ok i = true) -> may_call s -> status s = Alive ->
  fst (set_target_size ok n s) = Normal /\ step throws deps s (ETarget n) (snd (set_target_size ok n s)).
Proof. exact target_normal_step. Qed.
Print Assumptions pool_target_without_failures.

(** C130.  The executions of C48-C58, C74 and C75, with failures. *)
Theorem pool_with_failures_tasks_are_in_one_place : forall throws deps n clock tr s, exec_f throws deps (initial n clock) tr s ->
  Permutation (scheduled_tasks s ++ waiting_tasks s ++ running s ++ completed s) (givens (happened tr)) /\ NoDup (givens (happened tr)) /\
  Permutation (starts (happened tr)) (running s ++ completed s) /\ Permutation (finishes (happened tr)) (completed s) /\
  NoDup (starts (happened tr)) /\ NoDup (finishes (happened tr)).
Proof. exact f_places. Qed.
Print Assumptions pool_with_failures_tasks_are_in_one_place.
Theorem pool_with_failures_starts_the_first_of_the_highest_priority : forall throws deps n clock tr s w t s' p t' p',
  exec_f throws deps (initial n clock) tr s -> step throws deps s (EStart w t) s' ->
  given_priority (happened tr) t p -> In t' (entries (happened tr)) -> ~ In t' (starts (happened tr)) ->
  given_priority (happened tr) t' p' -> t' <> t ->
  (p' < p)%Z \/ (p' = p /\ before (entries (happened tr)) t t' /\ ~ before (entries (happened tr)) t' t).
Proof. exact f_order. Qed.
Print Assumptions pool_with_failures_starts_the_first_of_the_highest_priority.
Theorem pool_with_failures_getters_are_exact : forall throws deps n clock tr s, exec_f throws deps (initial n clock) tr s ->
  active_workers_size s = length (filter busy (workers s)) /\ active_tasks_size s = length (filter busy (workers s)) /\
  active_workers_size s <= workers_size s /\
  waiting_workers_size s = Z.of_nat (length (filter (fun w => in_map w && negb (busy w)) (workers s))) /\
  tasks_size s = length (waiting_tasks s) + length (filter busy (workers s)) /\
  waiting_tasks_size s = length (waiting_tasks s) /\ scheduled_tasks_size s = length (scheduled_tasks s).
Proof. exact f_getters. Qed.
Print Assumptions pool_with_failures_getters_are_exact.
Theorem pool_with_failures_run_at_is_not_early : forall throws deps n clock tr s t at_ p, exec_f throws deps (initial n clock) tr s ->
  In (ERunAt t at_ p) (happened tr) -> In t (entries (happened tr)) -> clock_reached clock (happened tr) at_.
Proof. exact f_not_early. Qed.
Print Assumptions pool_with_failures_run_at_is_not_early.
Theorem pool_with_failures_run_sync_waits_for_its_task : forall throws deps n clock tr s t s', exec_f throws deps (initial n clock) tr s ->
  step throws deps s (ESyncReturned t) s' -> In (EFinish t) (happened tr) /\ exists w, In (EStart w t) (happened tr).
Proof. exact f_sync. Qed.
Print Assumptions pool_with_failures_run_sync_waits_for_its_task.
Theorem pool_with_failures_wait_all_returns_only_when_idle : forall throws deps n clock tr s k s', exec_f throws deps (initial n clock) tr s ->
  step throws deps s (EAllReturned k) s' -> waiting_tasks s = [] /\ running s = [] /\ filter busy (workers s) = [].
Proof. exact f_wait_all. Qed.
Print Assumptions pool_with_failures_wait_all_returns_only_when_idle.
(** as long as there is a worker, all tasks run and all callers return *)
Theorem pool_with_failures_runs_all_tasks : forall throws deps n clock tr s, exec_f throws deps (initial n clock) tr s ->
  plain throws deps -> quiescent throws deps s -> stopping s = false -> 1 <= workers_size s ->
  waiting_tasks s = [] /\ running s = [] /\ Forall (eq CReturned) (all_waiters s) /\ Forall (eq CReturned) (none_waiters s) /\
  Forall (fun x => snd x = true) (syncs s).
Proof. exact f_done. Qed.
Print Assumptions pool_with_failures_runs_all_tasks.
Example pool_with_failures_runs_all_tasks_ex : exists tr s, exec_f no_throw no_deps (initial 0 0) tr s /\ status s = Alive /\
  quiescent no_throw no_deps s /\ stopping s = false /\ In (inr FRun) tr /\ In (inr FRunAt) tr /\ In (inr (FTarget 3)) tr /\
  target_workers_size s = 3 /\ workers_size s = 1 /\ starts (happened tr) = [1; 0] /\ finishes (happened tr) = [1; 0] /\
  all_waiters s = [CReturned] /\ none_waiters s = [CReturned] /\ syncs s = [(1, true)] /\ scheduled s = [].
Proof. exact target_part. Qed.
Theorem pool_with_failures_destructor_returns : forall throws deps n clock tr s, exec_f throws deps (initial n clock) tr s ->
  plain throws deps -> quiescent throws deps s -> dtor s <> DNone -> dtor s = DDone.
Proof. exact f_destroyed. Qed.
Print Assumptions pool_with_failures_destructor_returns.
Example pool_with_failures_destructor_returns_ex : exists tr s, exec_f no_throw no_deps (initial 1 0) tr s /\ quiescent no_throw no_deps s /\
  In (inr FSpawn) tr /\ In (inr (FTarget 3)) tr /\ dtor s = DDone.
Proof. exact f_destroyed_execution. Qed.
(** the workers are fewer than the target only after target_workers_size failed *)
Theorem pool_with_failures_size_at_least_target_partial : forall throws deps n clock tr s, exec_f throws deps (initial n clock) tr s ->
  (forall m, ~ In (FTarget m) (failures tr)) -> stopping s = false -> target s <= workers_size s.
Proof. exact f_no_target. Qed.
Print Assumptions pool_with_failures_size_at_least_target_partial.
(** due tasks are queued if no scheduler thread failed to start *)
Theorem pool_with_failures_due_tasks_are_queued_partial : forall throws deps n clock tr s, exec_f throws deps (initial n clock) tr s ->
  ~ In FSpawn (failures tr) -> status s = Alive -> quiescent throws deps s -> stopping s = false ->
  forall e, In e (scheduled s) -> (now s < fst e)%Z.
Proof. exact f_due. Qed.
Print Assumptions pool_with_failures_due_tasks_are_queued_partial.
Example pool_with_failures_due_tasks_are_queued_ex : exists tr s, exec_f no_throw no_deps (initial 1 0) tr s /\ status s = Alive /\
  quiescent no_throw no_deps s /\ stopping s = false /\ ~ In FSpawn (failures tr) /\ failures tr = [FRunAt] /\
  finishes (happened tr) = [0] /\ scheduled s = [(100%Z, (0%Z, 1))].
Proof. exact f_due_execution. Qed.
(** and stay where they are otherwise *)
Theorem pool_with_failures_due_tasks_are_queued_refuted : exists tr s, exec_f no_throw no_deps (initial 1 0) tr s /\ status s = Alive /\
  quiescent no_throw no_deps s /\ stopping s = false /\ hd_error tr = Some (inl (ERunAt 0 5 0)) /\ nth_error tr 1 = Some (inr FSpawn) /\
  scheduled s = [(5%Z, (0%Z, 0))] /\ now s = 7%Z.
Proof. exact thrown_task_stays. Qed.
Print Assumptions pool_with_failures_due_tasks_are_queued_refuted.
