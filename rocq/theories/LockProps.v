(** Data races and deadlocks of thread_pool and logger (C117-C121).  [l] is the schedule: which thread goes on, and
    which way. *)
From Coq Require Import List Bool Arith.
From Verif Require Import LockModel LockSpec LockPool LockLogger LockProgress LockExamples.
Import ListNotations.

(** C117 *)
Theorem pool_has_no_data_race_refuted : exists l s,
  run (pool_body Skip true false) (pool_public Skip true) (initial (pool_body Skip true false)) l = Some s /\ race s PScheduler.
Proof. exact scheduler_race. Qed.
Print Assumptions pool_has_no_data_race_refuted.
(** one client, one call of run_at ([14] is the choice that calls it), one scheduler thread *)
Theorem pool_has_no_data_race_with_one_call_refuted : exists l s,
  run (pool_body Skip true false) (pool_public Skip true) (initial (pool_body Skip true false)) l = Some s /\
  race s PScheduler /\ map th_kind (threads s) = [Main; Client; Scheduler] /\ count_occ Nat.eq_dec (map snd l) 14 = 1.
Proof. exact single_race. Qed.
Print Assumptions pool_has_no_data_race_with_one_call_refuted.
(** no other member, from the constructor to the end of the body of the destructor *)
Theorem pool_has_no_data_race_partial : forall l s x,
  run (pool_body Skip true false) (pool_public Skip true) (initial (pool_body Skip true false)) l = Some s -> race s x -> x = PScheduler.
Proof. exact pool_no_race_partial. Qed.
Print Assumptions pool_has_no_data_race_partial.
(** if run_at and run_after are not used: none, the destruction of the members included *)
Theorem pool_without_run_at_has_no_data_race : forall l s x,
  run (pool_body Skip false true) (pool_public Skip false) (initial (pool_body Skip false true)) l = Some s -> ~ race s x.
Proof. exact pool_no_race. Qed.
Print Assumptions pool_without_run_at_has_no_data_race.
(** with run_at: also during the destruction of the members, if all scheduler threads have ended before (C78 says when) *)
Theorem pool_destruction_has_no_data_race_partial : forall l s x,
  run (pool_body_joined Skip true true) (pool_public Skip true) (initial (pool_body_joined Skip true true)) l = Some s -> race s x -> x = PScheduler.
Proof. exact pool_no_race_joined. Qed.
Print Assumptions pool_destruction_has_no_data_race_partial.
Example pool_destruction_ex : exists l s,
  run (pool_body_joined Skip true true) (pool_public Skip true) (initial (pool_body_joined Skip true true)) l = Some s /\
  accesses s 0 PScheduled true /\ map th_kind (threads s) = [Main; Client; Scheduler].
Proof. exact joined_state. Qed.
(** if one is still running: the destructor destroys what it reads *)
Theorem pool_destruction_has_no_data_race_refuted : exists l s,
  run (pool_body Skip true true) (pool_public Skip true) (initial (pool_body Skip true true)) l = Some s /\
  race s PScheduled /\ accesses s 0 PScheduled true /\ map th_kind (threads s) = [Main; Client; Client; Scheduler; Scheduler].
Proof. exact outlive_race. Qed.
Print Assumptions pool_destruction_has_no_data_race_refuted.
Example pool_race_ex : exists l s,
  run (pool_body Skip false true) (pool_public Skip false) (initial (pool_body Skip false true)) l = Some s /\
  accesses s 0 PWorkers false /\ holder s 0 = Some 1 /\ accesses s 1 PWorkers false.
Proof. exact end_state. Qed.

(** C118 *)
Theorem logger_has_no_data_race : forall l s x,
  run (log_body Skip) (log_public Skip) (initial (log_body Skip)) l = Some s -> ~ race s x.
Proof. exact logger_no_race. Qed.
Print Assumptions logger_has_no_data_race.
Example logger_race_ex : exists l s, run (log_body Skip) (log_public Skip) (initial (log_body Skip)) l = Some s /\
  accesses s 1 (GPath 0) true /\ holder s 0 = Some 3 /\ accesses s 3 (GBuf 0) true.
Proof. exact log_state. Qed.

(** C119.  Worker 1 locks m_mutex, which it owns. *)
Theorem tasks_may_call_the_pool_refuted : exists l s,
  run (pool_body User true false) (pool_public User true) (initial (pool_body User true false)) l = Some s /\
  next s 1 (Lock 0) /\ holder s 0 = Some 1.
Proof. exact captured_locks_twice. Qed.
Print Assumptions tasks_may_call_the_pool_refuted.
Theorem tasks_may_call_the_pool_partial : forall l s,
  run (pool_body Skip true false) (pool_public Skip true) (initial (pool_body Skip true false)) l = Some s -> ~ misuse s.
Proof. exact pool_no_misuse. Qed.
Print Assumptions tasks_may_call_the_pool_partial.
Example task_calls_the_pool_ex : exists l s,
  run (pool_body Skip true false) (pool_public Skip true) (initial (pool_body Skip true false)) l = Some s /\
  accesses s 1 POnStop true /\ holder s 0 = Some 1.
Proof. exact task_state. Qed.

(** C120.  Thread 2 locks m_configMutex, which it owns. *)
Theorem writers_may_call_the_logger_refuted : exists l s,
  run (log_body User) (log_public User) (initial (log_body User)) l = Some s /\ next s 2 (Lock 1) /\ holder s 1 = Some 2.
Proof. exact captured_writer_locks_twice. Qed.
Print Assumptions writers_may_call_the_logger_refuted.
Theorem writers_may_call_the_logger_partial : forall l s,
  run (log_body Skip) (log_public Skip) (initial (log_body Skip)) l = Some s -> ~ misuse s.
Proof. exact logger_no_misuse. Qed.
Print Assumptions writers_may_call_the_logger_partial.
Example writer_calls_the_logger_ex : exists l s, run (log_body Skip) (log_public Skip) (initial (log_body Skip)) l = Some s /\
  accesses s 1 GWriter true /\ holder s 1 = Some 1.
Proof. exact header_state. Qed.

(** C121 *)
Theorem pool_mutex_owner_goes_on : forall l s m i,
  run (pool_body Skip true false) (pool_public Skip true) (initial (pool_body Skip true false)) l = Some s -> holder s m = Some i ->
  exists s', step (pool_body Skip true false) (pool_public Skip true) s i 0 = Some s'.
Proof. exact pool_owner_goes_on. Qed.
Print Assumptions pool_mutex_owner_goes_on.
Theorem pool_goes_on_until_all_threads_have_ended : forall l s i p,
  run (pool_body Skip true false) (pool_public Skip true) (initial (pool_body Skip true false)) l = Some s -> next s i p ->
  exists j s', step (pool_body Skip true false) (pool_public Skip true) s j 0 = Some s'.
Proof. exact pool_goes_on. Qed.
Print Assumptions pool_goes_on_until_all_threads_have_ended.
Theorem logger_mutex_owner_goes_on : forall l s m i,
  run (log_body Skip) (log_public Skip) (initial (log_body Skip)) l = Some s -> holder s m = Some i ->
  exists s', step (log_body Skip) (log_public Skip) s i 0 = Some s'.
Proof. exact logger_owner_goes_on. Qed.
Print Assumptions logger_mutex_owner_goes_on.
Theorem logger_goes_on_until_all_threads_have_ended : forall l s i p,
  run (log_body Skip) (log_public Skip) (initial (log_body Skip)) l = Some s -> next s i p ->
  exists j s', step (log_body Skip) (log_public Skip) s j 0 = Some s'.
Proof. exact logger_goes_on. Qed.
Print Assumptions logger_goes_on_until_all_threads_have_ended.
