(** Property theorems C177: how long a task waits in the queue of a thread_pool. *)
From Coq Require Import List Bool Arith ZArith.
From Verif Require Import ListUpdate PoolModel PoolSpec PoolExamples PoolFairProofs.
Import ListNotations.

(** C177.  While task [t] of priority [p] waits, only tasks of higher priority start, or of the same priority that entered the queue
    before it; *)
Theorem pool_waiting_task_overtaken_partial : forall throws deps n clock tr1 s1 tr2 s2 t p t' p',
  exec throws deps (initial n clock) tr1 s1 -> exec throws deps s1 tr2 s2 -> In t (waiting_tasks s1) -> In t (waiting_tasks s2) ->
  given_priority (tr1 ++ tr2) t p -> In t' (starts tr2) -> given_priority (tr1 ++ tr2) t' p' ->
  (p < p')%Z \/ (p' = p /\ before (entries (tr1 ++ tr2)) t' t).
Proof. exact overtaken_proof. Qed.
Print Assumptions pool_waiting_task_overtaken_partial.
(** so no more tasks start while it waits than there are such tasks. *)
Theorem pool_waiting_task_bound_partial : forall throws deps n clock tr1 s1 tr2 s2 t p L,
  exec throws deps (initial n clock) tr1 s1 -> exec throws deps s1 tr2 s2 -> In t (waiting_tasks s1) -> In t (waiting_tasks s2) ->
  given_priority (tr1 ++ tr2) t p ->
  (forall t' p', given_priority (tr1 ++ tr2) t' p' -> (p < p')%Z \/ (p' = p /\ before (entries (tr1 ++ tr2)) t' t) -> In t' L) ->
  length (starts tr2) <= length L.
Proof. exact overtaken_bound. Qed.
Print Assumptions pool_waiting_task_bound_partial.
Example pool_waiting_task_ex : exists s1 s2, exec no_throw no_deps (initial 1 0) [ESubmit 0 0; ESubmit 1 5] s1 /\
  exec no_throw no_deps s1 [ESubmit 2 5; EStart 0 1; EFinish 1; EStart 0 2] s2 /\ In 0 (waiting_tasks s1) /\ In 0 (waiting_tasks s2).
Proof. exact overtaken_execution. Qed.
(** but there is no bound on the number of tasks, given later, that start while the first one waits *)
Theorem pool_waiting_task_starves_refuted : forall m, exists tr s,
  exec no_throw no_deps (initial 1 0) (ESubmit 0 0 :: tr) s /\ length (starts tr) = S m /\ In 0 (waiting_tasks s) /\
  length (running s) = 0 /\ target s = 1.
Proof. exact starved. Qed.
Print Assumptions pool_waiting_task_starves_refuted.
