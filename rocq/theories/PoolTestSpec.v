(** What the tests of /repo/tests/thread_pool_tests.cpp assert, said of the values they read. *)
From Coq Require Import List Bool Arith ZArith.
From Verif Require Import PoolModel PoolSpec.
Import ListNotations.
Local Open Scope Z_scope.

(** ASSERT_NE(workers_size(), 0), ASSERT_EQ(active_workers_size(), 0), ASSERT_EQ(waiting_tasks_size(), 0), and then [rest] *)
Definition after_start (rest : list Z -> Prop) (seen : list Z) : Prop :=
  exists w l, seen = w :: 0 :: 0 :: l /\ w <> 0 /\ rest l.
Definition sanity_passes (seen : list Z) : Prop :=
  seen = [0; 0; 0; 0; 0; 0; 0; 0;  1; 0; 1;  1; 1; 0; 1; 0; 0; 0; 0; 1].
Definition join_all_passes (N : nat) : list Z -> Prop := after_start (fun l => exists c, l = [c] /\ c < Z.of_nat N).
Definition complete_tasks_passes (N : nat) : list Z -> Prop := after_start (fun l => l = [Z.of_nat N]).
Definition run_async_passes (N : nat) : list Z -> Prop :=
  after_start (fun l => exists a q c, l = [a; q; c] /\ 0 < a /\ 0 < q /\ c < Z.of_nat N).
(** the values read by the loop are 0, 1, ..., N-1 *)
Definition run_sync_reads (N : nat) (a : Z) : list Z -> Prop :=
  after_start (fun l => l = map Z.of_nat (seq 0 N) ++ [a; 0; Z.of_nat N]).
Definition run_sync_passes (N : nat) (seen : list Z) : Prop := exists a, run_sync_reads N a seen /\ a <= 1.
Definition run_after_passes : list Z -> Prop := after_start (fun l => l = [0; 0; 0; 1]).
Definition high_priority_passes (N : nat) : list Z -> Prop := after_start (fun l => exists c, l = [c; 1] /\ c < Z.of_nat N).
Definition restart_passes : list Z -> Prop := after_start (fun l => l = [0; 0; 0; 1; 0; 0; 0; 2]).
Definition wait_none_passes (counter_first : bool) (N : nat) : list Z -> Prop :=
  after_start (fun l => exists a c, l = (if counter_first then [c; a; 0] else [a; c; 0]) /\ Z.of_nat N - c <= a).
Definition wait_all_passes (N : nat) : list Z -> Prop := after_start (fun l => l = [0; 0; Z.of_nat N]).

(** sleeping for a duration during which the clock reaches [time], whatever the other threads did in the meantime *)
Definition until (time : Z) (s : pool) : Prop := time <= now s.
(** sleeping for so long that the threads of the pool have nothing left to do and the times of the scheduled tasks
    have come *)
Definition settled (throws : nat -> bool) (deps : nat -> list nat) (s : pool) : Prop :=
  quiescent throws deps s /\ forall e, In e (scheduled s) -> fst e <= now s.
