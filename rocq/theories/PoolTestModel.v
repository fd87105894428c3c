(** Model of the programs of /repo/tests/thread_pool_tests.cpp: one thread makes a pool, calls it and reads its
    getters, and nobody else calls the pool.  The threads of the pool run in between as in PoolModel.

    A task of these programs sleeps for a while, adds one to an atomic counter (or sets an atomic flag) and
    returns; here the counter changes in the step in which the task returns.  [numTasks] is 128 in the tests and
    any number here, and so is the number of workers, which is std::thread::hardware_concurrency() there.  The
    destruction of the pool at the end of a test is modelled where something is read afterwards. *)
From Coq Require Import List Bool Arith ZArith.
From Verif Require Import PoolModel.
Import ListNotations.

(** what the tests look at: the getters (165-217 of thread_pool.hpp), and the counters and flags of their tasks *)
Inductive getter :=
| Workers | Target | Active | WaitingWorkers | Tasks | ActiveTasks | Waiting | Scheduled
| Counter (m : nat)                 (* how many of the first m tasks have returned *)
| Flag (t : nat).                   (* whether task t has returned *)
Definition value (g : getter) (s : pool) : Z :=
  match g with
  | Workers => Z.of_nat (workers_size s)
  | Target => Z.of_nat (target_workers_size s)
  | Active => Z.of_nat (active_workers_size s)
  | WaitingWorkers => waiting_workers_size s
  | Tasks => Z.of_nat (tasks_size s)
  | ActiveTasks => Z.of_nat (active_tasks_size s)
  | Waiting => Z.of_nat (waiting_tasks_size s)
  | Scheduled => Z.of_nat (scheduled_tasks_size s)
  | Counter m => Z.of_nat (length (filter (fun t => t <? m) (completed s)))
  | Flag t => if existsb (Nat.eqb t) (completed s) then 1 else 0
  end.

Inductive statement :=
| RunAsync (p : Z) | RunSync (p : Z) | RunAfter (d p : Z) | SetTarget (m : nat) | SetOnStop (a : action)
| WaitNone | WaitAll | Destroy | Sleep | Read (g : getter).

(** what the call does while it holds m_mutex for the first time (the steps [client] of PoolModel); run_after (325-339)
    calls run_at with the time that the clock shows and the given duration later *)
Definition effect (c : statement) (s : pool) (e : event) (s' : pool) : Prop :=
  match c with
  | RunAsync p => e = ESubmit (next s) p /\ s' = submit p s
  | RunSync p => e = ESubmit (next s) p /\ s' = set_syncs ((next s, false) :: syncs s) (submit p s)
  | RunAfter d p =>
      let time := (now s + d)%Z in
      let l := insert_scheduled (time, (p, next s)) (scheduled s) in
      let s1 := set_next (S (next s)) (set_scheduled l s) in
      e = ERunAt (next s) time p /\
      s' = match sched_obj s with
           | None => set_pend_spawn (S (pend_spawn s)) s1
           | Some _ => if match l with e :: _ => (time =? fst e)%Z | [] => false end
                       then set_pend_sched (S (pend_sched s)) s1 else s1
           end
  | SetTarget m =>
      e = ETarget m /\
      s' = (if stopping s then s
            else let s1 := set_workers (workers s ++ repeat WReady (m - workers_size s)) (set_target m s) in
                 if m <? workers_size s1 then set_pend_all (S (pend_all s1)) s1 else s1)
  | SetOnStop a => e = EOnStop a /\ s' = set_onStop a s
  | WaitNone => e = ETau /\ s' = set_none_waiters (none_waiters s ++ [CCheck]) s
  | WaitAll => e = ETau /\ s' = set_all_waiters (all_waiters s ++ [CCheck]) s
  | Destroy => e = EStop /\ s' = set_dtor DStopped (set_stopping true s)
  | Sleep | Read _ => False
  end.

(** the calls made so far have returned; the thread of the test can go on *)
Record returned (s : pool) : Prop := {
  ret_one : pend_one s = 0;
  ret_all : pend_all s = 0;
  ret_sched : pend_sched s = 0;
  ret_spawn : pend_spawn s = 0;
  ret_assign : pend_assign s = [];
  ret_waiters : forall c, In c (all_waiters s ++ none_waiters s) -> c = CReturned;
  ret_syncs : forall t b, In (t, b) (syncs s) -> b = true;
  ret_dtor : dtor s = DNone \/ dtor s = DDone
}.

Section Test.
Variable throws : nat -> bool.
Variable deps : nat -> list nat.
(** when a call of sleep_for may return *)
Variable sleeps : pool -> Prop.

(** a step that is not the test's *)
Definition other (s : pool) (e : event) (s' : pool) : Prop :=
  status s = Alive /\ (internal throws deps s e s' \/ spurious s e s' \/ tick s e s').

(** [run s prog tr s' rest seen]: from [s], with the statements [prog] to be run, to [s'], with [rest] left to be run;
    [tr] are the events and [seen] the values read on the way, in order *)
Inductive run : pool -> list statement -> list event -> pool -> list statement -> list Z -> Prop :=
| run_here s prog : run s prog [] s prog []
| run_other s prog e s1 tr s' rest seen : other s e s1 -> run s1 prog tr s' rest seen -> run s prog (e :: tr) s' rest seen
| run_call s c prog e s1 tr s' rest seen : status s = Alive -> returned s -> dtor s = DNone -> effect c s e s1 ->
    run s1 prog tr s' rest seen -> run s (c :: prog) (e :: tr) s' rest seen
| run_read s g prog tr s' rest seen : status s = Alive -> returned s ->
    run s prog tr s' rest seen -> run s (Read g :: prog) tr s' rest (value g s :: seen)
| run_sleep s prog tr s' rest seen : status s = Alive -> returned s -> sleeps s ->
    run s prog tr s' rest seen -> run s (Sleep :: prog) tr s' rest seen.
End Test.

(** * The tests *)
(** for example 112-114 *)
Definition start : list statement := [Read Workers; Read Active; Read Waiting].
(** the priorities NORMAL of run_async (251) and HIGH of run_sync (271), 32-38 *)
Definition normal : Z := 0.
Definition high : Z := 32.
(** 22-46, with a pool of no workers *)
Definition sanity : list statement :=
  [Read Workers; Read Target; Read Active; Read WaitingWorkers; Read Tasks; Read ActiveTasks; Read Waiting; Read Scheduled;
   RunAsync normal; Read Waiting; Read ActiveTasks; Read Tasks;
   SetTarget 1; Sleep;
   Read Workers; Read Target; Read Active; Read WaitingWorkers; Read Tasks; Read ActiveTasks; Read Waiting; Read Scheduled; Read (Flag 0)].
(** 49-76 and 78-105 *)
Definition on_stop_test (a : action) (N : nat) : list statement :=
  start ++ SetOnStop a :: repeat (RunAsync normal) N ++ [Destroy; Read (Counter N)].
(** 107-133 *)
Definition run_async_test (N : nat) : list statement :=
  start ++ repeat (RunAsync normal) N ++ [Sleep; Read Active; Read Waiting; Read (Counter N)].
(** 135-160 *)
Definition run_sync_test (N : nat) : list statement :=
  start ++ concat (repeat [Read (Counter N); RunSync high] N) ++ [Read Active; Read Waiting; Read (Counter N)].
(** 162-184 and 186-208; the time given to run_at is also the clock's and a duration later *)
Definition run_after_test : list statement :=
  start ++ [RunAfter 1 normal; Sleep; Read Active; Read Waiting; Read Scheduled; Read (Flag 0)].
(** 210-242 *)
Definition high_priority_test (N : nat) : list statement :=
  start ++ repeat (RunAsync normal) N ++ [RunSync high; Read (Counter N); Read (Flag N)].
(** 244-281 *)
Definition restart_test : list statement :=
  start ++ [RunAfter 1 normal; Sleep; Read Active; Read Waiting; Read Scheduled; Read (Counter 2);
            RunAfter 1 normal; Sleep; Read Active; Read Waiting; Read Scheduled; Read (Counter 2)].
(** 283-307; the compiler chooses which operand of the comparison in 305 is evaluated first *)
Definition wait_none_test (counter_first : bool) (N : nat) : list statement :=
  start ++ repeat (RunAsync normal) N ++
  WaitNone :: (if counter_first then [Read (Counter N); Read Active] else [Read Active; Read (Counter N)]) ++ [Read Waiting].
(** 309-334 *)
Definition wait_all_test (N : nat) : list statement :=
  start ++ repeat (RunAsync normal) N ++ [WaitAll; Read Active; Read Waiting; Read (Counter N)].
