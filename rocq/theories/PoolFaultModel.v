(** Model of what pluto::thread_pool (/repo/include/pluto/thread_pool.hpp) does when a thread cannot be created or
    memory cannot be allocated.  It adds failing steps to the transition system of PoolModel.v.
    std::thread's constructor throws std::system_error when the thread cannot be started; the emplace functions throw
    std::bad_alloc (or whatever copying the std::function throws) and then leave the container as it was.
    An exception that leaves a thread's function, and the destruction of a joinable std::thread, call std::terminate.
    Not modelled: failures of the mutex and of the condition variables; allocations by the tasks themselves (C76). *)
From Coq Require Import List Bool Arith ZArith.
From Verif Require Import ListUpdate PoolModel.
Import ListNotations.

Inductive ending := Normal | Exception | Terminate.

(** The loop that adds workers (120-124, 227-231).  [ok c] says whether operation number [c] succeeds, [m] workers are
    still to be created; the number of workers created, and how the loop ends.  When emplace throws, the local variable
    [worker] is destroyed while joinable. *)
Fixpoint add_workers (ok : nat -> bool) (c m : nat) : nat * ending :=
  match m with
  | 0 => (0, Normal)
  | S m =>
      if ok c then
        if ok (S c) then let (k, e) := add_workers ok (S (S c)) m in (S k, e)
        else (0, Terminate)
      else (0, Exception)
  end.

(** The constructor, 112-125.  When it throws, the destructor of m_workers destroys the threads created so far, which
    are joinable. *)
Definition construct (ok : nat -> bool) (n : nat) (clock : Z) : ending * option pool :=
  match add_workers ok 0 n with
  | (_, Normal) => (Normal, Some (initial n clock))
  | (0, Exception) => (Exception, None)
  | _ => (Terminate, None)
  end.

(** target_workers_size, 219-242 *)
Definition set_target_size (ok : nat -> bool) (n : nat) (s : pool) : ending * pool :=
  if stopping s then (Normal, s)
  else
    let (k, e) := add_workers ok 0 (n - workers_size s) in
    let s1 := set_workers (workers s ++ repeat WReady k) (set_target n s) in
    match e with
    | Normal => (Normal, if n <? workers_size s1 then set_pend_all (S (pend_all s1)) s1 else s1)
    | Exception => (Exception, s1)
    | Terminate => (Terminate, set_status Terminated s1)
    end.

(** the calls that fail *)
Inductive failure :=
| FRun                  (* run_async, run_sync (257) *)
| FRunAt                (* run_at, when it stores the task (302) *)
| FSpawn                (* run_at, when it starts the scheduler thread (307) *)
| FTarget (n : nat)     (* target_workers_size *)
| FMove.                (* the scheduler thread, when it stores the task in m_waitingTasks (371) *)

Inductive fails (s : pool) : failure -> pool -> Prop :=
| f_run : may_call s -> fails s FRun s
| f_run_at : may_call s -> fails s FRunAt s
| f_spawn n : pend_spawn s = S n -> fails s FSpawn (set_pend_spawn n s)
| f_target ok n e s' : may_call s -> set_target_size ok n s = (e, s') -> e <> Normal -> fails s (FTarget n) s'
| f_move j x : nth_error (schedulers s) j = Some (STimedOut x) -> fails s FMove (set_status Terminated s).

(** Executions with failing calls: what happened, in order. *)
Inductive exec_f (throws : nat -> bool) (deps : nat -> list nat) (s0 : pool) : list (event + failure) -> pool -> Prop :=
| ef_nil : exec_f throws deps s0 [] s0
| ef_step tr s e s' : exec_f throws deps s0 tr s -> step throws deps s e s' -> exec_f throws deps s0 (tr ++ [inl e]) s'
| ef_fail tr s f s' : exec_f throws deps s0 tr s -> status s = Alive -> fails s f s' -> exec_f throws deps s0 (tr ++ [inr f]) s'.
