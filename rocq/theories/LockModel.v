(** Model of how pluto::thread_pool (/repo/include/pluto/thread_pool.hpp) and pluto::logger
    (/repo/include/pluto/logger.hpp) access their members: which members each function reads and writes, in which
    order, and which mutexes it holds meanwhile.

    Every access to a member is a step of its own; steps of different threads interleave in any order.  Values are
    left out: a branch or loop whose condition is not about [m_isStopping] or about the presence of a file in
    [m_logFiles] may go either way at any time, a condition variable may wake at any time, so the executions here
    include all those of the code.  Atomic members, notifications and the accesses of local variables cannot race
    and are left out.  Exceptions are left out (the locks are released by destructors on every way out). *)
From Coq Require Import List Bool Arith.
From Verif Require Import Base ListUpdate.
Import ListNotations.

(** the thread that constructs and destroys the object, threads that use it, workers of a pool, the logging thread,
    scheduler threads of a pool *)
Inductive kind := Main | Client | Worker | Logging | Scheduler.
Definition kind_eqb (a b : kind) : bool :=
  match a, b with
  | Main, Main | Client, Client | Worker, Worker | Logging, Logging | Scheduler, Scheduler => true
  | _, _ => false
  end.

(** * The language *)
Section Language.
Context {L : Type}.
Inductive stmt :=
| Skip
| Read (x : L)                       (* reads the member x *)
| Write (x : L)                      (* writes (or destroys) the member x *)
| Seq (p q : stmt)
| Choice (p q : stmt)                (* a branch whose condition is not modelled *)
| Loop (p : stmt)                    (* a loop whose condition is not modelled *)
| Any (p : nat -> stmt)              (* p n for any n *)
| User                               (* code of the user: calls any public functions *)
| Lock (m : nat) | Unlock (m : nat)
| Wait (m : nat)                     (* condition_variable::wait: unlocks m, later locks it again *)
| IfFlag (n : nat) (p q : stmt)      (* p if the flag n is set, otherwise q *)
| SetFlag (n : nat)
| Spawn (k : kind)                   (* starts a thread *)
| Detach                             (* the thread's std::thread object is detached *)
| Join (k : kind).                   (* waits for the end of all threads of kind k that are not detached *)

Fixpoint block (l : list stmt) : stmt := match l with [] => Skip | p :: l => Seq p (block l) end.

(** what each kind of thread runs; the public functions *)
Variables (body : kind -> stmt) (public : nat -> stmt).

Record thread := Th { th_kind : kind; th_stack : list stmt; th_gone : bool }.
Record state := St { threads : list thread; holder : nat -> option nat; flags : nat -> bool }.

Definition put {A} (f : nat -> A) (n : nat) (a : A) : nat -> A := fun m => if m =? n then a else f m.
Definition owns (s : state) (i m : nat) : bool := match holder s m with Some j => j =? i | None => false end.
Definition ended (k : kind) (t : thread) : bool :=
  negb (kind_eqb (th_kind t) k) || th_gone t || match th_stack t with [] => true | _ => false end.

(** One step of thread [i]; [c] says which way it goes where it may go several ways.
    [None]: the thread has ended, waits, or uses a mutex in a way that is not allowed (Unlock of a mutex that it
    does not own). *)
Definition step (s : state) (i c : nat) : option state :=
  match nth_error (threads s) i with
  | None | Some (Th _ [] _) => None
  | Some (Th k (p :: r) g) =>
      let go r := St (update i (Th k r g) (threads s)) (holder s) (flags s) in
      match p with
      | Skip | Read _ | Write _ => Some (go r)
      | Seq p q => Some (go (p :: q :: r))
      | Choice p q => Some (go ((if c =? 0 then p else q) :: r))
      | Loop p => Some (go (if c =? 0 then r else p :: Loop p :: r))
      | Any p => Some (go (p c :: r))
      | User => Some (go (match c with O => r | S n => public n :: User :: r end))
      | Lock m =>
          match holder s m with
          | None => Some (St (update i (Th k r g) (threads s)) (put (holder s) m (Some i)) (flags s))
          | Some _ => None
          end
      | Unlock m =>
          if owns s i m then Some (St (update i (Th k r g) (threads s)) (put (holder s) m None) (flags s)) else None
      | Wait m =>
          if owns s i m
          then Some (St (update i (Th k (Lock m :: r) g) (threads s)) (put (holder s) m None) (flags s)) else None
      | IfFlag n p q => Some (go ((if flags s n then p else q) :: r))
      | SetFlag n => Some (St (update i (Th k r g) (threads s)) (holder s) (put (flags s) n true))
      | Spawn k' => Some (St (update i (Th k r g) (threads s) ++ [Th k' [body k'] false]) (holder s) (flags s))
      | Detach => Some (St (update i (Th k r true) (threads s)) (holder s) (flags s))
      | Join k' => if forallb (ended k') (threads s) then Some (go r) else None
      end
  end.

(** executions: [(i, c)] is a step of thread [i] *)
Fixpoint run (s : state) (l : list (nat * nat)) : option state :=
  match l with [] => Some s | (i, c) :: l => match step s i c with Some s' => run s' l | None => None end end.

(** one thread, which runs the program of [Main] *)
Definition initial : state := St [Th Main [body Main] false] (fun _ => None) (fun _ => false).
End Language.
Arguments stmt : clear implicits.
Arguments thread : clear implicits.
Arguments state : clear implicits.

(** * thread_pool (/repo/include/pluto/thread_pool.hpp)
    Mutex 0 is m_mutex (96), flag 0 the value of m_isStopping (107).
    [PWorkers] is the map m_workers itself, [PThreads] the std::thread objects in it; each other member is one
    location. *)
Inductive ploc := PWorkers | PThreads | PScheduler | PWaiting | PScheduled | POnStop | PStopping | PTarget | PActive.

Section Pool.
(** What copying and destroying a std::function does besides copying and destroying memory, namely the copy
    constructors and destructors of the values that the user's function has captured. *)
Variable captured : stmt ploc.
(** whether the program calls run_at or run_after *)
Variable run_at_used : bool.
(** whether the destruction of the members is modelled *)
Variable destroyed : bool.

(** 120-124, 227-231: the loop that starts workers *)
Definition pool_grow : stmt ploc :=
  Loop (block [Read PWorkers; Read PTarget; Spawn Worker; Write PWorkers; Write PThreads]).
(** 112-125 *)
Definition pool_constructor : stmt ploc := block [Lock 0; pool_grow; Unlock 0].
(** 127-149.  The joins of the single workers are one step after the loop over m_workers. *)
Definition pool_destructor : stmt ploc :=
  block [Lock 0; Write PStopping; SetFlag 0; Unlock 0;
         Loop (block [Read PWorkers; Write PThreads]); Join Worker;
         Read PScheduler; Choice Skip (Write PScheduler)].
(** the end of the destructor: all members are destroyed *)
Definition pool_destroy : stmt ploc :=
  block [Write PActive; Write PTarget; Write PStopping; Write POnStop; Write PScheduled; Write PWaiting;
         Write PScheduler; Write PThreads; Write PWorkers].
(** 165-217 *)
Definition pool_getter (l : list ploc) : stmt ploc := block [Lock 0; block (map Read l); Unlock 0].
(** 219-242 *)
Definition pool_set_target : stmt ploc :=
  block [Lock 0; Read PStopping;
         IfFlag 0 Skip (block [Write PTarget; pool_grow; Read PTarget; Read PWorkers]); Unlock 0].
(** 244-249 *)
Definition pool_set_on_stop : stmt ploc := block [Lock 0; Write POnStop; Unlock 0].
(** 251-269, 271-293 (run_sync: the wait for the promise is left out) *)
Definition pool_run_async : stmt ploc := block [Lock 0; Write PWaiting; captured; Unlock 0].
(** 295-315, 317-339 *)
Definition pool_run_at : stmt ploc :=
  block [Lock 0; Write PScheduled; captured; Read PScheduler;
         Choice (block [Unlock 0; Spawn Scheduler; Write PScheduler])
                (block [Read PScheduled; Unlock 0])].
(** 341-349, 351-359 *)
Definition pool_wait (l : list ploc) : stmt ploc :=
  block [Lock 0; Loop (block [block (map Read l); Wait 0]); block (map Read l); Unlock 0].
Definition pool_functions : list (stmt ploc) :=
  [pool_getter [PWorkers]; pool_getter [PTarget]; pool_getter [PActive]; pool_getter [PWorkers; PActive];
   pool_getter [PWaiting; PActive]; pool_getter [PWaiting]; pool_getter [PScheduled]; pool_getter [POnStop];
   pool_set_target; pool_set_on_stop; pool_run_async; pool_wait [PWaiting]; pool_wait [PWaiting; PActive];
   if run_at_used then pool_run_at else Skip].
Definition pool_public (n : nat) : stmt ploc := nth n pool_functions Skip.

(** 362-383; wait_until reads the time it is given while it holds the mutex *)
Definition pool_scheduling : stmt ploc :=
  block [Lock 0;
         Loop (block [Read PScheduled; Read PStopping; Wait 0;
                      Choice Skip (block [Write PWaiting; captured; Write PScheduled])]);
         Read PScheduled; Read PStopping; IfFlag 0 Skip (Write PScheduler); Unlock 0].
(** 385-431.  The worker always finds itself in m_workers (425): it was put there in the critical section that
    started it. *)
Definition pool_working : stmt ploc :=
  block [Lock 0;
         Loop (block [Read PWorkers; Read PTarget; Read PStopping; Read POnStop; Read PWaiting;
                      Choice (block [Read PActive; Wait 0])
                             (block [Write PWaiting; Read PWaiting; Write PActive; Unlock 0;
                                     User;
                                     Lock 0; Write PActive; captured])]);
         Read PWorkers; Read PTarget; Read PStopping; Read POnStop; Read PWaiting;
         IfFlag 0 Skip (block [Read PWorkers; Write PThreads; Detach; Write PWorkers]);
         Unlock 0].

(** The object is constructed, used by any number of threads, and destroyed when these have ended; [final] comes
    after the body of the destructor. *)
Definition pool_main_with (final : stmt ploc) : stmt ploc :=
  block [pool_constructor; Loop (Spawn Client); Join Client; pool_destructor; final].
Definition pool_main : stmt ploc := pool_main_with (if destroyed then pool_destroy else Skip).
Definition pool_body (k : kind) : stmt ploc :=
  match k with
  | Main => pool_main
  | Client => User
  | Worker => pool_working
  | Scheduler => if run_at_used then pool_scheduling else Skip   (* otherwise no scheduler thread is ever started *)
  | Logging => Skip
  end.
(** The executions in which all scheduler threads have ended when the members are destroyed. *)
Definition pool_body_joined (k : kind) : stmt ploc :=
  match k with Main => pool_main_with (block [Join Scheduler; pool_destroy]) | _ => pool_body k end.
End Pool.

(** * logger (/repo/include/pluto/logger.hpp)
    Mutex 0 is m_loggingMutex (356), mutex 1 m_configMutex (371).  Flag [f] says whether file [f] is in m_logFiles.
    [GMap] is the map m_logFiles itself (its tree), [GKey f] the name of file f in it, [GPath f] its filePath and
    dirsCreated, [GBuf f] its buffer.  (The elements of the buffer, which the logging thread reads without the mutex,
    are modelled in BufferModel.v.) *)
Inductive gloc := GMap | GKey (f : nat) | GPath (f : nat) | GBuf (f : nat) | GWriter | GHeader | GThread.

Section Logger.
(** what copying and destroying a writer does besides copying and destroying memory *)
Variable captured : stmt gloc.
(** 376-379 *)
Definition log_constructor : stmt gloc := block [Spawn Logging; Write GThread].
(** 519-529, 580-592 *)
Definition log_get (x : gloc) : stmt gloc := block [Lock 1; Read x; captured; Unlock 1].
Definition log_set (x : gloc) : stmt gloc := block [Lock 1; Write x; captured; Unlock 1].
(** std::map::find and iteration read the tree and names of files in the map *)
Definition log_find : stmt gloc := block [Read GMap; Loop (Any (fun g => IfFlag g (Read (GKey g)) Skip))].
(** 720-756 *)
Definition log_add (f : nat) : stmt gloc :=
  block [Lock 0; log_find;
         IfFlag f Skip (block [Write GMap; Write (GKey f); Write (GPath f); Write (GBuf f); SetFlag f]);
         Read (GBuf f); Choice Skip (Write (GBuf f)); Unlock 0].
(** 594-717, 297-345: every way to log calls should_log and then, or not, add_log_to_buffer; all the other public
    functions only access atomic members *)
Definition log_functions : list (stmt gloc) :=
  [log_get GWriter; log_get GHeader; log_set GWriter; log_set GHeader; Any log_add].
Definition log_public (n : nat) : stmt gloc := nth n log_functions Skip.
(** 810-869; a writer is copied under the mutex and called without it *)
Definition log_write_buffer (f : nat) : stmt gloc :=
  block [Read (GPath f); Choice Skip (block [Read (GKey f); Write (GPath f)]); Choice Skip (Write (GPath f));
         Read (GPath f);
         Loop (block [Choice Skip (block [log_get GHeader; User]); log_get GWriter; User])].
(** 871-925 *)
Definition log_logging : stmt gloc :=
  block [Lock 0;
         Loop (Choice (Wait 0)
                 (block [Read GMap;
                         Loop (Any (fun f => IfFlag f
                           (block [Read (GBuf f);
                                   Choice Skip (block [Unlock 0; log_write_buffer f; Lock 0; Write (GBuf f)]);
                                   Read GMap])
                           Skip))]));
         Unlock 0].
(** 381-405, and the destruction of the members *)
Definition log_destructor : stmt gloc :=
  block [Read GThread; Join Logging; Write GThread;
         Read GMap;
         Loop (Any (fun f => IfFlag f (block [Read (GBuf f); Choice Skip (log_write_buffer f); Read GMap]) Skip));
         Write GHeader; Write GWriter;
         Loop (Any (fun f => IfFlag f (block [Write (GBuf f); Write (GPath f); Write (GKey f)]) Skip));
         Write GMap; Write GThread].
Definition log_main : stmt gloc := block [log_constructor; Loop (Spawn Client); Join Client; log_destructor].
Definition log_body (k : kind) : stmt gloc :=
  match k with Main => log_main | Client => User | Logging => log_logging | Worker | Scheduler => Skip end.
End Logger.
