(** Programs that use thread_pool::instance(), logger::instance() and static objects of their own, up to the end of
    the destruction of the static objects (thread_pool.hpp 112-163, logger.hpp 376-419).

    An object with static storage duration is built when it is first used (function-local statics: other threads wait
    until it is built) and registered to be destroyed once its constructor has returned. When main returns, the
    registered objects are destroyed, last registered first; objects that are built during this are registered too.

    Simplified: the code of the program is a sequence of calls of member functions of static objects (of everything
    else it does nothing is said); an object that is given work (run_async of the pool: the task; a log entry: the log
    writer called for it) may run it on any number of threads of its own, in any order, until it is destroyed, and in
    its destructor, which waits for its threads (that no task or writer runs after the destructor is C78 and C86).
    Objects with static storage duration at namespace scope are objects that the initial thread uses first. Not
    modelled: threads of the program that are neither of the pool nor of the logger, calls of exit or abort by
    another thread, constructors that throw, tasks that are destroyed without being run. A constructor that uses the
    object it builds is undefined behaviour; here its thread waits for ever. *)
From Coq Require Import List.
Import ListNotations.

(** logger.hpp 417, thread_pool.hpp 161; [User n]: the static objects of the program *)
Inductive object := Pool | Logger | User (n : nat).
Definition object_dec (a b : object) : {a = b} + {a <> b}.
Proof. repeat decide equality. Defined.

(** [Use o]: a call of a member function of [o], found by its instance() function.
    [Submit o job]: a call that makes [o] run [job] later (thread_pool.hpp 251-339: run_async, run_at, run_after and
    run_sync; logger.hpp 599-756: write, writef, format and streamers, with the log writer as the job). *)
Inductive code := Skip | Use (o : object) (k : code) | Submit (o : object) (job k : code).

Record program := Program { start : code; user_ctor : nat -> code; user_dtor : nat -> code }.
(** logger.hpp 376-379, thread_pool.hpp 112-125: the constructors of the pool and of the logger use no static object *)
Definition ctor (P : program) (o : object) : code := match o with User n => user_ctor P n | Pool | Logger => Skip end.
(** logger.hpp 381-405, thread_pool.hpp 127-149: nor do their destructors, but for the work that was given to them *)
Definition dtor (P : program) (o : object) : code := match o with User n => user_dtor P n | Pool | Logger => Skip end.

Inductive life := Absent | Building | Alive | Dying | Dead.

(** what a thread has still to do *)
Inductive item := Run (c : code) | Built (o : object) | Died (o : object).

(** [used b o l]: [o] was used when it was in state [l], by code of [b]: the destructor of [b] or work given to [b]
    (None: the code that runs until main returns) *)
Inductive event := used (b : option object) (o : object) (l : life).

Record world := World { status : object -> life; order : list object; jobs : list (object * code); events : list event }.
Definition set_life (o : object) (l : life) (w : world) : world :=
  World (fun x => if object_dec x o then l else status w x) (order w) (jobs w) (events w).
Definition register (o : object) (w : world) : world := World (status w) (o :: order w) (jobs w) (events w).
Definition record (e : event) (w : world) : world := World (status w) (order w) (jobs w) (e :: events w).
Definition queue (o : object) (j : code) (w : world) : world := World (status w) (order w) ((o, j) :: jobs w) (events w).

Definition built (l : life) : Prop := l = Alive \/ l = Dying \/ l = Dead.

(** the object that the first call of the code uses *)
Definition first (c : code) : option object := match c with Skip => None | Use o _ | Submit o _ _ => Some o end.

(** one step of a thread that runs code of [b] *)
Inductive tstep (P : program) (b : option object) : world -> list item -> world -> list item -> Prop :=
| t_skip w r : tstep P b w (Run Skip :: r) w r
| t_init w c o r : first c = Some o -> status w o = Absent ->
    tstep P b w (Run c :: r) (set_life o Building w) (Run (ctor P o) :: Built o :: Run c :: r)
| t_built w o r : status w o = Building -> tstep P b w (Built o :: r) (register o (set_life o Alive w)) r
| t_use w o k r : built (status w o) -> tstep P b w (Run (Use o k) :: r) (record (used b o (status w o)) w) (Run k :: r)
| t_submit w o j k r : built (status w o) ->
    tstep P b w (Run (Submit o j k) :: r) (queue o j (record (used b o (status w o)) w)) (Run k :: r).

(** [duty]: the object whose destructor the initial thread runs; [leaving]: main has returned *)
Record state := State { world_of : world; main : list item; leaving : bool; duty : option object;
                        workers : list (object * list item) }.

Inductive step (P : program) : state -> state -> Prop :=
| s_main w m l d ws w' m' : tstep P d w m w' m' -> step P (State w m l d ws) (State w' m' l d ws)
| s_worker w m l d l1 o th l2 w' th' : tstep P (Some o) w th w' th' ->
    step P (State w m l d (l1 ++ (o, th) :: l2)) (State w' m l d (l1 ++ (o, th') :: l2))
  (* a thread of the object takes work *)
| s_take w m l d ws o j j1 j2 : jobs w = j1 ++ (o, j) :: j2 -> status w o = Alive \/ status w o = Dying ->
    step P (State w m l d ws) (State (World (status w) (order w) (j1 ++ j2) (events w)) m l d ((o, [Run j]) :: ws))
| s_end w m l d l1 o l2 : step P (State w m l d (l1 ++ (o, []) :: l2)) (State w m l d (l1 ++ l2))
  (* main returns *)
| s_leave w ws : step P (State w [] false None ws) (State w [] true None ws)
| s_destroy w ws o r : order w = o :: r ->
    step P (State w [] true None ws)
           (State (World (status (set_life o Dying w)) r (jobs w) (events w)) [Run (dtor P o); Died o] true (Some o) ws)
  (* logger.hpp 391-404: the destructor itself does work that is left *)
| s_rest w o r ws j j1 j2 : jobs w = j1 ++ (o, j) :: j2 ->
    step P (State w (Died o :: r) true (Some o) ws)
           (State (World (status w) (order w) (j1 ++ j2) (events w)) (Run j :: Died o :: r) true (Some o) ws)
  (* logger.hpp 386-389, thread_pool.hpp 137-148: the destructor waits for the threads of the object *)
| s_dead w o r ws : (forall th, ~ In (o, th) ws) ->
    step P (State w (Died o :: r) true (Some o) ws) (State (set_life o Dead w) r true None ws).

Definition initial (P : program) : state := State (World (fun _ => Absent) [] [] []) [Run (start P)] false None [].
Inductive reachable (P : program) : state -> Prop :=
| r_init : reachable P (initial P)
| r_step s t : reachable P s -> step P s t -> reachable P t.
