(** Model of pluto::thread_pool (/repo/include/pluto/thread_pool.hpp) as a transition system.

    Threads: the workers, the scheduler threads, the thread that runs the destructor, and any number of
    callers, which may call any member function at any time.  A step is one critical section of m_mutex
    (what a thread does between locking it and unlocking it or waiting on a condition variable), one
    notification made without the lock, or one other action outside the lock; steps of different threads
    interleave in any order.  Condition variables wake the threads that wait on them when notified and,
    spuriously, at any time.  Creating threads and allocating memory do not fail here. *)
From Coq Require Import List Bool Arith ZArith.
From Verif Require Import ListUpdate.
Import ListNotations.

(** 60-64 *)
Inductive action := JoinAll | CompleteTasks.

(** Tasks are numbered in the order in which they are given to the pool.  An entry of m_scheduledTasks (94):
    its time, priority and task. *)
Definition sched_entry : Type := Z * (Z * nat).

(** Where a worker (385-431) is: about to lock m_mutex and test the loop condition; waiting on
    m_workersCondition (399); running a task (415); after the task, about to lock again (417); returned while
    the pool is stopping; returned after detaching and erasing itself (422-430). *)
Inductive wpc := WReady | WWait | WRun (t : nat) | WAfter (t : nat) | WExited | WGone.
(** Where a scheduler thread (362-383) is: about to lock m_mutex and test the loop condition; in wait_until
    (369) for the entry [begin]; after its timing out, about to lock; returned. *)
Inductive spc := SReady | SWait (e : sched_entry) | STimedOut (e : sched_entry) | SDone.
(** A call of wait_until_no_tasks_waiting / wait_until_all_tasks_complete (341-359): about to test the
    condition, waiting on the condition variable, returned. *)
Inductive cpc := CCheck | CBlocked | CReturned.
(** The destructor (127-149): not called, m_isStopping set, workers notified, schedulers notified, workers
    joined, returned. *)
Inductive dpc := DNone | DStopped | DNotified | DJoining | DJoined | DDone.
(** [Terminated]: std::terminate was called; [Undefined]: undefined behaviour happened. *)
Inductive pool_status := Alive | Terminated | Undefined.

Record pool := Pool {
  status : pool_status;
  workers : list wpc;               (* m_workers (97) and the threads; all but [WGone] are in the map *)
  waiting : list (Z * nat);         (* m_waitingTasks (99): priority and task, in the order of the multimap *)
  scheduled : list sched_entry;     (* m_scheduledTasks (100), in the order of the multimap *)
  schedulers : list spc;            (* the scheduler threads created so far *)
  sched_obj : option nat;           (* m_scheduler (98): the thread it owns, if it is joinable *)
  onStop : action;                  (* m_onStop (106) *)
  stopping : bool;                  (* m_isStopping (107) *)
  target : nat;                     (* m_targetWorkersSize (108) *)
  active : nat;                     (* m_activeWorkersSize (109) *)
  pend_one : nat;                   (* callers about to m_workersCondition.notify_one() (261), or the scheduler (375) *)
  pend_all : nat;                   (* callers about to m_workersCondition.notify_all() (237) *)
  pend_sched : nat;                 (* callers about to m_schedulerCondition.notify_one() (313) *)
  pend_spawn : nat;                 (* callers about to create a scheduler thread (307) *)
  pend_assign : list nat;           (* callers about to assign the created thread to m_scheduler (307) *)
  all_waiters : list cpc;           (* calls of wait_until_all_tasks_complete *)
  none_waiters : list cpc;          (* calls of wait_until_no_tasks_waiting *)
  syncs : list (nat * bool);        (* calls of run_sync: the task, and whether the call has returned *)
  completed : list nat;             (* tasks that have returned; for run_sync's their promise is set *)
  dtor : dpc;
  now : Z;                          (* what the clock shows *)
  next : nat                        (* the next task's number *)
}.

Definition set_status (x : pool_status) (s : pool) : pool :=
  Pool x (workers s) (waiting s) (scheduled s) (schedulers s) (sched_obj s) (onStop s) (stopping s) (target s) (active s) (pend_one s) (pend_all s) (pend_sched s) (pend_spawn s) (pend_assign s) (all_waiters s) (none_waiters s) (syncs s) (completed s) (dtor s) (now s) (next s).
Definition set_workers (x : list wpc) (s : pool) : pool :=
  Pool (status s) x (waiting s) (scheduled s) (schedulers s) (sched_obj s) (onStop s) (stopping s) (target s) (active s) (pend_one s) (pend_all s) (pend_sched s) (pend_spawn s) (pend_assign s) (all_waiters s) (none_waiters s) (syncs s) (completed s) (dtor s) (now s) (next s).
Definition set_waiting (x : list (Z * nat)) (s : pool) : pool :=
  Pool (status s) (workers s) x (scheduled s) (schedulers s) (sched_obj s) (onStop s) (stopping s) (target s) (active s) (pend_one s) (pend_all s) (pend_sched s) (pend_spawn s) (pend_assign s) (all_waiters s) (none_waiters s) (syncs s) (completed s) (dtor s) (now s) (next s).
Definition set_scheduled (x : list sched_entry) (s : pool) : pool :=
  Pool (status s) (workers s) (waiting s) x (schedulers s) (sched_obj s) (onStop s) (stopping s) (target s) (active s) (pend_one s) (pend_all s) (pend_sched s) (pend_spawn s) (pend_assign s) (all_waiters s) (none_waiters s) (syncs s) (completed s) (dtor s) (now s) (next s).
Definition set_schedulers (x : list spc) (s : pool) : pool :=
  Pool (status s) (workers s) (waiting s) (scheduled s) x (sched_obj s) (onStop s) (stopping s) (target s) (active s) (pend_one s) (pend_all s) (pend_sched s) (pend_spawn s) (pend_assign s) (all_waiters s) (none_waiters s) (syncs s) (completed s) (dtor s) (now s) (next s).
Definition set_sched_obj (x : option nat) (s : pool) : pool :=
  Pool (status s) (workers s) (waiting s) (scheduled s) (schedulers s) x (onStop s) (stopping s) (target s) (active s) (pend_one s) (pend_all s) (pend_sched s) (pend_spawn s) (pend_assign s) (all_waiters s) (none_waiters s) (syncs s) (completed s) (dtor s) (now s) (next s).
Definition set_onStop (x : action) (s : pool) : pool :=
  Pool (status s) (workers s) (waiting s) (scheduled s) (schedulers s) (sched_obj s) x (stopping s) (target s) (active s) (pend_one s) (pend_all s) (pend_sched s) (pend_spawn s) (pend_assign s) (all_waiters s) (none_waiters s) (syncs s) (completed s) (dtor s) (now s) (next s).
Definition set_stopping (x : bool) (s : pool) : pool :=
  Pool (status s) (workers s) (waiting s) (scheduled s) (schedulers s) (sched_obj s) (onStop s) x (target s) (active s) (pend_one s) (pend_all s) (pend_sched s) (pend_spawn s) (pend_assign s) (all_waiters s) (none_waiters s) (syncs s) (completed s) (dtor s) (now s) (next s).
Definition set_target (x : nat) (s : pool) : pool :=
  Pool (status s) (workers s) (waiting s) (scheduled s) (schedulers s) (sched_obj s) (onStop s) (stopping s) x (active s) (pend_one s) (pend_all s) (pend_sched s) (pend_spawn s) (pend_assign s) (all_waiters s) (none_waiters s) (syncs s) (completed s) (dtor s) (now s) (next s).
Definition set_active (x : nat) (s : pool) : pool :=
  Pool (status s) (workers s) (waiting s) (scheduled s) (schedulers s) (sched_obj s) (onStop s) (stopping s) (target s) x (pend_one s) (pend_all s) (pend_sched s) (pend_spawn s) (pend_assign s) (all_waiters s) (none_waiters s) (syncs s) (completed s) (dtor s) (now s) (next s).
Definition set_pend_one (x : nat) (s : pool) : pool :=
  Pool (status s) (workers s) (waiting s) (scheduled s) (schedulers s) (sched_obj s) (onStop s) (stopping s) (target s) (active s) x (pend_all s) (pend_sched s) (pend_spawn s) (pend_assign s) (all_waiters s) (none_waiters s) (syncs s) (completed s) (dtor s) (now s) (next s).
Definition set_pend_all (x : nat) (s : pool) : pool :=
  Pool (status s) (workers s) (waiting s) (scheduled s) (schedulers s) (sched_obj s) (onStop s) (stopping s) (target s) (active s) (pend_one s) x (pend_sched s) (pend_spawn s) (pend_assign s) (all_waiters s) (none_waiters s) (syncs s) (completed s) (dtor s) (now s) (next s).
Definition set_pend_sched (x : nat) (s : pool) : pool :=
  Pool (status s) (workers s) (waiting s) (scheduled s) (schedulers s) (sched_obj s) (onStop s) (stopping s) (target s) (active s) (pend_one s) (pend_all s) x (pend_spawn s) (pend_assign s) (all_waiters s) (none_waiters s) (syncs s) (completed s) (dtor s) (now s) (next s).
Definition set_pend_spawn (x : nat) (s : pool) : pool :=
  Pool (status s) (workers s) (waiting s) (scheduled s) (schedulers s) (sched_obj s) (onStop s) (stopping s) (target s) (active s) (pend_one s) (pend_all s) (pend_sched s) x (pend_assign s) (all_waiters s) (none_waiters s) (syncs s) (completed s) (dtor s) (now s) (next s).
Definition set_pend_assign (x : list nat) (s : pool) : pool :=
  Pool (status s) (workers s) (waiting s) (scheduled s) (schedulers s) (sched_obj s) (onStop s) (stopping s) (target s) (active s) (pend_one s) (pend_all s) (pend_sched s) (pend_spawn s) x (all_waiters s) (none_waiters s) (syncs s) (completed s) (dtor s) (now s) (next s).
Definition set_all_waiters (x : list cpc) (s : pool) : pool :=
  Pool (status s) (workers s) (waiting s) (scheduled s) (schedulers s) (sched_obj s) (onStop s) (stopping s) (target s) (active s) (pend_one s) (pend_all s) (pend_sched s) (pend_spawn s) (pend_assign s) x (none_waiters s) (syncs s) (completed s) (dtor s) (now s) (next s).
Definition set_none_waiters (x : list cpc) (s : pool) : pool :=
  Pool (status s) (workers s) (waiting s) (scheduled s) (schedulers s) (sched_obj s) (onStop s) (stopping s) (target s) (active s) (pend_one s) (pend_all s) (pend_sched s) (pend_spawn s) (pend_assign s) (all_waiters s) x (syncs s) (completed s) (dtor s) (now s) (next s).
Definition set_syncs (x : list (nat * bool)) (s : pool) : pool :=
  Pool (status s) (workers s) (waiting s) (scheduled s) (schedulers s) (sched_obj s) (onStop s) (stopping s) (target s) (active s) (pend_one s) (pend_all s) (pend_sched s) (pend_spawn s) (pend_assign s) (all_waiters s) (none_waiters s) x (completed s) (dtor s) (now s) (next s).
Definition set_completed (x : list nat) (s : pool) : pool :=
  Pool (status s) (workers s) (waiting s) (scheduled s) (schedulers s) (sched_obj s) (onStop s) (stopping s) (target s) (active s) (pend_one s) (pend_all s) (pend_sched s) (pend_spawn s) (pend_assign s) (all_waiters s) (none_waiters s) (syncs s) x (dtor s) (now s) (next s).
Definition set_dtor (x : dpc) (s : pool) : pool :=
  Pool (status s) (workers s) (waiting s) (scheduled s) (schedulers s) (sched_obj s) (onStop s) (stopping s) (target s) (active s) (pend_one s) (pend_all s) (pend_sched s) (pend_spawn s) (pend_assign s) (all_waiters s) (none_waiters s) (syncs s) (completed s) x (now s) (next s).
Definition set_now (x : Z) (s : pool) : pool :=
  Pool (status s) (workers s) (waiting s) (scheduled s) (schedulers s) (sched_obj s) (onStop s) (stopping s) (target s) (active s) (pend_one s) (pend_all s) (pend_sched s) (pend_spawn s) (pend_assign s) (all_waiters s) (none_waiters s) (syncs s) (completed s) (dtor s) x (next s).
Definition set_next (x : nat) (s : pool) : pool :=
  Pool (status s) (workers s) (waiting s) (scheduled s) (schedulers s) (sched_obj s) (onStop s) (stopping s) (target s) (active s) (pend_one s) (pend_all s) (pend_sched s) (pend_spawn s) (pend_assign s) (all_waiters s) (none_waiters s) (syncs s) (completed s) (dtor s) (now s) x.

(** What can be seen of a step. *)
Inductive event :=
| ESubmit (t : nat) (p : Z)         (* run_async or run_sync put task t into m_waitingTasks *)
| ERunAt (t : nat) (at_ p : Z)      (* run_at put task t into m_scheduledTasks *)
| EEnqueue (t : nat)                (* the scheduler moved task t to m_waitingTasks *)
| EStart (w t : nat)                (* worker w takes task t *)
| EFinish (t : nat)                 (* task t returns *)
| ETarget (n : nat)
| EOnStop (a : action)
| EStop                             (* the destructor sets m_isStopping *)
| EDestroyed                        (* the destructor returns *)
| EAllReturned (k : nat)            (* the k-th call of wait_until_all_tasks_complete returns *)
| ENoneReturned (k : nat)
| ESyncReturned (t : nat)           (* run_sync of task t returns *)
| ETick (z : Z)                     (* the clock changes to z *)
| ETau.                             (* anything else *)

(** * The containers *)
(** emplace into the multimap ordered by is_greater (92): behind the entries that do not come after *)
Fixpoint insert_waiting (p : Z) (t : nat) (l : list (Z * nat)) : list (Z * nat) :=
  match l with
  | [] => [(p, t)]
  | (p', t') :: l' => if (p' <? p)%Z then (p, t) :: l else (p', t') :: insert_waiting p t l'
  end.
(** emplace into the multimap ordered by time (94) *)
Fixpoint insert_scheduled (e : sched_entry) (l : list sched_entry) : list sched_entry :=
  match l with
  | [] => [e]
  | e' :: l' => if (fst e <? fst e')%Z then e :: l else e' :: insert_scheduled e l'
  end.
Definition entry_is (e e' : sched_entry) : bool := snd (snd e) =? snd (snd e').

Definition in_map (w : wpc) : bool := match w with WGone => false | _ => true end.
(** m_workers.size() *)
Definition workers_size (s : pool) : nat := length (filter in_map (workers s)).

(** * Getters, 165-217 *)
Definition target_workers_size (s : pool) : nat := target s.
Definition active_workers_size (s : pool) : nat := active s.
Definition waiting_workers_size (s : pool) : Z := Z.of_nat (workers_size s) - Z.of_nat (active s). (* wraps if negative *)
Definition tasks_size (s : pool) : nat := length (waiting s) + active s.
Definition active_tasks_size (s : pool) : nat := active s.
Definition waiting_tasks_size (s : pool) : nat := length (waiting s).
Definition scheduled_tasks_size (s : pool) : nat := length (scheduled s).
Definition on_stop (s : pool) : action := onStop s.

(** * Notifications *)
Definition wake_worker (w : wpc) : wpc := match w with WWait => WReady | _ => w end.
Definition wake_sched (c : spc) : spc := match c with SWait _ => SReady | _ => c end.
Definition wake_caller (c : cpc) : cpc := match c with CBlocked => CCheck | _ => c end.

(** * A worker's critical section, 387-430: from the loop condition to waiting, unlocking or returning.
    A worker coming back from a task decrements m_activeWorkersSize first (418). *)
Definition is_empty {A} (l : list A) : bool := match l with [] => true | _ => false end.
Definition continues (s : pool) : bool := (* 389-390 *)
  (workers_size s <=? target s) &&
  (negb (stopping s) || (match onStop s with CompleteTasks => true | JoinAll => false end && negb (is_empty (waiting s)))).
Definition goto (i : nat) (w : wpc) (s : pool) : pool := set_workers (update i w (workers s)) s.

Definition work (i : nat) (s : pool) : event * pool :=
  if continues s then
    match waiting s with
    | [] => (* 392-400 *)
        let s := if active s =? 0 then set_all_waiters (map wake_caller (all_waiters s)) s else s in
        (ETau, goto i WWait s)
    | (p, t) :: rest => (* 403-413 *)
        let s := set_waiting rest s in
        let s := if is_empty rest then set_none_waiters (map wake_caller (none_waiters s)) s else s in
        (EStart i t, goto i (WRun t) (set_active (S (active s)) s))
    end
  else (ETau, goto i (if stopping s then WExited else WGone) s). (* 422-430 *)

Definition work_from (i : nat) (w : wpc) (s : pool) : event * pool :=
  match w with WAfter _ => work i (set_active (active s - 1) s) | _ => work i s end.

(** * A scheduler's critical section *)
Definition sgoto (j : nat) (c : spc) (s : pool) : pool := set_schedulers (update j c (schedulers s)) s.
(** from the loop condition (366) to wait_until or returning; detach() (381) of a thread object that is not
    joinable throws, which ends the process *)
Definition sched_loop (j : nat) (s : pool) : pool :=
  match scheduled s with
  | e :: _ =>
      if negb (stopping s) then sgoto j (SWait e) s
      else sgoto j SDone s
  | [] =>
      if negb (stopping s) then
        match sched_obj s with
        | Some _ => set_sched_obj None (sgoto j SDone s)
        | None => set_status Terminated (sgoto j SDone s)
        end
      else sgoto j SDone s
  end.
(** after the timeout (371-375); erasing an entry that is not there is undefined *)
Definition sched_move (j : nat) (e : sched_entry) (s : pool) : event * pool :=
  if existsb (entry_is e) (scheduled s) then
    let s := set_waiting (insert_waiting (fst (snd e)) (snd (snd e)) (waiting s)) s in
    let s := set_scheduled (filter (fun e' => negb (entry_is e e')) (scheduled s)) s in
    (EEnqueue (snd (snd e)), sched_loop j (set_pend_one (S (pend_one s)) s))
  else (ETau, set_status Undefined s).

Section Pool.
(** the tasks that throw, and the tasks each task waits for (by calling run_sync itself, say) before it returns *)
Variable throws : nat -> bool.
Variable deps : nat -> list nat.

(** Callers: other threads before the destructor is called, and running tasks at any time. *)
Definition may_call (s : pool) : Prop := dtor s = DNone \/ exists i t, nth_error (workers s) i = Some (WRun t).

Definition submit (p : Z) (s : pool) : pool := (* the locked part of run_async, 255-258 *)
  set_next (S (next s)) (set_pend_one (S (pend_one s)) (set_waiting (insert_waiting p (next s) (waiting s)) s)).

Inductive client (s : pool) : event -> pool -> Prop :=
| c_run_async p : may_call s -> client s (ESubmit (next s) p) (submit p s)                       (* 251-262 *)
| c_run_sync p : may_call s ->
    client s (ESubmit (next s) p) (set_syncs ((next s, false) :: syncs s) (submit p s))           (* 271-286 *)
| c_run_at time p : may_call s ->                                                                 (* 295-315 *)
    client s (ERunAt (next s) time p)
      (let l := insert_scheduled (time, (p, next s)) (scheduled s) in
       let s' := set_next (S (next s)) (set_scheduled l s) in
       match sched_obj s with
       | None => set_pend_spawn (S (pend_spawn s)) s'
       | Some _ =>
           if match l with e :: _ => (time =? fst e)%Z | [] => false end
           then set_pend_sched (S (pend_sched s)) s' else s'
       end)
| c_target n : may_call s ->                                                                      (* 219-242 *)
    client s (ETarget n)
      (if stopping s then s
       else let s1 := set_workers (workers s ++ repeat WReady (n - workers_size s)) (set_target n s) in
            if n <? workers_size s1 then set_pend_all (S (pend_all s1)) s1 else s1)
| c_on_stop a : may_call s -> client s (EOnStop a) (set_onStop a s)                               (* 244-249 *)
| c_wait_all : may_call s -> client s ETau (set_all_waiters (all_waiters s ++ [CCheck]) s)        (* 351-359 *)
| c_wait_none : may_call s -> client s ETau (set_none_waiters (none_waiters s ++ [CCheck]) s)     (* 341-349 *)
| c_destroy : dtor s = DNone -> client s EStop (set_dtor DStopped (set_stopping true s)).         (* 129-132 *)

(** Steps that need no caller and no spurious wakeup. *)
Inductive internal (s : pool) : event -> pool -> Prop :=
| i_work i w : nth_error (workers s) i = Some w -> (match w with WReady | WAfter _ => True | _ => False end) ->
    internal s (fst (work_from i w s)) (snd (work_from i w s))
| i_finish i t : nth_error (workers s) i = Some (WRun t) -> throws t = false -> incl (deps t) (completed s) ->
    internal s (EFinish t) (set_completed (t :: completed s) (goto i (WAfter t) s))               (* 415 *)
| i_throw i t : nth_error (workers s) i = Some (WRun t) -> throws t = true ->
    internal s ETau (set_status Terminated s)
| i_notify_one i n : pend_one s = S n -> nth_error (workers s) i = Some WWait ->
    internal s ETau (set_pend_one n (goto i WReady s))                                            (* 261, 375 *)
| i_notify_none n : pend_one s = S n -> (forall i, nth_error (workers s) i <> Some WWait) ->
    internal s ETau (set_pend_one n s)
| i_notify_all n : pend_all s = S n ->
    internal s ETau (set_pend_all n (set_workers (map wake_worker (workers s)) s))                (* 237 *)
| i_notify_sched j e n : pend_sched s = S n -> nth_error (schedulers s) j = Some (SWait e) ->
    internal s ETau (set_pend_sched n (sgoto j SReady s))                                         (* 313 *)
| i_notify_no_sched n : pend_sched s = S n -> (forall j e, nth_error (schedulers s) j <> Some (SWait e)) ->
    internal s ETau (set_pend_sched n s)
| i_spawn n : pend_spawn s = S n ->                                                               (* 307, right side *)
    internal s ETau (set_pend_spawn n (set_pend_assign (length (schedulers s) :: pend_assign s)
                      (set_schedulers (schedulers s ++ [SReady]) s)))
| i_assign j l1 l2 : pend_assign s = l1 ++ j :: l2 ->                                             (* 307, = *)
    internal s ETau (match sched_obj s with
                     | Some _ => set_status Terminated (set_pend_assign (l1 ++ l2) s) (* assigning to a joinable std::thread *)
                     | None => set_sched_obj (Some j) (set_pend_assign (l1 ++ l2) s)
                     end)
| i_sched_loop j : nth_error (schedulers s) j = Some SReady -> internal s ETau (sched_loop j s)
| i_sched_timeout j e : nth_error (schedulers s) j = Some (SWait e) -> (fst e <= now s)%Z ->      (* 369 *)
    internal s ETau (sgoto j (STimedOut e) s)
| i_sched_move j e : nth_error (schedulers s) j = Some (STimedOut e) ->
    internal s (fst (sched_move j e s)) (snd (sched_move j e s))
| i_check_all k : nth_error (all_waiters s) k = Some CCheck ->                                    (* 353-358 *)
    internal s (if is_empty (waiting s) && (active s =? 0) then EAllReturned k else ETau)
      (set_all_waiters (update k (if is_empty (waiting s) && (active s =? 0) then CReturned else CBlocked) (all_waiters s)) s)
| i_check_none k : nth_error (none_waiters s) k = Some CCheck ->                                  (* 343-348 *)
    internal s (if is_empty (waiting s) then ENoneReturned k else ETau)
      (set_none_waiters (update k (if is_empty (waiting s) then CReturned else CBlocked) (none_waiters s)) s)
| i_sync_return l1 l2 t : syncs s = l1 ++ (t, false) :: l2 -> In t (completed s) ->               (* 285 *)
    internal s (ESyncReturned t) (set_syncs (l1 ++ (t, true) :: l2) s)
| d_notify_workers : dtor s = DStopped ->                                                         (* 134 *)
    internal s ETau (set_dtor DNotified (set_workers (map wake_worker (workers s)) s))
| d_notify_scheds : dtor s = DNotified ->                                                         (* 135 *)
    internal s ETau (set_dtor DJoining (set_schedulers (map wake_sched (schedulers s)) s))
| d_join_workers : dtor s = DJoining -> Forall (fun w => w = WExited \/ w = WGone) (workers s) -> (* 137-143 *)
    internal s ETau (set_dtor DJoined s)
| d_join_none : dtor s = DJoined -> sched_obj s = None -> internal s EDestroyed (set_dtor DDone s) (* 145 *)
| d_join_sched j : dtor s = DJoined -> sched_obj s = Some j -> nth_error (schedulers s) j = Some SDone -> (* 145-148 *)
    internal s EDestroyed (set_dtor DDone (set_sched_obj None s)).

(** Spurious wakeups of the five condition variable waits. *)
Inductive spurious (s : pool) : event -> pool -> Prop :=
| sp_worker i : nth_error (workers s) i = Some WWait -> spurious s ETau (goto i WReady s)
| sp_sched j e : nth_error (schedulers s) j = Some (SWait e) -> spurious s ETau (sgoto j SReady s)
| sp_all k : nth_error (all_waiters s) k = Some CBlocked ->
    spurious s ETau (set_all_waiters (update k CCheck (all_waiters s)) s)
| sp_none k : nth_error (none_waiters s) k = Some CBlocked ->
    spurious s ETau (set_none_waiters (update k CCheck (none_waiters s)) s).

(** The clock may change to any value. *)
Inductive tick (s : pool) : event -> pool -> Prop :=
| tk z : tick s (ETick z) (set_now z s).

Definition step (s : pool) (e : event) (s' : pool) : Prop :=
  status s = Alive /\ (client s e s' \/ internal s e s' \/ spurious s e s' \/ tick s e s').

(** The constructor, 112-125. *)
Definition initial (n : nat) (clock : Z) : pool :=
  Pool Alive (repeat WReady n) [] [] [] None JoinAll false n 0 0 0 0 0 [] [] [] [] [] DNone clock 0.

(** Executions: the events of the steps from [s0] to [s], in order. *)
Inductive exec (s0 : pool) : list event -> pool -> Prop :=
| exec_nil : exec s0 [] s0
| exec_snoc tr s e s' : exec s0 tr s -> step s e s' -> exec s0 (tr ++ [e]) s'.

(** [n] internal steps *)
Inductive internals : nat -> pool -> pool -> Prop :=
| internals_0 s : internals 0 s s
| internals_S n s e s' s'' : status s = Alive -> internal s e s' -> internals n s' s'' -> internals (S n) s s''.
End Pool.
