(** Specification vocabulary for the thread pool: statements about the events of an execution and the
    observable parts of a state. *)
From Coq Require Import List Bool Arith ZArith.
From Verif Require Import ListUpdate PoolModel.
Import ListNotations.

(** * What the events say *)
Definition started (e : event) : list nat := match e with EStart _ t => [t] | _ => [] end.
Definition finished (e : event) : list nat := match e with EFinish t => [t] | _ => [] end.
Definition given (e : event) : list nat := match e with ESubmit t _ | ERunAt t _ _ => [t] | _ => [] end.
(** the tasks started / finished / given to the pool, in order *)
Definition starts (tr : list event) : list nat := flat_map started tr.
Definition finishes (tr : list event) : list nat := flat_map finished tr.
Definition givens (tr : list event) : list nat := flat_map given tr.
(** the tasks that entered the queue of waiting tasks, in order *)
Definition entered (e : event) : list nat := match e with ESubmit t _ | EEnqueue t => [t] | _ => [] end.
Definition entries (tr : list event) : list nat := flat_map entered tr.
(** task [t] was given to the pool with priority [p] *)
Definition given_priority (tr : list event) (t : nat) (p : Z) : Prop :=
  In (ESubmit t p) tr \/ exists time, In (ERunAt t time p) tr.
(** the clock, showing [clock] at first, has shown a time of [at_] or later *)
Definition clock_reached (clock : Z) (tr : list event) (at_ : Z) : Prop :=
  (at_ <= clock)%Z \/ exists z, In (ETick z) tr /\ (at_ <= z)%Z.

(** the action set last, join_all at first *)
Definition last_on_stop (tr : list event) : action :=
  fold_left (fun a e => match e with EOnStop b => b | _ => a end) tr JoinAll.
(** the target set last before the destructor was called, [n] at first *)
Fixpoint last_target (n : nat) (tr : list event) : nat :=
  match tr with
  | [] => n
  | EStop :: _ => n
  | ETarget m :: tr => last_target m tr
  | _ :: tr => last_target n tr
  end.
Definition returned_at (k : nat) (l : list cpc) : Prop := nth_error l k = Some CReturned.

(** * What can be seen of a state *)
Definition running_task (w : wpc) : list nat := match w with WRun t => [t] | _ => [] end.
Definition running (s : pool) : list nat := flat_map running_task (workers s).
(** workers that execute a task or have just done so (until they lock the mutex again) *)
Definition busy (w : wpc) : bool := match w with WRun _ | WAfter _ => true | _ => false end.
(** workers whose thread function has returned *)
Definition ended (w : wpc) : Prop := w = WExited \/ w = WGone.
Definition scheduled_tasks (s : pool) : list nat := map (fun e => snd (snd e)) (scheduled s).
Definition waiting_tasks (s : pool) : list nat := map snd (waiting s).

(** tasks return and do not throw or wait for other tasks *)
Definition plain (throws : nat -> bool) (deps : nat -> list nat) : Prop :=
  forall t, throws t = false /\ deps t = [].

(** no step is possible without a caller, a spurious wakeup or a change of the clock *)
Definition quiescent (throws : nat -> bool) (deps : nat -> list nat) (s : pool) : Prop :=
  forall e s', ~ internal throws deps s e s'.

(** no call of run_at is between testing m_scheduler and assigning it *)
Definition handoff (s : pool) : nat := 2 * pend_spawn s + length (pend_assign s).
(** a step that leaves alone a call of run_at that is at that point: it is not another call of run_at, and does
    not move the last scheduled task to the queue (unless the pool is stopping) *)
Definition orderly (s : pool) (e : event) (s' : pool) : Prop :=
  match e with
  | ERunAt _ _ _ => handoff s = 0
  | EEnqueue _ => handoff s = 0 \/ stopping s = true \/ scheduled_tasks s' <> []
  | _ => True
  end.
(** executions of such steps *)
Inductive exec_calm (throws : nat -> bool) (deps : nat -> list nat) (s0 : pool) : list event -> pool -> Prop :=
| calm_nil : exec_calm throws deps s0 [] s0
| calm_snoc tr s e s' : exec_calm throws deps s0 tr s -> step throws deps s e s' ->
    orderly s e s' -> exec_calm throws deps s0 (tr ++ [e]) s'.
