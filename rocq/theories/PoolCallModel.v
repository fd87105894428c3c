(** Model of the number of workers of a pool made without arguments (/repo/include/pluto/thread_pool.hpp 112) and of the
    promise of one call of run_sync (271-286).

    The promise: the caller makes it, puts a task that refers to it into the queue, asks it for its future, waits for
    that, and destroys it on return; the worker that runs the task calls set_value.  Inside set_value there is a moment
    at which the future becomes ready, and from which the caller's wait may return, and a later one at which the call
    returns to the worker.  What the library does between the two is not modelled.  The worker may never come to the task. *)
From Coq Require Import List Bool ZArith.
From Verif Require Import PoolModel.
Import ListNotations.

(** 112: the constructor's default argument; [hw] is what std::thread::hardware_concurrency() returns, which may be 0 *)
Definition default_pool (hw : nat) (clock : Z) : pool := initial hw clock.

(** What happens to one promise, and when the task returns. *)
Inductive pevent := PMake | PGive | PFuture | PWaited | PDestroy (* the caller: 275, 276-282, 285, 285, 286 *)
                  | PStart | PTaskDone | PSetBegin | PReady | PSetEnd. (* the worker: 277, 278, 279, 279, 279 *)
(** the caller: before making the promise, after making it, after run_async, after get_future, after wait, returned *)
Inductive kpc := KBefore | KMade | KGiven | KFuture | KWaited | KGone.
(** the task: not begun, running, returned, in set_value, in set_value with the future ready, finished, has thrown *)
Inductive jpc := JIdle | JTask | JReturned | JSetting | JReady | JDone | JThrew.

Section Call.
(** whether the task throws *)
Variable throws : bool.
(** [tau] for the throwing of the task, which ends the process *)
Inductive cstep : kpc * jpc -> list pevent -> kpc * jpc -> Prop :=
| k_make j : cstep (KBefore, j) [PMake] (KMade, j)                                                (* 275 *)
| k_give j : j <> JThrew -> cstep (KMade, j) [PGive] (KGiven, j)                                  (* 276-282 *)
| k_future j : j <> JThrew -> cstep (KGiven, j) [PFuture] (KFuture, j)                            (* 285 *)
| k_wait j : j = JReady \/ j = JDone -> cstep (KFuture, j) [PWaited] (KWaited, j)                 (* 285 *)
| k_destroy j : j <> JThrew -> cstep (KWaited, j) [PDestroy] (KGone, j)                           (* 286 *)
| j_start k : k <> KBefore -> k <> KMade -> cstep (k, JIdle) [PStart] (k, JTask)                  (* 277 *)
| j_return k : throws = false -> cstep (k, JTask) [PTaskDone] (k, JReturned)                      (* 278 *)
| j_throw k : throws = true -> cstep (k, JTask) [] (k, JThrew)                                    (* 278 *)
| j_begin k : cstep (k, JReturned) [PSetBegin] (k, JSetting)                                      (* 279 *)
| j_ready k : cstep (k, JSetting) [PReady] (k, JReady)                                            (* 279 *)
| j_end k : cstep (k, JReady) [PSetEnd] (k, JDone).                                               (* 279 *)
Inductive crun : list pevent -> kpc * jpc -> Prop :=
| crun_nil : crun [] (KBefore, JIdle)
| crun_snoc tr s l s' : crun tr s -> cstep s l s' -> crun (tr ++ l) s'.
End Call.
