(** The std::function objects (with the values they capture) that pluto::thread_pool owns
    (/repo/include/pluto/thread_pool.hpp): one in each entry of m_scheduledTasks (94) and m_waitingTasks (92), and the local
    variable [task] (404) of a worker, which is destroyed at the end of its block (419), in the critical section that begins at
    417.  The copies made on the way (257, 276-281, 302, 371) are gone, or moved from, at the end of the critical section. *)
From Coq Require Import List Arith.
From Verif Require Import PoolModel.
Import ListNotations.

Definition local_task (w : wpc) : list nat := match w with WRun t | WAfter t => [t] | _ => [] end.
Definition owned (s : pool) : list nat :=
  map (fun e => snd (snd e)) (scheduled s) ++ map snd (waiting s) ++ flat_map local_task (workers s).
