(** Model of pluto::safe_lru_cache (/repo/include/pluto/safe_lru_cache.hpp) used by any number of threads.
    Every member function takes m_mutex (shared or exclusive), calls the function of the same name of
    m_lruCache, and releases m_mutex when it returns.  The call on m_lruCache is not atomic here: it reads
    the cache when it begins and, if it is a non-const function, writes the cache when it ends, so that
    overlapping calls would overwrite each other's effects. *)
From Coq Require Import List Bool Arith.
From Verif Require Import Base LruApi LruModel ListUpdate.
Import ListNotations.

Section SafeLru.
Context {K V : Type} (ltb : K -> K -> bool).
Notation op := (lru_op K V).
Notation res := (lru_res V).

Inductive lock_kind := Shared | Exclusive.
(** which lock each function takes *)
Definition lock_of (o : op) : lock_kind :=
  match o with
  | Size => Shared               (* 39-43 *)
  | Capacity => Shared           (* 45-49 *)
  | Empty => Shared              (* 51-55 *)
  | Contains _ => Shared         (* 57-61 *)
  | Clear => Exclusive           (* 63-67 *)
  | SetCapacity _ => Exclusive   (* 69-73 *)
  | Insert _ _ => Exclusive      (* 75-79 *)
  | InsertOrAssign _ _ => Exclusive (* 81-85 *)
  | Get _ _ => Exclusive         (* 87-91 *)
  | Remove _ => Exclusive        (* 93-97 *)
  end.

(** the const member functions of lru_cache (lru_cache.hpp 36-54): they do not write the cache *)
Definition is_const (o : op) : bool :=
  match o with Size | Capacity | Empty | Contains _ => true | _ => false end.

(** Where a thread is.  [Calling]: waiting for the lock; [Locked]: holds it; [Body]: inside the call on
    m_lruCache, which has read the given state; [Finished]: after it, still holding the lock; [Released]:
    lock released, about to return; [Crashed]: the call was undefined or threw. *)
Inductive pc :=
| Idle | Calling (o : op) | Locked (o : op) | Body (o : op) (seen : st (K:=K) (V:=V))
| Finished (o : op) (r : res) | Released (o : op) (r : res) | Crashed.

(** a thread has returned from [done] calls *)
Record thread := Th { done : nat; at_ : pc }.

(** m_mutex (27) as the thread holding it exclusively and those sharing it; m_lruCache (28) *)
Record sys := Sys { writer : option nat; readers : list nat; cache_ : st (K:=K) (V:=V); threads : list thread }.

(** calls and returns; the call [(t, k)] is the k-th of thread t *)
Definition call_id : Type := nat * nat.
Inductive event := Inv (c : call_id) (o : op) | Res (c : call_id) (r : res).

(** the calls each thread makes *)
Variable programs : list (list op).

Definition goto (s : sys) (t : nat) (th : thread) : list thread := update t th (threads s).

Inductive step (s : sys) : option event -> sys -> Prop :=
| step_call t k o p :
    nth_error (threads s) t = Some (Th k Idle) -> nth_error programs t = Some p -> nth_error p k = Some o ->
    step s (Some (Inv (t, k) o)) (Sys (writer s) (readers s) (cache_ s) (goto s t (Th k (Calling o))))
| step_lock_shared t k o :
    nth_error (threads s) t = Some (Th k (Calling o)) -> lock_of o = Shared -> writer s = None ->
    step s None (Sys None (t :: readers s) (cache_ s) (goto s t (Th k (Locked o))))
| step_lock_exclusive t k o :
    nth_error (threads s) t = Some (Th k (Calling o)) -> lock_of o = Exclusive ->
    writer s = None -> readers s = [] ->
    step s None (Sys (Some t) [] (cache_ s) (goto s t (Th k (Locked o))))
| step_begin t k o :
    nth_error (threads s) t = Some (Th k (Locked o)) ->
    step s None (Sys (writer s) (readers s) (cache_ s) (goto s t (Th k (Body o (cache_ s)))))
| step_end t k o seen :
    nth_error (threads s) t = Some (Th k (Body o seen)) ->
    step s None
      (match call ltb no_fault o seen with
       | Ret (c, Val r) =>
           Sys (writer s) (readers s) (if is_const o then cache_ s else c) (goto s t (Th k (Finished o r)))
       | _ => Sys (writer s) (readers s) (cache_ s) (goto s t (Th k Crashed))
       end)
| step_unlock t k o r :
    nth_error (threads s) t = Some (Th k (Finished o r)) ->
    step s None
      (match lock_of o with
       | Shared => Sys (writer s) (List.remove Nat.eq_dec t (readers s)) (cache_ s) (goto s t (Th k (Released o r)))
       | Exclusive => Sys None (readers s) (cache_ s) (goto s t (Th k (Released o r)))
       end)
| step_return t k o r :
    nth_error (threads s) t = Some (Th k (Released o r)) ->
    step s (Some (Res (t, k) r)) (Sys (writer s) (readers s) (cache_ s) (goto s t (Th (S k) Idle))).

(** constructed with capacity [cap] (36-37), before the threads' first calls *)
Definition initial (cap : nat) : sys :=
  Sys None [] (mkSt 0 (new_cache cap)) (map (fun _ => Th 0 Idle) programs).

(** executions: number of steps and the calls and returns in the order they happen *)
Inductive exec (cap : nat) : nat -> list event -> sys -> Prop :=
| exec_start : exec cap 0 [] (initial cap)
| exec_step n h s e s' : exec cap n h s -> step s e s' ->
    exec cap (S n) (h ++ match e with Some e => [e] | None => [] end) s'.
End SafeLru.
