(** Memory-level model of a log buffer (std::list<log_entry>) while the logging thread reads it without holding the
    mutex: /repo/include/pluto/logger.hpp, 740-755 (emplace_front by the logging calls, under the mutex), 897-910
    (begin and end are taken under the mutex, then it is unlocked), 861-863 (the reading loop) and 917-920 (erase,
    under the mutex again).
    The list is the circular doubly linked list of libstdc++ (_List_node_base::_M_hook and _M_unhook) with a sentinel
    and a stored size.  Every access to memory is a step of its own and emits an event.
    Executions start when the logging thread has unlocked the mutex.  The mutex lets one logging call at a time run
    emplace_front, so a single [call] state stands for all of them; any number of calls may follow each other. *)
From Coq Require Import List Bool Arith.
Import ListNotations.

Section Buffer.
Context {E : Type}.

(** node 0 is the sentinel, end() *)
Record memory := Memory { next : nat -> nat; prev : nat -> nat; data : nat -> option E; size : nat; allocated : nat }.
Inductive loc := Next (n : nat) | Prev (n : nat) | Data (n : nat) | Size.
Inductive thread := Reader | Call.
Inductive kind := Read | Write.
Definition event : Type := thread * kind * loc.
Definition set {A} (f : nat -> A) (n : nat) (v : A) : nat -> A := fun m => if m =? n then v else f m.
Definition set_next (n v : nat) (m : memory) : memory := Memory (set (next m) n v) (prev m) (data m) (size m) (allocated m).
Definition set_prev (n v : nat) (m : memory) : memory := Memory (next m) (set (prev m) n v) (data m) (size m) (allocated m).
Definition set_size (v : nat) (m : memory) : memory := Memory (next m) (prev m) (data m) v (allocated m).
(** a new node holding [e] *)
Definition new_node (e : E) (m : memory) : memory :=
  Memory (next m) (prev m) (set (data m) (S (allocated m)) (Some e)) (size m) (S (allocated m)).

(** emplace_front: position = begin(); node = new; hook(node, position); ++size *)
Inductive call :=
| Idle                              (* no call holds the mutex *)
| Begun (pos : nat)                 (* begin() has been read *)
| Created (pos new : nat)           (* the node has been constructed *)
| NextSet (pos new : nat)           (* new->next = pos *)
| PrevRead (pos new q : nat)        (* q = pos->prev *)
| PrevSet (pos new q : nat)         (* new->prev = q *)
| Linked (pos new : nat)            (* q->next = new *)
| Hooked (new : nat).               (* pos->prev = new *)

(** The logging thread, 817 and 841-863: it has read everything from [it] to the end *)
Inductive reader :=
| At (it : nat)                     (* itWritten; next: compare with begin *)
| Moved (it : nat).                 (* --itWritten done; next: read the entry *)
Record state := State { mem : memory; caller : call; rdr : reader; first : nat (* begin, 897 *); entries : list E (* read so far, in the order written to the file *);
  given : list E (* history: the entries of the calls so far, last first *) }.

(** one memory access; the events it consists of.  The result of [size()] (740, 744, under the mutex) is not used here. *)
Inductive step : state -> list event -> state -> Prop :=
| read_prev m c it b es gs : it <> b ->
    step (State m c (At it) b es gs) [(Reader, Read, Prev it)] (State m c (Moved (prev m it)) b es gs)
| read_entry m c it b es gs e : data m it = Some e ->
    step (State m c (Moved it) b es gs) [(Reader, Read, Data it)] (State m c (At it) b (es ++ [e]) gs)
| read_size m c r b es gs : step (State m c r b es gs) [(Call, Read, Size)] (State m c r b es gs)
| call_begin m r b es gs : step (State m Idle r b es gs) [(Call, Read, Next 0)] (State m (Begun (next m 0)) r b es gs)
| call_create m pos r b es gs e :
    step (State m (Begun pos) r b es gs) [(Call, Write, Data (S (allocated m)))] (State (new_node e m) (Created pos (S (allocated m))) r b es (e :: gs))
| call_next m pos new r b es gs :
    step (State m (Created pos new) r b es gs) [(Call, Write, Next new)] (State (set_next new pos m) (NextSet pos new) r b es gs)
| call_prev_read m pos new r b es gs :
    step (State m (NextSet pos new) r b es gs) [(Call, Read, Prev pos)] (State m (PrevRead pos new (prev m pos)) r b es gs)
| call_prev m pos new q r b es gs :
    step (State m (PrevRead pos new q) r b es gs) [(Call, Write, Prev new)] (State (set_prev new q m) (PrevSet pos new q) r b es gs)
| call_link m pos new q r b es gs :
    step (State m (PrevSet pos new q) r b es gs) [(Call, Write, Next q)] (State (set_next q new m) (Linked pos new) r b es gs)
| call_hook m pos new r b es gs :
    step (State m (Linked pos new) r b es gs) [(Call, Write, Prev pos)] (State (set_prev pos new m) (Hooked new) r b es gs)
| call_size m new r b es gs :
    step (State m (Hooked new) r b es gs) [(Call, Read, Size); (Call, Write, Size)] (State (set_size (S (size m)) m) Idle r b es gs).
Inductive exec : state -> list event -> state -> Prop :=
| exec_nil s : exec s [] s
| exec_step s1 tr1 s2 tr2 s3 : exec s1 tr1 s2 -> step s2 tr2 s3 -> exec s1 (tr1 ++ tr2) s3.

(** 897-898: begin() and end() of the buffer in memory [m] *)
Definition unlocked (m : memory) : state := State m Idle (At 0) (next m 0) [] [].

(** 920: erase(itWritten, end), node by node: unhook and destroy *)
Definition unhook (n : nat) (m : memory) : memory :=
  let m' := set_prev (next m n) (prev m n) (set_next (prev m n) (next m n) m) in
  Memory (next m') (prev m') (set (data m') n None) (size m' - 1) (allocated m').
Fixpoint erase (fuel it : nat) (m : memory) : option memory :=
  if it =? 0 then Some m else match fuel with 0 => None | S fuel => erase fuel (next m it) (unhook it m) end.
End Buffer.
Arguments memory : clear implicits.
Arguments state : clear implicits.
