(** What the properties about mutexes and data races speak of: the next steps of the threads of a state. *)
From Coq Require Import List Bool Arith.
From Verif Require Import ListUpdate LockModel.
Import ListNotations.

Section Spec.
Context {L : Type}.
(** thread [i] is about to execute [p] *)
Definition next (s : state L) (i : nat) (p : stmt L) : Prop :=
  exists k r g, nth_error (threads s) i = Some (Th k (p :: r) g).
(** thread [i] is about to access [x]; [w] says whether it writes *)
Definition accesses (s : state L) (i : nat) (x : L) (w : bool) : Prop := next s i (if w then Write x else Read x).
(** a data race on [x]: two threads are about to access it, and one of them writes *)
Definition race (s : state L) (x : L) : Prop :=
  exists i j w, i <> j /\ accesses s i x true /\ accesses s j x w.
(** a thread locks (or waits with) a mutex it already owns, or unlocks a mutex it does not own *)
Definition misuse (s : state L) : Prop :=
  (exists i m, next s i (Lock m) /\ holder s m = Some i) \/
  (exists i m, (next s i (Unlock m) \/ next s i (Wait m)) /\ holder s m <> Some i).
End Spec.
