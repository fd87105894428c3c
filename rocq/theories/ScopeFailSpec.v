(** What scope guards should guarantee about resources and tasks. *)
From Coq Require Import List Bool Arith.
From Verif Require Import ScopeFailModel.
Import ListNotations.

(** resource [r] is held after the events [e] *)
Fixpoint held_from (h : bool) (e : list event) (r : nat) : bool :=
  match e with
  | [] => h
  | Acquired x :: e => held_from (h || (x =? r)) e r
  | Ran x :: e => held_from (h && negb (x =? r)) e r
  | Added _ :: e => held_from h e r
  end.
Definition held (e : list event) (r : nat) : bool := held_from false e r.

(** every added task is run, once, and the last one added first: Added and Ran match like brackets; [k] are the tasks added
    and not yet run *)
Fixpoint brackets (k : list nat) (e : list event) : option (list nat) :=
  match e with
  | [] => Some k
  | Acquired _ :: e => brackets k e
  | Added r :: e => brackets (r :: k) e
  | Ran r :: e => match k with x :: k => if x =? r then brackets k e else None | [] => None end
  end.

(** the task that releases a resource is added before the resource is acquired; [avail] are the tasks of the guards around *)
Fixpoint guarded (avail : list nat) (p : prog) : Prop :=
  match p with
  | Done => True
  | Step (Acquire r) p => In r avail /\ guarded avail p
  | Step (Add r) p => guarded (r :: avail) p
  | Step Work p => guarded avail p
  | Block init body p => guarded (match init with Some r => r :: avail | None => avail end) body /\ guarded avail p
  end.

(** the task that releases a resource is added directly after the resource is acquired; [pending] has just been acquired *)
Fixpoint added_after (pending : option nat) (p : prog) : Prop :=
  match p with
  | Done => pending = None
  | Step Work p => pending = None /\ added_after None p
  | Step (Acquire r) p => pending = None /\ added_after (Some r) p
  | Step (Add r) p => (pending = None \/ pending = Some r) /\ added_after None p
  | Block init body p => (pending = None \/ pending = init) /\ added_after None body /\ added_after None p
  end.
