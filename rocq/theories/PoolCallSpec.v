(** Specification of the use of a promise, over what happens to it in order. *)
From Coq Require Import List.
From Verif Require Import PoolCallModel.
Import ListNotations.

(** the calls of member functions of the promise begin while it exists: after it is made and before it is destroyed *)
Definition begins (e : pevent) : Prop := e = PFuture \/ e = PSetBegin \/ e = PDestroy.
Definition begun_while_it_exists (tr : list pevent) : Prop := forall l e l', tr = l ++ e :: l' -> begins e -> In PMake l /\ ~ In PDestroy l.
(** and they end before it is destroyed *)
Definition ended_before_destroyed (tr : list pevent) : Prop := forall l l', tr = l ++ PDestroy :: l' -> In PSetBegin l -> In PSetEnd l.
