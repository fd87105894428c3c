(** What it means that a memory holds a list, and that two threads race. *)
From Coq Require Import List Bool Arith.
From Verif Require Import BufferModel.
Import ListNotations.

(** [b] follows [a] in [l] *)
Definition follows {A} (l : list A) (a b : A) : Prop := exists u v, l = u ++ a :: b :: v.
(** the nodes [ns] (first to last) hold the values [es] and form the list in the memory *)
Record holds {E} (m : memory E) (ns : list nat) (es : list E) : Prop := {
  h_next : forall a b, follows (0 :: ns ++ [0]) a b -> next m a = b;
  h_prev : forall a b, follows (0 :: ns ++ [0]) a b -> prev m b = a;
  h_data : map (data m) ns = map Some es;
  h_nodup : NoDup (0 :: ns);
  h_alloc : forall n, In n ns -> n <= allocated m;
  h_size : size m = length ns }.
(** two accesses of different threads to one location, at least one of them a write *)
Definition conflict (x y : event) : Prop :=
  match x, y with (t1, k1, l1), (t2, k2, l2) => t1 <> t2 /\ l1 = l2 /\ (k1 = Write \/ k2 = Write) end.
