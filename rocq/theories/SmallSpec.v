(** Specification of abs, range and file_name. *)
From Coq Require Import List Bool Arith ZArith.
From Verif Require Import SmallModel.
Import ListNotations.

(** what the operators <, <= and == of the type of a range's bounds have to satisfy *)
Record total_order {T : Type} (ltb leb eqb : T -> T -> bool) : Prop := {
  to_eqb : forall x y, eqb x y = true <-> x = y;
  to_irrefl : forall x, ltb x x = false;
  to_trans : forall x y z, ltb x y = true -> ltb y z = true -> ltb x z = true;
  to_total : forall x y, x = y \/ ltb x y = true \/ ltb y x = true;
  to_leb : forall x y, leb x y = negb (ltb y x)
}.

Section Ranges.
Context {T : Type} (ltb leb : T -> T -> bool).
Definition well_formed (a : range T) : Prop := leb (rbegin a) (rend a) = true.
Definition non_empty (a : range T) : Prop := ltb (rbegin a) (rend a) = true.
(** [p] is one of the points of the half-open range [a] *)
Definition has (a : range T) (p : T) : Prop := leb (rbegin a) p = true /\ ltb p (rend a) = true.
End Ranges.

(** no '/' (47) and no '\' (92) *)
Definition no_slash (s : list Z) : Prop := Forall (fun c => c <> 47 /\ c <> 92)%Z s.
(** [base] is the longest suffix of [path] without '/' and '\' *)
Definition last_component (path base : list Z) : Prop :=
  (exists pre, path = pre ++ base) /\ no_slash base /\
  forall pre base', path = pre ++ base' -> no_slash base' -> length base' <= length base.
