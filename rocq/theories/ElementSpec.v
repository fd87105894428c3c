(** What can be expected of element types, and of a string in which some replacements are made. *)
From Coq Require Import List Bool.
From Verif Require Import StringSpec ElementModel.
Import ListNotations.

Section Elements.
Context {W A : Type} (E : elements W A).
(** an operation that does not throw gives the value of its source *)
Definition proper : Prop :=
  (forall w x w' x' t, construct E w x = (w', x', Some t) -> t = x) /\
  (forall w x y w' x' y', assign E w x y = (w', x', y', false) -> x' = y).
(** an operation that throws changes nothing *)
Definition strong : Prop :=
  (forall w x w' x', construct E w x = (w', x', None) -> x' = x) /\
  (forall w x y w' x' y', assign E w x y = (w', x', y', true) -> x' = x /\ y' = y).
(** moving is copying: the source keeps its value *)
Definition copying : Prop :=
  (forall w x w' x' t, construct E w x = (w', x', t) -> x' = x) /\
  (forall w x y w' x' y' b, assign E w x y = (w', x', y', b) -> y' = y).
End Elements.

Section Strings.
Context {A : Type}.
(** [us] are the pieces of [s] before the first occurrences of [p], [v] is what follows the last of these occurrences *)
Inductive cuts (p : list A) : list A -> list (list A) -> list A -> Prop :=
| cuts_none s : cuts p s [] s
| cuts_more s u v us v' : first_cut p s u v -> cuts p v us v' -> cuts p s (u :: us) v'.
End Strings.
