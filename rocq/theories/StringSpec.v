(** Specification of the string functions, independent of the model. *)
From Coq Require Import List Bool.
Import ListNotations.

Section Spec.
Context {A : Type}.

(** [p] occurs in [s] *)
Definition occurs (p s : list A) : Prop := exists u v, s = u ++ p ++ v.

(** the leftmost occurrence of [p] in [s] is after [u] and before [v] *)
Definition first_cut (p s u v : list A) : Prop :=
  s = u ++ p ++ v /\ forall u' v', s = u' ++ p ++ v' -> length u <= length u'.

(** [ps] are the pieces of [s] between the leftmost non-overlapping occurrences of [p] *)
Inductive pieces (p : list A) : list A -> list (list A) -> Prop :=
| pieces_last s : ~ occurs p s -> pieces p s [s]
| pieces_cut s u v ps : first_cut p s u v -> pieces p v ps -> pieces p s (u :: ps).

(** the elements with the separator between consecutive ones *)
Fixpoint interleaved (sep : list A) (parts : list (list A)) : list A :=
  match parts with
  | [] => []
  | [x] => x
  | x :: rest => x ++ sep ++ interleaved sep rest
  end.

(** [ws] are the maximal non-empty runs of characters of [s] that are not separators *)
Definition starts_with_sep (sep : A -> bool) (s : list A) : Prop :=
  match s with [] => True | c :: _ => sep c = true end.

Inductive words (sep : A -> bool) : list A -> list (list A) -> Prop :=
| words_nil : words sep [] []
| words_sep c s ws : sep c = true -> words sep s ws -> words sep (c :: s) ws
| words_word w s ws : w <> [] -> Forall (fun c => sep c = false) w -> starts_with_sep sep s ->
    words sep s ws -> words sep (w ++ s) (w :: ws).

(** [r] is [s] without its leading / trailing spaces *)
Definition lstripped (space : A -> bool) (s r : list A) : Prop :=
  exists a, s = a ++ r /\ Forall (fun c => space c = true) a /\
    (forall c r', r = c :: r' -> space c = false).

Definition rstripped (space : A -> bool) (s r : list A) : Prop :=
  exists b, s = r ++ b /\ Forall (fun c => space c = true) b /\
    (forall c r', r = r' ++ [c] -> space c = false).

Definition stripped (space : A -> bool) (s r : list A) : Prop :=
  exists a b, s = a ++ r ++ b /\ Forall (fun c => space c = true) (a ++ b) /\
    (forall c r', r = c :: r' -> space c = false) /\
    (forall c r', r = r' ++ [c] -> space c = false).

(** calling a function with side effects (on a state) on each element in order *)
Fixpoint in_order {S B C : Type} (f : S -> B -> S * C) (st : S) (l : list B) : S * list C :=
  match l with
  | [] => (st, [])
  | x :: l' => let (st1, y) := f st x in let (st2, ys) := in_order f st1 l' in (st2, y :: ys)
  end.
End Spec.
