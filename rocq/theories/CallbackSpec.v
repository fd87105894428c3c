(** What the functions of CallbackModel.v should do. *)
From Coq Require Import List Bool.
Import ListNotations.

Section Calls.
Context {A B S : Type}.
(** the callback is called for the elements of [l] in order and returns the results [ys] *)
Inductive calls (f : S -> A -> S * option B) : S -> list A -> list B -> S -> Prop :=
| calls_nil st : calls f st [] [] st
| calls_cons st x st1 y l ys st2 : f st x = (st1, Some y) -> calls f st1 l ys st2 -> calls f st (x :: l) (y :: ys) st2.
(** it is called for [pre], returns [ys], and then throws when called for [x]; it is not called for [post] *)
Definition throws_at (f : S -> A -> S * option B) (st : S) (l pre : list A) (ys : list B) (x : A) (post : list A) (st' : S) : Prop :=
  l = pre ++ x :: post /\ exists st1, calls f st pre ys st1 /\ f st1 x = (st', None).
(** the function is called for the elements of [l] in order, which become those of [l'] *)
Inductive assigns (f : S -> A -> S * A * bool) : S -> list A -> list A -> S -> Prop :=
| assigns_nil st : assigns f st [] [] st
| assigns_cons st x st1 y l ys st2 : f st x = (st1, y, false) -> assigns f st1 l ys st2 -> assigns f st (x :: l) (y :: ys) st2.
End Calls.

Section Stop.
Context {A S : Type}.
(** called for the elements until it returns [b] for [x] *)
Definition stops_at (b : bool) (f : S -> A -> S * option bool) (st : S) (l pre : list A) (x : A) (post : list A) (st' : S) : Prop :=
  l = pre ++ x :: post /\ exists st1, calls f st pre (repeat (negb b) (length pre)) st1 /\ f st1 x = (st', Some b).

(** the elements of [l] for which the callback returned true *)
Fixpoint kept (l : list A) (ks : list bool) : list A :=
  match l, ks with
  | x :: l, k :: ks => if k : bool then x :: kept l ks else kept l ks
  | _, _ => []
  end.
(** what is at the positions of [l] when those to keep have been moved away; [i] is the position of the first *)
Fixpoint left_behind (junk : nat -> A) (i : nat) (l : list A) (ks : list bool) : list A :=
  match l, ks with
  | x :: l, k :: ks => (if k : bool then junk i else x) :: left_behind junk (i + 1) l ks
  | _, _ => []
  end.
End Stop.
