(** Specification of the functions modelled in AlgoModel.v. *)
From Coq Require Import List Bool ZArith.
Import ListNotations.

(** keeping the elements that the predicate accepts, the predicate being called once for each element, in order *)
Fixpoint filter_in_order {A S : Type} (f : S -> A -> S * bool) (st : S) (l : list A) : S * list A :=
  match l with
  | [] => (st, [])
  | x :: l => let (st1, keep) := f st x in
              let (st2, l') := filter_in_order f st1 l in
              (st2, if keep then x :: l' else l')
  end.
(** the first element of [l] equivalent to [x] *)
Definition first_equiv {B : Type} (less : B -> B -> bool) (x : B) (l : list B) : option B :=
  find (fun y => negb (less x y) && negb (less y x)) l.
(** strictly increasing: what a std::set holds *)
Fixpoint increasing {B : Type} (less : B -> B -> bool) (l : list B) : Prop :=
  match l with [] => True | x :: l' => Forall (fun y => less x y = true) l' /\ increasing less l' end.

(** * pow *)
(** the finite doubles (IEEE 754 binary64) that are integers *)
Definition double_integer (z : Z) : Prop :=
  (exists k e, 0 <= e /\ Z.abs k < 2 ^ 53 /\ z = k * 2 ^ e)%Z /\ (Z.abs z < 2 ^ 1024)%Z.
(** std::pow of doubles that are integers ([None]: not a finite integer): a double, and the power itself if it is one, as
    with any correctly rounded result *)
Definition faithful_pow (cpow : Z -> Z -> option Z) : Prop :=
  (forall a b r, cpow a b = Some r -> double_integer r) /\
  (forall a b, double_integer a -> double_integer b -> (0 <= b)%Z -> double_integer (a ^ b) -> cpow a b = Some (a ^ b)%Z).
