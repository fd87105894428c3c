(** Specification of the sequence functions. *)
From Coq Require Import List Bool Arith ZArith.
Import ListNotations.

(** [r] occurs in [l] at position [i], elements being compared by [pred left right] *)
Definition occurs_at {A B : Type} (pred : A -> B -> bool) (l : list A) (r : list B) (i : nat) : Prop :=
  i + length r <= length l /\
  forall k x y, nth_error l (i + k) = Some x -> nth_error r k = Some y -> pred x y = true.

(** [x] is the first of the smallest elements of [l], [i] its position *)
Definition first_min {A : Type} (less : A -> A -> bool) (l : list A) (i : nat) (x : A) : Prop :=
  nth_error l i = Some x /\
  (forall j y, nth_error l j = Some y -> less y x = false) /\
  (forall j y, j < i -> nth_error l j = Some y -> less x y = true).

Definition first_max {A : Type} (less : A -> A -> bool) (l : list A) (i : nat) (x : A) : Prop :=
  nth_error l i = Some x /\
  (forall j y, nth_error l j = Some y -> less x y = false) /\
  (forall j y, j < i -> nth_error l j = Some y -> less y x = true).

(** Python's c[start:stop]: the elements whose index is from start to before stop, negative bounds
    counting from the end *)
Definition py_bound (n b : Z) : Z := if (b <? 0)%Z then (b + n)%Z else b.
Definition py_slice {A : Type} (c : list A) (start stop : Z) : list A :=
  let n := Z.of_nat (length c) in
  map snd (filter (fun p => (py_bound n start <=? Z.of_nat (fst p))%Z && (Z.of_nat (fst p) <? py_bound n stop)%Z)
                  (combine (seq 0 (length c)) c)).

Definition total (c : list Z) : Z := fold_right Z.add 0%Z c.
Definition in_range (bits : Z) (sgn : bool) (z : Z) : Prop :=
  if sgn then (- 2 ^ (bits - 1) <= z < 2 ^ (bits - 1))%Z else (0 <= z < 2 ^ bits)%Z.

(** [i] is the position of the first / last element of [l] satisfying [p], the length if there is none *)
Definition first_match {A : Type} (p : A -> bool) (l : list A) (i : nat) : Prop :=
  (exists x, nth_error l i = Some x /\ p x = true /\ forall j y, j < i -> nth_error l j = Some y -> p y = false) \/
  (i = length l /\ forall y, In y l -> p y = false).
Definition last_match {A : Type} (p : A -> bool) (l : list A) (i : nat) : Prop :=
  (exists x, nth_error l i = Some x /\ p x = true /\ forall j y, i < j -> nth_error l j = Some y -> p y = false) \/
  (i = length l /\ forall y, In y l -> p y = false).
