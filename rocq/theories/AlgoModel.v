(** Model of sort, reverse, filter and map of iterator.hpp and container.hpp, and of round and pow of value.hpp
    (/repo/include/pluto): what the other models leave out. *)
From Coq Require Import List Bool Arith ZArith Permutation.
From Verif Require Import Base SeqModel.
Import ListNotations.
Open Scope outcome_scope.

(** * reverse: iterator.hpp 216-222, container.hpp 138-143 *)
Section Reverse.
Context {A : Type}.
(** std::iter_swap of positions [i] and [j] *)
Definition iter_swap (l : list A) (i j : nat) : outcome (list A) :=
  match nth_error l i, nth_error l j with
  | Some x, Some y => Ret (set_nth (set_nth l i y) j x)
  | _, _ => Ub
  end.
(** std::reverse for bidirectional iterators:
    while (first != last && first != --last) std::iter_swap(first++, last); *)
Fixpoint reverse_loop (fuel first last : nat) (l : list A) : outcome (list A) :=
  match fuel with
  | O => OutOfFuel
  | S fuel =>
      if first =? last then Ret l
      else match last with
           | O => Ub
           | S last => if first =? last then Ret l
                       else let* l := iter_swap l first last in reverse_loop fuel (first + 1) last l
           end
  end.
Definition reverse (l : list A) : outcome (list A) := reverse_loop (S (length l)) 0 (length l) l.
(** libstdc++ for random access iterators:
    if (first == last) return; --last; while (first < last) { iter_swap(first, last); ++first; --last; } *)
Fixpoint reverse_ra_loop (fuel first last : nat) (l : list A) : outcome (list A) :=
  match fuel with
  | O => OutOfFuel
  | S fuel =>
      if first <? last
      then let* l := iter_swap l first last in reverse_ra_loop fuel (first + 1) (last - 1) l
      else Ret l
  end.
Definition reverse_ra (l : list A) : outcome (list A) :=
  match l with [] => Ret [] | _ => reverse_ra_loop (length l) 0 (length l - 1) l end.
End Reverse.

(** * sort: iterator.hpp 207-214, container.hpp 129-136.
    What the standard says of std::sort: the predicate has to be a strict weak order on the elements, otherwise the
    call is undefined; the result is any permutation without inversions.  A relation, as the order of equivalent
    elements is not specified. *)
Section Sort.
Context {A : Type}.
Definition strict_weak_on (pred : A -> A -> bool) (l : list A) : Prop :=
  (forall x, In x l -> pred x x = false) /\
  (forall x y z, In x l -> In y l -> In z l -> pred x y = true -> pred y z = true -> pred x z = true) /\
  (forall x y z, In x l -> In y l -> In z l ->
     pred x y = false -> pred y x = false -> pred y z = false -> pred z y = false -> pred x z = false /\ pred z x = false).
Inductive sort (pred : A -> A -> bool) (l : list A) : outcome (list A) -> Prop :=
| sort_ub : ~ strict_weak_on pred l -> sort pred l Ub
| sort_ret l' : strict_weak_on pred l -> Permutation l l' ->
    (forall i j x y, i < j -> nth_error l' i = Some x -> nth_error l' j = Some y -> pred y x = false) ->
    sort pred l (Ret l').
End Sort.

(** * filter with a predicate that has side effects: iterator.hpp 224-231, container.hpp 145-153.
    std::remove_if as in libstdc++: std::find_if up to the first element to remove, then a loop that moves the elements
    to keep.  The state [S] is what the predicate refers to; [f] is the user's predicate, which the lambda negates. *)
Section Filter.
Context {A S : Type}.
Variable f : S -> A -> S * bool.
Fixpoint find_phase (n i : nat) (st : S) (l : list A) : outcome (S * nat) :=
  match n with
  | O => Ret (st, i)
  | Datatypes.S n =>
      match nth_error l i with
      | None => Ub
      | Some x => let (st, keep) := f st x in if negb keep then Ret (st, i) else find_phase n (i + 1) st l
      end
  end.
Fixpoint shift_phase (junk : nat -> A) (n i result : nat) (st : S) (l : list A) : outcome (S * nat * list A) :=
  match n with
  | O => Ret (st, result, l)
  | Datatypes.S n =>
      match nth_error l i with
      | None => Ub
      | Some x =>
          let (st, keep) := f st x in
          if negb (negb keep) then shift_phase junk n (i + 1) (result + 1) st (set_nth (set_nth l result x) i (junk i))
          else shift_phase junk n (i + 1) result st l
      end
  end.
Definition filter_effects (junk : nat -> A) (st : S) (l : list A) : outcome (S * list A) :=
  let* p := find_phase (length l) 0 st l in
  let (st, i) := p in
  if i =? length l then Ret (st, l)
  else let* q := shift_phase junk (length l - (i + 1)) (i + 1) i st l in
       let '(st, r, l) := q in
       let* l := erase_from l r in Ret (st, l).
End Filter.

(** * map into other destinations, container.hpp 164-190: std::transform into std::inserter(destination, end).
    The source's iterators are positions in the source. *)
Section Map.
Context {A B : Type}.
(** the destination is a std::set or std::map: insert(hint, x) inserts x unless an equivalent element is there.
    The tree is its elements in order; [less] compares the keys. *)
Fixpoint tree_insert (less : B -> B -> bool) (x : B) (s : list B) : list B :=
  match s with
  | [] => [x]
  | y :: s' => if less x y then x :: s else if less y x then y :: tree_insert less x s' else s
  end.
Definition map_into_tree (less : B -> B -> bool) (f : A -> B) (source : list A) (s : list B) : list B :=
  fold_left (fun s x => tree_insert less (f x) s) source s.
(** source and destination are the same std::list: end() stays the end, inserted elements are before it *)
Fixpoint map_list_self (f : A -> A) (fuel i : nat) (l : list A) : outcome (list A) :=
  match fuel with
  | O => OutOfFuel
  | S fuel =>
      if i =? length l then Ret l
      else match nth_error l i with
           | None => Ub
           | Some x => map_list_self f fuel (i + 1) (l ++ [f x])
           end
  end.
(** source and destination are the same std::vector (or std::deque, std::string): insertion at the end invalidates the
    iterator end() that std::transform compares with *)
Definition map_vector_self (f : A -> A) (l : list A) : outcome (list A) :=
  match l with [] => Ret [] | _ => Ub end.
End Map.

(** * round and pow of integers: value.hpp 63-97.
    static_cast<double> of an integer: the nearest multiple of the spacing of the doubles of its size, ties to even
    (IEEE 754 binary64, 53 bits).  std::round of an integer converts its argument likewise and is the identity on
    doubles that are integers.  A double that is an integer is represented by that integer. *)
Local Open Scope Z_scope.
Definition nearest_even (a d : Z) : Z := (* the multiple of [d] *)
  let q := a / d in let r := a mod d in
  d * (if 2 * r <? d then q else if d <? 2 * r then q + 1 else if Z.even q then q else q + 1).
Definition to_double (n : Z) : Z :=
  let a := Z.abs n in
  if a <? 2 ^ 53 then n else Z.sgn n * nearest_even a (2 ^ (Z.log2 a - 52)).
Definition round (n : Z) : Z := to_double n. (* 92-96 *)
(** 84-90; [cpow] is std::pow *)
Definition pow {T : Type} (cpow : Z -> Z -> T) (value power : Z) : T := cpow (to_double value) (to_double power).
