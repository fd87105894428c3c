(** Model of functions of iterator.hpp and container.hpp (/repo/include/pluto) whose callback throws or carries its own state.
    [f st x] is a call of the callback for element [x]: the state afterwards, and the result, or None if the call throws.
    The state is what the callback refers to or, where that makes a difference (filter), what it carries.
    Exceptions thrown by copying, moving or allocating elements are in ElementModel.v.
    Not modelled: sort (std::sort does not say what is left when its predicate throws). *)
From Coq Require Import List Bool Arith.
From Verif Require Import Base SeqModel.
Import ListNotations.
Open Scope outcome_scope.

(** how a call ends *)
Inductive ended (R : Type) := Returned (r : R) | Threw.
Arguments Returned {R} r.
Arguments Threw {R}.

Section Callback.
Context {A B S : Type}.

(** any, container.hpp 228-242 *)
Fixpoint any_c (f : S -> A -> S * option bool) (st : S) (l : list A) : S * ended bool :=
  match l with
  | [] => (st, Returned false)
  | x :: l' =>
      match f st x with
      | (st, None) => (st, Threw)
      | (st, Some b) => if b : bool then (st, Returned true) else any_c f st l'
      end
  end.
(** all, container.hpp 244-258 *)
Fixpoint all_c (f : S -> A -> S * option bool) (st : S) (l : list A) : S * ended bool :=
  match l with
  | [] => (st, Returned true)
  | x :: l' =>
      match f st x with
      | (st, None) => (st, Threw)
      | (st, Some b) => if negb b then (st, Returned false) else all_c f st l'
      end
  end.
(** count_if, container.hpp 277-292 *)
Fixpoint count_if_c (f : S -> A -> S * option bool) (st : S) (l : list A) (result : nat) : S * ended nat :=
  match l with
  | [] => (st, Returned result)
  | x :: l' =>
      match f st x with
      | (st, None) => (st, Threw)
      | (st, Some b) => count_if_c f st l' (if b : bool then result + 1 else result)
      end
  end.
(** find_if, iterator.hpp 141-148 and container.hpp 79-85: std::find_if *)
Fixpoint find_if_c (f : S -> A -> S * option bool) (st : S) (i : nat) (l : list A) : S * ended nat :=
  match l with
  | [] => (st, Returned i)
  | x :: l' =>
      match f st x with
      | (st, None) => (st, Threw)
      | (st, Some b) => if b : bool then (st, Returned i) else find_if_c f st (i + 1) l'
      end
  end.
(** for_each, iterator.hpp 233-240 and container.hpp 155-162: std::for_each.  The function may assign to its element:
    [f st x] is the state afterwards, the element afterwards and whether the call throws. *)
Fixpoint for_each_c (f : S -> A -> S * A * bool) (st : S) (l : list A) : S * list A * ended unit :=
  match l with
  | [] => (st, [], Returned tt)
  | x :: l' =>
      match f st x with
      | (st, y, true) => (st, y :: l', Threw)
      | (st, y, false) => match for_each_c f st l' with (st, r, e) => (st, y :: r, e) end
      end
  end.
(** map into a sequence, iterator.hpp 242-250 and container.hpp 164-172: std::transform with an inserter at the end *)
Fixpoint map_into_c (f : S -> A -> S * option B) (st : S) (source : list A) (destination : list B) : S * list B * ended unit :=
  match source with
  | [] => (st, destination, Returned tt)
  | x :: rest =>
      match f st x with
      | (st, None) => (st, destination, Threw)
      | (st, Some y) => map_into_c f st rest (destination ++ [y])
      end
  end.
(** map that makes the destination, container.hpp 174-190; when the function throws, the local container is destroyed *)
Definition map_new_c (f : S -> A -> S * option B) (st : S) (source : list A) : S * ended (list B) :=
  match map_into_c f st source [] with
  | (st, d, Returned _) => (st, Returned d)
  | (st, _, Threw) => (st, Threw)
  end.
End Callback.

(** filter, iterator.hpp 224-231 and container.hpp 145-153: std::remove_if of libstdc++, which calls std::find_if with a copy
    of the predicate and then the predicate itself for the elements after the first one that is not kept.
    [junk i] is the value left in the moved-from element i (a copy of the element if moving is copying). *)
Section Filter.
Context {A S : Type} (f : S -> A -> S * option bool).
Fixpoint find_c (n i : nat) (st : S) (l : list A) : outcome (S * ended nat) :=
  match n with
  | O => Ret (st, Returned i)
  | Datatypes.S n =>
      match nth_error l i with
      | None => Ub
      | Some x =>
          match f st x with
          | (st, None) => Ret (st, Threw)
          | (st, Some keep) => if negb keep then Ret (st, Returned i) else find_c n (i + 1) st l
          end
      end
  end.
Fixpoint shift_c (junk : nat -> A) (n i result : nat) (st : S) (l : list A) : outcome (S * list A * ended nat) :=
  match n with
  | O => Ret (st, l, Returned result)
  | Datatypes.S n =>
      match nth_error l i with
      | None => Ub
      | Some x =>
          match f st x with
          | (st, None) => Ret (st, l, Threw)
          | (st, Some keep) =>
              if negb (negb keep) then shift_c junk n (i + 1) (result + 1) st (set_nth (set_nth l result x) i (junk i))
              else shift_c junk n (i + 1) result st l
          end
      end
  end.
(** [carried]: the predicate carries its state, so that the copy given to std::find_if changes only its own *)
Definition filter_c (carried : bool) (junk : nat -> A) (st : S) (l : list A) : outcome (S * list A * ended unit) :=
  let* p := find_c (length l) 0 st l in
  match p with
  | (st1, Threw) => Ret (st1, l, Threw)
  | (st1, Returned i) =>
      if i =? length l then Ret (st1, l, Returned tt)
      else
        let* q := shift_c junk (length l - (i + 1)) (i + 1) i (if carried then st else st1) l in
        match q with
        | (st2, l, Threw) => Ret (st2, l, Threw)
        | (st2, l, Returned r) => let* l := erase_from l r in Ret (st2, l, Returned tt)
        end
  end.
End Filter.
