(** Model of the functions of iterator.hpp, container.hpp and string.hpp (/repo/include/pluto) that change their argument
    in place, when constructing or assigning elements, or allocating memory, throws.
    Exceptions of callbacks are in CallbackModel.v.  The functions that only return a new value (slice, map that makes the
    destination, join, split, ...) destroy the unfinished value when something throws and have no other effect. *)
From Coq Require Import List Bool Arith.
From Verif Require Import Base SeqModel StringModel CallbackModel.
Import ListNotations.
Open Scope outcome_scope.

(** What the element type does.  [W] is whatever the operations depend on.
    [construct w x]: T t(std::move(x)): the value left in x, and the new object or None if the constructor throws.
    [assign w x y]: x = std::move(y): the values of x and y afterwards, and whether the assignment throws. *)
Record elements (W A : Type) := {
  construct : W -> A -> W * A * option A;
  assign : W -> A -> A -> W * A * A * bool }.
Arguments construct {W A} e.
Arguments assign {W A} e.

Section Elements.
Context {W A : Type} (E : elements W A).

(** std::iter_swap of positions [i] and [j]: std::swap, T t(move(a)); a = move(b); b = move(t); *)
Definition iter_swap_e (w : W) (l : list A) (i j : nat) : outcome (W * list A * ended unit) :=
  match nth_error l i, nth_error l j with
  | Some x, Some y =>
      match construct E w x with
      | (w, x, None) => Ret (w, set_nth l i x, Threw)
      | (w, x, Some t) =>
          match assign E w x y with
          | (w, x, y, true) => Ret (w, set_nth (set_nth l i x) j y, Threw)
          | (w, x, y, false) =>
              match assign E w y t with
              | (w, y, _, threw) =>
                  Ret (w, set_nth (set_nth l i x) j y, if threw : bool then Threw else Returned tt)
              end
          end
      end
  | _, _ => Ub
  end.
(** reverse, iterator.hpp 216-222 and container.hpp 138-143: std::reverse for bidirectional iterators,
    while (first != last && first != --last) std::iter_swap(first++, last); *)
Fixpoint reverse_loop_e (fuel first last : nat) (w : W) (l : list A) : outcome (W * list A * ended unit) :=
  match fuel with
  | O => OutOfFuel
  | S fuel =>
      if first =? last then Ret (w, l, Returned tt)
      else match last with
           | O => Ub
           | S last =>
               if first =? last then Ret (w, l, Returned tt)
               else let* (w, l, r) := iter_swap_e w l first last in
                    match r with
                    | Threw => Ret (w, l, Threw)
                    | Returned _ => reverse_loop_e fuel (first + 1) last w l
                    end
           end
  end.
Definition reverse_e (w : W) (l : list A) : outcome (W * list A * ended unit) :=
  reverse_loop_e (S (length l)) 0 (length l) w l.
(** the same for random access iterators in libstdc++:
    if (first == last) return; --last; while (first < last) { iter_swap(first, last); ++first; --last; } *)
Fixpoint reverse_ra_loop_e (fuel first last : nat) (w : W) (l : list A) : outcome (W * list A * ended unit) :=
  match fuel with
  | O => OutOfFuel
  | S fuel =>
      if first <? last
      then let* (w, l, r) := iter_swap_e w l first last in
           match r with
           | Threw => Ret (w, l, Threw)
           | Returned _ => reverse_ra_loop_e fuel (first + 1) (last - 1) w l
           end
      else Ret (w, l, Returned tt)
  end.
Definition reverse_ra_e (w : W) (l : list A) : outcome (W * list A * ended unit) :=
  match l with [] => Ret (w, [], Returned tt) | _ => reverse_ra_loop_e (length l) 0 (length l - 1) w l end.

(** filter, iterator.hpp 224-231 and container.hpp 145-153: std::remove_if of libstdc++ finds the first element that is not
    kept, and then moves each kept element to the position [result]; erasing the last elements throws nothing. *)
Fixpoint first_dropped (pred : A -> bool) (l : list A) : nat :=
  match l with [] => 0 | x :: l => if negb (pred x) then 0 else S (first_dropped pred l) end.
Fixpoint shift_e (pred : A -> bool) (n i result : nat) (w : W) (l : list A) : outcome (W * list A * ended nat) :=
  match n with
  | O => Ret (w, l, Returned result)
  | S n =>
      match nth_error l i, nth_error l result with
      | Some x, Some target =>
          if negb (negb (pred x))
          then match assign E w target x with
               | (w, target, x, threw) =>
                   let l := set_nth (set_nth l result target) i x in
                   if threw : bool then Ret (w, l, Threw) else shift_e pred n (i + 1) (result + 1) w l
               end
          else shift_e pred n (i + 1) result w l
      | _, _ => Ub
      end
  end.
Definition filter_e (pred : A -> bool) (w : W) (l : list A) : outcome (W * list A * ended unit) :=
  let first := first_dropped pred l in
  if first =? length l then Ret (w, l, Returned tt)
  else let* (w, l, r) := shift_e pred (length l - first - 1) (first + 1) first w l in
       match r with
       | Threw => Ret (w, l, Threw)
       | Returned result => Ret (w, firstn result l, Returned tt)
       end.
End Elements.

(** Strings.  [fails w n]: whether basic_string::replace throws (std::bad_alloc or std::length_error) when the new size is
    [n]; a call that throws leaves the string as it was. *)
Section Strings.
Context {W A : Type} (eqb : A -> A -> bool) (fails : W -> nat -> W * bool).
Definition str_replace_f (w : W) (s : list A) (pos n : nat) (r : list A) : outcome (W * list A * bool) :=
  let* s' := str_replace s pos n r in
  match fails w (length s') with
  | (w, true) => Ret (w, s, true)
  | (w, false) => Ret (w, s', false)
  end.
(** replace, string.hpp 1556-1573 *)
Fixpoint replace_loop_f (find rep : list A) (fuel : nat) (w : W) (s : list A) (start : nat)
  : outcome (W * list A * ended unit) :=
  match fuel with
  | O => OutOfFuel
  | S fuel =>
      match str_find eqb s find start with
      | None => Ret (w, s, Returned tt)
      | Some start =>
          let* (w, s, threw) := str_replace_f w s start (length find) rep in
          if threw : bool then Ret (w, s, Threw)
          else
            let start := start + length rep in
            let start := match find with [] => S start | _ => start end in
            replace_loop_f find rep fuel w s start
      end
  end.
Definition replace_f (w : W) (s find rep : list A) : outcome (W * list A * ended unit) :=
  replace_loop_f find rep (length s + 2) w s 0.
(** replace_any_of, string.hpp 1619-1631 *)
Fixpoint replace_any_of_loop_f (find rep : list A) (fuel : nat) (w : W) (s : list A) (start : nat)
  : outcome (W * list A * ended unit) :=
  match fuel with
  | O => OutOfFuel
  | S fuel =>
      match find_first_of eqb s find (Some start) with
      | None => Ret (w, s, Returned tt)
      | Some start =>
          let* (w, s, threw) := str_replace_f w s start 1 rep in
          if threw : bool then Ret (w, s, Threw)
          else replace_any_of_loop_f find rep fuel w s (start + length rep)
      end
  end.
Definition replace_any_of_f (w : W) (s find rep : list A) : outcome (W * list A * ended unit) :=
  replace_any_of_loop_f find rep (S (length s)) w s 0.
End Strings.
