(** Model of iterator.hpp, container.hpp, compare.hpp and the searching functions of string.hpp
    (/repo/include/pluto).

    A range [begin, end) is the list of its elements, an iterator into it is its distance from
    begin, end is the length of the list.  Left and right element types may differ. *)
From Coq Require Import List Bool Arith ZArith.
From Verif Require Import Base.
Import ListNotations.
Open Scope nat_scope.
Open Scope outcome_scope.

(** * The standard algorithms used *)
Section Std.
Context {A B : Type}.

(** std::equal(first1, last1, first2, pred): reading past the end of the second range is undefined *)
Fixpoint std_equal3 (pred : A -> B -> bool) (l : list A) (r : list B) : outcome bool :=
  match l, r with
  | [], _ => Ret true
  | _ :: _, [] => Ub
  | x :: l', y :: r' => if pred x y then std_equal3 pred l' r' else Ret false
  end.

(** std::equal(first1, last1, first2, last2, pred) *)
Fixpoint std_equal4 (pred : A -> B -> bool) (l : list A) (r : list B) : bool :=
  match l, r with
  | [], [] => true
  | x :: l', y :: r' => pred x y && std_equal4 pred l' r'
  | _, _ => false
  end.

(** the needle matches at the front *)
Fixpoint match_front (pred : A -> B -> bool) (l : list A) (r : list B) {struct r} : bool :=
  match r, l with
  | [], _ => true
  | y :: r', x :: l' => pred x y && match_front pred l' r'
  | _ :: _, [] => false
  end.

(** std::search: first match, end if none *)
Fixpoint std_search (pred : A -> B -> bool) (l : list A) (r : list B) : nat :=
  if match_front pred l r then 0
  else match l with [] => 0 | _ :: l' => S (std_search pred l' r) end.

(** std::find_end: last match, end if none or if the needle is empty *)
Fixpoint find_end_loop (pred : A -> B -> bool) (l : list A) (r : list B) (i : nat) (best : nat) : nat :=
  let best := if match_front pred l r then i else best in
  match l with [] => best | _ :: l' => find_end_loop pred l' r (S i) best end.
Definition std_find_end (pred : A -> B -> bool) (l : list A) (r : list B) : nat :=
  match r with [] => length l | _ => find_end_loop pred l r 0 (length l) end.

(** std::find_if (std::find is find_if with [*it == elem]) *)
Fixpoint std_find_if (pred : A -> bool) (l : list A) : nat :=
  match l with [] => 0 | x :: l' => if pred x then 0 else S (std_find_if pred l') end.
End Std.

(** * iterator.hpp *)
Section Iterator.
Context {A B : Type}.

(** equals_same_size 18-26, equals 28-37 *)
Definition equals_same_size (pred : A -> B -> bool) (l : list A) (r : list B) := std_equal3 pred l r.
Definition equals (pred : A -> B -> bool) (l : list A) (r : list B) := std_equal4 pred l r.

(** starts_with 39-64, generic path 54-63: the loop over itR with itL beside it *)
Fixpoint starts_with_loop (pred : A -> B -> bool) (l : list A) (r : list B) {struct r} : bool :=
  match r with
  | [] => true
  | y :: r' => match l with [] => false | x :: l' => if negb (pred x y) then false else starts_with_loop pred l' r' end
  end.
Definition starts_with_generic := starts_with_loop.

(** ends_with 66-92, generic path 82-91: both iterators walk back from the end; the lists are
    reversed, so the element before an iterator is the head *)
Fixpoint ends_with_loop (pred : A -> B -> bool) (backL : list A) (backR : list B) {struct backR} : bool :=
  match backR with
  | [] => true
  | y :: r' => match backL with [] => false | x :: l' => if negb (pred x y) then false else ends_with_loop pred l' r' end
  end.
Definition ends_with_generic (pred : A -> B -> bool) (l : list A) (r : list B) : bool :=
  ends_with_loop pred (rev l) (rev r).

(** C++20 random access path of starts_with, 47-52, and of ends_with, 74-80: equals_same_size gets
    the right range first, so the predicate is called with (right element, left element) *)
Definition starts_with_cxx20 (pred : B -> A -> bool) (l : list A) (r : list B) : outcome bool :=
  if length r <=? length l then std_equal3 pred r l else Ret false.
Definition ends_with_cxx20 (pred : B -> A -> bool) (l : list A) (r : list B) : outcome bool :=
  let sizeR := length r in
  if sizeR <=? length l then std_equal3 pred r (skipn (length l - sizeR) l) else Ret false.

(** find(element) 94-101, find(sequence) 103-112 *)
Definition find_elem (eqb : A -> B -> bool) (l : list A) (e : B) : nat :=
  std_find_if (fun x => eqb x e) l.
Definition find_sequence (pred : A -> B -> bool) (l : list A) (r : list B) : nat := std_search pred l r.

(** rfind_if 150-162 (and rfind(element) 114-126, rfind_if_not 173-185): find through reverse
    iterators; reverse iterator j has base() = end - j, and --base is the element's iterator *)
Definition rfind_if (pred : A -> bool) (l : list A) : nat :=
  let rit := std_find_if pred (rev l) in
  if rit =? length l then length l else length l - rit - 1.
Definition rfind_elem (eqb : A -> B -> bool) (l : list A) (e : B) : nat := rfind_if (fun x => eqb x e) l.

(** rfind(sequence) 128-139 *)
Definition rfind_sequence (pred : A -> B -> bool) (l : list A) (r : list B) : nat := std_find_end pred l r.

(** find_if 141-148, find_if_not 164-171, rfind_if_not 173-185 *)
Definition find_if (pred : A -> bool) (l : list A) : nat := std_find_if pred l.
Definition find_if_not (pred : A -> bool) (l : list A) : nat := std_find_if (fun x => negb (pred x)) l.
Definition rfind_if_not (pred : A -> bool) (l : list A) : nat := rfind_if (fun x => negb (pred x)) l.

(** contains(element) 187-194, contains(sequence) 196-205 *)
Definition contains_elem (eqb : A -> B -> bool) (l : list A) (e : B) : bool :=
  negb (find_elem eqb l e =? length l).
Definition contains_sequence (pred : A -> B -> bool) (l : list A) (r : list B) : bool :=
  match r with [] => true | _ => negb (find_sequence pred l r =? length l) end.
End Iterator.

(** * filter: iterator.hpp 224-231 (std::remove_if with the negated predicate) and container.hpp
    145-153 (erase from the returned iterator to end).

    std::remove_if moves each kept element down to the result position; the values left in
    moved-from positions are unspecified: [junk i] for the value left at position i. *)
Section Filter.
Context {A : Type}.

Fixpoint set_nth (l : list A) (i : nat) (x : A) : list A :=
  match l, i with
  | [], _ => []
  | _ :: l', O => x :: l'
  | y :: l', S i' => y :: set_nth l' i' x
  end.

(** [i] runs over the positions, [result] is where the next kept element goes *)
Fixpoint remove_if_loop (junk : nat -> A) (pred : A -> bool) (n : nat) (i result : nat) (l : list A)
  : outcome (list A * nat) :=
  match n with
  | O => Ret (l, result)
  | S n =>
      match nth_error l i with
      | None => Ub
      | Some x =>
          if pred x then remove_if_loop junk pred n (S i) result l
          else remove_if_loop junk pred n (S i) (S result)
                 (if result =? i then l else set_nth (set_nth l result x) i (junk i))
      end
  end.
Definition std_remove_if (junk : nat -> A) (pred : A -> bool) (l : list A) : outcome (list A * nat) :=
  remove_if_loop junk pred (length l) 0 0 l.

(** container.erase(first, end) *)
Definition erase_from (l : list A) (i : nat) : outcome (list A) :=
  if i <=? length l then Ret (firstn i l) else Ub.

Definition filter_container (junk : nat -> A) (pred : A -> bool) (l : list A) : outcome (list A) :=
  let* r := std_remove_if junk (fun x => negb (pred x)) l in
  erase_from (fst r) (snd r).
End Filter.

(** * container.hpp *)
Section Container.
Context {A B S : Type}.

(** for_each 155-162 with a function that has side effects *)
Fixpoint for_each (f : S -> A -> S) (st : S) (l : list A) : S :=
  match l with [] => st | x :: l' => for_each f (f st x) l' end.

(** map 164-190: std::transform into an inserter at the end of the destination (a sequence) *)
Fixpoint map_into (f : S -> A -> S * B) (st : S) (source : list A) (destination : list B)
  : S * list B :=
  match source with
  | [] => (st, destination)
  | x :: rest => let (st, y) := f st x in map_into f st rest (destination ++ [y])
  end.

(** any 228-242, all 244-258, count 260-275, count_if 277-292; std::size_t cannot overflow as the
    count is at most the size *)
Fixpoint any (pred : A -> bool) (l : list A) : bool :=
  match l with [] => false | x :: l' => if pred x then true else any pred l' end.
Fixpoint all (pred : A -> bool) (l : list A) : bool :=
  match l with [] => true | x :: l' => if negb (pred x) then false else all pred l' end.
Fixpoint count_if_loop (pred : A -> bool) (l : list A) (result : nat) : nat :=
  match l with
  | [] => result
  | x :: l' => count_if_loop pred l' (if pred x then result + 1 else result)
  end.
Definition count_if (pred : A -> bool) (l : list A) : nat := count_if_loop pred l 0.
Definition count (eqb : A -> B -> bool) (l : list A) (v : B) : nat := count_if_loop (fun x => eqb x v) l 0.

(** min 307-339, max 341-373: a pointer to an element, null at first.  [best] is the position
    pointed to with its value; on an empty container the null pointer is dereferenced (with
    assertions enabled the program aborts first) *)
Fixpoint min_loop (less : A -> A -> bool) (i : nat) (l : list A) (best : option (nat * A))
  : option (nat * A) :=
  match l with
  | [] => best
  | x :: l' =>
      min_loop less (i + 1) l'
        (match best with
         | None => Some (i, x)
         | Some (_, b) => if less x b then Some (i, x) else best
         end)
  end.
Definition min_of (less : A -> A -> bool) (l : list A) : outcome (nat * A) :=
  match min_loop less 0 l None with Some r => Ret r | None => Ub end.
Fixpoint max_loop (less : A -> A -> bool) (i : nat) (l : list A) (best : option (nat * A))
  : option (nat * A) :=
  match l with
  | [] => best
  | x :: l' =>
      max_loop less (i + 1) l'
        (match best with
         | None => Some (i, x)
         | Some (_, b) => if less b x then Some (i, x) else best
         end)
  end.
Definition max_of (less : A -> A -> bool) (l : list A) : outcome (nat * A) :=
  match max_loop less 0 l None with Some r => Ret r | None => Ub end.
End Container.

(** two-value min, max: value.hpp 29-61.  The result is a reference: [false] for the left argument,
    [true] for the right one *)
Definition min2 {A : Type} (less : A -> A -> bool) (left right : A) : bool := less right left.
Definition max2 {A : Type} (less : A -> A -> bool) (left right : A) : bool := less left right.

(** * slice, container.hpp 192-220 *)
Section Slice.
Open Scope Z_scope.
Context {A : Type}.

Definition llong_ok (z : Z) : bool := (- 2 ^ 63 <=? z) && (z <? 2 ^ 63).
Definition llong (z : Z) : outcome Z := if llong_ok z then Ret z else Ub.

(** std::advance to a position: outside [0, size] is undefined *)
Definition advance (size it n : Z) : outcome Z :=
  let p := it + n in if (0 <=? p) && (p <=? size) then Ret p else Ub.

(** [return { startIt, stopIt };] is list-initialisation of the container: when the element type
    can be made from an iterator ([conv], e.g. std::any) the initializer_list constructor is chosen
    and the result has the two iterators as elements; otherwise it is the range constructor *)
Definition braces (conv : option (Z -> A)) (c : list A) (start stop : Z) : list A :=
  match conv with
  | Some f => [f start; f stop]
  | None => firstn (Z.to_nat (stop - start)) (skipn (Z.to_nat start) c)
  end.

Definition slice (conv : option (Z -> A)) (c : list A) (start stop : Z) : outcome (list A) :=
  let size := Z.of_nat (length c) in
  let* start := (if start <? 0 then let* s := llong (start + size) in Ret (if s <? 0 then 0 else s)
                 else Ret start) in
  let* stop := (if stop <? 0 then llong (stop + size)
                else Ret (if size <? stop then size else stop)) in
  if stop <=? start then Ret []
  else
    let* startIt := advance size 0 start in
    let* d := llong (stop - start) in
    let* stopIt := advance size startIt d in
    Ret (braces conv c startIt stopIt).

(** the one-bound form, 214-220 *)
Definition slice_to (conv : option (Z -> A)) (c : list A) (stop : Z) : outcome (list A) :=
  slice conv c 0 stop.
End Slice.

(** * sum, container.hpp 294-305; [value += elem] for an integer type of [bits] bits: computed in
    int (32 bits, the usual size) or the type itself if wider; overflow of a signed computation is
    undefined, conversion back to a narrower type is modular (implementation-defined before C++20) *)
Section Sum.
Open Scope Z_scope.

Definition wrap_to (bits : Z) (sgn : bool) (z : Z) : Z :=
  let m := z mod 2 ^ bits in if sgn && (2 ^ (bits - 1) <=? m) then m - 2 ^ bits else m.
Definition fits (bits : Z) (sgn : bool) (z : Z) : bool :=
  if sgn then (- 2 ^ (bits - 1) <=? z) && (z <? 2 ^ (bits - 1)) else (0 <=? z) && (z <? 2 ^ bits).

Definition add_assign (bits : Z) (sgn : bool) (a b : Z) : outcome Z :=
  if bits <? 32 then Ret (wrap_to bits sgn (a + b))
  else if sgn then if fits bits true (a + b) then Ret (a + b) else Ub
  else Ret (wrap_to bits false (a + b)).

Fixpoint sum (bits : Z) (sgn : bool) (c : list Z) (value : Z) : outcome Z :=
  match c with
  | [] => Ret value
  | x :: c' => let* value := add_assign bits sgn value x in sum bits sgn c' value
  end.
End Sum.

(** * compare.hpp 47-129.  Elements are integers (character codes); toupper is the locale's. *)
Section Compare.
Open Scope Z_scope.
Context (toupper : Z -> Z).
Definition is_iequal (l r : Z) : bool := (l =? r) || (toupper l =? toupper r).
Definition is_not_iequal (l r : Z) : bool := negb (l =? r) && negb (toupper l =? toupper r).
Definition is_iless (l r : Z) : bool := toupper l <? toupper r.
Definition is_igreater (l r : Z) : bool := toupper l >? toupper r.
Definition is_iless_equal (l r : Z) : bool := (l =? r) || (toupper l <=? toupper r).
Definition is_igreater_equal (l r : Z) : bool := (l =? r) || (toupper l >=? toupper r).

(** the i-functions of string.hpp: iequals 383-445, istarts_with 507-574, iends_with 636-703,
    ifind 845-907, irfind 909-973, icontains 1044-1106 *)
Definition iequals (l r : list Z) := equals is_iequal l r.
Definition istarts_with (cxx20 : bool) (l r : list Z) : outcome bool :=
  if cxx20 then starts_with_cxx20 is_iequal l r else Ret (starts_with_generic is_iequal l r).
Definition iends_with (cxx20 : bool) (l r : list Z) : outcome bool :=
  if cxx20 then ends_with_cxx20 is_iequal l r else Ret (ends_with_generic is_iequal l r).
Definition ifind (l r : list Z) := find_sequence is_iequal l r.
Definition irfind (l r : list Z) := rfind_sequence is_iequal l r.
Definition icontains (l r : list Z) := contains_sequence is_iequal l r.
End Compare.
