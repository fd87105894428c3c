(** Model of the string functions of /repo/include/pluto/string.hpp that work on positions:
    split, split_any_of, join, map_join, replace, replace_any_of, strip, is_lower, is_upper,
    lower, upper.

    A std::basic_string is a list of elements; Traits::eq is a boolean function [eqb].  Positions
    are natural numbers; [npos] is [None] (size() < npos always holds).  Allocation failure is not
    modelled. *)
From Coq Require Import List Bool Arith.
From Verif Require Import Base.
Import ListNotations.
Open Scope outcome_scope.

(** * The std::basic_string members used (C++ standard [string.ops], [string.capacity]) *)

Section Std.
Context {A : Type} (eqb : A -> A -> bool).

Fixpoint prefixb (p s : list A) : bool :=
  match p, s with
  | [], _ => true
  | x :: p', y :: s' => eqb x y && prefixb p' s'
  | _ :: _, [] => false
  end.

Fixpoint search (p s : list A) : option nat :=
  if prefixb p s then Some 0
  else match s with [] => None | _ :: s' => option_map S (search p s') end.

(** find(str, pos): the lowest position >= pos with pos + str.size() <= size() at which str occurs *)
Definition str_find (s p : list A) (pos : nat) : option nat :=
  if pos <=? length s then option_map (fun i => pos + i) (search p (skipn pos s)) else None.

Fixpoint index_if (P : A -> bool) (s : list A) : option nat :=
  match s with
  | [] => None
  | x :: s' => if P x then Some 0 else option_map S (index_if P s')
  end.

Definition mem (set : list A) (x : A) : bool := existsb (eqb x) set.

(** find_first_of(str, pos), find_first_not_of(str, pos); [None] for pos is npos *)
Definition str_find_if (P : A -> bool) (s : list A) (pos : option nat) : option nat :=
  match pos with
  | None => None
  | Some pos => option_map (fun i => pos + i) (index_if P (skipn pos s))
  end.
Definition find_first_of (s set : list A) := str_find_if (mem set) s.
Definition find_first_not_of (s set : list A) := str_find_if (fun x => negb (mem set x)) s.

(** basic_string(str, pos, n): throws out_of_range when pos > size(); n is cut to what is left.
    [None] for n stands for any count >= size() - pos (npos or npos - start). *)
Definition substr (s : list A) (pos : nat) (n : option nat) : outcome (list A) :=
  if pos <=? length s
  then Ret (match n with None => skipn pos s | Some n => firstn n (skipn pos s) end)
  else Throw.

(** replace(pos, n, str): throws out_of_range when pos > size() *)
Definition str_replace (s : list A) (pos n : nat) (r : list A) : outcome (list A) :=
  if pos <=? length s
  then Ret (firstn pos s ++ r ++ skipn (pos + n) s)
  else Throw.

(** erase(pos, n); [None] is npos *)
Definition str_erase (s : list A) (pos : nat) (n : option nat) : outcome (list A) :=
  if pos <=? length s
  then Ret (firstn pos s ++ match n with None => [] | Some n => skipn (pos + n) s end)
  else Throw.

(** operator[] (const): the terminator at size() may be read, beyond it is undefined; the code
    never uses the terminator, so position size() is treated as undefined as well *)
Definition at_ (s : list A) (i : nat) : outcome A :=
  match nth_error s i with Some x => Ret x | None => Ub end.
End Std.

(** * split by space, string.hpp 1108-1137 *)
Section Split.
Context {A : Type}.

(** the inner loop, 1126-1129: [while (stop < size && !is(space, string[stop])) ++stop] *)
Fixpoint word_end (space : A -> bool) (s : list A) (fuel stop : nat) : outcome nat :=
  match fuel with
  | O => OutOfFuel
  | S fuel =>
      if stop <? length s then
        let* c := at_ s stop in
        if negb (space c) then word_end space s fuel (S stop) else Ret stop
      else Ret stop
  end.

(** the outer loop, 1117-1133 *)
Fixpoint split_space_loop (space : A -> bool) (s : list A) (fuel start : nat)
    (splits : list (list A)) : outcome (list (list A)) :=
  match fuel with
  | O => OutOfFuel
  | S fuel =>
      if start <? length s then
        let* c := at_ s start in
        if space c then split_space_loop space s fuel (S start) splits
        else
          let* stop := word_end space s (S (length s)) (start + 1) in
          let* w := substr s start (Some (stop - start)) in
          split_space_loop space s fuel (stop + 1) (splits ++ [w])
      else Ret splits
  end.

Definition split_space (space : A -> bool) (s : list A) : outcome (list (list A)) :=
  split_space_loop space s (S (length s)) 0 [].

(** * split by separator, string.hpp 1178-1206 *)

Context (eqb : A -> A -> bool).

(** the loop for the empty separator, 1186-1191 *)
Fixpoint split_chars_loop (s : list A) (fuel i : nat) (splits : list (list A))
  : outcome (list (list A)) :=
  match fuel with
  | O => OutOfFuel
  | S fuel =>
      if i <? length s then
        let* w := substr s i (Some 1) in split_chars_loop s fuel (S i) (splits ++ [w])
      else Ret splits
  end.

(** 1195-1202 *)
Fixpoint split_sep_loop (s sep : list A) (fuel start : nat) (splits : list (list A))
  : outcome (list (list A)) :=
  match fuel with
  | O => OutOfFuel
  | S fuel =>
      match str_find eqb s sep start with
      | Some stop =>
          let* w := substr s start (Some (stop - start)) in
          split_sep_loop s sep fuel (stop + length sep) (splits ++ [w])
      | None => let* w := substr s start None in Ret (splits ++ [w])
      end
  end.

Definition split (s sep : list A) : outcome (list (list A)) :=
  match sep with
  | [] => split_chars_loop s (S (length s)) 0 []
  | _ => split_sep_loop s sep (S (length s)) 0 []
  end.

(** * split_any_of, string.hpp 1247-1261.  [stop - start] with stop == npos is a count of at least
    size() - start. *)
Fixpoint split_any_of_loop (s sep : list A) (fuel : nat) (stop : option nat)
    (splits : list (list A)) : outcome (list (list A)) :=
  match fuel with
  | O => OutOfFuel
  | S fuel =>
      match find_first_not_of eqb s sep stop with
      | None => Ret splits
      | Some start =>
          let stop := find_first_of eqb s sep (Some start) in
          let* w := substr s start (option_map (fun p => p - start) stop) in
          split_any_of_loop s sep fuel stop (splits ++ [w])
      end
  end.

Definition split_any_of (s sep : list A) : outcome (list (list A)) :=
  split_any_of_loop s sep (S (length s)) (Some 0) [].

(** * replace, string.hpp 1556-1573 *)
Fixpoint replace_loop (find rep : list A) (fuel : nat) (s : list A) (start : nat)
  : outcome (list A) :=
  match fuel with
  | O => OutOfFuel
  | S fuel =>
      match str_find eqb s find start with
      | None => Ret s
      | Some start =>
          let* s := str_replace s start (length find) rep in
          let start := start + length rep in
          let start := match find with [] => S start | _ => start end in
          replace_loop find rep fuel s start
      end
  end.

Definition replace (s find rep : list A) : outcome (list A) :=
  replace_loop find rep (length s + 2) s 0.

(** the same function called with [replace] being the same object as [string]
    ([pluto::replace(s, f, s)]): the replacement is always the current value of the string *)
Fixpoint replace_self_loop (find : list A) (fuel : nat) (s : list A) (start : nat)
  : outcome (list A) :=
  match fuel with
  | O => OutOfFuel
  | S fuel =>
      match str_find eqb s find start with
      | None => Ret s
      | Some start =>
          let* s := str_replace s start (length find) s in
          let start := start + length s in
          let start := match find with [] => S start | _ => start end in
          replace_self_loop find fuel s start
      end
  end.

Definition replace_self (s find : list A) : outcome (list A) :=
  replace_self_loop find (length s + 2) s 0.

(** * replace_any_of, string.hpp 1619-1631 *)
Fixpoint replace_any_of_loop (find rep : list A) (fuel : nat) (s : list A) (start : nat)
  : outcome (list A) :=
  match fuel with
  | O => OutOfFuel
  | S fuel =>
      match find_first_of eqb s find (Some start) with
      | None => Ret s
      | Some start =>
          let* s := str_replace s start 1 rep in
          replace_any_of_loop find rep fuel s (start + length rep)
      end
  end.

Definition replace_any_of (s find rep : list A) : outcome (list A) :=
  replace_any_of_loop find rep (S (length s)) s 0.
End Split.

(** * join, string.hpp 1302-1320: a loop over iterators; [first] is [it == begin] *)
Section Join.
Context {A B S : Type}.

Fixpoint join_loop (sep : list A) (first : bool) (parts : list (list A)) (joined : list A)
  : list A :=
  match parts with
  | [] => joined
  | x :: rest =>
      let joined := if first then joined else joined ++ sep in
      join_loop sep false rest (joined ++ x)
  end.
Definition join (parts : list (list A)) (sep : list A) : list A := join_loop sep true parts [].

(** map_join, string.hpp 1423-1442; the function may have side effects, modelled by a state *)
Fixpoint map_join_loop (sep : list A) (f : S -> B -> S * list A) (st : S) (first : bool)
    (parts : list B) (joined : list A) : S * list A :=
  match parts with
  | [] => (st, joined)
  | x :: rest =>
      let joined := if first then joined else joined ++ sep in
      let (st, y) := f st x in
      map_join_loop sep f st false rest (joined ++ y)
  end.
Definition map_join (parts : list B) (sep : list A) (f : S -> B -> S * list A) (st : S)
  : S * list A := map_join_loop sep f st true parts [].
End Join.

(** * lstrip 1677-1691, rstrip 1693-1711, strip 1713-1720 *)
Section Strip.
Context {A : Type} (space : A -> bool).

Fixpoint lstrip_loop (s : list A) (fuel start : nat) : outcome nat :=
  match fuel with
  | O => OutOfFuel
  | S fuel =>
      if start <? length s then
        let* c := at_ s start in
        if space c then lstrip_loop s fuel (S start) else Ret start
      else Ret start
  end.
Definition lstrip (s : list A) : outcome (list A) :=
  let* start := lstrip_loop s (S (length s)) 0 in
  str_erase s 0 (Some start).

(** [while (0 < stop) if (!is(space, string[--stop])) { ++stop; break; }] *)
Fixpoint rstrip_loop (s : list A) (stop : nat) : outcome nat :=
  match stop with
  | O => Ret 0
  | S stop' =>
      let* c := at_ s stop' in
      if negb (space c) then Ret (S stop') else rstrip_loop s stop'
  end.
Definition rstrip (s : list A) : outcome (list A) :=
  let* stop := rstrip_loop s (length s) in
  str_erase s stop None.

Definition strip (s : list A) : outcome (list A) :=
  let* s := rstrip s in lstrip s.
End Strip.

(** * lower / upper (string.hpp 27-75): ctype::tolower/toupper on a range is the function applied
    to every character *)
Definition upper {A : Type} (toupper : A -> A) (s : list A) : list A := map toupper s.
Definition lower {A : Type} (tolower : A -> A) (s : list A) : list A := map tolower s.

(** * is_lower (string.hpp 77-111; the loop 93-101) and is_upper (152-186): [bad] is
    facet.is(upper, _) resp. facet.is(lower, _) *)
Fixpoint none_of_loop {A : Type} (bad : A -> bool) (s : list A) (fuel i : nat) : outcome bool :=
  match fuel with
  | O => OutOfFuel
  | S fuel =>
      if i <? length s then
        let* c := at_ s i in if bad c then Ret false else none_of_loop bad s fuel (S i)
      else Ret true
  end.
Definition is_lower {A : Type} (is_upper_char : A -> bool) (s : list A) : outcome bool :=
  none_of_loop is_upper_char s (S (length s)) 0.
Definition is_upper {A : Type} (is_lower_char : A -> bool) (s : list A) : outcome bool :=
  none_of_loop is_lower_char s (S (length s)) 0.
